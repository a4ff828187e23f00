(** C68: what the node writes to its database and to other nodes is read back. *)
From Coq Require Import ZArith List Lia Bool.
From Verif Require Import Model.Bytes Model.IntCodec Proof.BytesFacts Model.Rlp Spec.RlpSpec
  Proof.RlpFacts Proof.RlpPrefix Proof.RlpTyped Proof.RlpForms.
Import ListNotations.
Open Scope Z_scope.

(** Every value of every type is read back from what is written of it, and what
    follows it is left. *)
Theorem C68_roundtrip : forall t v rest, has t v -> blen (enc t v) < 2 ^ 63 ->
  unmarshal t (enc t v ++ rest) = Some (v, rest).
Proof. exact unmarshal_enc. Qed.
Print Assumptions C68_roundtrip.

(** The same from a stream, if no byte string is longer than 1,000,000. *)
Theorem C68_stream : forall t v rest, has t v -> within 1000000 v -> blen (enc t v) < 2 ^ 63 ->
  unmarshal_stream t (enc t v ++ rest) = Some (v, rest).
Proof. exact stream_enc. Qed.
Print Assumptions C68_stream.

(** Different values are written differently, and none is the beginning of
    another. *)
Theorem C68_injective : forall t v w x y, has t v -> has t w ->
  blen (enc t v) < 2 ^ 63 -> blen (enc t w) < 2 ^ 63 ->
  enc t v ++ x = enc t w ++ y -> v = w /\ x = y.
Proof.
  intros t v w x y Hv Hw Lv Lw E. pose proof (unmarshal_enc t v x Hv Lv) as A.
  rewrite E, (unmarshal_enc t w y Hw Lw) in A. injection A as <- <-. split; reflexivity.
Qed.
Print Assumptions C68_injective.

(** Whatever the bytes are: what is read is the value of the bytes taken away,
    whatever follows them. *)
Theorem C68_self_delimiting : forall t bs v rest, unmarshal t bs = Some (v, rest) ->
  exists p, bs = p ++ rest /\ forall x, unmarshal t (p ++ x) = Some (v, x).
Proof. exact unmarshal_takes. Qed.
Print Assumptions C68_self_delimiting.

(** ... and it is a value of the type, so that it can be written and is then
    read back. *)
Theorem C68_typed : forall t bs v rest, proper t -> wf_bytes bs -> unmarshal t bs = Some (v, rest) -> has t v.
Proof.
  intros t bs v rest Hp W H. unfold unmarshal in H. destruct (dec t (reader_of bs)) as [o r] eqn:E.
  destruct o as [x| | |]; try discriminate H. injection H as <- <-. exact (dec_has t Hp (reader_of bs) _ _ W E).
Qed.
Print Assumptions C68_typed.

Theorem C68_normal : forall t bs v rest, proper t -> wf_bytes bs -> unmarshal t bs = Some (v, rest) ->
  blen (enc t v) < 2 ^ 63 -> unmarshal t (enc t v ++ rest) = Some (v, rest).
Proof. intros t bs v rest Hp W H L. apply unmarshal_enc; [|exact L]. exact (C68_typed t bs v rest Hp W H). Qed.
Print Assumptions C68_normal.

(** Fields added at the end of a struct: what was written before is read with
    zeros in them, and what is written with them is read without them. *)
Theorem C68_older : forall fs more l rest, Forall2 has fs l ->
  blen (enc (TStruct fs) (VList (Some l))) < 2 ^ 63 ->
  unmarshal (TStruct (fs ++ more)) (enc (TStruct fs) (VList (Some l)) ++ rest)
  = Some (VList (Some (l ++ map zero_value more)), rest).
Proof. exact older. Qed.
Print Assumptions C68_older.

Theorem C68_newer : forall fs more l m rest, Forall2 has fs l ->
  blen (enc (TStruct (fs ++ more)) (VList (Some (l ++ m)))) < 2 ^ 63 ->
  unmarshal (TStruct fs) (enc (TStruct (fs ++ more)) (VList (Some (l ++ m))) ++ rest) = Some (VList (Some l), rest).
Proof. exact newer_fields. Qed.
Print Assumptions C68_newer.

(** ** What is not so *)

(** Bytes which nobody writes are read too: one value has many forms. *)
Theorem C68_violated_forms : forall b rest, wf_bytes b -> blen b <= 55 ->
  unmarshal TBytes (184 :: blen b :: b ++ rest) = Some (VBytes (Some b), rest) /\
  184 :: blen b :: b <> enc TBytes (VBytes (Some b)).
Proof.
  intros b rest W H. split; [apply long_form; lia|]. cbn [enc]. unfold write_bytes. cbv zeta.
  pose proof (blen_nonneg b) as H0. destruct (Z.eqb_spec (blen b) 0); [discriminate|].
  destruct ((blen b =? 1) && (hd 0 b <? 128)) eqn:E.
  - apply andb_prop in E. destruct E as [E1 E2]. apply Z.eqb_eq in E1. intros K.
    pose proof (f_equal (@length Z) K) as K2. cbn [length] in K2. lia.
  - destruct (Z.leb_spec (blen b) 55); [|lia]. rewrite Z.mod_small by lia. intros K. assert (K1 : 184 = 128 + blen b) by congruence. lia.
Qed.
Print Assumptions C68_violated_forms.

(** A struct with a null where it has none is no error behind a pointer: it is
    read as nil, and the bytes behind the null, which are in the struct, are
    read as the next elements of the list around it. *)
Theorem C68_violated_inside : forall f fs x l rest, has_nil f = false ->
  let t := TPtr (TStruct (f :: fs)) in
  proper t -> Forall (has t) (x :: l) ->
  let bs := write_list (write_list (write_null ++ enc t x ++ flat_map (enc t) l)) in
  blen bs < 2 ^ 63 ->
  unmarshal (TSlice t) (bs ++ rest) = Some (VList (Some (VPtr None :: x :: l)), rest).
Proof.
  intros f fs x l rest Hf t Hp Hl bs Hb. inversion Hl; subst.
  apply (inside_struct f fs x l Hf); [exact (proj2 Hp)|assumption|assumption|exact Hb].
Qed.
Print Assumptions C68_violated_inside.

(** The body of a block (patch transactions, transactions, votes, digest) with
    a transaction of more than 1,000,000 bytes is written, but no other node
    reads it. *)
Theorem C68_violated_transaction : forall patches txs votes digest rest tx,
  let body := TStruct [TSlice TBytes; TSlice TBytes; TBytes; TBytes] in
  let v := VList (Some [VList (Some patches); VList (Some txs); VBytes votes; VBytes digest]) in
  has body v -> Forall (within 1000000) patches ->
  In (VBytes (Some tx)) txs -> 1000000 < blen tx ->
  blen (enc body v) < 2 ^ 63 ->
  unmarshal_stream body (enc body v ++ rest) = None /\ unmarshal body (enc body v ++ rest) = Some (v, rest).
Proof.
  intros patches txs votes digest rest tx body v Hv Hp Hin Htx Hb. split.
  - apply over_body; try assumption. apply Exists_exists. exists (VBytes (Some tx)). split; [exact Hin|].
    exists tx. split; [reflexivity|exact Htx].
  - now apply unmarshal_enc.
Qed.
Print Assumptions C68_violated_transaction.

(** ** Examples *)

Definition ex_ty : ty := TStruct [TBytes; TInt 64; TUint 16; TBool; TBig; TStr; TFix 3;
  TSlice (TPtr (TStruct [TInt 32; TBytes])); TArr 2 TBytes; TPtr TBig].
Definition ex_val : val := VList (Some [VBytes None; VNum (-200); VNum 65535; VBool true; VNum (2 ^ 100);
  VBytes (Some [104; 105]); VBytes (Some [0; 1; 2]);
  VList (Some [VPtr None; VPtr (Some (VList (Some [VNum 7; VBytes (Some (repeat 9 60))])))]);
  VList (Some [VBytes (Some []); VBytes None]); VPtr (Some (VNum 0))]).

Example ex68_has : has ex_ty ex_val /\ within 1000000 ex_val /\ proper ex_ty.
Proof.
  split; [|vm_compute; intuition congruence].
  unfold ex_ty, ex_val.
  repeat first [ match goal with |- In _ [8; 16; 32; 64] => cbn; tauto end | apply Forall_nil | apply Forall_cons | apply Forall2_nil | apply Forall2_cons | constructor ];
    try (unfold wf_byte; lia); try reflexivity; try (cbn; tauto).
Qed.

Example ex68_run : unmarshal ex_ty (enc ex_ty ex_val ++ [1; 2]) = Some (ex_val, [1; 2]).
Proof. vm_compute. reflexivity. Qed.

Example ex68_inside :
  let t := TPtr (TStruct [TInt 32]) in
  unmarshal (TSlice t) (write_list (write_list (write_null ++ enc t (VPtr (Some (VList (Some [VNum 5])))))))
  = Some (VList (Some [VPtr None; VPtr (Some (VList (Some [VNum 5])))]), []).
Proof. vm_compute. reflexivity. Qed.

Example ex68_older : unmarshal (TStruct [TInt 64; TBytes; TPtr TBig]) (enc (TStruct [TInt 64]) (VList (Some [VNum 5])))
  = Some (VList (Some [VNum 5; VBytes None; VPtr None]), []).
Proof. vm_compute. reflexivity. Qed.
