(** What is written is read back. *)
From Coq Require Import ZArith List Lia Bool.
From Verif Require Import Model.Bytes Model.IntCodec Proof.BytesFacts Proof.IntCodecFacts.
From Verif Require Proof.Int64Facts.
From Verif Require Import Model.Rlp Spec.RlpSpec.
Import ListNotations.
Open Scope Z_scope.

(** ** Sizes and numbers *)

Lemma size_loop_ok f : forall v acc, (1 <= f)%nat -> 0 <= v < 256 ^ Z.of_nat f ->
  exists bs, go_size_loop f v acc = bs ++ acc /\ wf_bytes bs /\ 1 <= blen bs <= Z.of_nat f /\ be_val bs = v.
Proof.
  induction f as [|f IH]; intros v acc Hf Hv; [lia|]. cbn [go_size_loop].
  rewrite Proof.Int64Facts.land255, Z.shiftr_div_pow2 by lia. change (2 ^ 8) with 256.
  destruct (Z.eqb_spec (v / 256) 0) as [E|E].
  - exists [v mod 256]. assert (v < 256) by (apply Z.div_small_iff in E; lia).
    split; [reflexivity|]. split; [constructor; [red; apply Z.mod_pos_bound; lia|constructor]|].
    split; [unfold blen; cbn [length]; lia|]. cbn. rewrite Z.mod_small; lia.
  - rewrite Nat2Z.inj_succ, Z.pow_succ_r in Hv by lia.
    assert (Hq : 0 <= v / 256 < 256 ^ Z.of_nat f).
    { split; [apply Z.div_pos; lia|apply Z.div_lt_upper_bound; lia]. }
    assert (Hf' : (1 <= f)%nat).
    { destruct f; [|lia]. cbn in Hq. lia. }
    destruct (IH (v / 256) (v mod 256 :: acc) Hf' Hq) as (bs & E1 & E2 & E3 & E4).
    exists (bs ++ [v mod 256]). rewrite E1. split; [now rewrite <- app_assoc|].
    split; [apply wf_bytes_app; split; [exact E2|constructor; [red; apply Z.mod_pos_bound; lia|constructor]]|].
    split; [rewrite blen_app; change (blen [v mod 256]) with 1; lia|].
    rewrite be_val_snoc, E4. pose proof (Z.div_mod v 256). lia.
Qed.

Lemma size_ok v : 0 <= v < 2 ^ 64 ->
  wf_bytes (go_SizeToBytes v) /\ 1 <= blen (go_SizeToBytes v) <= 8 /\
  go_SafeBytesToSize64 (go_SizeToBytes v) = Some v.
Proof.
  intros H. unfold go_SizeToBytes. destruct (Z.eqb_spec v 0) as [->|Hn].
  - split; [constructor; [red; lia|constructor]|]. split; [unfold blen; cbn; lia|reflexivity].
  - assert (Hv : 0 <= v < 256 ^ Z.of_nat 8) by (change (256 ^ Z.of_nat 8) with (2 ^ 64); lia).
    destruct (size_loop_ok 8 v [] ltac:(lia) Hv) as (bs & E1 & E2 & E3 & E4).
    rewrite E1, app_nil_r. split; [exact E2|]. split; [lia|].
    unfold go_SafeBytesToSize64. destruct bs as [|b r]; [unfold blen in E3; cbn in E3; lia|].
    destruct (Z.ltb_spec 8 (blen (b :: r))) as [E|E]; [lia|].
    pose proof (Proof.Int64Facts.fold_pos_gen (2 ^ 64) wrapu64 (fun b => b) (b :: r)
                  (fun v => Proof.Int64Facts.wrapu64_id v) E2 0) as F.
    rewrite Proof.Int64Facts.map_id_bytes in F. rewrite F by lia. f_equal. lia.
Qed.

Lemma uint_ok w z : In w [8; 16; 32; 64] -> 0 <= z < 2 ^ w ->
  wf_bytes (go_Uint64ToBytes z) /\ to_uint w (go_Uint64ToBytes z) = Got (VNum z).
Proof.
  intros Hw Hz. assert (H64 : 0 <= z < 2 ^ 64).
  { assert (2 ^ w <= 2 ^ 64) by (apply Z.pow_le_mono_r; cbn in Hw; intuition subst; lia). lia. }
  destruct (int_roundtrip z) as (bs & E & D & B). rewrite Proof.Int64Facts.Uint64ToBytes_ok in E by exact H64.
  apply some_inj in E. rewrite E. apply denotes_iff in D. destruct D as (W & Hne & _).
  split; [exact W|]. unfold to_uint. pose proof (Proof.Int64Facts.SafeBytesToUint64_ok bs W) as K.
  destruct (go_SafeBytesToUint64 bs) as [u|] eqn:Eu.
  - destruct K as [K _]. rewrite B in K. subst u. destruct (Z.ltb_spec z (2 ^ w)); [reflexivity|lia].
  - exfalso.
    assert (Hlen : blen bs <= 9).
    { assert (I9 : int_to_bytes z = Some bs) by (rewrite Proof.Int64Facts.Uint64ToBytes_ok, E by exact H64; reflexivity).
      rewrite int_to_bytes_ok in I9. apply some_inj in I9. rewrite <- I9, blen_be_bytes.
      pose proof (byte_length_spec z) as (K1 & K2 & K3).
      destruct (Z_le_gt_dec (byte_length_of_int z) 9) as [Hl|Hg]; [lia|exfalso].
      assert (2 ^ 64 <= 2 ^ (8 * (byte_length_of_int z - 1) - 1)) by (apply Z.pow_le_mono_r; lia).
      destruct K3; lia. }
    destruct bs as [|b r]; [congruence|]. unfold go_SafeBytesToUint64 in Eu.
    pose proof W as W'. apply wf_bytes_cons in W' as [Hb Hr]. red in Hb.
    rewrite blen_cons in *. destruct (Z.eqb_spec b 0) as [->|Hb0].
    + destruct (Z.ltb_spec 8 (blen r)); [lia|discriminate Eu].
    + rewrite land128 in Eu by exact Hb. unfold bytes_to_int, py_from_bytes_signed in B.
      rewrite (be_val_cons b r) in B. pose proof (be_val_bound _ Hr) as Hv. rewrite blen_cons in B.
      destruct (Z.leb_spec 128 b) as [Hbb|Hbb].
      * rewrite Z.pow_add_r in B by (pose proof (blen_nonneg r); lia). change (256 ^ 1) with 256 in B.
        assert (Hp : 0 < 256 ^ blen r) by (apply pow256_pos, blen_nonneg). nia.
      * destruct (Z.ltb_spec 8 (1 + blen r)) as [H8|H8]; [|discriminate Eu].
        assert (Hp : 2 ^ 64 <= 256 ^ blen r).
        { rewrite pow256_2 by apply blen_nonneg. apply Z.pow_le_mono_r; lia. }
        nia.
Qed.

Lemma int_ok w z : In w [8; 16; 32; 64] -> - 2 ^ (w - 1) <= z < 2 ^ (w - 1) ->
  wf_bytes (go_Int64ToBytes z) /\ to_int w (go_Int64ToBytes z) = Got (VNum z).
Proof.
  intros Hw Hz. assert (H64 : - 2 ^ 63 <= z < 2 ^ 63).
  { assert (2 ^ (w - 1) <= 2 ^ 63) by (apply Z.pow_le_mono_r; cbn in Hw; intuition subst; lia). lia. }
  destruct (int_roundtrip z) as (bs & E & D & B). pose proof E as E0.
  rewrite Proof.Int64Facts.Int64ToBytes_ok in E by exact H64.
  apply some_inj in E. rewrite E. apply denotes_iff in D. destruct D as (W & Hne & _).
  split; [exact W|]. unfold to_int. rewrite Proof.Int64Facts.SafeBytesToInt64_ok; [|exact W|].
  - rewrite B. destruct (Z.leb_spec (- 2 ^ (w - 1)) z); [|lia].
    destruct (Z.ltb_spec z (2 ^ (w - 1))); [reflexivity|lia].
  - rewrite int_to_bytes_ok in E0. apply some_inj in E0. rewrite <- E0, blen_be_bytes.
    pose proof (byte_length_spec z) as (K1 & K2 & K3).
    destruct (Z_le_gt_dec (byte_length_of_int z) 8) as [Hl|Hg]; [lia|exfalso].
    assert (2 ^ 63 <= 2 ^ (8 * (byte_length_of_int z - 1) - 1)) by (apply Z.pow_le_mono_r; lia).
    destruct K3; lia.
Qed.

Lemma big_ok z : wf_bytes (go_BigIntToBytes z) /\ go_BigIntSetBytes (go_BigIntToBytes z) = z.
Proof.
  destruct (int_roundtrip z) as (bs & E & D & B). rewrite go_python_encode in E. apply some_inj in E.
  rewrite E. apply denotes_iff in D. destruct D as (W & _ & _). split; [exact W|].
  rewrite go_python_decode by exact W. exact B.
Qed.

(** ** The frames *)

Lemma read_all_app a rest L C : blen a <= L ->
  read_all (blen a) (mkR (a ++ rest) L C) = (Got a, mkR rest (L - blen a) C).
Proof.
  intros HL. unfold read_all. cbn [src lim cap]. destruct (Z.leb_spec (blen a) 0) as [H0|H0].
  - assert (E : a = []) by (apply blen_0; pose proof (blen_nonneg a); lia). subst a.
    cbn [app]. rewrite blen_nil, Z.sub_0_r. reflexivity.
  - rewrite (proj2 (Z.leb_le _ _) HL).
    rewrite (proj2 (Z.leb_le (blen a) (blen (a ++ rest)))) by (rewrite blen_app; pose proof (blen_nonneg rest); lia).
    cbn [andb]. unfold blen at 1 2. rewrite Nat2Z.id.
    rewrite firstn_app, Nat.sub_diag, firstn_all, firstn_O, app_nil_r.
    rewrite skipn_app, Nat.sub_diag, skipn_all. reflexivity.
Qed.

Lemma read_size_app n rest L C : 0 <= n < 2 ^ 63 -> blen (go_SizeToBytes n) <= L ->
  read_size (blen (go_SizeToBytes n)) (mkR (go_SizeToBytes n ++ rest) L C) =
  (Got n, mkR rest (L - blen (go_SizeToBytes n)) C).
Proof.
  intros Hn HL. destruct (size_ok n) as (_ & _ & E); [lia|].
  unfold read_size. rewrite read_all_app by exact HL. rewrite E.
  destruct (Z.leb_spec n (2 ^ 63 - 1)); [reflexivity|lia].
Qed.

Lemma read_tag_cons b rest L C : 1 <= L ->
  read_tag (mkR (b :: rest) L C) = (Got b, mkR rest (L - 1) C).
Proof.
  intros HL. unfold read_tag. cbn [lim src cap]. destruct (Z.leb_spec L 0); [lia|reflexivity].
Qed.

Lemma read_bytes_ok b rest L C : wf_bytes b -> blen (write_bytes b) <= L -> blen b <= C ->
  blen (write_bytes b) < 2 ^ 63 ->
  read_bytes (mkR (write_bytes b ++ rest) L C) = (Got b, mkR rest (L - blen (write_bytes b)) C).
Proof.
  intros W. unfold write_bytes. cbv zeta. destruct (Z.eqb_spec (blen b) 0) as [E0|E0].
  - apply blen_0 in E0. subst b. change (blen [128]) with 1. intros HL HC _. cbn [app].
    unfold read_bytes. rewrite read_tag_cons by lia. reflexivity.
  - pose proof (blen_nonneg b) as Hb.
    destruct ((blen b =? 1) && (hd 0 b <? 128)) eqn:E1.
    + apply andb_prop in E1. destruct E1 as [E1 E2]. apply Z.eqb_eq in E1. apply Z.ltb_lt in E2.
      intros HL HC _. destruct b as [|x b]; [now rewrite blen_nil in E0|].
      rewrite blen_cons in E1. assert (E3 : b = []) by (apply blen_0; lia). subst b. cbn [hd] in E2.
      cbn [app]. unfold read_bytes. rewrite blen_cons, blen_nil in HL. rewrite read_tag_cons by lia.
      destruct (Z.ltb_spec x 128); [|lia]. reflexivity.
    + destruct (Z.leb_spec (blen b) 55) as [E2|E2].
      * rewrite Z.mod_small by lia. rewrite blen_cons. intros HL HC _. cbn [app].
        unfold read_bytes. rewrite read_tag_cons by lia.
        destruct (Z.ltb_spec (128 + blen b) 128); [lia|].
        destruct (Z.leb_spec (128 + blen b) 183); [|lia].
        replace (128 + blen b - 128) with (blen b) by lia. rewrite read_all_app by lia.
        f_equal. f_equal. lia.
      * rewrite blen_cons, blen_app. intros HL HC H63. set (sz := go_SizeToBytes (blen b)) in *.
        destruct (size_ok (blen b)) as (_ & S1 & S2); [pose proof (blen_nonneg sz); lia|]. fold sz in S1, S2.
        rewrite Z.mod_small by lia. cbn [app]. rewrite <- app_assoc. unfold read_bytes.
        rewrite read_tag_cons by lia.
        destruct (Z.ltb_spec (128 + 55 + blen sz) 128); [lia|].
        destruct (Z.leb_spec (128 + 55 + blen sz) 183); [lia|].
        destruct (Z.ltb_spec (128 + 55 + blen sz) 192); [|lia].
        replace (128 + 55 + blen sz - 183) with (blen sz) by lia. unfold sz at 1 2.
        rewrite read_size_app by (fold sz; lia). fold sz. cbn [cap].
        destruct (Z.ltb_spec C (blen b)); [lia|]. rewrite read_all_app by lia.
        f_equal. f_equal. lia.
Qed.

Lemma read_bytes_null rest L C : 2 <= L ->
  read_bytes (mkR (write_null ++ rest) L C) = (IsNil, mkR rest (L - 2) C).
Proof.
  intros HL. unfold write_null. cbn [app]. unfold read_bytes. rewrite read_tag_cons by lia.
  cbn [Z.ltb Z.leb Z.eqb Z.compare Pos.compare Pos.compare_cont Pos.eqb]. unfold read_size.
  pose proof (read_all_app [0] rest (L - 1) C) as K. change (blen [0]) with 1 in K. cbn [app] in K.
  rewrite K by lia. cbn. f_equal. f_equal. lia.
Qed.

Lemma read_list_null rest L C : 2 <= L ->
  read_list (mkR (write_null ++ rest) L C) = (IsNil, mkR rest (L - 2) C).
Proof.
  intros HL. unfold write_null. cbn [app]. unfold read_list. rewrite read_tag_cons by lia.
  cbn [Z.ltb Z.leb Z.eqb Z.compare Pos.compare Pos.compare_cont Pos.eqb]. unfold read_size.
  change (248 - 247) with 1.
  pose proof (read_all_app [0] rest (L - 1) C) as K. change (blen [0]) with 1 in K. cbn [app] in K.
  rewrite K by lia. cbn. f_equal. f_equal. lia.
Qed.

(** The bytes before what is inside a list. *)
Definition head_len (body : bytes) : Z := blen (write_list body) - blen body.

Lemma head_len_pos body : 1 <= head_len body.
Proof.
  unfold head_len, write_list. cbv zeta. destruct (Z.eqb_spec (blen body) 0) as [E|E].
  - rewrite E. unfold blen. cbn. lia.
  - destruct (Z.leb_spec (blen body) 55).
    + rewrite blen_cons. lia.
    + rewrite blen_cons, blen_app. pose proof (blen_nonneg (go_SizeToBytes (blen body))). lia.
Qed.

Lemma read_list_ok body rest L C : blen (write_list body) <= L -> blen (write_list body) < 2 ^ 63 ->
  let r1 := mkR (body ++ rest) (L - head_len body) C in
  read_list (mkR (write_list body ++ rest) L C) = (Got (child r1 (blen body)), r1).
Proof.
  unfold head_len, write_list. cbv zeta. pose proof (blen_nonneg body) as Hb.
  destruct (Z.eqb_spec (blen body) 0) as [E0|E0].
  - apply blen_0 in E0. subst body. change (blen [192]) with 1. rewrite blen_nil. intros HL _. cbn [app].
    unfold read_list. rewrite read_tag_cons by lia. reflexivity.
  - destruct (Z.leb_spec (blen body) 55) as [E2|E2].
    + rewrite Z.mod_small by lia. rewrite blen_cons. intros HL _. cbn [app].
      unfold read_list. rewrite read_tag_cons by lia.
      destruct (Z.ltb_spec (192 + blen body) 192); [lia|].
      destruct (Z.leb_spec (192 + blen body) 247); [|lia].
      replace (192 + blen body - 192) with (blen body) by lia.
      replace (1 + blen body - blen body) with 1 by lia. reflexivity.
    + rewrite blen_cons, blen_app. intros HL H63. set (sz := go_SizeToBytes (blen body)) in *.
      destruct (size_ok (blen body)) as (_ & S1 & S2); [pose proof (blen_nonneg sz); lia|]. fold sz in S1, S2.
      rewrite Z.mod_small by lia. cbn [app]. rewrite <- app_assoc. unfold read_list.
      rewrite read_tag_cons by lia.
      destruct (Z.ltb_spec (192 + 55 + blen sz) 192); [lia|].
      destruct (Z.leb_spec (192 + 55 + blen sz) 247); [lia|].
      replace (192 + 55 + blen sz - 247) with (blen sz) by lia. unfold sz at 1 2.
      rewrite read_size_app by (fold sz; lia). fold sz.
      destruct (Z.eqb_spec (blen body) 0); [lia|]. rewrite andb_false_r.
      replace (1 + (blen sz + blen body) - blen body) with (1 + blen sz) by lia.
      replace (L - 1 - blen sz) with (L - (1 + blen sz)) by lia. reflexivity.
Qed.

(** A list whose inside is read to its end. *)
Lemma listed_ok inside body l rest L C : blen (write_list body) <= L -> blen (write_list body) < 2 ^ 63 ->
  (forall tail, inside (mkR (body ++ tail) (blen body) (Z.min C (blen body))) =
                (Got l, mkR tail 0 (Z.min C (blen body)))) ->
  listed inside (mkR (write_list body ++ rest) L C) =
  (Got (VList (Some l)), mkR rest (L - blen (write_list body)) C).
Proof.
  intros HL H63 Hin. unfold listed.
  rewrite read_list_ok by assumption. cbv beta iota zeta.
  pose proof (head_len_pos body) as Hh. assert (EB : blen (write_list body) = head_len body + blen body) by (unfold head_len; lia).
  pose proof (blen_nonneg body) as Hb0.
  unfold child. cbn [src lim cap].
  assert (EF : firstn (Z.to_nat (L - head_len body)) (body ++ rest)
               = body ++ firstn (Z.to_nat (L - head_len body) - length body) rest).
  { rewrite firstn_app. f_equal. apply firstn_all2. unfold blen in *. lia. }
  rewrite EF. set (tail := firstn _ rest). rewrite Hin. unfold close. cbn [src lim cap].
  pose proof (blen_nonneg tail). destruct (Z.leb_spec 0 (blen tail)); [|lia].
  cbn [Z.to_nat skipn]. unfold behind. cbn [src lim cap]. rewrite blen_app.
  replace (blen body + blen tail - blen tail) with (blen body) by lia.
  unfold blen at 1. rewrite Nat2Z.id, skipn_app, Nat.sub_diag, skipn_all. cbn [app skipn].
  f_equal. f_equal. lia.
Qed.

(** ** Every value *)

Section ty_ind'.
  Variable P : ty -> Prop.
  Hypothesis HBytes : P TBytes.
  Hypothesis HFix : forall n, P (TFix n).
  Hypothesis HBool : P TBool.
  Hypothesis HUint : forall w, P (TUint w).
  Hypothesis HInt : forall w, P (TInt w).
  Hypothesis HBig : P TBig.
  Hypothesis HStr : P TStr.
  Hypothesis HPtr : forall t, P t -> P (TPtr t).
  Hypothesis HSlice : forall t, P t -> P (TSlice t).
  Hypothesis HArr : forall n t, P t -> P (TArr n t).
  Hypothesis HStruct : forall fs, Forall P fs -> P (TStruct fs).

  Fixpoint ty_ind' (t : ty) : P t :=
    match t with
    | TBytes => HBytes
    | TFix n => HFix n
    | TBool => HBool
    | TUint w => HUint w
    | TInt w => HInt w
    | TBig => HBig
    | TStr => HStr
    | TPtr t => HPtr t (ty_ind' t)
    | TSlice t => HSlice t (ty_ind' t)
    | TArr n t => HArr n t (ty_ind' t)
    | TStruct fs =>
        HStruct fs ((fix go fs : Forall P fs :=
                       match fs with
                       | [] => Forall_nil P
                       | f :: fr => Forall_cons f (ty_ind' f) (go fr)
                       end) fs)
    end.
End ty_ind'.

Fixpoint enc_fields (fs : list ty) (l : list val) {struct fs} : bytes :=
  match fs, l with
  | f :: fr, x :: lr => enc f x ++ enc_fields fr lr
  | _, _ => []
  end.

Lemma enc_struct fs l : enc (TStruct fs) (VList (Some l)) = write_list (enc_fields fs l).
Proof. reflexivity. Qed.

Fixpoint dec_fields (fs : list ty) (c : reader) {struct fs} : outcome (list val) * reader :=
  match fs with
  | [] => (Got [], c)
  | f :: fr =>
      match dec f c with
      | (Got v, c') =>
          match dec_fields fr c' with
          | (Got l, c'') => (Got (v :: l), c'')
          | x => x
          end
      | (AtEnd, c') =>
          match dec_fields fr c' with
          | (Got l, c'') => (Got (zero f :: l), c'')
          | x => x
          end
      | (IsNil, c') => (IsNil, c')
      | (Bad, c') => (Bad, c')
      end
  end.

Lemma dec_struct fs r : dec (TStruct fs) r = listed (dec_fields fs) r.
Proof. reflexivity. Qed.

Lemma write_bytes_len b : 1 <= blen (write_bytes b).
Proof.
  unfold write_bytes. cbv zeta. destruct (Z.eqb_spec (blen b) 0) as [E|E]; [unfold blen; cbn; lia|].
  pose proof (blen_nonneg b).
  destruct ((blen b =? 1) && _); [lia|]. destruct (blen b <=? 55); rewrite blen_cons.
  - lia.
  - pose proof (blen_nonneg (go_SizeToBytes (blen b) ++ b)). lia.
Qed.

Lemma write_list_len b : 1 + blen b <= blen (write_list b).
Proof. pose proof (head_len_pos b). unfold head_len in H. lia. Qed.

Lemma write_null_len : blen write_null = 2.
Proof. reflexivity. Qed.

Lemma enc_len t : forall v, has t v -> 1 <= blen (enc t v).
Proof.
  induction t as [|n| |w|w| | |t IH|t IH|n t IH|fs IH] using ty_ind'; intros v H; inversion H; subst;
    try (cbn [enc]; apply write_bytes_len); try (cbn [enc]; rewrite write_null_len; lia);
    try (cbn [enc]; match goal with |- 1 <= blen (write_list ?b) => pose proof (write_list_len b); pose proof (blen_nonneg b); lia end).
  - cbn [enc]. apply IH. assumption.
Qed.

Lemma write_bytes_ge b : blen b <= blen (write_bytes b).
Proof.
  unfold write_bytes. cbv zeta. destruct (Z.eqb_spec (blen b) 0) as [E|E]; [rewrite E; unfold blen; cbn; lia|].
  destruct ((blen b =? 1) && _); [lia|]. destruct (blen b <=? 55); rewrite blen_cons, ?blen_app; [lia|].
  pose proof (blen_nonneg (go_SizeToBytes (blen b))). lia.
Qed.

(** The bytes of the small numbers are those of the big ones. *)
Lemma uint_big z : 0 <= z < 2 ^ 64 -> go_Uint64ToBytes z = go_BigIntToBytes z.
Proof.
  intros H. apply some_inj. rewrite <- Proof.Int64Facts.Uint64ToBytes_ok by exact H. apply go_python_encode.
Qed.

Lemma int_big z : - 2 ^ 63 <= z < 2 ^ 63 -> go_Int64ToBytes z = go_BigIntToBytes z.
Proof.
  intros H. apply some_inj. rewrite <- Proof.Int64Facts.Int64ToBytes_ok by exact H. apply go_python_encode.
Qed.

Lemma width_bound w : In w [8; 16; 32; 64] -> 2 ^ w <= 2 ^ 64 /\ 2 ^ (w - 1) <= 2 ^ 63.
Proof. intros H. split; apply Z.pow_le_mono_r; cbn in H; intuition subst; lia. Qed.

Lemma within_all c l : fold_right (fun x p => within c x /\ p) True l <-> Forall (within c) l.
Proof.
  induction l as [|x l IH]; cbn [fold_right]; [split; constructor|]. rewrite IH. split.
  - intros [A B]. now constructor.
  - intros H. inversion H; subst. now split.
Qed.

Lemma within_le c d v : c <= d -> within c v -> within d v.
Proof.
  intros Hcd. revert v. fix IH 1. intros v. destruct v as [[b|]|b|z|[v|]|[l|]]; cbn [within]; try lia; try exact (fun H => H).
  - exact (IH v).
  - induction l as [|x l IHl]; [exact (fun H => H)|]. intros [A B]. split; [exact (IH x A)|exact (IHl B)].
Qed.

(** A value is within the length of what is written of it. *)
Lemma within_enc t : forall v, has t v -> within (blen (enc t v)) v.
Proof.
  induction t as [|n| |w|w| | |t IH|t IH|n t IH|fs IH] using ty_ind'; intros v H; inversion H; subst;
    cbn [within]; try exact Logic.I; try (cbn [enc]; apply write_bytes_ge).
  - cbn [enc]. apply write_bytes_len.
  - cbn [enc]. pose proof (width_bound w). rewrite uint_big by (intuition lia). apply write_bytes_ge.
  - cbn [enc]. pose proof (width_bound w). rewrite int_big by (intuition lia). apply write_bytes_ge.
  - cbn [enc]. apply IH. assumption.
  - cbn [enc]. apply within_all. pose proof (write_list_len (flat_map (enc t) l)) as K.
    assert (G : Forall (within (blen (flat_map (enc t) l))) l).
    { clear K H. match goal with H : Forall (has t) l |- _ => induction H as [|x l Hx Hl IHl] end; [constructor|].
      cbn [flat_map]. rewrite blen_app. pose proof (blen_nonneg (flat_map (enc t) l)). pose proof (blen_nonneg (enc t x)). constructor.
      - eapply within_le; [|apply IH; exact Hx]. lia.
      - eapply Forall_impl; [|exact IHl]. intros y. apply within_le. lia. }
    eapply Forall_impl; [|exact G]. intros y. apply within_le. lia.
  - cbn [enc]. apply within_all. pose proof (write_list_len (flat_map (enc t) l)) as K.
    assert (G : Forall (within (blen (flat_map (enc t) l))) l).
    { clear K H. match goal with H : Forall (has t) l |- _ => induction H as [|x l Hx Hl IHl] end; [constructor|].
      cbn [flat_map]. rewrite blen_app. pose proof (blen_nonneg (flat_map (enc t) l)). pose proof (blen_nonneg (enc t x)). constructor.
      - eapply within_le; [|apply IH; exact Hx]. lia.
      - eapply Forall_impl; [|exact IHl]. intros y. apply within_le. lia. }
    eapply Forall_impl; [|exact G]. intros y. apply within_le. lia.
  - rewrite enc_struct. apply within_all. pose proof (write_list_len (enc_fields fs l)) as K.
    assert (G : Forall (within (blen (enc_fields fs l))) l).
    { clear K H. match goal with H : Forall2 has fs l |- _ => induction H as [|f x fr l Hx Hl IHl] end; [constructor|].
      inversion IH; subst. cbn [enc_fields]. rewrite blen_app. pose proof (blen_nonneg (enc_fields fr l)). pose proof (blen_nonneg (enc f x)). constructor.
      - eapply within_le; [|match goal with H : forall v, has f v -> _ |- _ => apply H; exact Hx end]. lia.
      - eapply Forall_impl; [|apply IHl; assumption]. intros y. apply within_le. lia. }
    eapply Forall_impl; [|exact G]. intros y. apply within_le. lia.
Qed.

Lemma within_min c d v : within c v -> within d v -> within (Z.min c d) v.
Proof. intros H1 H2. destruct (Z.min_spec c d) as [[_ ->]|[_ ->]]; assumption. Qed.

(** What is read from a well written [t]. *)
Definition reads (t : ty) : Prop := forall v, has t v -> forall rest L C,
  blen (enc t v) <= L -> within C v -> blen (enc t v) < 2 ^ 63 ->
  dec t (mkR (enc t v ++ rest) L C) = (Got v, mkR rest (L - blen (enc t v)) C).

Lemma plain_ok conv b v rest L C : wf_bytes b -> conv b = Got v ->
  blen (write_bytes b) <= L -> blen b <= C -> blen (write_bytes b) < 2 ^ 63 ->
  plain conv (mkR (write_bytes b ++ rest) L C) = (Got v, mkR rest (L - blen (write_bytes b)) C).
Proof.
  intros W E HL HC H63. unfold plain. rewrite read_bytes_ok by assumption. now rewrite E.
Qed.

Lemma dec_null t rest L C : has_nil t = false -> 2 <= L ->
  dec t (mkR (write_null ++ rest) L C) = (IsNil, mkR rest (L - 2) C).
Proof.
  intros Ht HL. destruct t; try discriminate Ht; cbn [dec]; unfold plain, listed;
    rewrite ?read_bytes_null, ?read_list_null by lia; reflexivity.
Qed.

Lemma dec_end' t : forall s C, dec t (mkR s 0 C) = (AtEnd, mkR s 0 C).
Proof.
  induction t as [|n| |w|w| | |t IH|t IH|n t IH|fs IH] using ty_ind'; intros s C; try reflexivity.
  cbn [dec]. rewrite IH. reflexivity.
Qed.

Lemma elements_ok t : reads t -> forall l, Forall (has t) l -> forall fuel tail D,
  (length (flat_map (enc t) l) < fuel)%nat -> Forall (within D) l ->
  blen (flat_map (enc t) l) < 2 ^ 63 ->
  elements fuel (nullable t (dec t)) (mkR (flat_map (enc t) l ++ tail) (blen (flat_map (enc t) l)) D)
  = (Got l, mkR tail 0 D).
Proof.
  intros Hr l Hl. induction Hl as [|v l Hv Hl IH]; intros fuel tail D Hf HD H63.
  - destruct fuel as [|k]; [cbn in Hf; lia|]. cbn [flat_map app elements]. rewrite blen_nil.
    unfold nullable. rewrite dec_end'. reflexivity.
  - pose proof (enc_len t v Hv) as H1. cbn [flat_map] in *. rewrite blen_app in *.
    rewrite app_length in Hf. pose proof (blen_nonneg (flat_map (enc t) l)). inversion HD; subst.
    destruct fuel as [|k]; [lia|]. cbn [elements]. unfold nullable at 1. rewrite <- app_assoc.
    rewrite (Hr v Hv) by (assumption || lia).
    replace (blen (enc t v) + blen (flat_map (enc t) l) - blen (enc t v)) with (blen (flat_map (enc t) l)) by lia.
    rewrite IH; [reflexivity| |assumption|lia]. unfold blen in H1. lia.
Qed.

Lemma slots_ok t z : reads t -> forall l, Forall (has t) l -> forall tail D,
  Forall (within D) l -> blen (flat_map (enc t) l) < 2 ^ 63 ->
  slots (length l) z (nullable t (dec t)) (mkR (flat_map (enc t) l ++ tail) (blen (flat_map (enc t) l)) D)
  = (Got l, mkR tail 0 D).
Proof.
  intros Hr l Hl. induction Hl as [|v l Hv Hl IH]; intros tail D HD H63.
  - reflexivity.
  - pose proof (enc_len t v Hv) as H1. cbn [flat_map] in *. rewrite blen_app in *. inversion HD; subst.
    pose proof (blen_nonneg (flat_map (enc t) l)).
    cbn [length slots]. unfold nullable at 1. rewrite <- app_assoc. rewrite (Hr v Hv) by (assumption || lia).
    replace (blen (enc t v) + blen (flat_map (enc t) l) - blen (enc t v)) with (blen (flat_map (enc t) l)) by lia.
    rewrite IH by (assumption || lia). reflexivity.
Qed.

Lemma fields_ok fs l : Forall2 has fs l -> Forall reads fs -> forall tail D,
  Forall (within D) l -> blen (enc_fields fs l) < 2 ^ 63 ->
  dec_fields fs (mkR (enc_fields fs l ++ tail) (blen (enc_fields fs l)) D) = (Got l, mkR tail 0 D).
Proof.
  intros H. induction H as [|f v fr lr Hv Hl IH]; intros Hr tail D HD H63.
  - reflexivity.
  - inversion Hr as [|? ? Hf Hr']; subst. cbn [enc_fields] in *. rewrite blen_app in *. inversion HD; subst.
    pose proof (blen_nonneg (enc_fields fr lr)). pose proof (blen_nonneg (enc f v)).
    cbn [dec_fields]. rewrite <- app_assoc. rewrite (Hf v Hv) by (assumption || lia).
    replace (blen (enc f v) + blen (enc_fields fr lr) - blen (enc f v)) with (blen (enc_fields fr lr)) by lia.
    rewrite IH by (assumption || lia). reflexivity.
Qed.

(** What is within a list is within its own size. *)
Lemma within_body t l C : Forall (has t) l -> Forall (within C) l ->
  Forall (within (Z.min C (blen (flat_map (enc t) l)))) l.
Proof.
  intros Hl HC. assert (G : Forall (within (blen (flat_map (enc t) l))) l).
  { clear HC. induction Hl as [|x l Hx Hl IHl]; [constructor|].
    cbn [flat_map]. rewrite blen_app. pose proof (blen_nonneg (flat_map (enc t) l)). pose proof (blen_nonneg (enc t x)). constructor.
    - eapply within_le; [|apply (within_enc t); exact Hx]. lia.
    - eapply Forall_impl; [|exact IHl]. intros y. apply within_le. lia. }
  revert HC G. generalize (blen (flat_map (enc t) l)). intros n HC G. clear Hl.
  induction HC; inversion G; subst; constructor; [now apply within_min|auto].
Qed.

Lemma within_fields fs l C : Forall2 has fs l -> Forall (within C) l ->
  Forall (within (Z.min C (blen (enc_fields fs l)))) l.
Proof.
  intros Hl HC. assert (G : Forall (within (blen (enc_fields fs l))) l).
  { clear HC. induction Hl as [|f x fr l Hx Hl IHl]; [constructor|].
    cbn [enc_fields]. rewrite blen_app. pose proof (blen_nonneg (enc_fields fr l)). pose proof (blen_nonneg (enc f x)). constructor.
    - eapply within_le; [|apply (within_enc f); exact Hx]. lia.
    - eapply Forall_impl; [|exact IHl]. intros y. apply within_le. lia. }
  revert HC G. generalize (blen (enc_fields fs l)). intros n HC G. clear Hl.
  induction HC; inversion G; subst; constructor; [now apply within_min|auto].
Qed.

Lemma copied_all b : copied (length b) b = b.
Proof. unfold copied. rewrite firstn_app, Nat.sub_diag, firstn_all, firstn_O. apply app_nil_r. Qed.

Theorem reads_all t : reads t.
Proof.
  induction t as [|n| |w|w| | |t IH|t IH|n t IH|fs IH] using ty_ind'; intros v H rest L C; inversion H; subst;
    try (cbn [enc]; rewrite write_null_len); intros HL HC H63; cbn [within] in HC.
  - cbn [dec]. rewrite read_bytes_null by lia. reflexivity.
  - cbn [enc] in *. cbn [dec]. rewrite read_bytes_ok by assumption. reflexivity.
  - cbn [enc] in *. cbn [dec]. apply plain_ok; try assumption. now rewrite copied_all.
  - cbn [enc] in *. cbn [dec]. apply plain_ok; try assumption.
    + constructor; [red; destruct b; lia|constructor].
    + now destruct b.
  - cbn [enc] in *. cbn [dec]. destruct (uint_ok w z) as [K1 K2]; [assumption|assumption|].
    apply plain_ok; try assumption. pose proof (width_bound w). rewrite uint_big by (intuition lia). exact HC.
  - cbn [enc] in *. cbn [dec]. destruct (int_ok w z) as [K1 K2]; [assumption|assumption|].
    apply plain_ok; try assumption. pose proof (width_bound w). rewrite int_big by (intuition lia). exact HC.
  - cbn [enc] in *. cbn [dec]. destruct (big_ok z) as [K1 K2]. apply plain_ok; try assumption. now rewrite K2.
  - cbn [enc] in *. cbn [dec]. now apply plain_ok.
  - cbn [dec]. rewrite dec_null by (assumption || lia). reflexivity.
  - cbn [enc] in *. cbn [dec]. rewrite IH by assumption. reflexivity.
  - cbn [dec]. unfold listed. rewrite read_list_null by lia. reflexivity.
  - cbn [enc] in *. cbn [dec]. apply within_all in HC.
    assert (K : listed (fun c => elements (S (length (src c))) (nullable t (dec t)) c)
                  (mkR (write_list (flat_map (enc t) l) ++ rest) L C) =
                (Got (VList (Some l)), mkR rest (L - blen (write_list (flat_map (enc t) l))) C)).
    { apply listed_ok; try assumption. intros tail. cbn [src]. apply elements_ok; try assumption.
      - rewrite app_length. lia.
      - now apply within_body.
      - pose proof (write_list_len (flat_map (enc t) l)). lia. }
    rewrite K. reflexivity.
  - cbn [enc] in *. cbn [dec]. apply within_all in HC. apply listed_ok; try assumption. intros tail.
    apply slots_ok; try assumption; [now apply within_body|]. pose proof (write_list_len (flat_map (enc t) l)). lia.
  - rewrite enc_struct in *. rewrite dec_struct. apply within_all in HC. apply listed_ok; try assumption. intros tail.
    apply fields_ok; try assumption; [now apply within_fields|]. pose proof (write_list_len (enc_fields fs l)). lia.
Qed.

Theorem unmarshal_enc t v rest : has t v -> blen (enc t v) < 2 ^ 63 ->
  unmarshal t (enc t v ++ rest) = Some (v, rest).
Proof.
  intros H H63. unfold unmarshal, reader_of. pose proof (blen_nonneg rest).
  rewrite (reads_all t v H); [reflexivity|rewrite blen_app; lia| |exact H63].
  eapply within_le; [|apply within_enc; exact H]. rewrite blen_app. lia.
Qed.

Theorem stream_enc t v rest : has t v -> within 1000000 v -> blen (enc t v) < 2 ^ 63 ->
  unmarshal_stream t (enc t v ++ rest) = Some (v, rest).
Proof.
  intros H HC H63. unfold unmarshal_stream. pose proof (blen_nonneg rest).
  rewrite (reads_all t v H); [reflexivity|rewrite blen_app; lia|exact HC|exact H63].
Qed.
