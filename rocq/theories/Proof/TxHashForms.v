(* The two forms of a version 3 transaction (for C59). *)
From Coq Require Import String Ascii ZArith List Bool Arith Lia HexadecimalString HexadecimalN HexadecimalPos HexadecimalFacts.
From Verif Require Import Model.TxHash Spec.TxHashSpec Proof.TxHashFacts Proof.TxHashSer.
Import ListNotations.
#[local] Arguments special : simpl never.

Definition free (b : bytes) : Prop := Forall (fun c => special c = false) b.

(* ---- numbers and addresses as text ---- *)
Lemma hexdigits_free : forall d, free (txt (HexadecimalString.NilEmpty.string_of_uint d)).
Proof. unfold free. induction d; cbn; constructor; auto. Qed.
Lemma hexnum_free : forall z, free (hexnum z).
Proof.
  intros z. unfold hexnum. apply Forall_app. split.
  - destruct (Z.ltb z 0); repeat constructor.
  - unfold HexadecimalString.NilZero.string_of_uint. destruct (N.to_hex_uint (Z.abs_N z)); try apply hexdigits_free.
    cbn. repeat constructor.
Qed.

Lemma txt_inj : forall a b, txt a = txt b -> a = b.
Proof. intros a b E. rewrite <- (string_of_list_ascii_of_string a), <- (string_of_list_ascii_of_string b). f_equal. exact E. Qed.

Lemma hexnum_inj : forall a b, hexnum a = hexnum b -> a = b.
Proof.
  intros a b E. unfold hexnum in E.
  assert (K : forall x y, txt (HexadecimalString.NilZero.string_of_uint (N.to_hex_uint x)) =
                          txt (HexadecimalString.NilZero.string_of_uint (N.to_hex_uint y)) -> x = y).
  { intros x y H. apply txt_inj in H.
    assert (NN : forall n, N.to_hex_uint n <> Hexadecimal.Nil).
    { intros [|p]; [discriminate|]. apply HexadecimalPos.Unsigned.to_uint_nonnil. }
    pose proof (HexadecimalString.NilZero.usu _ (NN x)) as Hx. pose proof (HexadecimalString.NilZero.usu _ (NN y)) as Hy.
    rewrite H in Hx. rewrite Hx in Hy. injection Hy as Hy. apply HexadecimalN.Unsigned.to_uint_inj. exact Hy. }
  destruct (Z.ltb_spec a 0), (Z.ltb_spec b 0); cbn in E; try discriminate E; injection E as E; apply K in E; lia.
Qed.

Lemma hexdigit_free : forall n, special (hexdigit n) = false.
Proof. intros n. do 17 (destruct n as [|n]; [reflexivity|]). unfold hexdigit. rewrite nth_overflow; [reflexivity|]. cbn. lia. Qed.
Lemma hexdigit_inj : forall n m, (n < 16)%nat -> (m < 16)%nat -> hexdigit n = hexdigit m -> n = m.
Proof.
  intros n m Hn Hm. do 16 (destruct n as [|n]; [do 16 (destruct m as [|m]; [first [reflexivity | discriminate]|]); lia|]). lia.
Qed.
Lemma hexbytes_inj : forall a b, hexbytes a = hexbytes b -> a = b.
Proof.
  unfold hexbytes. induction a as [|x a IH]; intros [|y b] E; cbn [flat_map app] in E; try discriminate E; [reflexivity|].
  assert (E1 : hexdigit (nat_of_ascii x / 16) = hexdigit (nat_of_ascii y / 16)) by congruence.
  assert (E2 : hexdigit (nat_of_ascii x mod 16) = hexdigit (nat_of_ascii y mod 16)) by congruence.
  apply (f_equal (skipn 2)) in E. cbn [skipn] in E. f_equal; [clear IH E|exact (IH b E)].
  pose proof (nat_ascii_bounded x) as Bx. pose proof (nat_ascii_bounded y) as By.
  apply hexdigit_inj in E1; [|apply Nat.div_lt_upper_bound; lia|apply Nat.div_lt_upper_bound; lia].
  apply hexdigit_inj in E2; [|apply Nat.mod_upper_bound; lia|apply Nat.mod_upper_bound; lia].
  rewrite <- (ascii_nat_embedding x), <- (ascii_nat_embedding y). f_equal.
  rewrite (Nat.div_mod (nat_of_ascii x) 16), (Nat.div_mod (nat_of_ascii y) 16) by lia. congruence.
Qed.
Lemma hexbytes_free : forall b, free (hexbytes b).
Proof. unfold free. induction b as [|x b IH]; cbn; [constructor|]. constructor; [apply hexdigit_free|]. constructor; [apply hexdigit_free|exact IH]. Qed.
Lemma addr_free : forall a, free (addr_text a).
Proof. intros [c b]. apply Forall_app. split; [destruct c; repeat constructor|apply hexbytes_free]. Qed.
Lemma addr_inj : forall a b, addr_text a = addr_text b -> a = b.
Proof.
  intros [c1 b1] [c2 b2] E. unfold addr_text in E. cbn [a_contract a_body] in E.
  destruct c1, c2; cbn [txt list_ascii_of_string app] in E; try discriminate E; injection E as E; apply hexbytes_inj in E; congruence.
Qed.

(* ---- pieces between dots ---- *)
Fixpoint pieces (b : bytes) : list bytes :=
  match b with
  | [] => [[]]
  | c :: b' => if ascii_dec c "." then [] :: pieces b' else match pieces b' with h :: t => (c :: h) :: t | [] => [] end
  end.
Lemma pieces_some : forall b, pieces b <> [].
Proof. induction b as [|c b IH]; cbn [pieces]; [discriminate|]. destruct (ascii_dec c "."); [discriminate|]. destruct (pieces b); [contradiction|discriminate]. Qed.
Lemma pieces_app : forall a b, pieces (a ++ "."%char :: b) = pieces a ++ pieces b.
Proof.
  induction a as [|c a IH]; intros b; cbn [app].
  - reflexivity.
  - cbn [pieces]. destruct (ascii_dec c "."); [rewrite IH; reflexivity|]. rewrite IH. destruct (pieces a) eqn:E; [destruct (pieces_some a E)|]. reflexivity.
Qed.
Lemma pieces_inj : forall a b, pieces a = pieces b -> a = b.
Proof.
  induction a as [|c a IH]; intros [|d b] E; cbn [pieces] in E.
  - reflexivity.
  - destruct (ascii_dec d "."); [injection E as E; destruct (pieces_some b); auto|]. destruct (pieces b) eqn:Eb; discriminate E.
  - destruct (ascii_dec c "."); [injection E as E; destruct (pieces_some a); auto|]. destruct (pieces a) eqn:Ea; discriminate E.
  - destruct (ascii_dec c ".") as [->|Nc], (ascii_dec d ".") as [->|Nd].
    + injection E as E. f_equal. apply IH. exact E.
    + destruct (pieces b); discriminate E.
    + destruct (pieces a); discriminate E.
    + destruct (pieces a) as [|h t] eqn:Ea; [destruct (pieces_some a Ea)|]. destruct (pieces b) as [|h' t'] eqn:Eb; [destruct (pieces_some b Eb)|].
      injection E as <- <- <-. f_equal. apply IH. exact (eq_sym Eb).
Qed.
Lemma pieces_free : forall b, free b -> pieces b = [b].
Proof.
  induction b as [|c b IH]; intros H; [reflexivity|]. inversion H as [|? ? Hc Hb]. cbn [pieces]. rewrite (IH Hb).
  destruct (ascii_dec c ".") as [->|]; [discriminate Hc|reflexivity].
Qed.

Lemma last_from : forall (f : bytes) a1 a2 r1 r2, ~ In f r1 -> ~ In f r2 -> a1 ++ f :: r1 = a2 ++ f :: r2 -> a1 = a2 /\ r1 = r2.
Proof.
  intros f. induction a1 as [|x a1 IH]; intros [|y a2] r1 r2 N1 N2 E; cbn [app] in E.
  - injection E as E. auto.
  - injection E as -> ->. destruct N1. apply in_or_app. right. left. reflexivity.
  - injection E as -> <-. destruct N2. apply in_or_app. right. left. reflexivity.
  - injection E as -> E. destruct (IH _ _ _ N1 N2 E) as (-> & ->). auto.
Qed.

Section Forms.
Variable F : Type.
Variable int64 : F -> Z.

Definition onum (name : string) (o : option Z) : list bytes := match o with Some z => [txt name; hexnum z] | None => [] end.
Definition rest_pieces (x : v3 F) : list bytes :=
  addr_text (d_from F x) :: onum "nid" (d_nid F x) ++ onum "nonce" (d_nonce F x) ++
  [txt "stepLimit"; hexnum (d_step F x); txt "timestamp"; hexnum (d_ts F x); txt "to"; addr_text (d_to F x)] ++
  onum "value" (d_value F x) ++ [txt "version"; hexnum (d_version F x)].
Definition rest (x : v3 F) : bytes :=
  addr_text (d_from F x) ++ opt_field ".nid." (option_map hexnum (d_nid F x)) ++
    opt_field ".nonce." (option_map hexnum (d_nonce F x)) ++
    field ".stepLimit." (hexnum (d_step F x)) ++
    field ".timestamp." (hexnum (d_ts F x)) ++
    field ".to." (addr_text (d_to F x)) ++
    opt_field ".value." (option_map hexnum (d_value F x)) ++
    field ".version." (hexnum (d_version F x)).
Definition tail (x : v3 F) : bytes := opt_field ".dataType." (d_type F x) ++ txt ".from." ++ rest x.

Lemma rest_eq : forall x, rest x = join (rest_pieces x).
Proof.
  intros x. unfold rest, rest_pieces, join, dotted. destruct (d_nid F x), (d_nonce F x), (d_value F x);
    cbn [opt_field field option_map onum app flat_map txt list_ascii_of_string]; unfold field;
    cbn [app txt list_ascii_of_string]; repeat (rewrite <- app_assoc; cbn [app]); rewrite ?List.app_nil_r; reflexivity.
Qed.

Lemma pieces_join : forall l, l <> [] -> Forall free l -> pieces (join l) = l.
Proof.
  intros [|f l] N H; [contradiction|]. clear N. cbn [join]. revert f H. induction l as [|g l IH]; intros f H.
  - cbn. rewrite List.app_nil_r. apply pieces_free. inversion H. assumption.
  - inversion H as [|? ? Hf Hl]. change (dotted (g :: l)) with ("."%char :: g ++ dotted l). rewrite pieces_app, IH by exact Hl.
    rewrite (pieces_free f Hf). reflexivity.
Qed.

Lemma onum_free : forall name o, free (txt name) -> Forall free (onum name o).
Proof. intros name [z|] H; cbn; [|constructor]. constructor; [exact H|]. constructor; [apply hexnum_free|constructor]. Qed.
Lemma lit_free : forall s, forallb (fun c => negb (special c)) (txt s) = true -> free (txt s).
Proof. intros s H. apply Forall_forall. rewrite forallb_forall in H. intros c Hc. specialize (H c Hc). destruct (special c); [discriminate H|reflexivity]. Qed.
Lemma rest_free : forall x, Forall free (rest_pieces x).
Proof.
  intros x. unfold rest_pieces. constructor; [apply addr_free|]. rewrite !Forall_app.
  split; [apply onum_free, lit_free; reflexivity|]. split; [apply onum_free, lit_free; reflexivity|].
  split.
  - repeat (constructor; [first [apply hexnum_free | apply addr_free | apply lit_free; reflexivity]|]). constructor.
  - split; [apply onum_free, lit_free; reflexivity|].
    repeat (constructor; [first [apply hexnum_free | apply addr_free | apply lit_free; reflexivity]|]). constructor.
Qed.
Lemma rest_split : forall x, pieces (rest x) = rest_pieces x.
Proof. intros x. rewrite rest_eq. apply pieces_join; [discriminate|apply rest_free]. Qed.

Lemma addr_not_from : forall a, addr_text a <> txt "from".
Proof. intros [[] b]; discriminate. Qed.
Lemma hexnum_not_from : forall z, hexnum z <> txt "from".
Proof. intros z. unfold hexnum. destruct (Z.ltb z 0); discriminate. Qed.
Lemma rest_no_from : forall x, ~ In (txt "from") (rest_pieces x).
Proof.
  intros x. unfold rest_pieces. intros H.
  assert (O : forall name o, txt name <> txt "from" -> ~ In (txt "from") (onum name o)).
  { intros name [z|] N; cbn; [|tauto]. intros [E|[E|[]]]; [auto|]. exact (hexnum_not_from z E). }
  destruct H as [H|H]; [exact (addr_not_from _ H)|]. rewrite !in_app_iff in H.
  destruct H as [H|[H|[H|[H|H]]]].
  - revert H. apply O. discriminate.
  - revert H. apply O. discriminate.
  - destruct H as [H|[H|[H|[H|[H|[H|[]]]]]]]; try discriminate H; try exact (hexnum_not_from _ H). exact (addr_not_from _ H).
  - revert H. apply O. discriminate.
  - destruct H as [H|[H|[]]]; [discriminate H|]. exact (hexnum_not_from _ H).
Qed.

Definition same_fields (x y : v3 F) : Prop :=
  d_version F x = d_version F y /\ d_from F x = d_from F y /\ d_to F x = d_to F y /\ d_value F x = d_value F y /\
  d_step F x = d_step F y /\ d_ts F x = d_ts F y /\ d_nid F x = d_nid F y /\ d_nonce F x = d_nonce F y.

Lemma rest_pieces_inj : forall x y, rest_pieces x = rest_pieces y -> same_fields x y.
Proof.
  intros x y E. unfold rest_pieces in E. unfold same_fields.
  destruct (d_nid F x) as [n1|], (d_nid F y) as [n2|]; cbn [onum app] in E;
  destruct (d_nonce F x) as [m1|], (d_nonce F y) as [m2|]; cbn [onum app] in E; try discriminate E;
  destruct (d_value F x) as [v1|], (d_value F y) as [v2|]; cbn [onum app] in E; try discriminate E;
  set (h := hexnum) in E; set (a := addr_text) in E; injection E; intros; subst h a;
  repeat match goal with H : hexnum _ = hexnum _ |- _ => apply hexnum_inj in H | H : addr_text _ = addr_text _ |- _ => apply addr_inj in H end;
  repeat split; congruence.
Qed.

Lemma tail_inj : forall x y, tail x = tail y -> d_type F x = d_type F y /\ same_fields x y.
Proof.
  intros x y E. unfold tail in E. destruct (d_type F x) as [t1|], (d_type F y) as [t2|]; cbn [opt_field field app] in E.
  - unfold field in E. rewrite <- !app_assoc in E. apply app_inv_head in E.
    apply (f_equal pieces) in E. change (txt ".from.") with ("."%char :: txt "from" ++ ["."%char]) in E.
    cbn [app] in E. rewrite <- !app_assoc in E. cbn [app] in E. rewrite !pieces_app in E.
    change (pieces (txt "from")) with [txt "from"] in E. rewrite !rest_split in E. cbn [app] in E.
    destruct (last_from _ _ _ _ _ (rest_no_from x) (rest_no_from y) E) as (E1 & E2). apply pieces_inj in E1. subst t2.
    split; [reflexivity|]. apply rest_pieces_inj. exact E2.
  - discriminate E.
  - discriminate E.
  - apply app_inv_head in E. split; [reflexivity|]. apply rest_pieces_inj. rewrite <- !rest_split, E. reflexivity.
Qed.

Lemma tail_stop : forall x, stop (tail x).
Proof. intros x. unfold tail. destruct (d_type F x); cbn; auto. Qed.

Lemma preimage_tail : forall x, preimage_v3 F int64 x =
  match content_data F int64 (d_data F x) with
  | None => None
  | Some None => Some (txt "icx_sendTransaction" ++ tail x)
  | Some (Some c) => Some (txt "icx_sendTransaction" ++ txt ".data." ++ cser c ++ tail x)
  end.
Proof.
  intros x. unfold preimage_v3, content_data, tail, rest, field at 1. rewrite <- ?app_assoc.
  destruct (d_data F x) as [[v|]|].
  - rewrite serialize_content. destruct (content_of F int64 v) as [c|]; reflexivity.
  - reflexivity.
  - reflexivity.
Qed.

Lemma content_data_wf : forall o c, content_data F int64 o = Some (Some c) -> cwf c.
Proof.
  intros [[v|]|] c E; cbn in E.
  - destruct (content_of F int64 v) as [c'|] eqn:Ec; [|discriminate]. injection E as <-. exact (content_wf F int64 v c' Ec).
  - injection E as <-. exact I.
  - discriminate.
Qed.

Lemma tail_not_data : forall x b, tail x <> txt ".data." ++ b.
Proof. intros x b E. unfold tail in E. destruct (d_type F x); discriminate E. Qed.

Theorem v3_inj : forall x y b, preimage_v3 F int64 x = Some b -> preimage_v3 F int64 y = Some b ->
  d_type F x = d_type F y /\ same_fields x y /\ content_data F int64 (d_data F x) = content_data F int64 (d_data F y).
Proof.
  intros x y b Ex Ey. rewrite preimage_tail in Ex, Ey.
  destruct (content_data F int64 (d_data F x)) as [[c1|]|] eqn:C1; [| |discriminate Ex];
  destruct (content_data F int64 (d_data F y)) as [[c2|]|] eqn:C2; try discriminate Ey;
  rewrite <- Ey in Ex; injection Ex as Ex.
  - destruct (cser_inj c1 c2 (tail x) (tail y) (content_data_wf _ _ C1) (content_data_wf _ _ C2) (tail_stop x) (tail_stop y) Ex) as (-> & Et).
    destruct (tail_inj x y Et) as (T & S). auto.
  - exfalso. exact (tail_not_data y _ (eq_sym Ex)).
  - exfalso. exact (tail_not_data x _ Ex).
  - destruct (tail_inj x y Ex) as (T & S). auto.
Qed.

Theorem v3_same : forall x y, d_type F x = d_type F y -> same_fields x y ->
  content_data F int64 (d_data F x) = content_data F int64 (d_data F y) -> preimage_v3 F int64 x = preimage_v3 F int64 y.
Proof.
  intros x y T (A & B & C & D & E & G & H & K) Ed. rewrite !preimage_tail, Ed. unfold tail, rest. rewrite T, A, B, C, D, E, G, H, K. reflexivity.
Qed.
End Forms.
