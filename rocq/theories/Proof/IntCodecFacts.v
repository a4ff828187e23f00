From Verif Require Import Model.Bytes Model.IntCodec Spec.TwosComplement Proof.BytesFacts.
From Coq Require Import ZifyBool Btauto.
Ltac Zify.zify_post_hook ::= Z.div_mod_to_equations.

Lemma testbit_add_shift v k m i : 0 <= m -> 0 <= v < 2 ^ m -> 0 <= i ->
  Z.testbit (v + k * 2 ^ m) i = if i <? m then Z.testbit v i else Z.testbit k (i - m).
Proof.
  intros Hm Hv Hi. destruct (Z.ltb_spec i m).
  - rewrite !Z.testbit_eqb by lia.
    assert (E : 2 ^ m = 2 ^ (m - i - 1) * 2 * 2 ^ i).
    { replace m with ((m - i - 1) + 1 + i) at 1 by lia. rewrite !Z.pow_add_r by lia. reflexivity. }
    rewrite E. rewrite !Z.mul_assoc, Z.div_add by (apply Z.pow_nonzero; lia).
    rewrite Z.mod_add by lia. reflexivity.
  - rewrite !Z.testbit_eqb by lia.
    assert (E : 2 ^ i = 2 ^ m * 2 ^ (i - m)) by (rewrite <- Z.pow_add_r by lia; f_equal; lia).
    rewrite E, <- Z.div_div by (try apply Z.pow_nonzero; try apply Z.pow_pos_nonneg; lia).
    rewrite Z.div_add by (apply Z.pow_nonzero; lia). rewrite (Z.div_small v) by lia. reflexivity.
Qed.

Lemma byte_from_end_snoc a x k : 0 <= k <= blen a ->
  byte_from_end (a ++ [x]) k = if k =? 0 then x else byte_from_end a (k - 1).
Proof.
  intros Hk. unfold byte_from_end. blens.
  pose proof (blen_nonneg a) as Ha. unfold blen in *. destruct (Z.eqb_spec k 0).
  - subst. rewrite app_nth2 by lia. replace (_ - _)%nat with 0%nat by lia. reflexivity.
  - rewrite app_nth1 by lia. f_equal; lia.
Qed.

Lemma testbit_be_val bs : wf_bytes bs -> forall i, 0 <= i < 8 * blen bs ->
  Z.testbit (be_val bs) i = Z.testbit (byte_from_end bs (i / 8)) (i mod 8).
Proof.
  induction bs as [|x a IH] using rev_ind; intros H i Hi.
  - cbn in Hi; lia.
  - apply wf_bytes_app in H as [Ha Hx]. apply wf_bytes_cons in Hx as [Hx _]. unfold wf_byte in Hx.
    rewrite be_val_snoc, Z.add_comm. change 256 with (2 ^ 8).
    rewrite testbit_add_shift by lia. blens_in Hi.
    rewrite byte_from_end_snoc by lia.
    destruct (Z.ltb_spec i 8), (Z.eqb_spec (i / 8) 0); try lia.
    + now rewrite Z.mod_small by lia.
    + rewrite IH by (auto; lia). f_equal; [f_equal; lia | lia].
Qed.

Lemma byte_top b bs : byte_from_end (b :: bs) (blen (b :: bs) - 1) = b.
Proof. unfold byte_from_end. replace (_ - 1 - _) with 0 by lia. reflexivity. Qed.

Lemma testbit_byte7 b : wf_byte b -> Z.testbit b 7 = (128 <=? b).
Proof.
  unfold wf_byte; intros H. rewrite Z.testbit_eqb by lia. change (2 ^ 7) with 128.
  destruct (Z.leb_spec 128 b); [rewrite Z.eqb_eq | rewrite Z.eqb_neq]; lia.
Qed.

Lemma pow256_2 n : 0 <= n -> 256 ^ n = 2 ^ (8 * n).
Proof. intros. change 256 with (2 ^ 8). now rewrite <- Z.pow_mul_r by lia. Qed.

Lemma bytes_to_int_denotes bs : wf_bytes bs -> bs <> [] -> denotes bs (bytes_to_int bs).
Proof.
  intros H Hne. split; [auto|split; [auto|]]. intros i Hi.
  destruct bs as [|b bs']; [congruence|]. unfold bit_of. rewrite byte_top.
  pose proof H as H'. apply wf_bytes_cons in H' as [Hb _]. rewrite testbit_byte7 by auto.
  pose proof (be_val_bound _ H) as Hv. unfold bytes_to_int, py_from_bytes_signed.
  pose proof (blen_nonneg (b :: bs')) as Hl.
  set (l := b :: bs') in *. clearbody l.
  assert (E : (if 128 <=? b then be_val l - 256 ^ blen l else be_val l)
              = be_val l + (if 128 <=? b then -1 else 0) * 2 ^ (8 * blen l)).
  { rewrite pow256_2 by lia. destruct (128 <=? b); lia. }
  rewrite E, testbit_add_shift; try lia.
  - destruct (Z.ltb_spec i (8 * blen l)); [now apply testbit_be_val|].
    destruct (128 <=? b); [apply Z.bits_m1; lia | apply Z.bits_0].
  - rewrite <- pow256_2 by lia. lia.
Qed.

Lemma denotes_unique bs u v : denotes bs u -> denotes bs v -> u = v.
Proof.
  intros (_ & _ & H1) (_ & _ & H2). apply Z.bits_inj'. intros n Hn. now rewrite H1, H2.
Qed.

Lemma denotes_iff bs v : denotes bs v <-> wf_bytes bs /\ bs <> [] /\ bytes_to_int bs = v.
Proof.
  split.
  - intros H. pose proof H as (Hw & Hn & _). split; [auto|split; [auto|]].
    eapply denotes_unique; [apply bytes_to_int_denotes; auto | exact H].
  - intros (Hw & Hn & <-). now apply bytes_to_int_denotes.
Qed.

(** Range of a signed value of given length. *)
Lemma be_val_top b bs : wf_bytes (b :: bs) ->
  (128 <= b <-> 2 * be_val (b :: bs) >= 256 ^ blen (b :: bs)).
Proof.
  intros H. apply wf_bytes_cons in H as [Hb H]. unfold wf_byte in Hb.
  pose proof (be_val_bound _ H). rewrite be_val_cons, blen_cons.
  rewrite Z.pow_add_r by (try apply blen_nonneg; lia). change (256 ^ 1) with 256.
  pose proof (pow256_pos _ (blen_nonneg bs)). split; intros; nia.
Qed.

Lemma bytes_to_int_range bs : wf_bytes bs -> bs <> [] ->
  - 2 ^ (8 * blen bs - 1) <= bytes_to_int bs < 2 ^ (8 * blen bs - 1).
Proof.
  intros H Hn. destruct bs as [|b bs']; [congruence|].
  pose proof (be_val_top _ _ H) as Ht. pose proof (be_val_bound _ H) as Hv.
  unfold bytes_to_int, py_from_bytes_signed.
  assert (E : 256 ^ blen (b :: bs') = 2 * 2 ^ (8 * blen (b :: bs') - 1)).
  { rewrite pow256_2, <- Z.pow_succ_r by (rewrite ?blen_cons; pose proof (blen_nonneg bs'); lia).
    f_equal; lia. }
  rewrite E in *. destruct (Z.leb_spec 128 b); lia.
Qed.

Lemma bytes_to_int_inj a b : wf_bytes a -> wf_bytes b -> length a = length b ->
  bytes_to_int a = bytes_to_int b -> a = b.
Proof.
  intros Ha Hb Hl Hv. destruct a as [|x a'], b as [|y b']; try discriminate; auto.
  apply be_val_inj; auto.
  pose proof (be_val_bound _ Ha) as Ba. pose proof (be_val_bound _ Hb) as Bb.
  unfold bytes_to_int, py_from_bytes_signed in Hv.
  assert (E : blen (x :: a') = blen (y :: b')) by (unfold blen; now rewrite Hl).
  rewrite E in *. set (p := 256 ^ blen (y :: b')) in *.
  destruct (128 <=? x), (128 <=? y); lia.
Qed.

Lemma byte_length_spec v : let n := byte_length_of_int v in
  1 <= n /\ - 2 ^ (8 * n - 1) <= v < 2 ^ (8 * n - 1) /\
  (2 <= n -> v < - 2 ^ (8 * (n - 1) - 1) \/ 2 ^ (8 * (n - 1) - 1) <= v).
Proof.
  intros n. unfold byte_length_of_int in n. subst n.
  set (u := v + (if v <? 0 then 1 else 0)).
  assert (Hu : (0 <= v -> Z.abs u = v) /\ (v < 0 -> Z.abs u = - v - 1)).
  { unfold u. destruct (Z.ltb_spec v 0); lia. }
  clearbody u. unfold bit_length. destruct (Z.eqb_spec u 0) as [->|Hu0].
  - simpl ((0 + 8) / 8). change (2 ^ (8 * 1 - 1)) with 128. lia.
  - pose proof (Z.log2_spec (Z.abs u)) as [Hl Hr]; [lia|].
    pose proof (Z.log2_nonneg (Z.abs u)) as H0. set (L := Z.log2 (Z.abs u)) in *. clearbody L.
    set (n := (L + 1 + 8) / 8) in *. assert (Hn : L + 2 <= 8 * n <= L + 9) by (unfold n; lia).
    clearbody n. split; [lia|split].
    + assert (2 ^ Z.succ L <= 2 ^ (8 * n - 1)) by (apply Z.pow_le_mono_r; lia). lia.
    + intros. assert (2 ^ (8 * (n - 1) - 1) <= 2 ^ L) by (apply Z.pow_le_mono_r; lia). lia.
Qed.

Lemma int_to_bytes_ok v : int_to_bytes v = Some (be_bytes (Z.to_nat (byte_length_of_int v)) v).
Proof.
  unfold int_to_bytes, py_to_bytes_signed. pose proof (byte_length_spec v) as (H1 & H2 & _).
  set (n := byte_length_of_int v) in *.
  destruct (Z.eqb_spec n 0); [lia|]. rewrite andb_false_l.
  destruct (Z.leb_spec 1 n), (Z.leb_spec (- 2 ^ (8 * n - 1)) v), (Z.ltb_spec v (2 ^ (8 * n - 1)));
    try lia. reflexivity.
Qed.

Lemma bytes_to_int_be_bytes n v : (1 <= n)%nat ->
  - 2 ^ (8 * Z.of_nat n - 1) <= v < 2 ^ (8 * Z.of_nat n - 1) -> bytes_to_int (be_bytes n v) = v.
Proof.
  intros Hn Hv. pose proof (be_bytes_wf n v) as Hw. pose proof (be_bytes_length n v) as Hl.
  pose proof (be_val_be_bytes n v) as Hb. pose proof (blen_be_bytes n v) as Hbl.
  destruct (be_bytes n v) as [|x l]; [simpl in Hl; lia|].
  pose proof (be_val_top _ _ Hw) as Ht. unfold bytes_to_int, py_from_bytes_signed.
  rewrite Hbl in *. rewrite Hb in *.
  assert (E : 256 ^ Z.of_nat n = 2 * 2 ^ (8 * Z.of_nat n - 1)).
  { rewrite pow256_2, <- Z.pow_succ_r by lia. f_equal; lia. }
  rewrite E in *. set (p := 2 ^ (8 * Z.of_nat n - 1)) in *.
  assert (0 < p) by (apply Z.pow_pos_nonneg; lia). clearbody p.
  destruct (Z.ltb_spec v 0).
  - assert (M : v mod (2 * p) = v + 2 * p) by (symmetry; apply (Z.mod_unique v (2 * p) (-1)); lia).
    rewrite M in *. destruct (Z.leb_spec 128 x); lia.
  - rewrite Z.mod_small in * by lia. destruct (Z.leb_spec 128 x); lia.
Qed.

Lemma int_roundtrip v : exists bs, int_to_bytes v = Some bs /\ denotes bs v /\ bytes_to_int bs = v.
Proof.
  rewrite int_to_bytes_ok. eexists; split; [reflexivity|].
  pose proof (byte_length_spec v) as (H1 & H2 & _).
  assert (R : bytes_to_int (be_bytes (Z.to_nat (byte_length_of_int v)) v) = v).
  { apply bytes_to_int_be_bytes; rewrite ?Z2Nat.id; lia. }
  split; [|exact R]. apply denotes_iff. split; [apply be_bytes_wf|split; [|exact R]].
  intros E. apply (f_equal (@length Z)) in E. rewrite be_bytes_length in E. simpl in E. lia.
Qed.

Lemma int_minimal v bs bs' : int_to_bytes v = Some bs -> denotes bs' v -> blen bs <= blen bs'.
Proof.
  rewrite int_to_bytes_ok. intros E (Hw & Hn & Hb). inversion E; subst bs; clear E.
  rewrite blen_be_bytes. pose proof (byte_length_spec v) as (H1 & _ & H3).
  rewrite Z2Nat.id by lia. set (n := byte_length_of_int v) in *. clearbody n.
  assert (D : bytes_to_int bs' = v) by (eapply denotes_iff; split; eauto).
  pose proof (bytes_to_int_range _ Hw Hn) as R. rewrite D in R.
  destruct (Z.leb_spec n (blen bs')); auto. exfalso.
  assert (1 <= blen bs') by (destruct bs'; [congruence | rewrite blen_cons; pose proof (blen_nonneg bs'); lia]).
  assert (2 ^ (8 * blen bs' - 1) <= 2 ^ (8 * (n - 1) - 1)) by (apply Z.pow_le_mono_r; lia).
  destruct H3; lia.
Qed.

Lemma int_unique_minimal v bs bs' : int_to_bytes v = Some bs -> denotes bs' v ->
  blen bs' <= blen bs -> bs' = bs.
Proof.
  intros E D L. pose proof (int_minimal _ _ _ E D). destruct (int_roundtrip v) as (b & E' & D' & R).
  rewrite E in E'; inversion E'; subst b. destruct D as (Hw & Hn & Hb).
  assert (bytes_to_int bs' = v) by (eapply denotes_iff; split; eauto).
  destruct D' as (Hw' & _). apply bytes_to_int_inj; auto; [unfold blen in *; lia | congruence].
Qed.

Lemma int_to_bytes_inj u v : int_to_bytes u = int_to_bytes v -> u = v.
Proof.
  destruct (int_roundtrip u) as (a & Ea & _ & Ra), (int_roundtrip v) as (b & Eb & _ & Rb).
  rewrite Ea, Eb. intros E; inversion E; congruence.
Qed.

(** Go side. *)
Lemma go_big_bytes_val v : 0 <= v -> be_val (go_big_bytes v) = v.
Proof.
  intros H. unfold go_big_bytes. rewrite be_val_be_bytes, Z.abs_eq by lia.
  rewrite Z.mod_small; auto. split; auto.
  unfold bit_length. destruct (Z.eqb_spec v 0); [subst; simpl; lia|].
  rewrite Z.abs_eq by lia. pose proof (Z.log2_nonneg v). pose proof (Z.log2_spec v).
  rewrite Z2Nat.id by lia. rewrite pow256_2 by lia.
  apply Z.lt_le_trans with (2 ^ Z.succ (Z.log2 v)); [lia|]. apply Z.pow_le_mono_r; lia.
Qed.

Lemma bit_length_bounds v : v <> 0 -> let b := bit_length v in 1 <= b /\ 2 ^ (b - 1) <= Z.abs v < 2 ^ b.
Proof.
  intros H b. unfold bit_length in b. destruct (Z.eqb_spec v 0); [congruence|]. subst b.
  pose proof (Z.log2_nonneg (Z.abs v)). pose proof (Z.log2_spec (Z.abs v)).
  rewrite Z.add_simpl_r, Z.add_1_r. lia.
Qed.

Lemma be_bytes_pad k n v : 0 <= v < 256 ^ Z.of_nat n ->
  repeat 0 k ++ be_bytes n v = be_bytes (k + n) v.
Proof.
  intros H. apply be_val_inj.
  - apply wf_bytes_app; split; [|apply be_bytes_wf].
    apply Forall_forall. intros x Hx. apply repeat_spec in Hx. subst; unfold wf_byte; lia.
  - apply be_bytes_wf.
  - rewrite app_length, repeat_length, !be_bytes_length; lia.
  - rewrite be_val_app, !be_val_be_bytes, blen_be_bytes.
    assert (Z0 : be_val (repeat 0 k) = 0).
    { clear. induction k; simpl; auto. }
    rewrite Z0. rewrite !Z.mod_small; try lia.
    split; [lia|]. apply Z.lt_le_trans with (1 := proj2 H). apply Z.pow_le_mono_r; lia.
Qed.

Lemma go_python_encode v : int_to_bytes v = Some (go_BigIntToBytes v).
Proof.
  rewrite int_to_bytes_ok. f_equal. unfold go_BigIntToBytes.
  destruct (Z.eqb_spec v 0) as [->|Hv]; [reflexivity|].
  unfold byte_length_of_int. destruct (Z.ltb_spec 0 v) as [Hp|Hp].
  - destruct (Z.ltb_spec v 0); [lia|]. rewrite Z.add_0_r.
    pose proof (bit_length_bounds v Hv) as (H1 & H2). cbn zeta in *. set (b := bit_length v) in *.
    unfold go_big_bytes. fold b. rewrite Z.abs_eq in * by lia.
    assert (Hb : 0 <= v < 256 ^ Z.of_nat (Z.to_nat ((b + 7) / 8))).
    { split; [lia|]. rewrite Z2Nat.id, pow256_2 by lia.
      apply Z.lt_le_trans with (2 ^ b); [lia|]. apply Z.pow_le_mono_r; lia. }
    destruct (Z.eqb_spec (b mod 8) 0).
    + rewrite be_bytes_pad by auto. rewrite blen_be_bytes. f_equal. rewrite Z2Nat.id by lia. lia.
    + f_equal. f_equal. lia.
  - destruct (Z.ltb_spec v 0); [|lia]. set (b := bit_length (v + 1)).
    set (n := (b + 8) / 8).
    pose proof (byte_length_spec v) as (H1 & H2 & _). unfold byte_length_of_int in H1, H2.
    rewrite (proj2 (Z.ltb_lt v 0)) in H1, H2 by lia. fold b n in H1, H2.
    rewrite (Z.mul_comm n 8).
    assert (P : 2 ^ (8 * n) = 2 * 2 ^ (8 * n - 1)) by (rewrite <- Z.pow_succ_r by lia; f_equal; lia).
    set (w := 2 ^ (8 * n) + v).
    assert (Hw : 2 ^ (8 * n - 1) <= w < 2 ^ (8 * n)) by lia.
    assert (Hp0 : 0 < 2 ^ (8 * n - 1)) by (apply Z.pow_pos_nonneg; lia).
    assert (Hbl : bit_length w = 8 * n).
    { unfold bit_length. destruct (Z.eqb_spec w 0); [lia|]. rewrite Z.abs_eq by lia.
      rewrite (Z.log2_unique w (8 * n - 1)); [lia|lia|].
      replace (Z.succ (8 * n - 1)) with (8 * n) by lia. lia. }
    unfold go_big_bytes. rewrite Hbl, Z.abs_eq by lia.
    replace ((8 * n + 7) / 8) with n by lia.
    apply be_val_inj; try apply be_bytes_wf; [now rewrite !be_bytes_length|].
    rewrite !be_val_be_bytes, Z2Nat.id, pow256_2 by lia.
    unfold w. rewrite <- (Z.mul_1_l (2 ^ (8 * n))) at 2. rewrite Z.add_comm, Z.mod_add; [reflexivity|lia].
Qed.

Lemma land128 b : wf_byte b -> negb (Z.land b 128 =? 0) = (128 <=? b).
Proof.
  intros H. rewrite <- testbit_byte7 by auto. 
  assert (E : Z.land b 128 = if Z.testbit b 7 then 128 else 0).
  { apply Z.bits_inj'. intros n Hn. rewrite Z.land_spec. change 128 with (2 ^ 7).
    rewrite Z.pow2_bits_eqb by lia. destruct (Z.eqb_spec 7 n).
    - subst. destruct (Z.testbit b 7); [rewrite Z.pow2_bits_eqb by lia; auto | now rewrite Z.bits_0].
    - rewrite andb_false_r. destruct (Z.testbit b 7).
      + rewrite Z.pow2_bits_eqb by lia. destruct (Z.eqb_spec 7 n); [contradiction|auto].
      + now rewrite Z.bits_0. }
  rewrite E. destruct (Z.testbit b 7); reflexivity.
Qed.

Lemma go_python_decode bs : wf_bytes bs -> go_BigIntSetBytes bs = bytes_to_int bs.
Proof.
  intros H. destruct bs as [|b bs']; [reflexivity|]. unfold go_BigIntSetBytes, bytes_to_int, py_from_bytes_signed.
  pose proof H as H'. apply wf_bytes_cons in H' as [Hb _]. rewrite land128 by auto.
  destruct (Z.leb_spec 128 b); auto. f_equal.
  pose proof (proj1 (be_val_top _ _ H)) as Ht. pose proof (be_val_bound _ H) as Hv.
  assert (Hl : 1 <= blen (b :: bs')) by (rewrite blen_cons; pose proof (blen_nonneg bs'); lia).
  set (n := blen (b :: bs')) in *. set (w := be_val (b :: bs')) in *. clearbody n w.
  rewrite pow256_2 in * by lia.
  assert (P : 2 ^ (8 * n) = 2 * 2 ^ (8 * n - 1)) by (rewrite <- Z.pow_succ_r by lia; f_equal; lia).
  assert (Hp0 : 0 < 2 ^ (8 * n - 1)) by (apply Z.pow_pos_nonneg; lia).
  unfold bit_length. destruct (Z.eqb_spec w 0); [lia|]. rewrite Z.abs_eq by lia.
  rewrite (Z.log2_unique w (8 * n - 1)); [f_equal; lia|lia|].
  replace (Z.succ (8 * n - 1)) with (8 * n) by lia. lia.
Qed.
