(** Facts on what is sent to peers which lag behind. *)
From Verif Require Import Model.Bytes Model.IntCodec Model.Mpt Model.BitArray Model.PartSet Model.PeerSync Spec.PeerSyncSpec Proof.MptOps Proof.BitArrayFacts.
Open Scope Z_scope.

Definition roomy (b : bitarray) : Prop := 0 <= ba_bits b <= 64 * Z.of_nat (length (ba_words b)) /\ Forall word (ba_words b).
Lemma word_in b i : roomy b -> 0 <= i < ba_bits b -> nth_error (ba_words b) (Z.to_nat (i / 64)) = Some (nth (Z.to_nat (i / 64)) (ba_words b) 0).
Proof.
  intros [R _] I. apply nth_error_nth'. assert (i / 64 < Z.of_nat (length (ba_words b))) by (apply Z.div_lt_upper_bound; lia).
  assert (0 <= i / 64) by (apply Z.div_pos; lia). lia.
Qed.
Lemma get_in b i : roomy b -> 0 <= i < ba_bits b -> ba_get b i = Some (bit b i).
Proof.
  intros R I. unfold ba_get. destruct (Z.leb_spec (ba_bits b) i); [lia|]. rewrite (word_in b i R I). f_equal. apply land_bit. apply Z.mod_pos_bound. lia.
Qed.
Lemma set_in b i : roomy b -> 0 <= i < ba_bits b -> exists b', ba_set b i = Some b' /\ roomy b' /\ ba_bits b' = ba_bits b
  /\ length (ba_words b') = length (ba_words b) /\ forall j, 0 <= j -> ba_get b' j = if j =? i then Some true else ba_get b j.
Proof.
  intros R I. unfold ba_set. destruct (Z.leb_spec (ba_bits b) i); [lia|]. unfold ba_change. rewrite (word_in b i R I). eexists. split; [reflexivity|].
  pose proof R as [R1 F]. cbn [ba_bits ba_words]. assert (M : 0 <= i mod 64 < 64) by (apply Z.mod_pos_bound; lia).
  assert (Wi : word (nth (Z.to_nat (i / 64)) (ba_words b) 0)).
  { rewrite Forall_forall in F. apply F. eapply nth_error_In. apply (word_in b i R I). }
  split; [|split; [reflexivity|split; [apply set_nth_len|]]].
  - split; cbn [ba_bits ba_words]; [rewrite set_nth_len; exact R1|]. apply set_nth_forall; auto. apply word_lor; auto. now apply word_shift.
  - intros j J. destruct (Z.lt_ge_cases j (ba_bits b)) as [L|L].
    + set (b' := mk_ba _ _). assert (R' : roomy b').
      { split; cbn [ba_bits ba_words b']; [rewrite set_nth_len; exact R1|]. apply set_nth_forall; auto. apply word_lor; auto. now apply word_shift. }
      rewrite (get_in b' j R') by (cbn [b' ba_bits]; lia). rewrite (get_in b j R) by lia. unfold bit. cbn [b' ba_words].
      rewrite nth_set_nth. assert (Li : (Z.to_nat (i / 64) < length (ba_words b))%nat).
      { apply nth_error_Some. rewrite (word_in b i R I). discriminate. }
      destruct (Nat.ltb_spec (Z.to_nat (i / 64)) (length (ba_words b))); [|lia]. rewrite andb_true_r.
      assert (Mj : 0 <= j mod 64 < 64) by (apply Z.mod_pos_bound; lia).
      destruct (Nat.eqb_spec (Z.to_nat (i / 64)) (Z.to_nat (j / 64))) as [E|E].
      * rewrite Z.lor_spec. rewrite Z.shiftl_1_l. destruct (Z.eqb_spec j i) as [->|N].
        -- rewrite Z.pow2_bits_true by lia. now rewrite orb_true_r.
        -- rewrite Z.pow2_bits_false by (intro X; apply N; symmetry; apply same_place; auto; lia). rewrite orb_false_r. now rewrite E.
      * destruct (Z.eqb_spec j i) as [->|N]; [contradiction|reflexivity].
    + destruct (Z.eqb_spec j i); [lia|]. rewrite !get_out; auto.
Qed.

Lemma mask_shaped n b : mask_of n b -> shaped b /\ clean b /\ ba_bits b = n.
Proof.
  intros (N & B & L & F & C). split; [|split; [|exact B]].
  - split; [|split]; rewrite ?B; auto. lia.
  - intros i Hi. unfold bit. destruct (nth_error (ba_words b) (Z.to_nat (i / 64))) as [w|] eqn:E.
    + rewrite (nth_error_nth _ _ 0 E). destruct (Z.testbit w (i mod 64)) eqn:T; [|reflexivity]. exfalso.
      pose proof (Z.mod_pos_bound i 64 ltac:(lia)). pose proof (C _ _ (i mod 64) E ltac:(lia) T) as X.
      assert (0 <= i / 64) by (apply Z.div_pos; lia). rewrite Z2Nat.id in X by lia. pose proof (Z.div_mod i 64 ltac:(lia)). lia.
    + rewrite nth_overflow by (now apply nth_error_None). apply Z.bits_0.
Qed.
Lemma shaped_mask b : shaped b -> clean b -> ba_bits b < 2 ^ 50 -> mask_of (ba_bits b) b.
Proof.
  intros (N & L & F) C U. split; [lia|]. split; [reflexivity|]. split; [exact L|]. split; [exact F|].
  intros k w j E J T. destruct (Z.lt_ge_cases (64 * Z.of_nat k + j) (ba_bits b)) as [X|X]; [exact X|]. exfalso.
  assert (J64 : j < 64).
  { destruct (Z.lt_ge_cases j 64) as [Y|Y]; [exact Y|]. exfalso. rewrite Forall_forall in F. pose proof (F w (nth_error_In _ _ E)) as W. apply word_lt in W. rewrite (proj2 W j Y) in T. discriminate T. }
  specialize (C _ X). unfold bit in C. assert (D : (64 * Z.of_nat k + j) / 64 = Z.of_nat k) by (symmetry; apply Z.div_unique with j; lia).
  assert (M : (64 * Z.of_nat k + j) mod 64 = j) by (symmetry; apply Z.mod_unique with (Z.of_nat k); lia).
  rewrite D, M, Nat2Z.id, (nth_error_nth _ _ 0 E) in C. congruence.
Qed.

(** What can be sent to one with this mask. *)
Definition wanted (mask : bitarray) (ps : pset) (i : Z) : Prop :=
  0 <= i < ba_bits mask /\ ba_get mask i = Some false /\ marked (ps_mask ps) i
  /\ ~ (ba_bits mask mod 64 = 0 /\ ba_bits mask <= i + 64).

Lemma marked_bound n b i : mask_of n b -> 0 <= i -> marked b i -> i < n /\ bit b i = true.
Proof.
  intros M I K. destruct (mask_shaped n b M) as (Sh & Cl & B). unfold marked in K. destruct (Z.lt_ge_cases i n) as [L|L].
  - rewrite get_bit in K by (auto; lia). split; congruence.
  - rewrite get_out in K by lia. discriminate K.
Qed.

Section S.
Context {vote : Type}.
Lemma send_part_ok rnd q mask ps : fair rnd -> honest_parts ps -> any_mask mask -> ba_verify mask = true -> -127 < ba_bits mask ->
  (send_part (vote := vote) rnd q mask ps = Some (Some q, Nothing) /\ forall i, ~ wanted mask ps i)
  \/ exists i p m', wanted mask ps i /\ ps_part ps i = Some p /\ i < 65536
       /\ send_part (vote := vote) rnd q mask ps = Some (Some (with_parts q m'), SendPart (q_height q) i (part_bytes p))
       /\ any_mask m' /\ ba_verify m' = true /\ ba_bits m' = ba_bits mask
       /\ forall j, 0 <= j -> ba_get m' j = if j =? i then Some true else ba_get mask j.
Proof.
  intros Fr (Pc & Mo & Pp) (A1 & A2 & A3) Ve Lo. unfold ba_verify in Ve. pose proof (proj1 (Z.leb_le _ _) Ve) as V.
  destruct (mask_shaped _ _ Mo) as (S2 & C2 & B2). unfold send_part. destruct (Z.lt_ge_cases (ba_bits mask) 0) as [N|N].
  - left. unfold ba_copy. assert (E : new_ba (ba_bits mask) = Some (mk_ba (ba_bits mask) [])).
    { unfold new_ba. assert (W : wrap64 (ba_bits mask + 63) = ba_bits mask + 63) by (unfold wrap64; rewrite Z.mod_small; lia). rewrite W.
      assert (Q : Z.quot (ba_bits mask + 63) 64 = 0) by (apply Z.quot_small_iff; lia). rewrite Q. reflexivity. }
    rewrite E. cbn [ba_words length firstn app]. rewrite skipn_nil. unfold ba_flip, ba_and. cbn [ba_words ba_bits map on_last length].
    assert (X : ba_bits (ps_mask ps) <? ba_bits mask = false) by (apply Z.ltb_ge; destruct S2; lia). rewrite X. cbn [andb and_words].
    unfold ba_pick, ba_count. cbn [ba_words fold_right Z.eqb]. split; [reflexivity|]. intros i ((I1 & I2) & _). lia.
  - assert (Wm : Forall word (ba_words mask)) by exact A2.
    destruct (copy_ok mask ltac:(lia) Ve Wm) as (c & Ec & Sc & Bc & Gc). rewrite Ec.
    destruct (flip_ok c Sc) as (Sf & Cf & Bf & Ff). destruct (and_ok (ba_flip c) (ps_mask ps) Sf S2 Cf C2) as (w & Ew & Sw & Cw & Bw & Fw). rewrite Ew.
    assert (Rm : roomy mask) by (split; [lia|exact Wm]).
    assert (Hw : forall i, 0 <= i -> bit w i = true <-> wanted mask ps i).
    { intros i I. rewrite Fw by exact I. unfold wanted. split.
      - intro X. apply andb_true_iff in X as [X1 X2]. assert (L : i < ba_bits mask).
        { destruct (Z.lt_ge_cases i (ba_bits mask)) as [Y|Y]; [exact Y|]. rewrite Cf in X1 by lia. discriminate X1. }
        assert (L2 : i < ba_bits (ps_mask ps)).
        { destruct (Z.lt_ge_cases i (ba_bits (ps_mask ps))) as [Y|Y]; [exact Y|]. rewrite C2 in X2 by lia. discriminate X2. }
        rewrite Ff, Bc, Gc in X1 by lia. apply andb_true_iff in X1 as [X1 X3]. rewrite get_in by (auto; lia).
        split; [lia|]. split; [destruct (bit mask i); [discriminate X1|reflexivity]|]. split; [unfold marked; rewrite get_bit by (auto; lia); congruence|].
        intros [Y1 Y2]. rewrite (proj2 (Z.eqb_eq _ _) Y1), (proj2 (Z.leb_le _ _) Y2) in X3. discriminate X3.
      - intros ((_ & L) & G & Mk & Nn). destruct (marked_bound _ _ i Mo I Mk) as [L2 Bt]. rewrite Bt, andb_true_r. rewrite Ff, Bc, Gc by lia.
        rewrite get_in in G by (auto; lia). injection G as ->. cbn [negb andb].
        destruct (Z.eqb_spec (ba_bits mask mod 64) 0); destruct (Z.leb_spec (ba_bits mask) (i + 64)); cbn; try reflexivity; exfalso; apply Nn; auto. }
    destruct (Z.eq_dec (ba_count w) 0) as [Z0|Z0].
    + left. assert (Ep : ba_pick w (rnd (ba_count w)) = Some (-1)) by (unfold ba_pick; rewrite Z0; reflexivity). rewrite Ep. split; [reflexivity|].
      intros i Wi. pose proof Wi as ((I1 & _) & _). apply (Hw i I1) in Wi.
      assert (Lb : i < ba_bits w). { destruct (Z.lt_ge_cases i (ba_bits w)) as [Y|Y]; [exact Y|]. rewrite Cw in Wi by lia. discriminate Wi. }
      destruct (pick_all w i Sw Cw ltac:(lia) Wi) as (p & P1 & _). lia.
    + right. assert (Cp : 0 <= ba_count w) by (rewrite count_all; apply below_nonneg).
      destruct (pick_some w (rnd (ba_count w)) Sw Cw (Fr (ba_count w) ltac:(lia))) as (i & Ei & I & Bi). rewrite Ei.
      destruct (Z.ltb_spec i 0); [lia|]. apply (Hw i ltac:(lia)) in Bi. pose proof Bi as ((_ & Lm) & G & Mk & _).
      destruct (Pp i ltac:(lia) Mk) as [p Ep]. rewrite Ep. destruct (set_in mask i Rm ltac:(lia)) as (m' & Em & Rm' & Bm & Lw & Gm). rewrite Em.
      destruct (marked_bound _ _ i Mo ltac:(lia) Mk) as [L2 _]. rewrite Z.mod_small by lia. exists i, p, m'. split; [exact Bi|]. split; [exact Ep|]. split; [lia|]. split; [reflexivity|].
      rewrite Bm. destruct Rm' as [R1 R2]. split; [split; [lia|split; [exact R2|rewrite Lw; exact A3]]|]. split; [unfold ba_verify; apply Z.leb_le; rewrite Bm, Lw; exact V|]. auto.
Qed.
End S.
