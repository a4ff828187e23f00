(** What bit arrays do, bit by bit. *)
From Verif Require Import Model.Bytes Model.IntCodec Model.Mpt Model.BitArray Proof.MptOps.
Open Scope Z_scope.

Definition word (w : Z) : Prop := 0 <= w < 2 ^ 64.
Definition bit (b : bitarray) (i : Z) : bool := Z.testbit (nth (Z.to_nat (i / 64)) (ba_words b) 0) (i mod 64).
Definition shaped (b : bitarray) : Prop :=
  0 <= ba_bits b < 2 ^ 62 /\ Z.of_nat (length (ba_words b)) = (ba_bits b + 63) / 64 /\ Forall word (ba_words b).
(** No bit is set beyond the end. *)
Definition clean (b : bitarray) : Prop := forall i, ba_bits b <= i -> bit b i = false.

Lemma land_bit w k : 0 <= k -> negb (Z.land w (Z.shiftl 1 k) =? 0) = Z.testbit w k.
Proof.
  intro K. assert (E : Z.land w (Z.shiftl 1 k) = if Z.testbit w k then Z.shiftl 1 k else 0).
  { apply Z.bits_inj'. intros n Hn. rewrite Z.land_spec. rewrite Z.shiftl_1_l. destruct (Z.eq_dec n k) as [->|N].
    - rewrite Z.pow2_bits_true by lia. destruct (Z.testbit w k); [now rewrite Z.pow2_bits_true by lia|now rewrite Z.bits_0].
    - rewrite Z.pow2_bits_false by lia. rewrite andb_false_r. destruct (Z.testbit w k); [now rewrite Z.pow2_bits_false by lia|now rewrite Z.bits_0]. }
  rewrite E. destruct (Z.testbit w k); [|reflexivity]. rewrite Z.shiftl_1_l. pose proof (Z.pow_pos_nonneg 2 k). destruct (Z.eqb_spec (2 ^ k) 0); [lia|reflexivity].
Qed.

Lemma word_at b i : shaped b -> 0 <= i < ba_bits b -> nth_error (ba_words b) (Z.to_nat (i / 64)) = Some (nth (Z.to_nat (i / 64)) (ba_words b) 0).
Proof.
  intros (B & L & _) I. apply nth_error_nth'. assert (i / 64 < (ba_bits b + 63) / 64); [|assert (0 <= i / 64) by (apply Z.div_pos; lia); lia].
  apply Z.div_lt_upper_bound; [lia|]. pose proof (Z.div_mod (ba_bits b + 63) 64 ltac:(lia)). pose proof (Z.mod_pos_bound (ba_bits b + 63) 64 ltac:(lia)). lia.
Qed.

Lemma get_bit b i : shaped b -> 0 <= i < ba_bits b -> ba_get b i = Some (bit b i).
Proof.
  intros S I. unfold ba_get. destruct (Z.leb_spec (ba_bits b) i); [lia|]. rewrite (word_at b i S I). f_equal.
  apply land_bit. apply Z.mod_pos_bound. lia.
Qed.
Lemma get_out b i : ba_bits b <= i -> ba_get b i = Some false.
Proof. intro I. unfold ba_get. destruct (Z.leb_spec (ba_bits b) i); [reflexivity|lia]. Qed.
Lemma get_clean b i : shaped b -> clean b -> 0 <= i -> ba_get b i = Some (bit b i).
Proof.
  intros S C I. destruct (Z.lt_ge_cases i (ba_bits b)); [apply get_bit; auto; lia|]. rewrite get_out by lia. now rewrite C by lia.
Qed.

Lemma same_place i j : 0 <= i -> 0 <= j -> Z.to_nat (i / 64) = Z.to_nat (j / 64) -> i mod 64 = j mod 64 -> i = j.
Proof.
  intros I J E M. assert (0 <= i / 64) by (apply Z.div_pos; lia). assert (0 <= j / 64) by (apply Z.div_pos; lia).
  rewrite (Z.div_mod i 64), (Z.div_mod j 64) by lia. assert (i / 64 = j / 64) by lia. congruence.
Qed.

Lemma nth_set_nth (l : list Z) i j x d : nth j (set_nth l i x) d = if Nat.eqb i j && Nat.ltb i (length l) then x else nth j l d.
Proof.
  revert i j. induction l as [|y l IH]; intros i j; cbn [set_nth length].
  - rewrite andb_comm. reflexivity.
  - destruct i as [|i], j as [|j]; cbn [nth]; try reflexivity. rewrite IH. reflexivity.
Qed.

Lemma word_lt w : word w <-> 0 <= w /\ forall i, 64 <= i -> Z.testbit w i = false.
Proof.
  unfold word. split.
  - intros W. split; [lia|]. intros i Hi. destruct (Z.eq_dec w 0) as [->|N]; [apply Z.bits_0|]. apply Z.bits_above_log2; [lia|].
    assert (Z.log2 w < 64) by (apply Z.log2_lt_pow2; lia). lia.
  - intros [P T]. split; auto. destruct (Z.eq_dec w 0) as [->|N]; [lia|]. apply Z.log2_lt_pow2; [lia|].
    destruct (Z.lt_ge_cases (Z.log2 w) 64) as [L|L]; auto. specialize (T _ L). rewrite Z.bit_log2 in T by lia. discriminate.
Qed.
Lemma word_lor v w : word v -> word w -> word (Z.lor v w).
Proof. rewrite !word_lt. intros [V V'] [W W']. split; [now apply Z.lor_nonneg|]. intros i Hi. now rewrite Z.lor_spec, V', W'. Qed.
Lemma word_land v w : word v -> 0 <= w -> word (Z.land v w).
Proof. rewrite !word_lt. intros [V V'] W. split; [apply Z.land_nonneg; now left|]. intros i Hi. now rewrite Z.land_spec, V'. Qed.
Lemma word_ldiff v w : word v -> word (Z.ldiff v w).
Proof. rewrite !word_lt. intros [V V']. split; [apply Z.ldiff_nonneg; now left|]. intros i Hi. now rewrite Z.ldiff_spec, V'. Qed.
Lemma word_shift k : 0 <= k < 64 -> word (Z.shiftl 1 k).
Proof.
  intro K. rewrite Z.shiftl_1_l. split; [apply Z.pow_nonneg; lia|]. apply Z.pow_lt_mono_r; lia.
Qed.
Lemma ones_bit i : Z.testbit all_ones i = (0 <=? i) && (i <? 64).
Proof.
  change all_ones with (Z.ones 64). destruct (Z.leb_spec 0 i) as [L|L]; cbn [andb]; [|apply Z.testbit_neg_r; lia].
  now rewrite Z.testbit_ones_nonneg by lia.
Qed.
Lemma word_flip w : word w -> word (Z.lxor w all_ones).
Proof.
  rewrite !word_lt. intros [W W']. split; [apply Z.lxor_nonneg; unfold all_ones; split; intros; lia|]. intros i Hi. rewrite Z.lxor_spec, W' by lia.
  rewrite ones_bit. destruct (Z.ltb_spec i 64); [lia|]. now rewrite andb_false_r.
Qed.

Lemma set_nth_forall {A} (P : A -> Prop) l i x : Forall P l -> P x -> Forall P (set_nth l i x).
Proof. intros F X. apply Forall_forall. intros y Hy. apply set_nth_in in Hy as [->|Hy]; auto. now apply (proj1 (Forall_forall _ _) F). Qed.

Lemma change_ok b i f : shaped b -> 0 <= i < ba_bits b -> (forall w, word w -> word (f w)) ->
  exists b', ba_change b i f = Some b' /\ shaped b' /\ ba_bits b' = ba_bits b
    /\ forall j, 0 <= j -> bit b' j = if Nat.eqb (Z.to_nat (i / 64)) (Z.to_nat (j / 64)) then Z.testbit (f (nth (Z.to_nat (i / 64)) (ba_words b) 0)) (j mod 64) else bit b j.
Proof.
  intros Sh I F. pose proof (word_at b i Sh I) as W. destruct Sh as (B & L & G). unfold ba_change. rewrite W. eexists. split; [reflexivity|].
  split; [|split; [reflexivity|]].
  - split; [exact B|]. cbn [ba_words ba_bits]. rewrite set_nth_len. split; auto. apply set_nth_forall; auto. apply F.
    apply nth_error_In in W. now apply (proj1 (Forall_forall _ _) G).
  - intros j J. unfold bit. cbn [ba_words]. rewrite nth_set_nth. assert (X : Nat.ltb (Z.to_nat (i / 64)) (length (ba_words b)) = true).
    { apply Nat.ltb_lt. apply nth_error_Some. congruence. }
    rewrite X, andb_true_r. destruct (Nat.eqb_spec (Z.to_nat (i / 64)) (Z.to_nat (j / 64))) as [E|E].
    + reflexivity.
    + reflexivity.
Qed.

Lemma set_ok b i : shaped b -> 0 <= i -> exists b', ba_set b i = Some b' /\ shaped b' /\ ba_bits b' = ba_bits b
  /\ forall j, 0 <= j -> bit b' j = bit b j || ((i =? j) && (i <? ba_bits b)).
Proof.
  intros Sh I. unfold ba_set. destruct (Z.leb_spec (ba_bits b) i) as [L|L].
  - exists b. split; [reflexivity|]. split; [exact Sh|]. split; [reflexivity|]. intros j J. destruct (Z.ltb_spec i (ba_bits b)); [lia|].
    now rewrite andb_false_r, orb_false_r.
  - pose proof (Z.mod_pos_bound i 64 ltac:(lia)) as M.
    destruct (change_ok b i (fun w => Z.lor w (Z.shiftl 1 (i mod 64))) Sh ltac:(lia)) as (b' & E & S' & N & G).
    { intros w W. apply word_lor; auto. now apply word_shift. }
    exists b'. split; auto. split; auto. split; auto. intros j J. rewrite (G j J). destruct (Z.ltb_spec i (ba_bits b)); [|lia]. rewrite andb_true_r.
    destruct (Nat.eqb_spec (Z.to_nat (i / 64)) (Z.to_nat (j / 64))) as [Eq|Eq].
    + rewrite Z.lor_spec. unfold bit. rewrite Eq. f_equal. rewrite Z.shiftl_1_l. destruct (Z.eqb_spec i j) as [->|Nj].
      * apply Z.pow2_bits_true. lia.
      * apply Z.pow2_bits_false. intro X. apply Nj. apply same_place; auto.
    + destruct (Z.eqb_spec i j) as [->|Nj]; [congruence|]. now rewrite orb_false_r.
Qed.

Lemma unset_ok b i : shaped b -> 0 <= i -> exists b', ba_unset b i = Some b' /\ shaped b' /\ ba_bits b' = ba_bits b
  /\ forall j, 0 <= j -> bit b' j = bit b j && negb ((i =? j) && (i <? ba_bits b)).
Proof.
  intros Sh I. unfold ba_unset. destruct (Z.leb_spec (ba_bits b) i) as [L|L].
  - exists b. split; [reflexivity|]. split; [exact Sh|]. split; [reflexivity|]. intros j J. destruct (Z.ltb_spec i (ba_bits b)); [lia|].
    now rewrite andb_false_r, andb_true_r.
  - pose proof (Z.mod_pos_bound i 64 ltac:(lia)) as M.
    destruct (change_ok b i (fun w => Z.ldiff w (Z.shiftl 1 (i mod 64))) Sh ltac:(lia)) as (b' & E & S' & N & G).
    { intros w W. now apply word_ldiff. }
    exists b'. split; auto. split; auto. split; auto. intros j J. rewrite (G j J). destruct (Z.ltb_spec i (ba_bits b)); [|lia]. rewrite andb_true_r.
    destruct (Nat.eqb_spec (Z.to_nat (i / 64)) (Z.to_nat (j / 64))) as [Eq|Eq].
    + rewrite Z.ldiff_spec. unfold bit. rewrite Eq. f_equal. f_equal. rewrite Z.shiftl_1_l. destruct (Z.eqb_spec i j) as [->|Nj].
      * apply Z.pow2_bits_true. lia.
      * apply Z.pow2_bits_false. intro X. apply Nj. apply same_place; auto.
    + destruct (Z.eqb_spec i j) as [->|Nj]; [congruence|]. now rewrite andb_true_r.
Qed.

Lemma new_ok n : 0 <= n < 2 ^ 62 -> exists b, new_ba n = Some b /\ shaped b /\ clean b /\ ba_bits b = n /\ forall i, bit b i = false.
Proof.
  intro N. assert (W : wrap64 (n + 63) = n + 63) by (unfold wrap64; rewrite Z.mod_small; lia).
  unfold new_ba. rewrite W. rewrite Z.quot_div_nonneg by lia. assert (0 <= (n + 63) / 64) by (apply Z.div_pos; lia).
  destruct (Z.ltb_spec ((n + 63) / 64) 0); [lia|]. eexists. split; [reflexivity|].
  assert (Z0 : forall i, bit (mk_ba n (repeat 0 (Z.to_nat ((n + 63) / 64)))) i = false).
  { intro i. unfold bit. cbn [ba_words]. rewrite (nth_repeat 0 (Z.to_nat ((n + 63) / 64)) (Z.to_nat (i / 64))). apply Z.bits_0. }
  split; [|split; [intros i _; apply Z0|split; [reflexivity|exact Z0]]].
  split; [cbn; lia|]. cbn [ba_words ba_bits]. rewrite repeat_length. split; [lia|]. apply Forall_forall. intros x Hx. apply repeat_spec in Hx. subst. split; lia.
Qed.
Lemma new_negative n : - 2 ^ 63 <= n -> n + 63 <= - 64 -> new_ba n = None.
Proof.
  intros L N. unfold new_ba. assert (W : wrap64 (n + 63) = n + 63) by (unfold wrap64; rewrite Z.mod_small; lia). rewrite W.
  destruct (Z.ltb_spec (Z.quot (n + 63) 64) 0) as [X|X]; [reflexivity|]. exfalso.
  pose proof (Z.quot_opp_l (- (n + 63)) 64 ltac:(lia)) as Q. rewrite Z.opp_involutive in Q. rewrite Q in X. rewrite Z.quot_div_nonneg in X by lia.
  assert (1 <= (- (n + 63)) / 64) by (apply Z.div_le_lower_bound; lia). lia.
Qed.

Lemma on_last_len f l : length (on_last f l) = length l.
Proof. induction l as [|w [|w' r] IH]; cbn [on_last length] in *; auto. Qed.
Lemma on_last_nth f l i : nth i (on_last f l) 0 = if Nat.eqb (S i) (length l) then f (nth i l 0) else nth i l 0.
Proof.
  revert i. induction l as [|w [|w' r] IH]; intros i.
  - destruct i; reflexivity.
  - destruct i as [|i]; cbn; [reflexivity|destruct i; reflexivity].
  - destruct i as [|i]; [reflexivity|]. change (on_last f (w :: w' :: r)) with (w :: on_last f (w' :: r)). cbn [nth]. rewrite IH. reflexivity.
Qed.
Lemma on_last_forall (P : Z -> Prop) f l : Forall P l -> (forall w, P w -> P (f w)) -> Forall P (on_last f l).
Proof.
  intros F G. induction l as [|w [|w' r] IH]; cbn [on_last]; auto.
  - inversion F; subst. constructor; auto.
  - inversion F; subst. constructor; auto.
Qed.

(** The complement, but for the last 64 if the number is a multiple of 64: these are all cleared. *)
Lemma flip_ok b : shaped b -> shaped (ba_flip b) /\ clean (ba_flip b) /\ ba_bits (ba_flip b) = ba_bits b
  /\ forall i, 0 <= i < ba_bits b -> bit (ba_flip b) i = negb (bit b i) && negb ((ba_bits b mod 64 =? 0) && (ba_bits b <=? i + 64)).
Proof.
  intros Sh. pose proof Sh as (B & L & G). unfold ba_flip. rewrite Z.rem_mod_nonneg by lia. pose proof (Z.mod_pos_bound (ba_bits b) 64 ltac:(lia)) as M.
  destruct (Z.ltb_spec (ba_bits b mod 64) 0); [lia|]. set (r := ba_bits b mod 64) in *.
  pose proof (Z.div_mod (ba_bits b) 64 ltac:(lia)) as D. fold r in D. set (q := ba_bits b / 64) in *.
  assert (Q : 0 <= q) by (unfold q; apply Z.div_pos; lia).
  assert (Lr : (ba_bits b + 63) / 64 = if r =? 0 then q else q + 1).
  { destruct (Z.eqb_spec r 0) as [E|E]; symmetry; [apply Z.div_unique with 63; lia|apply Z.div_unique with (r - 1); lia]. }
  rewrite Lr in L.
  assert (Low : forall k, 0 <= k -> Z.testbit (2 ^ r - 1) k = (k <? r)).
  { intros k K. replace (2 ^ r - 1) with (Z.ones r) by (rewrite Z.ones_equiv; lia). apply Z.testbit_ones_nonneg; lia. }
  set (b' := mk_ba _ _).
  assert (Bit : forall i, 0 <= i -> bit b' i = (Nat.ltb (Z.to_nat (i / 64)) (length (ba_words b)) && negb (bit b i))
       && (negb (Nat.eqb (S (Z.to_nat (i / 64))) (length (ba_words b))) || (i mod 64 <? r))).
  { intros i I. pose proof (Z.mod_pos_bound i 64 ltac:(lia)) as Mi. unfold bit, b'. cbn [ba_words]. rewrite on_last_nth, map_length.
    destruct (Nat.ltb_spec (Z.to_nat (i / 64)) (length (ba_words b))) as [Lt|Ge].
    - rewrite (nth_indep _ 0 (Z.lxor 0 all_ones)) by (rewrite map_length; lia). rewrite (map_nth (fun w => Z.lxor w all_ones)).
      assert (X : forall w, Z.testbit (Z.lxor w all_ones) (i mod 64) = negb (Z.testbit w (i mod 64))).
      { intro w. rewrite Z.lxor_spec, ones_bit. destruct (Z.leb_spec 0 (i mod 64)); [|lia]. destruct (Z.ltb_spec (i mod 64) 64); [|lia]. now destruct (Z.testbit w (i mod 64)). }
      destruct (Nat.eqb _ _); cbn [negb orb andb]; [rewrite Z.land_spec, Low by lia|rewrite andb_true_r]; now rewrite X.
    - rewrite !nth_overflow by (rewrite ?map_length; lia). cbn [andb]. destruct (Nat.eqb_spec (S (Z.to_nat (i / 64))) (length (ba_words b))); [lia|]. apply Z.bits_0. }
  split; [|split; [|split; [reflexivity|]]].
  - split; [exact B|]. unfold b'. cbn [ba_words ba_bits]. rewrite on_last_len, map_length. split; [lia|].
    apply on_last_forall.
    + apply Forall_forall. intros w Hw. apply in_map_iff in Hw as (v & <- & Hv). apply word_flip. now apply (proj1 (Forall_forall _ _) G).
    + intros w W. apply word_land; auto. pose proof (Z.pow_pos_nonneg 2 r ltac:(lia) ltac:(lia)). lia.
  - intros i I. assert (I0 : 0 <= i) by (cbn in I; lia). rewrite (Bit i I0). unfold b' in I. cbn [ba_bits] in I.
    pose proof (Z.div_mod i 64 ltac:(lia)) as Di. pose proof (Z.mod_pos_bound i 64 ltac:(lia)) as Mi. assert (0 <= i / 64) by (apply Z.div_pos; lia).
    destruct (Nat.ltb_spec (Z.to_nat (i / 64)) (length (ba_words b))) as [Lt|Ge]; [|reflexivity]. destruct (Z.eqb_spec r 0) as [E|E]; [lia|].
    destruct (Nat.eqb_spec (S (Z.to_nat (i / 64))) (length (ba_words b))); [|lia].
    destruct (Z.ltb_spec (i mod 64) r); [lia|]. cbn [negb orb]. now rewrite andb_false_r.
  - intros i I. rewrite Bit by lia.
    pose proof (Z.div_mod i 64 ltac:(lia)) as Di. pose proof (Z.mod_pos_bound i 64 ltac:(lia)) as Mi. assert (0 <= i / 64) by (apply Z.div_pos; lia).
    assert (X : Nat.ltb (Z.to_nat (i / 64)) (length (ba_words b)) = true). { apply Nat.ltb_lt. destruct (Z.eqb_spec r 0); lia. }
    rewrite X. cbn [andb]. f_equal. destruct (Z.eqb_spec r 0) as [E|E]; cbn [andb negb].
    + destruct (Z.ltb_spec (i mod 64) r); [lia|]. rewrite orb_false_r. f_equal.
      destruct (Nat.eqb_spec (S (Z.to_nat (i / 64))) (length (ba_words b))), (Z.leb_spec (ba_bits b) (i + 64)); auto; lia.
    + destruct (Nat.eqb_spec (S (Z.to_nat (i / 64))) (length (ba_words b))); [|reflexivity]. cbn [negb orb].
      destruct (Z.ltb_spec (i mod 64) r); [reflexivity|lia].
Qed.

Lemma and_words_ok l : forall l2, (length l <= length l2)%nat -> exists x, and_words l l2 = Some x /\ length x = length l
  /\ (Forall word l -> Forall word l2 -> Forall word x) /\ forall i, (i < length l)%nat -> nth i x 0 = Z.land (nth i l 0) (nth i l2 0).
Proof.
  induction l as [|w l IH]; intros [|w2 l2] L; cbn [and_words length] in *; try lia.
  - exists []. repeat split; auto. intros; lia.
  - exists []. repeat split; auto. intros; lia.
  - destruct (IH l2 ltac:(lia)) as (x & -> & Lx & F & N). exists (Z.land w w2 :: x). split; [reflexivity|]. split; [cbn; lia|]. split.
    + intros F1 F2. inversion F1; subst. inversion F2; subst. constructor; auto. apply word_land; auto. match goal with H : word w2 |- _ => apply H end.
    + intros [|i] Hi; cbn; auto. apply N. lia.
Qed.

Lemma and_ok b b2 : shaped b -> shaped b2 -> clean b -> clean b2 -> exists b', ba_and b b2 = Some b' /\ shaped b' /\ clean b'
  /\ ba_bits b' = Z.min (ba_bits b) (ba_bits b2) /\ forall i, 0 <= i -> bit b' i = bit b i && bit b2 i.
Proof.
  intros (B & L & G) (B2 & L2 & G2) C C2. unfold ba_and.
  set (cut := ba_bits b2 <? ba_bits b). set (ws := if cut then firstn (length (ba_words b2)) (ba_words b) else ba_words b).
  assert (Le : ba_bits b2 < ba_bits b -> (length (ba_words b2) <= length (ba_words b))%nat).
  { intro X. assert ((ba_bits b2 + 63) / 64 <= (ba_bits b + 63) / 64) by (apply Z.div_le_mono; lia). lia. }
  assert (Le2 : ba_bits b <= ba_bits b2 -> (length (ba_words b) <= length (ba_words b2))%nat).
  { intro X. assert ((ba_bits b + 63) / 64 <= (ba_bits b2 + 63) / 64) by (apply Z.div_le_mono; lia). lia. }
  assert (Lw : length ws = Nat.min (length (ba_words b)) (length (ba_words b2)) /\ Forall word ws /\ forall i, (i < length ws)%nat -> nth i ws 0 = nth i (ba_words b) 0).
  { unfold ws, cut. destruct (Z.ltb_spec (ba_bits b2) (ba_bits b)) as [X|X].
    - split; [rewrite firstn_length; lia|]. split; [apply Forall_forall; intros w Hw; apply (proj1 (Forall_forall _ _) G); rewrite <- (firstn_skipn (length (ba_words b2)) (ba_words b)); apply in_or_app; now left|].
      intros i Hi. rewrite firstn_length in Hi. rewrite <- (firstn_skipn (length (ba_words b2)) (ba_words b)) at 2. rewrite app_nth1 by (rewrite firstn_length; lia). reflexivity.
    - split; [specialize (Le2 X); lia|]. auto. }
  destruct Lw as (Lw & Fw & Nw).
  assert (NP : cut && Nat.ltb (length (ba_words b)) (length (ba_words b2)) = false).
  { unfold cut. destruct (Z.ltb_spec (ba_bits b2) (ba_bits b)) as [X|X]; [|reflexivity]. specialize (Le X). apply Nat.ltb_ge. lia. }
  rewrite NP. destruct (and_words_ok ws (ba_words b2) ltac:(lia)) as (x & E & Lx & Fx & Nx). rewrite E. eexists. split; [reflexivity|].
  assert (Bits : forall i, 0 <= i -> bit (mk_ba (if cut then ba_bits b2 else ba_bits b) x) i = bit b i && bit b2 i).
  { intros i I. unfold bit. cbn [ba_words]. destruct (Nat.lt_ge_cases (Z.to_nat (i / 64)) (length x)) as [Lt|Ge].
    - rewrite Nx by lia. rewrite Nw by lia. apply Z.land_spec.
    - rewrite (nth_overflow x) by lia. rewrite Z.bits_0. symmetry. apply andb_false_iff.
      destruct (Nat.lt_ge_cases (Z.to_nat (i / 64)) (length (ba_words b))); [right|left]; rewrite nth_overflow by lia; apply Z.bits_0. }
  assert (Mn : (if cut then ba_bits b2 else ba_bits b) = Z.min (ba_bits b) (ba_bits b2)) by (unfold cut; destruct (Z.ltb_spec (ba_bits b2) (ba_bits b)); lia).
  split; [|split; [|split; [exact Mn|exact Bits]]].
  - split; [cbn [ba_bits]; rewrite Mn; lia|]. cbn [ba_words ba_bits]. rewrite Mn, Lx, Lw. split; [|now apply Fx].
    destruct (Z.le_gt_cases (ba_bits b) (ba_bits b2)) as [X|X]; [rewrite Z.min_l by lia; specialize (Le2 X); lia|rewrite Z.min_r by lia; specialize (Le X); lia].
  - intros i I. cbn [ba_bits] in I. rewrite Mn in I. rewrite Bits by lia. apply andb_false_iff.
    destruct (Z.le_gt_cases (ba_bits b) i); [left; now apply C|right; apply C2; lia].
Qed.

(** ** Picking *)
Definition below (b : bitarray) (i : Z) (n : nat) : Z := Z.of_nat (length (filter (fun k => bit b (i + Z.of_nat k)) (seq 0 n))).
Lemma below_S b i n : below b i (S n) = (if bit b i then 1 else 0) + below b (i + 1) n.
Proof.
  unfold below. cbn [seq filter]. rewrite <- seq_shift. change (Z.of_nat 0) with 0. rewrite Z.add_0_r.
  assert (E : length (filter (fun k => bit b (i + Z.of_nat k)) (map S (seq 0 n))) = length (filter (fun k => bit b (i + 1 + Z.of_nat k)) (seq 0 n))).
  { generalize (seq 0 n). intro l. induction l as [|x l IH]; [reflexivity|]. cbn [map filter]. replace (i + Z.of_nat (S x)) with (i + 1 + Z.of_nat x) by lia.
    destruct (bit b (i + 1 + Z.of_nat x)); cbn [length]; rewrite IH; reflexivity. }
  destruct (bit b i); cbn [length]; lia.
Qed.
Lemma below_nonneg b i n : 0 <= below b i n. Proof. unfold below. lia. Qed.

Lemma below_nth b : forall n i pick, 0 <= pick < below b i n -> exists k, (k < n)%nat /\ bit b (i + Z.of_nat k) = true /\ below b i k = pick.
Proof.
  induction n as [|n IH]; intros i pick P; [unfold below in P; cbn in P; lia|]. rewrite below_S in P.
  destruct (bit b i) eqn:E.
  - destruct (Z.eq_dec pick 0) as [->|N].
    + exists O. split; [lia|]. rewrite Z.add_0_r. split; auto.
    + destruct (IH (i + 1) (pick - 1) ltac:(lia)) as (k & K & B & C). exists (S k). split; [lia|]. split; [rewrite <- B; f_equal; lia|]. rewrite below_S, E. lia.
  - destruct (IH (i + 1) pick ltac:(lia)) as (k & K & B & C). exists (S k). split; [lia|]. split; [rewrite <- B; f_equal; lia|]. rewrite below_S, E. lia.
Qed.
Lemma below_mono b i k n : (k <= n)%nat -> below b i k <= below b i n.
Proof.
  revert i k. induction n as [|n IH]; intros i [|k] L; try lia; try apply below_nonneg. rewrite !below_S. specialize (IH (i + 1) k ltac:(lia)). lia.
Qed.
Lemma below_add b i k n : below b i (k + n) = below b i k + below b (i + Z.of_nat k) n.
Proof.
  revert i. induction k as [|k IH]; intro i; cbn [plus].
  - change (below b i 0) with 0. rewrite Z.add_0_r. reflexivity.
  - rewrite !below_S, IH. replace (i + 1 + Z.of_nat k) with (i + Z.of_nat (S k)) by lia. lia.
Qed.

Lemma pick_bit_finds b : shaped b -> forall k n i, 0 <= i -> (k < n)%nat -> i + Z.of_nat k < ba_bits b -> bit b (i + Z.of_nat k) = true ->
  pick_bit b n i (below b i k) = Some (inl (i + Z.of_nat k)).
Proof.
  intros Sh. induction k as [|k IH]; intros n i I L N B; (destruct n as [|n]; [lia|]); cbn [pick_bit].
  - destruct (Z.ltb_spec i (ba_bits b)); [|lia]. rewrite get_bit by (auto; lia). rewrite Z.add_0_r in *. rewrite B. reflexivity.
  - destruct (Z.ltb_spec i (ba_bits b)); [|lia]. rewrite get_bit by (auto; lia). rewrite below_S.
    specialize (IH n (i + 1) ltac:(lia) ltac:(lia) ltac:(lia)). replace (i + 1 + Z.of_nat k) with (i + Z.of_nat (S k)) in IH by lia. specialize (IH B).
    destruct (bit b i); [|rewrite Z.add_0_l; exact IH]. pose proof (below_nonneg b (i + 1) k). destruct (Z.eqb_spec (1 + below b (i + 1) k) 0); [lia|].
    replace (1 + below b (i + 1) k - 1) with (below b (i + 1) k) by lia. exact IH.
Qed.

Lemma ones_below b j : (j < length (ba_words b))%nat -> ones_count (nth j (ba_words b) 0) = below b (64 * Z.of_nat j) 64.
Proof.
  intro J. unfold ones_count, below. f_equal. apply f_equal. apply filter_ext_in. intros k Hk. apply in_seq in Hk. unfold bit.
  assert (D : (64 * Z.of_nat j + Z.of_nat k) / 64 = Z.of_nat j) by (symmetry; apply Z.div_unique with (Z.of_nat k); lia).
  assert (M : (64 * Z.of_nat j + Z.of_nat k) mod 64 = Z.of_nat k) by (symmetry; apply Z.mod_unique with (Z.of_nat j); lia).
  rewrite D, M, Nat2Z.id. reflexivity.
Qed.

Lemma pick_word_finds b : shaped b -> clean b -> forall ws j, skipn j (ba_words b) = ws -> (j <= length (ba_words b))%nat ->
  forall k, bit b (64 * Z.of_nat j + Z.of_nat k) = true -> (k < 64 * length ws)%nat ->
  pick_word b ws (Z.of_nat j) (below b (64 * Z.of_nat j) k) = Some (64 * Z.of_nat j + Z.of_nat k).
Proof.
  intros Sh Cl. induction ws as [|w ws IH]; intros j E Lj k B L; [cbn in L; lia|].
  assert (J : (j < length (ba_words b))%nat).
  { destruct (Nat.eq_dec j (length (ba_words b))) as [->|]; [rewrite skipn_all in E; discriminate|lia]. }
  assert (W : nth j (ba_words b) 0 = w).
  { rewrite <- (firstn_skipn j (ba_words b)), E, app_nth2; rewrite firstn_length; [|lia]. rewrite Nat.min_l by lia. rewrite Nat.sub_diag. reflexivity. }
  assert (E2 : skipn (S j) (ba_words b) = ws).
  { change (S j) with (1 + j)%nat. rewrite Nat.add_comm. clear - E. revert E. generalize (ba_words b). induction j as [|j IH]; intros [|x l] E; cbn in *; try discriminate.
    - now injection E.
    - apply IH. exact E. }
  assert (N : 64 * Z.of_nat j + Z.of_nat k < ba_bits b).
  { destruct (Z.lt_ge_cases (64 * Z.of_nat j + Z.of_nat k) (ba_bits b)); auto. rewrite Cl in B by lia. discriminate. }
  cbn [pick_word]. rewrite <- W, (ones_below b j J). destruct (Nat.lt_ge_cases k 64) as [K|K].
  - assert (P : below b (64 * Z.of_nat j) k < below b (64 * Z.of_nat j) 64).
    { replace 64%nat with (k + (64 - k))%nat at 1 by lia. rewrite below_add. replace (64 - k)%nat with (S (63 - k)) by lia. rewrite below_S, B.
      pose proof (below_nonneg b (64 * Z.of_nat j + Z.of_nat k + 1) (63 - k)). lia. }
    apply Z.ltb_lt in P. rewrite P. rewrite (Z.mul_comm (Z.of_nat j) 64).
    rewrite (pick_bit_finds b Sh k _ (64 * Z.of_nat j)); auto; lia.
  - replace k with (64 + (k - 64))%nat by lia. rewrite below_add. set (c := below b (64 * Z.of_nat j) 64).
    pose proof (below_nonneg b (64 * Z.of_nat j + Z.of_nat 64) (k - 64)). destruct (Z.ltb_spec (c + below b (64 * Z.of_nat j + Z.of_nat 64) (k - 64)) c); [lia|].
    replace (c + below b (64 * Z.of_nat j + Z.of_nat 64) (k - 64) - c) with (below b (64 * Z.of_nat (S j)) (k - 64)) by (rewrite Z.add_simpl_l; f_equal; lia).
    replace (Z.of_nat j + 1) with (Z.of_nat (S j)) by lia.
    rewrite (IH (S j) E2 ltac:(lia) (k - 64)%nat).
    + f_equal. lia.
    + rewrite <- B. f_equal. lia.
    + cbn [length] in L. lia.
Qed.

Lemma count_below b : forall ws j, skipn j (ba_words b) = ws -> (j <= length (ba_words b))%nat ->
  fold_right (fun w a => ones_count w + a) 0 ws = below b (64 * Z.of_nat j) (64 * length ws).
Proof.
  induction ws as [|w ws IH]; intros j E Lj; [reflexivity|].
  assert (J : (j < length (ba_words b))%nat).
  { destruct (Nat.eq_dec j (length (ba_words b))) as [->|]; [rewrite skipn_all in E; discriminate|lia]. }
  assert (W : nth j (ba_words b) 0 = w).
  { rewrite <- (firstn_skipn j (ba_words b)), E, app_nth2; rewrite firstn_length; [|lia]. rewrite Nat.min_l by lia. rewrite Nat.sub_diag. reflexivity. }
  assert (E2 : skipn (S j) (ba_words b) = ws).
  { clear - E. revert E. generalize (ba_words b). induction j as [|j IH]; intros [|x l] E; cbn in *; try discriminate.
    - now injection E.
    - apply IH. exact E. }
  cbn [fold_right length]. rewrite <- W, (ones_below b j J). rewrite (IH (S j) E2 ltac:(lia)). replace (64 * S (length ws))%nat with (64 + 64 * length ws)%nat by lia.
  rewrite below_add. replace (64 * Z.of_nat (S j)) with (64 * Z.of_nat j + Z.of_nat 64) by lia. reflexivity.
Qed.
Lemma count_all b : ba_count b = below b 0 (64 * length (ba_words b)).
Proof. unfold ba_count. rewrite (count_below b (ba_words b) 0); auto. lia. Qed.

(** [PickRandom] gives -1 if no bit is set; otherwise each number below [count] gives a set bit, and each set bit is given by one. *)
Lemma pick_none b : shaped b -> (forall i, 0 <= i < ba_bits b -> bit b i = false) -> clean b -> forall p, ba_pick b p = Some (-1).
Proof.
  intros Sh N C p. unfold ba_pick. rewrite count_all. assert (E : below b 0 (64 * length (ba_words b)) = 0).
  { unfold below. generalize (seq 0 (64 * length (ba_words b))). intro l. induction l as [|k l IH]; [reflexivity|]. cbn [filter].
    assert (X : bit b (0 + Z.of_nat k) = false). { destruct (Z.lt_ge_cases (Z.of_nat k) (ba_bits b)); [apply N; lia|apply C; lia]. }
    rewrite X. exact IH. }
  rewrite E. reflexivity.
Qed.
Lemma pick_some b p : shaped b -> clean b -> 0 <= p < ba_count b -> exists i, ba_pick b p = Some i /\ 0 <= i < ba_bits b /\ bit b i = true.
Proof.
  intros Sh C P. rewrite count_all in P. destruct (below_nth b _ _ _ P) as (k & K & B & E).
  exists (Z.of_nat k). unfold ba_pick. rewrite count_all. destruct (Z.eqb_spec (below b 0 (64 * length (ba_words b))) 0); [lia|].
  pose proof (pick_word_finds b Sh C (ba_words b) 0 eq_refl ltac:(lia) k B K) as X. change (64 * Z.of_nat 0) with 0 in X. change (Z.of_nat 0) with 0 in X. rewrite E in X. rewrite X.
  rewrite Z.add_0_l in *. split; [reflexivity|]. split; [|exact B].
  split; [lia|]. destruct (Z.lt_ge_cases (Z.of_nat k) (ba_bits b)); auto. rewrite C in B by lia. discriminate.
Qed.
Lemma pick_all b i : shaped b -> clean b -> 0 <= i < ba_bits b -> bit b i = true -> exists p, 0 <= p < ba_count b /\ ba_pick b p = Some i.
Proof.
  intros Sh C I B. pose proof Sh as (Bn & L & _).
  assert (K : (Z.to_nat i < 64 * length (ba_words b))%nat).
  { pose proof (Z.div_mod (ba_bits b + 63) 64 ltac:(lia)). pose proof (Z.mod_pos_bound (ba_bits b + 63) 64 ltac:(lia)). lia. }
  assert (B' : bit b (0 + Z.of_nat (Z.to_nat i)) = true) by (rewrite Z2Nat.id by lia; exact B).
  exists (below b 0 (Z.to_nat i)).
  assert (P : below b 0 (Z.to_nat i) < below b 0 (64 * length (ba_words b))).
  { replace (64 * length (ba_words b))%nat with (Z.to_nat i + S (64 * length (ba_words b) - Z.to_nat i - 1))%nat by lia. rewrite below_add, below_S, B'.
    pose proof (below_nonneg b (0 + Z.of_nat (Z.to_nat i) + 1) (64 * length (ba_words b) - Z.to_nat i - 1)). lia. }
  rewrite count_all. split; [split; [apply below_nonneg|exact P]|].
  unfold ba_pick. rewrite count_all. destruct (Z.eqb_spec (below b 0 (64 * length (ba_words b))) 0); [pose proof (below_nonneg b 0 (Z.to_nat i)); lia|].
  pose proof (pick_word_finds b Sh C (ba_words b) 0 eq_refl ltac:(lia) _ B' K) as X. change (64 * Z.of_nat 0) with 0 in X. change (Z.of_nat 0) with 0 in X. rewrite X. f_equal. lia.
Qed.

(** A copy of what [Verify] lets pass, if the number of bits is not negative. *)
Lemma copy_ok b : 0 <= ba_bits b < 2 ^ 62 -> ba_verify b = true -> Forall word (ba_words b) ->
  exists b', ba_copy b = Some b' /\ shaped b' /\ ba_bits b' = ba_bits b /\ forall i, 0 <= i < ba_bits b -> bit b' i = bit b i.
Proof.
  intros N V G. unfold ba_verify in V. apply Z.leb_le in V. unfold ba_copy. destruct (new_ok (ba_bits b) N) as (n & E & Sh & _ & Bn & Zr). rewrite E.
  destruct Sh as (_ & L & _). rewrite Bn in L.
  assert (Le : (length (ba_words n) <= length (ba_words b))%nat).
  { assert ((ba_bits b + 63) / 64 < Z.of_nat (length (ba_words b)) + 1) by (apply Z.div_lt_upper_bound; lia). lia. }
  eexists. split; [reflexivity|].
  rewrite skipn_all2 by lia. rewrite app_nil_r. split; [|split; [reflexivity|]].
  - split; [cbn; lia|]. cbn [ba_words ba_bits]. rewrite firstn_length. split; [lia|].
    apply Forall_forall. intros w Hw. apply (proj1 (Forall_forall _ _) G). rewrite <- (firstn_skipn (length (ba_words n)) (ba_words b)). apply in_or_app. now left.
  - intros i I. unfold bit. cbn [ba_words]. f_equal.
    assert (K : (Z.to_nat (i / 64) < length (ba_words n))%nat).
    { assert (i / 64 < (ba_bits b + 63) / 64); [|assert (0 <= i / 64) by (apply Z.div_pos; lia); lia].
      apply Z.div_lt_upper_bound; [lia|]. pose proof (Z.div_mod (ba_bits b + 63) 64 ltac:(lia)). pose proof (Z.mod_pos_bound (ba_bits b + 63) 64 ltac:(lia)). lia. }
    rewrite <- (firstn_skipn (length (ba_words n)) (ba_words b)) at 2. rewrite app_nth1; [reflexivity|]. rewrite firstn_length. lia.
Qed.
