(* The vote set keeps exact tallies (for C51). *)
From Coq Require Import ZArith List Bool Arith Lia Permutation.
From Verif Require Import Model.Votes Spec.VoteSpec.
Import ListNotations.
Open Scope nat_scope.

Lemma zlist_eqb_eq : forall a b, zlist_eqb a b = true <-> a = b.
Proof.
  induction a as [|x a IH]; destruct b as [|y b]; cbn; try (split; congruence).
  rewrite andb_true_iff, Z.eqb_eq, IH. split.
  - intros (-> & ->). reflexivity.
  - intros E. injection E as -> ->. auto.
Qed.

Lemma zlist_eqb_refl : forall a, zlist_eqb a a = true.
Proof. intros a. now apply zlist_eqb_eq. Qed.

Lemma zlist_eqb_neq : forall a b, zlist_eqb a b = false <-> a <> b.
Proof.
  intros a b. destruct (zlist_eqb a b) eqn:E.
  - apply zlist_eqb_eq in E. split; congruence.
  - split; [|reflexivity]. intros _ F. apply zlist_eqb_eq in F. congruence.
Qed.

Lemma vtype_eqb_eq : forall a b, vtype_eqb a b = true <-> a = b.
Proof. destruct a, b; cbn; split; congruence. Qed.

Lemma set_nth_length : forall A i (x : A) l, List.length (set_nth i x l) = List.length l.
Proof.
  intros A i x l. revert i. induction l as [|y l IH]; intros [|i]; cbn; auto.
Qed.

Lemma set_nth_same : forall A i (x : A) l, i < List.length l -> nth_error (set_nth i x l) i = Some x.
Proof.
  intros A i x l. revert i. induction l as [|y l IH]; intros [|i] H; cbn in *; try lia; auto.
  apply IH. lia.
Qed.

Lemma set_nth_other : forall A i j (x : A) l, i <> j -> nth_error (set_nth i x l) j = nth_error l j.
Proof.
  intros A i j x l. revert i j. induction l as [|y l IH]; intros [|i] [|j] H; cbn; auto; try congruence.
Qed.

Lemma set_nth_app : forall A (l1 : list A) c l2 x,
  set_nth (List.length l1) x (l1 ++ c :: l2) = l1 ++ x :: l2.
Proof. induction l1 as [|y l1 IH]; intros c l2 x; cbn; [reflexivity|]. now rewrite IH. Qed.

Lemma nth_error_mid : forall A (l1 : list A) c l2, nth_error (l1 ++ c :: l2) (List.length l1) = Some c.
Proof. induction l1 as [|y l1 IH]; intros; cbn; auto. Qed.

Lemma removelast_snoc : forall A (l : list A) x, removelast (l ++ [x]) = l.
Proof. intros. apply removelast_last. Qed.

Section Facts.
Variable digest : decision -> list Z.

Notation vdg := (v_digest digest).

Definition backs (dg : list Z) (m : option vote) : bool :=
  match m with Some v => zlist_eqb (vdg v) dg | None => false end.

Definition tally (dg : list Z) (msgs : list (option vote)) : nat := List.length (filter (backs dg) msgs).

Fixpoint weight (dg : list Z) (l : list counter) : nat :=
  match l with
  | [] => 0
  | c :: l' => (if zlist_eqb (c_digest c) dg then c_count c else 0) + weight dg l'
  end.

Lemma weight_app : forall dg a b, weight dg (a ++ b) = weight dg a + weight dg b.
Proof. induction a as [|c a IH]; intros b; cbn; [reflexivity|]. rewrite IH. lia. Qed.

Lemma weight_perm : forall dg a b, Permutation a b -> weight dg a = weight dg b.
Proof. induction 1; cbn; lia. Qed.

Lemma weight_absent : forall dg l, ~ In dg (map c_digest l) -> weight dg l = 0.
Proof.
  induction l as [|c l IH]; intros H; cbn in *; [reflexivity|].
  destruct (zlist_eqb (c_digest c) dg) eqn:E.
  - apply zlist_eqb_eq in E. tauto.
  - rewrite IH; tauto.
Qed.

(* the counters are exact *)
Record exact (msgs : list (option vote)) (l : list counter) : Prop := {
  ex_weight : forall dg, weight dg l = tally dg msgs;
  ex_nodup : NoDup (map c_digest l);
  ex_pos : forall c, In c l -> 0 < c_count c;
  ex_parts : forall c, In c l -> exists d, digest d = c_digest c /\ c_parts c = d_parts d
}.

Lemma find_counter_some : forall dg l k i, find_counter dg l k = Some i ->
  exists l1 c l2, l = l1 ++ c :: l2 /\ i = k + List.length l1 /\ c_digest c = dg.
Proof.
  induction l as [|c l IH]; intros k i H; cbn in H; [discriminate|].
  destruct (zlist_eqb (c_digest c) dg) eqn:E.
  - injection H as <-. apply zlist_eqb_eq in E. exists [], c, l. cbn. repeat split; auto.
  - destruct (IH _ _ H) as (l1 & c' & l2 & -> & -> & Ec).
    exists (c :: l1), c', l2. cbn. repeat split; auto.
Qed.

Lemma find_counter_none : forall dg l k, find_counter dg l k = None -> ~ In dg (map c_digest l).
Proof.
  induction l as [|c l IH]; intros k H; cbn in H |- *; [tauto|].
  destruct (zlist_eqb (c_digest c) dg) eqn:E; [discriminate|].
  apply zlist_eqb_neq in E. intros [F|F]; [congruence|]. exact (IH _ H F).
Qed.

Lemma weight_single : forall dg c l1 l2, NoDup (map c_digest (l1 ++ c :: l2)) -> c_digest c = dg ->
  weight dg (l1 ++ c :: l2) = c_count c.
Proof.
  intros dg c l1 l2 N E. rewrite map_app in N. cbn in N. apply NoDup_remove_2 in N.
  rewrite in_app_iff in N. rewrite weight_app. cbn. rewrite E, zlist_eqb_refl.
  rewrite !weight_absent; [lia| |]; rewrite <- E; tauto.
Qed.

(* taking one vote out *)
Lemma dec_perm : forall dg l1 c l2, c_digest c = dg ->
  ~ In dg (map c_digest l1) ->
  exists l', counters_dec dg (l1 ++ c :: l2) = l' /\
    (c_count c - 1 = 0 -> Permutation l' (l1 ++ l2)) /\
    (c_count c - 1 <> 0 -> l' = l1 ++ mkCounter (c_digest c) (c_parts c) (c_count c - 1) :: l2).
Proof.
  intros dg l1 c l2 E N. unfold counters_dec.
  assert (F : find_counter dg (l1 ++ c :: l2) 0 = Some (List.length l1)).
  { replace (List.length l1) with (0 + List.length l1) by lia.
    generalize 0 as k. induction l1 as [|x l1 IH]; intros k; cbn.
    - rewrite E, zlist_eqb_refl. f_equal. lia.
    - cbn in N. destruct (zlist_eqb (c_digest x) dg) eqn:Ex; [apply zlist_eqb_eq in Ex; tauto|].
      rewrite IH by tauto. f_equal. cbn. lia. }
  rewrite F, nth_error_mid. cbn.
  destruct (Nat.eqb (c_count c - 1) 0) eqn:Z0.
  - apply Nat.eqb_eq in Z0.
    destruct l2 as [|y l2'] using rev_ind.
    + rewrite app_length. cbn. replace (List.length l1 + 1 - 1) with (List.length l1) by lia.
      rewrite nth_error_mid, set_nth_app, removelast_snoc.
      eexists. split; [reflexivity|]. split; [intros _; rewrite app_nil_r; apply Permutation_refl|lia].
    + assert (L : nth_error (l1 ++ c :: l2' ++ [y]) (List.length (l1 ++ c :: l2' ++ [y]) - 1) = Some y).
      { replace (l1 ++ c :: l2' ++ [y]) with ((l1 ++ c :: l2') ++ [y]) by (rewrite <- app_assoc; reflexivity).
        rewrite app_length. cbn. replace (List.length (l1 ++ c :: l2') + 1 - 1) with (List.length (l1 ++ c :: l2')) by lia.
        apply nth_error_mid. }
      rewrite L, set_nth_app.
      replace (l1 ++ y :: l2' ++ [y]) with ((l1 ++ y :: l2') ++ [y]) by (rewrite <- app_assoc; reflexivity).
      rewrite removelast_snoc. eexists. split; [reflexivity|]. split; [|lia].
      intros _. apply Permutation_app_head.
      replace (y :: l2') with ([y] ++ l2') by reflexivity. apply Permutation_app_comm.
  - apply Nat.eqb_neq in Z0. rewrite set_nth_app. eexists. split; [reflexivity|]. split; [lia|auto].
Qed.

Lemma tally_set : forall dg msgs i o v, nth_error msgs i = Some o ->
  tally dg (set_nth i (Some v) msgs) + (if backs dg o then 1 else 0)
  = tally dg msgs + (if zlist_eqb (vdg v) dg then 1 else 0).
Proof.
  unfold tally. induction msgs as [|m msgs IH]; intros [|i] o v H; cbn in *; try discriminate.
  - injection H as ->. destruct (zlist_eqb (vdg v) dg), (backs dg o); cbn; lia.
  - specialize (IH i o v H). destruct (backs dg m); cbn; lia.
Qed.

(* freeing the place of the old vote *)
Lemma dec_ok : forall msgs l i o, exact msgs l -> nth_error msgs i = Some (Some o) ->
  let l' := counters_dec (vdg o) l in
  (forall dg, weight dg l' + (if zlist_eqb (vdg o) dg then 1 else 0) = tally dg msgs) /\
  NoDup (map c_digest l') /\ (forall c, In c l' -> 0 < c_count c) /\
  (forall c, In c l' -> exists d, digest d = c_digest c /\ c_parts c = d_parts d).
Proof.
  intros msgs l i o [W N P Q] Hi l'.
  assert (T : 0 < tally (vdg o) msgs).
  { unfold tally. assert (In (Some o) (filter (backs (vdg o)) msgs)) as I0.
    { apply filter_In. split; [eapply nth_error_In; eauto|]. cbn. apply zlist_eqb_refl. }
    destruct (filter (backs (vdg o)) msgs); [contradiction|cbn; lia]. }
  assert (In (vdg o) (map c_digest l)) as HI.
  { destruct (in_dec (list_eq_dec Z.eq_dec) (vdg o) (map c_digest l)) as [Y|Y]; [exact Y|].
    apply weight_absent in Y. specialize (W (vdg o)). lia. }
  apply in_map_iff in HI. destruct HI as (c & Ec & Hc).
  apply in_split in Hc. destruct Hc as (l1 & l2 & ->).
  assert (N1 : ~ In (vdg o) (map c_digest l1)).
  { rewrite map_app in N. cbn in N. apply NoDup_remove_2 in N. rewrite in_app_iff, Ec in N. tauto. }
  destruct (dec_perm (vdg o) l1 c l2 Ec N1) as (l'' & E & H0 & H1).
  assert (P0 : 0 < c_count c) by (apply P; apply in_app_iff; right; left; reflexivity).
  assert (E' : l' = l'') by exact E. clearbody l'. clear E. subst l'.
  destruct (Nat.eq_dec (c_count c - 1) 0) as [Z0|Z0].
  - specialize (H0 Z0).
    assert (N2 : NoDup (map c_digest (l1 ++ l2))).
    { rewrite map_app in N |- *. cbn in N. apply NoDup_remove_1 in N. exact N. }
    split; [|split; [|split]].
    + intros dg. rewrite (weight_perm dg _ _ H0), <- (W dg), !weight_app. cbn [weight]. rewrite Ec.
      destruct (zlist_eqb (vdg o) dg); lia.
    + eapply Permutation_NoDup; [|exact N2]. apply Permutation_map. now apply Permutation_sym.
    + intros x Hx. apply P. apply (Permutation_in _ H0) in Hx. rewrite in_app_iff in Hx |- *. cbn. tauto.
    + intros x Hx. apply Q. apply (Permutation_in _ H0) in Hx. rewrite in_app_iff in Hx |- *. cbn. tauto.
  - specialize (H1 Z0). subst l''. split; [|split; [|split]].
    + intros dg. rewrite <- (W dg), !weight_app. cbn [weight c_digest c_count]. rewrite Ec.
      destruct (zlist_eqb (vdg o) dg); lia.
    + rewrite map_app in *. exact N.
    + intros x Hx. rewrite in_app_iff in Hx. cbn in Hx. destruct Hx as [Hx|[<-|Hx]]; cbn; try lia;
        apply P; rewrite in_app_iff; cbn; tauto.
    + intros x Hx. rewrite in_app_iff in Hx. cbn in Hx. destruct Hx as [Hx|[<-|Hx]]; cbn;
        try (apply (Q c); rewrite in_app_iff; cbn; tauto); apply Q; rewrite in_app_iff; cbn; tauto.
Qed.

(* counting one vote *)
Lemma inc_ok : forall v l, NoDup (map c_digest l) -> (forall c, In c l -> 0 < c_count c) ->
  (forall c, In c l -> exists d, digest d = c_digest c /\ c_parts c = d_parts d) ->
  let l' := counters_inc digest v l in
  (forall dg, weight dg l' = weight dg l + (if zlist_eqb (vdg v) dg then 1 else 0)) /\
  NoDup (map c_digest l') /\ (forall c, In c l' -> 0 < c_count c) /\
  (forall c, In c l' -> exists d, digest d = c_digest c /\ c_parts c = d_parts d).
Proof.
  intros v l N P Q l'. subst l'. unfold counters_inc.
  destruct (find_counter (vdg v) l 0) as [i|] eqn:F.
  - apply find_counter_some in F. destruct F as (l1 & c & l2 & -> & -> & Ec). cbn [Nat.add].
    rewrite nth_error_mid, set_nth_app. split; [|split; [|split]].
    + intros dg. rewrite !weight_app. cbn. rewrite Ec. destruct (zlist_eqb (vdg v) dg); lia.
    + rewrite map_app in *. exact N.
    + intros x Hx. rewrite in_app_iff in Hx. cbn in Hx. destruct Hx as [Hx|[<-|Hx]]; cbn; try lia;
        apply P; rewrite in_app_iff; cbn; tauto.
    + intros x Hx. rewrite in_app_iff in Hx. cbn in Hx. destruct Hx as [Hx|[<-|Hx]]; cbn;
        try (apply (Q c); rewrite in_app_iff; cbn; tauto); apply Q; rewrite in_app_iff; cbn; tauto.
  - apply find_counter_none in F. split; [|split; [|split]].
    + intros dg. rewrite weight_app. cbn. destruct (zlist_eqb (vdg v) dg); lia.
    + rewrite map_app. cbn. apply NoDup_rev in N. rewrite <- (rev_involutive (_ ++ _)).
      apply NoDup_rev. rewrite rev_app_distr. cbn. constructor; [rewrite <- in_rev; exact F|exact N].
    + intros x Hx. rewrite in_app_iff in Hx. cbn in Hx. destruct Hx as [Hx|[<-|[]]]; cbn; [auto|lia].
    + intros x Hx. rewrite in_app_iff in Hx. cbn in Hx. destruct Hx as [Hx|[<-|[]]]; cbn; [auto|].
      exists (v_dec v). split; reflexivity.
Qed.

(* ---------- the scan ---------- *)
Lemma scan_max_spec : forall l i best mx, 
  let '(b, m) := scan_max l i best mx in
  mx <= m /\ (forall c, In c l -> c_count c <= m) /\
  ((b = best /\ m = mx) \/
   exists j c, nth_error l j = Some c /\ b = Some (i + j) /\ m = c_count c /\ mx < m).
Proof.
  induction l as [|c l IH]; intros i best mx; cbn [scan_max In].
  - split; [lia|]. split; [tauto|]. left. split; reflexivity.
  - destruct (Nat.ltb mx (c_count c)) eqn:E.
    + apply Nat.ltb_lt in E. specialize (IH (S i) (Some i) (c_count c)).
      destruct (scan_max l (S i) (Some i) (c_count c)) as (b, m). destruct IH as (A & B & C).
      split; [lia|]. split.
      * intros x [<-|Hx]; auto.
      * right. destruct C as [(-> & ->)|(j & c' & Hj & -> & -> & L)].
        { exists 0, c. cbn. rewrite Nat.add_0_r. auto. }
        { exists (S j), c'. cbn. split; [exact Hj|]. split; [f_equal; lia|]. split; [reflexivity|lia]. }
    + apply Nat.ltb_ge in E. specialize (IH (S i) best mx).
      destruct (scan_max l (S i) best mx) as (b, m). destruct IH as (A & B & C).
      split; [lia|]. split.
      * intros x [<-|Hx]; [lia|auto].
      * destruct C as [C|(j & c' & Hj & -> & -> & L)]; [left; exact C|right].
        exists (S j), c'. cbn. split; [exact Hj|]. split; [f_equal; lia|]. split; [reflexivity|lia].
Qed.

Record vsinv (n : nat) (vs : voteset) : Prop := {
  vi_len : List.length (vs_msgs vs) = n;
  vi_exact : exact (vs_msgs vs) (vs_counters vs);
  vi_count : vs_count vs = List.length (vs_votes vs);
  vi_max : forall i, vs_max vs = Some i -> vs_max vs = fst (scan_max (vs_counters vs) 0 None 0);
  vi_mask : List.length (vs_mask vs) = n;
  vi_bits : forall i, nth_error (vs_mask vs) i = Some true <->
                      exists v, nth_error (vs_msgs vs) i = Some (Some v)
}.

Lemma two_thirds : forall n k, Nat.ltb (n * 2 / 3) k = true <-> 2 * n < 3 * k.
Proof.
  intros n k. rewrite Nat.ltb_lt. split; intros H.
  - assert (n * 2 < 3 * k); [|lia]. apply Nat.nle_gt. intros F.
    assert (k <= n * 2 / 3); [|lia]. apply Nat.div_le_lower_bound; lia.
  - apply Nat.div_lt_upper_bound; lia.
Qed.

Lemma weight_in : forall l c, NoDup (map c_digest l) -> In c l -> weight (c_digest c) l = c_count c.
Proof.
  intros l c N H. apply in_split in H. destruct H as (l1 & l2 & ->). now apply weight_single.
Qed.

Lemma weight_pos : forall dg l, 0 < weight dg l -> exists c, In c l /\ c_digest c = dg.
Proof.
  intros dg l H. destruct (in_dec (list_eq_dec Z.eq_dec) dg (map c_digest l)) as [Y|Y].
  - apply in_map_iff in Y. destruct Y as (c & E & Hc). eauto.
  - apply weight_absent in Y. lia.
Qed.

(* two different digests cannot both have more than two thirds *)
Lemma tally_split : forall a b msgs, a <> b -> tally a msgs + tally b msgs <= List.length msgs.
Proof.
  unfold tally. intros a b msgs N. induction msgs as [|m msgs IH]; cbn; [lia|].
  destruct m as [v|]; cbn; [|lia].
  destruct (zlist_eqb (vdg v) a) eqn:Ea, (zlist_eqb (vdg v) b) eqn:Eb; cbn; try lia.
  apply zlist_eqb_eq in Ea, Eb. congruence.
Qed.

Lemma vs_get_spec : forall n vs, vsinv n vs ->
  let '(q, vs') := vs_get vs in
  vsinv n vs' /\ vs_msgs vs' = vs_msgs vs /\ vs_mask vs' = vs_mask vs /\ vs_round vs' = vs_round vs /\
  vs_counters vs' = vs_counters vs /\ vs_count vs' = vs_count vs /\
  (forall dg id, q = Some (dg, id) -> 2 * n < 3 * tally dg (vs_msgs vs) /\
     exists d, digest d = dg /\ id = d_id d) /\
  (forall dg, 2 * n < 3 * tally dg (vs_msgs vs) -> exists id, q = Some (dg, id)).
Proof.
  intros n vs [L X C M K B]. unfold vs_get.
  pose (bm := scan_max (vs_counters vs) 0 None 0).
  assert (HS := scan_max_spec (vs_counters vs) 0 None 0). fold bm in HS, M.
  destruct bm as (best, mx) eqn:EB.
  assert (EM : (match vs_max vs with
    | None => scan_max (vs_counters vs) 0 None 0
    | Some i =>
        (Some i, match nth_error (vs_counters vs) i with Some c => c_count c | None => 0 end)
    end) = (best, mx)).
  { destruct (vs_max vs) as [i|] eqn:E; [|exact EB].
    specialize (M i eq_refl). cbn in M. subst best.
    destruct HS as (_ & _ & [(HA & _)|(j & c & Hj & Hb & -> & _)]); [discriminate|].
    injection Hb as ->. cbn. rewrite Hj. reflexivity. }
  rewrite EM. destruct HS as (_ & HM & HB).
  rewrite L.
  assert (I' : vsinv n (mkVoteset (vs_msgs vs) best (vs_mask vs) (vs_round vs) (vs_counters vs) (vs_count vs))).
  { constructor; auto. cbn. intros i _. fold bm. rewrite EB. reflexivity. }
  assert (Tot : forall dg, 2 * n < 3 * tally dg (vs_msgs vs) -> exists c, In c (vs_counters vs) /\ c_digest c = dg /\ c_count c = tally dg (vs_msgs vs)).
  { intros dg H. destruct (weight_pos dg (vs_counters vs)) as (c & Hc & Ec).
    { rewrite (ex_weight _ _ X). lia. }
    exists c. repeat split; auto. rewrite <- (ex_weight _ _ X), <- Ec. symmetry. apply weight_in; [exact (ex_nodup _ _ X)|exact Hc]. }
  destruct (Nat.ltb (n * 2 / 3) mx) eqn:LT.
  - assert (LT' := LT). apply two_thirds in LT.
    destruct HB as [(-> & ->)|(j & c & Hj & -> & -> & _)]; [exfalso; clear - LT; lia|].
    cbn [Nat.add]. rewrite Hj. repeat (split; [first [exact I'|reflexivity]|]).
    assert (W : c_count c = tally (c_digest c) (vs_msgs vs)).
    { rewrite <- (ex_weight _ _ X). symmetry. apply weight_in; [exact (ex_nodup _ _ X)|].
      eapply nth_error_In; eauto. }
    split.
    + intros dg id E. injection E as <- <-. split; [lia|].
      destruct (ex_parts _ _ X c (nth_error_In _ _ Hj)) as (d & Ed & Ep).
      exists d. split; [exact Ed|]. unfold d_id. now rewrite Ep.
    + intros dg H. exists (option_map fst (c_parts c)). f_equal. f_equal.
      destruct (list_eq_dec Z.eq_dec (c_digest c) dg) as [E|E]; [exact E|].
      pose proof (tally_split (c_digest c) dg (vs_msgs vs) E). lia.
  - assert (NT : ~ 2 * n < 3 * mx) by (intros F; apply two_thirds in F; congruence).
    repeat (split; [first [exact I'|reflexivity]|]). split; [intros dg id F; discriminate F|].
    intros dg H. destruct (Tot dg H) as (c & Hc & _ & Ec). specialize (HM c Hc). lia.
Qed.

Lemma somes_set : forall A i (o : option A) v l, nth_error l i = Some o ->
  List.length (somes (set_nth i (Some v) l)) + (match o with Some _ => 1 | None => 0 end)
  = S (List.length (somes l)).
Proof.
  induction i as [|i IH]; intros o v [|x l] H; cbn in H; try discriminate.
  - injection H as ->. destruct o; cbn; lia.
  - specialize (IH o v l H). destruct x; cbn; lia.
Qed.

Lemma equal_except_sigs_spec : forall a b, equal_except_sigs digest a b = true <-> same_content digest a b.
Proof.
  intros a b. unfold equal_except_sigs, vote_base_eqb, same_content.
  rewrite !andb_true_iff, !Z.eqb_eq, vtype_eqb_eq, zlist_eqb_eq. unfold v_digest. tauto.
Qed.

Lemma vsinv_new : forall n, vsinv n (vs_new n).
Proof.
  intros n. unfold vs_new. constructor; cbn.
  - apply repeat_length.
  - constructor; cbn.
    + intros dg. unfold tally. induction n; cbn; auto.
    + constructor.
    + tauto.
    + tauto.
  - unfold vs_votes. cbn. induction n; cbn; auto.
  - discriminate.
  - apply repeat_length.
  - intros i. split.
    + intros H. apply nth_error_In, repeat_spec in H. discriminate.
    + intros (v & H). apply nth_error_In, repeat_spec in H. discriminate.
Qed.

Lemma store_inv : forall n vs i v o l0 k, vsinv n vs -> nth_error (vs_msgs vs) i = Some o ->
  (forall dg, weight dg l0 + (if backs dg o then 1 else 0) = tally dg (vs_msgs vs)) ->
  NoDup (map c_digest l0) -> (forall c, In c l0 -> 0 < c_count c) ->
  (forall c, In c l0 -> exists d, digest d = c_digest c /\ c_parts c = d_parts d) ->
  k + (match o with Some _ => 1 | None => 0 end) = List.length (vs_votes vs) ->
  vsinv n (vs_store digest i v (mkVoteset (vs_msgs vs) (vs_max vs) (vs_mask vs) (vs_round vs) l0 k)).
Proof.
  intros n vs i v o l0 k [L X C M K B] Hi W N P Q Hk.
  destruct (inc_ok v l0 N P Q) as (W1 & N1 & P1 & Q1).
  assert (Hlt : i < List.length (vs_msgs vs)) by (apply nth_error_Some; congruence).
  unfold vs_store. constructor; cbn.
  - now rewrite set_nth_length.
  - constructor; auto. intros dg. rewrite W1.
    pose proof (tally_set dg (vs_msgs vs) i o v Hi). specialize (W dg). lia.
  - unfold vs_votes. cbn. pose proof (somes_set _ i o v _ Hi). unfold vs_votes in Hk.
    destruct o; lia.
  - discriminate.
  - now rewrite set_nth_length.
  - intros j. destruct (Nat.eq_dec i j) as [<-|E].
    + rewrite !set_nth_same by lia. split; [eauto|reflexivity].
    + rewrite !set_nth_other by auto. apply B.
Qed.

(* what handing in a vote does *)
Lemma vs_add_spec : forall n vs i v, vsinv n vs ->
  let '(b, vs') := vs_add digest i v vs in
  vsinv n vs' /\
  (b = true ->
     (exists o, nth_error (vs_msgs vs) i = Some o /\
        match o with
        | None => True
        | Some w => ~ same_content digest w v /\ ~ 2 * n < 3 * tally (vdg w) (vs_msgs vs)
        end) /\
     vs_msgs vs' = set_nth i (Some v) (vs_msgs vs) /\ vs_round vs' = v_round v) /\
  (b = false ->
     vs_msgs vs' = vs_msgs vs /\ vs_round vs' = vs_round vs /\
     (nth_error (vs_msgs vs) i = None \/
      exists w, nth_error (vs_msgs vs) i = Some (Some w) /\
        (same_content digest w v \/ 2 * n < 3 * tally (vdg w) (vs_msgs vs)))).
Proof.
  intros n vs i v V. unfold vs_add.
  destruct (nth_error (vs_msgs vs) i) as [[w|]|] eqn:Hi.
  - destruct (equal_except_sigs digest w v) eqn:EQ.
    + apply equal_except_sigs_spec in EQ. split; [exact V|]. split; [discriminate|].
      intros _. split; [reflexivity|]. split; [reflexivity|]. right. eauto.
    + assert (NE : ~ same_content digest w v).
      { intros F. apply equal_except_sigs_spec in F. congruence. }
      pose proof (vs_get_spec n vs V) as G. destruct (vs_get vs) as (q, vs1).
      destruct G as (V1 & E1 & E2 & E3 & E4 & E5 & Q1 & Q2).
      assert (ST : vsinv n (vs_store digest i v
         (mkVoteset (vs_msgs vs1) (vs_max vs1) (vs_mask vs1) (vs_round vs1)
            (counters_dec (vdg w) (vs_counters vs1)) (vs_count vs1 - 1)))).
      { destruct (dec_ok _ _ i w (vi_exact _ _ V1)) as (W & N & P & Q); [now rewrite E1|].
        apply store_inv with (o := Some w); auto.
        - now rewrite E1.
        - cbn. rewrite (vi_count _ _ V1).
          assert (0 < List.length (vs_votes vs1)); [|lia].
          unfold vs_votes. rewrite E1. pose proof (somes_set _ i (Some w) v _ Hi).
          assert (In w (somes (vs_msgs vs))) as HI.
          { clear - Hi. revert i Hi. induction (vs_msgs vs) as [|m l IH]; intros [|i] H; cbn in H; try discriminate.
            - injection H as ->. left. reflexivity.
            - destruct m; cbn; [right|]; eapply IH; eauto. }
          destruct (somes (vs_msgs vs)); [contradiction|cbn; lia]. }
      destruct q as [(dg, id)|].
      * destruct (Q1 dg id eq_refl) as (QT & _).
        destruct (zlist_eqb dg (vdg w)) eqn:ED.
        { apply zlist_eqb_eq in ED. subst dg. split; [exact V1|]. split; [discriminate|].
          intros _. split; [exact E1|]. split; [exact E3|]. right. exists w. auto. }
        { apply zlist_eqb_neq in ED. split; [exact ST|]. split; [|discriminate].
          intros _. split.
          - exists (Some w). split; [reflexivity|]. split; [exact NE|].
            intros F. destruct (Q2 _ F) as (id' & E). injection E as E _. congruence.
          - cbn. rewrite E1. split; reflexivity. }
      * split; [exact ST|]. split; [|discriminate]. intros _. split.
        { exists (Some w). split; [reflexivity|]. split; [exact NE|].
          intros F. destruct (Q2 _ F) as (id' & E). discriminate E. }
        { cbn. rewrite E1. split; reflexivity. }
  - split; [|split; [|discriminate]].
    + assert (ST := store_inv n vs i v None (vs_counters vs) (vs_count vs) V Hi).
      destruct vs as [ms mi mk rd cs ct]. apply ST; clear ST; cbn in *.
      * intros dg. rewrite (ex_weight _ _ (vi_exact _ _ V)). cbn. lia.
      * exact (ex_nodup _ _ (vi_exact _ _ V)).
      * exact (ex_pos _ _ (vi_exact _ _ V)).
      * exact (ex_parts _ _ (vi_exact _ _ V)).
      * rewrite (vi_count _ _ V : ct = _). cbn. lia.
    + intros _. split; [exists None; auto|]. split; reflexivity.
  - split; [exact V|]. split; [discriminate|]. intros _. repeat split; auto.
Qed.

End Facts.

Section Runs.
Variable digest : decision -> list Z.

Notation vrun := (vrun digest).
Notation vstep := (vstep digest).

Lemma vrun_snoc : forall h o vs, vrun (h ++ [o]) vs = vstep (vrun h vs) o.
Proof. intros. unfold vrun. now rewrite fold_left_app. Qed.

Definition held (vs : voteset) (i : nat) : option vote :=
  match nth_error (vs_msgs vs) i with Some m => m | None => None end.

Lemma backers_tally_seq : forall dg l k,
  List.length (filter (fun i => match (match nth_error l (i - k) with Some m => m | None => None end) with
                      | Some v => if list_eq_dec Z.eq_dec (digest (v_dec v)) dg then true else false
                      | None => false
                      end) (seq k (List.length l))) = tally digest dg l.
Proof.
  unfold tally. induction l as [|m l IH]; intros k; cbn [List.length seq filter]; [reflexivity|].
  replace (k - k) with 0 by lia. cbn [nth_error].
  assert (E : List.length (filter (fun i => match (match nth_error (m :: l) (i - k) with Some m => m | None => None end) with
                      | Some v => if list_eq_dec Z.eq_dec (digest (v_dec v)) dg then true else false
                      | None => false
                      end) (seq (S k) (List.length l))) = List.length (filter (backs digest dg) l)).
  { rewrite <- (IH (S k)). f_equal. apply filter_ext_in. intros i Hi. apply in_seq in Hi.
    replace (i - k) with (S (i - S k)) by lia. reflexivity. }
  destruct m as [v|]; cbn [backs].
  - destruct (list_eq_dec Z.eq_dec (digest (v_dec v)) dg) as [Y|Y].
    + assert (Z1 : zlist_eqb (v_digest digest v) dg = true) by (now apply zlist_eqb_eq).
      rewrite Z1. cbn [List.length]. f_equal. exact E.
    + assert (Z1 : zlist_eqb (v_digest digest v) dg = false) by (now apply zlist_eqb_neq).
      rewrite Z1. exact E.
  - exact E.
Qed.

Lemma backers_ext : forall f g n dg, (forall i, i < n -> f i = g i) ->
  backers digest f n dg = backers digest g n dg.
Proof.
  intros f g n dg H. unfold backers. f_equal. apply filter_ext_in. intros i Hi.
  apply in_seq in Hi. rewrite H by lia. reflexivity.
Qed.

Lemma backers_tally : forall vs n dg, List.length (vs_msgs vs) = n ->
  backers digest (held vs) n dg = tally digest dg (vs_msgs vs).
Proof.
  intros vs n dg <-. rewrite <- (backers_tally_seq dg (vs_msgs vs) 0). unfold backers, held.
  f_equal. apply filter_ext. intros i. now rewrite Nat.sub_0_r.
Qed.

Lemma wins_ext : forall f g n dg, (forall i, i < n -> f i = g i) -> wins digest f n dg -> wins digest g n dg.
Proof. unfold wins. intros f g n dg H. rewrite (backers_ext f g n dg H). auto. Qed.

Lemma vrun_ok : forall n h f, on_record digest n h f ->
  vsinv digest n (vrun h (vs_new n)) /\ (forall i, i < n -> held (vrun h (vs_new n)) i = f i) /\
  (forall i, n <= i -> f i = None).
Proof.
  intros n h f R. induction R as [|h f R IH|h f i v R IH T|h f i v R IH T].
  - split; [apply vsinv_new|]. split; [|reflexivity]. intros i Hi. unfold held. cbn.
    destruct (nth_error (repeat None n) i) eqn:E; [|reflexivity].
    apply nth_error_In, repeat_spec in E. exact E.
  - destruct IH as (V & H & O). rewrite vrun_snoc. cbn.
    pose proof (vs_get_spec digest n _ V) as G. destruct (vs_get (vrun h (vs_new n))) as (q, vs').
    destruct G as (V' & E & _). cbn. split; [exact V'|]. split; [|exact O].
    intros i Hi. unfold held. rewrite E. apply (H i Hi).
  - destruct IH as (V & H & O). rewrite vrun_snoc. cbn.
    destruct T as (Hi & T). pose proof (vs_add_spec digest n _ i v V) as G.
    destruct (vs_add digest i v (vrun h (vs_new n))) as (b, vs'). destruct G as (V' & GT & GF). cbn.
    assert (L : i < List.length (vs_msgs (vrun h (vs_new n)))) by (rewrite (vi_len _ _ _ V); exact Hi).
    assert (B : b = true).
    { destruct b; [reflexivity|]. exfalso. destruct (GF eq_refl) as (_ & _ & [D|(w & D & S')]).
      - apply nth_error_None in D. lia.
      - rewrite <- (H i Hi) in T. unfold held in T. rewrite D in T. destruct T as (T1 & T2).
        destruct S' as [S'|S']; [exact (T1 S')|]. apply T2. unfold wins.
        rewrite <- (backers_ext (held (vrun h (vs_new n)))) by exact H.
        rewrite backers_tally by apply (vi_len _ _ _ V). exact S'. }
    destruct (GT B) as (_ & E & _). split; [exact V'|]. split.
    + intros j Hj. unfold held. rewrite E. destruct (Nat.eqb j i) eqn:J.
      * apply Nat.eqb_eq in J. subst j. now rewrite set_nth_same.
      * apply Nat.eqb_neq in J. rewrite set_nth_other by auto. apply (H j Hj).
    + intros j Hj. destruct (Nat.eqb j i) eqn:J; [apply Nat.eqb_eq in J; lia|auto].
  - destruct IH as (V & H & O). rewrite vrun_snoc. cbn.
    pose proof (vs_add_spec digest n _ i v V) as G.
    destruct (vs_add digest i v (vrun h (vs_new n))) as (b, vs'). destruct G as (V' & GT & GF). cbn.
    split; [exact V'|]. split; [|exact O].
    destruct b.
    + exfalso. apply T. destruct (GT eq_refl) as ((o & D & S') & _).
      assert (Hi : i < n) by (rewrite <- (vi_len _ _ _ V); apply nth_error_Some; congruence).
      split; [exact Hi|]. rewrite <- (H i Hi). unfold held. rewrite D.
      destruct o as [w|]; [|tauto]. destruct S' as (S1 & S2). split; [exact S1|].
      intros F. apply S2. unfold wins in F.
      rewrite <- (backers_ext (held (vrun h (vs_new n)))) in F by exact H.
      rewrite backers_tally in F by apply (vi_len _ _ _ V). exact F.
    + destruct (GF eq_refl) as (E & _ & _). intros j Hj. unfold held. rewrite E. apply (H j Hj).
Qed.

Lemma wins_dec : forall f n dg, {wins digest f n dg} + {~ wins digest f n dg}.
Proof. intros. unfold wins. apply lt_dec. Qed.

Lemma same_content_dec : forall a b, {same_content digest a b} + {~ same_content digest a b}.
Proof.
  intros a b. destruct (equal_except_sigs digest a b) eqn:E.
  - left. now apply equal_except_sigs_spec.
  - right. intros F. apply equal_except_sigs_spec in F. congruence.
Qed.

Lemma taken_dec : forall f n i v, {taken digest f n i v} + {~ taken digest f n i v}.
Proof.
  intros f n i v. unfold taken. destruct (lt_dec i n) as [L|L]; [|right; tauto].
  destruct (f i) as [o|]; [|left; auto].
  destruct (same_content_dec o v) as [S'|S']; [right; tauto|].
  destruct (wins_dec f n (digest (v_dec o))) as [W|W]; [right; tauto|left; auto].
Qed.

Lemma record_exists : forall n h, exists f, on_record digest n h f.
Proof.
  intros n h. induction h as [|o h IH] using rev_ind; [eexists; constructor|].
  destruct IH as (f & R). destruct o as [i v|].
  - destruct (taken_dec f n i v) as [T|T]; eexists; [eapply rec_taken|eapply rec_left]; eauto.
  - eexists. apply rec_ask. exact R.
Qed.

(* ---- a decision that won stays ---- *)
Lemma backers_upd : forall f n i v dg, i < n ->
  backers digest (fun j => if Nat.eqb j i then Some v else f j) n dg
  + (match f i with Some o => if list_eq_dec Z.eq_dec (digest (v_dec o)) dg then 1 else 0 | None => 0 end)
  = backers digest f n dg + (if list_eq_dec Z.eq_dec (digest (v_dec v)) dg then 1 else 0).
Proof.
  intros f n i v dg Hi. unfold backers.
  set (p := fun o : option vote => match o with
            | Some w => if list_eq_dec Z.eq_dec (digest (v_dec w)) dg then true else false
            | None => false end).
  assert (G : forall l, NoDup l -> In i l ->
     List.length (filter (fun j => p (if Nat.eqb j i then Some v else f j)) l) + (if p (f i) then 1 else 0)
     = List.length (filter (fun j => p (f j)) l) + (if p (Some v) then 1 else 0)).
  { assert (G0 : forall l, ~ In i l ->
      filter (fun j => p (if Nat.eqb j i then Some v else f j)) l = filter (fun j => p (f j)) l).
    { intros l Hl. apply filter_ext_in. intros j Hj. destruct (Nat.eqb j i) eqn:E; [|reflexivity].
      apply Nat.eqb_eq in E. congruence. }
    induction l as [|x l IH]; intros N HI; [contradiction|]. inversion N as [|? ? Nx Nl]; subst.
    cbn [filter]. destruct HI as [->|HI].
    - rewrite Nat.eqb_refl, (G0 l Nx). destruct (p (Some v)), (p (f i)); cbn [List.length]; lia.
    - destruct (Nat.eqb x i) eqn:E; [apply Nat.eqb_eq in E; subst; contradiction|].
      specialize (IH Nl HI). destruct (p (f x)); cbn [List.length]; lia. }
  specialize (G (seq 0 n) (seq_NoDup n 0)). 
  assert (HI : In i (seq 0 n)) by (apply in_seq; lia). specialize (G HI).
  change (match f i with
          | Some o => if list_eq_dec Z.eq_dec (digest (v_dec o)) dg then 1 else 0
          | None => 0 end) with (match f i with
          | Some o => if list_eq_dec Z.eq_dec (digest (v_dec o)) dg then 1 else 0
          | None => 0 end).
  assert (E1 : (if p (f i) then 1 else 0) = match f i with
          | Some o => if list_eq_dec Z.eq_dec (digest (v_dec o)) dg then 1 else 0
          | None => 0 end).
  { unfold p. destruct (f i) as [o|]; [|reflexivity]. destruct (list_eq_dec _ _ _); reflexivity. }
  assert (E2 : (if p (Some v) then 1 else 0) = (if list_eq_dec Z.eq_dec (digest (v_dec v)) dg then 1 else 0)).
  { unfold p. destruct (list_eq_dec _ _ _); reflexivity. }
  rewrite <- E1, <- E2. exact G.
Qed.

Lemma wins_stable : forall n h f, on_record digest n h f ->
  forall dg h' f', wins digest f n dg -> on_record digest n (h ++ h') f' ->
  wins digest f' n dg /\ (forall i v, f i = Some v -> digest (v_dec v) = dg -> f' i = Some v).
Proof.
  intros n h f R dg h'. induction h' as [|o h' IH] using rev_ind; intros f' W R'.
  - rewrite app_nil_r in R'.
    destruct (vrun_ok _ _ _ R) as (_ & A & O). destruct (vrun_ok _ _ _ R') as (_ & A' & O').
    assert (E : forall i, f i = f' i).
    { intros i. destruct (lt_dec i n) as [L|L]; [rewrite <- A, <- A' by exact L; reflexivity|].
      rewrite O, O' by lia. reflexivity. }
    split; [eapply wins_ext; [|exact W]; auto|]. intros i v. rewrite E. auto.
  - rewrite app_assoc in R'. inversion R' as [Hn Hf|h0 f0 R0 E Ef|h0 f0 i v R0 T E Ef|h0 f0 i v R0 T E Ef].
    + symmetry in Hn. apply app_eq_nil in Hn. destruct Hn as (_ & Hn). discriminate Hn.
    + apply app_inj_tail in E. destruct E as (-> & _). subst f0. apply IH; auto.
    + apply app_inj_tail in E. destruct E as (-> & _).
      destruct (IH f0 W R0) as (W0 & K). destruct T as (Hi & T).
      assert (ND : forall w, f0 i = Some w -> digest (v_dec w) <> dg).
      { intros w Hw F. rewrite Hw in T. destruct T as (_ & T). apply T. rewrite F. exact W0. }
      split.
      * unfold wins in *. pose proof (backers_upd f0 n i v dg Hi) as B.
        destruct (f0 i) as [w|] eqn:Ew; [|destruct (list_eq_dec Z.eq_dec (digest (v_dec v)) dg); lia].
        destruct (list_eq_dec Z.eq_dec (digest (v_dec w)) dg) as [F|F]; [exfalso; exact (ND w eq_refl F)|].
        destruct (list_eq_dec Z.eq_dec (digest (v_dec v)) dg); lia.
      * intros j w Hw Hd. specialize (K j w Hw Hd). destruct (Nat.eqb j i) eqn:J; [|exact K].
        apply Nat.eqb_eq in J. subst j. exfalso. exact (ND w K Hd).
    + apply app_inj_tail in E. destruct E as (-> & _). subst f0. apply IH; auto.
Qed.

Lemma wins_unique : forall f n a b, wins digest f n a -> wins digest f n b -> a = b.
Proof.
  intros f n a b A B. destruct (list_eq_dec Z.eq_dec a b) as [E|E]; [exact E|exfalso].
  unfold wins, backers in *.
  assert (G : forall l, List.length (filter (fun i => match f i with
                      | Some v => if list_eq_dec Z.eq_dec (digest (v_dec v)) a then true else false
                      | None => false end) l)
      + List.length (filter (fun i => match f i with
                      | Some v => if list_eq_dec Z.eq_dec (digest (v_dec v)) b then true else false
                      | None => false end) l) <= List.length l).
  { induction l as [|x l IH]; cbn; [lia|]. destruct (f x) as [v|]; [|lia].
    destruct (list_eq_dec Z.eq_dec (digest (v_dec v)) a), (list_eq_dec Z.eq_dec (digest (v_dec v)) b); cbn; try lia.
    congruence. }
  specialize (G (seq 0 n)). rewrite seq_length in G. lia.
Qed.

End Runs.

(* ---------- the votes of a height ---------- *)
Lemma key_eqb_eq : forall a b, key_eqb a b = true <-> a = b.
Proof.
  intros (r, t) (r', t'). unfold key_eqb. cbn. rewrite andb_true_iff, Z.eqb_eq, vtype_eqb_eq.
  split; [intros (-> & ->); reflexivity|intros E; injection E as -> ->; auto].
Qed.

Lemma key_eqb_refl : forall a, key_eqb a a = true.
Proof. intros a. now apply key_eqb_eq. Qed.

Lemma h_find_put : forall k k' vs l,
  h_find k (h_put k' vs l) = if key_eqb k k' then Some vs else h_find k l.
Proof.
  intros k k' vs l. induction l as [|(k0, v0) l IH]; cbn.
  - destruct (key_eqb k k') eqn:E; reflexivity.
  - destruct (key_eqb k' k0) eqn:E; cbn.
    + apply key_eqb_eq in E. subst k0. destruct (key_eqb k k') eqn:E'; reflexivity.
    + rewrite IH. destruct (key_eqb k k0) eqn:E0; [|reflexivity].
      apply key_eqb_eq in E0. subst k0. destruct (key_eqb k k') eqn:E'; [|reflexivity].
      apply key_eqb_eq in E'. subst. rewrite key_eqb_refl in E. discriminate.
Qed.

Lemma h_votes_add : forall digest i v h r t,
  h_votes r t (snd (h_add digest i v h)) =
  if key_eqb (r, t) (v_round v, v_type v) then snd (vs_add digest i v (h_votes r t h)) else h_votes r t h.
Proof.
  intros digest i v h r t. unfold h_add.
  destruct (vs_add digest i v (h_votes (v_round v) (v_type v) h)) as (b, vs) eqn:A.
  unfold h_votes at 1. cbn. rewrite h_find_put.
  destruct (key_eqb (r, t) (v_round v, v_type v)) eqn:E; [|reflexivity].
  apply key_eqb_eq in E. injection E as -> ->. rewrite A. reflexivity.
Qed.

Lemma h_add_n : forall digest i v h, h_n (snd (h_add digest i v h)) = h_n h.
Proof. intros. unfold h_add. destruct (vs_add digest i v (h_votes (v_round v) (v_type v) h)). reflexivity. Qed.

Lemma h_find_filter : forall (p : Z -> bool) k l,
  h_find k (filter (fun e => p (fst (fst e))) l) = if p (fst k) then h_find k l else None.
Proof.
  intros p k l. induction l as [|(k0, v0) l IH]; cbn; [destruct (p (fst k)); reflexivity|].
  destruct (p (fst k0)) eqn:P; cbn.
  - rewrite IH. destruct (key_eqb k k0) eqn:E; [|reflexivity].
    apply key_eqb_eq in E. subst k0. now rewrite P.
  - rewrite IH. destruct (key_eqb k k0) eqn:E; [|reflexivity].
    apply key_eqb_eq in E. subst k0. now rewrite P.
Qed.

Lemma h_votes_prune : forall lower except h r t,
  h_votes r t (h_prune lower except h) =
  if Z.ltb r lower && negb (Z.eqb r except) then vs_new (h_n h) else h_votes r t h.
Proof.
  intros lower except h r t. unfold h_votes, h_prune. cbn.
  rewrite (h_find_filter (fun x => negb (Z.ltb x lower && negb (Z.eqb x except)))). cbn.
  destruct (Z.ltb r lower && negb (Z.eqb r except)); reflexivity.
Qed.

(* ---------- lists made of a vote set ---------- *)
Lemma somes_in : forall A (l : list (option A)) x, In x (somes l) <-> exists i, nth_error l i = Some (Some x).
Proof.
  induction l as [|m l IH]; intros x; cbn.
  - split; [tauto|]. intros ([|i] & H); discriminate H.
  - split.
    + intros H. destruct m as [y|].
      * destruct H as [->|H]; [exists 0; reflexivity|]. apply IH in H. destruct H as (i & H). exists (S i). exact H.
      * apply IH in H. destruct H as (i & H). exists (S i). exact H.
    + intros ([|i] & H); cbn in H.
      * injection H as ->. left. reflexivity.
      * destruct m; [right|]; apply IH; eauto.
Qed.

Lemma winning_length : forall digest dg l,
  List.length (filter (fun v => zlist_eqb dg (v_digest digest v)) (somes l)) = tally digest dg l.
Proof.
  intros digest dg l. unfold tally. induction l as [|[v|] l IH]; cbn; [reflexivity| |exact IH].
  assert (E : zlist_eqb dg (v_digest digest v) = zlist_eqb (v_digest digest v) dg).
  { destruct (zlist_eqb dg (v_digest digest v)) eqn:A.
    - apply zlist_eqb_eq in A. subst. symmetry. apply zlist_eqb_refl.
    - symmetry. apply zlist_eqb_neq. apply zlist_eqb_neq in A. congruence. }
  rewrite E. destruct (zlist_eqb (v_digest digest v) dg); cbn; auto.
Qed.

Lemma add_matching_ok : forall digest dg n l k vs,
  vsinv digest n vs -> k + List.length l = n ->
  (forall i, k <= i -> i < n -> nth_error (vs_msgs vs) i = Some None) ->
  let vs' := add_matching digest dg l k vs in
  vsinv digest n vs' /\
  (forall i, i < k -> nth_error (vs_msgs vs') i = nth_error (vs_msgs vs) i) /\
  (forall i m, nth_error l i = Some m ->
     nth_error (vs_msgs vs') (k + i) = Some (if backs digest dg m then m else None)).
Proof.
  intros digest dg n l. induction l as [|m l IH]; intros k vs V L F; cbn [add_matching].
  - split; [exact V|]. split; [reflexivity|]. intros [|i] x H; discriminate H.
  - cbn in L.
    set (vs1 := match m with
                | Some v => if zlist_eqb dg (v_digest digest v) then snd (vs_add digest k v vs) else vs
                | None => vs end).
    assert (H1 : vsinv digest n vs1 /\ nth_error (vs_msgs vs1) k = Some (if backs digest dg m then m else None) /\
                 (forall i, i <> k -> nth_error (vs_msgs vs1) i = nth_error (vs_msgs vs) i)).
    { assert (Fk : nth_error (vs_msgs vs) k = Some None) by (apply F; lia).
      unfold vs1. destruct m as [v|]; cbn [backs]; [|auto].
      destruct (zlist_eqb dg (v_digest digest v)) eqn:E.
      - apply zlist_eqb_eq in E. subst dg. rewrite zlist_eqb_refl.
        pose proof (vs_add_spec digest n vs k v V) as G.
        destruct (vs_add digest k v vs) as (b, vs2). destruct G as (V2 & GT & GF). cbn.
        destruct b.
        + destruct (GT eq_refl) as (_ & EM & _). split; [exact V2|]. rewrite EM. split.
          * apply set_nth_same. rewrite (vi_len _ _ _ V). lia.
          * intros i Hi. apply set_nth_other. congruence.
        + destruct (GF eq_refl) as (_ & _ & [D|(w & D & _)]); congruence.
      - apply zlist_eqb_neq in E.
        assert (E' : zlist_eqb (v_digest digest v) dg = false) by (apply zlist_eqb_neq; congruence).
        rewrite E'. auto. }
    destruct H1 as (V1 & K1 & O1).
    assert (EQ : add_matching digest dg (m :: l) k vs = add_matching digest dg l (S k) vs1).
    { unfold vs1. destruct m; reflexivity. }
    cbn [add_matching] in EQ. rewrite EQ.
    destruct (IH (S k) vs1 V1) as (V2 & A2 & B2); [lia|intros i Hi Hn; rewrite O1 by lia; apply F; lia|].
    split; [exact V2|]. split.
    + intros i Hi. rewrite A2 by lia. apply O1. lia.
    + intros [|i] x Hx; cbn in Hx.
      * injection Hx as <-. rewrite Nat.add_0_r, A2 by lia. exact K1.
      * replace (k + S i) with (S k + i) by lia. apply B2. exact Hx.
Qed.
