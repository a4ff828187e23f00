From Verif Require Import Model.Bytes Model.IntCodec Model.Rlp Model.BtpMerkle Model.BtpSection Spec.BtpMerkleSpec Spec.BtpSectionSpec.
From Coq Require Import Sorting.Sorted Sorting.Permutation.
Open Scope Z_scope.

Lemma search_ok f : forall fuel lo hi, (hi - lo <= fuel)%nat -> (lo <= hi)%nat ->
  (forall a b, (lo <= a <= b)%nat -> (b < hi)%nat -> f a = true -> f b = true) ->
  let r := search fuel f lo hi in (lo <= r <= hi)%nat /\ (forall k, (lo <= k < r)%nat -> f k = false) /\ (forall k, (r <= k < hi)%nat -> f k = true).
Proof.
  induction fuel as [|n IH]; intros lo hi L O M; cbn [search]; cbv zeta.
  - split; [lia|]. split; intros; lia.
  - destruct (lo <? hi)%nat eqn:E; [apply Nat.ltb_lt in E|apply Nat.ltb_ge in E; split; [lia|]; split; intros; lia].
    assert (Hm : (lo <= Nat.div2 (lo + hi) < hi)%nat).
    { rewrite Nat.div2_div. split; [apply Nat.div_le_lower_bound; lia|apply Nat.div_lt_upper_bound; lia]. }
    set (h := Nat.div2 (lo + hi)) in *. destruct (f h) eqn:Ef.
    + destruct (IH lo h) as (A & B & C); [lia|lia|intros a b X Y Z; apply (M a b); lia||exact Z|].
      split; [lia|]. split; [exact B|]. intros k K. destruct (Nat.lt_ge_cases k h); [apply C; lia|]. apply (M h k); [lia|lia|exact Ef].
    + destruct (IH (S h) hi) as (A & B & C); [lia|lia|intros a b X Y Z; apply (M a b); lia||exact Z|].
      split; [lia|]. split; [|exact C]. intros k K. destruct (Nat.lt_ge_cases h k); [apply B; lia|]. destruct (f k) eqn:Ek; [|reflexivity].
      rewrite (M k h) in Ef; [discriminate Ef|lia|lia|exact Ek].
Qed.

Section Sorted.
Context {A : Type} (id : A -> Z).

Lemma asc_nth : forall l, ascending (map id l) -> forall a b x y, (a < b)%nat -> nth_error l a = Some x -> nth_error l b = Some y -> id x < id y.
Proof.
  unfold ascending. induction l as [|z l IH]; intros S a b x y L Ea Eb; [destruct a; discriminate Ea|]. cbn [map] in S. apply StronglySorted_inv in S as [S F].
  destruct b as [|b]; [lia|]. destruct a as [|a]; cbn in Ea, Eb.
  - injection Ea as <-. apply nth_error_In in Eb. rewrite Forall_forall in F. apply F. now apply in_map.
  - eapply IH; [exact S|..|exact Ea|exact Eb]. lia.
Qed.
Lemma place l n : ascending (map id l) ->
  let i := sort_search (length l) (fun k => match nth_error l k with Some y => n <=? id y | None => false end) in
  (i <= length l)%nat /\ (forall y, In y (firstn i l) -> id y < n) /\ (forall y, In y (skipn i l) -> n <= id y).
Proof.
  intros S. cbv zeta. unfold sort_search. set (f := fun k => _).
  destruct (search_ok f (length l) 0 (length l)) as (R & B & C); [lia|lia| |].
  - intros a b X Y E. subst f. cbn beta in *. destruct (nth_error l a) as [x|] eqn:Ea; [|discriminate E]. destruct (nth_error l b) as [y|] eqn:Eb; [|apply nth_error_None in Eb; lia].
    apply Z.leb_le in E. apply Z.leb_le. destruct (Nat.eq_dec a b) as [->|N]; [assert (x = y) by congruence; subst; exact E|]. assert (Z1 : id x < id y) by (apply (asc_nth l S a b x y); [lia|exact Ea|exact Eb]). lia.
  - set (i := search _ _ _ _) in *. split; [lia|]. split.
    + intros y I. apply In_nth_error in I as [k Ek]. assert (K : (k < length (firstn i l))%nat) by (apply nth_error_Some; congruence). rewrite firstn_length in K.
      assert (Ek' : nth_error l k = Some y) by (rewrite <- (firstn_skipn i l), nth_error_app1; [exact Ek|rewrite firstn_length; lia]).
      specialize (B k ltac:(lia)). unfold f in B. rewrite Ek' in B. apply Z.leb_gt in B. lia.
    + intros y I. apply In_nth_error in I as [k Ek]. assert (K : (k < length (skipn i l))%nat) by (apply nth_error_Some; congruence). rewrite skipn_length in K.
      assert (Ek' : nth_error l (i + k) = Some y).
      { rewrite <- (firstn_skipn i l), nth_error_app2; rewrite firstn_length; [|lia]. replace (i + k - Nat.min i (length l))%nat with k by lia. exact Ek. }
      specialize (C (i + k)%nat ltac:(lia)). unfold f in C. rewrite Ek' in C. apply Z.leb_le in C. exact C.
Qed.
Lemma sorted_insert_split l x : exists i, (i <= length l)%nat /\ sorted_insert id l x = firstn i l ++ x :: skipn i l
  /\ (ascending (map id l) -> (forall y, In y (firstn i l) -> id y < id x) /\ (forall y, In y (skipn i l) -> id x <= id y)).
Proof.
  unfold sorted_insert. cbv zeta. set (i := sort_search _ _).
  assert (Li : (i <= length l)%nat).
  { unfold i, sort_search. assert (G : forall fuel f lo hi, (lo <= hi)%nat -> (search fuel f lo hi <= hi)%nat).
    { induction fuel as [|n IH]; intros f lo hi O; cbn [search]; [exact O|]. destruct (lo <? hi)%nat eqn:E; [|exact O]. apply Nat.ltb_lt in E.
      assert (Hm : (Nat.div2 (lo + hi) < hi /\ lo <= Nat.div2 (lo + hi))%nat) by (rewrite Nat.div2_div; split; [apply Nat.div_lt_upper_bound; lia|apply Nat.div_le_lower_bound; lia]).
      cbv zeta. destruct (f (Nat.div2 (lo + hi))); [specialize (IH f lo (Nat.div2 (lo + hi)))|specialize (IH f (S (Nat.div2 (lo + hi))) hi)]; lia. }
    apply G. lia. }
  exists i. split; [exact Li|]. split.
  - destruct (Nat.eqb i (length l)) eqn:E.
    + apply Nat.eqb_eq in E. rewrite E, firstn_all, skipn_all. reflexivity.
    + apply Nat.eqb_neq in E. do 2 f_equal. rewrite skipn_app. rewrite skipn_all2 by (rewrite firstn_length; lia). cbn [app]. rewrite firstn_length. replace (S i - Nat.min (S i) (length l))%nat with O by lia. reflexivity.
  - intro S. pose proof (place l (id x) S) as P. cbv zeta in P. fold i in P. tauto.
Qed.
Lemma sorted_insert_perm l x : Permutation (x :: l) (sorted_insert id l x).
Proof.
  destruct (sorted_insert_split l x) as (i & _ & -> & _). rewrite <- (firstn_skipn i l) at 1. apply Permutation_middle.
Qed.
Lemma asc_app a b : ascending (map id a) -> ascending (map id b) -> (forall x y, In x a -> In y b -> id x < id y) -> ascending (map id (a ++ b)).
Proof.
  unfold ascending. induction a as [|z a IH]; intros Sa Sb L; [exact Sb|]. cbn [map app] in *. apply StronglySorted_inv in Sa as [Sa F]. constructor.
  - apply IH; [exact Sa|exact Sb|]. intros x y X Y. apply L; [now right|exact Y].
  - rewrite map_app. apply Forall_app. split; [exact F|]. apply Forall_forall. intros w W. apply in_map_iff in W as (y & <- & Y). apply L; [now left|exact Y].
Qed.
Lemma asc_part i l : ascending (map id l) -> ascending (map id (firstn i l)) /\ ascending (map id (skipn i l)).
Proof.
  unfold ascending. revert l. induction i as [|i IH]; intros l S; [split; [constructor|exact S]|]. destruct l as [|z l]; [split; constructor|].
  cbn [map firstn skipn] in *. apply StronglySorted_inv in S as [S F]. destruct (IH l S) as [X Y]. split; [|exact Y]. constructor; [exact X|].
  apply Forall_forall. intros w W. apply in_map_iff in W as (y & <- & I). rewrite Forall_forall in F. apply F. apply in_map. rewrite <- (firstn_skipn i l). apply in_or_app. now left.
Qed.
Lemma sorted_insert_asc l x : ascending (map id l) -> ~ In (id x) (map id l) -> ascending (map id (sorted_insert id l x)).
Proof.
  intros S N. destruct (sorted_insert_split l x) as (i & Li & -> & P). destruct (P S) as [P1 P2]. destruct (asc_part i l S) as [S1 S2].
  assert (N2 : forall y, In y (skipn i l) -> id x < id y).
  { intros y Y. specialize (P2 y Y). assert (id y <> id x); [|lia]. intro E. apply N. rewrite <- E. apply in_map. rewrite <- (firstn_skipn i l). apply in_or_app. now right. }
  apply asc_app; [exact S1| |].
  - cbn [map]. constructor; [exact S2|]. apply Forall_forall. intros w W. apply in_map_iff in W as (y & <- & Y). now apply N2.
  - intros a b X [<-|Y]; [now apply P1|]. specialize (P1 a X). specialize (N2 b Y). lia.
Qed.
Lemma asc_same : forall l m, ascending (map id l) -> ascending (map id m) -> (forall x, In x l <-> In x m) -> l = m.
Proof.
  unfold ascending. induction l as [|a l IH]; intros m Sl Sm E.
  - destruct m as [|b m]; [reflexivity|]. destruct (proj2 (E b)). now left.
  - destruct m as [|b m]; [destruct (proj1 (E a)); now left|]. cbn [map] in *. apply StronglySorted_inv in Sl as [Sl Fl]. apply StronglySorted_inv in Sm as [Sm Fm].
    rewrite Forall_forall in Fl, Fm.
    assert (Eab : a = b).
    { destruct (proj1 (E a) (or_introl eq_refl)) as [X|X]; [now symmetry|]. destruct (proj2 (E b) (or_introl eq_refl)) as [Y|Y]; [exact Y|].
      pose proof (Fm _ (in_map id _ _ X)). pose proof (Fl _ (in_map id _ _ Y)). lia. }
    subst b. f_equal. apply IH; [exact Sl|exact Sm|]. intro x. split; intro X.
    + destruct (proj1 (E x) (or_intror X)) as [<-|Y]; [|exact Y]. pose proof (Fl _ (in_map id _ _ X)). lia.
    + destruct (proj2 (E x) (or_intror X)) as [<-|Y]; [|exact Y]. pose proof (Fm _ (in_map id _ _ X)). lia.
Qed.
Lemma find_id_ok l n : ascending (map id l) ->
  match find_id id l n with
  | Some i => exists x, nth_error l i = Some x /\ id x = n
  | None => forall x, In x l -> id x <> n
  end.
Proof.
  intro As. unfold find_id. pose proof (place l n As) as P. cbv zeta in P. cbv zeta. set (i := sort_search _ _) in *. destruct P as (Li & P1 & P2).
  destruct (nth_error l i) as [y|] eqn:Ey.
  - destruct (id y =? n) eqn:En; [exists y; split; [exact Ey|lia]|]. apply Z.eqb_neq in En. intros x X E. apply In_nth_error in X as [k Ek].
    assert (Sk : skipn i l = y :: skipn (S i) l).
    { clearbody i. clear - Ey. revert i Ey. induction l as [|z l IH]; intros [|i] Ey; try discriminate Ey; cbn in *; [congruence|]. now apply IH. }
    assert (Yi : In y (skipn i l)) by (rewrite Sk; now left). specialize (P2 y Yi) as Py.
    destruct (Nat.lt_trichotomy k i) as [K|[K|K]].
    + assert (In x (firstn i l)); [|specialize (P1 x H); lia]. assert (Ek' : nth_error (firstn i l) k = Some x) by (rewrite <- Ek; rewrite <- (firstn_skipn i l) at 2; rewrite nth_error_app1; [reflexivity|rewrite firstn_length; lia]).
      eapply nth_error_In, Ek'.
    + subst k. congruence.
    + pose proof (asc_nth l As i k y x K Ey Ek). lia.
  - intros x X E. apply nth_error_None in Ey. rewrite firstn_all2 in P1 by exact Ey. specialize (P1 x X). lia.
Qed.
Lemma asc_nodup l : ascending (map id l) -> NoDup (map id l).
Proof.
  unfold ascending. induction (map id l) as [|z m IH]; intro S; constructor; apply StronglySorted_inv in S as [S F]; [|now apply IH].
  intro I. rewrite Forall_forall in F. specialize (F z I). lia.
Qed.
End Sorted.
