(** The filter of the whole pool. *)
From Coq Require Import ZArith List Bool Arith Lia.
From Verif Require Import Model.Bytes Model.TxPool Spec.TxPoolSpec Proof.TxPoolFacts Proof.TxPoolInv Proof.TxPoolAdd
  Proof.TxPoolOps Proof.TxPoolCollect Proof.TxPoolSys.
Import ListNotations.
Open Scope Z_scope.

Definition ahead (s : pool_list) (a b : addr) : Prop :=
  forall x y, blm s a = Some x -> blm s b = Some y -> reach (bnext s) x y.

Lemma fop_filter {A} (R : A -> A -> Prop) f l : ForallOrdPairs R l -> ForallOrdPairs R (filter f l).
Proof.
  induction 1 as [|a l Ha H IH]; [constructor|]. cbn [filter]. destruct (f a); [|exact IH].
  constructor; [|exact IH]. rewrite Forall_forall in Ha |- *. intros x Hx. apply filter_In in Hx. now apply Ha.
Qed.

Lemma ahead_kept s s' l f : kept s s' -> ForallOrdPairs (ahead s) l -> ForallOrdPairs (ahead s') (filter f l).
Proof.
  intros [_ _ _ M _ N] H. apply fop_filter. refine (fop_ext (ahead s) _ _ _ H).
  intros x y _ _. unfold ahead. now rewrite M, N.
Qed.

Lemma place_last s t e l : (forall a, In a l -> t_from (txs s a) = t_from t -> t_time (txs s a) <= t_time t) ->
  place_tx s t e l = l ++ [e].
Proof.
  induction l as [|a r IH]; intros H; [reflexivity|]. cbn [place_tx app].
  replace (bytes_eqb (t_from (txs s a)) (t_from t) && (t_time t <? t_time (txs s a))) with false.
  - f_equal. apply IH. intros x Hx. apply H. now right.
  - symmetry. destruct (bytes_eqb (t_from (txs s a)) (t_from t)) eqn:E; [|reflexivity]. cbn [andb].
    apply Z.ltb_ge. apply H; [now left | now apply bytes_eqb_eq].
Qed.

Lemma reach_old nx nx' n a b : (forall x m, (x < n)%nat -> nx x = Some m -> (m < n)%nat /\ nx' x = Some m) ->
  (a < n)%nat -> reach nx a b -> reach nx' a b.
Proof.
  intros H Ha R. revert Ha. induction R as [|a m b E _ IH]; intros Ha; [constructor|].
  destruct (H a m Ha E) as [Hm E']. exact (reach_step _ _ _ _ E' (IH Hm)).
Qed.

Section Bloom.
  Context {world : Type}.

  Definition filed (s : pool_list) (l : list addr) (done : list (op world)) : Prop :=
    rep s l /\ ForallOrdPairs (ahead s) l /\ (forall a, In a l -> exists d, In (Add (txs s a) d) done).

  Lemma filed_kept s s' l f done o : filed s l done -> kept s s' -> rep s' (filter f l) -> filed s' (filter f l) (done ++ [o]).
  Proof.
    intros (R & H & D) K R'. split; [exact R'|]. split; [exact (ahead_kept _ _ _ _ K H)|].
    intros a Ha. apply filter_In in Ha. rewrite (g_txs _ _ K). destruct (D a (proj1 Ha)) as [d Hd].
    exists d. apply in_or_app. now left.
  Qed.

  Lemma filed_step size s pending l done (o : op world) s' pending' ev :
    good size s pending l -> filed s l done -> in_turn (done ++ [o]) ->
    step size (s, pending) o = Some ((s', pending'), ev) ->
    exists l', good size s' pending' l' /\ filed s' l' (done ++ [o]).
  Proof.
    intros G F T E. destruct o as [t d|ids|bts|lo hi recent pre mb mc w|k]; cbn [step] in E.
    - destruct (add_good size s pending l t d G) as (s1 & a & l1 & E1 & G1 & O & _). rewrite E1 in E.
      injection E as <- <- <-. exists l1. split; [exact G1|].
      assert (R := o_rep _ _ _ _ G). unfold pool_add in E1.
      destruct F as (_ & Hah & Hd).
      assert (Hdup : s1 = s -> filed s1 l1 (done ++ [Add t d])).
      { intros ->. assert (l1 = l).
        { rewrite <- (walk_rep s l1 (o_rep _ _ _ _ G1)). apply (walk_rep s l R). }
        subst l1. split; [exact R|]. split; [exact Hah|]. intros x Hx. destruct (Hd x Hx) as [d0 Hd0].
        exists d0. apply in_or_app. now left. }
      destruct (size <=? len s); [injection E1 as <- _; now apply Hdup|].
      assert (Hq := list_add_ok s l t d R). destruct (list_add s t d) as [s2| |];
        [injection E1 as <- <- | injection E1 as <- _; now apply Hdup | destruct Hq].
      destruct Hq as (_ & p1 & p2 & El & Epl & R2 & F2 & T2 & _ & _ & M2 & N2 & B2 & Hre).
      assert (l1 = p1 ++ fresh s :: p2).
      { rewrite <- (walk_rep s2 l1 (o_rep _ _ _ _ G1)). apply (walk_rep s2 _ R2). }
      subst l1.
      assert (Hne : ~ In (fresh s) l) by (intros Hi; apply (r_fresh _ _ R) in Hi; lia).
      rewrite place_last in Epl.
      2:{ intros a Ha Ef. destruct (Hd a Ha) as [d0 Hd0]. apply fop_app in T. destruct T as (_ & _ & T).
          exact (T _ _ Hd0 (or_introl eq_refl) Ef). }
      assert (p2 = []).
      { destruct p2 as [|x p2]; [reflexivity|]. exfalso. rewrite El in Epl. rewrite <- app_assoc in Epl.
        apply app_inv_head in Epl. cbn [app] in Epl. injection Epl as -> _.
        apply Hne. rewrite El. apply in_or_app. right. now left. }
      subst p2. rewrite app_nil_r in El. subst p1.
      split; [exact R2|]. split.
      + assert (Bl := r_bloom _ _ R).
        assert (Hold : forall x y, In x l -> In y l -> ahead s x y -> ahead s2 x y).
        { intros x y Hx Hy A u v Eu Ev. rewrite M2 in Eu by exact Hx. rewrite M2 in Ev by exact Hy.
          destruct (b_has _ _ Bl x Hx) as (u' & Eu' & Hu & _). assert (u' = u) by congruence. subst u'.
          apply (reach_old (bnext s) _ (bfresh s)); [|exact Hu | exact (A u v Eu Ev)].
          intros z m Hz Ez. split; [apply (b_next _ _ Bl z m Hz Ez) | exact (N2 z m Hz Ez)]. }
        apply fop_app. split; [apply (fop_ext (ahead s)); assumption|].
        split; [repeat constructor|].
        intros x y Hx [<-|[]] u v Eu Ev. rewrite M2 in Eu by exact Hx.
        destruct (last_error l) as [z|] eqn:Ez; [|apply last_error_nil in Ez; subst l; destruct Hx].
        destruct Hre as (b & b' & Eb & Eb' & Hr). assert (b' = v) by congruence. subst b'.
        destruct (last_error_split _ _ Ez) as [l0 ->].
        apply in_app_or in Hx. destruct Hx as [Hx|[->|[]]].
        * apply (reach_trans _ _ b); [|exact Hr].
          apply fop_app in Hah. destruct Hah as (_ & _ & Hah). specialize (Hah x z Hx (or_introl eq_refl)).
          apply (Hold x z); [apply in_or_app; now left | apply in_or_app; right; now left | exact Hah | |].
          -- rewrite M2; [exact Eu | apply in_or_app; now left].
          -- rewrite M2; [exact Eb | apply in_or_app; right; now left].
        * assert (b = u) by congruence. subst b. exact Hr.
      + intros a Ha. apply in_app_or in Ha. rewrite T2. destruct Ha as [Ha|[<-|[]]].
        * rewrite upd_other by (intros ->; contradiction). destruct (Hd a Ha) as [d0 Hd0].
          exists d0. apply in_or_app. now left.
        * rewrite upd_same. exists d. apply in_or_app. right. now left.
    - injection E as <- <- <-. destruct (remove_good size s pending l ids G) as (G' & O & K & _).
      eexists. split; [exact G'|]. exact (filed_kept _ _ _ _ _ _ F K (o_rep _ _ _ _ G')).
    - destruct (drop_old_good size s pending l bts G) as (s1 & E1 & G' & O & K & _). rewrite E1 in E.
      injection E as <- <- <-.
      eexists. split; [exact G'|]. exact (filed_kept _ _ _ _ _ _ F K (o_rep _ _ _ _ G')).
    - destruct (candidate lo hi recent pre s mb mc w) as [[[[c n] d] s1] m] eqn:E1. injection E as <- <- <-.
      destruct (collect_good size s pending l lo hi recent pre mb mc w c n d s1 m G E1) as (Q & G' & O).
      destruct (q_state _ _ _ _ _ _ _ _ _ _ _ _ _ _ _ Q) as (e & Es).
      exists l. split; [exact G'|]. assert (K : kept s s1) by (rewrite Es; apply kept_err).
      assert (Hq := filed_kept s s1 l (fun _ => true) done (Collect lo hi recent pre mb mc w) F K).
      rewrite filter_skip in Hq by reflexivity. apply Hq. apply (o_rep _ _ _ _ G').
    - destruct (finish_good size s pending l k G) as (s1 & out & E1 & G' & O & K & _). rewrite E1 in E.
      injection E as <- <- <-.
      eexists. split; [exact G'|]. exact (filed_kept _ _ _ _ _ _ F K (o_rep _ _ _ _ G')).
  Qed.

  Lemma in_turn_prefix (h1 h2 : list (op world)) : in_turn (h1 ++ h2) -> in_turn h1.
  Proof. intros H. apply fop_app in H. apply H. Qed.

  Lemma filed_play size : forall (h : list (op world)) s pending l done p,
    good size s pending l -> filed s l done -> in_turn (done ++ h) -> play size (s, pending) h = Some p ->
    exists l', good size (fst p) (snd p) l' /\ filed (fst p) l' (done ++ h).
  Proof.
    induction h as [|o h IH]; intros s pending l done p G F T E.
    - injection E as <-. exists l. rewrite app_nil_r. split; assumption.
    - cbn [play] in E. destruct (step size (s, pending) o) as [[[s1 pd1] ev]|] eqn:Es; [|discriminate].
      replace (done ++ o :: h) with ((done ++ [o]) ++ h) in * by (rewrite <- app_assoc; reflexivity).
      destruct (filed_step size s pending l done o s1 pd1 ev G F (in_turn_prefix _ _ T) Es) as (l1 & G1 & F1).
      exact (IH s1 pd1 l1 (done ++ [o]) p G1 F1 T E).
  Qed.
End Bloom.

Lemma get_bloom_some s l : rep s l -> exists b, get_bloom s = Some b.
Proof.
  intros R. unfold get_bloom. rewrite (k_front _ _ (r_links _ _ R)). destruct l as [|a l]; [now eexists|]. cbn [hd_error].
  destruct (b_has _ _ (r_bloom _ _ R) a (or_introl eq_refl)) as (x & Ex & Hx & _). rewrite Ex.
  destruct (bloom_chain_ok s _ (r_bloom _ _ R) (bfresh s) x no_bloom Hx ltac:(lia)) as (z & Ez & _); [left; split; reflexivity|].
  exists z. exact Ez.
Qed.

Lemma get_bloom_all s l : rep s l -> ForallOrdPairs (ahead s) l ->
  exists b, get_bloom s = Some b /\ forall a, In a l -> contains b (t_id (txs s a)) = true.
Proof.
  intros R H. unfold get_bloom. rewrite (k_front _ _ (r_links _ _ R)).
  destruct l as [|a l]; [exists no_bloom; split; [reflexivity | intros a []]|]. cbn [hd_error].
  destruct (b_has _ _ (r_bloom _ _ R) a (or_introl eq_refl)) as (x & Ex & Hx & Hc). rewrite Ex.
  destruct (bloom_chain_ok s _ (r_bloom _ _ R) (bfresh s) x no_bloom Hx ltac:(lia)) as (z & Ez & _ & Hz);
    [left; split; reflexivity|].
  exists z. split; [exact Ez|]. intros y [<-|Hy]; [apply (Hz x); [constructor | exact Hc]|].
  destruct (b_has _ _ (r_bloom _ _ R) y (or_intror Hy)) as (u & Eu & _ & Hcu).
  inversion H as [|? ? Ha _ E0]. subst. rewrite Forall_forall in Ha. apply (Hz u); [|exact Hcu].
  exact (Ha y Hy x u Ex Eu).
Qed.
