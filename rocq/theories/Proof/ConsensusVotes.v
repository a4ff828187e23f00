(* The votes a consensus node holds and what they prove (for C53, C54). *)
From Coq Require Import ZArith List Bool Arith Lia.
From Verif Require Import Model.Votes Spec.VoteSpec Proof.VotesFacts Model.Consensus Proof.QuorumFacts.
Import ListNotations.
Open Scope nat_scope.

Section HVS.
Variable C : chain.
Variable byz : nat -> bool.
Notation n := (c_n C).
Notation dig := (Consensus.c_digest C).

Hypothesis cf : forall d d', dig d = dig d' -> d = d'.

Definition legit (L : log) (i : nat) (v : vote) : Prop :=
  sees byz L i (v_round v) (v_type v) (d_block (v_dec v)) (d_parts (v_dec v)) = true.

Definition set_ok (L : log) (r : Z) (t : vtype) (vs : voteset) : Prop :=
  vsinv dig n vs /\
  forall i v, nth_error (vs_msgs vs) i = Some (Some v) -> v_round v = r /\ v_type v = t /\ legit L i v.

Definition hvs_ok (L : log) (h : hvs) : Prop :=
  h_n h = n /\ forall r t, set_ok L r t (h_votes r t h).

Lemma legit_mono : forall L L' i v, (forall e, In e L -> In e L') -> legit L i v -> legit L' i v.
Proof. unfold legit. intros. eapply sees_mono; eauto. Qed.

Lemma legit_mine : forall L i v, In (i, v) L -> legit L i v.
Proof. intros L i v H. apply sees_spec. right. exists v. auto. Qed.

Lemma set_ok_mono : forall L L' r t vs, (forall e, In e L -> In e L') -> set_ok L r t vs -> set_ok L' r t vs.
Proof.
  intros L L' r t vs H (A & B). split; [exact A|]. intros i v Hi.
  destruct (B i v Hi) as (X & Y & Z0). repeat split; auto. eapply legit_mono; eauto.
Qed.

Lemma hvs_ok_mono : forall L L' h, (forall e, In e L -> In e L') -> hvs_ok L h -> hvs_ok L' h.
Proof. intros L L' h H (A & B). split; [exact A|]. intros r t. eapply set_ok_mono; eauto. Qed.

Lemma set_ok_new : forall L r t, set_ok L r t (vs_new n).
Proof.
  intros L r t. split; [apply vsinv_new|]. intros i v H. unfold vs_new in H. cbn in H.
  apply nth_error_In in H. apply repeat_spec in H. discriminate.
Qed.

Lemma hvs_ok_new : forall L, hvs_ok L (h_new n).
Proof. intros L. split; [reflexivity|]. intros r t. unfold h_votes, h_new. cbn. apply set_ok_new. Qed.

Lemma hvs_ok_prune : forall L lo ex h, hvs_ok L h -> hvs_ok L (h_prune lo ex h).
Proof.
  intros L lo ex h (A & B). split; [exact A|]. intros r t. rewrite h_votes_prune.
  destruct (Z.ltb r lo && negb (Z.eqb r ex)); [rewrite A; apply set_ok_new|apply B].
Qed.

Lemma set_ok_add : forall L r t vs i v, set_ok L r t vs -> v_round v = r -> v_type v = t -> legit L i v ->
  set_ok L r t (snd (vs_add dig i v vs)).
Proof.
  intros L r t vs i v (A & B) R T G.
  pose proof (vs_add_spec dig n vs i v A) as S0.
  destruct (vs_add dig i v vs) as (b, vs'). cbn. destruct S0 as (V & St & Sf). split; [exact V|].
  intros k w Hk. destruct b.
  - destruct (St eq_refl) as ((o & Ho & _) & Em & _). rewrite Em in Hk.
    destruct (Nat.eq_dec i k) as [->|NE].
    + rewrite set_nth_same in Hk by (apply nth_error_Some; congruence). injection Hk as <-. auto.
    + rewrite set_nth_other in Hk by exact NE. auto.
  - destruct (Sf eq_refl) as (Em & _). rewrite Em in Hk. auto.
Qed.

Lemma hvs_ok_add : forall L h i v, hvs_ok L h -> legit L i v -> hvs_ok L (snd (h_add dig i v h)).
Proof.
  intros L h i v (A & B) G. split; [rewrite h_add_n; exact A|]. intros r t. rewrite h_votes_add.
  destruct (key_eqb (r, t) (v_round v, v_type v)) eqn:E; [|apply B].
  apply key_eqb_eq in E. injection E as -> ->. apply set_ok_add; auto.
Qed.

Lemma hvs_ok_add_all : forall L l h, hvs_ok L h -> (forall i v, In (i, v) l -> legit L i v) ->
  hvs_ok L (add_all C l h).
Proof.
  intros L l. unfold add_all. induction l as [|(i, v) l IH]; intros h H G; cbn; [exact H|].
  apply IH; [apply hvs_ok_add; [exact H|apply G; left; reflexivity]|].
  intros k w Hk. apply G. right. exact Hk.
Qed.

(* votes for one digest in a set prove a quorum *)
Lemma tally_quorum : forall L r t vs d, set_ok L r t vs -> 2 * n < 3 * tally dig (dig d) (vs_msgs vs) ->
  quorum n byz L r t (d_block d) (d_parts d).
Proof.
  intros L r t vs d (A & B) H. unfold quorum.
  rewrite <- (backers_tally dig vs n (dig d) (vi_len _ _ _ A)) in H. unfold backers in H.
  match type of H with context [List.length (filter ?g (seq 0 n))] => set (ff := g) in H end.
  pose proof (filter_mono nat ff (fun i => sees byz L i r t (d_block d) (d_parts d)) (seq 0 n)) as G.
  assert (List.length (filter ff (seq 0 n)) <=
          List.length (filter (fun i => sees byz L i r t (d_block d) (d_parts d)) (seq 0 n))); [|lia].
  apply G. intros i _ F. unfold ff, held in F.
  destruct (nth_error (vs_msgs vs) i) as [[v|]|] eqn:E; try discriminate.
  destruct (list_eq_dec Z.eq_dec (dig (v_dec v)) (dig d)) as [Ed|]; [|discriminate].
  apply cf in Ed. destruct (B i v E) as (R & T & Lg). unfold legit in Lg. rewrite R, T, Ed in Lg. exact Lg.
Qed.

Lemma over_tally : forall L r t vs, set_ok L r t vs ->
  (forall dg id, over vs = Some (dg, id) ->
     exists d, dig d = dg /\ id = d_id d /\ 2 * n < 3 * tally dig dg (vs_msgs vs)) /\
  (forall dg, 2 * n < 3 * tally dig dg (vs_msgs vs) -> exists id, over vs = Some (dg, id)).
Proof.
  intros L r t vs H. pose proof (vs_get_spec dig n vs (proj1 H)) as S0. unfold over.
  destruct (vs_get vs) as (x, vs'). cbn. destruct S0 as (_ & _ & _ & _ & _ & _ & A & B). split; [|exact B].
  intros dg id E. destruct (A dg id E) as (T & d & Ed & Ei). exists d. auto.
Qed.

Lemma over_spec : forall L r t vs, set_ok L r t vs ->
  (forall dg id, over vs = Some (dg, id) ->
     exists d, dig d = dg /\ id = d_id d /\ 2 * n < 3 * tally dig dg (vs_msgs vs) /\
               quorum n byz L r t (d_block d) (d_parts d)) /\
  (forall dg, 2 * n < 3 * tally dig dg (vs_msgs vs) -> exists id, over vs = Some (dg, id)).
Proof.
  intros L r t vs H. destruct (over_tally L r t vs H) as (A & B). split; [|exact B].
  intros dg id E. destruct (A dg id E) as (d & Ed & Ei & T). exists d. repeat (split; [assumption|]).
  eapply tally_quorum; eauto. rewrite Ed. exact T.
Qed.

Lemma over_quorum : forall L r t h o, hvs_ok L h -> over_id (h_votes r t h) = Some o ->
  exists b ps, option_map fst ps = o /\ quorum n byz L r t b ps.
Proof.
  intros L r t h o H E. unfold over_id in E.
  destruct (over (h_votes r t h)) as [(dg, id)|] eqn:Eo; [|discriminate]. cbn in E. injection E as <-.
  destruct (proj1 (over_spec L r t _ (proj2 H r t)) dg id Eo) as (d & _ & Ei & _ & Q).
  exists (d_block d), (d_parts d). split; [unfold d_id in Ei; congruence|exact Q].
Qed.

Lemma over_polka : forall L r h o, hvs_ok L h -> over_id (h_votes r Prevote h) = Some o ->
  polka n byz L r o.
Proof. intros. unfold polka. eapply over_quorum; eauto. Qed.

(* ---------- the list of votes kept with a lock ---------- *)
Definition proves (L : log) (l : list (nat * vote)) (r : Z) (p : Z) : Prop :=
  (forall i v, In (i, v) l -> i < n /\ v_round v = r /\ v_type v = Prevote /\ legit L i v) /\
  NoDup (map fst l) /\
  (exists d, d_id d = Some p /\
     2 * n < 3 * List.length (filter (fun e => zlist_eqb (dig (v_dec (snd e))) (dig d)) l)).

Lemma indexed_in : forall l k i v, In (i, v) (indexed l k) <-> k <= i /\ nth_error l (i - k) = Some (Some v).
Proof.
  induction l as [|[w|] l IH]; intros k i v; cbn.
  - split; [tauto|]. intros (_ & H). destruct (i - k); discriminate H.
  - split.
    + intros [E|E].
      * injection E as -> ->. split; [lia|]. rewrite Nat.sub_diag. reflexivity.
      * apply IH in E. destruct E as (A & B). split; [lia|].
        replace (i - k) with (S (i - S k)) by lia. exact B.
    + intros (A & B). destruct (i - k) as [|m] eqn:E.
      * left. cbn in B. injection B as ->. f_equal. lia.
      * right. apply IH. cbn in B. split; [lia|]. replace (i - S k) with m by lia. exact B.
  - rewrite IH. split; intros (A & B).
    + split; [lia|]. replace (i - k) with (S (i - S k)) by lia. exact B.
    + destruct (i - k) as [|m] eqn:E; [discriminate B|]. cbn in B. split; [lia|].
      replace (i - S k) with m by lia. exact B.
Qed.

Lemma indexed_nodup : forall l k, NoDup (map fst (indexed l k)).
Proof.
  induction l as [|[w|] l IH]; intros k; cbn; [constructor| |apply IH].
  constructor; [|apply IH]. intros F. apply in_map_iff in F. destruct F as ((i, v) & E & F). cbn in E. subst i.
  apply indexed_in in F. lia.
Qed.

Lemma indexed_tally : forall dg l k,
  List.length (filter (fun e => zlist_eqb (dig (v_dec (snd e))) dg) (indexed l k)) = tally dig dg l.
Proof.
  intros dg l. unfold tally. induction l as [|[w|] l IH]; intros k; cbn; [reflexivity| |apply IH].
  unfold v_digest. destruct (zlist_eqb (dig (v_dec w)) dg); cbn; rewrite IH; reflexivity.
Qed.

Lemma indexed_legit : forall L r t vs, set_ok L r t vs -> forall i v, In (i, v) (indexed (vs_msgs vs) 0) ->
  i < n /\ v_round v = r /\ v_type v = t /\ legit L i v.
Proof.
  intros L r t vs (A & B) i v H. apply indexed_in in H. destruct H as (_ & H). rewrite Nat.sub_0_r in H.
  split; [|apply B; exact H]. rewrite <- (vi_len _ _ _ A). apply nth_error_Some. congruence.
Qed.

Lemma indexed_proves : forall L r h p, hvs_ok L h -> over_id (h_votes r Prevote h) = Some (Some p) ->
  proves L (indexed (vs_msgs (h_votes r Prevote h)) 0) r p.
Proof.
  intros L r h p H E. split; [|split].
  - apply indexed_legit. apply H.
  - apply indexed_nodup.
  - unfold over_id in E. destruct (over (h_votes r Prevote h)) as [(dg, id)|] eqn:Eo; [|discriminate].
    cbn in E. injection E as ->.
    destruct (proj1 (over_tally L r _ _ (proj2 H r Prevote)) dg _ Eo) as (d & Ed & Ei & T).
    exists d. split; [congruence|]. rewrite indexed_tally, Ed. exact T.
Qed.

Lemma proves_mono : forall L L' l r p, (forall e, In e L -> In e L') -> proves L l r p -> proves L' l r p.
Proof.
  intros L L' l r p H (A & B). split; [|exact B]. intros i v Hi. destruct (A i v Hi) as (X & Y & Z0 & W).
  repeat split; auto. eapply legit_mono; eauto.
Qed.

Lemma filter_idx_le : forall (l : list (nat * vote)) (f : nat * vote -> bool) (g : nat -> bool) m,
  NoDup (map fst l) -> (forall i v, In (i, v) l -> i < m) ->
  (forall i v, In (i, v) l -> f (i, v) = true -> g i = true) ->
  List.length (filter f l) <= List.length (filter g (seq 0 m)).
Proof.
  intros l f g m N B H. rewrite <- (map_length fst). apply NoDup_incl_length.
  - clear B H. induction l as [|e l IH]; cbn; [constructor|]. cbn in N. inversion N as [|x y N1 N2]; subst.
    destruct (f e); cbn; [|apply IH; exact N2]. constructor; [|apply IH; exact N2].
    intros F. apply N1. apply in_map_iff in F. destruct F as (e' & E & F). apply filter_In in F.
    apply in_map_iff. exists e'. tauto.
  - intros i F. apply in_map_iff in F. destruct F as ((k, v) & E & F). cbn in E. subst k.
    apply filter_In in F. destruct F as (F1 & F2). apply filter_In. split; [|eapply H; eauto].
    apply in_seq. specialize (B i v F1). lia.
Qed.

Lemma proves_polka : forall L l r p, proves L l r p -> polka n byz L r (Some p).
Proof.
  intros L l r p (A & B & d & Ed & Q). exists (d_block d), (d_parts d). split; [exact Ed|]. unfold quorum.
  assert (G := filter_idx_le l (fun e => zlist_eqb (dig (v_dec (snd e))) (dig d))
                 (fun i => sees byz L i r Prevote (d_block d) (d_parts d)) n B).
  assert (List.length (filter (fun e => zlist_eqb (dig (v_dec (snd e))) (dig d)) l) <=
    List.length (filter (fun i => sees byz L i r Prevote (d_block d) (d_parts d)) (seq 0 n))); [|lia].
  apply G.
  - intros i v Hi. apply (A i v Hi).
  - intros i v Hi E. cbn in E. apply zlist_eqb_eq in E. apply cf in E.
    destruct (A i v Hi) as (_ & R & T & Lg). unfold legit in Lg. rewrite R, T, E in Lg. exact Lg.
Qed.

Lemma proves_nonempty : forall L l r p, proves L l r p -> exists i v l', l = (i, v) :: l' /\ v_round v = r.
Proof.
  intros L [|(i, v) l] r p (A & _ & d & _ & Q); [cbn in Q; lia|].
  exists i, v, l. split; [reflexivity|]. apply (A i v). left. reflexivity.
Qed.

(* Adding such a list to a set: a majority is there afterwards. *)
Definition voted (vs : voteset) (i : nat) (v : vote) : Prop :=
  exists w, nth_error (vs_msgs vs) i = Some (Some w) /\ dig (v_dec w) = dig (v_dec v).

Definition won (vs : voteset) : Prop := exists dg, 2 * n < 3 * tally dig dg (vs_msgs vs).

Lemma add_keeps : forall vs k v, vsinv dig n vs -> k < n ->
  let vs' := snd (vs_add dig k v vs) in
  vsinv dig n vs' /\ (won vs -> won vs') /\
  (won vs' \/ voted vs' k v) /\ (forall i w, i <> k -> voted vs i w -> voted vs' i w).
Proof.
  intros vs k v V Hk. pose proof (vs_add_spec dig n vs k v V) as S0.
  destruct (vs_add dig k v vs) as (b, vs'). cbn. destruct S0 as (V' & St & Sf). split; [exact V'|].
  destruct b.
  - destruct (St eq_refl) as ((o & Ho & Hw) & Em & _).
    split; [|split].
    + intros (dg & T). exists dg. rewrite Em.
      pose proof (tally_set dig dg (vs_msgs vs) k o v Ho) as TS.
      destruct (backs dig dg o) eqn:Eb; [|lia]. destruct o as [w|]; [|discriminate].
      cbn in Eb. apply zlist_eqb_eq in Eb. unfold v_digest in Eb, Hw. rewrite Eb in Hw. tauto.
    + right. exists v. rewrite Em, set_nth_same by (apply nth_error_Some; congruence). auto.
    + intros i w NE (x & A & B). exists x. rewrite Em, set_nth_other by congruence. auto.
  - destruct (Sf eq_refl) as (Em & _ & Hc). unfold won, voted. rewrite Em.
    split; [auto|]. split; [|intros i w NE (x & A & B); exists x; auto].
    destruct Hc as [Hc|(w & Hw & [S0|T])].
    + apply nth_error_None in Hc. rewrite (vi_len _ _ _ V) in Hc. lia.
    + right. exists w. split; [exact Hw|]. destruct S0 as (_ & _ & _ & E & _). exact E.
    + left. exists (v_digest dig w). exact T.
Qed.

Lemma add_all_won : forall l r t h,
  (forall r t, vsinv dig n (h_votes r t h)) ->
  (forall i v, In (i, v) l -> i < n /\ v_round v = r /\ v_type v = t) -> NoDup (map fst l) ->
  (won (h_votes r t h) -> won (h_votes r t (add_all C l h))) /\
  (won (h_votes r t (add_all C l h)) \/
   (forall i v, In (i, v) l -> voted (h_votes r t (add_all C l h)) i v)) /\
  (forall i w, ~ In i (map fst l) -> voted (h_votes r t h) i w -> voted (h_votes r t (add_all C l h)) i w).
Proof.
  unfold add_all. induction l as [|(k, v) l IH]; intros r t h V A N; cbn.
  - split; [auto|]. split; [right; tauto|auto].
  - cbn in N. inversion N as [|x y N1 N2]; subst.
    destruct (A k v (or_introl eq_refl)) as (Hk & R & T).
    set (h1 := snd (h_add dig k v h)).
    assert (E1 : h_votes r t h1 = snd (vs_add dig k v (h_votes r t h))).
    { unfold h1. rewrite h_votes_add, R, T, key_eqb_refl. reflexivity. }
    destruct (add_keeps (h_votes r t h) k v (V r t) Hk) as (V1 & W1 & X1 & K1).
    rewrite <- E1 in V1, W1, X1, K1.
    assert (Vh : forall r t, vsinv dig n (h_votes r t h1)).
    { intros r' t'. unfold h1. rewrite h_votes_add.
      destruct (key_eqb (r', t') (v_round v, v_type v)); [|apply V].
      pose proof (vs_add_spec dig n (h_votes r' t' h) k v (V r' t')) as S0.
      destruct (vs_add dig k v (h_votes r' t' h)). apply S0. }
    destruct (IH r t h1 Vh (fun i w Hi => A i w (or_intror Hi)) N2) as (W2 & X2 & K2).
    split; [auto|]. split.
    + destruct X1 as [X1|X1]; [left; auto|]. destruct X2 as [X2|X2]; [left; exact X2|right].
      intros i w [E|Hi]; [injection E as <- <-; apply K2; auto|apply X2; exact Hi].
    + intros i w NI Hv. apply K2; [intros F; apply NI; right; exact F|]. apply K1; [|exact Hv].
      intros F. apply NI. left. congruence.
Qed.

Hypothesis minority : 3 * List.length (filter byz (seq 0 n)) < n.
Variables strict q : bool.

Lemma add_all_over : forall L l r p h, safe n byz strict q L -> hvs_ok L h -> proves L l r p ->
  over_id (h_votes r Prevote (add_all C l h)) = Some (Some p).
Proof.
  intros L l r p h SF H PV.
  assert (H' : hvs_ok L (add_all C l h)).
  { apply hvs_ok_add_all; [exact H|]. intros i v Hi. apply (proj1 PV i v Hi). }
  assert (W : won (h_votes r Prevote (add_all C l h))).
  { destruct (add_all_won l r Prevote h (fun r t => proj1 (proj2 H r t))) as (_ & X & _).
    - intros i v Hi. destruct (proj1 PV i v Hi) as (P1 & P2 & P3 & _). auto.
    - apply PV.
    - destruct X as [X|X]; [exact X|]. destruct PV as (A & N & d & Ed & Q). exists (dig d).
      set (vs := h_votes r Prevote (add_all C l h)) in *.
      rewrite <- (backers_tally dig vs n (dig d) (vi_len _ _ _ (proj1 (proj2 H' r Prevote)))).
      unfold backers. 
      match goal with |- _ < 3 * List.length (filter ?g _) =>
        assert (G := filter_idx_le l (fun e => zlist_eqb (dig (v_dec (snd e))) (dig d)) g n N) end.
      match type of G with _ -> _ -> ?Q0 => assert Q0 end; [|lia]. apply G.
      + intros i v Hi. apply (A i v Hi).
      + intros i v Hi E. cbn in E. apply zlist_eqb_eq in E. destruct (X i v Hi) as (w & Hw & Ew).
        unfold held. rewrite Hw.
        destruct (list_eq_dec Z.eq_dec (dig (v_dec w)) (dig d)) as [|NE]; [reflexivity|congruence]. }
  destruct W as (dg & T).
  destruct (proj2 (over_spec L r Prevote _ (proj2 H' r Prevote)) dg T) as (id & Eo).
  assert (Ei : over_id (h_votes r Prevote (add_all C l h)) = Some id) by (unfold over_id; rewrite Eo; reflexivity).
  rewrite Ei. f_equal. pose proof (over_polka _ _ _ _ H' Ei) as P1. pose proof (proves_polka _ _ _ _ PV) as P2.
  eapply polka_unique; eauto.
Qed.

End HVS.
