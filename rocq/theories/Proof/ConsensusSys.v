(* The invariant of the network (for C53, C54). *)
From Coq Require Import ZArith List Bool Arith Lia.
From Verif Require Import Model.Votes Proof.VotesFacts Model.Consensus Proof.QuorumFacts
  Proof.ConsensusVotes Proof.ConsensusWal Proof.ConsensusInv Spec.ConsensusSpec.
Import ListNotations.
Open Scope Z_scope.

Section Sys.
Variable C : chain.
Variable byz : nat -> bool.
Variables strict qm : bool.
Hypothesis cf : qm = true -> collision_free C.
Hypothesis minority : qm = true -> byzantine_minority C byz.
Hypothesis strict_q : strict = true -> qm = true.

Definition SYS (L : log) (st : nat -> node) : Prop :=
  safe (c_n C) byz strict qm L /\
  forall k, byz k = false -> NI C byz strict qm k L (st k) /\ PT C byz qm k L (s_fx (st k)).

Lemma sys_start : SYS [] (fun _ => node_new (c_n C)).
Proof.
  split; [exact Logic.I|]. intros k _. split.
  - constructor; cbn; try discriminate; try contradiction.
    + apply hvs_ok_new.
    + reflexivity.
  - split; [|intros v []]. intros w a _. rewrite skipn_nil. destruct w; cbn.
    + split; [tauto|contradiction].
    + split; [exact Logic.I|]. intros _ w p [].
    + contradiction.
Qed.

Lemma signed_in : forall L st i w, SYS L st -> byz i = false -> has_signed (st i) w -> In (i, w) L.
Proof.
  intros L st i w (_ & H) Hi [Hs|Hs]; destruct (H i Hi) as (_ & P).
  - apply (proj2 P). exact Hs.
  - pose proof (proj1 P RoundWAL 0%nat (Nat.le_0_l _)) as X. apply (proj1 X). apply in_news. exact Hs.
Qed.

Lemma authentic_legit : forall L st i v, SYS L st -> authentic byz st i v -> legit byz L i v.
Proof.
  intros L st i v H [B|(w & Hs & (E1 & E2 & E3 & E4 & E5 & _))]; apply sees_spec; [left; exact B|].
  destruct (byz i) eqn:Eb; [left; reflexivity|right].
  exists w. split; [eapply signed_in; eauto|]. auto.
Qed.

Lemma event_legit : forall L st e, SYS L st -> event_ok byz st e -> ev_ok byz L e.
Proof.
  intros L st e H Ev. destruct e; cbn in *; auto.
  - eapply authentic_legit; eauto.
  - intros i v Hi. eapply authentic_legit; eauto.
Qed.

Lemma ext_others : forall j k L L', ext j L L' -> k <> j ->
  (forall e, In e L -> In e L') /\ (forall v, In (k, v) L' -> In (k, v) L).
Proof.
  intros j k L L' X NE. split; [eapply ext_incl; eauto|]. destruct X as (g & -> & G).
  intros v Hv. apply in_app_iff in Hv. destruct Hv as [Hv|Hv]; [|exact Hv].
  specialize (G _ Hv). cbn in G. congruence.
Qed.

Lemma sys_update : forall L L' st j s', SYS L st -> ext j L L' -> safe (c_n C) byz strict qm L' ->
  NI C byz strict qm j L' s' -> PT C byz qm j L' (s_fx s') -> SYS L' (upd st j s').
Proof.
  intros L L' st j s' (_ & H) X S' N' P'. split; [exact S'|]. intros k Hk. unfold upd.
  destruct (Nat.eqb k j) eqn:E.
  - apply Nat.eqb_eq in E. subst k. auto.
  - apply Nat.eqb_neq in E. destruct (ext_others j k L L' X E) as (A & B). destruct (H k Hk) as (N & P). split.
    + eapply NI_others; eauto.
    + eapply PT_others; eauto.
Qed.

Theorem sys_reachable : forall st, reachable C byz strict st -> exists L, SYS L st.
Proof.
  induction 1 as [|st j E e R (L & IH) Hj HD Ev|st j E E' e k kr kl kc f R (L & IH) Hj HD HD' Ev Fn Ef LR].
  - exists []. apply sys_start.
  - destruct (proj2 IH j Hj) as (N & P).
    destruct (handle_ok C byz strict qm cf minority j Hj E e L (st j) HD N (proj1 IH) P (event_legit L st e IH Ev))
      as (L' & N' & (X & S' & P' & _)).
    exists L'. eapply sys_update; eauto.
  - destruct (proj2 IH j Hj) as (N & P).
    destruct (crash_ok C byz strict qm cf minority j Hj strict_q E E' e L (st j) k kr kl kc f HD HD' N (proj1 IH) P
                (event_legit L st e IH Ev) Ef LR) as (L' & X & S' & N' & P').
    exists L'. eapply sys_update; eauto.
Qed.

End Sys.

Lemma reachable_weak : forall C byz strict st, reachable C byz strict st -> reachable C byz false st.
Proof.
  induction 1 as [|st j E e R IH Hj HD Ev|st j E E' e k kr kl kc f R IH Hj HD HD' Ev Fn Ef LR].
  - constructor.
  - apply reach_event; auto.
  - apply (reach_crash C byz false st j E E' e k kr kl kc f); auto. discriminate.
Qed.

(* agreement *)
Theorem finals_agree : forall C byz st, reachable C byz true st -> collision_free C -> byzantine_minority C byz ->
  forall i k p p', byz i = false -> byz k = false ->
  s_final (st i) = Some p -> s_final (st k) = Some p' -> p = p'.
Proof.
  intros C byz st R CF M i k p p' Hi Hk Fi Fk.
  destruct (sys_reachable C byz true true (fun _ => CF) (fun _ => M) (fun H => H) st R) as (L & S0 & H).
  destruct (H i Hi) as (Ni & _). destruct (H k Hk) as (Nk & _).
  apply (agreement (c_n C) byz true true M L p p' eq_refl eq_refl S0).
  - exact (ni_final _ _ _ _ _ _ _ Ni p Fi eq_refl).
  - exact (ni_final _ _ _ _ _ _ _ Nk p' Fk eq_refl).
Qed.

(* votes are unique *)
Theorem votes_unique : forall C byz strict st, reachable C byz strict st -> forall i v w,
  byz i = false -> has_signed (st i) v -> has_signed (st i) w ->
  v_round v = v_round w -> v_type v = v_type w -> v = w.
Proof.
  intros C byz strict st R i v w Hi Hv Hw Rd T. apply reachable_weak in R.
  assert (X : false = true -> False) by discriminate.
  destruct (sys_reachable C byz false false (fun F => False_ind _ (X F)) (fun F => False_ind _ (X F)) (fun F => F) st R)
    as (L & S0).
  eapply (safe_unique (c_n C) byz false false L i v w (proj1 S0)); auto.
  - eapply signed_in; eauto.
  - eapply signed_in; eauto.
Qed.

(* the log is what has been signed *)
Lemma in_signed : forall C byz strict qm L st i w, SYS C byz strict qm L st -> byz i = false ->
  In (i, w) L -> has_signed (st i) w.
Proof.
  intros C byz strict qm L st i w (_ & H) Hi Hw. destruct (H i Hi) as (_ & P). right.
  pose proof (proj1 P RoundWAL 0%nat (Nat.le_0_l _)) as X. apply (proj1 X) in Hw. apply in_news. exact Hw.
Qed.

Lemma quorum_voted : forall C byz strict qm L K st r t b ps, SYS C byz strict qm L st ->
  (forall e, In e K -> In e L) ->
  QuorumFacts.quorum (c_n C) byz K r t b ps ->
  two_thirds C (fun k => voted byz st k t r (option_map fst ps)).
Proof.
  intros C byz strict qm L K st r t b ps H I0 Q.
  exists (filter (fun i => sees byz K i r t b ps) (seq 0 (c_n C))).
  split; [apply NoDup_filter; apply seq_NoDup|]. split; [|exact Q].
  intros k Hk. apply filter_In in Hk. destruct Hk as (Hs & Hk). apply in_seq in Hs. split; [lia|].
  destruct (byz k) eqn:Bk; [left; exact Bk|right].
  apply sees_spec in Hk. destruct Hk as [Hk|(v & Hv & A1 & A2 & A3 & A4)]; [congruence|].
  exists v. split; [eapply in_signed; eauto|]. split; [exact A2|]. split; [exact A1|].
  unfold d_id. rewrite A4. reflexivity.
Qed.

Lemma polka_voted : forall C byz strict qm L K st r o, SYS C byz strict qm L st -> (forall e, In e K -> In e L) ->
  QuorumFacts.polka (c_n C) byz K r o -> two_thirds C (fun k => voted byz st k Prevote r o).
Proof.
  intros C byz strict qm L K st r o H I0 (b & ps & Eo & Q). subst o. eapply quorum_voted; eauto.
Qed.

Lemma sys_true : forall C byz strict st, reachable C byz strict st -> collision_free C -> byzantine_minority C byz ->
  exists L, SYS C byz strict true L st.
Proof.
  intros C byz strict st R CF M.
  exact (sys_reachable C byz strict true (fun _ => CF) (fun _ => M) (fun _ => eq_refl) st R).
Qed.

Theorem final_decided : forall C byz strict st, reachable C byz strict st -> collision_free C -> byzantine_minority C byz ->
  forall i p, byz i = false -> s_final (st i) = Some p ->
  exists r, two_thirds C (fun k => voted_for byz st k Precommit r p).
Proof.
  intros C byz strict st R CF M i p Hi F. destruct (sys_true _ _ _ _ R CF M) as (L & H).
  destruct (proj2 H i Hi) as (N & _).
  destruct (ni_final _ _ _ _ _ _ _ N p F eq_refl) as (r & b & a & Q). exists r. unfold voted_for.
  exact (quorum_voted C byz strict true L L st r Precommit b (Some (p, a)) H (fun e He => He) Q).
Qed.

Theorem precommit_justified : forall C byz strict st, reachable C byz strict st -> collision_free C ->
  byzantine_minority C byz -> forall i v p, byz i = false -> has_signed (st i) v ->
  v_type v = Precommit -> d_id (v_dec v) = Some p ->
  two_thirds C (fun k => voted_for byz st k Prevote (v_round v) p).
Proof.
  intros C byz strict st R CF M i v p Hi Hs T Ed. destruct (sys_true _ _ _ _ R CF M) as (L & H).
  assert (Hin := signed_in C byz strict true L st i v H Hi Hs).
  apply in_split in Hin. destruct Hin as (A & B & EL).
  assert (S0 : safe (c_n C) byz strict true ((i, v) :: B)).
  { apply (safe_app (c_n C) byz strict true A). rewrite <- EL. exact (proj1 H). }
  destruct S0 as (_ & _ & _ & _ & J & _).
  apply (polka_voted C byz strict true L B st (v_round v) (Some p) H).
  - intros e He. rewrite EL, in_app_iff. right. right. exact He.
  - apply J; auto.
Qed.

Theorem lock_kept : forall C byz st, reachable C byz true st -> collision_free C -> byzantine_minority C byz ->
  forall i w v p, byz i = false -> has_signed (st i) w -> has_signed (st i) v ->
    v_type w = Precommit -> d_id (v_dec w) = Some p ->
    v_type v = Prevote -> v_round w < v_round v -> d_id (v_dec v) <> Some p ->
    exists r o, v_round w < r /\ o <> Some p /\ two_thirds C (fun k => voted byz st k Prevote r o).
Proof.
  intros C byz st R CF M i w v p Hi Hw Hv Tw Ew Tv Lt NE. destruct (sys_true _ _ _ _ R CF M) as (L & H).
  assert (Iv := signed_in C byz true true L st i v H Hi Hv).
  assert (Iw := signed_in C byz true true L st i w H Hi Hw).
  apply in_split in Iv. destruct Iv as (A & B & EL).
  assert (S0 : safe (c_n C) byz true true ((i, v) :: B)).
  { apply (safe_app (c_n C) byz true true A). rewrite <- EL. exact (proj1 H). }
  assert (IB : In (i, w) B).
  { rewrite EL, in_app_iff in Iw. destruct Iw as [Iw|[Iw|Iw]]; [|congruence|exact Iw]. exfalso.
    apply in_split in Iw. destruct Iw as (X1 & X2 & EX).
    assert (SX : safe (c_n C) byz true true ((i, w) :: X2 ++ (i, v) :: B)).
    { apply (safe_app (c_n C) byz true true X1). pose proof (proj1 H) as S1. rewrite EL, EX, <- app_assoc in S1. exact S1. }
    destruct SX as (_ & _ & _ & O & _).
    destruct (O v) as [F|(F & _)]; [apply in_app_iff; right; left; reflexivity| |]; lia. }
  destruct S0 as (_ & _ & _ & _ & _ & J).
  destruct (J eq_refl eq_refl Tv w p IB Tw Ew NE) as (r & o & A1 & A2 & A3).
  exists r, o. split; [exact A1|]. split; [exact A2|].
  apply (polka_voted C byz true true L B st r o H); [|exact A3].
  intros e He. rewrite EL, in_app_iff. right. right. exact He.
Qed.
