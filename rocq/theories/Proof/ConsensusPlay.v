(* Playing a script of events on the network, with the side conditions of
   [reachable] checked by computation (for the examples of C53, C54). *)
From Coq Require Import ZArith List Bool Arith Lia.
From Verif Require Import Model.Votes Proof.VotesFacts Model.Consensus Proof.QuorumFacts Proof.ConsensusWal
  Spec.ConsensusSpec.
Import ListNotations.
Open Scope Z_scope.

Inductive act :=
| Do (j : nat) (E : env) (e : event)
| Crash (j : nat) (E E' : env) (e : event) (k kr kl kc : nat).

Definition same_signed_b (v w : vote) : bool :=
  Z.eqb (v_height v) (v_height w) && Z.eqb (v_round v) (v_round w) && vtype_eqb (v_type v) (v_type w)
  && Z.eqb (d_block (v_dec v)) (d_block (v_dec w)) && pair_eqb (d_parts (v_dec v)) (d_parts (v_dec w))
  && Z.eqb (v_ts v) (v_ts w).

Definition auth_b (byz : nat -> bool) (st : nat -> node) (i : nat) (v : vote) : bool :=
  byz i || existsb (fun x => match x with FxVote w => same_signed_b v w | _ => false end) (s_fx (st i)).

Definition event_b (byz : nat -> bool) (st : nat -> node) (e : event) : bool :=
  match e with
  | EVote i v => auth_b byz st i v
  | EBlock _ l _ => forallb (fun x => auth_b byz st (fst x) (snd x)) l
  | _ => true
  end.

Definition recorded_b (f : list fx) : bool :=
  match last_lock (rev (entries LockWAL f)) with
  | Some (p, r) => forallb (fun x => match x with
      | FxWrite RoundWAL (WVote v) =>
          match v_type v, d_id (v_dec v) with
          | Precommit, Some z => negb (Z.eqb z p) || Z.leb (v_round v) r
          | _, _ => true
          end
      | _ => true end) f
  | None => true
  end.

Section Play.
Variable C : chain.
Variable byz : nat -> bool.
Variable strict : bool.

Definition play1 (a : act) (st : nat -> node) : option (nat -> node) :=
  match a with
  | Do j E e =>
      if negb (byz j) && e_disk E && event_b byz st e
      then Some (upd st j (handle C (who C j) E e (st j))) else None
  | Crash j E E' e k kr kl kc =>
      let f := after_crash C (who C j) E e k kr kl kc (st j) in
      if negb (byz j) && e_disk E && e_disk E' && event_b byz st e
         && (match s_final (st j) with None => true | Some _ => false end)
         && (negb strict || recorded_b f)
      then Some (upd st j (start C (who C j) E' f)) else None
  end.

Fixpoint play (l : list act) (st : nat -> node) : option (nat -> node) :=
  match l with
  | [] => Some st
  | a :: l' => match play1 a st with Some st' => play l' st' | None => None end
  end.

Lemma same_signed_ok : forall v w, same_signed_b v w = true -> same_signed v w.
Proof.
  intros v w H. unfold same_signed_b in H. rewrite !andb_true_iff, !Z.eqb_eq, VotesFacts.vtype_eqb_eq, pair_eqb_eq in H.
  unfold same_signed. tauto.
Qed.

Lemma auth_ok : forall st i v, auth_b byz st i v = true -> authentic byz st i v.
Proof.
  intros st i v H. unfold auth_b in H. apply orb_true_iff in H. destruct H as [H|H]; [left; exact H|right].
  apply existsb_exists in H. destruct H as (x & Hx & H). destruct x as [| |w|]; try discriminate.
  exists w. split; [left; exact Hx|apply same_signed_ok; exact H].
Qed.

Lemma event_b_ok : forall st e, event_b byz st e = true -> event_ok byz st e.
Proof.
  intros st e H. destruct e; cbn in *; auto; [apply auth_ok; exact H|].
  intros i v Hi. apply auth_ok. rewrite forallb_forall in H. exact (H (i, v) Hi).
Qed.

Lemma recorded_ok : forall f, recorded_b f = true -> lock_recorded f.
Proof.
  intros f H. unfold recorded_b in H. unfold lock_recorded.
  destruct (last_lock (rev (entries LockWAL f))) as [(p, r)|]; [|exact Logic.I].
  intros v Hv T E. rewrite forallb_forall in H. specialize (H _ Hv). cbn in H. rewrite T, E, Z.eqb_refl in H.
  cbn in H. apply Z.leb_le. exact H.
Qed.

Lemma play1_ok : forall a st st', reachable C byz strict st -> play1 a st = Some st' -> reachable C byz strict st'.
Proof.
  intros [j E e|j E E' e k kr kl kc] st st' R H; cbn [play1] in H.
  - destruct (negb (byz j) && e_disk E && event_b byz st e) eqn:B; [|discriminate].
    rewrite !andb_true_iff, negb_true_iff in B. destruct B as ((B1 & B2) & B3).
    assert (st' = upd st j (handle C (who C j) E e (st j))) as -> by congruence.
    apply reach_event; auto. apply event_b_ok. exact B3.
  - cbv zeta in H.
    match type of H with (if ?b then _ else _) = _ => destruct b eqn:B; [|discriminate H] end.
    rewrite !andb_true_iff, negb_true_iff in B. destruct B as (((((B1 & B2) & B3) & B4) & B5) & B6).
    remember (after_crash C (who C j) E e k kr kl kc (st j)) as f eqn:Ef.
    assert (st' = upd st j (start C (who C j) E' f)) as -> by congruence.
    apply (reach_crash C byz strict st j E E' e k kr kl kc f); auto.
    + apply event_b_ok. exact B4.
    + destruct (s_final (st j)); [discriminate|reflexivity].
    + intros S0. rewrite S0 in B6. cbn in B6. apply recorded_ok. exact B6.
Qed.

Lemma play_ok : forall l st st', reachable C byz strict st -> play l st = Some st' -> reachable C byz strict st'.
Proof.
  induction l as [|a l IH]; intros st st' R H; cbn [play] in H.
  - congruence.
  - destruct (play1 a st) as [st1|] eqn:E; [|discriminate]. eapply IH; [|exact H]. eapply play1_ok; eauto.
Qed.

End Play.
