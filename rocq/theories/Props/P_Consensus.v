(* C53, C54: agreement of the consensus engine, and the votes behind it. *)
From Coq Require Import ZArith List Bool Arith Lia.
From Verif Require Import Model.Votes Model.Consensus Spec.ConsensusSpec Proof.ConsensusSys Proof.ConsensusPlay.
Import ListNotations.
Open Scope Z_scope.

(* ---------- C53 ---------- *)

(* No two honest nodes finalize different blocks at a height, if fewer than a
   third of the validators are Byzantine, whatever is lost, delayed, repeated
   or reordered, whenever nodes crash (with unsynced log entries lost) and
   restart -- as long as a restarting node finds its lock recorded in its
   log. *)
Theorem C53_agreement : forall C byz st,
  reachable C byz true st -> collision_free C -> byzantine_minority C byz ->
  forall i k p p', byz i = false -> byz k = false ->
    s_final (st i) = Some p -> s_final (st k) = Some p' -> p = p'.
Proof. exact finals_agree. Qed.
Print Assumptions C53_agreement.

(* A finalized block has the precommits of more than two thirds of the
   validators in some round. *)
Theorem C53_decided : forall C byz strict st,
  reachable C byz strict st -> collision_free C -> byzantine_minority C byz ->
  forall i p, byz i = false -> s_final (st i) = Some p ->
    exists r, two_thirds C (fun k => voted_for byz st k Precommit r p).
Proof. exact final_decided. Qed.
Print Assumptions C53_decided.

(* A validator that has precommitted a block prevotes for another (or for
   none) only after more than two thirds prevoted for something else in a
   later round. *)
Theorem C53_lock : forall C byz st,
  reachable C byz true st -> collision_free C -> byzantine_minority C byz ->
  forall i w v p, byz i = false -> has_signed (st i) w -> has_signed (st i) v ->
    v_type w = Precommit -> d_id (v_dec w) = Some p ->
    v_type v = Prevote -> v_round w < v_round v -> d_id (v_dec v) <> Some p ->
    exists r o, v_round w < r /\ o <> Some p /\
      two_thirds C (fun k => voted byz st k Prevote r o).
Proof. exact lock_kept. Qed.
Print Assumptions C53_lock.

(* A network of four validators, one of them (2) Byzantine. *)
Definition digest4 (d : decision) : list Z :=
  d_block d :: match d_parts d with None => [0] | Some (a, b) => [1; a; b] end ++ d_nts d.
Definition chain4 : chain :=
  mkChain 4 0 0 0 (fun p => p) (fun _ => []) (fun _ => true)
    (fun p => if Z.eqb p 10 then 0 else if Z.eqb p 11 then 1 else 3) digest4.
Definition byz4 (i : nat) : bool := Nat.eqb i 2.
Definition E4 : env := mkEnv 7 true false false false true.
Definition vb (r : Z) (t : vtype) (p : Z) : vote := mkVote 0 r t (mkDecision p (Some (p, 0)) []) 7.
Definition vn (r : Z) (t : vtype) : vote := mkVote 0 r t (mkDecision 0 None []) 7.
Definition d (j : nat) (e : event) : act := Do j E4 e.
Definition dv (j i : nat) (v : vote) : act := Do j E4 (EVote i v).

Definition relock : list act :=
  [ d 0 ETimer; d 0 (EProposed (Some 10));
    d 1 ETimer; d 1 (EProposal 0 0 10 (-1)); d 1 EParts; d 1 (EImported true);
    d 3 ETimer; d 3 ETimer;
    dv 0 1 (vb 0 Prevote 10); dv 0 2 (vb 0 Prevote 10);
    dv 1 0 (vb 0 Prevote 10); dv 1 3 (vn 0 Prevote); d 1 ETimer;
    dv 3 0 (vb 0 Prevote 10); dv 3 1 (vb 0 Prevote 10); d 3 ETimer;
    dv 0 1 (vn 0 Precommit); dv 0 3 (vn 0 Precommit); d 0 ETimer;
    dv 1 0 (vb 0 Precommit 10); dv 1 3 (vn 0 Precommit); d 1 ETimer;
    dv 3 0 (vb 0 Precommit 10); dv 3 1 (vn 0 Precommit); d 3 ETimer;
    (* round 1 *)
    d 1 (EProposed (Some 11));
    d 3 (EProposal 1 1 11 (-1)); d 3 EParts; d 3 (EImported true);
    d 0 ETimer;
    dv 0 1 (vb 1 Prevote 11); dv 0 3 (vb 1 Prevote 11); d 0 ETimer;
    dv 1 0 (vb 1 Prevote 10); dv 1 3 (vb 1 Prevote 11); d 1 ETimer;
    dv 3 0 (vb 1 Prevote 10); dv 3 1 (vb 1 Prevote 11); d 3 ETimer;
    dv 0 1 (vn 1 Precommit); dv 0 3 (vn 1 Precommit);
    dv 1 0 (vn 1 Precommit); dv 1 3 (vn 1 Precommit);
    dv 3 0 (vn 1 Precommit); dv 3 1 (vn 1 Precommit);
    (* round 2 *)
    dv 1 0 (vb 0 Prevote 10); dv 1 1 (vb 0 Prevote 10); dv 1 2 (vb 0 Prevote 10);
    d 1 (EProposal 2 2 10 0); d 1 EParts; d 1 (EImported true);
    d 0 ETimer;
    dv 0 1 (vb 2 Prevote 10); dv 0 2 (vb 2 Prevote 10);
    dv 1 0 (vb 2 Prevote 10); dv 1 2 (vb 2 Prevote 10);
    dv 1 0 (vb 2 Precommit 10); dv 1 2 (vb 2 Precommit 10);
    d 3 ETimer; dv 3 0 (vb 2 Prevote 10); dv 3 1 (vb 2 Prevote 10); d 3 ETimer;
    dv 3 0 (vb 2 Precommit 10); dv 3 2 (vn 2 Precommit); d 3 ETimer;
    (* node 0 restarts *)
    Crash 0 E4 E4 (EProposal 0 99 0 0) 0 99 99 99;
    dv 0 1 (vb 1 Prevote 11); dv 0 3 (vb 1 Prevote 11); dv 0 2 (vb 1 Prevote 11);
    dv 0 3 (vn 2 Precommit); dv 0 2 (vn 2 Precommit); d 0 ETimer;
    (* round 3 *)
    d 3 (EProposed (Some 12));
    d 0 (EProposal 3 3 12 (-1)); d 0 EParts; d 0 (EImported true);
    dv 0 3 (vb 3 Prevote 12); dv 0 2 (vb 3 Prevote 12);
    dv 3 0 (vb 3 Prevote 12); dv 3 2 (vb 3 Prevote 12);
    dv 3 0 (vb 3 Precommit 12); dv 3 2 (vb 3 Precommit 12) ].


Lemma digest4_inj : collision_free chain4.
Proof.
  intros [b ps l] [b' ps' l'] H. cbn in H. unfold digest4 in H. cbn in H.
  destruct ps as [(x, y)|], ps' as [(x', y')|]; cbn in H; injection H; intros; subst; reflexivity || discriminate.
Qed.

Lemma byz4_minority : byzantine_minority chain4 byz4.
Proof. vm_compute. repeat constructor. Qed.

Definition st4 : nat -> node := fun _ => node_new 4.

Definition finals (o : option (nat -> node)) : option (option Z * option Z * option Z) :=
  option_map (fun st => (s_final (st 0%nat), s_final (st 1%nat), s_final (st 3%nat))) o.

Lemma finals_reach : forall strict l x, finals (play chain4 byz4 strict l st4) = Some x ->
  exists st, reachable chain4 byz4 strict st /\ (s_final (st 0%nat), s_final (st 1%nat), s_final (st 3%nat)) = x.
Proof.
  intros strict l x H. destruct (play chain4 byz4 strict l st4) as [st|] eqn:E; [|discriminate H].
  exists st. split; [|cbn in H; congruence].
  apply (play_ok chain4 byz4 strict l st4 st); [|exact E]. apply (reach_start chain4 byz4 strict).
Qed.

(* The condition on restarts is needed: a node that sees a second majority for
   the block it is locked on raises the round of its lock (line 853) without
   writing that to the log.  After a restart it is locked since the older
   round, and an old majority for another block, from between the two rounds,
   makes it give the lock up.  With one Byzantine validator of four and one
   restart of an honest node whose disk lost nothing, two honest nodes
   finalize different blocks. *)
Theorem C53_violated_relock : exists st,
  reachable chain4 byz4 false st /\ collision_free chain4 /\ byzantine_minority chain4 byz4 /\
  byz4 1 = false /\ byz4 3 = false /\
  s_final (st 1%nat) = Some 10 /\ s_final (st 3%nat) = Some 12.
Proof.
  assert (H : finals (play chain4 byz4 false relock st4) = Some (None, Some 10, Some 12)) by (vm_compute; reflexivity).
  apply finals_reach in H. destruct H as (st & R & F). exists st.
  split; [exact R|]. split; [exact digest4_inj|]. split; [exact byz4_minority|].
  split; [reflexivity|]. split; [reflexivity|]. injection F as _ F1 F3. auto.
Qed.
Print Assumptions C53_violated_relock.

(* An execution that meets the hypotheses of C53_agreement: node 0 crashes
   after writing its lock and its precommit, the precommit not being synced;
   after the restart it signs the precommit anew, with another time, and nodes 0 and 1
   finalize. *)
Definition happy : list act :=
  [ d 0 ETimer; d 0 (EProposed (Some 10));
    d 1 ETimer; d 1 (EProposal 0 0 10 (-1)); d 1 EParts; d 1 (EImported true);
    d 3 ETimer; d 3 ETimer;
    dv 0 1 (vb 0 Prevote 10);
    Crash 0 E4 (mkEnv 8 true false false false true) (EVote 2 (vb 0 Prevote 10)) 5 0 0 0;
    dv 0 1 (vb 0 Prevote 10); dv 0 2 (vb 0 Prevote 10);
    dv 1 0 (vb 0 Prevote 10); dv 1 2 (vb 0 Prevote 10);
    dv 0 1 (vb 0 Precommit 10); dv 0 2 (vb 0 Precommit 10);
    dv 1 0 (mkVote 0 0 Precommit (mkDecision 10 (Some (10, 0)) []) 8); dv 1 2 (vb 0 Precommit 10) ].

Example C53_nonvacuous : exists st, reachable chain4 byz4 true st /\
  collision_free chain4 /\ byzantine_minority chain4 byz4 /\ byz4 0 = false /\ byz4 1 = false /\
  s_final (st 0%nat) = Some 10 /\ s_final (st 1%nat) = Some 10.
Proof.
  assert (H : finals (play chain4 byz4 true happy st4) = Some (Some 10, Some 10, None)) by (vm_compute; reflexivity).
  apply finals_reach in H. destruct H as (st & R & F). exists st.
  split; [exact R|]. split; [exact digest4_inj|]. split; [exact byz4_minority|].
  split; [reflexivity|]. split; [reflexivity|]. injection F as F0 F1 _. auto.
Qed.

(* ---------- C54 ---------- *)

(* An honest validator never signs two different votes of one type for one
   round, whatever the others do, wherever it crashes and however often it
   restarts -- if its disk works. *)
Theorem C54_vote_once : forall C byz strict st, reachable C byz strict st ->
  forall i v w, byz i = false -> has_signed (st i) v -> has_signed (st i) w ->
    v_round v = v_round w -> v_type v = v_type w -> v = w.
Proof. exact votes_unique. Qed.
Print Assumptions C54_vote_once.

(* It precommits a block only when more than two thirds of the validators have
   prevoted for that block in the same round. *)
Theorem C54_precommit_justified : forall C byz strict st,
  reachable C byz strict st -> collision_free C -> byzantine_minority C byz ->
  forall i v p, byz i = false -> has_signed (st i) v ->
    v_type v = Precommit -> d_id (v_dec v) = Some p ->
    two_thirds C (fun k => voted_for byz st k Prevote (v_round v) p).
Proof. exact precommit_justified. Qed.
Print Assumptions C54_precommit_justified.

(* When the disk fails, the failure is logged and the vote is sent all the
   same (lines 1291-1296): after a restart the validator votes again in the same
   round, for another block. *)
Theorem C54_violated_disk : exists C j E E' E'' acts acts' f v w,
  let s1 := fold_left (fun s e => handle C (who C j) E e s) acts (node_new (c_n C)) in
  f = after_crash C (who C j) E ETimer 0 0 0 0 s1 /\
  let s2 := fold_left (fun s e => handle C (who C j) E'' e s) acts' (start C (who C j) E' f) in
  e_disk E = false /\ e_disk E' = true /\ e_disk E'' = true /\
  In (FxVote v) (s_fx s1) /\ In (FxVote w) (s_fx s2) /\ In (FxVote v) (s_fx s2) /\
  v_round v = v_round w /\ v_type v = v_type w /\ d_block (v_dec v) <> d_block (v_dec w).
Proof.
  exists chain4, 0%nat, (mkEnv 7 true false false false false), E4, E4,
    [ETimer; EProposed (Some 10)], [EProposed (Some 11)].
  eexists. exists (vb 0 Prevote 10), (vb 0 Prevote 11). cbv zeta. split; [reflexivity|].
  vm_compute. repeat split; auto 20; discriminate.
Qed.
Print Assumptions C54_violated_disk.

(* The hypotheses of C53_lock and C54_precommit_justified: node 0 precommits
   block 10 in round 0, prevotes it again in round 1, sees a majority for block
   11 there, and prevotes for no block in round 2. *)
Definition unlocked : list act :=
  firstn 30 relock ++
  [ dv 0 1 (vb 1 Prevote 11); dv 0 3 (vb 1 Prevote 11); dv 0 2 (vb 1 Prevote 11);
    dv 1 0 (vb 1 Prevote 10); dv 1 3 (vb 1 Prevote 11); d 1 ETimer;
    dv 0 1 (vn 1 Precommit); dv 0 2 (vn 1 Precommit); d 0 ETimer ].


Example C54_nonvacuous : exists st, reachable chain4 byz4 true st /\
  byz4 0 = false /\
  has_signed (st 0%nat) (vb 0 Precommit 10) /\ d_id (v_dec (vb 0 Precommit 10)) = Some 10 /\
  has_signed (st 0%nat) (vb 1 Prevote 10) /\
  has_signed (st 0%nat) (vn 2 Prevote) /\ d_id (v_dec (vn 2 Prevote)) <> Some 10.
Proof.
  destruct (play chain4 byz4 true unlocked st4) as [st|] eqn:E; [|vm_compute in E; discriminate E].
  exists st. split; [apply (play_ok chain4 byz4 true unlocked st4 st); [apply (reach_start chain4 byz4 true)|exact E]|].
  assert (F : exists f, option_map (fun st => s_fx (st 0%nat)) (play chain4 byz4 true unlocked st4) = Some f /\
    s_fx (st 0%nat) = f) by (rewrite E; eexists; split; reflexivity).
  destruct F as (f & F & F'). unfold has_signed. rewrite F'. clear F' E. vm_compute in F.
  assert (Ff := f_equal (fun o => match o with Some x => x | None => [] end) F). cbv beta iota in Ff. rewrite <- Ff. clear F Ff.
  split; [reflexivity|].
  split; [left; cbn; auto 40|]. split; [reflexivity|]. split; [left; cbn; auto 40|]. split; [left; cbn; auto 40|discriminate].
Qed.
