(* C55: the consensus engine does not panic. *)
From Coq Require Import ZArith List Bool Arith Lia.
From Verif Require Import Model.Votes Model.Consensus Spec.ConsensusLife Proof.ConsensusPanic.
Import ListNotations.
Open Scope Z_scope.

Lemma life_G : forall C me s, life C me s -> G C s.
Proof.
  intros C me s L. induction L as [|s E e L IH|E f].
  - apply new_G.
  - apply handle_G. exact IH.
  - apply start_G.
Qed.

(* Whatever happens to a node, in whatever order and with whatever content, it
   neither panics (on an invalid step, a missing block part set or a missing
   block) nor does its recursion go deeper than the bound of the model. *)
Theorem C55_no_panic : forall C me s, life C me s ->
  s_halt s <> Some Panic /\ s_halt s <> Some Fuel.
Proof.
  intros C me s L. destruct (w_halt _ _ (proj1 (life_G C me s L))) as [H|(H & _)]; rewrite H; split; discriminate.
Qed.
Print Assumptions C55_no_panic.

(* It stops by itself only to ask for an upgrade, when it has all the parts of
   a block it cannot decode. *)
Theorem C55_stops_only_undecodable : forall C me s, life C me s -> s_halt s <> None ->
  s_halt s = Some Upgrade /\ exists id, c_decodes C id = false.
Proof.
  intros C me s L N. destruct (w_halt _ _ (proj1 (life_G C me s L))) as [H|H]; [contradiction|exact H].
Qed.
Print Assumptions C55_stops_only_undecodable.

(* While the node runs: what it is locked on it can always prevote for and
   propose again, and the block it waits for in the current round is still
   there when the answer comes. *)
Theorem C55_lock_usable : forall C me s, life C me s ->
  (forall p, s_locked s = Some p -> p_block p = true /\ p_complete p = true) /\
  (gone s = false -> forall r id, s_import s = Some (r, id) -> s_round s = r ->
     s_step s = PrevoteS \/ s_step s = PrevoteWait ->
     exists p, s_cur s = Some p /\ p_block p = true).
Proof.
  intros C me s L. destruct (life_G C me s L) as (H & K). split; [exact (w_lock _ _ H)|].
  intros Eg r id Hi Hr Hs. apply (K Eg r id Hi Hr). destruct Hs as [F|F]; rewrite F; cbn; lia.
Qed.
Print Assumptions C55_lock_usable.

(* A run of a validator of four with nonsense in between: votes of another
   height, of unknown validators, contradicting precommits, a restart from a
   log of foreign entries; and one in which a block that does not decode stops
   the node. *)
Definition digest4p (d : decision) : list Z :=
  match d_parts d with Some (x, y) => [d_block d; x; y] | None => [d_block d] end ++ -1 :: d_nts d.
Definition chain4p : chain :=
  mkChain 4 0 0 0 (fun p => p) (fun _ => []) (fun p => negb (Z.eqb p 66)) (fun _ => 1) digest4p.
Definition E4p (disk : bool) : env := mkEnv 7 true false false false disk.
Definition vote4 (h r : Z) (t : vtype) (p : Z) : vote :=
  mkVote h r t (mkDecision p (Some (p, 0)) []) 7.
Definition nil4 (r : Z) (t : vtype) : vote := mkVote 0 r t (mkDecision 0 None []) 7.
Definition run4 (l : list event) (s : node) : node :=
  fold_left (fun s e => handle chain4p (Some 0%nat) (E4p true) e s) l s.

Lemma run4_life : forall l s, life chain4p (Some 0%nat) s -> life chain4p (Some 0%nat) (run4 l s).
Proof.
  induction l as [|e l IH]; intros s L; [exact L|]. apply IH. apply life_event. exact L.
Qed.

Definition junk4 : list fx :=
  [ FxWrite RoundWAL (WVotes [(9%nat, vote4 0 7 Precommit 3)]); FxWrite LockWAL (WParts 5);
    FxWrite RoundWAL (WProposal 2); FxWrite CommitWAL (WVotes []) ].

Example C55_nonvacuous :
  (exists s, life chain4p (Some 0%nat) s /\ s_halt s = None /\ s_final s = None /\
     s_round s = 3 /\ s_locked s = None /\ s_step s = Commit) /\
  (exists s, life chain4p (Some 0%nat) s /\ s_locked s <> None /\ gone s = false) /\
  (exists s, life chain4p (Some 0%nat) s /\ gone s = false /\ s_import s = Some (1, 10) /\
     s_round s = 1 /\ s_step s = PrevoteWait) /\
  (exists s, life chain4p (Some 0%nat) s /\ s_halt s = Some Upgrade).
Proof.
  split; [|split; [|split]].
  - exists (run4 [EImported true; EVote 1 (vote4 9 0 Prevote 1); EVote 7 (vote4 0 0 Prevote 1); EProposed None;
                  EVote 1 (vote4 0 3 Precommit 11); EVote 1 (vote4 0 3 Precommit 10);
                  EVote 2 (vote4 0 3 Precommit 10); EParts; EVote 3 (vote4 0 3 Precommit 10); ETimer]
              (start chain4p (Some 0%nat) (E4p false) junk4)).
    split; [apply run4_life, life_restart|]. vm_compute. repeat split; reflexivity.
  - exists (run4 [ETimer; EProposed (Some 10); EVote 1 (vote4 0 0 Prevote 10); EVote 2 (vote4 0 0 Prevote 10)]
              (node_new 4)).
    split; [apply run4_life; exact (life_new chain4p (Some 0%nat))|]. vm_compute. split; [discriminate|reflexivity].
  - exists (run4 [EVote 1 (nil4 0 Precommit); EVote 2 (nil4 0 Precommit); EVote 3 (nil4 0 Precommit);
                  EProposal 1 1 10 (-1); EParts;
                  EVote 1 (vote4 0 1 Prevote 9); EVote 2 (vote4 0 1 Prevote 8); EVote 3 (nil4 1 Prevote)] (node_new 4)).
    split; [apply run4_life; exact (life_new chain4p (Some 0%nat))|]. vm_compute. repeat split; reflexivity.
  - exists (run4 [EVote 1 (vote4 0 0 Precommit 66); EVote 2 (vote4 0 0 Precommit 66); EVote 3 (vote4 0 0 Precommit 66);
                  EParts] (node_new 4)).
    split; [apply run4_life; exact (life_new chain4p (Some 0%nat))|]. vm_compute. reflexivity.
Qed.
