(* The consensus engine of one node at one height.

   Source: /repo/consensus/consensus.go (all line numbers without a file name
   refer to it), step.go, blockpartset.go.

   Simplifications, once for the file.
   - One height.  Messages of other heights, the votes for the last block, fast
     syncing beyond the next block, and what happens after the block of this
     height is finalized are left out: a node that has finalized ([s_final])
     ignores every further event of the height.
   - A part set (and the block in it) is named by its ID, a number.  The block
     ID, the network type section votes and the proposer of a block are
     functions of that name, since the ID is a hash of the whole block.  A part
     set is incomplete until one event delivers all that is missing.
   - A signature is represented by the index of the validator it belongs to.
     Verify of a message and VerifyNTSDProofParts only refuse messages, and
     are left out: the model accepts more.
   - Timers, the block manager, the transaction pool and the disk are the
     environment: timer callbacks, results of Propose and ImportBlock are
     events; ImportBlock at commit (ImportByForce) and Finalize succeed at
     once.  The answers needed inside an event come with it ([env]).
   - The double sign log, metrics, the syncer, logging, patches for skipped
     transactions, roles and the regulator are left out. *)
From Coq Require Import ZArith List Bool Arith.
From Verif Require Import Model.Votes.
Import ListNotations.
Open Scope Z_scope.

(* step.go 7-17. *)
Inductive step :=
| NewHeight | TransactionWait | NewRound | Propose | PrevoteS | PrevoteWait
| PrecommitS | PrecommitWait | Commit.

Definition step_num (s : step) : nat :=
  match s with
  | NewHeight => 0 | TransactionWait => 1 | NewRound => 2 | Propose => 3 | PrevoteS => 4
  | PrevoteWait => 5 | PrecommitS => 6 | PrecommitWait => 7 | Commit => 8
  end%nat.

Definition step_ltb (a b : step) : bool := Nat.ltb (step_num a) (step_num b).
Definition step_leb (a b : step) : bool := Nat.leb (step_num a) (step_num b).
Definition step_eqb (a b : step) : bool := Nat.eqb (step_num a) (step_num b).

(* The chain: number of validators, height, network ID in a nil vote (cs.nid)
   and in part set IDs, and what the name of a block determines. *)
Record chain := mkChain {
  c_n : nat;
  c_height : Z;
  c_nid : Z;
  c_net : Z;
  c_bid : Z -> Z;                (* block ID *)
  c_nts : Z -> list Z;           (* network type section votes of a block *)
  c_decodes : Z -> bool;         (* NewBlockDataFromReader succeeds *)
  c_proposer : Z -> Z;           (* index of the block's proposer, -1 if none *)
  c_digest : decision -> list Z  (* SHA3 of the encoded decision *)
}.

(* blockpartset.go 25-34. *)
Record parts := mkParts {
  p_id : Z;
  p_complete : bool;
  p_block : bool;     (* block != nil *)
  p_valid : bool      (* validatedBlock != nil *)
}.

(* What the node does to the outside, newest first: writes to and syncs of its
   three write-ahead logs, votes and proposals sent. *)
Inductive walname := RoundWAL | LockWAL | CommitWAL.

Inductive entry :=
| WVote (v : vote)                    (* VoteMessage, the node's own *)
| WVotes (l : list (nat * vote))      (* VoteListMessage *)
| WProposal (r : Z)                   (* ProposalMessage, the node's own *)
| WParts (id : Z).                    (* the BlockPartMessages of a block *)

Inductive fx :=
| FxWrite (w : walname) (e : entry)
| FxSync (w : walname)
| FxVote (v : vote)
| FxProposal (r id pol : Z).

(* Why a node stopped: a Go panic; the deliberate panic of line 881 (a
   decision on a block this node cannot decode); the recursion bound of the
   model. *)
Inductive halt := Panic | Upgrade | Fuel.

Record node := mkNode {
  s_round : Z;
  s_step : step;
  s_locked : option parts;
  s_lround : Z;
  s_cur : option parts;
  s_pol : Z;
  s_hvs : hvs;
  s_import : option (Z * Z);   (* round and block of a pending ImportBlock *)
  s_prop : option Z;           (* round of a pending Propose *)
  s_crnd : Z;
  s_final : option Z;
  s_halt : option halt;
  s_fx : list fx
}.

(* Answers of the environment during one event: the clock; whether
   ImportBlock accepts the request; whether the next round's propose time is
   still ahead; whether to wait for transactions; whether the block part cache
   holds the parts asked for; whether WAL writes succeed. *)
Record env := mkEnv {
  e_now : Z;
  e_import : bool;
  e_delay : bool;
  e_waittx : bool;
  e_cached : bool;
  e_disk : bool
}.

(* setters *)
Definition with_step st s := mkNode (s_round s) st (s_locked s) (s_lround s) (s_cur s) (s_pol s)
  (s_hvs s) (s_import s) (s_prop s) (s_crnd s) (s_final s) (s_halt s) (s_fx s).
Definition with_lock l r s := mkNode (s_round s) (s_step s) l r (s_cur s) (s_pol s)
  (s_hvs s) (s_import s) (s_prop s) (s_crnd s) (s_final s) (s_halt s) (s_fx s).
Definition with_cur c s := mkNode (s_round s) (s_step s) (s_locked s) (s_lround s) c (s_pol s)
  (s_hvs s) (s_import s) (s_prop s) (s_crnd s) (s_final s) (s_halt s) (s_fx s).
Definition with_pol p s := mkNode (s_round s) (s_step s) (s_locked s) (s_lround s) (s_cur s) p
  (s_hvs s) (s_import s) (s_prop s) (s_crnd s) (s_final s) (s_halt s) (s_fx s).
Definition with_hvs h s := mkNode (s_round s) (s_step s) (s_locked s) (s_lround s) (s_cur s) (s_pol s)
  h (s_import s) (s_prop s) (s_crnd s) (s_final s) (s_halt s) (s_fx s).
Definition with_round r s := mkNode r (s_step s) (s_locked s) (s_lround s) (s_cur s) (s_pol s)
  (s_hvs s) (s_import s) (s_prop s) (s_crnd s) (s_final s) (s_halt s) (s_fx s).
Definition with_import i s := mkNode (s_round s) (s_step s) (s_locked s) (s_lround s) (s_cur s) (s_pol s)
  (s_hvs s) i (s_prop s) (s_crnd s) (s_final s) (s_halt s) (s_fx s).
Definition with_prop p s := mkNode (s_round s) (s_step s) (s_locked s) (s_lround s) (s_cur s) (s_pol s)
  (s_hvs s) (s_import s) p (s_crnd s) (s_final s) (s_halt s) (s_fx s).
Definition with_crnd r s := mkNode (s_round s) (s_step s) (s_locked s) (s_lround s) (s_cur s) (s_pol s)
  (s_hvs s) (s_import s) (s_prop s) r (s_final s) (s_halt s) (s_fx s).
Definition with_final f s := mkNode (s_round s) (s_step s) (s_locked s) (s_lround s) (s_cur s) (s_pol s)
  (s_hvs s) (s_import s) (s_prop s) (s_crnd s) f (s_halt s) (s_fx s).
Definition halted h s := mkNode (s_round s) (s_step s) (s_locked s) (s_lround s) (s_cur s) (s_pol s)
  (s_hvs s) (s_import s) (s_prop s) (s_crnd s) (s_final s) (Some h) (s_fx s).
Definition emit f s := mkNode (s_round s) (s_step s) (s_locked s) (s_lround s) (s_cur s) (s_pol s)
  (s_hvs s) (s_import s) (s_prop s) (s_crnd s) (s_final s) (s_halt s) (f :: s_fx s).

(* A panic, or leaving the height, ends the event. *)
Definition gone (s : node) : bool :=
  match s_halt s, s_final s with None, None => false | _, _ => true end.
Definition andthen (s : node) (f : node -> node) : node := if gone s then s else f s.

(* A state in which nothing has happened at the height: lines 184-235
   (resetForNewHeight). *)
Definition node_new (n : nat) : node :=
  mkNode 0 NewHeight None (-1) None (-1) (h_new n) None None (-1) None None [].

(* blockpartset.go 103-110 (SetByPartSetID). *)
Definition set_id (id : Z) (c : option parts) : option parts :=
  match c with
  | Some p => if Z.eqb (p_id p) id then c else Some (mkParts id false false false)
  | None => Some (mkParts id false false false)
  end.

Definition has_id (id : Z) (c : option parts) : bool :=
  match c with Some p => Z.eqb (p_id p) id | None => false end.

(* The votes of a set with the validators they belong to: what is written by
   voteList, voteset.go 159-167, and recovered from the signatures. *)
Fixpoint indexed (l : list (option vote)) (i : nat) : list (nat * vote) :=
  match l with
  | [] => []
  | Some v :: l' => (i, v) :: indexed l' (S i)
  | None :: l' => indexed l' (S i)
  end.

Section Node.
Variable C : chain.
Variable me : option nat.     (* index of this node's wallet, None if it is no validator *)

Definition prevotes_of (r : Z) (s : node) : voteset := h_votes r Prevote (s_hvs s).
Definition precommits_of (r : Z) (s : node) : voteset := h_votes r Precommit (s_hvs s).

(* The part set ID of the decision with over two thirds: None when there is no
   such decision, Some None for a nil decision. *)
Definition over_id (vs : voteset) : option (option Z) := option_map snd (over vs).

(* Lines 1310-1320. *)
Definition proposer_index (r : Z) : Z := (c_height C + r) mod Z.of_nat (c_n C).

(* Lines 1322-1336 (isProposer). *)
Definition is_proposer (s : node) : bool :=
  match me with
  | Some i => Nat.ltb i (c_n C) && Z.eqb (proposer_index (s_round s)) (Z.of_nat i)
  | None => false
  end.

(* Lines 1338-1350 (isProposalAndPOLPrevotesComplete). *)
Definition proposal_complete (s : node) : bool :=
  match s_cur s with
  | Some p =>
      p_complete p &&
      (if Z.leb 0 (s_pol s)
       then match over_id (prevotes_of (s_pol s) s) with Some (Some _) => true | _ => false end
       else true)
  | None => false
  end.

(* Lines 708-725 (proposalHasValidProposer). *)
Definition valid_proposer (s : node) : bool :=
  proposal_complete s &&
  (if Z.eqb (s_pol s) (-1) then
     match s_cur s with
     | Some p => Z.leb 0 (c_proposer C (p_id p)) && Z.eqb (proposer_index (s_round s)) (c_proposer C (p_id p))
     | None => false
     end
   else true).

(* Lines 277-294 (isValidTransition, beginStep). *)
Definition begin_step (st : step) (s : node) : node :=
  let ok :=
    match st with
    | NewHeight => match s_step s with NewHeight | Commit => true | _ => false end
    | NewRound => true
    | _ => step_ltb (s_step s) st
    end in
  if ok then with_step st s else halted Panic s.

(* Lines 237-254 (resetForNewRound). *)
Definition reset_round (r : Z) (s : node) : node :=
  let s1 := with_round r (with_cur None (with_pol (-1) s)) in
  begin_step NewRound (with_hvs (h_prune (r - 1) (s_lround s1) (s_hvs s1)) s1).

(* Lines 2205-2224: a message is written to a WAL; when the disk fails the
   error is logged and the engine goes on (lines 814, 858-872, 911, 987,
   1288). *)
Definition wal (E : env) (w : walname) (e : entry) (s : node) : node :=
  if e_disk E then emit (FxWrite w e) s else s.
Definition wal_sync (E : env) (w : walname) (s : node) : node :=
  if e_disk E then emit (FxSync w) s else s.

(* The decision a node votes for: lines 1261-1282. *)
Definition app_data (count : nat) : Z := c_net C * 65536 + Z.of_nat count.
Definition nil_decision : decision := mkDecision (c_nid C) None [].
Definition block_decision (t : vtype) (id : Z) : decision :=
  let nts := match t with Prevote => [] | Precommit => c_nts C id end in
  mkDecision (c_bid C id) (Some (id, app_data (List.length nts))) nts.

(* Lines 937-979 (commitAndEnterNewHeight). *)
Definition finish (s : node) : node :=
  match s_cur s with
  | Some p => if p_block p then with_final (Some (p_id p)) s else halted Upgrade s
  | None => halted Panic s
  end.

(* The calls that call each other. *)
Inductive call :=
| CRecv (i : nat) (v : vote)          (* ReceiveVoteMessage *)
| CSend (t : vtype) (p : option parts)  (* sendVote *)
| CTransWait | CPropose | CPrevote | CPrevoteWait | CPrecommit | CPrecommitWait
| CCommit (r : Z) (id : Z)            (* enterCommit *)
| CNewRound.

Section Calls.
Variable E : env.
Variable rec : call -> node -> node.

(* Lines 545-575 (handlePrevoteMessage). *)
Definition handle_prevote (v : vote) (s : node) : node :=
  if step_leb Commit (s_step s) then s
  else
    let r := v_round v in
    let q := over_id (prevotes_of r s) in
    let s1 :=
      match q with
      | Some oid =>
          let s0 :=
            match s_locked s with
            | Some lp =>
                if Z.ltb (s_lround s) r
                   && negb (match oid with Some id => Z.eqb (p_id lp) id | None => false end)
                then with_lock None (-1) s else s
            | None => s
            end in
          match oid with
          | Some id => if Z.eqb (s_round s0) r then with_cur (set_id id (s_cur s0)) s0 else s0
          | None => s0
          end
      | None => s
      end in
    if Z.ltb r (s_round s1) && step_ltb (s_step s1) PrevoteS && Z.eqb r (s_pol s1) && proposal_complete s1
    then rec CPrevote s1
    else if Z.eqb (s_round s1) r && step_ltb (s_step s1) PrevoteS then rec CPrevote s1
    else if Z.eqb (s_round s1) r && step_eqb (s_step s1) PrevoteS then rec CPrevoteWait s1
    else if Z.eqb (s_round s1) r && step_eqb (s_step s1) PrevoteWait then
      match q with Some _ => rec CPrecommit s1 | None => s1 end
    else if Z.ltb (s_round s1) r && step_ltb (s_step s1) Commit then rec CPrevote (reset_round r s1)
    else s1.

(* Lines 577-597 (handlePrecommitMessage). *)
Definition handle_precommit (v : vote) (s : node) : node :=
  let r := v_round v in
  let q := over_id (precommits_of r s) in
  if Z.ltb r (s_round s) && step_ltb (s_step s) Commit then
    match q with Some (Some id) => rec (CCommit r id) s | _ => s end
  else if Z.eqb (s_round s) r && step_ltb (s_step s) PrecommitS then rec CPrecommit s
  else if Z.eqb (s_round s) r && step_eqb (s_step s) PrecommitS then rec CPrecommitWait s
  else if Z.eqb (s_round s) r && step_eqb (s_step s) PrecommitWait then
    match q with
    | Some (Some id) => rec (CCommit r id) s
    | Some None => rec CNewRound s
    | None => s
    end
  else if Z.ltb (s_round s) r && step_ltb (s_step s) Commit then rec CPrecommit (reset_round r s)
  else s.

(* Lines 478-531 (ReceiveVoteMessage), for a vote of this height. *)
Definition receive_vote (i : nat) (v : vote) (s : node) : node :=
  if negb (Z.eqb (v_height v) (c_height C)) then s
  else if negb (Nat.ltb i (c_n C)) then s
  else
    let '(added, h) := h_add (c_digest C) i v (s_hvs s) in
    let s1 := with_hvs h s in
    if negb added then s1
    else if negb (vs_has (h_votes (v_round v) (v_type v) h)) then s1
    else match v_type v with
         | Prevote => handle_prevote v s1
         | Precommit => handle_precommit v s1
         end.

(* Lines 1199-1204, 1251-1308 (sendVote, doSendVote). *)
Definition send_vote (t : vtype) (p : option parts) (s : node) : node :=
  match me with
  | Some i =>
      if Nat.ltb i (c_n C) then
        match p with
        | Some q =>
            if p_block q then
              let v := mkVote (c_height C) (s_round s) t (block_decision t (p_id q)) (e_now E) in
              rec (CRecv i v) (emit (FxVote v) (wal_sync E RoundWAL (wal E RoundWAL (WVote v) s)))
            else halted Panic s
        | None =>
            let v := mkVote (c_height C) (s_round s) t nil_decision (e_now E) in
            rec (CRecv i v) (emit (FxVote v) (wal_sync E RoundWAL (wal E RoundWAL (WVote v) s)))
        end
      else s
  | None => s
  end.

(* Lines 1106-1137 (sendProposal, as far as the WAL and the network are
   concerned). *)
Definition send_proposal (id pol : Z) (s : node) : node :=
  emit (FxProposal (s_round s) id pol)
    (wal_sync E RoundWAL (wal E RoundWAL (WProposal (s_round s)) s)).

(* Lines 627-706 (enterPropose). *)
Definition enter_propose (s : node) : node :=
  andthen (begin_step Propose s) (fun s1 =>
    if is_proposer s1 then
      match s_locked s1 with
      | Some lp => with_cur (Some lp) (send_proposal (p_id lp) (s_lround s1) s1)
      | None => with_prop (Some (s_round s1)) s1
      end
    else if proposal_complete s1 then rec CPrevote s1 else s1).

(* Lines 797-806: the check at the end of enterPrevote. *)
Definition prevote_check (s : node) : node :=
  if step_eqb (s_step s) PrevoteS && vs_has (prevotes_of (s_round s) s)
  then rec CPrevoteWait s else s.

(* Lines 727-806 (enterPrevote). *)
Definition enter_prevote (s : node) : node :=
  andthen (begin_step PrevoteS s) (fun s1 =>
    match s_locked s1 with
    | Some lp => andthen (rec (CSend Prevote (Some lp)) s1) prevote_check
    | None =>
        match s_cur s1 with
        | Some p =>
            if p_block p then
              if p_valid p then andthen (rec (CSend Prevote (Some p)) s1) prevote_check
              else if negb (valid_proposer s1) then andthen (rec (CSend Prevote None) s1) prevote_check
              else if e_import E then prevote_check (with_import (Some (s_round s1, p_id p)) s1)
              else rec (CSend Prevote None) s1
            else andthen (rec (CSend Prevote None) s1) prevote_check
        | None => andthen (rec (CSend Prevote None) s1) prevote_check
        end
    end).

(* Lines 808-835 (enterPrevoteWait). *)
Definition enter_prevote_wait (s : node) : node :=
  andthen (begin_step PrevoteWait s) (fun s1 =>
    let vs := prevotes_of (s_round s1) s1 in
    let s2 := wal E RoundWAL (WVotes (indexed (vs_msgs vs) 0)) s1 in
    match over_id vs with
    | Some _ => rec CPrecommit s2
    | None => s2
    end).

(* Lines 893-903: the check at the end of enterPrecommit. *)
Definition precommit_check (s : node) : node :=
  if step_eqb (s_step s) PrecommitS && vs_has (precommits_of (s_round s) s)
  then rec CPrecommitWait s else s.

(* Lines 837-903 (enterPrecommit). *)
Definition enter_precommit (s : node) : node :=
  andthen (begin_step PrecommitS s) (fun s1 =>
    let vs := prevotes_of (s_round s1) s1 in
    let after s2 := andthen s2 precommit_check in
    match over_id vs with
    | None => after (rec (CSend Precommit None) s1)
    | Some None => after (rec (CSend Precommit None) (with_lock None (-1) s1))
    | Some (Some id) =>
        if has_id id (s_locked s1) then
          let s2 := with_lock (s_locked s1) (s_round s1) s1 in
          after (rec (CSend Precommit (s_locked s2)) s2)
        else if has_id id (s_cur s1)
                && (match s_cur s1 with Some p => p_block p | None => false end) then
          let s2 := with_lock (s_cur s1) (s_round s1) s1 in
          let s3 := wal_sync E LockWAL (wal E LockWAL (WParts id)
                      (wal E LockWAL (WVotes (indexed (vs_msgs vs) 0)) s2)) in
          after (rec (CSend Precommit (s_locked s3)) s3)
        else if has_id id (s_cur s1)
                && (match s_cur s1 with Some p => p_complete p | None => false end) then
          halted Upgrade s1
        else
          after (rec (CSend Precommit None)
                   (with_lock None (-1) (with_cur (set_id id (s_cur s1)) s1)))
    end).

(* Lines 905-935 (enterPrecommitWait). *)
Definition enter_precommit_wait (s : node) : node :=
  andthen (begin_step PrecommitWait s) (fun s1 =>
    let vs := precommits_of (s_round s1) s1 in
    let s2 := wal E RoundWAL (WVotes (indexed (vs_msgs vs) 0)) s1 in
    match over_id vs with
    | Some (Some id) => rec (CCommit (s_round s2) id) s2
    | Some None => rec CNewRound s2
    | None => s2
    end).

(* Lines 981-1017 (enterCommit); [r] is the round of the precommits. *)
Definition enter_commit (r id : Z) (s : node) : node :=
  andthen (begin_step Commit s) (fun s1 =>
    let s2 := with_crnd r s1 in
    let s3 := wal_sync E CommitWAL
                (wal E CommitWAL (WVotes (indexed (vs_msgs (precommits_of r s2)) 0)) s2) in
    let s4 := with_cur (set_id id (s_cur s3)) s3 in
    let s5 :=
      match s_cur s4 with
      | Some p =>
          if negb (p_complete p) && e_cached E
          then with_cur (Some (mkParts (p_id p) true (c_decodes C (p_id p)) false)) s4 else s4
      | None => s4
      end in
    match s_cur s5 with
    | Some p => if p_complete p then finish s5 else s5
    | None => s5
    end).

(* Lines 1019-1038 (enterNewRound). *)
Definition enter_new_round (s : node) : node :=
  andthen (reset_round (s_round s + 1) s) (fun s1 =>
    if e_delay E then s1 else rec CPropose s1).

(* Lines 1040-1068 (enterTransactionWait). *)
Definition enter_trans_wait (s : node) : node :=
  andthen (begin_step TransactionWait s) (fun s1 =>
    if e_waittx E then s1 else rec CPropose s1).

Definition do_call (c : call) (s : node) : node :=
  match c with
  | CRecv i v => receive_vote i v s
  | CSend t p => send_vote t p s
  | CTransWait => enter_trans_wait s
  | CPropose => enter_propose s
  | CPrevote => enter_prevote s
  | CPrevoteWait => enter_prevote_wait s
  | CPrecommit => enter_precommit s
  | CPrecommitWait => enter_precommit_wait s
  | CCommit r id => enter_commit r id s
  | CNewRound => enter_new_round s
  end.

End Calls.

(* The recursion, bounded; the bound is reported as [Fuel]. *)
Fixpoint run (E : env) (fuel : nat) (c : call) (s : node) : node :=
  match fuel with
  | O => halted Fuel s
  | S f => if gone s then s else do_call E (run E f) c s
  end.

Definition depth : nat := 24.
Definition perform (E : env) (c : call) (s : node) : node := run E depth c s.

(* What can happen to a node. *)
Inductive event :=
| EVote (i : nat) (v : vote)
| EProposal (i : nat) (r id pol : Z)
| EParts                               (* the missing parts of the current set arrive *)
| EImported (ok : bool)                (* callback of ImportBlock *)
| EProposed (id : option Z)            (* callback of Propose *)
| ETimer                               (* timer, or the wait of the current step, ends *)
| EBlock (r : Z) (votes : list (nat * vote)) (id : Z).  (* fast sync *)

(* The tail of ReceiveProposalMessage and ReceiveBlockPartMessage, lines
   411-416 and 470-474. *)
Definition parts_changed (E : env) (s : node) : node :=
  if (step_eqb (s_step s) TransactionWait || step_eqb (s_step s) Propose) && proposal_complete s
  then perform E CPrevote s
  else if step_eqb (s_step s) Commit
          && (match s_cur s with Some p => p_complete p | None => false end)
  then finish s
  else s.

Definition handle (E : env) (e : event) (s : node) : node :=
  if gone s then s
  else match e with
  | EVote i v => perform E (CRecv i v) s
  (* lines 380-417 (ReceiveProposalMessage) *)
  | EProposal i r id pol =>
      if Z.eqb r (s_round s) && step_ltb (s_step s) Commit && Nat.ltb i (c_n C)
         && Z.eqb (proposer_index (s_round s)) (Z.of_nat i)
      then match s_cur s with
           | Some _ => s
           | None =>
               parts_changed E
                 (with_cur (Some (if e_cached E then mkParts id true (c_decodes C id) false
                                  else mkParts id false false false))
                   (with_pol pol s))
           end
      else s
  (* lines 454-476 (ReceiveBlockPartMessage) *)
  | EParts =>
      match s_cur s with
      | Some p =>
          if p_complete p then s
          else parts_changed E (with_cur (Some (mkParts (p_id p) true (c_decodes C (p_id p)) false)) s)
      | None => s
      end
  (* lines 744-788: the callback of enterPrevote *)
  | EImported ok =>
      match s_import s with
      | None => s
      | Some (r, id) =>
          let s1 := with_import None s in
          if negb (Z.eqb (s_round s1) r) || step_leb Commit (s_step s1) then s1
          else if ok then
            let s2 :=
              match s_cur s1 with
              | Some p =>
                  if p_block p && Z.eqb (c_bid C (p_id p)) (c_bid C id)
                  then with_cur (Some (mkParts id true true true)) s1 else s1
              | None => s1
              end in
            if step_leb (s_step s2) PrevoteWait then
              match s_cur s2 with
              | Some p => perform E (CSend Prevote (Some p)) s2
              | None => halted Panic s2
              end
            else s2
          else if step_leb (s_step s1) PrevoteWait then perform E (CSend Prevote None) s1
          else s1
      end
  (* lines 671-696: the callback of enterPropose *)
  | EProposed oid =>
      match s_prop s with
      | None => s
      | Some r =>
          let s1 := with_prop None s in
          if Z.eqb (s_round s1) r && step_eqb (s_step s1) Propose then
            match oid with
            | None => perform E CPrevote s1
            | Some id =>
                perform E CPrevote
                  (with_cur (Some (mkParts id true true true)) (send_proposal E id (-1) s1))
            end
          else s1
      end
  (* lines 644-652, 827-833, 927-933, 1024-1034, 1077-1089 *)
  | ETimer =>
      match s_step s with
      | NewHeight => perform E CTransWait s
      | TransactionWait => perform E CPropose s
      | NewRound => perform E CPropose s
      | Propose => perform E CPrevote s
      | PrevoteWait => perform E CPrecommit s
      | PrecommitWait => perform E CNewRound s
      | _ => s
      end
  (* lines 2094-2170 (ReceiveBlock, processBlock) *)
  | EBlock r votes id =>
      if step_eqb (s_step s) Commit
         && (match s_cur s with Some p => p_complete p | None => false end) then s
      else
        let h := fold_left (fun h iv => snd (h_add (c_digest C) (fst iv) (snd iv) h)) votes (s_hvs s) in
        let s1 := with_hvs h s in
        match over_id (precommits_of r s1) with
        | Some (Some id') =>
            if Z.eqb id id' then
              let valid := match s_cur s1 with Some p => Z.eqb (p_id p) id && p_valid p | None => false end in
              let s2 := with_cur (Some (mkParts id true true valid)) s1 in
              if step_ltb (s_step s2) Commit then perform E (CCommit r id) s2 else finish s2
            else s1
        | _ => s1
        end
  end.

(* ---------- restart ---------- *)

(* The entries of a WAL, oldest first. *)
Definition wal_eqb (a b : walname) : bool :=
  match a, b with RoundWAL, RoundWAL | LockWAL, LockWAL | CommitWAL, CommitWAL => true | _, _ => false end.

Fixpoint entries (w : walname) (f : list fx) : list entry :=
  match f with
  | [] => []
  | FxWrite w' e :: f' => if wal_eqb w w' then entries w f' ++ [e] else entries w f'
  | _ :: f' => entries w f'
  end.

Definition add_all (l : list (nat * vote)) (h : hvs) : hvs :=
  fold_left (fun h iv => snd (h_add (c_digest C) (fst iv) (snd iv) h)) l h.

Definition vote_step (t : vtype) : step := match t with Prevote => PrevoteS | Precommit => PrecommitS end.

(* Lines 1352-1464 (applyRoundWAL).  An empty list would make Get(0) panic;
   none is ever written, and here it is skipped. *)
Definition apply_round1 (s : node) (e : entry) : node :=
  match e with
  | WProposal r =>
      if Z.ltb (s_round s) r || (Z.eqb (s_round s) r && step_leb (s_step s) Propose)
      then with_step Propose (with_round r s) else s
  | WVote v =>
      match me with
      | Some i =>
          if Nat.ltb i (c_n C) then
            let s1 := with_hvs (snd (h_add (c_digest C) i v (s_hvs s))) s in
            let st := vote_step (v_type v) in
            if Z.ltb (s_round s1) (v_round v) || (Z.eqb (s_round s1) (v_round v) && step_leb (s_step s1) st)
            then with_step st (with_round (v_round v) s1) else s1
          else s
      | None => s
      end
  | WVotes l =>
      match l with
      | [] => s
      | (_, v0) :: _ =>
          let s1 := with_hvs (add_all l (s_hvs s)) s in
          let st := vote_step (v_type v0) in
          if (Z.ltb (s_round s1) (v_round v0) || (Z.eqb (s_round s1) (v_round v0) && step_ltb (s_step s1) st))
             && vs_has (h_votes (v_round v0) (v_type v0) (s_hvs s1))
          then with_step st (with_round (v_round v0) s1) else s1
      end
  | WParts _ => s
  end.

(* Lines 1466-1578 (applyLockWAL).  The accumulator carries bpset and
   lastBPSet with their rounds. *)
Definition lock_acc := (node * option (Z * Z) * option (Z * Z))%type.

Definition apply_lock1 (a : lock_acc) (e : entry) : lock_acc :=
  let '(s, bp, last) := a in
  match e with
  | WVotes l =>
      match l with
      | [] => a
      | (_, v0) :: _ =>
          let s1 := with_hvs (add_all l (s_hvs s)) s in
          let bp1 := match over_id (prevotes_of (v_round v0) s1) with
                     | Some (Some id) => Some (id, v_round v0)
                     | _ => bp
                     end in
          let st := vote_step (v_type v0) in
          let s2 :=
            if (Z.ltb (s_round s1) (v_round v0) || (Z.eqb (s_round s1) (v_round v0) && step_ltb (s_step s1) st))
               && vs_has (h_votes (v_round v0) (v_type v0) (s_hvs s1))
            then with_step st (with_round (v_round v0) s1) else s1 in
          (s2, bp1, last)
      end
  | WParts id =>
      match bp with
      | Some (id', r) => if Z.eqb id id' then (s, bp, Some (id', r)) else a
      | None => a
      end
  | _ => a
  end.

(* Lines 1609-1666 (applyCommitWAL), the votes of this height. *)
Definition apply_commit1 (s : node) (e : entry) : node :=
  match e with
  | WVotes ((i0, v0) :: l) =>
      let s1 := with_hvs (add_all ((i0, v0) :: l) (s_hvs s)) s in
      let st := vote_step (v_type v0) in
      if (Z.ltb (s_round s1) (v_round v0) || (Z.eqb (s_round s1) (v_round v0) && step_ltb (s_step s1) st))
         && vs_has (h_votes (v_round v0) (v_type v0) (s_hvs s1))
      then with_step st (with_round (v_round v0) s1) else s1
  | _ => s
  end.

(* Lines 1670-1681 (applyWAL). *)
Definition recover (f : list fx) : node :=
  let s0 := node_new (c_n C) in
  let s0 := mkNode (s_round s0) (s_step s0) (s_locked s0) (s_lround s0) (s_cur s0) (s_pol s0) (s_hvs s0)
              (s_import s0) (s_prop s0) (s_crnd s0) (s_final s0) (s_halt s0) f in
  let s1 := fold_left apply_round1 (entries RoundWAL f) s0 in
  let '(s2, _, last) := fold_left apply_lock1 (entries LockWAL f) (s1, None, None) in
  let s3 :=
    match last with
    | Some (id, r) =>
        if c_decodes C id then
          with_lock (Some (mkParts id true true false)) r (with_cur (Some (mkParts id true true false)) s2)
        else halted Upgrade s2
    | None => s2
    end in
  fold_left apply_commit1 (entries CommitWAL f) s3.

(* Lines 1860-1878: the end of Start. *)
Definition start (E : env) (f : list fx) : node :=
  andthen (recover f) (fun s =>
    match s_step s with
    | NewHeight => if Z.eqb (s_round s) 0 then perform E CTransWait s else perform E CPropose s
    | Propose => perform E CPrevote s
    | PrevoteS => if vs_has (prevotes_of (s_round s) s) then perform E CPrevoteWait s else s
    | PrecommitS => if vs_has (precommits_of (s_round s) s) then perform E CPrecommitWait s else s
    | _ => s
    end).

(* What is left of the effects [f] (newest first) when the machine stops: of
   each WAL, the entries written after its last sync may be lost, the newest
   first. *)
Fixpoint unsynced (w : walname) (f : list fx) : nat :=
  match f with
  | [] => O
  | FxSync w' :: f' => if wal_eqb w w' then O else unsynced w f'
  | FxWrite w' _ :: f' => if wal_eqb w w' then S (unsynced w f') else unsynced w f'
  | _ :: f' => unsynced w f'
  end.

Fixpoint drop_newest (w : walname) (k : nat) (f : list fx) : list fx :=
  match k, f with
  | O, _ => f
  | _, [] => []
  | S k', FxWrite w' e :: f' =>
      if wal_eqb w w' then drop_newest w k' f' else FxWrite w' e :: drop_newest w k f'
  | _, x :: f' => x :: drop_newest w k f'
  end.

Definition lose (w : walname) (keep : nat) (f : list fx) : list fx :=
  drop_newest w (unsynced w f - keep) f.

(* A crash while event [e] is handled: only the first [k] effects of the event
   happen, and unsynced entries beyond those kept are lost.  What is left is on
   disk for good: it counts as synced.  The node then starts again from its
   WALs. *)
Definition after_crash (E : env) (e : event) (k kr kl kc : nat) (s : node) : list fx :=
  let f := s_fx (handle E e s) in
  let new := (List.length f - List.length (s_fx s))%nat in
  FxSync RoundWAL :: FxSync LockWAL :: FxSync CommitWAL ::
    lose CommitWAL kc (lose LockWAL kl (lose RoundWAL kr (skipn (new - k) f))).

End Node.
