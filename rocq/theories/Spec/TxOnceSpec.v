(* A node that validates, finalizes and restarts, and what it means that a
   transaction is on the chain. *)
From Coq Require Import ZArith List Bool Arith.
From Verif Require Import Model.TxLocator.
Import ListNotations.
Open Scope Z_scope.

(* The node.  Besides the code's state: for each tracker the blocks it stands
   for (its own and all below it, newest first), the finalized blocks (whose
   height is on disk, newest first), and a block whose transactions have been
   committed but whose height has not been written yet; and the blocks that were
   in that state when the node stopped. *)
Record world := mkWorld {
  w_m : manager;
  w_t : list tracker;
  w_path : list (list block);
  w_chain : list block;
  w_pend : option block;
  w_lost : list block
}.

(* Finalized, or being finalized. *)
Definition committed (w : world) : list block :=
  match w_pend w with Some b => b :: w_chain w | None => w_chain w end.

Definition on_chain (id : Z) (p : list block) : Prop := exists b, In b p /\ In id (b_ids b).
Definition fresh (b : block) (p : list block) : Prop :=
  NoDup (b_ids b) /\ forall id, In id (b_ids b) -> ~ on_chain id p.

(* A tracker on which blocks are built when nothing is built ahead of
   finalization: its transactions are committed, or there are none. *)
Definition settled (w : world) (i : nat) : Prop :=
  (exists t, nth_error (w_t w) i = Some t /\ t_ids t = None) \/ nth_error (w_path w) i = Some [].

Definition lost_now (w : world) : list block :=
  match w_pend w with Some b => b :: w_lost w | None => w_lost w end.

Section World.
Variable tsof : Z -> Z.
Variable th0 : Z.                                (* threshold of the initial transition *)
Variable rule : list block -> block -> Prop.     (* what may follow what *)
Variable ahead : bool.                           (* blocks built on blocks not yet finalized *)
Variable disk_fails : bool.

Inductive reach : world -> Prop :=
| r_start : reach (mkWorld (manager_new []) [root th0] [[]] [] None [])
(* a block is validated, or taken by force: then it has been validated by
   others *)
| r_block : forall w i p b force ts,
    reach w -> nth_error (w_path w) i = Some p -> rule p b ->
    (ahead = false -> settled w i) ->
    record tsof (w_m w) (w_t w) i b force = (true, ts) ->
    (force = true -> fresh b p) ->
    forallb (in_range tsof b) (b_ids b) = true ->
    reach (mkWorld (w_m w) ts (w_path w ++ [b :: p]) (w_chain w) (w_pend w) (w_lost w))
(* a block on top of the last finalized one is finalized; the previous call has
   returned, so its job has been fetched *)
| r_commit : forall w i t b m ts,
    reach w -> w_pend w = None -> m_queue (w_m w) = [] ->
    nth_error (w_path w) i = Some (b :: w_chain w) ->
    nth_error (w_t w) i = Some t -> t_ids t <> None ->
    (forall j, t_parent t = Some j -> settled w j) ->
    commit (S i) (w_m w) (w_t w) i = Some (m, ts) ->
    reach (mkWorld m ts (w_path w) (w_chain w) (Some b) (w_lost w))
(* the call returns and the height is written *)
| r_height : forall w b,
    reach w -> w_pend w = Some b -> m_queue (w_m w) = [] ->
    reach (mkWorld (w_m w) (w_t w) (w_path w) (b :: w_chain w) None (w_lost w))
| r_worker : forall w m,
    reach w -> worker (w_m w) = Some m ->
    reach (mkWorld m (w_t w) (w_path w) (w_chain w) (w_pend w) (w_lost w))
| r_fails : forall w,
    reach w -> disk_fails = true ->
    reach (mkWorld (worker_fails (w_m w)) (w_t w) (w_path w) (w_chain w) (w_pend w) (w_lost w))
(* the node stops at any time and starts again *)
| r_crash_empty : forall w,
    reach w -> w_chain w = [] ->
    reach (mkWorld (manager_new (m_db (w_m w))) [root th0] [[]] [] None (lost_now w))
| r_crash : forall w b c m ts,
    reach w -> w_chain w = b :: c ->
    restart tsof th0 (m_db (w_m w)) b = Some (m, ts) ->
    reach (mkWorld m ts [[]; b :: c] (b :: c) None (lost_now w)).
End World.

(* Timestamps of blocks increase. *)
Definition later (p : list block) (b : block) : Prop :=
  0 < b_ts b /\ match p with [] => True | a :: _ => b_ts a < b_ts b end.

(* First rule: the end of the window of acceptable timestamps never moves back,
   and no transaction sits exactly on it. *)
Definition window_advances (tsof : Z -> Z) (p : list block) (b : block) : Prop :=
  later p b /\
  match p with [] => True | a :: _ => b_ts a + b_th a <= b_ts b + b_th b end /\
  forall id, In id (b_ids b) -> tsof id < b_ts b + b_th b.

(* Second rule: the threshold is never changed. *)
Definition constant_threshold (th : Z) (p : list block) (b : block) : Prop :=
  later p b /\ Forall (fun a => b_th a = th) (b :: p).
