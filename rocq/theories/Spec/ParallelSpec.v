(* Executing the transactions one after the other, and what a transaction asked
   for permission to touch. *)
From Coq Require Import List Bool Arith.
From Verif Require Import Model.ParallelExec.
Import ListNotations.

Section Spec.
Variables V R : Type.
Notation prog := (prog V R).

(* One transaction alone on a world, with the snapshots it has taken. *)
Fixpoint alone (p : prog) (w : nat -> V) (snaps : list (nat -> V)) : (nat -> V) * option R :=
  match p with
  | Get id k => alone (k (w id)) w snaps
  | Put id v k => alone k (fun x => if Nat.eqb x id then v else w x) snaps
  | Snap k => alone (k (length snaps)) w (snaps ++ [w])
  | Rollback h k => alone k (nth h snaps w) snaps
  | Done r => (w, r)
  end.

(* A transaction starts with a snapshot, which has number 0. *)
Definition whole (p : prog) (w : nat -> V) : (nat -> V) * option R := alone p w [w].

(* The world before transaction number i of a block. *)
Fixpoint before (txs : list (list req * prog)) (w : nat -> V) (i : nat) : nat -> V :=
  match i, txs with
  | S i', (_, p) :: txs' => before txs' (fst (whole p w)) i'
  | _, _ => w
  end.
Definition world_after (txs : list (list req * prog)) (w : nat -> V) : nat -> V := before txs w (length txs).
(* The receipt of transaction number i, if there is such a transaction. *)
Definition receipt (txs : list (list req * prog)) (w : nat -> V) (i : nat) : option (option R) :=
  match nth_error txs i with
  | Some (_, p) => Some (snd (whole p (before txs w i)))
  | None => None
  end.

(* Permissions: every transaction may read the system account. *)
Definition may_write (reqs : list req) (id : nat) : Prop := In (None, WLock) reqs \/ In (Some id, WLock) reqs.
Definition may_read (reqs : list req) (id : nat) : Prop := may_write reqs id \/ In (Some id, RLock) reqs \/ id = system_id.

(* On its way through the world a transaction touches only what it asked for and
   goes back only to snapshots it took. *)
Fixpoint asks (reqs : list req) (p : prog) (w : nat -> V) (snaps : list (nat -> V)) : Prop :=
  match p with
  | Get id k => may_read reqs id /\ asks reqs (k (w id)) w snaps
  | Put id v k => may_write reqs id /\ asks reqs k (fun x => if Nat.eqb x id then v else w x) snaps
  | Snap k => asks reqs (k (length snaps)) w (snaps ++ [w])
  | Rollback h k => h < length snaps /\ asks reqs k (nth h snaps w) snaps
  | Done _ => True
  end.

(* It goes back to a snapshot on its way. *)
Fixpoint rolls_back (p : prog) (w : nat -> V) (snaps : list (nat -> V)) : Prop :=
  match p with
  | Get id k => rolls_back (k (w id)) w snaps
  | Put id v k => rolls_back k (fun x => if Nat.eqb x id then v else w x) snaps
  | Snap k => rolls_back (k (length snaps)) w (snaps ++ [w])
  | Rollback _ _ => True
  | Done _ => False
  end.

(* The blocks considered: only the locks the handlers ask for (read or write an
   account, write the world), and the transactions keep to them. *)
Definition good_requests (reqs : list req) : Prop :=
  forall r, In r reqs -> snd r = WLock \/ (snd r = RLock /\ fst r <> None).
Definition good_block (txs : list (list req * prog)) (w : nat -> V) : Prop :=
  forall i reqs p, nth_error txs i = Some (reqs, p) ->
    good_requests reqs /\ asks reqs p (before txs w i) [before txs w i].
End Spec.

Arguments alone {V R}. Arguments whole {V R}. Arguments before {V R}. Arguments world_after {V R}. Arguments receipt {V R}.
Arguments asks {V R}. Arguments rolls_back {V R}. Arguments good_block {V R}.
