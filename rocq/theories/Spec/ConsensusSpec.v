(* A network of nodes at one height, and what is asked of it.

   Nodes are numbered; node [j] with j < c_n is validator j, the others only
   follow.  [byz j] tells whether the node is controlled by an adversary: such
   a node may say anything to anybody at any time.  Honest nodes run the code
   of Model/Consensus.v.  Messages may be lost, delayed, repeated and
   reordered without bound. *)
From Coq Require Import ZArith List Bool Arith.
From Verif Require Import Model.Votes Model.Consensus.
Import ListNotations.
Open Scope Z_scope.

Definition who (C : chain) (j : nat) : option nat := if Nat.ltb j (c_n C) then Some j else None.

(* The signed part of a vote: height, round, type, block ID, part set ID with
   its application data, time.  The network type section votes are outside of
   the signature (message.go 243-252), so anybody may change them on the
   way. *)
Definition same_signed (v w : vote) : Prop :=
  v_height v = v_height w /\ v_round v = v_round w /\ v_type v = v_type w /\
  d_block (v_dec v) = d_block (v_dec w) /\ d_parts (v_dec v) = d_parts (v_dec w) /\
  v_ts v = v_ts w.

(* The votes a node has signed: sent, or in its log. *)
Definition has_signed (s : node) (w : vote) : Prop :=
  In (FxVote w) (s_fx s) \/ In (FxWrite RoundWAL (WVote w)) (s_fx s).

(* A vote that can be shown under the name of validator [i]: any, if [i] is
   Byzantine; otherwise one it has signed. *)
Definition authentic (byz : nat -> bool) (st : nat -> node) (i : nat) (v : vote) : Prop :=
  byz i = true \/ exists w, has_signed (st i) w /\ same_signed v w.

Definition event_ok (byz : nat -> bool) (st : nat -> node) (e : event) : Prop :=
  match e with
  | EVote i v => authentic byz st i v
  | EBlock _ l _ => forall i v, In (i, v) l -> authentic byz st i v
  | _ => True
  end.

Definition upd (st : nat -> node) (j : nat) (s : node) : nat -> node :=
  fun k => if Nat.eqb k j then s else st k.

(* The last lock on record in a log (newest entry first): the block written
   last, and the round of the votes written before it. *)
Fixpoint last_lock (K : list entry) : option (Z * Z) :=
  match K with
  | [] => None
  | WParts p :: K' =>
      match K' with
      | WVotes ((_, v0) :: _) :: _ => Some (p, v_round v0)
      | _ => last_lock K'
      end
  | _ :: K' => last_lock K'
  end.

(* What is on a node's disk (newest first) records the lock of its last
   precommits: the last lock on record is no older than the precommits for
   that block. *)
Definition lock_recorded (f : list fx) : Prop :=
  match last_lock (rev (entries LockWAL f)) with
  | Some (p, r) =>
      forall v, In (FxWrite RoundWAL (WVote v)) f -> v_type v = Precommit ->
        d_id (v_dec v) = Some p -> v_round v <= r
  | None => True
  end.

(* Executions.  Every step happens at an honest node with a working disk: it
   handles an event, or it stops at some point while handling one (losing what
   was not synced) and starts again.  With [strict], a node only stops when
   its lock is recorded. *)
Inductive reachable (C : chain) (byz : nat -> bool) (strict : bool) : (nat -> node) -> Prop :=
| reach_start : reachable C byz strict (fun _ => node_new (c_n C))
| reach_event : forall st j E e,
    reachable C byz strict st -> byz j = false -> e_disk E = true -> event_ok byz st e ->
    reachable C byz strict (upd st j (handle C (who C j) E e (st j)))
| reach_crash : forall st j E E' e k kr kl kc f,
    reachable C byz strict st -> byz j = false -> e_disk E = true -> e_disk E' = true ->
    event_ok byz st e -> s_final (st j) = None ->
    f = after_crash C (who C j) E e k kr kl kc (st j) ->
    (strict = true -> lock_recorded f) ->
    reachable C byz strict (upd st j (start C (who C j) E' f)).

(* Fewer than a third of the validators are Byzantine. *)
Definition byzantine_minority (C : chain) (byz : nat -> bool) : Prop :=
  (3 * List.length (filter byz (seq 0 (c_n C))) < c_n C)%nat.

(* The digest of decisions has no collisions. *)
Definition collision_free (C : chain) : Prop :=
  forall d d', c_digest C d = c_digest C d' -> d = d'.

(* Validator [k] is Byzantine, or has signed a vote of type [t] in round [r]
   for block [o] (None: for no block). *)
Definition voted (byz : nat -> bool) (st : nat -> node) (k : nat) (t : vtype) (r : Z) (o : option Z) : Prop :=
  byz k = true \/
  exists v, has_signed (st k) v /\ v_type v = t /\ v_round v = r /\ d_id (v_dec v) = o.
Definition voted_for (byz : nat -> bool) (st : nat -> node) (k : nat) (t : vtype) (r p : Z) : Prop :=
  voted byz st k t r (Some p).

(* More than two thirds of the validators. *)
Definition two_thirds (C : chain) (P : nat -> Prop) : Prop :=
  exists l, NoDup l /\ (forall k, In k l -> (k < c_n C)%nat /\ P k) /\ (2 * c_n C < 3 * List.length l)%nat.
