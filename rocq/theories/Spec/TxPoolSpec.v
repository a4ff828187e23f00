(** What a pool of transactions should be: a sequence of entries, each with the
    number of its arrival. *)
From Coq Require Import ZArith List Bool Arith.
From Verif Require Import Model.Bytes Model.TxPool.
Import ListNotations.
Open Scope Z_scope.

Record entry := mkEntry { e_no : nat; e_tx : tx; e_direct : bool; e_why : option reason }.

Definition id_of (e : entry) : bytes := t_id (e_tx e).
Definition from_of (e : entry) : bytes := t_from (e_tx e).
Definition time_of (e : entry) : Z := t_time (e_tx e).

(** A new entry goes in front of the first later one of the same sender, or to
    the end. *)
Fixpoint put (e : entry) (l : list entry) : list entry :=
  match l with
  | [] => [e]
  | x :: r => if bytes_eqb (from_of x) (from_of e) && (time_of e <? time_of x) then e :: x :: r else x :: put e r
  end.

(** What is seen of a pool, from the front to the back. *)
Definition view (s : pool_list) : list entry :=
  map (fun a => mkEntry a (txs s a) (direct s a) (err s a)) (walk (fresh s) s (front s)).

Section History.
  Context {world : Type}.

  (** What can be done to a pool, in any order.  [Finish k]: the dropping which
      the [k]-th [Collect] has left to a goroutine. *)
  Inductive op :=
  | Add (t : tx) (direct : bool)
  | Remove (ids : list bytes)
  | DropOld (bts : Z)
  | Collect (min_ts max_ts : Z) (recent : bytes -> Z -> option bool) (pre : world -> tx -> world * option bool)
      (max_bytes max_count : Z) (w : world)
  | Finish (k : nat).

  Inductive event :=
  | Answered (a : answer)
  | Removed
  | Dropped (l : list (bytes * reason))
  | Collected (l : list tx) (size : Z).

  Definition pool : Type := pool_list * list (list addr).
  Definition new_pool : pool := (empty_list, []).

  (** [None]: a panic. *)
  Definition step (size : Z) (p : pool) (o : op) : option (pool * event) :=
    let '(s, pending) := p in
    match o with
    | Add t d => match pool_add size s t d with
                 | Some (s', a) => Some ((s', pending), Answered a)
                 | None => None
                 end
    | Remove ids => Some ((pool_remove s ids, pending), Removed)
    | DropOld bts => let '(s', out) := pool_drop_old s bts in Some ((s', pending), Dropped out)
    | Collect lo hi recent pre mb mc w =>
        let '(c, n, d, s', _) := candidate lo hi recent pre s mb mc w in
        Some ((s', pending ++ [d]), Collected (map (txs s) c) n)
    | Finish k => match drop_these s (nth k pending []) with
                  | Some (s', out) => Some ((s', pending), Dropped out)
                  | None => None
                  end
    end.

  Fixpoint play (size : Z) (p : pool) (h : list op) : option pool :=
    match h with
    | [] => Some p
    | o :: r => match step size p o with
                | Some (p', _) => play size p' r
                | None => None
                end
    end.

  Definition reachable (size : Z) (p : pool) : Prop := exists h, play size new_pool h = Some p.
End History.
Arguments op : clear implicits.

Definition sum_sizes (l : list tx) : Z := fold_right (fun t n => t_size t + n) 0 l.

(** [l] in order within [m]. *)
Inductive within {A} : list A -> list A -> Prop :=
| within_nil m : within [] m
| within_take x l m : within l m -> within (x :: l) (x :: m)
| within_skip x l m : within l m -> within l (x :: m).

(** Each is accepted in the world left by those before. *)
Fixpoint all_pass {world} (pre : world -> tx -> world * option bool) (w : world) (l : list tx) : Prop :=
  match l with
  | [] => True
  | t :: r => snd (pre w t) = None /\ all_pass pre (fst (pre w t)) r
  end.

(** Why an entry may be dropped by a [Collect]. *)
Definition expired (lo : Z) (e : entry) : Prop := time_of e <= lo.
Definition processed (recent : bytes -> Z -> option bool) (e : entry) : Prop :=
  recent (id_of e) (time_of e) = Some true.
Definition refused {world} (pre : world -> tx -> world * option bool) (e : entry) : Prop :=
  exists w w' bal, pre w (e_tx e) = (w', Some bal) /\ (bal = false \/ e_direct e = false).

(** The transactions of a sender arrive in the order of their timestamps. *)
Definition in_turn {world} (h : list (op world)) : Prop :=
  ForallOrdPairs (fun o1 o2 => match o1, o2 with
                               | Add t1 _, Add t2 _ => t_from t1 = t_from t2 -> t_time t1 <= t_time t2
                               | _, _ => True
                               end) h.

Definition collects {world} (h : list (op world)) : nat :=
  length (filter (fun o => match o with Collect _ _ _ _ _ _ _ => true | _ => false end) h).

Section Reasons.
  Context {world : Type}.
  Variables (lo hi : Z) (recent : bytes -> Z -> option bool) (pre : world -> tx -> world * option bool).

  (** What becomes of the reason of an entry. *)
  Definition reason_step (e : entry) (r' : option reason) : Prop :=
    r' = e_why e
    \/ (e_why e = None /\ r' = Some Expired /\ time_of e <= lo)
    \/ (r' = Some Processed /\ processed recent e)
    \/ (e_why e = None /\ exists w w' bal, pre w (e_tx e) = (w', Some bal) /\ r' = Some (Refused bal)).

  Definition faulty (e : entry) : Prop := expired lo e \/ processed recent e \/ refused pre e.

  (** Why an entry is not taken. *)
  Definition skipped (e : entry) : Prop :=
    time_of e <= lo \/ hi < time_of e \/ recent (id_of e) (time_of e) <> Some false
    \/ (exists w w' bal, pre w (e_tx e) = (w', Some bal)).

  Definition due (e : entry) : Prop :=
    time_of e <= lo \/ (time_of e <= hi /\ recent (id_of e) (time_of e) = Some true).
End Reasons.
