(* Which transactions are already on the chain: the locator manager with its
   cache, its flush worker and its database (common/txlocator/manager.go), the
   trackers of blocks that are not yet finalized, and their use by transitions
   (service/txidmanager.go, service/transition.go, service/tschecker.go) and by
   the block manager (block/manager.go).

   A transaction is named by its ID; its timestamp is part of the content the
   ID is the hash of, so it is a function [tsof] of the ID.  The model follows
   one transaction group: normal and patch transactions share the maps but not
   the IDs.  For the patch group the worker's job is done inside Commit
   (manager.go 230-235), which is one of the schedules of the worker here. *)
From Coq Require Import ZArith List Bool Arith.
Import ListNotations.
Open Scope Z_scope.

(* What a block says: height, timestamp, the timestamp threshold in force, and
   its transactions. *)
Record block := mkBlock { b_height : Z; b_ts : Z; b_th : Z; b_ids : list Z }.

(* manager.go 33-40 (txList); [l_tag] stands for the address of the list. *)
Record txlist := mkList { l_tag : nat; l_height : Z; l_ts : Z; l_th : Z; l_ids : list Z }.

(* manager.go 47-60 (locator). *)
Record loc := mkLoc { lo_tag : nat; lo_height : Z; lo_idx : nat }.

(* manager.go 103-130 (txListCache, manager). *)
Record manager := mkMgr {
  m_alive : bool;                     (* locators != nil *)
  m_loc : list (Z * loc);             (* locators *)
  m_db : list (Z * (Z * nat));        (* TransactionLocatorByHash: height, index *)
  m_cache : list txlist;              (* cache[group], oldest first *)
  m_max : Z;                          (* maxTSInDB *)
  m_work : option (txlist * nat);     (* list being flushed, entries written *)
  m_queue : list txlist;              (* flush jobs nobody has fetched *)
  m_next : nat                        (* next address *)
}.

Fixpoint find {A : Type} (k : Z) (m : list (Z * A)) : option A :=
  match m with
  | [] => None
  | (k', x) :: m' => if Z.eqb k k' then Some x else find k m'
  end.

Definition set {A : Type} (k : Z) (x : A) (m : list (Z * A)) : list (Z * A) :=
  (k, x) :: filter (fun e => negb (Z.eqb k (fst e))) m.

Definition mem (k : Z) (l : list Z) : bool := existsb (Z.eqb k) l.

Section Locators.
Variable tsof : Z -> Z.

(* manager.go 132-138, 147-160, 174-181 (Has, hasLocatorInCache,
   hasLocatorInDB).  The database does not fail on reading. *)
Definition m_has (id : Z) (m : manager) : bool :=
  if negb (m_alive m) then false
  else match find id (m_loc m) with
  | Some _ => true
  | None =>
      if negb (Z.eqb (m_max m) 0) && Z.leb (m_max m) (tsof id) then false
      else match find id (m_db m) with Some _ => true | None => false end
  end.

(* manager.go 140-145, 162-172, 183-198 (GetLocator). *)
Definition get_locator (id : Z) (m : manager) : option (Z * nat) :=
  if negb (m_alive m) then None
  else match find id (m_loc m) with
  | Some l => Some (lo_height l, lo_idx l)
  | None => find id (m_db m)
  end.

Fixpoint put_all (tag : nat) (h : Z) (k : nat) (ids : list Z) (l : list (Z * loc)) : list (Z * loc) :=
  match ids with
  | [] => l
  | id :: ids' => put_all tag h (S k) ids' (set id (mkLoc tag h k) l)
  end.

(* manager.go 213-238, 293-305 (commitTracker, pushFlushJobInLock).  The
   caller then waits until the job is fetched. *)
Definition commit_list (h ts th : Z) (ids : list Z) (m : manager) : option manager :=
  if m_alive m then
    Some (mkMgr true (put_all (m_next m) h 0 ids (m_loc m)) (m_db m) (m_cache m) (m_max m) (m_work m)
            (m_queue m ++ [mkList (m_next m) h ts th ids]) (S (m_next m)))
  else None.

(* manager.go 239-277 (addListAndClearOldInLock): the lists removed from the
   front of the cache.  A locator that was replaced in the map has lost its ID
   (line 222), so exactly the entries that still point to the list go. *)
Fixpoint evict (min : Z) (c : list txlist) (l : list (Z * loc)) (mx : Z) : list txlist * list (Z * loc) * Z :=
  match c with
  | [] => (c, l, mx)
  | p :: c' =>
      if Z.ltb min (l_ts p + l_th p) then (c, l, mx)
      else evict min c'
             (filter (fun e => negb (Nat.eqb (lo_tag (snd e)) (l_tag p))) l)
             (if negb (Z.eqb (l_ts p) 0) && Z.ltb mx (l_ts p + l_th p) then l_ts p + l_th p else mx)
  end.

Definition add_list (j : txlist) (m : manager) : manager :=
  if m_alive m then
    let '(c, l, mx) := evict (l_ts j - l_th j) (m_cache m) (m_loc m) (m_max m) in
    mkMgr true l (m_db m) (c ++ [j]) mx None (m_queue m) (m_next m)
  else mkMgr false (m_loc m) (m_db m) (m_cache m) (m_max m) None (m_queue m) (m_next m).

(* manager.go 279-291, 307-354 (flushList, fetchFlushJob, handleFlushJobs): one
   step of the worker; None when it has nothing to do. *)
Definition worker (m : manager) : option manager :=
  match m_work m with
  | None =>
      match m_queue m with
      | [] => None
      | j :: q => Some (mkMgr (m_alive m) (m_loc m) (m_db m) (m_cache m) (m_max m) (Some (j, O)) q (m_next m))
      end
  | Some (j, k) =>
      match nth_error (l_ids j) k with
      | Some id =>
          Some (mkMgr (m_alive m) (m_loc m) (set id (l_height j, k) (m_db m)) (m_cache m) (m_max m)
                  (Some (j, S k)) (m_queue m) (m_next m))
      | None => Some (add_list j m)
      end
  end.

(* manager.go 329-349: writing fails; the map is given up and the pending jobs
   are released as if they were done. *)
Definition worker_fails (m : manager) : manager :=
  mkMgr false [] (m_db m) (m_cache m) (m_max m) None [] (m_next m).

(* manager.go 371-383 (NewManager), on a database. *)
Definition manager_new (db : list (Z * (Z * nat))) : manager := mkMgr true [] db [] 0 None [] 0.

(* ---------- trackers ---------- *)

(* manager.go 385-391 (tracker); [t_ids] is None once locators is nil. *)
Record tracker := mkTrk {
  t_height : Z; t_ts : Z; t_th : Z;
  t_ids : option (list Z);
  t_parent : option nat
}.

(* manager.go 393-414 (Has).  Trackers are numbered in the order of their
   creation; a parent is older than its children. *)
Fixpoint trk_has (fuel : nat) (m : manager) (ts : list tracker) (i : nat) (id : Z) : bool :=
  match fuel with
  | O => false
  | S f =>
      match nth_error ts i with
      | None => false
      | Some t =>
          if Z.leb (t_ts t + t_th t) (tsof id) then false
          else match t_ids t with
               | Some ids => if mem id ids then true
                             else match t_parent t with Some j => trk_has f m ts j id | None => m_has id m end
               | None => match t_parent t with Some j => trk_has f m ts j id | None => m_has id m end
               end
      end
  end.

Definition parent_has (m : manager) (ts : list tracker) (p : option nat) (id : Z) : bool :=
  match p with
  | Some j => trk_has (S j) m ts j id
  | None => m_has id m
  end.

(* manager.go 416-454 (Add). *)
Fixpoint add_ids (known : Z -> bool) (force : bool) (acc ids : list Z) : bool * list Z :=
  match ids with
  | [] => (true, acc)
  | id :: ids' =>
      if mem id acc then (false, acc)
      else if negb force && known id then (false, acc)
      else add_ids known force (acc ++ [id]) ids'
  end.

(* manager.go 456-474 (New): the parent of a new tracker. *)
Definition new_parent (ts : list tracker) (i : nat) : option nat :=
  match nth_error ts i with
  | Some t => match t_ids t, t_parent t with
              | None, None => None
              | _, _ => Some i
              end
  | None => None
  end.

(* transition.go 512-546 (ensureRecordTXIDs): a new tracker on top of tracker
   [i] for block [b].  The result tells whether it was accepted.  Simplified:
   New and Add are one step, no commit comes between the look-ups of a list. *)
Definition record (m : manager) (ts : list tracker) (i : nat) (b : block) (force : bool) : bool * list tracker :=
  let p := new_parent ts i in
  let '(ok, ids) := add_ids (parent_has m ts p) force [] (b_ids b) in
  (ok, ts ++ [mkTrk (b_height b) (b_ts b) (b_th b) (Some ids) p]).

(* tschecker.go 18-28, 89-91, 110-117 and transition.go 880-914 (CheckTxTimestamp,
   NewTxTimestampRangeFor, validateTxs): the timestamp check of a block's
   transactions. *)
Definition in_range (b : block) (id : Z) : bool :=
  Z.ltb (b_ts b - b_th b) (tsof id) && Z.leb (tsof id) (b_ts b + b_th b).

(* transition.go 670-710 (doExecute): the part of the validation of a block's
   transactions that looks at IDs and timestamps. *)
Definition validate (m : manager) (ts : list tracker) (i : nat) (b : block) : bool :=
  fst (record m ts i b false) && forallb (in_range b) (b_ids b).

Fixpoint replace {A : Type} (l : list A) (i : nat) (x : A) : list A :=
  match l, i with
  | [], _ => []
  | _ :: l', O => x :: l'
  | y :: l', S i' => y :: replace l' i' x
  end.

(* manager.go 476-493 (Commit). *)
Fixpoint commit (fuel : nat) (m : manager) (ts : list tracker) (i : nat) : option (manager * list tracker) :=
  match fuel with
  | O => None
  | S f =>
      match nth_error ts i with
      | None => None
      | Some t =>
          let r := match t_parent t with Some j => commit f m ts j | None => Some (m, ts) end in
          match r with
          | None => None
          | Some (m1, ts1) =>
              let done := mkTrk (t_height t) (t_ts t) (t_th t) None None in
              match t_ids t with
              | Some ids =>
                  match commit_list (t_height t) (t_ts t) (t_th t) ids m1 with
                  | Some m2 => Some (m2, replace ts1 i done)
                  | None => None
                  end
              | None => Some (m1, replace ts1 i done)
              end
          end
      end
  end.

(* transition.go 281-282: the tracker of the initial transition. *)
Definition root (th : Z) : tracker := mkTrk 0 0 th (Some []) None.

(* block/manager.go 673-699 (NewManager): the last block on disk is added again
   by force and committed.  The tracker of the initial transition is committed
   with it; nothing is built on that one. *)
Definition restart (th : Z) (db : list (Z * (Z * nat))) (b : block) : option (manager * list tracker) :=
  let m := manager_new db in
  let '(ok, ts) := record m [root th] 0 b true in
  if ok then commit 2 m ts 1 else None.

End Locators.
