(** Transactions that the node dropped, and the check of those it is sent.

    Source: /repo/service/txidcache.go, /repo/service/txidmanager.go, /repo/service/tschecker.go.

    Simplifications, once for the file.  The map of slots always has the elements
    of the list, so a look-up searches the list.  Only the normal group; int64
    does not overflow; a transaction has an ID.  Locks make each call one step. *)
From Verif Require Import Model.Bytes.
Open Scope Z_scope.

(** txidcache.go:50-58; a slot is its number and its IDs. *)
Record cache := mk_cache { c_dur : Z; c_size : Z; c_slots : list (Z * list bytes); c_count : Z; c_min : Z }.
(** txidcache.go:190-203 *)
Definition new_cache (dur size : Z) : cache := mk_cache dur size [] 0 0.

(** txidcache.go:60-62 *)
Definition slot_of (c : cache) (ts : Z) : Z := Z.quot ts (c_dur c).
(** txidcache.go:26-29 *)
Definition has_id (ids : list bytes) (id : bytes) : bool := existsb (bytes_eqb id) ids.
(** txidcache.go:64-72, [getSlot] without creating it. *)
Definition get_slot (l : list (Z * list bytes)) (s : Z) : option (list bytes) :=
  match find (fun x => fst x =? s) l with Some x => Some (snd x) | None => None end.
(** txidcache.go:74-96, [newSlot]: from the back to the first that is smaller;
    the list is given backwards. *)
Fixpoint new_slot (rev_l : list (Z * list bytes)) (s : Z) : list (Z * list bytes) :=
  match rev_l with
  | [] => [(s, [])]
  | x :: r => if fst x =? s then x :: r else if fst x <? s then (s, []) :: x :: r else x :: new_slot r s
  end.
Definition with_slot (l : list (Z * list bytes)) (s : Z) : list (Z * list bytes) :=
  match get_slot l s with Some _ => l | None => rev (new_slot (rev l) s) end.
Definition set_slot (l : list (Z * list bytes)) (s : Z) (ids : list bytes) : list (Z * list bytes) :=
  map (fun x => if fst x =? s then (s, ids) else x) l.

(** txidcache.go:102-117, [Contains]. *)
Definition contains (c : cache) (id : bytes) (ts : Z) : bool :=
  (c_min c <=? ts) && match get_slot (c_slots c) (slot_of c ts) with Some ids => has_id ids id | None => false end.
(** txidcache.go:119-152, [Add] and [flushSlotIfFull]. *)
Definition add_id (c : cache) (id : bytes) (ts : Z) : cache :=
  if c_min c <=? ts then
    let s := slot_of c ts in
    let l := with_slot (c_slots c) s in
    match get_slot l s with
    | None => c
    | Some ids =>
        if has_id ids id then mk_cache (c_dur c) (c_size c) l (c_count c) (c_min c)
        else
          let n := Z.of_nat (length ids) in
          let full := c_size c <=? n in
          mk_cache (c_dur c) (c_size c) (set_slot l s (if full then [id] else ids ++ [id]))
            ((if full then c_count c - n else c_count c) + 1) (c_min c)
    end
  else c.
(** txidcache.go:158-188, [RemoveOldTXsByTS]: from the front to the first that stays. *)
Fixpoint drop_old (l : list (Z * list bytes)) (s : Z) (count : Z) : list (Z * list bytes) * Z :=
  match l with
  | [] => ([], count)
  | x :: r => if s <=? fst x then (x :: r, count) else drop_old r s (count - Z.of_nat (length (snd x)))
  end.
Definition remove_old (c : cache) (ts : Z) : cache :=
  if ts <=? c_min c then c
  else let (l, n) := drop_old (c_slots c) (slot_of c ts) (c_count c) in mk_cache (c_dur c) (c_size c) l n ts.

(** txidmanager.go:44-50 and the threshold of tschecker.go:30-32. *)
Record mgr := mk_mgr { m_cache : cache; m_commit : Z; m_th : Z }.
Definition new_mgr (dur size th : Z) : mgr := mk_mgr (new_cache dur size) 0 th.
Inductive action :=
  | Drop (id : bytes) (ts : Z)      (** transactionpool.go:175, [AddDroppedTX] of txidmanager.go:95-100 *)
  | Commit (ts th : Z)              (** txidmanager.go:102-110, [onCommit] *)
  | SetThreshold (th : Z).          (** transition.go:108 *)
Definition act (m : mgr) (a : action) : mgr :=
  match a with
  | Drop id ts => mk_mgr (add_id (m_cache m) id ts) (m_commit m) (m_th m)
  | Commit ts th => mk_mgr (remove_old (m_cache m) (ts - th)) ts (m_th m)
  | SetThreshold th => mk_mgr (m_cache m) (m_commit m) th
  end.

Inductive answer := Expired | Future | AlreadyDropped | Committed | Accepted.
(** txidmanager.go:63-84, [CheckTXForAdd], with tschecker.go:18-36; [now] is the
    time, [committed] the answer of the locators. *)
Definition check_add (m : mgr) (now : Z) (committed : bool) (id : bytes) (ts : Z) : answer :=
  if ts <=? m_commit m - m_th m then Expired
  else if now + m_th m <? ts then Future
  else if contains (m_cache m) id ts then AlreadyDropped
  else if committed then Committed
  else Accepted.
