(* Executing the transactions of a block in parallel: service/transition_pe.go on
   top of service/state/worldvirtualstate.go. *)
From Coq Require Import List Bool Arith.
Import ListNotations.

(* Accounts are numbered; [None] as the subject of a lock request is the world
   (WorldIDStr).  worldvirtualstate.go 17-22. *)
Inductive lk := NoLock | RLock | WLock | Unlocked.
Definition lk_rank (l : lk) : nat := match l with NoLock => 0 | RLock => 1 | WLock => 2 | Unlocked => 3 end.
Definition req := (option nat * lk)%type.

(* worldcontext.go 172-188: SystemID, which every transaction may read. *)
Definition system_id : nat := 0.

Section Exec.
(* [V]: the state of an account.  [is_empty]: an account that is not in the trie
   (account.go 171-173); simplified: it equals a fresh account.  [R]: receipts. *)
Variables V R : Type.
Variable is_empty : V -> bool.

Definition world := nat -> V.
Definition upd (w : world) (id : nat) (v : V) : world := fun x => if Nat.eqb x id then v else w x.

(* What a transaction does to the world state it is given: read an account,
   change one, take a snapshot (of which it gets a number), go back to a snapshot,
   end with a receipt or a fatal error (None).  A retry is a [Rollback] to the first
   snapshot followed by another attempt. *)
Inductive prog :=
| Get (id : nat) (k : V -> prog)
| Put (id : nat) (v : V) (k : prog)
| Snap (k : nat -> prog)
| Rollback (h : nat) (k : prog)
| Done (r : option R).

(* AccountState as handed out: the account of the real world state, or a frozen
   copy (accountROState). *)
Inductive acc := Live | Frozen (v : V).

(* worldvirtualstate.go 37-42 (lockedAccountState). *)
Record las := mkLas { l_lock : lk; l_state : option acc; l_base : option V; l_dep : option nat }.

(* 71-84 (worldVirtualState); other worldVirtualStates are named by number.
   [w_waiting]: waiter != nil. *)
Record vws := mkVws { w_parent : option nat; w_base : option world; w_committed : option world;
                      w_waiting : bool; w_accts : list (nat * las); w_lock : lk }.

(* 503-508 (worldVirtualSnapshot). *)
Record vsnap := mkSnap { s_base : option world; s_accts : list (nat * V) }.

(* A transaction's goroutine: what is left of it, its snapshots, its receipt. *)
Record thread := mkThread { t_prog : prog; t_snaps : list vsnap; t_out : option (option R) }.

(* 44-49 (worldVirtualContext) and the goroutines; [x_todo]: transactions not yet
   prepared; [x_err]: executionContext.lastError. *)
Record sys := mkSys { x_real : world; x_lockers : list (nat * nat); x_wlocker : option nat; x_ro : list (nat * V);
                      x_ws : list (vws * thread); x_todo : list (list req * prog); x_err : bool }.

Inductive res (A : Type) := Ok (a : A) | Blocked | Panic.
Arguments Ok {A}. Arguments Blocked {A}. Arguments Panic {A}.

Fixpoint assoc {A : Type} (id : nat) (l : list (nat * A)) : option A :=
  match l with [] => None | (k, v) :: l' => if Nat.eqb k id then Some v else assoc id l' end.
Fixpoint replace {A : Type} (id : nat) (v : A) (l : list (nat * A)) : list (nat * A) :=
  match l with [] => [] | (k, x) :: l' => if Nat.eqb k id then (k, v) :: l' else (k, x) :: replace id v l' end.
Fixpoint set_nth {A : Type} (i : nat) (v : A) (l : list A) : list A :=
  match l, i with [], _ => [] | _ :: l', O => v :: l' | x :: l', S i' => x :: set_nth i' v l' end.

(* 51-59 (getLocker), for an account. *)
Definition get_locker (id : nat) (lockers : list (nat * nat)) (wl : option nat) : option nat :=
  match assoc id lockers with Some j => Some j | None => wl end.

(* 374-384: the lock on the world. *)
Definition world_lock (reqs : list req) : lk :=
  fold_left (fun l r => match fst r with None => if Nat.ltb (lk_rank l) (lk_rank (snd r)) then snd r else l | Some _ => l end) reqs NoLock.

(* 392-411: the locks on accounts. *)
Definition add_lock (wl : lk) (l : list (nat * las)) (r : req) : list (nat * las) :=
  match fst r with
  | None => l
  | Some id =>
      if Nat.leb (lk_rank (snd r)) (lk_rank wl) then l
      else match assoc id l with
           | Some a => if Nat.ltb (lk_rank (l_lock a)) (lk_rank (snd r)) then replace id (mkLas (snd r) None None None) l else l
           | None => l ++ [(id, mkLas (snd r) None None None)]
           end
  end.

(* 347-359 (getROAccountState). *)
Definition ro_account (real : world) (ro : list (nat * V)) (id : nat) : V * list (nat * V) :=
  match assoc id ro with Some v => (v, ro) | None => (real id, (id, real id) :: ro) end.

(* 413-431: lockers and states of the accounts; [first]: there is no parent. *)
Fixpoint bind_accts (first : bool) (me : nat) (real : world) (l : list (nat * las)) (lockers : list (nat * nat)) (wl : option nat)
    (ro : list (nat * V)) : list (nat * las) * list (nat * nat) * list (nat * V) :=
  match l with
  | [] => ([], lockers, ro)
  | (id, a) :: l' =>
      let dep := if first then None else get_locker id lockers wl in
      let '(st, ro1) :=
        match dep with
        | Some _ => (None, ro)
        | None => match l_lock a with
                  | WLock => (Some Live, ro)
                  | _ => let '(v, ro1) := ro_account real ro id in (Some (Frozen v), ro1)
                  end
        end in
      let lockers1 := match l_lock a with WLock => (id, me) :: lockers | _ => lockers end in
      let '(r, lockers2, ro2) := bind_accts first me real l' lockers1 wl ro1 in
      ((id, mkLas (l_lock a) st None dep) :: r, lockers2, ro2)
  end.

(* 336-345 (GetFuture), 483-501 (NewWorldVirtualState), 373-432
   (applyLockRequests); worldcontext.go 172-188 adds the lock on the system
   account.  Not modelled: lock requests other than RLock and WLock (a panic). *)
Definition prepare (s : sys) : res sys :=
  match x_todo s with
  | [] => Blocked
  | (reqs0, p) :: todo =>
      if x_err s then Blocked else
      let reqs := reqs0 ++ [(Some system_id, RLock)] in
      let me := length (x_ws s) in
      let first := Nat.eqb me 0 in
      let parent := if first then None else Some (me - 1) in
      let base := if first then Some (x_real s) else match nth_error (x_ws s) (me - 1) with Some (w, _) => w_committed w | None => None end in
      let wl := world_lock reqs in
      let t := mkThread (Snap (fun _ => p)) [] None in
      match wl with
      | WLock => Ok (mkSys (x_real s) [] (Some me) (x_ro s) (x_ws s ++ [(mkVws parent base None true [] WLock, t)]) todo (x_err s))
      | _ =>
          let '(accts, lockers, ro) := bind_accts first me (x_real s) (fold_left (add_lock wl) reqs []) (x_lockers s) (x_wlocker s) (x_ro s) in
          Ok (mkSys (x_real s) lockers (x_wlocker s) ro (x_ws s ++ [(mkVws parent base None true accts wl, t)]) todo (x_err s))
      end
  end.

Definition get_w (s : sys) (i : nat) : option vws := option_map fst (nth_error (x_ws s) i).
Definition set_w (s : sys) (i : nat) (w : vws) : sys :=
  match nth_error (x_ws s) i with
  | Some (_, t) => mkSys (x_real s) (x_lockers s) (x_wlocker s) (x_ro s) (set_nth i (w, t) (x_ws s)) (x_todo s) (x_err s)
  | None => s
  end.
Definition set_t (s : sys) (i : nat) (t : thread) : sys :=
  match nth_error (x_ws s) i with
  | Some (w, _) => mkSys (x_real s) (x_lockers s) (x_wlocker s) (x_ro s) (set_nth i (w, t) (x_ws s)) (x_todo s) (x_err s)
  | None => s
  end.
Definition set_real (s : sys) (r : world) : sys := mkSys r (x_lockers s) (x_wlocker s) (x_ro s) (x_ws s) (x_todo s) (x_err s).

Definition is_done (s : sys) (i : nat) : bool := match get_w s i with Some w => negb (w_waiting w) | None => false end.

(* 293-318 (Realize): everything it waits for has been committed.  Simplified: the
   waiting and what follows is one step. *)
Fixpoint ready (fuel : nat) (s : sys) (i : nat) : bool :=
  match fuel with
  | O => false
  | S f =>
      match get_w s i with
      | None => false
      | Some w =>
          match w_committed w with
          | Some _ => true
          | None => negb (w_waiting w) &&
              match w_base w with
              | Some _ => true
              | None => match w_parent w with Some q => ready f s q | None => true end
              end
          end
      end
  end.
Definition realize (s : sys) (i : nat) : res sys :=
  match get_w s i with
  | None => Panic
  | Some w =>
      match w_committed w with
      | Some _ => Ok s
      | None =>
          if ready (S i) s i
          then Ok (set_w s i (mkVws (w_parent w) (w_base w) (Some (x_real s)) (w_waiting w) (w_accts w) (w_lock w)))
          else Blocked
      end
  end.

(* 320-326 (realizeBaseInLock). *)
Definition realize_base (s : sys) (i : nat) : res sys :=
  match get_w s i with
  | None => Panic
  | Some w =>
      match w_base w, w_parent w with
      | Some _, _ => Ok s
      | None, None => Panic
      | None, Some p =>
          match realize s p with
          | Ok s1 =>
              match get_w s1 p with
              | Some wp => Ok (set_w s1 i (mkVws (w_parent w) (w_committed wp) (w_committed w) (w_waiting w) (w_accts w) (w_lock w)))
              | None => Panic
              end
          | Blocked => Blocked
          | Panic => Panic
          end
      end
  end.

Definition value (s : sys) (a : acc) (id : nat) : V := match a with Live => x_real s id | Frozen v => v end.

(* 164-198 (GetAccountState, getAccountStateInLock, GetAccountROState).  [Panic]:
   nil is handed out, or a method is called on nil.  The fuel is only there for
   the definition: dependencies have smaller numbers. *)
Fixpoint get_account (fuel : nat) (s : sys) (i id : nat) : res (sys * acc) :=
  match fuel with
  | O => Blocked
  | S f =>
      match get_w s i with
      | None => Panic
      | Some w =>
          match assoc id (w_accts w) with
          | Some a =>
              match l_dep a with
              | None => match l_state a with Some st => Ok (s, st) | None => Panic end
              | Some d =>
                  if negb (is_done s d) then Blocked
                  else
                    let r := match l_lock a with
                             | WLock => Ok (s, Live)
                             | _ => match get_account f s d id with
                                    | Ok (s1, st) => Ok (s1, Frozen (value s1 st id))
                                    | Blocked => Blocked
                                    | Panic => Panic
                                    end
                             end in
                    match r with
                    | Ok (s1, st) =>
                        Ok (set_w s1 i (mkVws (w_parent w) (w_base w) (w_committed w) (w_waiting w)
                              (replace id (mkLas (l_lock a) (Some st) (Some (value s1 st id)) None) (w_accts w)) (w_lock w)), st)
                    | Blocked => Blocked
                    | Panic => Panic
                    end
              end
          | None =>
              match w_lock w with
              | NoLock => Panic
              | _ =>
                  match realize_base s i with
                  | Ok s1 =>
                      match get_w s1 i with
                      | Some w1 =>
                          match w_committed w1, w_lock w1, w_base w1 with
                          | Some c, _, _ => Ok (s1, Frozen (c id))
                          | None, WLock, _ => Ok (s1, Live)
                          | None, _, Some b => Ok (s1, Frozen (b id))
                          | None, _, None => Panic
                          end
                      | None => Panic
                      end
                  | Blocked => Blocked
                  | Panic => Panic
                  end
              end
          end
      end
  end.

(* 200-230 (GetSnapshot). *)
Definition snap_accts (s : sys) (l : list (nat * las)) : list (nat * V) :=
  flat_map (fun e => match l_lock (snd e), l_state (snd e) with
                     | WLock, Some st => [(fst e, value s st (fst e))]
                     | _, _ => []
                     end) l.
Definition get_snapshot (s : sys) (i : nat) : res (sys * vsnap) :=
  match get_w s i with
  | None => Panic
  | Some w =>
      match w_committed w with
      | Some c => Ok (s, mkSnap (Some c) [])
      | None =>
          match w_lock w with
          | Unlocked => Panic
          | NoLock => Ok (s, mkSnap (w_base w) (snap_accts s (w_accts w)))
          | l =>
              match realize_base s i with
              | Ok s1 =>
                  match l, get_w s1 i with
                  | WLock, _ => Ok (s1, mkSnap (Some (x_real s1)) [])
                  | _, Some w1 => Ok (s1, mkSnap (w_base w1) (snap_accts s1 (w_accts w1)))
                  | _, None => Panic
                  end
              | Blocked => Blocked
              | Panic => Panic
              end
          end
      end
  end.

(* 245-283 (Reset) for write-locked accounts; account.go 737-741: resetting an
   account with no snapshot is a panic.  worldstate.go 152-176: the real world
   state goes back as a whole. *)
Fixpoint reset_accts (sn : vsnap) (l : list (nat * las)) (real : world) : res world :=
  match l with
  | [] => Ok real
  | (id, a) :: l' =>
      match l_lock a with
      | WLock =>
          match assoc id (s_accts sn), l_state a with
          | Some v, Some Live => reset_accts sn l' (upd real id v)
          | Some _, _ => Panic
          | None, None => reset_accts sn l' real
          | None, Some Live =>
              match s_base sn, l_base a with
              | Some b, _ => if is_empty (b id) then Panic else reset_accts sn l' (upd real id (b id))
              | None, Some v => reset_accts sn l' (upd real id v)
              | None, None => Panic
              end
          | None, Some (Frozen _) => Panic
          end
      | _ => reset_accts sn l' real
      end
  end.
Definition reset (s : sys) (i : nat) (sn : vsnap) : res sys :=
  match get_w s i with
  | None => Panic
  | Some w =>
      if negb (w_waiting w) then Panic (* "AlreadyCommitted" *)
      else match w_lock w with
           | WLock => match s_base sn with Some b => Ok (set_real s b) | None => Panic end
           | _ => match reset_accts sn (w_accts w) (x_real s) with Ok r => Ok (set_real s r) | Blocked => Blocked | Panic => Panic end
           end
  end.

(* 434-465 (Commit). *)
Fixpoint commit_accts (fuel : nat) (s : sys) (l : list (nat * las)) : res (sys * list (nat * las)) :=
  match l with
  | [] => Ok (s, [])
  | (id, a) :: l' =>
      let r :=
        match l_lock a with
        | WLock =>
            match l_dep a with
            | Some d =>
                if negb (is_done s d) then Blocked
                else match get_account fuel s d id with
                     | Ok (s1, st) => let v := value s1 st id in Ok (s1, mkLas Unlocked (Some (Frozen v)) (Some v) None)
                     | Blocked => Blocked
                     | Panic => Panic
                     end
            | None =>
                match l_state a with
                | Some st => Ok (s, mkLas Unlocked (Some (Frozen (value s st id))) (l_base a) None)
                | None => Panic
                end
            end
        | _ => Ok (s, a)
        end in
      match r with
      | Ok (s1, a1) =>
          match commit_accts fuel s1 l' with
          | Ok (s2, l2) => Ok (s2, (id, a1) :: l2)
          | Blocked => Blocked
          | Panic => Panic
          end
      | Blocked => Blocked
      | Panic => Panic
      end
  end.
Definition commit (s : sys) (i : nat) : res sys :=
  match get_w s i with
  | None => Panic
  | Some w =>
      if negb (w_waiting w) then Ok s
      else match commit_accts i s (w_accts w) with
           | Ok (s1, accts) =>
               match w_lock w with
               | WLock => Ok (set_w s1 i (mkVws (w_parent w) (w_base w) (Some (x_real s1)) false accts Unlocked))
               | l => Ok (set_w s1 i (mkVws (w_parent w) (w_base w) (w_committed w) false accts l))
               end
           | Blocked => Blocked
           | Panic => Panic
           end
  end.

(* transition_pe.go 35-41 (executionContext.Report). *)
Definition report (err : bool) : bool := if err then true else err.

(* transition_pe.go 81-135: one step of a transaction's goroutine.  The first is
   the snapshot for retries (line 84; put in front by [prepare]). *)
Definition run (s : sys) (i : nat) : res sys :=
  match nth_error (x_ws s) i with
  | None => Panic
  | Some (_, t) =>
      match t_out t with
      | Some _ => Blocked
      | None =>
          match t_prog t with
          | Get id k =>
              match get_account (S i) s i id with
              | Ok (s1, st) => Ok (set_t s1 i (mkThread (k (value s1 st id)) (t_snaps t) None))
              | Blocked => Blocked
              | Panic => Panic
              end
          | Put id v k =>
              match get_account (S i) s i id with
              | Ok (s1, Live) => Ok (set_t (set_real s1 (upd (x_real s1) id v)) i (mkThread k (t_snaps t) None))
              | Ok (s1, Frozen _) => Panic
              | Blocked => Blocked
              | Panic => Panic
              end
          | Snap k =>
              match get_snapshot s i with
              | Ok (s1, sn) => Ok (set_t s1 i (mkThread (k (length (t_snaps t))) (t_snaps t ++ [sn]) None))
              | Blocked => Blocked
              | Panic => Panic
              end
          | Rollback h k =>
              match nth_error (t_snaps t) h with
              | None => Panic
              | Some sn =>
                  match reset s i sn with
                  | Ok s1 => Ok (set_t s1 i (mkThread k (t_snaps t) None))
                  | Blocked => Blocked
                  | Panic => Panic
                  end
              end
          | Done r =>
              match commit s i with
              | Ok s1 =>
                  let s2 := set_t s1 i (mkThread (t_prog t) (t_snaps t) (Some r)) in
                  Ok (mkSys (x_real s2) (x_lockers s2) (x_wlocker s2) (x_ro s2) (x_ws s2) (x_todo s2)
                        (match r with Some _ => x_err s2 | None => report (x_err s2) end))
              | Blocked => Blocked
              | Panic => Panic
              end
          end
      end
  end.

Inductive event := EPrepare | ERun (i : nat).
Definition step (s : sys) (e : event) : res sys := match e with EPrepare => prepare s | ERun i => run s i end.

(* transition_pe.go 50-60: the start. *)
Definition start (real : world) (txs : list (list req * prog)) : sys := mkSys real [] None [] [] txs false.

(* Every schedule of the main goroutine and the transactions'. *)
Inductive reach (s0 : sys) : sys -> Prop :=
| reach_refl : reach s0 s0
| reach_step : forall s e s', reach s0 s -> step s e = Ok s' -> reach s0 s'.

(* All transactions are through. *)
Definition finished (s : sys) : Prop :=
  x_todo s = [] /\ forall i w t, nth_error (x_ws s) i = Some (w, t) -> w_waiting w = false.
End Exec.

Arguments Get {V R}. Arguments Put {V R}. Arguments Snap {V R}. Arguments Rollback {V R}. Arguments Done {V R}.
Arguments Live {V}. Arguments Frozen {V}.
Arguments mkLas {V}. Arguments l_lock {V}. Arguments l_state {V}. Arguments l_base {V}. Arguments l_dep {V}.
Arguments mkVws {V}. Arguments w_parent {V}. Arguments w_base {V}. Arguments w_committed {V}. Arguments w_waiting {V}. Arguments w_accts {V}. Arguments w_lock {V}.
Arguments mkSnap {V}. Arguments s_base {V}. Arguments s_accts {V}.
Arguments mkThread {V R}. Arguments t_prog {V R}. Arguments t_snaps {V R}. Arguments t_out {V R}.
Arguments mkSys {V R}. Arguments x_real {V R}. Arguments x_lockers {V R}. Arguments x_wlocker {V R}. Arguments x_ro {V R}. Arguments x_ws {V R}.
Arguments x_todo {V R}. Arguments x_err {V R}.
Arguments Ok {A}. Arguments Blocked {A}. Arguments Panic {A}.
Arguments upd {V}. Arguments add_lock {V}. Arguments ro_account {V}. Arguments bind_accts {V}. Arguments prepare {V R}.
Arguments get_w {V R}. Arguments set_w {V R}. Arguments set_t {V R}. Arguments set_real {V R}. Arguments is_done {V R}. Arguments ready {V R}.
Arguments realize {V R}. Arguments realize_base {V R}. Arguments value {V R}. Arguments get_account {V R}. Arguments snap_accts {V R}.
Arguments get_snapshot {V R}. Arguments reset_accts {V}. Arguments reset {V R}. Arguments commit_accts {V R}. Arguments commit {V R}.
Arguments run {V R}. Arguments step {V R}. Arguments start {V R}. Arguments reach {V R}. Arguments finished {V R}.
