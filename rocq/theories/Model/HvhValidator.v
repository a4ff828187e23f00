(** HAVAH validators: registration, node keys, penalties and the active validator set.
    havah/hvh/hvhstate/{state.go:800-1437, validatorinfo.go, validatorstatus.go, networkstatus.go, grade.go},
    havah/hvh/{extension.go:595-900, decentralization.go, base.go:291-368}, havah/chainscore_{havah,basic}.go.

    Storage is a record with one field per container; records are kept as values (their RLP coding is not modelled),
    maps are keyed by the whole address ([hvhstate.ToKey] is the 21 bytes).  [int64] counters are [Z].  The active
    validator list is a plain duplicate-free list, which property C42 proves it is.  Not modelled: logging, step
    charging, nil arguments, query mode.  A transaction or base transaction that returns an error leaves no change
    (its world snapshot is restored, or the block is not built). *)
From Verif Require Import Model.HvhState.
From Coq Require Import ZArith List Bool Arith String.
Import ListNotations.
Open Scope Z_scope.

(** grade.go:3-35 *)
Inductive grade : Type := Sub | Main.
Definition grade_eqb (a b : grade) : bool := match a, b with Sub, Sub | Main, Main => true | _, _ => false end.
Definition to_grade (name : string) : option grade :=
  if String.eqb name "sub" then Some Sub else if String.eqb name "main" then Some Main else None.

(** validatorinfo.go:12-21; the node address stands for the public key it is computed from *)
Record vinfo : Type := mkInfo { vi_node : addr; vi_grade : grade; vi_name : string; vi_url : string }.
(** validatorstatus.go:14-19; the two flags as booleans *)
Record vstat : Type := mkStat { vs_disabled : bool; vs_disq : bool; vs_misses : Z; vs_used : Z }.
(** networkstatus.go:17-23 *)
Record netstat : Type := mkNet { ns_decent : bool; ns_period : Z; ns_allow : Z; ns_count : Z }.
(** eventlog.go:164-241 *)
Inductive why_removed : Type := WTerm | WPenalized | WUnregistered | WKeyChange.
Inductive vevent : Type :=
| EvDecentralized (count : Z) | EvRemoved (owner node : addr) (why : why_removed) | EvAdded (owner node : addr)
| EvPenalized (owner node : addr) | EvCount (old new : Z).

(** constant.go:84-137 *)
Definition MaxValidatorCount : Z := 1000.
Definition DefaultVotePeriod : Z := 30.
Definition DefaultAllowance : Z := 20.
Definition MaxNameLen : nat := 100.
Definition MaxUrlLen : nat := 200.
Definition MaxEnableCount : Z := 3.
Definition RevisionDecentralization : Z := 4.
Definition RevisionBTP2 : Z := 5.
Definition RevisionFixMissingBTPPublicKey : Z := 6.

Record vworld : Type := mkVW {
  v_rev : Z; v_gov : addr;
  v_info : addr -> option vinfo; v_stat : addr -> option vstat; v_nto : addr -> option addr;
  v_main : list addr; v_sub : list addr; v_gone : list addr; v_index : nat;
  v_count : Z; v_period : option Z; v_allow : option Z; v_net : netstat;
  v_active : list addr;          (* service/state ValidatorState *)
  v_keyed : addr -> bool;        (* BTPState.CheckPublicKey succeeds *)
  v_log : list vevent }.

Definition aupd {A} (f : addr -> option A) (k : addr) (v : A) : addr -> option A :=
  fun x => if addr_eqb x k then Some v else f x.
Definition w_rev r w := mkVW r (v_gov w) (v_info w) (v_stat w) (v_nto w) (v_main w) (v_sub w) (v_gone w) (v_index w)
  (v_count w) (v_period w) (v_allow w) (v_net w) (v_active w) (v_keyed w) (v_log w).
Definition w_info o i w := mkVW (v_rev w) (v_gov w) (aupd (v_info w) o i) (v_stat w) (v_nto w) (v_main w) (v_sub w) (v_gone w) (v_index w)
  (v_count w) (v_period w) (v_allow w) (v_net w) (v_active w) (v_keyed w) (v_log w).
Definition w_stat o s w := mkVW (v_rev w) (v_gov w) (v_info w) (aupd (v_stat w) o s) (v_nto w) (v_main w) (v_sub w) (v_gone w) (v_index w)
  (v_count w) (v_period w) (v_allow w) (v_net w) (v_active w) (v_keyed w) (v_log w).
Definition w_nto n o w := mkVW (v_rev w) (v_gov w) (v_info w) (v_stat w) (aupd (v_nto w) n o) (v_main w) (v_sub w) (v_gone w) (v_index w)
  (v_count w) (v_period w) (v_allow w) (v_net w) (v_active w) (v_keyed w) (v_log w).
Definition w_list g l w := mkVW (v_rev w) (v_gov w) (v_info w) (v_stat w) (v_nto w)
  (if grade_eqb g Main then l else v_main w) (if grade_eqb g Sub then l else v_sub w) (v_gone w) (v_index w)
  (v_count w) (v_period w) (v_allow w) (v_net w) (v_active w) (v_keyed w) (v_log w).
Definition w_gone l w := mkVW (v_rev w) (v_gov w) (v_info w) (v_stat w) (v_nto w) (v_main w) (v_sub w) l (v_index w)
  (v_count w) (v_period w) (v_allow w) (v_net w) (v_active w) (v_keyed w) (v_log w).
Definition w_index i w := mkVW (v_rev w) (v_gov w) (v_info w) (v_stat w) (v_nto w) (v_main w) (v_sub w) (v_gone w) i
  (v_count w) (v_period w) (v_allow w) (v_net w) (v_active w) (v_keyed w) (v_log w).
Definition w_count c w := mkVW (v_rev w) (v_gov w) (v_info w) (v_stat w) (v_nto w) (v_main w) (v_sub w) (v_gone w) (v_index w)
  c (v_period w) (v_allow w) (v_net w) (v_active w) (v_keyed w) (v_log w).
Definition w_vote p a w := mkVW (v_rev w) (v_gov w) (v_info w) (v_stat w) (v_nto w) (v_main w) (v_sub w) (v_gone w) (v_index w)
  (v_count w) (Some p) (Some a) (v_net w) (v_active w) (v_keyed w) (v_log w).
Definition w_net n w := mkVW (v_rev w) (v_gov w) (v_info w) (v_stat w) (v_nto w) (v_main w) (v_sub w) (v_gone w) (v_index w)
  (v_count w) (v_period w) (v_allow w) n (v_active w) (v_keyed w) (v_log w).
Definition w_active l w := mkVW (v_rev w) (v_gov w) (v_info w) (v_stat w) (v_nto w) (v_main w) (v_sub w) (v_gone w) (v_index w)
  (v_count w) (v_period w) (v_allow w) (v_net w) l (v_keyed w) (v_log w).
Definition w_keyed k w := mkVW (v_rev w) (v_gov w) (v_info w) (v_stat w) (v_nto w) (v_main w) (v_sub w) (v_gone w) (v_index w)
  (v_count w) (v_period w) (v_allow w) (v_net w) (v_active w) k (v_log w).
Definition w_log e w := mkVW (v_rev w) (v_gov w) (v_info w) (v_stat w) (v_nto w) (v_main w) (v_sub w) (v_gone w) (v_index w)
  (v_count w) (v_period w) (v_allow w) (v_net w) (v_active w) (v_keyed w) (v_log w ++ [e]).

(** ** Computations: an error, or a result and the changed world *)
Definition vm (A : Type) : Type := vworld -> herr + (A * vworld).
Definition vret {A} (a : A) : vm A := fun w => inr (a, w).
Definition vfail {A} (e : herr) : vm A := fun _ => inl e.
Definition vbind {A B} (m : vm A) (f : A -> vm B) : vm B :=
  fun w => match m w with inl e => inl e | inr (a, w') => f a w' end.
Definition vget : vm vworld := fun w => inr (w, w).
Definition vput (f : vworld -> vworld) : vm unit := fun w => inr (tt, f w).
Notation "'vdo' x <- m ; k" := (vbind m (fun x => k)) (at level 200, x binder, m at level 100, k at level 200).
Notation "m ;;; k" := (vbind m (fun _ => k)) (at level 199, right associativity).
Definition vwhen (b : bool) (e : herr) : vm unit := if b then vfail e else vret tt.

(** ** Plain list operations of ArrayDB and ValidatorState *)
(* [index_of] and [set_nth] are those of Model/HvhState.v *)
Definition del_at (i : nat) (l : list addr) : list addr := firstn i l ++ skipn (S i) l.
Definition has (a : addr) (l : list addr) : bool := existsb (addr_eqb a) l.
(** validatorlist.go:328-350 *)
Definition set_at (i : nat) (a : addr) (l : list addr) : option (list addr) :=
  match nth_error l i with
  | None => None
  | Some o => if addr_eqb o a then Some l else if has a l then None else Some (set_nth i a l)
  end.
(** validatorlist.go:295-307 *)
Definition take_out (a : addr) (l : list addr) : option (list addr) := option_map (fun i => del_at i l) (index_of a l).
Fixpoint no_dup (l : list addr) : bool :=
  match l with [] => true | x :: r => negb (has x r) && no_dup r end.
(** validatorlist.go:257-274: setting the present list again always succeeds *)
Fixpoint list_eqb (l k : list addr) : bool :=
  match l, k with [], [] => true | x :: r, y :: q => addr_eqb x y && list_eqb r q | _, _ => false end.
Definition set_list (l old : list addr) : option (list addr) :=
  if list_eqb old l then Some old else if no_dup l then Some l else None.

(** ** state.go *)
(** 800-836 *)
Definition set_vote_params (period allow : Z) : vm unit :=
  vwhen (period <? 0) EInvalidParameter ;;; vwhen (allow <? 0) EInvalidParameter ;;; vput (w_vote period allow).
Definition vote_period (w : vworld) : Z := match v_period w with Some p => p | None => DefaultVotePeriod end.
Definition allowance (w : vworld) : Z := match v_allow w with Some a => a | None => DefaultAllowance end.

(** validatorstatus.go:93-95; 139-141 *)
Definition enabled (s : vstat) : bool := negb (vs_disabled s) && negb (vs_disq s).
Definition new_status : vstat := mkStat false false 0 0.
(** 1158-1169, 1172-1182, 898-906 *)
Definition get_info (o : addr) : vm vinfo := fun w => match v_info w o with Some i => inr (i, w) | None => inl ENotFound end.
Definition get_status (o : addr) : vm vstat := fun w => match v_stat w o with Some s => inr (s, w) | None => inl ENotFound end.
Definition owner_of (n : addr) : vm addr := fun w => match v_nto w n with Some o => inr (o, w) | None => inl ENotFound end.
(** 884-896 *)
Definition add_node (n o : addr) : vm unit :=
  vdo w <- vget; match v_nto w n with Some _ => vfail EDuplicate | None => vput (w_nto n o) end.
Definition vlist (g : grade) (w : vworld) : list addr := match g with Main => v_main w | Sub => v_sub w end.
(** 837-922 *)
Definition register (o node : addr) (g : grade) (name url : string) : vm unit :=
  vdo w <- vget;
  match v_info w o with
  | Some _ => vfail EDuplicate
  | None =>
      vput (w_info o (mkInfo node g name url)) ;;;
      vdo w <- vget;
      match v_stat w o with
      | Some _ => vfail EDuplicate
      | None => vput (w_stat o new_status) ;;; add_node node o ;;; vput (fun w => w_list g (vlist g w ++ [o]) w)
      end
  end.
(** 924-954: the last entry is popped and, unless it was the one to remove, put where that one is *)
Definition pop_swap (o : addr) (l : list addr) : option (list addr) :=
  match List.rev l with
  | [] => None
  | z :: _ =>
      let l := removelast l in
      if addr_eqb o z then Some l else option_map (fun i => set_nth i z l) (index_of o l)
  end.
(** 972-1012; returns the node to deactivate *)
Definition unregister (o : addr) : vm (option addr) :=
  vwhen (a_contract o) EInvalidParameter ;;;
  vdo s <- get_status o;
  if vs_disq s then vret None
  else vput (w_stat o (mkStat (vs_disabled s) true (vs_misses s) (vs_used s))) ;;;
       vdo i <- get_info o;
       vdo w <- vget;
       match pop_swap o (vlist (vi_grade i) w) with
       | None => vfail ENotFound
       | Some l => vput (w_list (vi_grade i) l) ;;; vput (fun w => w_gone (v_gone w ++ [o]) w) ;;; vret (Some (vi_node i))
       end.
(** 1050-1090 *)
Definition renew : vm unit :=
  vdo w <- vget;
  if negb (ns_decent (v_net w)) then vret tt
  else vwhen (negb (ns_period (v_net w) =? vote_period w) && (vote_period w <? 0)) EGeneric ;;;
       vwhen (negb (ns_allow (v_net w) =? allowance w) && (allowance w <? 0)) EGeneric ;;;
       vwhen (negb (ns_count (v_net w) =? v_count w) && (v_count w <? 1)) EGeneric ;;;
       vput (w_net (mkNet true (vote_period w) (allowance w) (v_count w))).
(** 1092-1121; validatorinfo.go:42-48, 57-68.  The Go map is the list of pairs: keys are distinct *)
Fixpoint edit_info (values : list (string * string)) (i : vinfo) : option vinfo :=
  match values with
  | [] => Some i
  | (k, x) :: r =>
      if String.eqb k "name" then
        if Nat.leb (String.length x) MaxNameLen then edit_info r (mkInfo (vi_node i) (vi_grade i) x (vi_url i)) else None
      else if String.eqb k "url" then
        if Nat.leb (String.length x) MaxUrlLen then edit_info r (mkInfo (vi_node i) (vi_grade i) (vi_name i) x) else None
      else None
  end.
Definition set_validator_info (o : addr) (values : list (string * string)) : vm unit :=
  vdo i <- get_info o;
  match edit_info values i with None => vfail EInvalidParameter | Some j => vput (w_info o j) end.
(** 1124-1156; returns the old and new node *)
Definition set_node (o new : addr) : vm (addr * addr) :=
  vdo i <- get_info o;
  vdo s <- get_status o;
  vwhen (vs_disq s) EIllegalArgument ;;;
  if addr_eqb (vi_node i) new then vret (vi_node i, new)
  else add_node new o ;;;
       vput (w_info o (mkInfo new (vi_grade i) (vi_name i) (vi_url i))) ;;; vret (vi_node i, new).
(** 1184-1196; validatorstatus.go:46-83 *)
Definition enable (gov : bool) (s : vstat) : option vstat :=
  if vs_disq s then None
  else if enabled s then Some s
  else if gov then Some (mkStat false (vs_disq s) (vs_misses s) 0)
  else if MaxEnableCount <=? vs_used s then None
  else Some (mkStat false (vs_disq s) (vs_misses s) (vs_used s + 1)).
Definition reset_misses (s : vstat) : vstat := mkStat (vs_disabled s) (vs_disq s) 0 (vs_used s).
Definition enable_validator (o : addr) (gov : bool) : vm unit :=
  vdo s <- get_status o;
  match enable gov s with None => vfail EAccessDenied | Some s => vput (w_stat o (reset_misses s)) end.
(** 1213-1249 *)
Fixpoint main_loop (l : list addr) (count : nat) (w : vworld) : option (list addr) :=
  match l with
  | [] => Some []
  | o :: r =>
      match v_info w o with
      | None => None
      | Some i =>
          if v_keyed w (vi_node i) then
            if Nat.eqb count 1 then Some [vi_node i]
            else option_map (cons (vi_node i)) (main_loop r (count - 1) w)
          else main_loop r count w
      end
  end.
Definition main_validators (count : nat) : vm (list addr) :=
  vdo w <- vget;
  if Nat.eqb count 0 then vret []
  else match main_loop (v_main w) count w with Some l => vret l | None => vfail EInvalidState end.
(** 1291-1298 *)
Definition set_active_count (c : Z) : vm unit := vwhen (c <? 1) EInvalidParameter ;;; vput (w_count c).
(** 1307-1349; [None] is an error, which the caller ignores *)
Definition on_vote (node : addr) (vote : bool) (w : vworld) : option (bool * addr * vworld) :=
  match v_nto w node with
  | None => None
  | Some o =>
      match v_info w o, v_stat w o with
      | Some i, Some s =>
          if enabled s then
            let m := if vote then 0 else vs_misses s + 1 in
            let p := match vi_grade i with Main => false | Sub => ns_allow (v_net w) <? m end in
            Some (p, o, w_stat o (mkStat (vs_disabled s || p) (vs_disq s) m (vs_used s)) w)
          else Some (false, o, w)
      | _, _ => None
      end
  end.
(** 1351-1416.  [act]: the active set to avoid, if any.  The loop returns the nodes found, the index after the last
    visited entry and whether the last public key check failed (the Go variable [err], which is returned unless the
    index changed). *)
Fixpoint next_loop (w : vworld) (act : option (list addr)) (fuel size idx count : nat) (err : bool)
  : option (list addr * nat * bool) :=
  match fuel, count with
  | O, _ | _, O => Some ([], idx, err)
  | S fuel', S count' =>
      match nth_error (v_sub w) idx with
      | None => None
      | Some o =>
          match v_info w o with
          | None => None
          | Some i =>
              let free := match act with None => true | Some l => negb (has (vi_node i) l) end in
              let idx' := Nat.modulo (idx + 1) size in
              if free then
                match v_stat w o with
                | None => next_loop w act fuel' size idx' count true
                | Some s =>
                    if enabled s then
                      if v_keyed w (vi_node i) then
                        match next_loop w act fuel' size idx' count' false with
                        | None => None
                        | Some (l, j, e) => Some (vi_node i :: l, j, e)
                        end
                      else next_loop w act fuel' size idx' count true
                    else next_loop w act fuel' size idx' count false
                end
              else next_loop w act fuel' size idx' count false
          end
      end
  end.
Definition next_active (act : option (list addr)) (count : nat) : vm (list addr) :=
  vdo w <- vget;
  let size := List.length (v_sub w) in
  if Nat.eqb count 0 then vret []
  else if Nat.eqb size 0 then vret []
  else
    let start := if Nat.leb size (v_index w) then O else v_index w in
    match next_loop w act size size start (Nat.min count size) false with
    | None => vfail ENotFound
    | Some (l, idx, err) =>
        if Nat.eqb (v_index w) idx then (if err then vfail ENotFound else vret l)
        else vput (w_index idx) ;;; vret l
    end.
(** 1423-1437 *)
Definition can_decentralize (w : vworld) : bool :=
  (RevisionDecentralization <=? v_rev w) && (1 <=? v_count w) &&
  (v_count w <=? Z.of_nat (List.length (v_main w) + List.length (v_sub w))).

(** ** decentralization.go *)
(** 12-89.  The Go map counts: -1 for each old validator, +1 for each time it is chosen again *)
Definition mark (old new : list addr) (n : addr) : Z :=
  (if has n old then -1 else 0) + Z.of_nat (List.length (filter (addr_eqb n) new)).
Fixpoint report_changes (old new nodes : list addr) : vm unit :=
  match nodes with
  | [] => vret tt
  | n :: r =>
      (if mark old new n =? 0 then vret tt
       else vdo o <- owner_of n;
            vput (w_log (if mark old new n <? 0 then EvRemoved o n WTerm else EvAdded o n))) ;;;
      report_changes old new r
  end.
Definition report_count (old new : nat) : vm unit :=
  if Nat.eqb old new then vret tt else vput (w_log (EvCount (Z.of_nat old) (Z.of_nat new))).
Definition init_active : vm unit :=
  vdo w <- vget;
  let count := Z.to_nat (v_count w) in
  vdo mains <- main_validators count;
  vdo subs <- (if Nat.ltb (List.length mains) count then next_active None (count - List.length mains) else vret []);
  let new := mains ++ subs in
  let old := v_active w in
  report_changes old new (old ++ filter (fun n => negb (has n old)) new) ;;;
  report_count (List.length old) (List.length new) ;;;
  match set_list new old with None => vfail EGeneric | Some l => vput (w_active l) end.

(** 96-130; the penalized validators as (owner, node) *)
Fixpoint check_votes (votes : list (addr * bool)) : vm (list (addr * addr)) :=
  match votes with
  | [] => vret []
  | (n, v) :: r => fun w =>
      match on_vote n v w with
      | None => check_votes r w
      | Some (false, _, w) => check_votes r w
      | Some (true, o, w) => (vdo l <- check_votes r; vret ((o, n) :: l)) (w_log (EvPenalized o n) w)
      end
  end.
(** 136-195.  A seat is the position of a penalized validator in the active set; the Go map from positions is
    iterated in an arbitrary order, [order].  (Positions are distinct: an owner is penalized once.) *)
Definition seat : Type := (nat * (addr * addr))%type.
Fixpoint seats (pen : list (addr * addr)) (act : list addr) : list seat :=
  match pen with
  | [] => []
  | (o, n) :: r => match index_of n act with Some i => (i, (o, n)) :: seats r act | None => seats r act end
  end.
Fixpoint reseat (ss : list seat) (adds : list addr) : vm unit :=
  match ss with
  | [] => vret tt
  | (i, (o, n)) :: r =>
      vput (w_log (EvRemoved o n WPenalized)) ;;;
      match adds with
      | a :: adds' =>
          vdo ow <- owner_of a;
          vdo w <- vget;
          match set_at i a (v_active w) with
          | None => vfail EGeneric
          | Some l => vput (w_active l) ;;; vput (w_log (EvAdded ow a)) ;;; reseat r adds'
          end
      | [] => vput (fun w => match take_out n (v_active w) with Some l => w_active l w | None => w end) ;;; reseat r []
      end
  end.
Definition replace_penalized (order : list seat -> list seat) (pen : list (addr * addr)) : vm unit :=
  vdo w <- vget;
  let ss := seats pen (v_active w) in
  if Nat.eqb (List.length ss) 0 then vret tt
  else vdo adds <- next_active (Some (v_active w)) (List.length ss);
       reseat (order ss) adds ;;;
       vdo w' <- vget; report_count (List.length (v_active w)) (List.length (v_active w')).
Definition handle_votes (votes : list (addr * bool)) (order : list seat -> list seat) : vm unit :=
  vdo pen <- check_votes votes;
  match pen with [] => vret tt | _ => replace_penalized order pen end.

(** base.go:291-368, the validator part.  [ix] is the index of the block in its term.  The Go variable [ns] is read
    before the renewal: the period it holds is the previous term's. *)
Definition base (ix : Z) (votes : list (addr * bool)) (order : list seat -> list seat) : vm unit :=
  vdo w <- vget;
  let ns := v_net w in
  (if ix =? 0 then
     (if negb (ns_decent ns) && can_decentralize w then
        vput (w_net (mkNet true (ns_period ns) (ns_allow ns) (ns_count ns))) ;;; vput (w_log (EvDecentralized (v_count w)))
      else vret tt) ;;;
     vdo w <- vget;
     if ns_decent (v_net w) then renew ;;; init_active else vret tt
   else vret tt) ;;;
  vdo w <- vget;
  if ns_decent (v_net w) && (0 <? ns_period ns) && (ix mod ns_period ns =? 0) then handle_votes votes order else vret tt.

(** ** Calls: extension.go, chainscore_havah.go, chainscore_basic.go *)
(** extension.go:774-804; the changed list, or an error *)
Definition replace_active (old : addr) (new : option addr) (act : list addr) : option (bool * list addr) :=
  match new with
  | Some n =>
      if addr_eqb old n then Some (false, act)
      else match index_of old act with
           | None => Some (false, act)
           | Some i => option_map (fun l => (true, l)) (set_at i n act)
           end
  | None =>
      match index_of old act with
      | None => Some (false, act)
      | Some i => match nth_error act i with
                  | Some x => match take_out x act with Some l => Some (true, l) | None => Some (true, act) end
                  | None => Some (true, act)
                  end
      end
  end.

(** What callers and the environment do.  [btp] is the outcome of BTPState.SetPublicKey: an error, or the validity
    of nodes afterwards.  [OKeys] is any other change of BTP keys and networks, [ORevision] of the revision. *)
Inductive vop : Type :=
| ORevision (r : Z) | OKeys (k : addr -> bool)
| OBase (ix : Z) (votes : list (addr * bool)) (order : list seat -> list seat)
| OVoteParams (from : addr) (period allow : Z)
| ORegister (from owner : addr) (key : list Z) (grade name : string) (url : option string) (btp : option (addr -> bool))
| OUnregister (from owner : addr)
| OSetInfo (from : addr) (values : list (string * string))
| OSetKey (from : addr) (key : list Z) (btp : option (addr -> bool))
| OEnable (from owner : addr)
| OSetCount (from : addr) (count : Z)
| OGrant (from a : addr) | ORevoke (from a : addr).

Section Calls.
(** crypto.ParsePublicKey and common.NewAccountAddressFromPublicKey: the account identifier of a public key *)
Variable account_of : list Z -> option Z.
(** hvhutils/utils.go:50-57 *)
Definition node_of (key : list Z) : option addr :=
  if Nat.eqb (List.length key) 33 then option_map (mkAddr false) (account_of key) else None.
(** chainscore.go:850-860 *)
Definition check_gov (from : addr) : vm unit := vdo w <- vget; vwhen (negb (addr_eqb (v_gov w) from)) EAccessDenied.
(** chainscore.go:497-605: methods which exist from a revision on *)
Definition since (r : Z) : vm unit := vdo w <- vget; vwhen (v_rev w <? r) EInvalidParameter.
Definition set_btp (btp : option (addr -> bool)) : vm unit :=
  match btp with None => vfail EGeneric | Some k => vput (w_keyed k) end.
Definition too_long (url : option string) : bool :=
  match url with Some u => Nat.ltb MaxUrlLen (String.length u) | None => false end.

(** extension.go:613-651 *)
Definition ext_register (o : addr) (key : list Z) (gname name : string) (url : option string) (btp : option (addr -> bool)) : vm unit :=
  match node_of key with
  | None => vfail EInvalidParameter
  | Some node =>
      match to_grade gname with
      | None => vfail EInvalidParameter
      | Some g =>
          vwhen (Nat.ltb MaxNameLen (String.length name)) EInvalidParameter ;;;
          vwhen (too_long url) EInvalidParameter ;;;
          register o node g name (match url with Some u => u | None => EmptyString end) ;;;
          vdo w <- vget;
          if RevisionFixMissingBTPPublicKey <=? v_rev w then set_btp btp else vret tt
      end
  end.
(** extension.go:653-692 *)
Definition ext_unregister (from o : addr) : vm unit :=
  vwhen (a_contract o) EInvalidParameter ;;;
  vdo w <- vget;
  vwhen (negb (addr_eqb from (v_gov w)) && negb (addr_eqb from o)) EAccessDenied ;;;
  vdo node <- unregister o;
  match node with
  | None => vret tt
  | Some n =>
      vdo w <- vget;
      match replace_active n None (v_active w) with
      | None => vfail EGeneric
      | Some (changed, l) =>
          vput (w_active l) ;;;
          if changed then vput (w_log (EvRemoved o n WUnregistered)) ;;;
                          vput (w_log (EvCount (Z.of_nat (List.length l) + 1) (Z.of_nat (List.length l))))
          else vret tt
      end
  end.
(** extension.go:729-748, chainscore_havah.go:421-444 *)
Fixpoint distinct_keys (values : list (string * string)) : bool :=
  match values with [] => true | (k, _) :: r => negb (existsb (fun p => String.eqb k (fst p)) r) && distinct_keys r end.
Definition ext_set_info (from : addr) (values : list (string * string)) : vm unit :=
  vwhen (negb (distinct_keys values)) EInvalidParameter ;;;
  vwhen (a_contract from) EInvalidParameter ;;;
  match values with [] => vret tt | _ => set_validator_info from values end.
(** extension.go:750-780; from RevisionBTP2 on the outcome of the replacement in the active set is overwritten *)
Definition ext_set_key (from : addr) (key : list Z) (btp : option (addr -> bool)) : vm unit :=
  vwhen (a_contract from) EInvalidParameter ;;;
  match node_of key with
  | None => vfail EInvalidParameter
  | Some new =>
      vdo nodes <- set_node from new;
      vdo w <- vget;
      vdo ok <- (match replace_active (fst nodes) (Some (snd nodes)) (v_active w) with
                 | None => vret false
                 | Some (changed, l) =>
                     vput (w_active l) ;;;
                     (if changed then vput (w_log (EvRemoved from (fst nodes) WKeyChange)) ;;; vput (w_log (EvAdded from (snd nodes)))
                      else vret tt) ;;; vret true
                 end);
      if RevisionBTP2 <=? v_rev w then set_btp btp else vwhen (negb ok) EGeneric
  end.
(** extension.go:833-853 *)
Definition ext_enable (from o : addr) : vm unit :=
  vwhen (a_contract o) EInvalidParameter ;;;
  vdo w <- vget;
  let gov := addr_eqb from (v_gov w) in
  vwhen (negb gov && negb (addr_eqb from o)) EAccessDenied ;;;
  enable_validator o gov.
(** extension.go:885-897 *)
Definition ext_set_count (c : Z) : vm unit :=
  vwhen (negb ((0 <? c) && (c <=? MaxValidatorCount))) EInvalidParameter ;;; set_active_count c.
(** chainscore_basic.go:330-391; the list of members, when it is used, can only refuse more *)
Definition grant (from a : addr) : vm unit :=
  check_gov from ;;; vwhen (a_contract a) EIllegalArgument ;;;
  vput (fun w => if has a (v_active w) then w else w_active (v_active w ++ [a]) w).
Definition revoke (from a : addr) : vm unit :=
  check_gov from ;;; vwhen (a_contract a) EIllegalArgument ;;;
  vdo w <- vget;
  match take_out a (v_active w) with
  | None => vfail ENotFound
  | Some l => vwhen (Nat.eqb (List.length l) 0) EIllegalArgument ;;; vput (w_active l)
  end.

Definition vcall (op : vop) : vm unit :=
  match op with
  | ORevision r => vput (w_rev r)
  | OKeys k => vput (w_keyed k)
  | OBase ix votes order => base ix votes order
  | OVoteParams from p a => since 4 ;;; check_gov from ;;; set_vote_params (int64 p) (int64 a)
  | ORegister from o key g name url btp => since 4 ;;; check_gov from ;;; ext_register o key g name url btp
  | OUnregister from o => since 4 ;;; ext_unregister from o
  | OSetInfo from values => since 4 ;;; ext_set_info from values
  | OSetKey from key btp => since 4 ;;; ext_set_key from key btp
  | OEnable from o => since 4 ;;; ext_enable from o
  | OSetCount from c => since 4 ;;; check_gov from ;;; ext_set_count (int64 c)
  | OGrant from a => grant from a
  | ORevoke from a => revoke from a
  end.
(** A failed operation changes nothing. *)
Definition vexec (op : vop) (w : vworld) : option herr * vworld :=
  match vcall op w with inl e => (Some e, w) | inr (_, w') => (None, w') end.
End Calls.
