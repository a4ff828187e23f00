(** The mutable validator list of a block under execution: service/state/validatorlist.go.

    Go objects of type [validatorList] are heap cells: a state and its snapshots hold pointers to them, and share a
    cell until one of them changes it.  The address index [addrMap] is cached in the cell, created on first use.
    Each slice [validators] belongs to one cell ([clone] and [ToSliceOfValidatorPtr] copy), so it is the cell's value.
    Not modelled: locks (one thread), serialization and hashes of snapshots, conversion failures of foreign
    implementations of [module.Validator]. *)
From Verif Require Import Model.HvhState.
From Coq Require Import ZArith List Bool Arith.
Import ListNotations.
Open Scope nat_scope.

(** validator.go:15-18, 75-77 *)
Record validator : Type := mkValidator { v_addr : addr; v_pub : list Z }.
Fixpoint bytes_eqb (a b : list Z) : bool :=
  match a, b with [], [] => true | x :: a', y :: b' => (x =? y)%Z && bytes_eqb a' b' | _, _ => false end.
Definition validator_eqb (a b : validator) : bool := addr_eqb (v_addr b) (v_addr a) && bytes_eqb (v_pub b) (v_pub a).

(** A map from address to index: an association list in which the first entry of a key counts. *)
Definition amap : Type := list (addr * nat).
Fixpoint map_get (m : amap) (a : addr) : option nat :=
  match m with [] => None | (k, i) :: r => if addr_eqb k a then Some i else map_get r a end.
Definition map_set (m : amap) (a : addr) (i : nat) : amap := (a, i) :: m.
Definition map_del (m : amap) (a : addr) : amap := filter (fun p => negb (addr_eqb (fst p) a)) m.
(** The number of different keys. *)
Fixpoint map_len (m : amap) : nat :=
  match m with
  | [] => O
  | (k, _) :: r => if existsb (fun p => addr_eqb (fst p) k) r then map_len r else S (map_len r)
  end.

(** lines 35-40 *)
Record cell : Type := mkCell { c_list : list validator; c_map : option amap }.
(** lines 184-188; a snapshot (lines 131-136) is the location of its list *)
Record vstate : Type := mkV { heap : nat -> cell; fresh : nat; here : nat; snap : option nat }.

Definition hupd (h : nat -> cell) (l : nat) (c : cell) : nat -> cell := fun x => if Nat.eqb x l then c else h x.
Definition set_cell (c : cell) (s : vstate) : vstate := mkV (hupd (heap s) (here s) c) (fresh s) (here s) (snap s).
Definition cur (s : vstate) : cell := heap s (here s).

(** lines 91-101 [makeAddrMapFrom]: later entries overwrite earlier ones *)
Fixpoint make_map_from (i : nat) (l : list validator) (m : amap) : amap :=
  match l with [] => m | v :: r => make_map_from (S i) r (map_set m (v_addr v) i) end.
Definition make_map (l : list validator) : amap := make_map_from 0 l [].

(** lines 84-89, 103-120 [IndexOf]; creates the index in the cell *)
Definition index_of_v (a : addr) (s : vstate) : option nat * vstate :=
  match c_map (cur s) with
  | Some m => (map_get m a, s)
  | None => let m := make_map (c_list (cur s)) in
            (map_get m a, set_cell (mkCell (c_list (cur s)) (Some m)) s)
  end.
(** lines 58-63 [Get] *)
Definition get_v (i : nat) (s : vstate) : option validator := nth_error (c_list (cur s)) i.

(** lines 237-255 with 241-255: [becomeChangeableInLock] is [update None] *)
Definition update (new : option (list validator * amap)) (s : vstate) : vstate :=
  match snap s, new with
  | Some _, Some (l, _) => mkV (hupd (heap s) (fresh s) (mkCell l None)) (S (fresh s)) (fresh s) None
  | Some _, None => mkV (hupd (heap s) (fresh s) (mkCell (c_list (cur s)) None)) (S (fresh s)) (fresh s) None
  | None, Some (l, m) => set_cell (mkCell l (Some m)) s
  | None, None => s
  end.

(** lines 65-79 [IsSame] *)
Fixpoint same_list (l k : list validator) : bool :=
  match l, k with [], [] => true | x :: l', y :: k' => validator_eqb y x && same_list l' k' | _, _ => false end.

(** lines 257-274; [true] is success *)
Definition set_v (l : list validator) (s : vstate) : bool * vstate :=
  if same_list (c_list (cur s)) l then (true, s)
  else let m := make_map l in
       if Nat.eqb (map_len m) (length l) then (true, update (Some (l, m)) s) else (false, s).

(** lines 276-293 *)
Definition add_v (v : validator) (s : vstate) : bool * vstate :=
  let '(i, s) := index_of_v (v_addr v) s in
  match i with
  | Some _ => (true, s)
  | None =>
      let s := update None s in
      let l := c_list (cur s) ++ [v] in
      (true, set_cell (mkCell l (option_map (fun m => map_set m (v_addr v) (length l - 1)) (c_map (cur s)))) s)
  end.

Definition remove_nth {A} (i : nat) (l : list A) : list A := firstn i l ++ skipn (S i) l.
(** lines 295-307 *)
Definition remove_v (a : addr) (s : vstate) : bool * vstate :=
  let '(i, s) := index_of_v a s in
  match i with
  | None => (false, s)
  | Some i => let s := update None s in (true, set_cell (mkCell (remove_nth i (c_list (cur s))) None) s)
  end.

(** lines 352-364 *)
Definition set_at_locked (i : nat) (old : addr) (v : validator) (s : vstate) : vstate :=
  let s := update None s in
  set_cell (mkCell (set_nth i v (c_list (cur s)))
                   (option_map (fun m => map_set (map_del m old) (v_addr v) i) (c_map (cur s)))) s.

(** lines 309-326 *)
Definition replace_v (old : addr) (v : validator) (s : vstate) : bool * vstate :=
  let '(i, s) := index_of_v old s in
  match i with
  | None => (false, s)
  | Some i =>
      if addr_eqb old (v_addr v) then (true, s)
      else let '(j, s) := index_of_v (v_addr v) s in
           match j with Some _ => (false, s) | None => (true, set_at_locked i old v s) end
  end.

(** lines 328-350 *)
Definition set_at_v (i : nat) (v : validator) (s : vstate) : bool * vstate :=
  match get_v i s with
  | None => (false, s)
  | Some o =>
      if addr_eqb (v_addr o) (v_addr v) then (true, s)
      else let '(j, s) := index_of_v (v_addr v) s in
           match j with Some _ => (false, s) | None => (true, set_at_locked i (v_addr o) v s) end
  end.

(** lines 190-203 *)
Definition get_snapshot (s : vstate) : nat * vstate :=
  match snap s with Some p => (p, s) | None => (here s, mkV (heap s) (fresh s) (here s) (Some (here s))) end.
(** lines 205-220; snapshots of another database bucket panic and are left out *)
Definition reset_v (p : nat) (s : vstate) : vstate := mkV (heap s) (fresh s) p (Some p).
(** validatorStateFromSnapshot: a state on a loaded list *)
Definition load_v (l : list validator) : vstate := mkV (fun _ => mkCell l None) 1 0 (Some 0).

(** The operations of [ValidatorState], with what they return *)
Inductive vop : Type :=
| VIndexOf (a : addr) | VGet (i : nat) | VLen
| VSet (l : list validator) | VAdd (v : validator) | VRemove (a : addr)
| VReplace (old : addr) (v : validator) | VSetAt (i : nat) (v : validator)
| VSnapshot | VReset (p : nat).
Inductive vres : Type := RIndex (i : option nat) | RValidator (v : option validator) | RNum (n : nat) | RDone (ok : bool).

Definition vstep (op : vop) (s : vstate) : vres * vstate :=
  match op with
  | VIndexOf a => let '(i, s) := index_of_v a s in (RIndex i, s)
  | VGet i => (RValidator (get_v i s), s)
  | VLen => (RNum (length (c_list (cur s))), s)
  | VSet l => let '(b, s) := set_v l s in (RDone b, s)
  | VAdd v => let '(b, s) := add_v v s in (RDone b, s)
  | VRemove a => let '(b, s) := remove_v a s in (RDone b, s)
  | VReplace o v => let '(b, s) := replace_v o v s in (RDone b, s)
  | VSetAt i v => let '(b, s) := set_at_v i v s in (RDone b, s)
  | VSnapshot => let '(p, s) := get_snapshot s in (RNum p, s)
  | VReset p => (RDone true, reset_v p s)
  end.
