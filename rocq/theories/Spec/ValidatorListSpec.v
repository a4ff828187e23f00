(** What a validator list is: a plain list in which no address occurs twice; snapshots are remembered lists. *)
From Verif Require Import Model.HvhState Model.ValidatorList.
From Coq Require Import ZArith List Bool Arith.
Import ListNotations.
Open Scope nat_scope.

Definition addrs (l : list validator) : list addr := map v_addr l.

(** The position of an address, if it is in the list. *)
Definition at_index (l : list validator) (a : addr) (i : option nat) : Prop :=
  match i with Some i => nth_error (addrs l) i = Some a | None => ~ In a (addrs l) end.

(** One operation on a plain list and a table of the snapshots taken so far (numbered by the code as it likes):
    [spec l t op r l' t'] when [op] on [l] returns [r] and leaves [l'] and table [t']. *)
Definition table : Type := nat -> option (list validator).
Inductive spec (l : list validator) (t : table) : vop -> vres -> list validator -> table -> Prop :=
| S_index a i : at_index l a i -> spec l t (VIndexOf a) (RIndex i) l t
| S_get i : spec l t (VGet i) (RValidator (nth_error l i)) l t
| S_len : spec l t VLen (RNum (length l)) l t
| S_set k : NoDup (addrs k) -> spec l t (VSet k) (RDone true) k t
| S_set_dup k : ~ NoDup (addrs k) -> spec l t (VSet k) (RDone false) l t
| S_add v : ~ In (v_addr v) (addrs l) -> spec l t (VAdd v) (RDone true) (l ++ [v]) t
| S_add_in v : In (v_addr v) (addrs l) -> spec l t (VAdd v) (RDone true) l t
| S_remove l1 v l2 a : l = l1 ++ v :: l2 -> v_addr v = a -> spec l t (VRemove a) (RDone true) (l1 ++ l2) t
| S_remove_no a : ~ In a (addrs l) -> spec l t (VRemove a) (RDone false) l t
| S_replace l1 o l2 v : l = l1 ++ o :: l2 -> ~ In (v_addr v) (addrs l) ->
    spec l t (VReplace (v_addr o) v) (RDone true) (l1 ++ v :: l2) t
| S_replace_same a v : In a (addrs l) -> v_addr v = a -> spec l t (VReplace a v) (RDone true) l t
| S_replace_no a v : ~ In a (addrs l) \/ (In (v_addr v) (addrs l) /\ v_addr v <> a) -> spec l t (VReplace a v) (RDone false) l t
| S_set_at l1 o l2 v : l = l1 ++ o :: l2 -> ~ In (v_addr v) (addrs l) ->
    spec l t (VSetAt (length l1) v) (RDone true) (l1 ++ v :: l2) t
| S_set_at_same i o v : nth_error l i = Some o -> v_addr o = v_addr v -> spec l t (VSetAt i v) (RDone true) l t
| S_set_at_no i v : length l <= i \/ (In (v_addr v) (addrs l) /\ nth_error (addrs l) i <> Some (v_addr v)) ->
    spec l t (VSetAt i v) (RDone false) l t
| S_snapshot p t' : t' p = Some l -> (forall q, q <> p -> t' q = t q) -> (t p = None \/ t p = Some l) ->
    spec l t VSnapshot (RNum p) l t'
| S_reset p k : t p = Some k -> spec l t (VReset p) (RDone true) k t.
