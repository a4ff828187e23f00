(** Who signed twice.

    Specification of /repo/consensus/doublesigndata.go, /repo/consensus/dsmlog.go
    and /repo/service/dsrmanager.go. *)
From Verif Require Import Model.Bytes Model.DoubleSign.
From Coq Require Import Sorting.Sorted.
Open Scope Z_scope.

(** Two votes of one kind, or two proposals, for one height and round. *)
Definition same_turn (m1 m2 : msg) : Prop :=
  match m1, m2 with
  | Vote b1 _ _, Vote b2 _ _ => v_type b1 = v_type b2 /\ v_height b1 = v_height b2 /\ v_round b1 = v_round b2
  | Prop_ b1 _, Prop_ b2 _ => p_height b1 = p_height b2 /\ p_round b1 = p_round b2
  | _, _ => False
  end.
(** One signer signed two different things for one turn. *)
Definition double_signed (vhash : vote_body -> bytes) (phash : prop_body -> bytes) (signer : bytes -> bytes -> bytes) (m1 m2 : msg) : Prop :=
  same_turn m1 m2 /\ signer_of vhash phash signer m1 = signer_of vhash phash signer m2
  /\ hash_of vhash phash m1 <> hash_of vhash phash m2.

(** All proposals name the network [n], or none. *)
Definition proposals_of (n : Z) (l : list msg) : Prop := forall b s, In (Prop_ b s) l -> p_nid b = 0 \/ p_nid b = n.
Fixpoint total_cost (cost : msg -> Z) (l : list msg) : Z := match l with [] => 0 | m :: r => cost m + total_cost cost r end.

(** A manager after some operations. *)
Definition manager_after (l : list op) : manager := fold_left step l new_manager.
Definition committed (l : list op) (h : Z) (s : bytes) : Prop := exists x, In (Commit x) l /\ In (h, s) x.
Definition name_of (r : report) : Z * bytes := (r_height r, r_signer r).
