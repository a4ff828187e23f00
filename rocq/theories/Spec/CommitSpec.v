(* What a commit vote list is to certify. *)
From Coq Require Import ZArith List Bool Arith.
From Verif Require Import Model.Votes Model.CommitVotes.
Import ListNotations.
Open Scope Z_scope.

(* [a] signed, at time [it_time it], a precommit for block [b] with parts [ps]
   at height [h] in round [r], and [it] shows it. *)
Definition shows (recover : signed -> Z -> option Z) (h r b : Z) (ps : option (Z * Z)) (it : item) (a : Z) : Prop :=
  recover (mkSigned h r Precommit b ps (it_time it)) (it_sig it) = Some a.

Definition signed_by (recover : signed -> Z -> option Z) (h r b : Z) (ps : option (Z * Z)) (a : Z) : Prop :=
  exists it, shows recover h r b ps it a.

(* The items of [c] show precommits of different validators, [voters] in this
   order. *)
Definition certifies (recover : signed -> Z -> option Z) (c : cvl) (h b : Z) (vs voters : list Z) : Prop :=
  Forall2 (fun it a => shows recover h (cv_round c) b (cv_parts c) it a) (cv_items c) voters /\
  NoDup voters /\ (forall a, In a voters -> In a vs).

(* What the signature of a vote covers. *)
Definition signed_of (v : vote) : signed :=
  mkSigned (v_height v) (v_round v) (v_type v) (d_block (v_dec v)) (d_parts (v_dec v)) (v_ts v).
