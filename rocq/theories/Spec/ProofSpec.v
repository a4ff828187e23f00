(** A verifier that holds nothing but a root hash. *)
From Verif Require Import Model.Bytes Model.DbKey Model.Mpt Model.MptProof.
Open Scope Z_scope.

(** Calls of [Prove] one after the other on one trie: keys with the proofs offered for them. *)
Fixpoint verifies (calcHash : bytes -> bytes) (root : option node) (calls : list (bytes * list bytes)) : option node * list proved :=
  match calls with
  | [] => (root, [])
  | (k, p) :: r =>
      let (root1, a) := mpt_prove calcHash root k p in
      let (root2, l) := verifies calcHash root1 r in (root2, a :: l)
  end.
(** The verifier starts with the hash only. *)
Definition verifier (h : bytes) : option node := m_root (new_mpt (fun _ => None) h).

(** What an answer says about the value of the key; a refusal says nothing. *)
Definition tells (value : option bytes) (a : proved) : Prop :=
  match a with
  | Proved v => value = Some v
  | Refused PNotFound => value = None
  | Panics => value = None
  | Refused PIllegal => True
  | Refused PFuel => False
  end.
