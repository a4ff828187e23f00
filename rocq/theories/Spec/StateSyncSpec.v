(** What it means that a state has been fetched, written without builders or requests. *)
From Verif Require Import Model.Bytes Model.DbKey Model.Mpt Model.StateSync.
Open Scope Z_scope.

Section Spec.
Context (calcHash : bytes -> bytes) (account_refs : bytes -> option (list ref)) (api_ok : bytes -> bool).
Notation refs := (refs_of account_refs api_ok).

(** The parts of the state in the world [w] that hangs on [roots]. *)
Inductive part (w : base) (roots : list ref) : ref -> Prop :=
| p_root r : In r roots -> part w roots r
| p_next q h v r : part w roots (q, h) -> w (bucket_of q) h = Some v -> In r (fst (refs q v)) -> part w roots r.

(** Every part is there under its hash and in order; no part holds its own hash; a part that is used in two ways refers to the
    same parts in both. *)
Record whole (w : base) (roots : list ref) : Prop := mk_whole {
  wh_has : forall q h, part w roots (q, h) -> exists v, w (bucket_of q) h = Some v /\ calcHash v = h /\ snd (refs q v) = true;
  wh_self : forall q h v, part w roots (q, h) -> w (bucket_of q) h = Some v -> forall q', ~ In (q', h) (fst (refs q v));
  wh_same : forall q q' h v, part w roots (q, h) -> part w roots (q', h) -> bucket_of q = bucket_of q' ->
    w (bucket_of q) h = Some v -> fst (refs q v) = fst (refs q' v)
}.

(** All the parts are in [d], as they are in the world. *)
Definition fetched (w : base) (roots : list ref) (d : bucket -> bytes -> option bytes) : Prop :=
  forall q h, part w roots (q, h) -> d (bucket_of q) h = w (bucket_of q) h.

(** A part that is in [d] is right, and what it refers to is in [d] too. *)
Definition closed (w : base) (roots : list ref) (d : bucket -> bytes -> option bytes) : Prop :=
  forall q h v, part w roots (q, h) -> d (bucket_of q) h = Some v ->
    w (bucket_of q) h = Some v /\ forall q' h', In (q', h') (fst (refs q v)) -> d (bucket_of q') h' <> None.

(** The data [v] is no second preimage of a part's hash. *)
Definition no_forgery (w : base) (roots : list ref) (v : bytes) : Prop :=
  forall q h v0, part w roots (q, h) -> w (bucket_of q) h = Some v0 -> calcHash v = h -> v = v0.

(** Data that comes in, from anyone, in any order; errors are ignored. *)
Fixpoint deliver (b : builder) (l : list (bucket * bytes)) : builder :=
  match l with
  | [] => b
  | (bk, v) :: r => deliver (fst (on_data calcHash account_refs api_ok b bk v)) r
  end.
End Spec.

(** The database with nothing in it, and one with the given entries. *)
Definition nothing : base := fun _ _ => None.
Fixpoint table (l : list item) : base :=
  match l with
  | [] => nothing
  | i :: r => fun b x => if item_is b x i then Some (snd i) else table r b x
  end.

(** A database that holds the nodes of tries and nothing else. *)
Definition trie_world (db : database) : base := fun b x => match b with MerkleTrie => db x | _ => None end.
