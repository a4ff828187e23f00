(** A store of named versions, written without tries: maps from byte strings to byte strings. *)
From Verif Require Import Model.Bytes Model.DbKey Model.Mpt Model.MptRun.
Open Scope Z_scope.

Definition contents := bytes -> option bytes.
Definition no_contents : contents := fun _ => None.
Definition with_key (c : contents) (k v : bytes) : contents := fun x => if bytes_eqb x k then Some v else c x.
Definition without_key (c : contents) (k : bytes) : contents := fun x => if bytes_eqb x k then None else c x.

(** [v_live]: the contents of each trie in use; [v_kept]: the contents of each version kept by a flush. *)
Record versions := mk_versions { v_kept : list contents; v_live : list contents }.

Inductive vstep : versions -> op -> out -> versions -> Prop :=
| v_new a : vstep a ONew Quiet (mk_versions (v_kept a) (v_live a ++ [no_contents]))
| v_open a i c : nth_error (v_kept a) i = Some c -> vstep a (OOpen i) Quiet (mk_versions (v_kept a) (v_live a ++ [c]))
| v_copy a j c : nth_error (v_live a) j = Some c -> vstep a (OCopy j) Quiet (mk_versions (v_kept a) (v_live a ++ [c]))
| v_get a j k c : nth_error (v_live a) j = Some c -> vstep a (OGet j k) (Value (c k) None) a
| v_set a j k v c : nth_error (v_live a) j = Some c ->
    vstep a (OSet j k v) (Value (c k) None) (mk_versions (v_kept a) (set_nth (v_live a) j (with_key c k v)))
| v_delete a j k c : nth_error (v_live a) j = Some c ->
    vstep a (ODelete j k) (Value (c k) None) (mk_versions (v_kept a) (set_nth (v_live a) j (without_key c k)))
| v_flush a j c : nth_error (v_live a) j = Some c -> vstep a (OFlush j) Quiet (mk_versions (v_kept a ++ [c]) (v_live a))
| v_compact a j : vstep a (OCompact j) Quiet a.

Inductive vsteps : versions -> list (op * out) -> versions -> Prop :=
| vs_nil a : vsteps a [] a
| vs_snoc a l a1 o x a2 : vsteps a l a1 -> vstep a1 o x a2 -> vsteps a (l ++ [(o, x)]) a2.

(** Calls with byte strings of reasonable size; values are not empty. *)
Definition sane_op (o : op) : Prop :=
  match o with
  | OGet _ k | ODelete _ k => wf_bytes k
  | OSet _ k v => wf_bytes k /\ wf_bytes v /\ v <> [] /\ blen k < 2 ^ 32 /\ blen v < 2 ^ 32
  | _ => True
  end.

(** No two different byte strings of the list have the same digest. *)
Definition no_collision (l : list (bytes * bytes)) : Prop := forall h s s', In (h, s) l -> In (h, s') l -> s = s'.

(** Digests are 32 bytes. *)
Definition digest32 (calcHash : bytes -> bytes) : Prop := forall s, blen (calcHash s) = 32 /\ wf_bytes (calcHash s).

(** The nodes of a trie that are in memory, with their digests: what a flush would write. *)
Definition loaded (calcHash : bytes -> bytes) (m : mpt) : list (bytes * bytes) :=
  match m_root m with Some n => flush_entries calcHash true n | None => [] end.
