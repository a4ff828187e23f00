(** Any sequence of calls on tries that share one database: [NewMPT], [Get], [Set], [Delete], [Hash], [Flush], [GetSnapshot]
    and [Reset] (a copy: the nodes are values here), [ClearCache]. *)
From Verif Require Import Model.Bytes Model.DbKey Model.Mpt.
Open Scope Z_scope.

Section Run.
Context (calcHash : bytes -> bytes).

(** mpt.go:318-324 [ClearCache]; leaf.go:275-289, extension.go:290-305, branch.go:389-412 [compact]: a flushed node that has a hash value
    becomes its hash, the children of an unflushed one are visited.  A node that is flushed has everything below it in the
    database; here any such node may count as flushed. *)
Inductive compacts (db : database) : bool -> node -> node -> Prop :=
| cp_stay root n : compacts db root n n
| cp_hash root n : (forall h, n <> NHash h) ->
    (forall h s, In (h, s) (flush_entries calcHash root n) -> db h = Some s) ->
    (root = true \/ 32 < blen (serialize calcHash n)) ->
    compacts db root n (NHash (calcHash (serialize calcHash n)))
| cp_ext root k n n' : compacts db false n n' -> compacts db root (NExt k n) (NExt k n')
| cp_branch root cs cs' v : Forall2 (ocompacts db) cs cs' -> compacts db root (NBranch cs v) (NBranch cs' v)
with ocompacts (db : database) : option node -> option node -> Prop :=
| ocp_none : ocompacts db None None
| ocp_some n n' : compacts db false n n' -> ocompacts db (Some n) (Some n').

(** [st_log]: everything ever written; [st_roots]: the hashes [Flush] left, as a client would keep them. *)
Record st := mk_st { st_db : database; st_log : list (bytes * bytes); st_roots : list bytes; st_tries : list (option node) }.
Definition st_init : st := mk_st (fun _ => None) [] [] [].

Inductive op :=
| ONew                          (** a new, empty trie *)
| OOpen (i : nat)               (** a trie on the [i]-th hash kept *)
| OCopy (j : nat)               (** a snapshot of trie [j] *)
| OGet (j : nat) (k : bytes)
| OSet (j : nat) (k v : bytes)
| ODelete (j : nat) (k : bytes)
| OFlush (j : nat)              (** flush, and keep the hash *)
| OCompact (j : nat).
Inductive out := Quiet | Value (v : option bytes) (e : option err).

Definition with_trie (s : st) (j : nat) (n : option node) : st := mk_st (st_db s) (st_log s) (st_roots s) (set_nth (st_tries s) j n).
Definition trie_of (s : st) (j : nat) : option mpt :=
  match nth_error (st_tries s) j with Some r => Some (mk_mpt (st_db s) r) | None => None end.

Inductive step : st -> op -> out -> st -> Prop :=
| s_new s : step s ONew Quiet (mk_st (st_db s) (st_log s) (st_roots s) (st_tries s ++ [m_root (new_mpt (st_db s) [])]))
| s_open s i h : nth_error (st_roots s) i = Some h ->
    step s (OOpen i) Quiet (mk_st (st_db s) (st_log s) (st_roots s) (st_tries s ++ [m_root (new_mpt (st_db s) h)]))
| s_copy s j m : trie_of s j = Some m ->
    step s (OCopy j) Quiet (mk_st (st_db s) (st_log s) (st_roots s) (st_tries s ++ [m_root m]))
| s_get s j m k m' v e : trie_of s j = Some m -> mpt_get m k = (m', v, e) -> step s (OGet j k) (Value v e) (with_trie s j (m_root m'))
| s_set s j m k v m' old e : trie_of s j = Some m -> mpt_set m k v = (m', old, e) -> step s (OSet j k v) (Value old e) (with_trie s j (m_root m'))
| s_delete s j m k m' old e : trie_of s j = Some m -> mpt_delete m k = (m', old, e) -> step s (ODelete j k) (Value old e) (with_trie s j (m_root m'))
| s_flush s j m : trie_of s j = Some m ->
    step s (OFlush j) Quiet
      (mk_st (m_db (mpt_flush calcHash m))
             (st_log s ++ match m_root m with Some n => flush_entries calcHash true n | None => [] end)
             (st_roots s ++ [mpt_hash calcHash m])
             (set_nth (st_tries s) j (m_root (mpt_flush calcHash m))))
| s_compact s j n n' : nth_error (st_tries s) j = Some (Some n) -> compacts (st_db s) true n n' ->
    step s (OCompact j) Quiet (with_trie s j (Some n')).

Inductive steps : st -> list (op * out) -> st -> Prop :=
| ss_nil s : steps s [] s
| ss_snoc s l s1 o x s2 : steps s l s1 -> step s1 o x s2 -> steps s (l ++ [(o, x)]) s2.
End Run.
