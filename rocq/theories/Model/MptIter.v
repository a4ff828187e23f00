(** Iterators over a trie: common/trie/ompt/mpt.go:334-455 and the [traverse] methods of the nodes. *)
From Verif Require Import Model.Bytes Model.DbKey Model.Mpt.
Open Scope Z_scope.

(** node.go:129-135 [keysToBytes]: pairs of nibbles ([a<<4|b]); a last single one is dropped. *)
Definition keysToBytes (k : list Z) : bytes := pack k.

(** Go [strings.HasPrefix(s, p)]. *)
Fixpoint hasPrefix (s p : list Z) {struct p} : bool :=
  match p, s with
  | [], _ => true
  | x :: p', y :: s' => (x =? y) && hasPrefix s' p'
  | _ :: _, [] => false
  end.

(** mpt.go:334-346.  The top of the stack comes first. *)
Definition item : Type := list Z * node.
Record iter := mk_iter { i_stack : list item; i_key : bytes; i_value : option bytes; i_error : option err; i_prefix : list Z }.

Section Iter.
Context (db : database).

(** mpt.go:352-358 [appendItem]; 360-366 [checkPrefix]; 368-374 [filterItem].  That the node read takes the place of its hash in
    the trie is left out (as for proofs). *)
Definition scheduler := list Z -> node -> list item -> option (list item).
Definition appendItem : scheduler := fun k n st =>
  match realize db n with Some n' => Some ((k, n') :: st) | None => None end.
Definition checkPrefix (prefix v : list Z) (short : bool) : bool :=
  if short && Nat.ltb (length v) (length prefix) then hasPrefix prefix v else hasPrefix v prefix.
Definition filterItem (prefix : list Z) : scheduler := fun k n st =>
  if checkPrefix prefix k true then appendItem k n st else Some st.

(** branch.go:268-283: children from the last to the first. *)
Fixpoint push_children (v : scheduler) (k : list Z) (cs : list (option node)) (i : Z) (st : list item) : option (list item) :=
  match cs with
  | [] => Some st
  | c :: r =>
      match push_children v k r (i + 1) st with
      | None => None
      | Some st' => match c with None => Some st' | Some n => v (k ++ [i]) n st' end
      end
  end.

(** leaf.go:201-214, extension.go:219-232, branch.go:268-297, hash.go:76-82 [traverse]: [None] is an error of the database; else the
    stack, the key and the value. *)
Definition traverse_node (v : scheduler) (st : list item) (k : list Z) (n : node) : option (list item * list Z * option bytes) :=
  match realize db n with
  | None => None
  | Some (NLeaf lk lv) => Some (st, k ++ lk, Some lv)
  | Some (NExt ek next) => match v (k ++ ek) next st with Some st' => Some (st', [], None) | None => None end
  | Some (NBranch cs bv) =>
      match push_children v k cs 0 st with
      | None => None
      | Some st' => match bv with Some x => Some (st', k, Some x) | None => Some (st', [], None) end
      end
  | Some (NHash _) => None   (* not produced by deserialize *)
  end.

(** mpt.go:376-390 [iterator.traverse]. *)
Definition traverse (prefix : list Z) (st : list item) (k : list Z) (n : node) : option (list item * list Z * option bytes) :=
  if Nat.ltb 0 (length prefix) then
    if checkPrefix prefix k false then traverse_node appendItem st k n
    else match traverse_node (filterItem prefix) st k n with
         | None => None
         | Some (st', key, value) => if checkPrefix prefix key false then Some (st', key, value) else Some (st', [], None)
         end
  else traverse_node appendItem st k n.

(** mpt.go:392-419 [Next] from line 399 on; [None]: the model's bound on the rounds of the loop. *)
Fixpoint next_loop (fuel : nat) (prefix : list Z) (st : list item) : option iter :=
  match fuel with
  | O => None
  | S f =>
      match st with
      | [] => Some (mk_iter [] [] None None prefix)
      | (k, n) :: st =>
          match traverse prefix st k n with
          | None => Some (mk_iter st [] None (Some EDatabase) prefix)
          | Some (st', key, Some v) => Some (mk_iter st' (keysToBytes key) (Some v) None prefix)
          | Some (st', _, None) => next_loop f prefix st'
          end
      end
  end.
(** mpt.go:392-419 [Next]; the errors it returns are left out (lines 394, 397: nothing changes then). *)
Definition iter_next (fuel : nat) (i : iter) : option iter :=
  match i_error i, i_value i, i_stack i with
  | Some _, _, _ => Some i
  | None, None, [] => Some i
  | None, _, st => next_loop fuel (i_prefix i) st
  end.
(** mpt.go:421-423 [Has]; 348-350 with mptforbytes.go:72-78 [Get]: value, key, error. *)
Definition iter_has (i : iter) : bool :=
  match i_value i, i_error i with None, None => false | _, _ => true end.
Definition iter_get (i : iter) : option bytes * bytes * option err :=
  (i_value i, match i_value i with Some _ => i_key i | None => [] end, i_error i).
End Iter.

(** mpt.go:429-455 [Filter] ([Iterator]: no prefix). *)
Definition mpt_filter (fuel : nat) (m : mpt) (prefix : bytes) : option iter :=
  match m_root m with
  | None => Some (mk_iter [] [] None None [])
  | Some n =>
      let root := match realize (m_db m) n with Some n' => n' | None => n end in
      iter_next (m_db m) fuel (mk_iter [([], root)] [] None None (bytesToNibs prefix))
  end.

(** A client: [for i := m.Filter(prefix); i.Has(); i.Next() { v, k, err := i.Get(); if err != nil { stop }; ... }].
    The pairs it sees and whether an error ended it; [None]: the bound. *)
Fixpoint drain (db : database) (fuel : nat) (i : iter) : option (list (bytes * bytes) * option err) :=
  match fuel with
  | O => None
  | S f =>
      if iter_has i then
        match iter_get i with
        | (_, _, Some e) => Some ([], Some e)
        | (None, _, None) => Some ([], None)
        | (Some v, k, None) =>
            match iter_next db fuel i with
            | None => None
            | Some i' => match drain db f i' with Some (l, e) => Some ((k, v) :: l, e) | None => None end
            end
        end
      else Some ([], None)
  end.
Definition listing (fuel : nat) (m : mpt) (prefix : bytes) : option (list (bytes * bytes) * option err) :=
  match mpt_filter fuel m prefix with Some i => drain (m_db m) fuel i | None => None end.
