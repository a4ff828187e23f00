(** Proofs of the contents of a trie: common/trie/ompt [GetProof] and [Prove]. *)
From Verif Require Import Model.Bytes Model.DbKey Model.Mpt.
Open Scope Z_scope.

Section Proofs.
Context (calcHash : bytes -> bytes).

(** [n.hashValue != nil] once the trie is hashed (node.go:83-109): the root, or more than 32 bytes. *)
Definition has_hash (root : bool) (s : bytes) : bool := root || (32 <? blen s).

(** leaf.go:216-230, extension.go:234-254, branch.go:299-322, hash.go:84-90 [getProof]; no proof is [nil]. Errors also give no
    proof (mpt.go:476-481).  The node that comes back with the loaded parts is left out: [Get] does that too. *)
Fixpoint node_proof (db : database) (fuel : nat) (root : bool) (n : node) (keys : list Z) : option (list bytes) :=
  match fuel with
  | O => None
  | S f =>
      match realize db n with
      | None => None
      | Some n1 =>
          let own := if has_hash root (serialize calcHash n1) then [serialize calcHash n1] else [] in
          match n1 with
          | NLeaf lk _ => if snd (compareKeys lk keys) then Some own else None
          | NExt ek next =>
              let cnt := fst (compareKeys ek keys) in
              if Nat.ltb cnt (length ek) then None
              else match node_proof db f false next (skipn cnt keys) with Some p => Some (own ++ p) | None => None end
          | NBranch cs v =>
              match keys with
              | [] => Some own
              | k :: r =>
                  match nth_error cs (Z.to_nat k) with
                  | Some (Some c) => match node_proof db f false c r with Some p => Some (own ++ p) | None => None end
                  | _ => None
                  end
              end
          | NHash _ => None
          end
      end
  end.
(** mpt.go:457-483 [GetProof]. *)
Definition mpt_proof (m : mpt) (k : bytes) : option (list bytes) :=
  match m_root m with
  | None => None
  | Some n => let keys := bytesToNibs k in node_proof (m_db m) (depth_bound keys) true n keys
  end.

(** [ErrIllegalArgument] (or data that is no node), [ErrNotFound], and the model's recursion bound. *)
Inductive perr := PIllegal | PNotFound | PFuel.

(** leaf.go:232-255, extension.go:256-280, branch.go:324-367, hash.go:92-106 [prove]: the node with what the proof told filled in,
    the value and the error.  hash.go:105 goes on with the node just read: [proven], with the serialization that the node has, if it has a
    hash value.  A node met again later is serialized anew instead of keeping the bytes it was read from. *)
Fixpoint node_prove (fuel : nat) (root : bool) (n : node) (keys : list Z) (proof : list bytes) : node * option bytes * option perr :=
  match fuel with
  | O => (n, None, Some PFuel)
  | S f =>
      let proven (own : option bytes) (n : node) :=
        match n with
        | NLeaf lk v =>
            if match own, proof with None, _ => false | Some s, [b] => negb (bytes_eqb b s) | Some _, _ => true end then (n, None, Some PIllegal)
            else if snd (compareKeys lk keys) then (n, Some v, None) else (n, None, Some PNotFound)
        | NExt ek next =>
            if match own, proof with None, _ => false | Some s, b :: _ => negb (bytes_eqb b s) | Some _, [] => true end then (n, None, Some PIllegal)
            else
              let rest := match own with Some _ => tl proof | None => proof end in
              let cnt := fst (compareKeys ek keys) in
              if Nat.ltb cnt (length ek) then (n, None, Some PNotFound)
              else let '(next', o, e) := node_prove f false next (skipn cnt keys) rest in (NExt ek next', o, e)
        | NBranch cs v =>
            if match own, proof with None, _ => false | Some s, b :: _ => negb (bytes_eqb b s) | Some _, [] => true end then (n, None, Some PIllegal)
            else
              let rest := match own with Some _ => tl proof | None => proof end in
              match keys with
              | [] => (n, v, None)
              | k :: r =>
                  match nth_error cs (Z.to_nat k) with
                  | Some (Some c) => let '(c', o, e) := node_prove f false c r rest in (NBranch (set_nth cs (Z.to_nat k) (Some c')) v, o, e)
                  | _ => (n, None, Some PNotFound)
                  end
              end
        | NHash _ => (n, None, Some PIllegal)   (* not met: [deserialize] gives no bare hash *)
        end in
      match n with
      | NHash h =>
          match proof with
          | [] => (n, None, Some PIllegal)
          | b :: _ =>
              if bytes_eqb h (calcHash b) then
                match deserialize b with
                | None => (n, None, Some PIllegal)
                | Some n1 => proven (Some b) n1
                end
              else (n, None, Some PIllegal)
          end
      | _ => proven (if has_hash root (serialize calcHash n) then Some (serialize calcHash n) else None) n
      end
  end.
(** mpt.go:485-499 [Prove]; mptforbytes.go:60-66: a value that is no object panics there ([obj.Bytes()] of nil): [Panics]. *)
Inductive proved := Proved (v : bytes) | Refused (e : perr) | Panics.
Definition mpt_prove (root : option node) (k : bytes) (proof : list bytes) : option node * proved :=
  match root with
  | None => (None, Refused PIllegal)
  | Some n =>
      let keys := bytesToNibs k in
      let '(n', o, e) := node_prove (depth_bound keys) true n keys proof in
      (Some n', match e, o with Some e, _ => Refused e | None, Some v => Proved v | None, None => Panics end)
  end.
End Proofs.
