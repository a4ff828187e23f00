(** The Merkle trees of BTP: of the messages of a network in a block, and of the
    network sections of a network type.

    Models [btp/ntm/module.go].  [H]: [AppendHash], the hash function of the
    network type, which gives 32 bytes; it reads all of its input before it
    writes ([h.Write], then [h.Sum]).  A slice of Go is the array below it and a
    length: the passes write into the array that they read.  Items of a list
    of two or more are 32 bytes ([hashLen]). *)
From Verif Require Import Model.Bytes.
Open Scope nat_scope.

Section WithHash.
Variable H : bytes -> bytes.

(** [data[i:j]] *)
Definition slice (i j : nat) (b : bytes) : bytes := firstn (j - i) (skipn i b).
(** [copy(data[j:], x)], and what [append(data[:j], x...)] leaves in the array. *)
Definition put_at (j : nat) (x b : bytes) : bytes := firstn j b ++ x ++ skipn (j + length x) b.

(** module.go:91-98: one pass of [merkleRoot]; gives the new length and the
    array.  [fuel]: at least the length. *)
Fixpoint pass (fuel i j n : nat) (b : bytes) : nat * bytes :=
  match fuel with
  | O => (j, b)
  | S f =>
      if i <? n then
        pass f (i + 64) (j + 32) n
          (if i + 64 <=? n then put_at j (H (slice i (i + 64) b)) b
           else put_at j (slice i (i + 32) b) b)
      else (j, b)
  end.

(** module.go:89-102, [merkleRoot]. *)
Fixpoint root_loop (fuel n : nat) (b : bytes) : bytes :=
  match fuel with
  | O => firstn 32 b
  | S f => if 32 <? n then let (n', b') := pass n 0 0 n b in root_loop f n' b' else firstn 32 b
  end.

(** module.go:104-116, [MerkleRoot]; nil is [None]. *)
Definition merkle_root (items : list bytes) : option bytes :=
  match items with
  | [] => None
  | [x] => Some x
  | _ => let b := concat items in Some (root_loop (length b) (length b) b)
  end.

(** module/btp.go:188-198. *)
Inductive dir := DirLeft | DirRight.
Definition path := list (dir * option bytes).

(** module.go:121-151: one pass of [merkleProof]. *)
Fixpoint proof_pass (fuel i j n : nat) (b : bytes) (idx : nat) (p : path) : nat * bytes * nat * path :=
  match fuel with
  | O => (j, b, idx, p)
  | S f =>
      if i <? n then
        if i + 64 <=? n then
          let '(idx', p') :=
            if idx =? i then (j, p ++ [(DirRight, Some (slice (i + 32) (i + 64) b))])
            else if idx =? i + 32 then (j, p ++ [(DirLeft, Some (slice i (i + 32) b))])
            else (idx, p) in
          proof_pass f (i + 64) (j + 32) n (put_at j (H (slice i (i + 64) b)) b) idx' p'
        else
          let '(idx', p') := if idx =? i then (j, p ++ [(DirRight, None)]) else (idx, p) in
          proof_pass f (i + 64) (j + 32) n (put_at j (slice i (i + 32) b) b) idx' p'
      else (j, b, idx, p)
  end.

(** module.go:118-155, [merkleProof]. *)
Fixpoint proof_loop (fuel n : nat) (b : bytes) (idx : nat) (p : path) : path :=
  match fuel with
  | O => p
  | S f => if 32 <? n then let '(n', b', idx', p') := proof_pass n 0 0 n b idx p in proof_loop f n' b' idx' p'
           else p
  end.

(** module.go:157-169, [MerkleProof]. *)
Definition merkle_proof (items : list bytes) (idx : nat) : path :=
  match items with
  | [] => []
  | [_] => []
  | _ => let b := concat items in proof_loop (length b) (length b) b (idx * 32) []
  end.

(** module.go:213-221, [catBytesList]; btp/digest.go:237-254, [hashesCat]. *)
Definition cat_items (b : bytes) : list bytes :=
  map (fun i => slice (i * 32) (i * 32 + 32) b) (seq 0 (length b / 32)).

(** module.go:231-233: the hasher of the bucket of lists by their roots, with
    which a value that was asked for by its key is checked. *)
Definition root_hasher (value : bytes) : option bytes := merkle_root (cat_items value).

End WithHash.
