(** The Merkle Patricia trie of byte strings that holds the world state: common/trie/ompt.
    Values are byte strings ([bytesObject]).  Left out: locks, the node cache (cache.NodeCache), statistics, merkle sync
    ([Resolve]) and the sharing of nodes between a trie and its snapshots; a node's cached serialization and hash are
    computed when asked for. *)
From Verif Require Import Model.Bytes Model.DbKey.
Open Scope Z_scope.

(** ** rlp.go *)

(** rlp.go:15-45 [rlpReadSize] for [1 <= slen <= 8]; the shifts and ors build the big-endian value. *)
Definition mpt_rlpReadSize (b : bytes) (slen : Z) : option Z :=
  if blen b <? slen then None
  else let s := be_val (firstn (Z.to_nat slen) b) in
       if (s <? 56) || (nth 0 b 0 =? 0) then None else Some s.

(** rlp.go:47-88 [rlpParseHeader]: is it a list, length of the tag, length of the content. *)
Definition rlpParseHeader (buf : bytes) : option (bool * Z * Z) :=
  match buf with
  | [] => None
  | b :: rest =>
      match
        (if b <? 128 then Some (false, 0, 1)
         else if b <? 184 then
           if (b - 128 =? 1) && (1 <? blen buf) && (nth 0 rest 0 <? 128) then None else Some (false, 1, b - 128)
         else if b <? 192 then
           match mpt_rlpReadSize rest (b - 183) with Some s => Some (false, b - 183 + 1, s) | None => None end
         else if b <? 248 then Some (true, 1, b - 192)
         else match mpt_rlpReadSize rest (b - 247) with Some s => Some (true, b - 247 + 1, s) | None => None end)
      with
      | None => None
      | Some (islist, tagsize, contentsize) =>
          if blen buf - tagsize <? contentsize then None else Some (islist, tagsize, contentsize)
      end
  end.

(** rlp.go:90-117 [rlpParseList]: the items with their tags.  Each round takes at least one byte. *)
Fixpoint parse_items (fuel : nat) (b : bytes) : option (list bytes) :=
  match b with
  | [] => Some []
  | _ =>
      match fuel with
      | O => None
      | S f =>
          match rlpParseHeader b with
          | None => None
          | Some (_, tsize, csize) =>
              if blen b <? tsize + csize then None
              else match parse_items f (skipn (Z.to_nat (tsize + csize)) b) with
                   | None => None
                   | Some l => Some (firstn (Z.to_nat (tsize + csize)) b :: l)
                   end
          end
      end
  end.
Definition rlpParseList (b : bytes) : option (list bytes) :=
  match rlpParseHeader b with
  | Some (true, tsize, csize) =>
      if blen b <? tsize + csize then None
      else let c := firstn (Z.to_nat csize) (skipn (Z.to_nat tsize) b) in parse_items (length c) c
  | _ => None
  end.

(** rlp.go:119-131 [rlpParseBytes]. *)
Definition rlpParseBytes (b : bytes) : option bytes :=
  match rlpParseHeader b with
  | Some (false, tsize, csize) =>
      if blen b <? tsize + csize then None else Some (firstn (Z.to_nat csize) (skipn (Z.to_nat tsize) b))
  | _ => None
  end.

(** rlp.go:141-160 [rlpEncodeBytes] is the code of common/containerdb: [go_rlpEncodeBytes].
    rlp.go:162-193 [rlpEncodeList]. *)
Definition rlpEncodeList (blist : list bytes) : bytes :=
  let c := concat blist in
  let n := blen c in
  if n <=? 55 then (192 + n) mod 256 :: c
  else let ts := go_rlpCountBytesForSize n in (192 + 55 + ts) mod 256 :: go_fill (Z.to_nat ts) n [] ++ c.

(** ** node.go *)

(** node.go:136-152 [encodeKeys] ([tag | 0x10 | k[0]] for a nibble and tags 0x00, 0x20). *)
Fixpoint pack (k : list Z) : bytes :=
  match k with
  | a :: b :: r => (a * 16 + b) mod 256 :: pack r
  | _ => []
  end.
Definition encodeKeys (tag : Z) (k : list Z) : bytes :=
  if Nat.odd (length k) then match k with a :: r => tag + 16 + a :: pack r | [] => [tag] end else tag :: pack k.
(** node.go:154-171 [decodeKeys]; an empty string would be an index panic. *)
Fixpoint unpack (b : bytes) : list Z :=
  match b with
  | x :: r => Z.shiftr x 4 :: Z.land x 15 :: unpack r
  | [] => []
  end.
Definition decodeKeys (b : bytes) : list Z :=
  match b with
  | [] => []
  | x :: r => if negb (Z.land x 16 =? 0) then Z.land x 15 :: unpack r else unpack r
  end.

(** node.go:173-184 [compareKeys]. *)
Fixpoint common_len (k1 k2 : list Z) : nat :=
  match k1, k2 with
  | a :: r1, b :: r2 => if a =? b then S (common_len r1 r2) else O
  | _, _ => O
  end.
Definition compareKeys (k1 k2 : list Z) : nat * bool :=
  let c := common_len k1 k2 in
  (c, Nat.eqb c (length k1) && Nat.eqb c (length k2)).

(** leaf.go:13-17, extension.go:13-17, branch.go:13-17, hash.go:13-15. *)
Inductive node :=
| NLeaf (keys : list Z) (value : bytes)
| NExt (keys : list Z) (next : node)
| NBranch (children : list (option node)) (value : option bytes)
| NHash (h : bytes).

(** mpt.go:88-96 [bytesToNibs]. *)
Definition bytesToNibs (k : bytes) : list Z := unpack k.

(** Errors: missing or malformed data in the database; a Go panic; the model's recursion bound (never met: see the theorems). *)
Inductive err := EDatabase | EPanic | EFuel.

Section Mpt.
(** node.go:186-203 [calcHash]: SHA3-256 or Keccak-256. *)
Context (calcHash : bytes -> bytes).

(** node.go:83-109 [getLink] without [forceHash], for a child with serialization [s]; hash.go:17-22. *)
Definition link_of (n : node) (s : bytes) : bytes :=
  match n with
  | NHash h => go_rlpEncodeBytes h
  | _ => if 32 <? blen s then go_rlpEncodeBytes (calcHash s) else s
  end.
(** leaf.go:88-96, extension.go:53-59, branch.go:69-83 [RLPListEncode], with rlp.go:229-257 [rlpEncode]. *)
Fixpoint serialize (n : node) : bytes :=
  match n with
  | NLeaf keys value => rlpEncodeList [go_rlpEncodeBytes (encodeKeys 32 keys); go_rlpEncodeBytes value]
  | NExt keys next => rlpEncodeList [go_rlpEncodeBytes (encodeKeys 0 keys); link_of next (serialize next)]
  | NBranch children value =>
      rlpEncodeList
        ((fix links (l : list (option node)) : list bytes :=
            match l with
            | [] => []
            | None :: r => go_rlpEncodeBytes [] :: links r
            | Some c :: r => link_of c (serialize c) :: links r
            end) children
         ++ [match value with Some v => go_rlpEncodeBytes v | None => go_rlpEncodeBytes [] end])
  | NHash _ => []
  end.
Definition getLink (n : node) : bytes := link_of n (serialize n).
(** [getLink(true)]: mpt.go:181-189 [Hash]. *)
Definition getHash (n : node) : bytes := match n with NHash h => h | _ => calcHash (serialize n) end.

(** node.go:205-250 [nodeFromLink], [nodeFromHash], [deserialize]; leaf.go:19-40, extension.go:19-37, branch.go:19-44.
    [Some None]: no node.  An extension without a node behind it is refused (in Go it would panic when used). *)
Fixpoint deserialize_f (fuel : nat) (serialized : bytes) : option node :=
  match fuel with
  | O => None
  | S f =>
      let from_link (b : bytes) : option (option node) :=
        if 192 <=? nth 0 b 0 then match deserialize_f f b with Some n => Some (Some n) | None => None end
        else match rlpParseBytes b with
             | None => None
             | Some [] => Some None
             | Some v => Some (Some (NHash v))
             end in
      match rlpParseList serialized with
      | None => None
      | Some [b0; b1] =>
          match rlpParseBytes b0 with
          | None | Some [] => None
          | Some (k0 :: kr) =>
              if Z.land k0 32 =? 0 then
                match from_link b1 with
                | Some (Some n) => Some (NExt (decodeKeys (k0 :: kr)) n)
                | _ => None
                end
              else match rlpParseBytes b1 with
                   | Some v => Some (NLeaf (decodeKeys (k0 :: kr)) v)
                   | None => None
                   end
          end
      | Some l =>
          if Nat.eqb (length l) 17 then
            match
              (fix children (l : list bytes) : option (list (option node)) :=
                 match l with
                 | [] => Some []
                 | b :: r => match from_link b, children r with Some c, Some cs => Some (c :: cs) | _, _ => None end
                 end) (firstn 16 l)
            with
            | None => None
            | Some cs =>
                match rlpParseBytes (nth 16 l []) with
                | None => None
                | Some v => Some (NBranch cs (match v with [] => None | _ => Some v end))
                end
            end
          else None
      end
  end.
Definition deserialize (serialized : bytes) : option node := deserialize_f (S (length serialized)) serialized.

(** The bucket of trie nodes: hash to serialized node. *)
Definition database := bytes -> option bytes.
Section Db.
Context (db : database).

(** mpt.go:144-169 [realize] on a hash; every other node stays as it is (leaf.go:197 and so on). *)
Definition realize (n : node) : option node :=
  match n with
  | NHash h => match db h with Some s => deserialize s | None => None end
  | _ => Some n
  end.

(** leaf.go:186-199, extension.go:190-204, branch.go:222-246, hash.go:49-55 [get]: the node (hashes on the way
    replaced by what they stand for), the value, the error. *)
Fixpoint set_nth {A} (l : list A) (i : nat) (x : A) : list A :=
  match l, i with
  | [], _ => []
  | _ :: r, O => x :: r
  | y :: r, S i' => y :: set_nth r i' x
  end.
Fixpoint node_get (fuel : nat) (n : node) (keys : list Z) : node * option bytes * option err :=
  match fuel with
  | O => (n, None, Some EFuel)
  | S f =>
      match realize n with
      | None => (n, None, Some EDatabase)
      | Some (NLeaf lk v) =>
          (NLeaf lk v, if snd (compareKeys keys lk) then Some v else None, None)
      | Some (NExt ek next) =>
          let cnt := fst (compareKeys keys ek) in
          if Nat.ltb cnt (length ek) then (NExt ek next, None, None)
          else let '(next', o, e) := node_get f next (skipn cnt keys) in (NExt ek next', o, e)
      | Some (NBranch cs v) =>
          match keys with
          | [] => (NBranch cs v, v, None)
          | k :: r =>
              match nth_error cs (Z.to_nat k) with
              | None => (NBranch cs v, None, Some EPanic)
              | Some None => (NBranch cs v, None, None)
              | Some (Some c) =>
                  let '(c', o, e) := node_get f c r in (NBranch (set_nth cs (Z.to_nat k) (Some c')) v, o, e)
              end
          end
      | Some (NHash h) => (n, None, Some EDatabase)   (* not produced by deserialize *)
      end
  end.

(** [br.children[k]] of a new branch. *)
Definition no_children : list (option node) := repeat None 16.
Definition at_child (k : Z) (c : node) : list (option node) := set_nth no_children (Z.to_nat k) (Some c).

(** leaf.go:107-152 [leaf.set]. *)
Definition leaf_set (lk : list Z) (lv : bytes) (keys : list Z) (o : bytes) : node * bool * option bytes :=
  let (cnt, match_) := compareKeys keys lk in
  if Nat.eqb cnt 0 && negb match_ then
    let cs := match keys with [] => no_children | k :: r => at_child k (NLeaf r o) end in
    let v := match keys with [] => Some o | _ => None end in
    match lk with
    | [] => (NBranch cs (Some lv), true, None)
    | k :: r => (NBranch (set_nth cs (Z.to_nat k) (Some (NLeaf r lv))) v, true, None)
    end
  else if Nat.ltb cnt (length lk) then
    let cs := if Nat.eqb cnt (length keys) then no_children
              else at_child (nth cnt keys 0) (NLeaf (skipn (cnt + 1) keys) o) in
    let v := if Nat.eqb cnt (length keys) then Some o else None in
    (NExt (firstn cnt keys)
       (NBranch (set_nth cs (Z.to_nat (nth cnt lk 0)) (Some (NLeaf (skipn (cnt + 1) lk) lv))) v), true, None)
  else if Nat.ltb cnt (length keys) then
    (NExt lk (NBranch (at_child (nth cnt keys 0) (NLeaf (skipn (cnt + 1) keys) o)) (Some lv)), true, None)
  else if bytes_eqb lv o then (NLeaf lk lv, false, Some lv)
  else (NLeaf lk o, true, Some lv).

(** extension.go:106-150 [extension.set] but for its default case. *)
Definition ext_split (ek : list Z) (next : node) (cnt : nat) (keys : list Z) (o : bytes) : node :=
  let rest := if Nat.eqb (cnt + 1) (length ek) then next else NExt (skipn (cnt + 1) ek) next in
  let cs := if Nat.eqb cnt (length keys) then no_children
            else at_child (nth cnt keys 0) (NLeaf (skipn (cnt + 1) keys) o) in
  let v := if Nat.eqb cnt (length keys) then Some o else None in
  let br := NBranch (set_nth cs (Z.to_nat (nth cnt ek 0)) (Some rest)) v in
  if Nat.eqb cnt 0 then br else NExt (firstn cnt ek) br.

(** mpt.go:111-120 [set] and the methods of the nodes: leaf.go:107-152, extension.go:106-150, branch.go:139-167,
    hash.go:57-63.  Result: node, changed, old value, error. *)
Fixpoint node_set (fuel : nat) (n : node) (keys : list Z) (o : bytes) : node * bool * option bytes * option err :=
  match fuel with
  | O => (n, false, None, Some EFuel)
  | S f =>
      match realize n with
      | None => (n, false, None, Some EDatabase)
      | Some (NLeaf lk lv) => let '(n', dirty, old) := leaf_set lk lv keys o in (n', dirty, old, None)
      | Some (NExt ek next) =>
          let cnt := fst (compareKeys keys ek) in
          if Nat.eqb (length ek) 0 then (n, false, None, Some EPanic)
          else if Nat.ltb cnt (length ek) then (ext_split ek next cnt keys o, true, None, None)
          else let '(next', dirty, old, e) := node_set f next (skipn cnt keys) o in (NExt ek next', dirty, old, e)
      | Some (NBranch cs v) =>
          match keys with
          | [] => match v with
                  | Some old => if bytes_eqb old o then (NBranch cs v, false, v, None) else (NBranch cs (Some o), true, v, None)
                  | None => (NBranch cs (Some o), true, None, None)
                  end
          | k :: r =>
              match nth_error cs (Z.to_nat k) with
              | None => (NBranch cs v, false, None, Some EPanic)
              | Some None => (NBranch (set_nth cs (Z.to_nat k) (Some (NLeaf r o))) v, true, None, None)
              | Some (Some c) =>
                  let '(c', dirty, old, e) := node_set f c r o in (NBranch (set_nth cs (Z.to_nat k) (Some c')) v, dirty, old, e)
              end
          end
      | Some (NHash h) => (n, false, None, Some EDatabase)
      end
  end.
Definition opt_set (fuel : nat) (n : option node) (keys : list Z) (o : bytes) : node * bool * option bytes * option err :=
  match n with
  | None => (NLeaf keys o, true, None, None)
  | Some n => node_set fuel n keys o
  end.

(** leaf.go:154-162, extension.go:152-160 [getKeyPrepended]. *)
Definition prepend (k : list Z) (n : node) : option node :=
  match n with
  | NLeaf lk v => Some (NLeaf (k ++ lk) v)
  | NExt ek next => Some (NExt (k ++ ek) next)
  | _ => None
  end.

(** branch.go:201-210: 16 for no child, the index of the only one, or [None]. *)
Fixpoint only_child (cs : list (option node)) (i : nat) : option (option nat) :=
  match cs with
  | [] => Some None
  | None :: r => only_child r (S i)
  | Some _ :: r => match only_child r (S i) with Some None => Some (Some i) | _ => None end
  end.

(** branch.go:200-220: the rest of [branch.delete] once the value or child is gone from [br]; [changed] is the branch left behind
    when the last child cannot be read (branch.go:217-219 returns [n], which is [br] itself if it was not yet frozen;
    modelled as such). *)
Definition branch_shrink (cs : list (option node)) (v : option bytes) (ov : option bytes)
  : option node * bool * option bytes * option err :=
  match only_child cs 0, v with
  | Some None, Some x => (Some (NLeaf [] x), true, ov, None)
  | Some None, None => (Some (NBranch cs v), false, None, Some EPanic)
  | Some (Some i), None =>
      match nth i cs None with
      | None => (Some (NBranch cs v), false, None, Some EPanic)
      | Some c =>
          match realize c with
          | None => (Some (NBranch cs v), false, None, Some EDatabase)
          | Some (NBranch cs' v') => (Some (NExt [Z.of_nat i] (NBranch cs' v')), true, ov, None)
          | Some a => match prepend [Z.of_nat i] a with
                      | Some n' => (Some n', true, ov, None)
                      | None => (Some (NBranch cs v), false, None, Some EDatabase)
                      end
          end
      end
  | _, _ => (Some (NBranch cs v), true, ov, None)
  end.

(** leaf.go:164-170, extension.go:162-188, branch.go:169-220, hash.go:65-71 [delete]: the node left (none if empty), whether
    it changed, the old value, the error.  extension.go:187 returns no error even if there was one. *)
Fixpoint node_delete (fuel : nat) (n : node) (keys : list Z) : option node * bool * option bytes * option err :=
  match fuel with
  | O => (Some n, false, None, Some EFuel)
  | S f =>
      match realize n with
      | None => (Some n, false, None, Some EDatabase)
      | Some (NLeaf lk v) =>
          if snd (compareKeys keys lk) then (None, true, Some v, None) else (Some (NLeaf lk v), false, None, None)
      | Some (NExt ek next) =>
          let cnt := fst (compareKeys keys ek) in
          if Nat.ltb cnt (length ek) then (Some (NExt ek next), false, None, None)
          else
            match node_delete f next (skipn cnt keys) with
            | (None, true, old, e) => (None, true, old, e)
            | (Some next', true, old, e) =>
                match prepend ek next' with
                | Some n' => (Some n', true, old, e)
                | None => (Some (NExt ek next'), true, old, e)
                end
            | (Some next', false, _, _) => (Some (NExt ek next'), false, None, None)
            | (None, false, _, _) => (Some (NExt ek next), false, None, None)
            end
      | Some (NBranch cs v) =>
          match keys with
          | [] => match v with
                  | None => (Some (NBranch cs v), false, None, None)
                  | Some ov => branch_shrink cs None (Some ov)
                  end
          | k :: r =>
              match nth_error cs (Z.to_nat k) with
              | None => (Some (NBranch cs v), false, None, Some EPanic)
              | Some None => (Some (NBranch cs v), false, None, None)
              | Some (Some c) =>
                  match node_delete f c r with
                  | (c', false, _, e) => (Some (NBranch (set_nth cs (Z.to_nat k) (match c' with Some x => Some x | None => Some c end)) v), false, None, e)
                  | (c', true, old, _) => branch_shrink (set_nth cs (Z.to_nat k) c') v old
                  end
              end
          end
      | Some (NHash h) => (Some n, false, None, Some EDatabase)
      end
  end.
End Db.

(** leaf.go:68-86, extension.go:78-93, branch.go:103-127, node.go:111-124 [flush]: the nodes written, with their hashes.  A node is
    written if it has a hash value: its serialization is longer than 32 bytes, or it is the root. *)
Definition own_entry (root : bool) (s : bytes) : list (bytes * bytes) :=
  if root || (32 <? blen s) then [(calcHash s, s)] else [].
Fixpoint flush_entries (root : bool) (n : node) : list (bytes * bytes) :=
  match n with
  | NLeaf _ _ => own_entry root (serialize n)
  | NExt _ next => flush_entries false next ++ own_entry root (serialize n)
  | NBranch cs _ =>
      (fix all (l : list (option node)) : list (bytes * bytes) :=
         match l with
         | [] => []
         | None :: r => all r
         | Some c :: r => flush_entries false c ++ all r
         end) cs ++ own_entry root (serialize n)
  | NHash _ => []
  end.
Definition put (db : database) (h s : bytes) : database := fun x => if bytes_eqb x h then Some s else db x.
Fixpoint put_all (db : database) (l : list (bytes * bytes)) : database :=
  match l with [] => db | (h, s) :: r => put_all (put db h s) r end.

(** ** mpt.go, mptforbytes.go: the trie *)
Record mpt := mk_mpt { m_db : database; m_root : option node }.

(** Levels below a node visited for a key: bounded by its length in well-formed tries. *)
Definition depth_bound (keys : list Z) : nat := S (S (length keys)).

(** mpt.go:171-179, mptforbytes.go:17-23 [Get]. *)
Definition mpt_get (m : mpt) (k : bytes) : mpt * option bytes * option err :=
  match m_root m with
  | None => (m, None, None)
  | Some n =>
      let keys := bytesToNibs k in
      let '(n', o, e) := node_get (m_db m) (depth_bound keys) n keys in
      (mk_mpt (m_db m) (Some n'), o, e)
  end.
(** mpt.go:245-263, mptforbytes.go:25-33 [Set]. *)
Definition mpt_set (m : mpt) (k v : bytes) : mpt * option bytes * option err :=
  let keys := bytesToNibs k in
  let '(n', _, old, e) := opt_set (m_db m) (depth_bound keys) (m_root m) keys v in
  (mk_mpt (m_db m) (Some n'), old, e).
(** mpt.go:265-289, mptforbytes.go:35-42 [Delete]: the root is replaced only if it changed. *)
Definition mpt_delete (m : mpt) (k : bytes) : mpt * option bytes * option err :=
  match m_root m with
  | None => (m, None, None)
  | Some n =>
      let keys := bytesToNibs k in
      let '(n', dirty, old, e) := node_delete (m_db m) (depth_bound keys) n keys in
      (if dirty then mk_mpt (m_db m) n' else m, old, e)
  end.
(** mpt.go:181-189 [Hash]: empty for an empty trie. *)
Definition mpt_hash (m : mpt) : bytes := match m_root m with None => [] | Some n => getHash n end.
(** mpt.go:191-218 [Flush]. *)
Definition mpt_flush (m : mpt) : mpt :=
  match m_root m with
  | None => m
  | Some n => mk_mpt (put_all (m_db m) (flush_entries true n)) (Some n)
  end.
(** mpt.go:609-620 [NewMPT]; node.go:222-228 [nodeFromHash]. *)
Definition new_mpt (db : database) (h : bytes) : mpt := mk_mpt db (match h with [] => None | _ => Some (NHash h) end).
End Mpt.
