(** Blocks cut into parts: consensus/partset.go. *)
From Verif Require Import Model.Bytes Model.IntCodec Model.DbKey Model.Rlp Model.Mpt Model.MptProof Model.BitArray.
Open Scope Z_scope.

(** ** Checking proofs, for roots that anyone may have made

    Like [node_prove] of Model/MptProof.v, but without what that leaves out: a node keeps the bytes it was read from ([own], the
    fields [serialized] and [hashValue] of node.go:68-73; [None]: no hash value), nodes inside others have no hash value however long they are, and reading a
    node can panic. *)
Inductive pnode :=
| PHash (h : bytes)
| PLeaf (own : option bytes) (k : list Z) (v : bytes)
| PExt (own : option bytes) (k : list Z) (next : option pnode)
| PBranch (own : option bytes) (cs : list (option pnode)) (v : option bytes).

Inductive dres (A : Type) := DOk (a : A) | DErr | DCrash.
Arguments DOk {A} a. Arguments DErr {A}. Arguments DCrash {A}.

(** node.go:205-250 [nodeFromLink], [nodeFromHash], [deserialize]; leaf.go:19-40, extension.go:19-37, branch.go:19-44.
    A list of two with an empty first item panics ([keyheader[0]]).  The fuel does not run out: what is inside is shorter. *)
Fixpoint pdeser_f (fuel : nat) (own : option bytes) (b : bytes) : dres pnode :=
  match fuel with
  | O => DErr
  | S f =>
      let from_link (b : bytes) : dres (option pnode) :=
        if 192 <=? nth 0 b 0 then match pdeser_f f None b with DOk n => DOk (Some n) | DErr => DErr | DCrash => DCrash end
        else match rlpParseBytes b with
             | None => DErr
             | Some [] => DOk None
             | Some v => DOk (Some (PHash v))
             end in
      match rlpParseList b with
      | None => DErr
      | Some [b0; b1] =>
          match rlpParseBytes b0 with
          | None => DErr
          | Some [] => DCrash
          | Some (k0 :: kr) =>
              if Z.land k0 32 =? 0 then
                match from_link b1 with DOk o => DOk (PExt own (decodeKeys (k0 :: kr)) o) | DErr => DErr | DCrash => DCrash end
              else match rlpParseBytes b1 with
                   | Some v => DOk (PLeaf own (decodeKeys (k0 :: kr)) v)
                   | None => DErr
                   end
          end
      | Some l =>
          if Nat.eqb (length l) 17 then
            match
              (fix children (l : list bytes) : dres (list (option pnode)) :=
                 match l with
                 | [] => DOk []
                 | b :: r =>
                     match from_link b with
                     | DOk c => match children r with DOk cs => DOk (c :: cs) | DErr => DErr | DCrash => DCrash end
                     | DErr => DErr
                     | DCrash => DCrash
                     end
                 end) (firstn 16 l)
            with
            | DErr => DErr
            | DCrash => DCrash
            | DOk cs =>
                match rlpParseBytes (nth 16 l []) with
                | None => DErr
                | Some v => DOk (PBranch own cs (match v with [] => None | _ => Some v end))
                end
            end
          else DErr
      end
  end.
Definition pdeser (b : bytes) : dres pnode := pdeser_f (S (length b)) (Some b) b.

Inductive pout := PGot (v : bytes) | PRefused | PCrash | PFuelOut.

Definition item_ok (own : option bytes) (proof : list bytes) : bool :=
  match own, proof with
  | None, _ => true
  | Some s, b :: _ => bytes_eqb b s
  | Some _, [] => false
  end.

Section Digest.
Context (calcHash : bytes -> bytes).

(** leaf.go:232-255, extension.go:256-280, branch.go:324-367, hash.go:92-106 [prove].  A branch without a value gives [nil], on which
    mptforbytes.go:60-66 panics; so does an extension with no node behind it. *)
Fixpoint pprove (fuel : nat) (n : pnode) (keys : list Z) (proof : list bytes) : pnode * pout :=
  match fuel with
  | O => (n, PFuelOut)
  | S f =>
      let proven (n : pnode) :=
        match n with
        | PLeaf own lk v =>
            if match own, proof with None, _ => false | Some s, [b] => negb (bytes_eqb b s) | Some _, _ => true end then (n, PRefused)
            else if snd (compareKeys lk keys) then (n, PGot v) else (n, PRefused)
        | PExt own ek next =>
            if negb (item_ok own proof) then (n, PRefused)
            else
              let rest := match own with Some _ => tl proof | None => proof end in
              let cnt := fst (compareKeys ek keys) in
              if Nat.ltb cnt (length ek) then (n, PRefused)
              else match next with
                   | None => (n, PCrash)
                   | Some nx => let (nx', o) := pprove f nx (skipn cnt keys) rest in (PExt own ek (Some nx'), o)
                   end
        | PBranch own cs v =>
            if negb (item_ok own proof) then (n, PRefused)
            else
              let rest := match own with Some _ => tl proof | None => proof end in
              match keys with
              | [] => (n, match v with Some v => PGot v | None => PCrash end)
              | k :: r =>
                  match nth_error cs (Z.to_nat k) with
                  | Some (Some c) => let (c', o) := pprove f c r rest in (PBranch own (set_nth cs (Z.to_nat k) (Some c')) v, o)
                  | _ => (n, PRefused)
                  end
              end
        | PHash _ => (n, PRefused)   (* not met: [deserialize] gives no bare hash *)
        end in
      match n with
      | PHash h =>
          match proof with
          | [] => (n, PRefused)
          | b :: _ =>
              if bytes_eqb h (calcHash b) then
                match pdeser b with
                | DErr => (n, PRefused)
                | DCrash => (n, PCrash)
                | DOk n1 => proven n1
                end
              else (n, PRefused)
          end
      | _ => proven n
      end
  end.

(** Enough steps for what is known of the trie and what the proof adds: one for each node on a path. *)
Fixpoint pdepth (n : pnode) : nat :=
  match n with
  | PHash _ => 1
  | PLeaf _ _ _ => 1
  | PExt _ _ None => 1
  | PExt _ _ (Some n) => S (pdepth n)
  | PBranch _ cs _ =>
      S ((fix deepest (l : list (option pnode)) : nat :=
            match l with [] => O | Some c :: r => Nat.max (pdepth c) (deepest r) | None :: r => deepest r end) cs)
  end.
Definition psteps (n : pnode) (proof : list bytes) : nat := pdepth n + fold_right (fun b a => (S (length b) + a)%nat) O proof.
(** mpt.go:485-499 [Prove]. *)
Definition p_prove (root : option pnode) (k : bytes) (proof : list bytes) : option pnode * pout :=
  match root with
  | None => (None, PRefused)
  | Some n => let (n', o) := pprove (psteps n proof) n (bytesToNibs k) proof in (Some n', o)
  end.
(** mpt.go:181-189 [Hash] of a trie that was read. *)
Definition p_hash (root : option pnode) : bytes :=
  match root with
  | None => []
  | Some (PHash h) => h
  | Some (PLeaf o _ _) | Some (PExt o _ _) | Some (PBranch o _ _) => match o with Some b => calcHash b | None => [] end
  end.

(** ** The parts *)

(** partset.go:266-275 [partBinary], [part]: what goes over the network.  A proof may be [nil]. *)
Record part := mk_part { p_index : Z; p_proof : option (list bytes) }.

(** partset.go:184, 236, 241: [codec.MarshalToBytes(uint16(i))]. *)
Definition part_key (i : Z) : bytes := enc (TUint 16) (VNum (i mod 65536)).

(** partset.go:281-292 [Bytes]. *)
Definition part_type : ty := TStruct [TUint 16; TSlice TBytes].
Definition part_bytes (p : part) : bytes :=
  enc part_type (VList (Some [VNum (p_index p mod 65536);
                              VList (match p_proof p with Some l => Some (map (fun b => VBytes (Some b)) l) | None => None end)])).
(** partset.go:294-303 [NewPart].  An item that is [nil] is like an empty one to all that use it. *)
Definition item_of (v : val) : bytes := match v with VBytes (Some b) => b | _ => [] end.
Definition new_part (bs : bytes) : option part :=
  match unmarshal part_type bs with
  | Some (VList (Some [VNum i; VList l]), _) => Some (mk_part i (match l with Some l => Some (map item_of l) | None => None end))
  | _ => None
  end.

(** ** Making a set: partset.go:196-256 [partSetBuffer] *)

(** 203-225 [Write]: [cur] is the part at work, as far as it is written (the bytes up to [offset]).  A size below 2 is not meant:
    [PutUint16] (212) would panic; the two bytes it puts are written over or cut off. *)
Definition buffer := (list bytes * option bytes)%type.
Fixpoint write_f (fuel size : nat) (b : buffer) (p : bytes) : buffer :=
  match fuel with
  | O => b
  | S f =>
      match p with
      | [] => b
      | _ =>
          let (parts, cur) := b in
          let c := match cur with Some c => c | None => [] end in
          let n := Nat.min (size - length c) (length p) in
          let c' := c ++ firstn n p in
          write_f f size (if Nat.eqb (length c') size then (parts ++ [c'], None) else (parts, Some c')) (skipn n p)
      end
  end.
Definition write (size : nat) (b : buffer) (p : bytes) : buffer := write_f (S (length p)) size b p.

(** partset.go:97-102 [partSet] of the one who made it. *)
Record made := mk_made { m_parts : list bytes; m_proofs : list (option (list bytes)); m_tree : option mpt; m_mask : bitarray }.
Fixpoint set_all (m : mpt) (i : Z) (parts : list bytes) : mpt :=
  match parts with
  | [] => m
  | p :: r => set_all (fst (fst (mpt_set m (part_key i) p))) (i + 1) r
  end.
Fixpoint proofs (m : mpt) (i : Z) (parts : list bytes) : option (list (option (list bytes))) :=
  match parts with
  | [] => Some []
  | _ :: r =>
      match mpt_proof calcHash m (part_key i) with
      | None => None
      | Some p => match proofs m (i + 1) r with Some l => Some (Some p :: l) | None => None end
      end
  end.
(** partset.go:227-252 [PartSet], called once: [None] is [nil].  The trie is made only if there is a part at work. *)
Definition full_mask (n : nat) : bitarray := match new_ba (Z.of_nat n) with Some b => ba_flip b | None => mk_ba 0 [] end.
Definition part_set (b : buffer) : option made :=
  match b with
  | (parts, None) => Some (mk_made parts (map (fun _ => None) parts) None (full_mask (length parts)))
  | (parts, Some c) =>
      let all := parts ++ [c] in
      let m := set_all (new_mpt (fun _ => None) []) 0 all in
      match proofs m 0 all with
      | None => None
      | Some l => Some (mk_made all l (Some m) (full_mask (length all)))
      end
  end.
(** partset.go:104-116 [ID], [Hash]. *)
Definition made_id (m : made) : Z * bytes :=
  (Z.of_nat (length (m_parts m)) mod 65536, match m_tree m with Some t => mpt_hash calcHash t | None => [] end).
(** partset.go:122-132 [GetPart]. *)
Definition made_part (m : made) (i : nat) : option part :=
  match nth_error (m_proofs m) i with Some p => Some (mk_part (Z.of_nat i) p) | None => None end.

(** ** Receiving a set *)

(** partset.go:258-264 [NewPartSetFromID]. *)
Record received := mk_rec { r_parts : list (option bytes); r_proofs : list (option (option (list bytes))); r_added : Z; r_tree : option pnode; r_mask : bitarray }.
Definition from_id (id : Z * bytes) : received :=
  mk_rec (repeat None (Z.to_nat (fst id))) (repeat None (Z.to_nat (fst id))) 0 (match snd id with [] => None | h => Some (PHash h) end)
    (match new_ba (fst id) with Some b => b | None => mk_ba 0 [] end).
Inductive answer := Added | Rejected | Crashed | Unknown.
(** partset.go:172-194 [AddPart]. *)
Definition add_part (r : received) (p : part) : received * answer :=
  let i := p_index p in
  if (i <? 0) || (Z.of_nat (length (r_parts r)) <=? i) then (r, Rejected)
  else
    match nth_error (r_parts r) (Z.to_nat i) with
    | Some None =>
        let (tree, o) := p_prove (r_tree r) (part_key i) (match p_proof p with Some l => l | None => [] end) in
        let r1 := mk_rec (r_parts r) (r_proofs r) (r_added r) tree (r_mask r) in
        match o with
        | PRefused => (r1, Rejected)
        | PCrash => (r1, Crashed)
        | PFuelOut => (r1, Unknown)
        | PGot d =>
            match ba_set (r_mask r) i with
            | Some mask => (mk_rec (set_nth (r_parts r) (Z.to_nat i) (Some d)) (set_nth (r_proofs r) (Z.to_nat i) (Some (p_proof p))) (r_added r + 1) tree mask, Added)
            | None => (r1, Crashed)
            end
        end
    | _ => (r, Rejected)
    end.
(** 104-116 [ID], 134-136 [IsComplete], 122-132 [GetPart]. *)
Definition rec_id (r : received) : Z * bytes := (Z.of_nat (length (r_parts r)) mod 65536, p_hash (r_tree r)).
Definition rec_complete (r : received) : bool := r_added r =? Z.of_nat (length (r_parts r)).
Definition rec_part (r : received) (i : nat) : option part :=
  match nth_error (r_proofs r) i with Some (Some p) => Some (mk_part (Z.of_nat i) p) | _ => None end.
End Digest.

(** ** Reading: partset.go:145-170 [blockPartsReader]

    [None] is a panic: a part that is not there.  [room] is what is left of the caller's buffer. *)
Fixpoint read_f (fuel : nat) (parts : list (option bytes)) (idx off room : nat) (acc : bytes) : option (bytes * nat * nat) :=
  match fuel with
  | O => Some (acc, idx, off)
  | S f =>
      if Nat.ltb 0 room && Nat.ltb idx (length parts) then
        match nth_error parts idx with
        | Some (Some d) =>
            let got := firstn room (skipn off d) in
            let off' := (off + length got)%nat in
            if Nat.leb (length d) off' then read_f f parts (S idx) 0 (room - length got) (acc ++ got)
            else read_f f parts idx off' (room - length got) (acc ++ got)
        | _ => None
        end
      else Some (acc, idx, off)
  end.
(** What [Read] gives for a buffer of [n] bytes: nothing is [io.EOF]. *)
Definition read (parts : list (option bytes)) (at_ : nat * nat) (n : nat) : option (bytes * (nat * nat)) :=
  match read_f (S (S (length parts))) parts (fst at_) (snd at_) n [] with
  | Some (b, i, o) => Some (b, (i, o))
  | None => None
  end.

(** ** partset.go:38-80: numbers packed with the count *)
Definition wu64 (z : Z) : Z := z mod 2 ^ 64.
Definition with_app_data (id : Z * bytes) (app : Z) : Z * bytes := (Z.lor (wu64 (Z.shiftl app 16)) (fst id), snd id).
Definition ida_id (x : Z * bytes) : Z * bytes := (Z.land (fst x) 65535, snd x).
Definition ida_app (x : Z * bytes) : Z := Z.shiftr (fst x) 16.
(** partset.go:82-90 [Equal] of two that are there. *)
Definition id_eqb (a b : Z * bytes) : bool := (fst a =? fst b) && bytes_eqb (snd a) (snd b).
(** consensus.go:1239-1249 [psidAppData], [destructPSIDAppData]. *)
Definition psid_app (nid votes : Z) : Z := Z.lor (wu64 (Z.shiftl nid 16)) votes.
Definition psid_parts (app : Z) : Z * Z := (Z.shiftr app 16 mod 2 ^ 32, app mod 65536).
