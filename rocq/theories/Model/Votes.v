(* Votes and vote sets of the consensus engine.

   Source: /repo/consensus/votebase.go, message.go (VoteMessage), votelist.go,
   voteset.go.

   Simplifications, once for the file.  A block ID, a network type section
   hash and the pair (count, hash) of a part set ID are numbers; only equality
   matters to this code.  The SHA3 hash of the encoded round decision is a
   parameter [digest]: nothing is assumed of it here, and theorems that need
   it to be injective say so.  Signatures are not part of a vote: a vote set
   is indexed by the validator whose signature was recovered.  NTSDProofParts
   (the payload of cross-chain proofs) are not compared by this code and are
   left out. *)
From Coq Require Import ZArith List Bool Arith.
Import ListNotations.
Open Scope nat_scope.

(* votebase.go 29-35. *)
Inductive vtype := Prevote | Precommit.

Definition vtype_eqb (a b : vtype) : bool :=
  match a, b with Prevote, Prevote | Precommit, Precommit => true | _, _ => false end.

(* votebase.go 71-75 (roundDecision): block ID, part set ID with its
   application data (nil for a nil vote), network type section votes.
   partset.go 43-80: PartSetIDAndAppData, here the pair (ID, appData). *)
Record decision := mkDecision {
  d_block : Z;
  d_parts : option (Z * Z);
  d_nts : list Z
}.

(* partset.go 50-58: ID() of PartSetIDAndAppData, nil for nil. *)
Definition d_id (d : decision) : option Z := option_map fst (d_parts d).

(* message.go 254-259 (VoteMessage), votebase.go 48-69 (voteBase). *)
Record vote := mkVote {
  v_height : Z;
  v_round : Z;
  v_type : vtype;
  v_dec : decision;
  v_ts : Z
}.

Fixpoint zlist_eqb (a b : list Z) : bool :=
  match a, b with
  | [], [] => true
  | x :: a', y :: b' => Z.eqb x y && zlist_eqb a' b'
  | _, _ => false
  end.

(* voteset.go 15-19. *)
Record counter := mkCounter {
  c_digest : list Z;
  c_parts : option (Z * Z);
  c_count : nat
}.

(* voteset.go 21-29.  [vs_msgs] is the slice of votes indexed by validator;
   [vs_max] is the cached index maxIndex (None for -1); [vs_mask] the bit
   array of the validators heard from. *)
Record voteset := mkVoteset {
  vs_msgs : list (option vote);
  vs_max : option nat;
  vs_mask : list bool;
  vs_round : Z;
  vs_counters : list counter;
  vs_count : nat
}.

(* Go's slice assignment s[i] = x. *)
Fixpoint set_nth {A} (i : nat) (x : A) (l : list A) : list A :=
  match l, i with
  | [], _ => []
  | _ :: l', 0 => x :: l'
  | y :: l', S i' => y :: set_nth i' x l'
  end.

(* voteset.go 209-216 (newVoteSet). *)
Definition vs_new (n : nat) : voteset :=
  mkVoteset (repeat None n) None (repeat false n) (-1)%Z [] 0.

Section Digest.
Variable digest : decision -> list Z.

(* votebase.go 84-104 (RoundDecisionDigest). *)
Definition v_digest (v : vote) : list Z := digest (v_dec v).

(* votebase.go 106-111 (voteBase.Equal), message.go 379-381
   (EqualExceptSigs). *)
Definition vote_base_eqb (a b : vote) : bool :=
  Z.eqb (v_height a) (v_height b) && Z.eqb (v_round a) (v_round b)
  && vtype_eqb (v_type a) (v_type b)
  && zlist_eqb (v_digest a) (v_digest b).

Definition equal_except_sigs (a b : vote) : bool :=
  vote_base_eqb a b && Z.eqb (v_ts a) (v_ts b).

(* voteset.go 94-101: the scan for the largest counter; [i] is the index of
   the head of [l], [best] the index found so far (None for -1), [mx] the
   largest count so far.  The first of several equal counters wins. *)
Fixpoint scan_max (l : list counter) (i : nat) (best : option nat) (mx : nat) : option nat * nat :=
  match l with
  | [] => (best, mx)
  | c :: l' =>
      if Nat.ltb mx (c_count c) then scan_max l' (S i) (Some i) (c_count c)
      else scan_max l' (S i) best mx
  end.

(* voteset.go 92-111 (getOverTwoThirdsRoundDecisionDigest), with its cache
   in maxIndex.  The first component is the answer: None when it returns
   ok = false, otherwise digest and part set ID. *)
Definition vs_get (vs : voteset) : option (list Z * option Z) * voteset :=
  let '(best, mx) :=
    match vs_max vs with
    | None => scan_max (vs_counters vs) 0 None 0
    | Some i =>
        (Some i, match nth_error (vs_counters vs) i with Some c => c_count c | None => 0 end)
    end in
  let vs' := mkVoteset (vs_msgs vs) best (vs_mask vs) (vs_round vs) (vs_counters vs) (vs_count vs) in
  if Nat.ltb (List.length (vs_msgs vs) * 2 / 3) mx then
    match best with
    | Some i =>
        match nth_error (vs_counters vs) i with
        | Some c => (Some (c_digest c, option_map fst (c_parts c)), vs')
        | None => (None, vs')
        end
    | None => (None, vs')
    end
  else (None, vs').

Definition over (vs : voteset) : option (list Z * option Z) := fst (vs_get vs).

(* voteset.go 42-52: take one vote for [dg] out of the counters; a counter
   that reaches zero is overwritten by the last one and the slice shortened. *)
Fixpoint find_counter (dg : list Z) (l : list counter) (i : nat) : option nat :=
  match l with
  | [] => None
  | c :: l' => if zlist_eqb (c_digest c) dg then Some i else find_counter dg l' (S i)
  end.

Definition counters_dec (dg : list Z) (l : list counter) : list counter :=
  match find_counter dg l 0 with
  | None => l
  | Some i =>
      match nth_error l i with
      | None => l
      | Some c =>
          let c' := mkCounter (c_digest c) (c_parts c) (c_count c - 1) in
          if Nat.eqb (c_count c') 0 then
            match nth_error l (List.length l - 1) with
            | Some lastc => removelast (set_nth i lastc l)
            | None => l
            end
          else set_nth i c' l
      end
  end.

(* voteset.go 57-67: count one more vote, or start a counter. *)
Definition counters_inc (v : vote) (l : list counter) : list counter :=
  match find_counter (v_digest v) l 0 with
  | Some i =>
      match nth_error l i with
      | Some c => set_nth i (mkCounter (c_digest c) (c_parts c) (S (c_count c))) l
      | None => l
      end
  | None => l ++ [mkCounter (v_digest v) (d_parts (v_dec v)) 1]
  end.

(* voteset.go 56-72: store the vote, once the place is free. *)
Definition vs_store (i : nat) (v : vote) (vs : voteset) : voteset :=
  mkVoteset (set_nth i (Some v) (vs_msgs vs)) None (set_nth i true (vs_mask vs))
    (v_round v) (counters_inc v (vs_counters vs)) (S (vs_count vs)).

(* voteset.go 32-73 (add).  The flag is the result.  An index outside the
   slice makes Go panic; callers pass indices of the validator list, and here
   the call is refused. *)
Definition vs_add (i : nat) (v : vote) (vs : voteset) : bool * voteset :=
  match nth_error (vs_msgs vs) i with
  | None => (false, vs)
  | Some None => (true, vs_store i v vs)
  | Some (Some o) =>
      if equal_except_sigs o v then (false, vs)
      else
        let '(q, vs1) := vs_get vs in
        let freed :=
          mkVoteset (vs_msgs vs1) (vs_max vs1) (vs_mask vs1) (vs_round vs1)
            (counters_dec (v_digest o) (vs_counters vs1)) (vs_count vs1 - 1) in
        match q with
        | Some (dg, _) =>
            if zlist_eqb dg (v_digest o) then (false, vs1)
            else (true, vs_store i v freed)
        | None => (true, vs_store i v freed)
        end
  end.

(* voteset.go 76-78 (hasOverTwoThirds). *)
Definition vs_has (vs : voteset) : bool :=
  Nat.ltb (List.length (vs_msgs vs) * 2 / 3) (vs_count vs).

(* voteset.go 159-167 (voteList): every vote, in the order of the
   validators. *)
Fixpoint somes {A} (l : list (option A)) : list A :=
  match l with
  | [] => []
  | Some x :: l' => x :: somes l'
  | None :: l' => somes l'
  end.

Definition vs_votes (vs : voteset) : list vote := somes (vs_msgs vs).

(* voteset.go 131-143 (voteListForOverTwoThirds): the votes for the decision
   that won, nil when there is none.  commitVoteListForOverTwoThirds, lines
   113-129, selects the same votes. *)
Definition vs_winning (vs : voteset) : option (list vote) :=
  match over vs with
  | None => None
  | Some (dg, _) => Some (filter (fun v => zlist_eqb dg (v_digest v)) (vs_votes vs))
  end.

(* voteset.go 197-203 (checkAndAdd): a late precommit for the last height. *)
Definition vs_check_add (i : nat) (v : vote) (vs : voteset) : bool * voteset :=
  match over vs with
  | None => (false, vs)
  | Some (dg, _) =>
      if Z.eqb (v_round v) (vs_round vs) && zlist_eqb dg (v_digest v) then vs_add i v vs
      else (false, vs)
  end.

(* voteset.go 145-157 (voteSetForOverTwoThird). *)
Fixpoint add_matching (dg : list Z) (l : list (option vote)) (i : nat) (vs : voteset) : voteset :=
  match l with
  | [] => vs
  | Some v :: l' =>
      add_matching dg l' (S i)
        (if zlist_eqb dg (v_digest v) then snd (vs_add i v vs) else vs)
  | None :: l' => add_matching dg l' (S i) vs
  end.

Definition vs_restrict (vs : voteset) : option voteset :=
  match over vs with
  | None => None
  | Some (dg, _) => Some (add_matching dg (vs_msgs vs) 0 (vs_new (List.length (vs_msgs vs))))
  end.

(* voteset.go 169-186 (getRoundEvidences): the nil votes with block ID [nid]
   at or after [minr], when more than a third voted so. *)
Definition vs_evidences (minr nid : Z) (vs : voteset) : option (list vote) :=
  let l := filter (fun v => Z.leb minr (v_round v)
                     && (match d_parts (v_dec v) with None => true | Some _ => false end)
                     && Z.eqb nid (d_block (v_dec v))) (vs_votes vs) in
  if Nat.ltb (List.length (vs_msgs vs) / 3) (List.length l) then Some l else None.

(* ---------- votes of one height ---------- *)

(* voteset.go 218-221.  The Go map from round to an array indexed by vote
   type is an association list here. *)
Record hvs := mkHvs {
  h_n : nat;
  h_sets : list ((Z * vtype) * voteset)
}.

Definition key_eqb (a b : Z * vtype) : bool := Z.eqb (fst a) (fst b) && vtype_eqb (snd a) (snd b).

Fixpoint h_find (k : Z * vtype) (l : list ((Z * vtype) * voteset)) : option voteset :=
  match l with
  | [] => None
  | (k', vs) :: l' => if key_eqb k k' then Some vs else h_find k l'
  end.

Fixpoint h_put (k : Z * vtype) (vs : voteset) (l : list ((Z * vtype) * voteset)) :=
  match l with
  | [] => [(k, vs)]
  | (k', vs') :: l' => if key_eqb k k' then (k, vs) :: l' else (k', vs') :: h_put k vs l'
  end.

(* voteset.go 228-236 (votesFor): an absent set is created empty; the
   creation is invisible and left out for a query. *)
Definition h_votes (r : Z) (t : vtype) (h : hvs) : voteset :=
  match h_find (r, t) (h_sets h) with Some vs => vs | None => vs_new (h_n h) end.

(* voteset.go 223-226 (add). *)
Definition h_add (i : nat) (v : vote) (h : hvs) : bool * hvs :=
  let '(b, vs) := vs_add i v (h_votes (v_round v) (v_type v) h) in
  (b, mkHvs (h_n h) (h_put (v_round v, v_type v) vs (h_sets h))).

(* voteset.go 238-241 (reset). *)
Definition h_new (n : nat) : hvs := mkHvs n [].

(* voteset.go 273-280 (removeLowerRoundExcept). *)
Definition h_prune (lower except : Z) (h : hvs) : hvs :=
  mkHvs (h_n h)
    (filter (fun e => negb (Z.ltb (fst (fst e)) lower && negb (Z.eqb (fst (fst e)) except)))
       (h_sets h)).

(* voteset.go 243-258 (getVoteListForMask): the votes of a round a peer's
   masks do not show. *)
Fixpoint unmasked (l : list (option vote)) (mask : list bool) : list vote :=
  match l, mask with
  | Some v :: l', b :: m' => if b then unmasked l' m' else v :: unmasked l' m'
  | Some v :: l', [] => v :: unmasked l' []
  | None :: l', _ :: m' => unmasked l' m'
  | None :: l', [] => unmasked l' []
  | [], _ => []
  end.

Definition h_for_masks (r : Z) (pv pc : list bool) (h : hvs) : list vote :=
  unmasked (vs_msgs (h_votes r Prevote h)) pv ++ unmasked (vs_msgs (h_votes r Precommit h)) pc.

End Digest.
