(* The commit vote list: the certificate of a finalized block.

   Source: /repo/consensus/commitvotelist.go, signedbase.go, message.go
   (blockVoteByteser), /repo/service/state/validatorlist.go (IndexOf),
   /repo/block/blockv2.go (VerifyTimestamp).

   Simplifications, once for the file.  Addresses, block IDs, part set IDs
   with their application data and signatures are numbers.  Recovering the
   signer of a signature is a parameter: any partial function of what is
   signed and the signature.  NTSDProves (proofs for other networks) are left
   out: VerifyBlock does not look at them. *)
From Coq Require Import ZArith List Bool Arith.
From Verif Require Import Model.Votes.
Import ListNotations.
Open Scope Z_scope.

(* message.go 243-252: what a vote's signature covers. *)
Record signed := mkSigned {
  sg_height : Z;
  sg_round : Z;
  sg_type : vtype;
  sg_block : Z;
  sg_parts : option (Z * Z);
  sg_time : Z
}.

(* commitvotelist.go 22-25 (blockCommitVoteItem). *)
Record item := mkItem { it_time : Z; it_sig : Z }.

(* commitvotelist.go 27-32 (blockCommitVoteList). *)
Record cvl := mkCvl {
  cv_round : Z;
  cv_parts : option (Z * Z);
  cv_items : list item
}.

(* What a call ends in: a value, an error, or a Go panic. *)
Inductive outcome (A : Type) := Ok (a : A) | Err | Panics.
Arguments Ok {A} a.
Arguments Err {A}.
Arguments Panics {A}.

(* validatorlist.go 91-119: the map from addresses to indices, where a later
   entry overwrites an earlier one. *)
Fixpoint index_from (i : nat) (a : Z) (l : list Z) : option nat :=
  match l with
  | [] => None
  | x :: l' =>
      match index_from (S i) a l' with
      | Some k => Some k
      | None => if Z.eqb x a then Some i else None
      end
  end.
Definition index_of (a : Z) (l : list Z) : option nat := index_from 0 a l.

(* commitvotelist.go 73-79 (enoughVote). *)
Definition enough (voted voters : nat) : bool :=
  if Nat.eqb voters 0 then true else Nat.ltb (voters * 2 / 3) voted.

Section Verify.
Variable recover : signed -> Z -> option Z.

(* commitvotelist.go 55-66: the loop of VerifyBlock.  An unrecoverable
   signature gives a nil address, whose Bytes (common/address.go 96-98)
   dereferences nil. *)
Fixpoint verify_items (h r b : Z) (ps : option (Z * Z)) (validators : list Z) (items : list item)
    (vset : list bool) : outcome (list bool) :=
  match items with
  | [] => Ok vset
  | it :: rest =>
      match recover (mkSigned h r Precommit b ps (it_time it)) (it_sig it) with
      | None => Panics
      | Some a =>
          match index_of a validators with
          | None => Err
          | Some i =>
              if nth i vset false then Err
              else verify_items h r b ps validators rest (set_nth i true vset)
          end
      end
  end.

(* commitvotelist.go 41-71 (VerifyBlock). *)
Definition verify_block (c : cvl) (h b : Z) (validators : option (list Z)) : outcome (option (list bool)) :=
  match validators with
  | None => match cv_items c with [] => Ok None | _ => Err end
  | Some vs =>
      if Z.eqb h 0 then match cv_items c with [] => Ok None | _ => Err end
      else
        match verify_items h (cv_round c) b (cv_parts c) vs (cv_items c) (repeat false (List.length vs)) with
        | Ok vset => if enough (List.length (cv_items c)) (List.length vs) then Ok (Some vset) else Err
        | Err => Err
        | Panics => Panics
        end
  end.

End Verify.

(* Go's int64 arithmetic. *)
Definition wrap64 (x : Z) : Z := (x + 9223372036854775808) mod 18446744073709551616 - 9223372036854775808.

(* sort.Slice on numbers. *)
Fixpoint insert (x : Z) (l : list Z) : list Z :=
  match l with
  | [] => [x]
  | y :: l' => if Z.leb x y then x :: l else y :: insert x l'
  end.
Fixpoint sort (l : list Z) : list Z :=
  match l with [] => [] | x :: l' => insert x (sort l') end.

(* commitvotelist.go 86-102 (Timestamp). *)
Definition timestamp (c : cvl) : Z :=
  let ts := sort (map it_time (cv_items c)) in
  let l := List.length ts in
  if Nat.eqb l 0 then 0
  else if Nat.eqb (l mod 2) 1 then nth (l / 2) ts 0
  else Z.quot (wrap64 (nth (l / 2 - 1) ts 0 + nth (l / 2) ts 0)) 2.

(* block/blockv2.go 353-363 (VerifyTimestamp). *)
Definition verify_time (height time prev_time : Z) (votes : cvl) : bool :=
  negb ((Z.ltb 1 height && negb (Z.eqb time (timestamp votes)))
        || (Z.ltb 1 height && Z.leb time prev_time)).

(* commitvotelist.go 263-310 (newCommitVoteList), without proofs for other
   networks: from precommits with their signatures. *)
Definition new_cvl (digest : decision -> list Z) (msgs : list (vote * Z)) : option cvl :=
  match msgs with
  | [] => Some (mkCvl 0 None [])
  | (v0, _) :: _ =>
      if forallb (fun m => zlist_eqb (digest (v_dec v0)) (digest (v_dec (fst m)))) msgs
      then Some (mkCvl (v_round v0) (d_parts (v_dec v0)) (map (fun m => mkItem (v_ts (fst m)) (snd m)) msgs))
      else None
  end.
