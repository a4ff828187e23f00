(** The proofs of BTP decisions: how signatures of validators are collected with
    their votes, checked, kept in the certificate of a block and taken out again.

    Source: /repo/btp/ntm/secp256k1proof.go, /repo/btp/proofcontextmap.go,
    /repo/consensus/message.go, commitvotelist.go, consensus.go.

    Simplifications, once for the file.  Recovering the address from a signature
    and a hash is a parameter ([RecoverPublicKey] with the address of the module),
    and so is the hash of a decision.  Parts and proofs are what their bytes
    decode to ([None] if they do not decode); a nil signature decodes to [None].
    Errors carry no text. *)
From Coq Require Import ZArith List Bool Lia.
From Verif Require Import Model.Bytes Model.CommitVotes.
Import ListNotations.
Open Scope Z_scope.

(** secp256k1proof.go:84-89: the address of each seat, nil without a key. *)
Definition context := list (option bytes).
(** secp256k1proof.go:34-37 *)
Record part := mk_part { pt_index : Z; pt_sig : option bytes }.
(** secp256k1proof.go:51-54 *)
Definition proof := list (option bytes).

(** common/crypto/signature.go:94-96, [HasV]. *)
Definition has_v (s : bytes) : bool := blen s =? 65.

(** [bytes.Equal] of a seat and an address: nil equals the empty string. *)
Definition seat_is (s : option bytes) (a : bytes) : bool := bytes_eqb (match s with Some b => b | None => [] end) a.

(** secp256k1proof.go:107-113, 117-128: the map from addresses to seats, where a
    later seat overwrites an earlier one. *)
Fixpoint seat_of (i : Z) (pc : context) (a : bytes) : option Z :=
  match pc with
  | [] => None
  | s :: r =>
      match seat_of (i + 1) r a with
      | Some k => Some k
      | None => match s with Some b => if bytes_eqb b a then Some i else None | None => None end
      end
  end.
Definition index_of_address (pc : context) (a : bytes) : option Z := seat_of 0 pc a.

(** A map from network types to contexts (btp/proofcontextmap.go:28-43). *)
Definition contexts := Z -> option context.

(** message.go:273-280: the part of a vote that is about network types. *)
Record nts_vote := mk_nv { nv_height : Z; nv_round : Z; nv_bases : list (Z * bytes); nv_parts : list (option part) }.

Section With.
Variable recover : bytes -> bytes -> option bytes.
(** The hash of the decision for type, height, round and section hash (proof.go:84-120). *)
Variable decision : Z -> Z -> Z -> bytes -> bytes.

(** secp256k1proof.go:43-49 with signature.go:144-156: a nil signature is dereferenced. *)
Definition part_recover (s : option bytes) (h : bytes) : outcome bytes :=
  match s with
  | None => Panics
  | Some s => if has_v s then match recover s h with Some a => Ok a | None => Err end else Err
  end.

(** secp256k1proof.go:163-181 *)
Definition verify_part (pc : context) (h : bytes) (pp : part) : outcome Z :=
  if (pt_index pp <? 0) || (blen pc <=? pt_index pp) then Err
  else match part_recover (pt_sig pp) h with
       | Panics => Panics
       | Err => Err
       | Ok a => if seat_is (nth (Z.to_nat (pt_index pp)) pc None) a then Ok (pt_index pp) else Err
       end.

(** secp256k1proof.go:192-223, [Verify]: the loop, then the count. *)
Fixpoint verify_loop (pc : context) (h : bytes) (i : Z) (p : proof) (seen : list Z) (valid : Z) : outcome Z :=
  match p with
  | [] => Ok valid
  | None :: r => verify_loop pc h (i + 1) r seen valid
  | Some s :: r =>
      match verify_part pc h (mk_part i (Some s)) with
      | Panics => Panics
      | Err => Err
      | Ok _ => if existsb (Z.eqb i) seen then Err else verify_loop pc h (i + 1) r (i :: seen) (valid + 1)
      end
  end.
Definition verify_proof (pc : context) (h : bytes) (p : proof) : outcome unit :=
  match verify_loop pc h 0 p [] 0 with
  | Panics => Panics
  | Err => Err
  | Ok valid => if valid <=? 2 * blen pc / 3 then Err else Ok tt
  end.

(** secp256k1proof.go:229-255, [NewProofPart]: the address of the wallet's key and
    its signature, each [None] on an error. *)
Definition new_part (pc : context) (h : bytes) (address : option bytes) (sign : bytes -> option bytes) : option part :=
  match address with
  | None => None
  | Some a =>
      match sign h with
      | None => None
      | Some s => match index_of_address pc a with None => None | Some i => Some (mk_part i (Some s)) end
      end
  end.

(** secp256k1proof.go:257-261, [NewProof], and 72-75, [Add], which panics on an index out of range. *)
Definition new_proof (pc : context) : proof := repeat None (length pc).
Definition add_part (p : proof) (pp : part) : outcome proof :=
  if (pt_index pp <? 0) || (blen p <=? pt_index pp) then Panics
  else Ok (firstn (Z.to_nat (pt_index pp)) p ++ pt_sig pp :: skipn (Z.to_nat (pt_index pp) + 1) p).

(** proofcontextmap.go:87-142, [Verify]. *)
Fixpoint verify_each (pcm : contexts) (height round : Z) (digests : list (Z * bytes)) (i : nat) (proofs : list (option proof)) : outcome unit :=
  match digests with
  | [] => Ok tt
  | (t, h) :: r =>
      match pcm t with
      | None => verify_each pcm height round r i proofs
      | Some pc =>
          match nth_error proofs i with
          | None => Panics
          | Some None => Err
          | Some (Some p) =>
              match verify_proof pc (decision t height round h) p with
              | Ok _ => verify_each pcm height round r (i + 1) proofs
              | Err => Err
              | Panics => Panics
              end
          end
      end
  end.
Definition known (pcm : contexts) (e : Z * bytes) : bool := match pcm (fst e) with Some _ => true | None => false end.
Definition verify_proofs (pcm : contexts) (height round : Z) (digests : list (Z * bytes)) (proofs : list (option proof)) : outcome unit :=
  if blen (filter (known pcm) digests) =? blen proofs then verify_each pcm height round digests 0 proofs else Err.

(** consensus.go:1206-1237: the entries and the parts of one's own vote. *)
Fixpoint cast (pcm : contexts) (height round : Z) (address : option bytes) (sign : bytes -> option bytes)
    (entries : list (Z * bytes)) (bases : list (Z * bytes)) (parts : list (option part)) : option nts_vote :=
  match entries with
  | [] => Some (mk_nv height round bases parts)
  | (t, h) :: r =>
      match pcm t with
      | None => cast pcm height round address sign r bases parts
      | Some pc =>
          match new_part pc (decision t height round h) address sign with
          | None => None
          | Some pp => cast pcm height round address sign r (bases ++ [(t, h)]) (parts ++ [Some pp])
          end
      end
  end.

(** message.go:395-397: [Verify] looks only at the number of parts. *)
Definition parts_counted (v : nts_vote) : bool := blen (nv_bases v) =? blen (nv_parts v).

(** message.go:415-442, [VerifyNTSDProofParts]. *)
Fixpoint verify_bases (pcm : contexts) (v : nts_vote) (expected : Z) (bases : list (Z * bytes)) (i : nat) : outcome unit :=
  match bases with
  | [] => Ok tt
  | (t, h) :: r =>
      match pcm t with
      | None => Err
      | Some pc =>
          match nth_error (nv_parts v) i with
          | None => Panics
          | Some None => Err
          | Some (Some pp) =>
              match verify_part pc (decision t (nv_height v) (nv_round v) h) pp with
              | Panics => Panics
              | Err => Err
              | Ok k => if k =? expected then verify_bases pcm v expected r (i + 1) else Err
              end
          end
      end
  end.
Definition verify_vote (pcm : contexts) (v : nts_vote) (expected : Z) : outcome unit := verify_bases pcm v expected (nv_bases v) 0.

(** commitvotelist.go:292-308: the proofs of a certificate, one for each base of
    the first vote.  [pf.Bytes()] panics on a signature that cannot be written. *)
Fixpoint collect_parts (p : proof) (i : nat) (msgs : list nts_vote) : outcome proof :=
  match msgs with
  | [] => Ok p
  | m :: r =>
      match nth_error (nv_parts m) i with
      | None => Panics
      | Some None => Err
      | Some (Some pp) => match add_part p pp with Ok p' => collect_parts p' i r | Err => Err | Panics => Panics end
      end
  end.
Definition writable (p : proof) : bool := forallb (fun s => match s with Some s => has_v s | None => true end) p.
Fixpoint collect_proofs (pcm : contexts) (msgs : list nts_vote) (bases : list (Z * bytes)) (i : nat) : outcome (list proof) :=
  match bases with
  | [] => Ok []
  | (t, _) :: r =>
      match pcm t with
      | None => Err
      | Some pc =>
          match collect_parts (new_proof pc) i msgs with
          | Panics => Panics
          | Err => Err
          | Ok p =>
              if writable p then
                match collect_proofs pcm msgs r (i + 1) with Ok l => Ok (p :: l) | Err => Err | Panics => Panics end
              else Panics
          end
      end
  end.
Definition certificate_proofs (pcm : contexts) (msgs : list nts_vote) : outcome (list proof) :=
  match msgs with
  | [] => Ok []
  | m :: _ => collect_proofs pcm msgs (nv_bases m) 0
  end.

(** commitvotelist.go:200-238: from the proofs of a certificate back to the bases
    of the votes and the parts of each seat. *)
Fixpoint give_parts (i : Z) (p : proof) (given : list (list (option part))) : list (list (option part)) :=
  match p, given with
  | s :: p', g :: r => (match s with Some s => g ++ [Some (mk_part i (Some s))] | None => g end) :: give_parts (i + 1) p' r
  | _, _ => given
  end.
Fixpoint take_apart (active : Z -> bool) (seats : nat) (entries : list (Z * bytes)) (proofs : list (option proof)) (k : nat)
    (given : list (list (option part))) (bases : list (Z * bytes)) : option (list (list (option part)) * list (Z * bytes)) :=
  match entries with
  | [] => Some (given, bases)
  | (t, h) :: r =>
      if active t then
        match nth_error proofs k with
        | None => None
        | Some None => None
        | Some (Some p) =>
            if Nat.eqb (length p) seats then take_apart active seats r proofs (k + 1) (give_parts 0 p given) (bases ++ [(t, h)]) else None
        end
      else take_apart active seats r proofs k given bases
  end.
Definition certificate_parts (active : Z -> bool) (seats : nat) (entries : list (Z * bytes)) (proofs : list (option proof)) :=
  take_apart active seats entries proofs 0 (repeat [] seats) [].
(** commitvotelist.go:239-258: the vote made for the one at a seat. *)
Definition vote_again (height round : Z) (r : list (list (option part)) * list (Z * bytes)) (seat : nat) : nts_vote :=
  mk_nv height round (snd r) (nth seat (fst r) []).

End With.
