(** What it takes for a proof of a BTP decision to be good. *)
From Coq Require Import ZArith List Bool Sorting.Permutation.
From Verif Require Import Model.Bytes Model.CommitVotes Model.BtpProof.
Import ListNotations.
Open Scope Z_scope.

Section With.
Variable recover : bytes -> bytes -> option bytes.
Variable decision : Z -> Z -> Z -> bytes -> bytes.

(** The signature is one of the hash by the key of the seat. *)
Definition signs (pc : context) (h s : bytes) (i : nat) : Prop :=
  blen s = 65 /\ exists a, recover s h = Some a /\ nth_error pc i = Some (Some a).
(** No key has the empty address. *)
Definition real_addresses : Prop := forall s h a, recover s h = Some a -> a <> [].
(** The seats of which there is a signature. *)
Fixpoint seats_from (i : nat) (p : proof) : list nat :=
  match p with [] => [] | s :: r => (match s with Some _ => [i] | None => [] end) ++ seats_from (S i) r end.
Definition seats_of (p : proof) : list nat := seats_from 0 p.

(** A vote as [VerifyNTSDProofParts] has let it pass, at the seat. *)
Definition counted (pcm : contexts) (height round : Z) (bases : list (Z * bytes)) (e : nat * nts_vote) : Prop :=
  nv_height (snd e) = height /\ nv_round (snd e) = round /\ nv_bases (snd e) = bases /\ parts_counted (snd e) = true
  /\ verify_vote recover decision pcm (snd e) (Z.of_nat (fst e)) = Ok tt.
(** Votes of different seats, more than two thirds of those of each type. *)
Definition quorum (pcm : contexts) (height round : Z) (bases : list (Z * bytes)) (vs : list (nat * nts_vote)) : Prop :=
  NoDup (map fst vs) /\ Forall (counted pcm height round bases) vs
  /\ forall t h pc, In (t, h) bases -> pcm t = Some pc -> 3 * blen vs > 2 * blen pc.
End With.
