(** What is sent to a peer that lags behind, said with sets of numbers. *)
From Verif Require Import Model.Bytes Model.BitArray Model.PartSet Model.PeerSync.
Open Scope Z_scope.

(** A mask says that [i] is there. *)
Definition marked (b : bitarray) (i : Z) : Prop := ba_get b i = Some true.

(** A mask as the codec gives it: any 64-bit numbers, in memory. *)
Definition any_mask (b : bitarray) : Prop :=
  - 2 ^ 63 <= ba_bits b < 2 ^ 63 /\ Forall (fun w => 0 <= w < 2 ^ 64) (ba_words b) /\ Z.of_nat (length (ba_words b)) < 2 ^ 50.
Definition any_masks (q : prs) : Prop := forall b, In (Some b) [q_prevotes q; q_precommits q; q_parts q] -> any_mask b.

(** A mask of [n] numbers, with nothing beyond. *)
Definition mask_of (n : Z) (b : bitarray) : Prop :=
  0 <= n < 2 ^ 50 /\ ba_bits b = n /\ Z.of_nat (length (ba_words b)) = (n + 63) / 64 /\ Forall (fun w => 0 <= w < 2 ^ 64) (ba_words b)
  /\ forall k w j, nth_error (ba_words b) k = Some w -> 0 <= j -> Z.testbit w j = true -> 64 * Z.of_nat k + j < n.
(** A set whose mask says which parts it has. *)
Definition honest_parts (ps : pset) : Prop :=
  ps_count ps < 65536 /\ mask_of (ps_count ps) (ps_mask ps) /\ forall i, 0 <= i -> marked (ps_mask ps) i -> exists p, ps_part ps i = Some p.
Definition engine_ok {vote} (e : engine vote) : Prop := forall h ps, e_commit_parts e h = Some ps -> honest_parts ps.
Definition fair (rnd : Z -> Z) : Prop := forall n, 0 < n -> 0 <= rnd n < n.

(** The peer is behind: it lacks a block which the node has. *)
Definition behind {vote} (e : engine vote) (h : Z) : Prop := h < e_height e \/ (h = e_height e /\ 8 <= e_step e).

(** Turns of the loop, until the peer tells another state: the state at the end and what was sent. *)
Fixpoint turns {vote} (q : option prs) (l : list (engine vote * bool * (Z -> Z))) : option (option prs * list (act vote)) :=
  match l with
  | [] => Some (q, [])
  | (e, f, rnd) :: r =>
      match do_sync e f rnd q with
      | None => None
      | Some (q1, a) => match turns q1 r with Some (q2, x) => Some (q2, a :: x) | None => None end
      end
  end.
Definition indices {vote} (l : list (act vote)) : list Z := flat_map (fun a => match a with SendPart _ i _ => [i] | _ => [] end) l.

(** The votes of [l] which a mask does not mention, in order. *)
Definition unmarked_votes {vote} (l : list (option vote)) (mask : bitarray) : list vote :=
  flat_map (fun k => match nth_error l k with
                     | Some (Some v) => match ba_get mask (Z.of_nat k) with Some true => [] | _ => [v] end
                     | _ => []
                     end) (seq 0 (length l)).
Definition round_votes {vote} (e : engine vote) (r : Z) (pv pc : bitarray) : list vote :=
  unmarked_votes (e_votes e r false) pv ++ unmarked_votes (e_votes e r true) pc.

(** The parts of a set that one with this mask (none: an empty one of the right size) may get: not those of the last word if its size
    is a multiple of 64. *)
Definition sendable (mask : option bitarray) (ps : pset) (i : Z) : Prop :=
  let n := match mask with Some b => ba_bits b | None => ps_count ps end in
  0 <= i < n /\ marked (ps_mask ps) i /\ match mask with Some b => ~ marked b i | None => True end
  /\ ~ (n mod 64 = 0 /\ n <= i + 64).

(** The block of the peer's height can be had in this turn. *)
Definition has_block {vote} (h : Z) (t : engine vote * bool * (Z -> Z)) : bool :=
  match e_commit_parts (fst (fst t)) h with Some _ => true | None => false end.
Definition has_votes {vote} (l : list (act vote)) : list (list vote) := flat_map (fun a => match a with SendVotes v => [v] | _ => [] end) l.
