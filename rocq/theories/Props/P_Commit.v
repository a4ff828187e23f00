(* C52: the certificate of a block. *)
From Coq Require Import ZArith List Bool Arith Lia.
From Verif Require Import Model.Votes Model.CommitVotes Spec.CommitSpec Proof.CommitFacts.
Import ListNotations.
Open Scope Z_scope.

(* VerifyBlock accepts a vote list exactly when its items show precommits for
   that block, at that height, in one round, of different validators who are
   more than two thirds of all (or there are no validators); it reports exactly
   these voters. *)
Theorem C52_accepts : forall recover c h b vs vset, NoDup vs -> h <> 0 ->
  verify_block recover c h b (Some vs) = Ok (Some vset) <->
  exists voters, certifies recover c h b vs voters /\
    (vs = [] \/ (2 * List.length vs < 3 * List.length voters)%nat) /\
    vset = map (fun a => existsb (Z.eqb a) voters) vs.
Proof. exact accepts_iff. Qed.
Print Assumptions C52_accepts.

(* Two accepted lists of a height, for whatever blocks and rounds, are signed
   by more than a third of the validators in common: these have signed both. *)
Theorem C52_accountable : forall recover c c' h b b' vs vset vset',
  NoDup vs -> vs <> [] -> h <> 0 ->
  verify_block recover c h b (Some vs) = Ok (Some vset) ->
  verify_block recover c' h b' (Some vs) = Ok (Some vset') ->
  exists both, NoDup both /\ (List.length vs < 3 * List.length both)%nat /\
    forall a, In a both -> In a vs /\
      signed_by recover h (cv_round c) b (cv_parts c) a /\
      signed_by recover h (cv_round c') b' (cv_parts c') a.
Proof. exact accountable. Qed.
Print Assumptions C52_accountable.

(* What the engine builds from precommits of more than two thirds of the
   validators for one decision is accepted for that block. *)
Theorem C52_built_accepted : forall recover digest msgs h r vs voters,
  (forall d d' : decision, digest d = digest d' -> d = d') -> NoDup vs -> h <> 0 ->
  (forall v s, In (v, s) msgs -> v_height v = h /\ v_round v = r /\ v_type v = Precommit) ->
  (forall v s w t, In (v, s) msgs -> In (w, t) msgs -> digest (v_dec v) = digest (v_dec w)) ->
  Forall2 (fun m a => recover (signed_of (fst m)) (snd m) = Some a) msgs voters ->
  NoDup voters -> (forall a, In a voters -> In a vs) ->
  (2 * List.length vs < 3 * List.length voters)%nat ->
  exists c, new_cvl digest msgs = Some c /\
    forall v s, In (v, s) msgs -> exists vset, verify_block recover c h (d_block (v_dec v)) (Some vs) = Ok (Some vset).
Proof. exact built_accepted. Qed.
Print Assumptions C52_built_accepted.

(* If fewer than half of the voters of a list are dishonest, its time lies
   between the times of two honest voters (whose clocks are within 2^62). *)
Theorem C52_time_between : forall c (honest : item -> bool),
  (2 * List.length (filter (fun x => negb (honest x)) (cv_items c)) < List.length (cv_items c))%nat ->
  (forall it, In it (cv_items c) -> honest it = true ->
     -4611686018427387904 <= it_time it < 4611686018427387904) ->
  exists a b, In a (cv_items c) /\ honest a = true /\ In b (cv_items c) /\ honest b = true /\
    it_time a <= timestamp c <= it_time b.
Proof. exact time_between. Qed.
Print Assumptions C52_time_between.

(* Hence so does the time of every block above height 1 that is let through
   with an accepted list, if fewer than a third of the validators are
   dishonest; and times grow strictly from block to block. *)
Theorem C52_block_time : forall recover c h b vs vset time prev_time (bad : Z -> bool),
  NoDup vs -> vs <> [] -> 1 < h ->
  verify_block recover c (h - 1) b (Some vs) = Ok (Some vset) ->
  verify_time h time prev_time c = true ->
  (3 * List.length (filter bad vs) < List.length vs)%nat ->
  (forall it a, In it (cv_items c) -> shows recover (h - 1) (cv_round c) b (cv_parts c) it a -> bad a = false ->
     -4611686018427387904 <= it_time it < 4611686018427387904) ->
  prev_time < time /\
  exists x y a a', In x (cv_items c) /\ In y (cv_items c) /\ bad a = false /\ bad a' = false /\
    shows recover (h - 1) (cv_round c) b (cv_parts c) x a /\
    shows recover (h - 1) (cv_round c) b (cv_parts c) y a' /\
    it_time x <= time <= it_time y.
Proof. exact block_time. Qed.
Print Assumptions C52_block_time.

(* A signature no signer can be recovered from, in a list whose earlier items
   are in order, does not lead to an error but to a nil pointer dereference:
   whoever can have a list verified (a proposer, a peer that serves blocks)
   can stop the node. *)
Theorem C52_violated_panics : forall recover c h b vs good it rest voters, NoDup vs -> h <> 0 ->
  cv_items c = good ++ it :: rest ->
  Forall2 (fun it a => shows recover h (cv_round c) b (cv_parts c) it a) good voters -> NoDup voters ->
  (forall a, In a voters -> In a vs) ->
  recover (mkSigned h (cv_round c) Precommit b (cv_parts c) (it_time it)) (it_sig it) = None ->
  verify_block recover c h b (Some vs) = Panics.
Proof. exact bad_signature_panics. Qed.
Print Assumptions C52_violated_panics.

(* With an empty validator list every block is accepted without votes. *)
Theorem C52_violated_empty : forall recover r ps h b, h <> 0 ->
  verify_block recover (mkCvl r ps []) h b (Some []) = Ok (Some []).
Proof.
  intros recover r ps h b H. unfold verify_block. cbn [cv_items].
  destruct (Z.eqb_spec h 0); [contradiction|reflexivity].
Qed.
Print Assumptions C52_violated_empty.

(* Four validators 100..103; a signature is valid when it is the signer's
   number times 10000 plus the signed time; 0 is no signature. *)
Definition recover4 (s : signed) (sig : Z) : option Z :=
  if Z.eqb sig 0 then None else Some ((sig - sg_time s) / 10000).
Definition list4 : cvl :=
  mkCvl 2 (Some (7, 0)) [mkItem 50 1000050; mkItem 9000 1029000; mkItem 52 1030052].

Example C52_accepted : verify_block recover4 list4 9 1 (Some [100; 101; 102; 103]) = Ok (Some [true; false; true; true]).
Proof. vm_compute. reflexivity. Qed.
Example C52_few : verify_block recover4 (mkCvl 2 (Some (7, 0)) [mkItem 50 1000050; mkItem 52 1030052]) 9 1
  (Some [100; 101; 102]) = Err.
Proof. vm_compute. reflexivity. Qed.
Example C52_median : timestamp list4 = 52 /\ verify_time 10 52 51 list4 = true /\ verify_time 10 52 52 list4 = false.
Proof. vm_compute. auto. Qed.
Example C52_even : timestamp (mkCvl 2 None [mkItem 5 1; mkItem 9 1; mkItem 2 1; mkItem 4 1]) = 4.
Proof. vm_compute. reflexivity. Qed.
Example C52_panic : verify_block recover4 (mkCvl 2 (Some (7, 0)) (cv_items list4 ++ [mkItem 51 0])) 9 1
  (Some [100; 101; 102; 103]) = Panics.
Proof. vm_compute. reflexivity. Qed.
Example C52_accepted_other : verify_block recover4
  (mkCvl 3 (Some (8, 0)) [mkItem 60 1000060; mkItem 61 1010061; mkItem 52 1030052]) 9 5 (Some [100; 101; 102; 103])
  = Ok (Some [true; true; false; true]).
Proof. vm_compute. reflexivity. Qed.

Definition vote52 (t : Z) : vote := mkVote 9 2 Precommit (mkDecision 1 (Some (7, 0)) []) t.
Example C52_built : new_cvl (fun d => [d_block d]) [(vote52 50, 1000050); (vote52 9000, 1029000); (vote52 52, 1030052)] = Some list4.
Proof. vm_compute. reflexivity. Qed.
