(** C48: proofs of the contents of a trie. *)
From Verif Require Import Model.Bytes Model.DbKey Model.Mpt Model.MptRun Model.MptProof Spec.TrieSpec Spec.ProofSpec
  Proof.BytesFacts Proof.MptRlpFacts Proof.MptTree Proof.MptStore Proof.MptOps Proof.MptRunFacts Proof.MptProofFacts Props.P_Trie.
Open Scope Z_scope.

(** Whatever proofs are offered, in whatever order, a verifier that holds the root hash of a kept version answers in accordance with
    that version, unless a piece of a proof has the digest of a different node that was written. *)
Theorem C48_sound calcHash l s i h calls :
  digest32 calcHash ->
  steps calcHash st_init l s -> Forall (fun ox => sane_op (fst ox)) l -> no_collision (st_log s) ->
  nth_error (st_roots s) i = Some h ->
  (forall k p, In (k, p) calls -> wf_bytes k /\ forall b, In b p -> forall s', In (calcHash b, s') (st_log s) -> b = s') ->
  Forall2 (fun kp a => tells (snd (fst (mpt_get (new_mpt (st_db s) h) (fst kp)))) a) calls (snd (verifies calcHash (verifier h) calls)).
Proof.
  intros HH Q Sa N Hi Ok. destruct (runs_refine calcHash HH l s Q Sa N) as (a & _ & (K & F1 & _)).
  destruct (forall2_at _ _ _ _ _ F1 Hi) as (c & _ & Kc).
  pose proof (session_sound calcHash HH (st_db s) (st_log s) h c calls K Kc Ok) as T.
  assert (G : forall k, wf_bytes k -> snd (fst (mpt_get (new_mpt (st_db s) h) k)) = c k).
  { intros k W. unfold new_mpt. apply (get_value calcHash HH); auto.
    destruct Kc as [[-> Z0]|(t & F & Ky & -> & St & S1)]; [exact Z0|].
    pose proof (proj1 (HH (serialize calcHash t))) as L. destruct (calcHash (serialize calcHash t)) as [|b r] eqn:Eb; [discriminate L|].
    exists t. split; auto. split; auto. split; auto. right. rewrite Eb. auto. }
  revert T Ok G. generalize (snd (verifies calcHash (verifier h) calls)). intros answers T. clear - T. induction T as [|[k p] x l l' A T IH]; intros Ok G; constructor.
  - cbn [fst] in *. rewrite G; auto. apply (Ok k p). now left.
  - apply IH; auto. intros. apply Ok. now right.
Qed.
Print Assumptions C48_sound.

(** A proof made for a key that has a value is accepted by every such verifier, whatever it was offered before, and shows that value. *)
Theorem C48_complete calcHash l s j m calls k x :
  digest32 calcHash ->
  steps calcHash st_init l s -> Forall (fun ox => sane_op (fst ox)) l -> no_collision (st_log s ++ loaded calcHash m) ->
  trie_of s j = Some m ->
  (forall k p, In (k, p) calls -> wf_bytes k /\ forall b, In b p -> forall s', In (calcHash b, s') (st_log s ++ loaded calcHash m) -> b = s') ->
  wf_bytes k -> snd (fst (mpt_get m k)) = Some x ->
  exists p, mpt_proof calcHash m k = Some p
    /\ snd (mpt_prove calcHash (fst (verifies calcHash (verifier (mpt_hash calcHash m)) calls)) k p) = Proved x.
Proof.
  intros HH Q Sa N Hj Ok W E.
  assert (N1 : no_collision (st_log s)) by (eapply no_collision_sub; [|exact N]; intros y Hy; apply in_or_app; now left).
  destruct (runs_refine calcHash HH l s Q Sa N1) as (a & _ & Si). pose proof Si as (K & _).
  destruct (trie_at calcHash s a j m Si Hj) as (r & c & -> & _ & _ & T).
  destruct (flush_sim calcHash HH (st_db s) (st_log s) r c K T N) as (_ & K' & _ & Kv).
  rewrite (proj1 (get_value calcHash HH _ _ _ k W T)) in E.
  eapply session_complete; eauto.
Qed.
Print Assumptions C48_complete.

(** A key that ends where two others part, without a value of its own: [GetProof] gives a proof, and [Prove] panics on it. *)
Theorem C48_violated_panics calcHash (m : mpt) :
  digest32 calcHash ->
  m = fst (fst (mpt_set (fst (fst (mpt_set (new_mpt (fun _ => None) []) [18; 52] [7]))) [18; 86] [8])) ->
  snd (fst (mpt_get m [18])) = None
  /\ exists p, mpt_proof calcHash m [18] = Some p /\ snd (mpt_prove calcHash (verifier (mpt_hash calcHash m)) [18] p) = Panics.
Proof.
  intros HH E. assert (E' : m = mk_mpt (fun _ => None) (Some (NExt [1; 2] (NBranch
    [None; None; None; Some (NLeaf [4] [7]); None; Some (NLeaf [6] [8]); None; None; None; None; None; None; None; None; None; None] None)))) by (rewrite E; reflexivity).
  clear E. subst m. split; [reflexivity|].
  unfold mpt_proof, mpt_hash. cbn [m_root m_db getHash].
  set (n := NExt _ _).
  assert (S1 : exists s, serialize calcHash n = s /\ deserialize s = Some n /\ node_proof calcHash (fun _ => None) (depth_bound (bytesToNibs [18])) true n (bytesToNibs [18]) = Some [s]).
  { eexists. split; [vm_compute; reflexivity|]. split; vm_compute; reflexivity. }
  destruct S1 as (s & Es & D & P). rewrite P, Es. exists [s]. split; [reflexivity|].
  unfold verifier, new_mpt. cbn [m_root]. pose proof (proj1 (HH s)) as L. destruct (calcHash s) as [|b r] eqn:Eh; [discriminate L|]. rewrite <- Eh.
  unfold mpt_prove, depth_bound. change (bytesToNibs [18]) with [1; 2]. cbn [length]. rewrite (node_prove_hash calcHash _ _ s [] n _ D). subst n. unfold proven at 1. rewrite bytes_eqb_refl. clear. vm_compute. reflexivity.
Qed.
Print Assumptions C48_violated_panics.

(** Pieces at the end of a proof that no one needs are taken: two different proofs for one key, for any digest. *)
Theorem C48_violated_junk calcHash (m : mpt) junk :
  digest32 calcHash ->
  m = fst (fst (mpt_set (fst (fst (mpt_set (new_mpt (fun _ => None) []) [18; 52] [7]))) [18; 86] [8])) ->
  exists p, mpt_proof calcHash m [18; 52] = Some p
    /\ snd (mpt_prove calcHash (verifier (mpt_hash calcHash m)) [18; 52] p) = Proved [7]
    /\ snd (mpt_prove calcHash (verifier (mpt_hash calcHash m)) [18; 52] (p ++ junk)) = Proved [7].
Proof.
  intros HH E. assert (E' : m = mk_mpt (fun _ => None) (Some (NExt [1; 2] (NBranch
    [None; None; None; Some (NLeaf [4] [7]); None; Some (NLeaf [6] [8]); None; None; None; None; None; None; None; None; None; None] None)))) by (rewrite E; reflexivity).
  clear E. subst m.
  unfold mpt_proof, mpt_hash. cbn [m_root m_db getHash].
  set (n := NExt _ _).
  assert (S1 : exists s, serialize calcHash n = s /\ deserialize s = Some n /\ node_proof calcHash (fun _ => None) (depth_bound (bytesToNibs [18; 52])) true n (bytesToNibs [18; 52]) = Some [s]).
  { eexists. split; [vm_compute; reflexivity|]. split; vm_compute; reflexivity. }
  destruct S1 as (s & Es & D & P). rewrite P, Es. exists [s]. split; [reflexivity|].
  unfold verifier, new_mpt. cbn [m_root]. pose proof (proj1 (HH s)) as L. destruct (calcHash s) as [|b r] eqn:Eh; [discriminate L|]. rewrite <- Eh.
  unfold mpt_prove, depth_bound. change (bytesToNibs [18; 52]) with [1; 2; 3; 4]. cbn [length app]. split.
  - rewrite (node_prove_hash calcHash _ _ s [] n _ D). subst n. unfold proven at 1. rewrite bytes_eqb_refl. clear. vm_compute. reflexivity.
  - rewrite (node_prove_hash calcHash _ _ s junk n _ D). subst n. unfold proven at 1. rewrite bytes_eqb_refl. clear. vm_compute. reflexivity.
Qed.
Print Assumptions C48_violated_junk.

(** The hypotheses can be met: a run with long values, a forged proof, a proof for a missing key and a good one. *)
Definition proof_calls : list op := [ONew; OSet 0 [18; 52] long_value; OSet 0 [18; 86] long_value; OSet 0 [18] [1]; OFlush 0].
Example C48_nonvacuous : exists l s h m p, digest32 toy_digest /\ steps toy_digest st_init l s /\ Forall (fun ox => sane_op (fst ox)) l
  /\ no_collision (st_log s) /\ no_collision (st_log s ++ loaded toy_digest m) /\ nth_error (st_roots s) 0 = Some h /\ trie_of s 0 = Some m
  /\ mpt_proof toy_digest m [18; 52] = Some p /\ length p = 3%nat
  /\ (forall b, In b (p ++ [[1; 2]]) -> forall s', In (toy_digest b, s') (st_log s ++ loaded toy_digest m) -> b = s')
  /\ snd (verifies toy_digest (verifier h) [([18; 52], [[1; 2]]); ([18; 52], p); ([18; 53], p); ([17], firstn 1 p)])
     = [Refused PIllegal; Proved long_value; Refused PNotFound; Refused PNotFound].
Proof.
  destruct (exec st_init proof_calls) as [[l s]|] eqn:E; [|vm_compute in E; discriminate E].
  assert (X : option_map (fun x => match nth_error (st_roots (snd x)) 0, trie_of (snd x) 0 with
      | Some h, Some m => match mpt_proof toy_digest m [18; 52] with
                          | Some p => (map fst (fst x), collides (st_log (snd x) ++ loaded toy_digest m ++ map (fun b => (toy_digest b, b)) (p ++ [[1; 2]])), length p,
                                       snd (verifies toy_digest (verifier h) [([18; 52], [[1; 2]]); ([18; 52], p); ([18; 53], p); ([17], firstn 1 p)]))
                          | None => ([], true, 0%nat, [])
                          end
      | _, _ => ([], true, 0%nat, [])
      end) (exec st_init proof_calls) = Some (proof_calls, false, 3%nat, [Refused PIllegal; Proved long_value; Refused PNotFound; Refused PNotFound])) by (vm_compute; reflexivity).
  rewrite E in X. cbn [option_map snd fst] in X.
  destruct (nth_error (st_roots s) 0) as [h|] eqn:Eh; [|discriminate X]. destruct (trie_of s 0) as [m|] eqn:Em; [|discriminate X].
  destruct (mpt_proof toy_digest m [18; 52]) as [p|] eqn:Ep; [|discriminate X].
  injection X as F N L V. apply collides_ok in N.
  exists l, s, h, m, p. split; [apply toy_digest32|]. split; [apply (exec_steps proof_calls st_init [] st_init); [constructor|exact E]|].
  split.
  { apply Forall_forall. intros [o x] Hin. apply (in_map fst) in Hin. rewrite F in Hin. cbn [fst] in *.
    revert o Hin. apply Forall_forall. unfold long_value. repeat constructor; try discriminate; try (cbn; lia). }
  split; [eapply no_collision_sub; [|exact N]; intros y Hy; apply in_or_app; now left|].
  split; [eapply no_collision_sub; [|exact N]; intros y Hy; rewrite app_assoc; apply in_or_app; now left|].
  split; auto. split; auto. split; auto. split; auto. split; auto.
  intros b Hb s' Hs. apply (N (toy_digest b)).
  - rewrite app_assoc. apply in_or_app. right. apply in_map_iff. exists b. auto.
  - rewrite app_assoc. apply in_or_app. now left.
Qed.
