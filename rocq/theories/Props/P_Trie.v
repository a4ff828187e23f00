(** C46, C47: the trie store. *)
From Verif Require Import Model.Bytes Model.DbKey Model.Mpt Model.MptRun Spec.TrieSpec
  Proof.BytesFacts Proof.MptRlpFacts Proof.MptTree Proof.MptStore Proof.MptOps Proof.MptRunFacts.
Open Scope Z_scope.

(** Every run of calls on tries over one database is a run of the store of versions, with the same answers and no errors. *)
Theorem C46_store calcHash l s :
  digest32 calcHash ->
  steps calcHash st_init l s ->
  Forall (fun ox => sane_op (fst ox)) l ->
  no_collision (st_log s) ->
  exists a, vsteps (mk_versions [] []) l a.
Proof. intros HH Q Sa N. destruct (runs_refine calcHash HH l s Q Sa N) as (a & V & _). eauto. Qed.
Print Assumptions C46_store.

(** In particular no call reports an error. *)
Theorem C46_answers calcHash l s o x :
  digest32 calcHash -> steps calcHash st_init (l ++ [(o, x)]) s -> Forall (fun ox => sane_op (fst ox)) (l ++ [(o, x)]) -> no_collision (st_log s) ->
  forall v e, x = Value v e -> e = None.
Proof.
  intros HH Q Sa N v e ->. destruct (runs_refine calcHash HH _ s Q Sa N) as (a & V & _).
  remember (l ++ [(o, Value v e)]) as l' eqn:E. destruct V as [|a0 l0 a1 o0 x0 a2 V1 V2]; [destruct l; discriminate E|].
  apply app_inj_tail in E as [_ E]. injection E as -> ->. inversion V2; reflexivity.
Qed.
Print Assumptions C46_answers.

(** The calls are never refused: whatever the state, a call on a trie that exists has a next state. *)
Theorem C46_total calcHash s o :
  match o with
  | ONew => True
  | OOpen i => (i < length (st_roots s))%nat
  | OCopy j | OGet j _ | OSet j _ _ | ODelete j _ | OFlush j => (j < length (st_tries s))%nat
  | OCompact j => exists n, nth_error (st_tries s) j = Some (Some n)
  end -> exists x s', step calcHash s o x s'.
Proof.
  assert (T : forall j, (j < length (st_tries s))%nat -> exists m, trie_of s j = Some m).
  { intros j L. apply nth_error_Some in L. unfold trie_of. destruct (nth_error (st_tries s) j); [eauto|congruence]. }
  destruct o; intro P.
  - eexists _, _. constructor.
  - apply nth_error_Some in P. destruct (nth_error (st_roots s) i) eqn:E; [|congruence]. eexists _, _. econstructor; eauto.
  - destruct (T _ P) as [m E]. eexists _, _. econstructor; eauto.
  - destruct (T _ P) as [m E]. destruct (mpt_get m k) as [[m' v] e] eqn:G. eexists _, _. econstructor; eauto.
  - destruct (T _ P) as [m E]. destruct (mpt_set m k v) as [[m' old] e] eqn:G. eexists _, _. econstructor; eauto.
  - destruct (T _ P) as [m E]. destruct (mpt_delete m k) as [[m' old] e] eqn:G. eexists _, _. econstructor; eauto.
  - destruct (T _ P) as [m E]. eexists _, _. econstructor; eauto.
  - destruct P as [n E]. eexists _, _. econstructor; eauto. constructor.
Qed.
Print Assumptions C46_total.

(** Missing nodes.  [Get] and [Set] report them; [Delete] below an extension does not: it says that nothing was there. *)
Theorem C46_violated_delete db ek h k r :
  ek <> [] -> db h = None -> bytesToNibs k = ek ++ r ->
  let m := mk_mpt db (Some (NExt ek (NHash h))) in
  snd (mpt_get m k) = Some EDatabase
  /\ (forall v, snd (mpt_set m k v) = Some EDatabase)
  /\ mpt_delete m k = (m, None, None).
Proof.
  intros Ne Hn E. cbv zeta.
  assert (C : fst (compareKeys (ek ++ r) ek) = length ek).
  { unfold compareKeys. cbn [fst]. rewrite <- (app_nil_r ek) at 2. apply compare_app. destruct r; auto. }
  assert (L : (length ek <> 0)%nat) by (destruct ek; [congruence|discriminate]).
  unfold mpt_get, mpt_set, mpt_delete, opt_set, depth_bound. cbn [m_root m_db]. rewrite E.
  cbn [node_get node_set node_delete realize]. rewrite C, Nat.ltb_irrefl, Hn.
  destruct (Nat.eqb_spec (length ek) 0); [contradiction|]. auto.
Qed.
Print Assumptions C46_violated_delete.

(** An empty value is kept in memory but not in the database: where a longer key goes on, it is gone once the trie is reopened. *)
Theorem C46_violated_empty calcHash (m : mpt) :
  digest32 calcHash -> m = fst (fst (mpt_set (fst (fst (mpt_set (new_mpt (fun _ => None) []) [18; 52] [7]))) [18] [])) ->
  snd (fst (mpt_get m [18])) = Some []
  /\ snd (fst (mpt_get (new_mpt (m_db (mpt_flush calcHash m)) (mpt_hash calcHash m)) [18])) = None
  /\ snd (fst (mpt_get (new_mpt (m_db (mpt_flush calcHash m)) (mpt_hash calcHash m)) [18; 52])) = Some [7].
Proof.
  intros HH E. assert (E' : m = mk_mpt (fun _ => None) (Some (NExt [1; 2] (NBranch
    [None; None; None; Some (NLeaf [4] [7]); None; None; None; None; None; None; None; None; None; None; None; None] (Some []))))) by (rewrite E; reflexivity).
  clear E. subst m. split; [reflexivity|].
  unfold mpt_hash, mpt_flush. cbn [m_root m_db getHash]. 
  set (n := NExt _ _). 
  assert (S1 : exists s, serialize calcHash n = s /\ flush_entries calcHash true n = [(calcHash s, s)]
     /\ deserialize s = Some (NExt [1; 2] (NBranch [None; None; None; Some (NLeaf [4] [7]); None; None; None; None; None; None; None; None; None; None; None; None] None))).
  { eexists. split; [vm_compute; reflexivity|]. split; vm_compute; reflexivity. }
  destruct S1 as (s & -> & -> & D). clearbody n. pose proof (proj1 (HH s)) as L.
  assert (NM : forall db, new_mpt db (calcHash s) = mk_mpt db (Some (NHash (calcHash s)))) by (intro db; unfold new_mpt; destruct (calcHash s); [discriminate L|reflexivity]).
  rewrite !NM. cbn [put_all m_db].
  assert (R : realize (put (fun _ => None) (calcHash s) s) (NHash (calcHash s)) = deserialize s) by (cbn [realize]; unfold put; rewrite bytes_eqb_refl; reflexivity).
  unfold mpt_get. cbn [m_root m_db]. unfold depth_bound. split.
  - change (bytesToNibs [18]) with [1; 2]. cbn [length node_get]. rewrite R, D. reflexivity.
  - change (bytesToNibs [18; 52]) with [1; 2; 3; 4]. cbn [length node_get]. rewrite R, D. reflexivity.
Qed.
Print Assumptions C46_violated_empty.

(** The root hash depends on the contents alone, not on the history or on what is loaded. *)
Theorem C47_hash_of_contents calcHash l1 s1 l2 s2 j1 m1 j2 m2 :
  digest32 calcHash ->
  steps calcHash st_init l1 s1 -> Forall (fun ox => sane_op (fst ox)) l1 -> no_collision (st_log s1) ->
  steps calcHash st_init l2 s2 -> Forall (fun ox => sane_op (fst ox)) l2 -> no_collision (st_log s2) ->
  trie_of s1 j1 = Some m1 -> trie_of s2 j2 = Some m2 ->
  (forall k, wf_bytes k -> snd (fst (mpt_get m1 k)) = snd (fst (mpt_get m2 k))) ->
  mpt_hash calcHash m1 = mpt_hash calcHash m2.
Proof.
  intros HH Q1 Sa1 N1 Q2 Sa2 N2 M1 M2 E.
  destruct (runs_refine calcHash HH _ _ Q1 Sa1 N1) as (a1 & _ & Si1). destruct (runs_refine calcHash HH _ _ Q2 Sa2 N2) as (a2 & _ & Si2).
  destruct (trie_at calcHash _ _ _ _ Si1 M1) as (r1 & c1 & -> & _ & _ & T1). destruct (trie_at calcHash _ _ _ _ Si2 M2) as (r2 & c2 & -> & _ & _ & T2).
  eapply same_contents_same_hash; eauto. intros k W. specialize (E k W).
  rewrite (proj1 (get_value calcHash HH _ _ _ k W T1)), (proj1 (get_value calcHash HH _ _ _ k W T2)) in E. exact E.
Qed.
Print Assumptions C47_hash_of_contents.

(** Tries with one root hash hold the same, unless two different nodes of theirs have one digest. *)
Theorem C47_hash_binds calcHash l1 s1 l2 s2 j1 m1 j2 m2 :
  digest32 calcHash ->
  steps calcHash st_init l1 s1 -> Forall (fun ox => sane_op (fst ox)) l1 ->
  steps calcHash st_init l2 s2 -> Forall (fun ox => sane_op (fst ox)) l2 ->
  trie_of s1 j1 = Some m1 -> trie_of s2 j2 = Some m2 ->
  no_collision (st_log s1 ++ loaded calcHash m1 ++ st_log s2 ++ loaded calcHash m2) ->
  mpt_hash calcHash m1 = mpt_hash calcHash m2 ->
  forall k, wf_bytes k -> snd (fst (mpt_get m1 k)) = snd (fst (mpt_get m2 k)).
Proof.
  intros HH Q1 Sa1 Q2 Sa2 M1 M2 N E k W.
  assert (N1 : no_collision (st_log s1)) by (eapply no_collision_sub; [|exact N]; intros x Hx; apply in_or_app; now left).
  assert (N2 : no_collision (st_log s2)).
  { eapply no_collision_sub; [|exact N]. intros x Hx. apply in_or_app. right. apply in_or_app. right. apply in_or_app. now left. }
  destruct (runs_refine calcHash HH _ _ Q1 Sa1 N1) as (a1 & _ & Si1). destruct (runs_refine calcHash HH _ _ Q2 Sa2 N2) as (a2 & _ & Si2).
  destruct (trie_at calcHash _ _ _ _ Si1 M1) as (r1 & c1 & -> & _ & _ & T1). destruct (trie_at calcHash _ _ _ _ Si2 M2) as (r2 & c2 & -> & _ & _ & T2).
  rewrite (proj1 (get_value calcHash HH _ _ _ k W T1)), (proj1 (get_value calcHash HH _ _ _ k W T2)).
  eapply same_hash_same_contents; eauto; [apply Si1|apply Si2].
Qed.
Print Assumptions C47_hash_binds.

(** With empty values it is not so: here are two tries with different answers and one hash, whatever the digest. *)
Theorem C47_violated_empty calcHash (m1 m2 : mpt) :
  m1 = fst (fst (mpt_set (new_mpt (fun _ => None) []) [18; 52] [7])) ->
  m2 = fst (fst (mpt_set (fst (fst (mpt_set m1 [18; 86] [8]))) [18] [])) ->
  snd (fst (mpt_get m2 [18])) = Some [] /\ snd (fst (mpt_get (fst (fst (mpt_delete m2 [18]))) [18])) = None
  /\ mpt_hash calcHash m2 = mpt_hash calcHash (fst (fst (mpt_delete m2 [18]))).
Proof. intros -> ->. vm_compute. auto. Qed.
Print Assumptions C47_violated_empty.

(** ** The hypotheses can be met *)
Definition toy_digest (s : bytes) : bytes := be_bytes 32 (fold_left (fun a x => (a * 257 + x + 1) mod 2 ^ 256) s 1).
Lemma toy_digest32 : digest32 toy_digest.
Proof. intro s. split; [unfold toy_digest; rewrite blen_be_bytes; reflexivity|apply be_bytes_wf]. Qed.

Definition long_value : bytes := repeat 9 40.
Fixpoint collides (l : list (bytes * bytes)) : bool :=
  match l with
  | [] => false
  | (h, s) :: r => existsb (fun e => bytes_eqb (fst e) h && negb (bytes_eqb (snd e) s)) r || collides r
  end.
Lemma collides_ok l : collides l = false -> no_collision l.
Proof.
  induction l as [|[h s] l IH]; intros C; [intros ? ? ? []|]. cbn [collides] in C. apply orb_false_iff in C as [C1 C2]. specialize (IH C2).
  assert (X : forall s', In (h, s') l -> s' = s).
  { intros s' Hin. destruct (bytes_eqb s' s) eqn:B; [now apply bytes_eqb_eq in B|]. exfalso.
    assert (existsb (fun e => bytes_eqb (fst e) h && negb (bytes_eqb (snd e) s)) l = true).
    { apply existsb_exists. exists (h, s'). split; auto. cbn. rewrite bytes_eqb_refl, B. reflexivity. }
    congruence. }
  intros h' a b [A|A] [B|B].
  - congruence.
  - injection A as -> ->. symmetry. auto.
  - injection B as -> ->. auto.
  - eauto.
Qed.

(** Two keys under one prefix with long values; flush, change, reopen the old version, forget what is loaded, read. *)
Definition example_calls : list op :=
  [ONew; OSet 0 [18; 52] long_value; OSet 0 [18; 86] long_value; OSet 0 [18] [1]; OFlush 0; ODelete 0 [18; 52]; OSet 0 [18; 86] [2];
   OOpen 0; OGet 1 [18; 52]; OGet 0 [18; 86]; OFlush 0; OOpen 1; OGet 2 [18]; OGet 2 [18; 52]; ODelete 1 [18]; OFlush 1].
Definition exec1 (s : st) (o : op) : option (out * st) :=
  match o with
  | ONew => Some (Quiet, mk_st (st_db s) (st_log s) (st_roots s) (st_tries s ++ [m_root (new_mpt (st_db s) [])]))
  | OOpen i => match nth_error (st_roots s) i with Some h => Some (Quiet, mk_st (st_db s) (st_log s) (st_roots s) (st_tries s ++ [m_root (new_mpt (st_db s) h)])) | None => None end
  | OGet j k => match trie_of s j with Some m => let '(m', v, e) := mpt_get m k in Some (Value v e, with_trie s j (m_root m')) | None => None end
  | OSet j k v => match trie_of s j with Some m => let '(m', old, e) := mpt_set m k v in Some (Value old e, with_trie s j (m_root m')) | None => None end
  | ODelete j k => match trie_of s j with Some m => let '(m', old, e) := mpt_delete m k in Some (Value old e, with_trie s j (m_root m')) | None => None end
  | OFlush j => match trie_of s j with
                | Some m => Some (Quiet, mk_st (m_db (mpt_flush toy_digest m)) (st_log s ++ match m_root m with Some n => flush_entries toy_digest true n | None => [] end)
                                     (st_roots s ++ [mpt_hash toy_digest m]) (set_nth (st_tries s) j (m_root (mpt_flush toy_digest m))))
                | None => None end
  | _ => None
  end.
Fixpoint exec (s : st) (l : list op) : option (list (op * out) * st) :=
  match l with
  | [] => Some ([], s)
  | o :: r => match exec1 s o with
              | Some (x, s') => match exec s' r with Some (t, s2) => Some ((o, x) :: t, s2) | None => None end
              | None => None end
  end.
Lemma exec1_step s o x s' : exec1 s o = Some (x, s') -> step toy_digest s o x s'.
Proof.
  destruct o; cbn [exec1]; intro E; try discriminate.
  - injection E as <- <-. constructor.
  - destruct (nth_error (st_roots s) i) eqn:E1; [|discriminate]. injection E as <- <-. now constructor.
  - destruct (trie_of s j) as [m|] eqn:E1; [|discriminate]. destruct (mpt_get m k) as [[m' v] e] eqn:G. injection E as <- <-. econstructor; eauto.
  - destruct (trie_of s j) as [m|] eqn:E1; [|discriminate]. destruct (mpt_set m k v) as [[m' v'] e] eqn:G. injection E as <- <-. econstructor; eauto.
  - destruct (trie_of s j) as [m|] eqn:E1; [|discriminate]. destruct (mpt_delete m k) as [[m' v] e] eqn:G. injection E as <- <-. econstructor; eauto.
  - destruct (trie_of s j) as [m|] eqn:E1; [|discriminate]. injection E as <- <-. econstructor; eauto.
Qed.
Lemma exec_steps l : forall s0 l0 s t s', steps toy_digest s0 l0 s -> exec s l = Some (t, s') -> steps toy_digest s0 (l0 ++ t) s'.
Proof.
  induction l as [|o l IH]; intros s0 l0 s t s' Q E; cbn [exec] in E; [injection E as <- <-; now rewrite app_nil_r|].
  destruct (exec1 s o) as [[x s1]|] eqn:E1; [|discriminate]. destruct (exec s1 l) as [[t1 s2]|] eqn:E2; [|discriminate]. injection E as <- <-.
  replace (l0 ++ (o, x) :: t1) with ((l0 ++ [(o, x)]) ++ t1) by (rewrite <- app_assoc; reflexivity).
  eapply IH; [|exact E2]. econstructor; [exact Q|]. now apply exec1_step.
Qed.

Example C46_nonvacuous : exists l s, digest32 toy_digest /\ steps toy_digest st_init l s /\ Forall (fun ox => sane_op (fst ox)) l
  /\ no_collision (st_log s) /\ map fst l = example_calls /\ length (st_log s) = 8%nat
  /\ map snd (skipn 8 l) = [Value (Some long_value) None; Value (Some [2]) None; Quiet; Quiet; Value (Some [1]) None; Value None None; Value (Some [1]) None; Quiet].
Proof.
  destruct (exec st_init example_calls) as [[l s]|] eqn:E; [|vm_compute in E; discriminate E].
  exists l, s. split; [apply toy_digest32|]. split; [apply (exec_steps example_calls st_init [] st_init); [constructor|exact E]|].
  assert (F : option_map (fun x => map fst (fst x)) (exec st_init example_calls) = Some example_calls) by (vm_compute; reflexivity). rewrite E in F. injection F as F.
  split.
  { apply Forall_forall. intros [o x] Hin. apply (in_map fst) in Hin. rewrite F in Hin. cbn [fst] in *.
    revert o Hin. apply Forall_forall. unfold long_value. repeat constructor; try discriminate; try (cbn; lia). }
  assert (G : option_map (fun x => (collides (st_log (snd x)), length (st_log (snd x)), map snd (skipn 8 (fst x)))) (exec st_init example_calls)
     = Some (false, 8%nat, [Value (Some long_value) None; Value (Some [2]) None; Quiet; Quiet; Value (Some [1]) None; Value None None; Value (Some [1]) None; Quiet])) by (vm_compute; reflexivity).
  rewrite E in G. injection G as G1 G2 G3. split; [now apply collides_ok|auto].
Qed.
