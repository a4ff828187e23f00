(** C50: iterating over a trie. *)
From Coq Require Import Sorting.Sorted.
From Verif Require Import Model.Bytes Model.DbKey Model.Mpt Model.MptRun Model.MptIter Spec.TrieSpec Spec.IterSpec
  Proof.BytesFacts Proof.MptRunFacts Proof.MptIterFacts Props.P_Trie.
Open Scope Z_scope.

(** A loop over [Filter(prefix)] of any trie that calls have led to ends without an error, and it has then seen, in ascending order, each
    once, exactly the keys with the prefix that [Get] finds, with the values [Get] returns.  [fuel] bounds the rounds of the model's loops: from
    some bound on the outcome is the same. *)
Theorem C50_listing calcHash calls s j m prefix :
  digest32 calcHash ->
  steps calcHash st_init calls s -> Forall (fun ox => sane_op (fst ox)) calls -> no_collision (st_log s) ->
  trie_of s j = Some m -> wf_bytes prefix ->
  exists l bound,
    (forall fuel, (bound <= fuel)%nat -> listing fuel m prefix = Some (l, None))
    /\ StronglySorted (fun x y => before (fst x) (fst y)) l
    /\ forall k v, In (k, v) l <-> wf_bytes k /\ starts_with prefix k /\ snd (fst (mpt_get m k)) = Some v.
Proof.
  intros HH Q Sa N M Wp. destruct (runs_refine calcHash HH _ _ Q Sa N) as (a & _ & Si).
  destruct (trie_at calcHash _ _ _ _ Si M) as (r & c & -> & _ & _ & T).
  destruct (listing_ok calcHash HH (st_db s) r c prefix T Wp) as (l & b & L & S1 & I1). exists l, b. split; [exact L|]. split; [exact S1|].
  intros k v. rewrite I1. split.
  - intros (W & P & E). split; auto. split; auto. now rewrite (proj1 (get_value calcHash HH _ _ _ k W T)).
  - intros (W & P & E). split; auto. split; auto. now rewrite (proj1 (get_value calcHash HH _ _ _ k W T)) in E.
Qed.
Print Assumptions C50_listing.

(** No key comes twice, and two listings of tries with the same contents are the same. *)
Theorem C50_same_listing (l1 l2 : list (bytes * bytes)) :
  StronglySorted (fun x y => before (fst x) (fst y)) l1 -> StronglySorted (fun x y => before (fst x) (fst y)) l2 ->
  (forall x, In x l1 <-> In x l2) -> l1 = l2 /\ NoDup (map fst l1).
Proof.
  assert (Irr : forall a, ~ before a a) by (induction a as [|x a IH]; cbn; [tauto|intros [L|[_ B]]; [lia|auto]]).
  assert (Tr : forall a b c, before a b -> before b c -> before a c).
  { induction a as [|x a IH]; intros [|y b] [|z c]; cbn; try tauto. intros [A|[-> A]] [B|[-> B]]; try (left; lia). right. eauto. }
  intros S1 S2 E. split.
  - revert l2 S2 E. induction S1 as [|x l1 S1 IH F1]; intros l2 S2 E.
    + destruct l2 as [|y l2]; auto. destruct (proj2 (E y) (or_introl eq_refl)).
    + destruct S2 as [|y l2 S2 F2]; [destruct (proj1 (E x) (or_introl eq_refl))|]. rewrite Forall_forall in F1, F2.
      assert (Exy : x = y).
      { destruct (proj1 (E x) (or_introl eq_refl)) as [->|Hx]; auto. destruct (proj2 (E y) (or_introl eq_refl)) as [->|Hy]; auto.
        exfalso. apply (Irr (fst x)). eapply Tr; [apply F1, Hy|apply F2, Hx]. }
      subst y. f_equal. apply IH; auto. intro z. split; intro Hz.
      * destruct (proj1 (E z) (or_intror Hz)) as [->|]; auto. exfalso. apply (Irr (fst z)). auto.
      * destruct (proj2 (E z) (or_intror Hz)) as [->|]; auto. exfalso. apply (Irr (fst z)). auto.
  - clear -S1 Irr. induction S1 as [|x l1 S1 IH F1]; cbn; constructor; auto. rewrite in_map_iff. intros (y & Ey & Hy). rewrite Forall_forall in F1.
    exact (Irr _ (eq_ind _ (fun z => before (fst x) z) (F1 y Hy) _ Ey)).
Qed.
Print Assumptions C50_same_listing.

(** A node that is not in the database ends the listing with an error, but [Has] stays true after every further [Next]:
    a loop that looks at [Has] alone never ends. *)
Theorem C50_violated_endless db h k n : n <> O ->
  db h = None ->
  let m := mk_mpt db (Some (NExt [k] (NHash h))) in
  listing (S n) m [] = Some ([], Some EDatabase)
  /\ forall i, mpt_filter (S n) m [] = Some i -> forall rounds, iter_has (Nat.iter rounds (fun i => match iter_next db (S n) i with Some i' => i' | None => i end) i) = true.
Proof.
  intros Nz E. cbv zeta. unfold listing, mpt_filter. cbn [m_root m_db realize]. unfold iter_next. cbn [i_error i_value i_stack i_prefix bytesToNibs unpack next_loop].
  unfold traverse. cbn [length Nat.ltb Nat.leb]. unfold traverse_node. cbn [realize]. unfold appendItem. cbn [realize]. rewrite E. split; [reflexivity|].
  intros i Ei rounds. injection Ei as <-.
  assert (A : forall r, Nat.iter r (fun i => match match i_error i, i_value i, i_stack i with
        | Some _, _, _ => Some i | None, None, [] => Some i | None, _, st => next_loop db (S n) (i_prefix i) st end with Some i' => i' | None => i end)
      (mk_iter [] [] None (Some EDatabase) []) = mk_iter [] [] None (Some EDatabase) []).
  { induction r as [|r IH]; [reflexivity|]. cbn [Nat.iter nat_rect]. unfold Nat.iter in IH. rewrite IH. reflexivity. }
  rewrite A. reflexivity.
Qed.
Print Assumptions C50_violated_endless.

(** ** An example: a reopened trie with nodes that have to be read *)
Example C50_nonvacuous : exists l s m, steps toy_digest st_init l s /\ Forall (fun ox => sane_op (fst ox)) l /\ no_collision (st_log s)
  /\ trie_of s 1 = Some m
  /\ listing 40 m [18] = Some ([([18], [1]); ([18; 52], long_value); ([18; 86], long_value)], None)
  /\ listing 40 m [18; 80] = Some ([], None)
  /\ listing 40 m [] = Some ([([18], [1]); ([18; 52], long_value); ([18; 86], long_value); ([19; 0], long_value)], None).
Proof.
  set (calls := [ONew; OSet 0 [18; 52] long_value; OSet 0 [19; 0] long_value; OSet 0 [18; 86] long_value; OSet 0 [18] [1]; OFlush 0; OOpen 0]).
  destruct (exec st_init calls) as [[l s]|] eqn:E; [|vm_compute in E; discriminate E].
  assert (F : option_map (fun x => map fst (fst x)) (exec st_init calls) = Some calls) by (vm_compute; reflexivity). rewrite E in F. injection F as F.
  assert (G : option_map (fun x => (collides (st_log (snd x)), option_map (fun m => (listing 40 m [18], listing 40 m [18; 80], listing 40 m [])) (trie_of (snd x) 1))) (exec st_init calls)
    = Some (false, Some (Some ([([18], [1]); ([18; 52], long_value); ([18; 86], long_value)], None), Some ([], None),
        Some ([([18], [1]); ([18; 52], long_value); ([18; 86], long_value); ([19; 0], long_value)], None)))) by (vm_compute; reflexivity).
  rewrite E in G. cbn [option_map snd] in G. destruct (trie_of s 1) as [m|] eqn:M; [|discriminate G]. injection G as G1 G2 G3 G4.
  exists l, s, m. split; [apply (exec_steps calls st_init [] st_init); [constructor|exact E]|]. split.
  { apply Forall_forall. intros [o x] Hin. apply (in_map fst) in Hin. rewrite F in Hin. cbn [fst] in *.
    revert o Hin. apply Forall_forall. unfold calls, long_value. repeat constructor; try discriminate; try (cbn; lia). }
  split; [now apply collides_ok|]. auto.
Qed.
