(** Fetching a state: nothing is forgotten. *)
From Coq Require Import Permutation.
From Verif Require Import Model.Bytes Model.DbKey Model.Mpt Model.StateSync Spec.StateSyncSpec Proof.BytesFacts Proof.StateSyncFacts.
Open Scope Z_scope.

Section Inv.
Context (H : bytes -> bytes) (account_refs : bytes -> option (list ref)) (api_ok : bytes -> bool).
Notation refs := (refs_of account_refs api_ok).
Context (w : base) (roots : list ref).
Notation part := (part account_refs api_ok w roots).
Context (Hne : forall v, H v <> []) (Wh : whole H account_refs api_ok w roots).

Definition have (s : store) (r : ref) : Prop := s_get s (bucket_of (fst r)) (snd r) <> None.
Definition right (s : store) : Prop := forall q h v, part (q, h) -> s_get s (bucket_of q) h = Some v -> w (bucket_of q) h = Some v.
Definition pending (b : builder) (r : ref) : Prop := asked b (bucket_of (fst r)) (fst r) (snd r).
Definition sat (b : builder) (r : ref) : Prop := have (b_store b) r \/ pending b r.

Lemma part_ne q h : part (q, h) -> h <> [].
Proof. intro P. destruct (wh_has _ _ _ _ _ Wh _ _ P) as (v & _ & E & _). subst h. apply Hne. Qed.
Lemma part_kid q h v r : part (q, h) -> w (bucket_of q) h = Some v -> In r (fst (refs q v)) -> part r.
Proof. intros P E Hin. eapply p_next; eauto. Qed.
Lemma known_have s r : right s -> part r -> (known s r = true <-> have s r).
Proof.
  intros R P. destruct r as [q h]. pose proof (part_ne _ _ P) as N. unfold known, have. cbn [fst snd].
  destruct (wh_has _ _ _ _ _ Wh _ _ P) as (v & Ev & _ & Ok). specialize (R q h).
  destruct q as [k| |]; cbn [bucket_of] in *.
  - destruct (s_get s MerkleTrie h) as [v'|]; [|split; congruence]. specialize (R v' P eq_refl). rewrite Ev in R. injection R as <-.
    cbn [refs_of] in Ok. destruct (deserialize v); [split; congruence|discriminate Ok].
  - destruct h; [congruence|]. destruct (s_get s BytesByHash _); split; congruence.
  - destruct h; [congruence|]. destruct (s_get s BytesByHash _); split; congruence.
Qed.

Record inv (b : builder) : Prop := mk_inv {
  i_roots : forall r, In r roots -> sat b r;
  i_right : right (b_store b);
  i_kids : forall q h v r, part (q, h) -> s_get (b_store b) (bucket_of q) h = Some v -> In r (fst (refs q v)) -> sat b r;
  i_pend : forall h bk q, asked b bk q h -> part (q, h) /\ bk = bucket_of q /\ s_get (b_store b) (bucket_of q) h = None;
  i_some : forall h rs, find_request h (b_requests b) = Some rs -> rs <> [];
  i_nodup : NoDup (keys_of b);
  i_mark : b_mark b = None
}.

Lemma want_mark b r : b_mark b = None -> b_mark (want b r) = None.
Proof.
  intro M. unfold want, request_data. destruct (known _ _); auto. destruct (snd r); auto. destruct (negb _); auto.
  destruct (find_request _ _); auto. rewrite M. reflexivity.
Qed.
Lemma wants_mark l : forall b, b_mark b = None -> b_mark (fold_left want l b) = None.
Proof. induction l as [|r l IH]; intros b M; cbn [fold_left]; auto. apply IH, want_mark, M. Qed.

Lemma start_inv b : b_requests b = [] -> b_mark b = None -> closed account_refs api_ok w roots (s_get (b_store b)) -> inv (start b roots).
Proof.
  intros E M C. unfold start. destruct (grown_wants roots b) as [G A].
  assert (R : right (b_store b)) by (intros q h v P S1; exact (proj1 (C q h v P S1))).
  assert (No : forall bk q k, ~ asked b bk q k) by (intros bk q k (rs & F & _); rewrite E in F; discriminate F).
  constructor.
  - intros r Hin. pose proof (p_root account_refs api_ok w roots r Hin) as P. destruct (A r Hin) as [K|[K|K]].
    + left. rewrite (g_store _ _ _ G). now apply known_have.
    + exfalso. destruct r as [q h]. cbn in K. subst h. exact (part_ne _ _ P eq_refl).
    + right. exact K.
  - rewrite (g_store _ _ _ G). exact R.
  - intros q h v [q' h'] P S1 Hin. rewrite (g_store _ _ _ G) in S1. left. unfold have. cbn [fst snd]. rewrite (g_store _ _ _ G).
    exact (proj2 (C q h v P S1) q' h' Hin).
  - intros h bk q X. apply (g_new _ _ _ G) in X as [X|(-> & Hin & K & _)]; [exfalso; eapply No; eauto|].
    pose proof (p_root account_refs api_ok w roots _ Hin) as P. repeat split; auto. rewrite (g_store _ _ _ G).
    destruct (s_get (b_store b) (bucket_of q) h) eqn:S1; auto. exfalso.
    assert (X : known (b_store b) (q, h) = true) by (apply known_have; auto; unfold have; cbn [fst snd]; congruence). congruence.
  - apply (g_some _ _ _ G). intros k rs F. rewrite E in F. discriminate F.
  - apply (g_nodup _ _ _ G). unfold keys_of. rewrite E. constructor.
  - now apply wants_mark.
Qed.

(** When nothing is pending, everything is there. *)
Lemma inv_done b : inv b -> b_requests b = [] -> fetched account_refs api_ok w roots (s_get (b_store b)).
Proof.
  intros I E. assert (X : forall r, part r -> have (b_store b) r).
  { assert (Np : forall r, ~ pending b r) by (intros r (rs & F & _); rewrite E in F; discriminate F).
    intros r P. induction P as [r Hin|q h v r P IH Ew Hin].
    - destruct (i_roots _ I r Hin) as [X|X]; auto. destruct (Np _ X).
    - unfold have in IH. cbn [fst snd] in IH. destruct (s_get (b_store b) (bucket_of q) h) as [v'|] eqn:S1; [|congruence].
      pose proof (i_right _ I _ _ _ P S1) as W1. assert (v' = v) by congruence. subst v'.
      destruct (i_kids _ I _ _ _ r P S1 Hin) as [X|X]; auto. destruct (Np _ X). }
  intros q h P. specialize (X _ P). unfold have in X. cbn [fst snd] in X. destruct (s_get (b_store b) (bucket_of q) h) as [v|] eqn:S1; [|congruence].
  symmetry. exact (i_right _ I _ _ _ P S1).
Qed.

(** *** Data that comes in *)
Section Feed.
Context (b0 : builder) (I0 : inv b0) (value : bytes) (key : bytes) (rs : list (bucket * asker)).
Context (Ers : find_request key (b_requests b0) = Some rs).
Context (Good : forall q, part (q, key) -> w (bucket_of q) key = Some value).

Record mid (done : list (bucket * asker)) (b : builder) : Prop := mk_mid {
  m_roots : forall r, In r roots -> sat b r;
  m_right : right (b_store b);
  m_kids : forall q h v r, part (q, h) -> h <> key -> s_get (b_store b) (bucket_of q) h = Some v -> In r (fst (refs q v)) -> sat b r;
  m_old : forall q r, part (q, key) -> s_get (b_store b0) (bucket_of q) key <> None -> In r (fst (refs q value)) -> sat b r;
  m_done : forall bk q, In (bk, q) done -> s_get (b_store b) bk key = Some value /\ forall r, In r (fst (refs q value)) -> sat b r;
  m_from : forall bk, s_get (b_store b) bk key <> None -> s_get (b_store b0) bk key <> None \/ exists q, In (bk, q) done;
  m_pend : forall h bk q, h <> key -> asked b bk q h -> part (q, h) /\ bk = bucket_of q /\ s_get (b_store b) (bucket_of q) h = None;
  m_key : find_request key (b_requests b) = Some rs;
  m_some : forall h rs, find_request h (b_requests b) = Some rs -> rs <> [];
  m_nodup : NoDup (keys_of b);
  m_resolved : b_resolved b = b_resolved b0;
  m_rest : forall h bk, h <> key -> s_get (b_store b) bk h = s_get (b_store b0) bk h;
  m_keys : forall h, In h (keys_of b0) -> In h (keys_of b)
}.

Lemma asker_part bk q : In (bk, q) rs -> part (q, key) /\ bk = bucket_of q.
Proof. intro Hin. destruct (i_pend _ I0 key bk q) as (P & E & _); [exists rs; auto|auto]. Qed.

Lemma mid_start : mid [] (mk_builder (b_store b0) (b_requests b0) (Some key) (b_resolved b0)).
Proof.
  destruct I0 as [A B C D E F G]. constructor; cbn [b_store b_requests b_resolved]; auto.
  - intros q h v r P _ S1 Hin. exact (C q h v r P S1 Hin).
  - intros q r P S1 Hin. destruct (s_get (b_store b0) (bucket_of q) key) as [v'|] eqn:S2; [|congruence].
    pose proof (B _ _ _ P S2) as W1. rewrite (Good _ P) in W1. injection W1 as <-. exact (C _ _ _ _ P S2 Hin).
  - intros bk q [].
Qed.

Lemma mid_step done bk q b : mid done b -> In (bk, q) rs ->
  mid (done ++ [(bk, q)]) (fold_left want (fst (refs q value)) (mk_builder (s_set (b_store b) bk key value) (b_requests b) (b_mark b) (b_resolved b))).
Proof.
  intros M Hin. destruct (asker_part _ _ Hin) as [P ->]. set (b1 := mk_builder _ _ _ _).
  destruct (grown_wants (fst (refs q value)) b1) as [G A]. set (b2 := fold_left want _ b1) in *.
  assert (Sg : forall bk x, s_get (b_store b1) bk x = if bucket_eqb bk (bucket_of q) && bytes_eqb x key then Some value else s_get (b_store b) bk x) by (intros; apply s_get_set).
  assert (Sg2 : b_store b2 = b_store b1) by apply (g_store _ _ _ G).
  assert (Rest : forall h bk, h <> key -> s_get (b_store b2) bk h = s_get (b_store b) bk h).
  { intros h bk N. rewrite Sg2, Sg. destruct (beq_spec h key); [congruence|]. now rewrite andb_false_r. }
  assert (Hm : forall r, have (b_store b) r -> have (b_store b2) r).
  { intros [q' h'] X. unfold have in *. cbn [fst snd] in *. rewrite Sg2, Sg. destruct (_ && _); [discriminate|auto]. }
  assert (Sm : forall r, sat b r -> sat b2 r).
  { intros r [X|X]; [left; auto|right]. eapply asked_mono; [exact G|]. exact X. }
  assert (R1 : right (b_store b1)).
  { intros q' h' v' P' S1. rewrite Sg in S1. destruct (bk_spec (bucket_of q') (bucket_of q)) as [Eb|Nb], (beq_spec h' key) as [Eh|Nh]; cbn [andb] in S1;
      try (exact (m_right _ _ M _ _ _ P' S1)). injection S1 as <-. subst h'. exact (Good _ P'). }
  assert (Kp : forall r, In r (fst (refs q value)) -> part r) by (intros r Hr; eapply part_kid; eauto).
  assert (Kn : forall q', ~ In (q', key) (fst (refs q value))) by (apply (wh_self _ _ _ _ _ Wh q key value P); auto).
  assert (Kids : forall r, In r (fst (refs q value)) -> sat b2 r).
  { intros r Hr. destruct (A r Hr) as [K|[K|K]].
    - left. unfold have. rewrite Sg2. apply known_have; auto.
    - exfalso. destruct r as [q' h']. cbn in K. subst h'. exact (part_ne _ _ (Kp _ Hr) eq_refl).
    - right. exact K. }
  destruct M as [M1 M2 M3 M4 M5 M6 M7 M8 M9 M10 M11 M12 M13]. constructor; auto.
  - rewrite Sg2. exact R1.
  - intros q' h v r P' N S1 Hr. rewrite Rest in S1 by auto. apply Sm. eauto.
  - eauto.
  - intros bk q' Hd. apply in_app_iff in Hd as [Hd|[E|[]]].
    + destruct (M5 _ _ Hd) as [S1 S2]. split; [rewrite Sg2, Sg; destruct (_ && _); auto|auto].
    + injection E as <- <-. split; auto. rewrite Sg2, Sg, bk_refl, beq_refl. reflexivity.
  - intros bk' S1. rewrite Sg2, Sg in S1. destruct (bk_spec bk' (bucket_of q)) as [Eb|N]; cbn [andb] in S1.
    + subst bk'. right. exists q. apply in_or_app. right. now left.
    + destruct (M6 _ S1) as [X|(q' & X)]; [now left|right]. exists q'. apply in_or_app. now left.
  - intros h bk q' N X. apply (g_new _ _ _ G) in X as [X|(-> & Hr & K & _)].
    + rewrite Rest by auto. apply M7; auto.
    + repeat split; auto. rewrite Sg2. destruct (s_get (b_store b1) (bucket_of q') h) eqn:S1; auto. exfalso.
      assert (X : known (b_store b1) (q', h) = true) by (apply known_have; auto; unfold have; cbn [fst snd]; congruence). congruence.
  - rewrite (g_others _ _ _ G) by exact Kn. exact M8.
  - apply (g_some _ _ _ G). exact M9.
  - apply (g_nodup _ _ _ G). exact M10.
  - rewrite (g_resolved _ _ _ G). exact M11.
  - intros h bk N. rewrite Rest by auto. auto.
  - intros h Hk. specialize (M13 h Hk). destruct (find_request h (b_requests b)) as [rs'|] eqn:F; [|apply find_none in F; contradiction].
    destruct (g_keep _ _ _ G h rs' F) as (more & F'). destruct (in_dec (list_eq_dec Z.eq_dec) h (keys_of b2)); auto.
    apply find_none in n. congruence.
Qed.

Lemma feed_mid todo : forall done b, rs = done ++ todo -> mid done b ->
  exists b', feed account_refs api_ok todo key value b = (b', None) /\ mid rs b'.
Proof.
  induction todo as [|[bk q] todo IH]; intros done b E M; cbn [feed].
  - rewrite app_nil_r in E. subst done. eauto.
  - assert (Hin : In (bk, q) rs) by (rewrite E; apply in_or_app; right; now left).
    destruct (asker_part _ _ Hin) as [P Eb]. destruct (wh_has _ _ _ _ _ Wh _ _ P) as (v & Ev & _ & Ok).
    rewrite (Good _ P) in Ev. injection Ev as <-. rewrite Ok. apply (IH (done ++ [(bk, q)])); [rewrite <- app_assoc; exact E|].
    apply mid_step; auto.
Qed.

Lemma mid_end b : mid rs b -> inv (mk_builder (b_store b) (drop_request key (b_requests b)) None (S (b_resolved b))).
Proof.
  intros M. destruct M as [M1 M2 M3 M4 M5 M6 M7 M8 M9 M10 M11 M12 M13]. set (b' := mk_builder _ _ _ _).
  assert (Sm : forall r, sat b r -> sat b' r).
  { intros [q h] [X|X]; [now left|]. destruct X as (rs' & F & Hin). cbn [fst snd] in *. destruct (beq_spec h key) as [->|N].
    - left. rewrite M8 in F. injection F as <-. destruct (M5 _ _ Hin) as [S1 _]. unfold have. cbn [fst snd b' b_store]. congruence.
    - right. exists rs'. cbn [b' b_requests fst snd]. rewrite find_drop. destruct (beq_spec h key); [congruence|auto]. }
  assert (Ask : forall h bk q, asked b' bk q h -> h <> key /\ asked b bk q h).
  { intros h bk q (rs' & F & Hin). cbn [b' b_requests] in F. rewrite find_drop in F. destruct (beq_spec h key); [discriminate F|].
    split; auto. exists rs'. auto. }
  constructor; cbn [b' b_store b_mark]; auto.
  - intros q h v r P S1 Hin. apply Sm. destruct (beq_spec h key) as [->|N]; [|eauto].
    pose proof (M2 _ _ _ P S1) as W1. rewrite (Good _ P) in W1. injection W1 as <-.
    destruct (M6 (bucket_of q)) as [X|(q' & Hd)]; [congruence|eauto|].
    destruct (asker_part _ _ Hd) as [P' Eb]. rewrite (wh_same _ _ _ _ _ Wh q q' key value P P' Eb (Good _ P)) in Hin.
    exact (proj2 (M5 _ _ Hd) r Hin).
  - intros h bk q X. apply Ask in X as [N X]. apply M7; auto.
  - intros h rs' F. cbn [b' b_requests] in F. rewrite find_drop in F. destruct (bytes_eqb h key); [discriminate F|eauto].
  - unfold keys_of. cbn [b' b_requests]. apply nodup_drop. exact M10.
Qed.
End Feed.

Definition fair_data (v : bytes) : Prop := no_forgery H account_refs api_ok w roots v.

Lemma fair_good v : fair_data v -> forall q, part (q, H v) -> w (bucket_of q) (H v) = Some v.
Proof.
  intros F q P. destruct (wh_has _ _ _ _ _ Wh _ _ P) as (v0 & E & _ & _). rewrite (F q (H v) v0 P E eq_refl) at 2. exact E.
Qed.

(** One delivery: what it does. *)
Lemma on_data_inv b bid v : inv b -> fair_data v ->
  inv (fst (on_data H account_refs api_ok b bid v)) /\
  (has_hasher bid = true -> In (H v) (keys_of b) ->
     snd (on_data H account_refs api_ok b bid v) = None /\
     (forall h, In h (keys_of b) -> h <> H v -> In h (keys_of (fst (on_data H account_refs api_ok b bid v)))) /\
     (forall bk q, asked b bk q (H v) -> s_get (b_store (fst (on_data H account_refs api_ok b bid v))) bk (H v) = Some v)) /\
  (forall r, have (b_store b) r -> have (b_store (fst (on_data H account_refs api_ok b bid v))) r).
Proof.
  intros I F. unfold on_data. destruct (has_hasher bid); cbn [negb]; [|split; [exact I|split; [discriminate|auto]]].
  destruct (find_request (H v) (b_requests b)) as [rs|] eqn:E.
  2:{ split; [exact I|split; [intros _ X; exfalso; apply find_none in E; contradiction|auto]]. }
  destruct (feed_mid b I v (H v) rs E (fair_good v F) rs [] _ eq_refl (mid_start b I v (H v) rs E (fair_good v F))) as (b' & Ef & M).
  rewrite Ef. cbn [fst snd]. pose proof (mid_end b I v (H v) rs E (fair_good v F) b' M) as I'. split; [exact I'|]. split.
  - intros _ _. split; auto. split.
    + intros h Hk N. unfold keys_of. cbn [b_requests]. pose proof (m_keys _ _ _ _ _ _ M h Hk) as X.
      destruct (in_dec (list_eq_dec Z.eq_dec) h (map r_key (drop_request (H v) (b_requests b')))) as [Y|Y]; auto. exfalso.
      apply find_none in Y. rewrite find_drop in Y. destruct (beq_spec h (H v)); [congruence|]. apply find_none in Y. contradiction.
    + intros bk q (rs' & E' & Hin). rewrite E in E'. injection E' as <-. exact (proj1 (m_done _ _ _ _ _ _ M _ _ Hin)).
  - intros [q h] X. unfold have in *. cbn [fst snd b_store] in *. destruct (beq_spec h (H v)) as [->|N].
    + destruct (s_get (b_store b) (bucket_of q) (H v)) as [v'|] eqn:S1; [|congruence].
      destruct (s_get (b_store b') (bucket_of q) (H v)) eqn:S2; [discriminate|]. exfalso.
      clear - Ef S1 S2.
      assert (Z : forall rs b, s_get (b_store b) (bucket_of q) (H v) <> None -> s_get (b_store (fst (feed account_refs api_ok rs (H v) v b))) (bucket_of q) (H v) <> None).
      { clear. induction rs as [|[bk q'] rs IH]; intros b X; cbn [feed]; auto.
        set (b1 := mk_builder _ _ _ _). destruct (grown_wants (fst (refs q' v)) b1) as [G _].
        assert (Y : s_get (b_store (fold_left want (fst (refs q' v)) b1)) (bucket_of q) (H v) <> None).
        { rewrite (g_store _ _ _ G). cbn [b1 b_store]. rewrite s_get_set. destruct (_ && _); [discriminate|auto]. }
        destruct (snd (refs q' v)); [apply IH|]; exact Y. }
      specialize (Z rs (mk_builder (b_store b) (b_requests b) (Some (H v)) (b_resolved b))). rewrite Ef in Z. cbn [fst b_store] in Z. apply Z; auto. congruence.
    + rewrite (m_rest _ _ _ _ _ _ M h (bucket_of q) N). exact X.
Qed.

Lemma deliver_inv l : forall b, inv b -> Forall (fun d => fair_data (snd d)) l -> inv (deliver H account_refs api_ok b l).
Proof.
  induction l as [|[bk v] l IH]; intros b I F; cbn [deliver]; auto. apply IH; [|exact (Forall_inv_tail F)].
  apply on_data_inv; auto. exact (Forall_inv F).
Qed.
End Inv.
