(** Fetching a state: copies end, and only what was asked for is written. *)
From Coq Require Import Permutation.
From Verif Require Import Model.Bytes Model.DbKey Model.Mpt Model.StateSync Spec.StateSyncSpec Proof.BytesFacts Proof.StateSyncFacts Proof.StateSyncInv.
Open Scope Z_scope.

(** ** Only what was asked for, under its own hash *)
Section Sound.
Context (H : bytes -> bytes) (account_refs : bytes -> option (list ref)) (api_ok : bytes -> bool).
Notation refs := (refs_of account_refs api_ok).

Lemma feed_sound rs key value : forall b bk k v,
  s_get (b_store (fst (feed account_refs api_ok rs key value b))) bk k = Some v ->
  s_get (b_store b) bk k = Some v \/ (k = key /\ v = value /\ exists q, In (bk, q) rs).
Proof.
  induction rs as [|[bk' q'] rs IH]; intros b bk k v; cbn [feed]; auto.
  set (b1 := mk_builder _ _ _ _). destruct (grown_wants (fst (refs q' value)) b1) as [G _].
  assert (Y : s_get (b_store (fold_left want (fst (refs q' value)) b1)) bk k = Some v -> s_get (b_store b) bk k = Some v \/ (k = key /\ v = value /\ exists q, In (bk, q) ((bk', q') :: rs))).
  { rewrite (g_store _ _ _ G). cbn [b1 b_store]. rewrite s_get_set. destruct (bk_spec bk bk') as [Eb|N], (beq_spec k key) as [Ek|N2]; cbn [andb]; auto.
    intro X. injection X as <-. subst. right. repeat split; auto. exists q'. now left. }
  destruct (snd (refs q' value)); [|exact Y]. intro X. apply IH in X as [X|(A & B & q & C)]; [auto|]. right. repeat split; auto. exists q. now right.
Qed.
Lemma on_data_sound b bid value bk k v : s_get (b_store (fst (on_data H account_refs api_ok b bid value))) bk k = Some v ->
  s_get (b_store b) bk k = Some v \/ (k = H value /\ v = value /\ exists q, asked b bk q k).
Proof.
  unfold on_data. destruct (negb (has_hasher bid)); auto. destruct (find_request (H value) (b_requests b)) as [rs|] eqn:E; auto.
  pose proof (feed_sound rs (H value) value (mk_builder (b_store b) (b_requests b) (Some (H value)) (b_resolved b)) bk k v) as X.
  destruct (feed _ _ _ _ _ _) as [b1 [e|]]; cbn [fst b_store] in *; intro Y; apply X in Y as [Y|(A & B & q & C)]; auto; right; repeat split; auto; exists q, rs; subst k; auto.
Qed.
Lemma deliver_sound l : forall b bk k v, s_get (b_store (deliver H account_refs api_ok b l)) bk k = Some v ->
  s_get (b_store b) bk k = Some v \/ (H v = k /\ exists bid, In (bid, v) l).
Proof.
  induction l as [|[bid x] l IH]; intros b bk k v; cbn [deliver]; auto. intro X. apply IH in X as [X|(A & bid' & B)].
  - apply on_data_sound in X as [X|(A & B & _)]; auto. subst. right. split; auto. exists bid. now left.
  - right. split; auto. exists bid'. now right.
Qed.
Lemma on_data_unasked b bid value : ~ In (H value) (keys_of b) -> fst (on_data H account_refs api_ok b bid value) = b /\ snd (on_data H account_refs api_ok b bid value) <> None.
Proof.
  intro N. unfold on_data. destruct (negb (has_hasher bid)); [split; [reflexivity|discriminate]|]. apply find_none in N. rewrite N. split; [reflexivity|discriminate].
Qed.
End Sound.

Section Run.
Context (H : bytes -> bytes) (account_refs : bytes -> option (list ref)) (api_ok : bytes -> bool).
Notation refs := (refs_of account_refs api_ok).
Context (w : base) (roots : list ref).
Notation part := (part account_refs api_ok w roots).
Context (Hne : forall v, H v <> []) (Wh : whole H account_refs api_ok w roots).
Notation inv := (inv account_refs api_ok w roots).
Notation fair_data := (fair_data H account_refs api_ok w roots).
Notation copy_row := (copy_row H account_refs api_ok).
Notation run := (run H account_refs api_ok).

Lemma on_data_inv' b bid v : inv b -> fair_data v ->
  inv (fst (on_data H account_refs api_ok b bid v)) /\
  (has_hasher bid = true -> In (H v) (keys_of b) ->
     snd (on_data H account_refs api_ok b bid v) = None /\
     (forall h, In h (keys_of b) -> h <> H v -> In h (keys_of (fst (on_data H account_refs api_ok b bid v)))) /\
     (forall bk q, asked b bk q (H v) -> s_get (b_store (fst (on_data H account_refs api_ok b bid v))) bk (H v) = Some v)) /\
  (forall r, have (b_store b) r -> have (b_store (fst (on_data H account_refs api_ok b bid v))) r).
Proof. apply on_data_inv; auto. Qed.

Lemma lookup_in src bks k id v : lookup_source src bks k = Some (id, v) -> src id k = Some v.
Proof.
  induction bks as [|[bk q] bks IH]; cbn [lookup_source]; [discriminate|]. destruct (src bk k) eqn:E; [|auto]. intro X. injection X as <- <-. exact E.
Qed.

(** Nothing is on disk before a flush, and everything after it. *)
Definition layer_nodup (s : store) : Prop := match s_layer s with Some l => NoDup (map fst l) | None => True end.
Lemma set_nodup s bk k v : layer_nodup s -> layer_nodup (s_set s bk k v).
Proof.
  unfold layer_nodup, s_set. destruct (s_layer s) as [l|]; cbn [s_layer]; auto. intro N. rewrite map_app. cbn [map fst].
  eapply Permutation_NoDup; [apply Permutation_cons_append|]. constructor.
  - intro X. apply in_map_iff in X as ([[bk' k'] v'] & E & X). cbn in E. injection E as -> ->. apply filter_In in X as [_ X]. rewrite item_is_sym, bk_refl, beq_refl in X. discriminate X.
  - clear - N. induction l as [|i l IH]; cbn [filter map]; [constructor|]. inversion N as [|? ? A B]; subst. destruct (negb _); cbn [map]; auto. constructor; auto.
    intro X. apply A. apply in_map_iff in X as (j & E & X). apply filter_In in X as [X _]. apply in_map_iff. exists j. auto.
Qed.
Definition same_disk (s s' : store) : Prop := s_base s' = s_base s /\ s_layer s' <> None.
Lemma set_disk s bk k v : s_layer s <> None -> same_disk s (s_set s bk k v).
Proof. unfold same_disk, s_set. destruct (s_layer s) as [l|]; [split; [reflexivity|discriminate]|congruence]. Qed.
Lemma feed_disk rs key value : forall b, s_layer (b_store b) <> None -> layer_nodup (b_store b) ->
  same_disk (b_store b) (b_store (fst (feed account_refs api_ok rs key value b))) /\ layer_nodup (b_store (fst (feed account_refs api_ok rs key value b))).
Proof.
  induction rs as [|[bk' q'] rs IH]; intros b L N; cbn [feed]; [split; [split; auto|auto]|].
  set (b1 := mk_builder _ _ _ _). destruct (grown_wants (fst (refs q' value)) b1) as [G _].
  destruct (set_disk (b_store b) bk' key value L) as [D1 D2].
  assert (E : b_store (fold_left want (fst (refs q' value)) b1) = s_set (b_store b) bk' key value) by (rewrite (g_store _ _ _ G); reflexivity).
  destruct (snd (refs q' value)).
  - destruct (IH (fold_left want (fst (refs q' value)) b1)) as [[A1 A2] B]; [rewrite E; exact D2|rewrite E; now apply set_nodup|].
    split; [split; [rewrite A1, E; exact D1|exact A2]|exact B].
  - cbn [fst]. rewrite E. split; [split; auto|now apply set_nodup].
Qed.
Lemma on_data_disk b bid v : s_layer (b_store b) <> None -> layer_nodup (b_store b) ->
  same_disk (b_store b) (b_store (fst (on_data H account_refs api_ok b bid v))) /\ layer_nodup (b_store (fst (on_data H account_refs api_ok b bid v))).
Proof.
  intros L N. unfold on_data. destruct (negb _); [split; [split; auto|auto]|]. destruct (find_request _ _) as [rs|]; [|split; [split; auto|auto]].
  destruct (feed_disk rs (H v) v (mk_builder (b_store b) (b_requests b) (Some (H v)) (b_resolved b)) L N) as [A B].
  destruct (feed _ _ _ _ _ _) as [b1 [e|]]; cbn [fst b_store] in *; auto.
Qed.
Lemma deliver_disk l : forall b, s_layer (b_store b) <> None -> layer_nodup (b_store b) ->
  same_disk (b_store b) (b_store (deliver H account_refs api_ok b l)) /\ layer_nodup (b_store (deliver H account_refs api_ok b l)).
Proof.
  induction l as [|[bk v] l IH]; intros b L N; cbn [deliver]; [split; [split; auto|auto]|].
  destruct (on_data_disk b bk v L N) as [[A1 A2] B]. destruct (IH _ A2 B) as [[C1 C2] D]. split; [split; [congruence|auto]|auto].
Qed.
Lemma write_get l : forall d bk k, NoDup (map fst l) -> write_items d l bk k = match layer_find l bk k with Some v => Some v | None => d bk k end.
Proof.
  induction l as [|[[b x] v] l IH]; intros d bk k N; [reflexivity|]. cbn [map fst] in N. inversion N as [|? ? A B]; subst.
  change (write_items d ((b, x, v) :: l)) with (write_items (base_set d b x v) l). rewrite IH by auto. unfold layer_find. cbn [find]. rewrite item_is_sym.
  unfold base_set. destruct (bk_spec bk b) as [Eb|Nb], (beq_spec k x) as [Ex|Nx]; cbn [andb]; auto.
  subst. destruct (find (item_is b x) l) as [[[b' x'] v']|] eqn:F; [|reflexivity]. exfalso.
  apply find_some in F as [F1 F2]. rewrite item_is_sym in F2. apply andb_true_iff in F2 as [F2 F3].
  destruct (bk_spec b b'); [|discriminate F2]. destruct (beq_spec x x'); [|discriminate F3]. subst. apply A. apply in_map_iff. exists (b', x', v'). auto.
Qed.
Lemma flush_get s bk k : layer_nodup s -> s_base (s_flush s true) bk k = s_get s bk k /\ s_get (s_flush s true) bk k = s_get s bk k.
Proof.
  unfold layer_nodup, s_flush, s_get. destruct (s_layer s) as [l|] eqn:E; cbn [s_base s_layer]; [|rewrite E; auto]. intro N.
  pose proof (write_get l (s_base s) bk k N). auto.
Qed.

Section Any.
Context (src : base) (Fair : forall bk k v, src bk k = Some v -> fair_data v).
Lemma row_inv keys : forall b, inv b -> inv (fst (copy_row src keys b)).
Proof.
  induction keys as [|k keys IH]; intros b I; cbn [StateSync.copy_row]; auto. destruct (find_request k (b_requests b)) as [bks|]; auto.
  destruct (lookup_source src bks k) as [[id v]|] eqn:E; auto. pose proof (proj1 (on_data_inv' b id v I (Fair _ _ _ (lookup_in _ _ _ _ _ E)))) as I'.
  destruct (on_data _ _ _ b id v) as [b' [e|]]; cbn [fst] in *; auto.
Qed.
Lemma run_inv fuel : forall b, inv b -> inv (fst (run fuel src b)) /\ (snd (run fuel src b) = None -> b_requests (fst (run fuel src b)) = []).
Proof.
  induction fuel as [|f IH]; intros b I.
  - cbn [StateSync.run]. destruct (b_requests b) eqn:E; cbn [fst snd]; [auto|split; [auto|discriminate]].
  - cbn [StateSync.run]. destruct (b_requests b) as [|r0 rs0] eqn:E; cbn [fst snd]; [auto|].
    pose proof (row_inv (firstn 50 (map r_key (r0 :: rs0))) b I) as I'. destruct (copy_row src _ b) as [b' [e|]]; cbn [fst snd] in *; [split; [auto|discriminate]|]. apply IH. exact I'.
Qed.
End Any.

Section Full.
Context (src : base) (Full : forall q h, part (q, h) -> src (bucket_of q) h = w (bucket_of q) h).
Context (Inj : forall q h v, part (q, h) -> w (bucket_of q) h = Some v -> fair_data v).

Lemma lookup_full b k bks : inv b -> find_request k (b_requests b) = Some bks ->
  exists q v, asked b (bucket_of q) q k /\ lookup_source src bks k = Some (bucket_of q, v) /\ part (q, k) /\ w (bucket_of q) k = Some v /\ H v = k.
Proof.
  intros I F. pose proof (i_some _ _ _ _ _ I _ _ F) as N. destruct bks as [|[bk q] bks]; [congruence|].
  assert (A : asked b bk q k) by (exists ((bk, q) :: bks); split; [exact F|now left]).
  destruct (i_pend _ _ _ _ _ I _ _ _ A) as (P & -> & _). destruct (wh_has _ _ _ _ _ Wh _ _ P) as (v & Ev & Eh & _).
  exists q, v. cbn [lookup_source]. rewrite (Full _ _ P), Ev. auto.
Qed.

Fixpoint missing (s : store) (l : list ref) : nat :=
  match l with
  | [] => 0
  | r :: l' => (match s_get s (bucket_of (fst r)) (snd r) with Some _ => 0 | None => 1 end + missing s l')%nat
  end.
Lemma missing_le s s' l : (forall r, In r l -> have s r -> have s' r) -> (missing s' l <= missing s l)%nat.
Proof.
  induction l as [|r l IH]; intro X; cbn [missing]; [lia|]. specialize (IH (fun r Hr => X r (or_intror Hr))). specialize (X r (or_introl eq_refl)).
  unfold have in X. destruct (s_get s _ _), (s_get s' _ _); try lia. exfalso. apply X; congruence.
Qed.
Lemma missing_lt s s' l r : (forall r, In r l -> have s r -> have s' r) -> In r l -> ~ have s r -> have s' r -> (missing s' l < missing s l)%nat.
Proof.
  induction l as [|r0 l IH]; intros X Hin A B; [destruct Hin|]. cbn [missing].
  pose proof (missing_le s s' l (fun r Hr => X r (or_intror Hr))) as L. destruct Hin as [->|Hin].
  - unfold have in A, B. destruct (s_get s _ _); [exfalso; apply A; discriminate|]. destruct (s_get s' _ _); [lia|congruence].
  - specialize (IH (fun r Hr => X r (or_intror Hr)) Hin A B). specialize (X r0 (or_introl eq_refl)). unfold have in X.
    destruct (s_get s _ _), (s_get s' _ _); try lia. exfalso. apply X; congruence.
Qed.

Context (R : list ref) (Cover : forall r, part r -> In r R).

Lemma one_copy b k : inv b -> In k (keys_of b) ->
  exists bks id v b', find_request k (b_requests b) = Some bks /\ lookup_source src bks k = Some (id, v) /\ on_data H account_refs api_ok b id v = (b', None) /\
    inv b' /\ (forall h, In h (keys_of b) -> h <> k -> In h (keys_of b')) /\ (missing (b_store b') R < missing (b_store b) R)%nat.
Proof.
  intros I Hk. destruct (find_request k (b_requests b)) as [bks|] eqn:F; [|apply find_none in F; contradiction].
  destruct (lookup_full b k bks I F) as (q & v & A & L & P & Ev & Eh).
  destruct (on_data_inv' b (bucket_of q) v I (Inj _ _ _ P Ev)) as (I' & O & Mono). rewrite Eh in *.
  destruct O as (O1 & O2 & O3); [destruct q; reflexivity|exact Hk|].
  destruct (on_data _ _ _ b (bucket_of q) v) as [b' e] eqn:Eo. cbn [fst snd] in *. subst e.
  exists bks, (bucket_of q), v, b'. split; [auto|]. split; [auto|]. split; [auto|]. split; [exact I'|]. split; [auto|].
  apply (missing_lt _ _ R (q, k)); auto.
  - intro X. destruct (i_pend _ _ _ _ _ I _ _ _ A) as (_ & _ & Z). apply X. exact Z.
  - unfold have. cbn [fst snd]. rewrite (O3 _ _ A). discriminate.
Qed.
Lemma row_full keys : forall b, inv b -> NoDup keys -> (forall k, In k keys -> In k (keys_of b)) ->
  exists b', copy_row src keys b = (b', None) /\ inv b' /\ (missing (b_store b') R + length keys <= missing (b_store b) R)%nat.
Proof.
  induction keys as [|k keys IH]; intros b I N Hk; cbn [StateSync.copy_row length]; [exists b; split; [auto|split; [exact I|lia]]|].
  destruct (one_copy b k I (Hk k (or_introl eq_refl))) as (bks & id & v & b1 & F & L & O & I1 & K1 & M1). rewrite F, L, O.
  inversion N as [|? ? N1 N2]; subst. destruct (IH b1 I1 N2) as (b2 & E & I2 & M2).
  { intros k' Hk'. apply K1; [apply Hk; now right|intros ->; contradiction]. }
  exists b2. split; [auto|split; [exact I2|lia]].
Qed.
Lemma in_firstn {A} (x : A) n l : In x (firstn n l) -> In x l.
Proof. rewrite <- (firstn_skipn n l) at 2. intro. apply in_or_app. now left. Qed.
Lemma NoDup_firstn {A} n (l : list A) : NoDup l -> NoDup (firstn n l).
Proof.
  revert n. induction l as [|x l IH]; intros [|n] N; cbn [firstn]; try constructor; inversion N; subst; auto.
  intro X. apply in_firstn in X. contradiction.
Qed.
Lemma run_full fuel : forall b, inv b -> (missing (b_store b) R <= fuel)%nat -> exists b', run fuel src b = (b', None) /\ inv b' /\ b_requests b' = [].
Proof.
  induction fuel as [|f IH]; intros b I M.
  - cbn [StateSync.run]. destruct (b_requests b) as [|r l] eqn:E; [eauto|]. exfalso.
    destruct (one_copy b (r_key r) I) as (? & ? & ? & b' & _ & _ & _ & _ & _ & X); [unfold keys_of; rewrite E; now left|]. lia.
  - cbn [StateSync.run]. destruct (b_requests b) as [|r l] eqn:E; [eauto|]. rewrite <- E.
    destruct (row_full (firstn 50 (map r_key (b_requests b))) b I) as (b1 & E1 & I1 & M1).
    + apply NoDup_firstn. exact (i_nodup _ _ _ _ _ I).
    + intros k Hk. apply in_firstn in Hk. exact Hk.
    + rewrite E1. apply IH; auto. rewrite E in M1. cbn [map firstn length] in M1. lia.
Qed.
End Full.
End Run.
