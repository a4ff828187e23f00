(** Fetching a state: the builder's invariant. *)
From Coq Require Import Permutation.
From Verif Require Import Model.Bytes Model.DbKey Model.Mpt Model.StateSync Spec.StateSyncSpec Proof.BytesFacts.
Open Scope Z_scope.

Lemma beq_spec (a b : bytes) : reflect (a = b) (bytes_eqb a b).
Proof.
  revert b. induction a as [|x a IH]; intros [|y b]; cbn [bytes_eqb]; try (constructor; congruence).
  destruct (Z.eqb_spec x y); cbn [andb]; [|constructor; congruence]. destruct (IH b); constructor; congruence.
Qed.
Lemma beq_refl (a : bytes) : bytes_eqb a a = true.
Proof. destruct (beq_spec a a); congruence. Qed.
Lemma bk_spec (a b : bucket) : reflect (a = b) (bucket_eqb a b).
Proof. destruct a, b; cbn; try (constructor; congruence). destruct (beq_spec id id0); constructor; congruence. Qed.
Lemma bk_refl (a : bucket) : bucket_eqb a a = true.
Proof. destruct (bk_spec a a); congruence. Qed.

(** ** The store *)
Lemma item_is_sym bk k bk' k' v : item_is bk k (bk', k', v) = bucket_eqb bk bk' && bytes_eqb k k'.
Proof.
  unfold item_is. cbn [fst snd]. destruct (bk_spec bk' bk), (bk_spec bk bk'), (beq_spec k' k), (beq_spec k k'); congruence || reflexivity.
Qed.
Lemma find_app {A} (f : A -> bool) l l' : find f (l ++ l') = match find f l with Some x => Some x | None => find f l' end.
Proof. induction l as [|x l IH]; cbn [app find]; [reflexivity|]. destruct (f x); auto. Qed.
Lemma layer_filter l bk k b x : layer_find (filter (fun i => negb (item_is bk k i)) l) b x =
  if bucket_eqb b bk && bytes_eqb x k then None else layer_find l b x.
Proof.
  unfold layer_find. induction l as [|[[b' k'] v'] l IH]; cbn [filter find]; [destruct (_ && _); reflexivity|].
  rewrite !item_is_sym. destruct (bk_spec bk b'), (beq_spec k k'); cbn [andb negb find]; try rewrite item_is_sym;
    destruct (bk_spec b b'), (beq_spec x k'), (bk_spec b bk), (beq_spec x k); cbn [andb] in *; subst; try congruence; auto;
    destruct (find (item_is b x) l); auto.
Qed.
Lemma s_get_set s bk k v b x : s_get (s_set s bk k v) b x = if bucket_eqb b bk && bytes_eqb x k then Some v else s_get s b x.
Proof.
  unfold s_get, s_set. destruct (s_layer s) as [l|]; cbn [s_layer s_base]; [|reflexivity].
  unfold layer_find at 1. rewrite find_app. pose proof (layer_filter l bk k b x) as E. unfold layer_find at 1 in E.
  cbn [find]. rewrite item_is_sym. destruct (find _ (filter _ l)) as [i|].
  - destruct (bucket_eqb b bk && bytes_eqb x k); [discriminate E|]. rewrite <- E. reflexivity.
  - destruct (bucket_eqb b bk && bytes_eqb x k); [reflexivity|]. rewrite <- E. reflexivity.
Qed.

(** ** The requests *)
Definition keys_of (b : builder) : list bytes := map r_key (b_requests b).
Lemma find_also k k' a l : find_request k (also k' a l) =
  if bytes_eqb k k' then match find_request k l with Some rs => Some (rs ++ [a]) | None => None end else find_request k l.
Proof.
  unfold find_request, also. induction l as [|r l IH]; cbn [map find]; [destruct (bytes_eqb k k'); reflexivity|].
  destruct (beq_spec (r_key r) k') as [E|N].
  - cbn [r_key]. destruct (beq_spec (r_key r) k) as [E2|N2]; [|exact IH].
    rewrite <- E, <- E2, beq_refl. reflexivity.
  - destruct (beq_spec (r_key r) k) as [E2|N2]; [|exact IH]. destruct (beq_spec k k'); [congruence|reflexivity].
Qed.
Lemma keys_also k a l : map r_key (also k a l) = map r_key l.
Proof. unfold also. rewrite map_map. apply map_ext. intro r. destruct (bytes_eqb (r_key r) k); reflexivity. Qed.
Lemma find_insert k m x l : find_request (r_key x) l = None ->
  find_request k (insert_after m x l) = if bytes_eqb k (r_key x) then Some (r_askers x) else find_request k l.
Proof.
  unfold find_request. induction l as [|r l IH]; cbn [insert_after find]; intro N.
  - destruct (beq_spec (r_key x) k), (beq_spec k (r_key x)); congruence || reflexivity.
  - destruct (beq_spec (r_key r) (r_key x)) as [E|N2]; [discriminate N|]. destruct (beq_spec (r_key r) m); cbn [find].
    + destruct (beq_spec (r_key r) k) as [E|N3]; [destruct (beq_spec k (r_key x)); [congruence|reflexivity]|].
      destruct (beq_spec (r_key x) k), (beq_spec k (r_key x)); congruence || reflexivity.
    + destruct (beq_spec (r_key r) k) as [E|N3]; [destruct (beq_spec k (r_key x)); [congruence|reflexivity]|]. apply IH, N.
Qed.
Lemma find_push k x l : find_request (r_key x) l = None ->
  find_request k (l ++ [x]) = if bytes_eqb k (r_key x) then Some (r_askers x) else find_request k l.
Proof.
  unfold find_request. intro N. rewrite find_app. cbn [find].
  destruct (beq_spec (r_key x) k) as [E|N2], (beq_spec k (r_key x)) as [E2|N3]; try congruence.
  - subst k. destruct (find _ l); [discriminate N|reflexivity].
  - clear N. destruct (find _ l); reflexivity.
Qed.
Lemma find_drop k k' l : find_request k (drop_request k' l) = if bytes_eqb k k' then None else find_request k l.
Proof.
  unfold find_request, drop_request. induction l as [|r l IH]; cbn [filter find]; [destruct (bytes_eqb k k'); reflexivity|].
  destruct (beq_spec (r_key r) k') as [E|N]; cbn [negb find].
  - rewrite IH. destruct (beq_spec k k'); [reflexivity|]. destruct (beq_spec (r_key r) k); [congruence|reflexivity].
  - destruct (beq_spec (r_key r) k) as [E2|N2]; [destruct (beq_spec k k'); [congruence|reflexivity]|exact IH].
Qed.
Lemma find_none k l : find_request k l = None <-> ~ In k (map r_key l).
Proof.
  unfold find_request. induction l as [|r l IH]; cbn [find map]; [tauto|]. destruct (beq_spec (r_key r) k) as [E|N].
  - split; [discriminate|]. intro X. exfalso. apply X. left. exact E.
  - rewrite IH. cbn [In]. split; [intros X [Y|Y]; [congruence|tauto]|tauto].
Qed.
Lemma insert_perm m x l : Permutation (x :: l) (insert_after m x l).
Proof.
  induction l as [|r l IH]; cbn [insert_after]; [reflexivity|]. destruct (bytes_eqb (r_key r) m); [apply perm_swap|].
  rewrite perm_swap. constructor. exact IH.
Qed.
Lemma nodup_insert m x l : NoDup (map r_key l) -> ~ In (r_key x) (map r_key l) -> NoDup (map r_key (insert_after m x l)).
Proof.
  intros N X. eapply Permutation_NoDup; [apply Permutation_map, insert_perm|]. cbn [map]. now constructor.
Qed.
Lemma nodup_push x l : NoDup (map r_key l) -> ~ In (r_key x) (map r_key l) -> NoDup (map r_key (l ++ [x])).
Proof.
  intros N X. eapply Permutation_NoDup; [apply Permutation_map, Permutation_cons_append|]. cbn [map]. now constructor.
Qed.
Lemma nodup_drop k l : NoDup (map r_key l) -> NoDup (map r_key (drop_request k l)).
Proof.
  unfold drop_request. induction l as [|r l IH]; cbn [filter map]; intro N; [constructor|]. inversion N as [|? ? A B]; subst.
  destruct (negb _); cbn [map]; [constructor|]; auto. intro X. apply A. apply in_map_iff in X as (r' & E & Hin).
  apply filter_In in Hin. apply in_map_iff. exists r'. tauto.
Qed.

(** ** What a request changes *)
Definition asked (b : builder) (bk : bucket) (q : asker) (k : bytes) : Prop :=
  exists rs, find_request k (b_requests b) = Some rs /\ In (bk, q) rs.
Record grown (l : list ref) (b b' : builder) : Prop := mk_grown {
  g_store : b_store b' = b_store b;
  g_resolved : b_resolved b' = b_resolved b;
  g_keep : forall k rs, find_request k (b_requests b) = Some rs -> exists more, find_request k (b_requests b') = Some (rs ++ more);
  g_new : forall k bk q, asked b' bk q k -> asked b bk q k \/ (bk = bucket_of q /\ In (q, k) l /\ known (b_store b) (q, k) = false /\ k <> []);
  g_others : forall k, (forall q, ~ In (q, k) l) -> find_request k (b_requests b') = find_request k (b_requests b);
  g_some : (forall k rs, find_request k (b_requests b) = Some rs -> rs <> []) -> forall k rs, find_request k (b_requests b') = Some rs -> rs <> [];
  g_nodup : NoDup (keys_of b) -> NoDup (keys_of b')
}.
Lemma grown_refl b : grown [] b b.
Proof.
  constructor; auto. intros k rs E. exists []. now rewrite app_nil_r.
Qed.
Lemma grown_want b r : grown [r] b (want b r) /\ (known (b_store b) r = true \/ snd r = [] \/ asked (want b r) (bucket_of (fst r)) (fst r) (snd r)).
Proof.
  destruct r as [q h]. unfold want. cbn [fst snd]. destruct (known (b_store b) (q, h)) eqn:K.
  { split; [|now left]. pose proof (grown_refl b) as [A B C D E F G]. constructor; auto. }
  unfold request_data. destruct h as [|h0 hr]; [split; [|now right; left]; pose proof (grown_refl b) as [A B C D E F G]; constructor; auto|].
  remember (h0 :: hr) as h eqn:Eh. assert (Hn : h <> []) by (subst h; discriminate). clear Eh.
  assert (Hh : has_hasher (bucket_of q) = true) by (destruct q; reflexivity). rewrite Hh. cbn [negb].
  destruct (find_request h (b_requests b)) as [rs|] eqn:Ef.
  - split; [|right; right; exists (rs ++ [(bucket_of q, q)]); cbn [b_requests]; rewrite find_also, beq_refl, Ef; split; [reflexivity|apply in_or_app; right; now left]].
    constructor; cbn [b_store b_resolved b_requests]; auto.
    + intros k rs' E. rewrite find_also. destruct (beq_spec k h) as [->|N]; [rewrite E; eauto|]. exists []. now rewrite app_nil_r.
    + intros k bk q' (rs' & E & Hin). cbn [b_requests] in E. rewrite find_also in E. destruct (beq_spec k h) as [->|N]; [|left; exists rs'; auto].
      rewrite Ef in E. injection E as <-. apply in_app_iff in Hin as [Hin|[E|[]]]; [left; exists rs; auto|]. injection E as <- <-. right. repeat split; auto. now left.
    + intros k N. rewrite find_also. destruct (beq_spec k h) as [->|N2]; [exfalso; apply (N q); now left|reflexivity].
    + intros S1 k rs' E. rewrite find_also in E. destruct (beq_spec k h) as [->|N2]; [|eauto]. rewrite Ef in E. injection E as <-. now destruct rs.
    + unfold keys_of. cbn [b_requests]. now rewrite keys_also.
  - set (x := mk_request h [(bucket_of q, q)]).
    assert (Hx : forall b', b_store b' = b_store b -> b_resolved b' = b_resolved b ->
      (forall k, find_request k (b_requests b') = if bytes_eqb k h then Some [(bucket_of q, q)] else find_request k (b_requests b)) ->
      (NoDup (keys_of b) -> NoDup (keys_of b')) ->
      grown [(q, h)] b b' /\ (false = true \/ h = [] \/ asked b' (bucket_of q) q h)).
    { intros b' Es Er Efd Nd. split.
      - constructor; auto.
        + intros k rs E. rewrite Efd. destruct (beq_spec k h) as [->|N]; [congruence|]. exists []. now rewrite app_nil_r.
        + intros k bk q' (rs' & E & Hin). rewrite Efd in E. destruct (beq_spec k h) as [->|N]; [|left; exists rs'; auto].
          injection E as <-. destruct Hin as [E|[]]. injection E as <- <-. right. repeat split; auto. now left.
        + intros k N. rewrite Efd. destruct (beq_spec k h) as [->|N2]; [exfalso; apply (N q); now left|reflexivity].
        + intros S1 k rs' E. rewrite Efd in E. destruct (beq_spec k h) as [->|N2]; [injection E as <-; discriminate|eauto].
      - right. right. exists [(bucket_of q, q)]. rewrite Efd, beq_refl. split; [reflexivity|now left]. }
    pose proof (proj1 (find_none h _) Ef) as Nin. destruct (b_mark b) as [m|]; apply Hx; auto.
    + intro k. apply (find_insert k m x). exact Ef.
    + intro N. apply (nodup_insert m x); auto.
    + intro k. apply (find_push k x). exact Ef.
    + intro N. apply (nodup_push x); auto.
Qed.
Lemma grown_trans l1 l2 b b1 b2 : grown l1 b b1 -> grown l2 b1 b2 -> grown (l1 ++ l2) b b2.
Proof.
  intros [A1 A2 A3 A4 A5 A6 A7] [B1 B2 B3 B4 B5 B6 B7]. constructor; auto; try congruence.
  - intros k rs E. destruct (A3 _ _ E) as (m1 & E1). destruct (B3 _ _ E1) as (m2 & E2). exists (m1 ++ m2). now rewrite app_assoc.
  - intros k bk q X. apply B4 in X as [X|(X1 & X2 & X3 & X4)]; [apply A4 in X as [X|(X1 & X2 & X3 & X4)]; [now left|right]|right].
    + repeat split; auto. apply in_or_app. now left.
    + repeat split; auto; [apply in_or_app; now right|congruence].
  - intros k N. rewrite B5, A5; auto; intros q X; apply (N q), in_or_app; auto.
  - intros S1. exact (B6 (A6 S1)).
Qed.
Lemma asked_mono l b b' bk q k : grown l b b' -> asked b bk q k -> asked b' bk q k.
Proof.
  intros G (rs & E & Hin). destruct (g_keep _ _ _ G _ _ E) as (more & E'). exists (rs ++ more). split; auto. apply in_or_app. now left.
Qed.
Lemma grown_wants l : forall b, grown l b (fold_left want l b) /\
  forall r, In r l -> known (b_store b) r = true \/ snd r = [] \/ asked (fold_left want l b) (bucket_of (fst r)) (fst r) (snd r).
Proof.
  induction l as [|r l IH]; intro b; cbn [fold_left]; [split; [apply grown_refl|intros ? []]|].
  destruct (grown_want b r) as [G1 A1]. destruct (IH (want b r)) as [G2 A2]. split; [exact (grown_trans [r] l _ _ _ G1 G2)|].
  intros r' [<-|Hin].
  - destruct A1 as [A|[A|A]]; auto. right. right. eapply asked_mono; eauto.
  - rewrite (g_store _ _ _ G1) in A2. auto.
Qed.
