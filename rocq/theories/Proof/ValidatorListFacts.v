(** The validator list is a list; its snapshots never change. *)
From Verif Require Import Model.HvhState Model.ValidatorList Spec.ValidatorListSpec.
From Coq Require Import ZArith List Bool Arith Lia.
Import ListNotations.
Open Scope nat_scope.

Lemma addr_eqb_eq a b : addr_eqb a b = true <-> a = b.
Proof.
  unfold addr_eqb. destruct a as [c i], b as [d j]. cbn. rewrite andb_true_iff, Bool.eqb_true_iff, Z.eqb_eq.
  split; [intros [-> ->]; auto | intros H; injection H; auto].
Qed.
Lemma addr_eqb_refl a : addr_eqb a a = true.
Proof. apply addr_eqb_eq. auto. Qed.
Lemma addr_eqb_ne a b : addr_eqb a b = false <-> a <> b.
Proof. rewrite <- addr_eqb_eq. destruct (addr_eqb a b); split; congruence. Qed.
Lemma addr_dec (a b : addr) : {a = b} + {a <> b}.
Proof. destruct (addr_eqb a b) eqn:E; [left; apply addr_eqb_eq; auto | right; apply addr_eqb_ne; auto]. Qed.

Lemma bytes_eqb_eq a : forall b, bytes_eqb a b = true -> a = b.
Proof.
  induction a as [|x a IH]; intros [|y b] H; cbn in H; try discriminate; auto.
  apply andb_true_iff in H as [H1 H2]. apply Z.eqb_eq in H1. f_equal; auto.
Qed.
Lemma same_list_eq l : forall k, same_list l k = true -> l = k.
Proof.
  induction l as [|x l IH]; intros [|y k] H; cbn in H; try discriminate; auto.
  apply andb_true_iff in H as [H1 H2]. f_equal; [|auto]. unfold validator_eqb in H1. apply andb_true_iff in H1 as [A B].
  apply addr_eqb_eq in A. apply bytes_eqb_eq in B. destruct x, y; cbn in *; congruence.
Qed.

(** ** Index maps *)
Lemma map_get_set m a i b : map_get (map_set m a i) b = if addr_eqb a b then Some i else map_get m b.
Proof. reflexivity. Qed.
Lemma map_get_del m a b : map_get (map_del m a) b = if addr_eqb a b then None else map_get m b.
Proof.
  induction m as [|[k i] r IH]; cbn; [destruct (addr_eqb a b); auto|].
  fold (map_del r a). destruct (addr_eqb k a) eqn:E; cbn [negb map_get fst].
  - rewrite IH. apply addr_eqb_eq in E. subst k. destruct (addr_eqb a b); auto.
  - rewrite IH. destruct (addr_eqb k b) eqn:F; [|auto]. apply addr_eqb_eq in F. subst k.
    destruct (addr_eqb a b) eqn:G; [|auto]. apply addr_eqb_eq in G. subst a. rewrite addr_eqb_refl in E. discriminate.
Qed.
Lemma make_map_get l : forall i m a, NoDup (addrs l) ->
  map_get (make_map_from i l m) a =
  match map_get (make_map_from 0 l []) a with Some j => Some (i + j) | None => map_get m a end /\
  (forall j, map_get (make_map_from 0 l []) a = Some j -> nth_error (addrs l) j = Some a) /\
  (map_get (make_map_from 0 l []) a = None -> ~ In a (addrs l)).
Proof.
  induction l as [|v r IH]; intros i m a nd; cbn [make_map_from addrs map].
  - repeat split; [intros j H; discriminate H | auto].
  - inversion nd as [|x y nv nd' E]. subst.
    destruct (IH (S i) (map_set m (v_addr v) i) a nd') as (A1 & B1 & C1).
    destruct (IH 1 (map_set [] (v_addr v) 0) a nd') as (A2 & _).
    rewrite A1, A2. destruct (map_get (make_map_from 0 r []) a) as [j|] eqn:G.
    + repeat split.
      * f_equal. lia.
      * intros k K. injection K as <-. cbn. apply B1. auto.
      * discriminate.
    + cbn [map_get map_set]. destruct (addr_eqb (v_addr v) a) eqn:F.
      * apply addr_eqb_eq in F. repeat split; [f_equal; lia | intros k K; injection K as <-; cbn; congruence | discriminate].
      * repeat split; [discriminate|]. intros _ [H|H]; [|apply C1; auto]. rewrite H, addr_eqb_refl in F. discriminate.
Qed.
Definition map_ok (c : cell) : Prop := forall m a, c_map c = Some m -> at_index (c_list c) a (map_get m a).
Lemma make_map_ok l a : NoDup (addrs l) -> at_index l a (map_get (make_map l) a).
Proof.
  intros nd. destruct (make_map_get l 0 [] a nd) as (_ & B & C). unfold make_map, at_index.
  destruct (map_get _ a) as [j|] eqn:G; auto.
Qed.
(** The strict check: as many keys as entries. *)
Lemma map_len_le m : map_len m <= length m.
Proof. induction m as [|[k i] r IH]; cbn; [lia|]. destruct (existsb _ r); lia. Qed.
Lemma map_len_full m : map_len m = length m <-> NoDup (map fst m).
Proof.
  induction m as [|[k i] r IH]; cbn; [split; [constructor | auto]|]. pose proof (map_len_le r).
  assert (X : existsb (fun p => addr_eqb (fst p) k) r = true <-> In k (map fst r)).
  { rewrite existsb_exists, in_map_iff. split.
    - intros (p & Hp & E). apply addr_eqb_eq in E. exists p. auto.
    - intros (p & E & Hp). exists p. split; [auto|]. rewrite E. apply addr_eqb_refl. }
  destruct (existsb _ r) eqn:E.
  - split; [lia|]. intros H1. inversion H1. subst. tauto.
  - split; [intros L; constructor; [rewrite <- X; congruence | apply IH; lia]|]. intros H1. inversion H1. subst. f_equal. apply IH. auto.
Qed.
Lemma make_map_keys l : forall i m, map fst (make_map_from i l m) = rev (addrs l) ++ map fst m /\ length (make_map_from i l m) = length l + length m.
Proof.
  induction l as [|v r IH]; intros i m; cbn; [auto|]. destruct (IH (S i) (map_set m (v_addr v) i)) as [A B]. rewrite A, B. cbn.
  split; [|lia]. rewrite <- app_assoc. reflexivity.
Qed.
Lemma strict_ok l : Nat.eqb (map_len (make_map l)) (length l) = true <-> NoDup (addrs l).
Proof.
  rewrite Nat.eqb_eq. destruct (make_map_keys l 0 []) as [A B]. unfold make_map in *. rewrite Nat.add_0_r in B. rewrite <- B.
  rewrite map_len_full, A, app_nil_r. split; intros H; [|apply NoDup_rev; auto]. rewrite <- (rev_involutive (addrs l)). apply NoDup_rev. auto.
Qed.

(** ** Positions *)
Lemma addrs_nth l i a : nth_error (addrs l) i = Some a -> exists v, nth_error l i = Some v /\ v_addr v = a.
Proof. unfold addrs. rewrite nth_error_map. destruct (nth_error l i) as [v|]; cbn; intros H; [injection H as <-; eauto | discriminate]. Qed.
Lemma nth_split' {A} (l : list A) i v : nth_error l i = Some v -> exists l1 l2, l = l1 ++ v :: l2 /\ length l1 = i.
Proof. apply nth_error_split. Qed.
Lemma remove_nth_split {A} (l1 : list A) v l2 : remove_nth (length l1) (l1 ++ v :: l2) = l1 ++ l2.
Proof.
  unfold remove_nth. rewrite firstn_app, firstn_all, Nat.sub_diag. cbn [firstn]. rewrite app_nil_r. f_equal.
  induction l1 as [|x r IH]; cbn; auto.
Qed.
Lemma set_nth_split {A} (l1 : list A) o v l2 : set_nth (length l1) v (l1 ++ o :: l2) = l1 ++ v :: l2.
Proof. induction l1 as [|x r IH]; cbn; [auto|]. f_equal. auto. Qed.
Lemma addrs_app l1 l2 : addrs (l1 ++ l2) = addrs l1 ++ addrs l2.
Proof. apply map_app. Qed.
Lemma in_addrs l v : In v l -> In (v_addr v) (addrs l).
Proof. apply in_map. Qed.
Lemma nodup_swap l1 o v l2 : NoDup (addrs (l1 ++ o :: l2)) -> ~ In (v_addr v) (addrs (l1 ++ o :: l2)) -> NoDup (addrs (l1 ++ v :: l2)).
Proof.
  rewrite !addrs_app. cbn [addrs map]. intros nd ni. apply NoDup_remove in nd as [nd _].
  apply (NoDup_Add (a := v_addr v) (l := addrs l1 ++ addrs l2)); [apply Add_app|]. split; [exact nd|].
  intros H. apply ni. apply in_app_or in H. apply in_or_app. destruct H; [auto | right; right; auto].
Qed.
Lemma nth_unique l i j a : NoDup (addrs l) -> nth_error (addrs l) i = Some a -> nth_error (addrs l) j = Some a -> i = j.
Proof.
  intros nd A B. apply (NoDup_nth_error (addrs l)); [auto | apply nth_error_Some; congruence | congruence].
Qed.
(** A new address at the place of an old one. *)
Lemma index_swap l1 o v l2 a : NoDup (addrs (l1 ++ o :: l2)) -> ~ In (v_addr v) (addrs (l1 ++ o :: l2)) ->
  forall i, at_index (l1 ++ o :: l2) a i ->
  at_index (l1 ++ v :: l2) a (if addr_eqb (v_addr v) a then Some (length l1) else if addr_eqb (v_addr o) a then None else i).
Proof.
  intros nd ni i H. destruct (addr_eqb (v_addr v) a) eqn:E.
  { apply addr_eqb_eq in E. subst a. cbn. rewrite addrs_app. rewrite nth_error_app2; unfold addrs; rewrite map_length; [|lia].
    rewrite Nat.sub_diag. reflexivity. }
  apply addr_eqb_ne in E. destruct (addr_eqb (v_addr o) a) eqn:F.
  { apply addr_eqb_eq in F. subst a. cbn. rewrite addrs_app in *. cbn [addrs map] in *. apply NoDup_remove in nd as [_ nd].
    intros G. apply in_app_or in G as [G | [G|G]]; [apply nd, in_or_app; auto | congruence | apply nd, in_or_app; auto]. }
  apply addr_eqb_ne in F. destruct i as [i|]; cbn in *; rewrite addrs_app in *; cbn [addrs map] in *.
  - destruct (Nat.lt_ge_cases i (length (addrs l1))) as [L|L].
    + rewrite nth_error_app1 in * by auto. auto.
    + rewrite nth_error_app2 in * by auto. destruct (i - length (addrs l1)) as [|k]; cbn in *; [congruence | auto].
  - intros G. apply H. apply in_app_or in G as [G | [G|G]]; apply in_or_app; [auto | congruence | right; right; auto].
Qed.

(** ** The invariant *)
Record inv (s : vstate) (t : table) : Prop := mkInv {
  i_here : here s < fresh s;
  i_nodup : NoDup (addrs (c_list (cur s)));
  i_map : forall p, map_ok (heap s p);
  i_table : forall p l, t p = Some l -> p < fresh s /\ c_list (heap s p) = l /\ NoDup (addrs l);
  i_snap : match snap s with Some p => p = here s /\ t p = Some (c_list (cur s)) | None => t (here s) = None end }.

Lemma hupd_same h l c : hupd h l c l = c.
Proof. unfold hupd. rewrite Nat.eqb_refl. auto. Qed.
Lemma hupd_other h l c x : x <> l -> hupd h l c x = h x.
Proof. unfold hupd. intros. destruct (Nat.eqb_spec x l); [contradiction | auto]. Qed.

Lemma load_inv l : NoDup (addrs l) -> inv (load_v l) (fun p => if Nat.eqb p 0 then Some l else None).
Proof.
  intros nd. constructor; cbn; auto.
  - intros p m a H. discriminate.
  - intros p k. destruct (Nat.eqb_spec p 0); [|discriminate]. intros H. injection H as <-. repeat split; auto. lia.
Qed.

Lemma index_inv a s t : inv s t ->
  let '(i, s') := index_of_v a s in
  at_index (c_list (cur s)) a i /\ inv s' t /\ c_list (cur s') = c_list (cur s) /\ snap s' = snap s /\ (exists m, c_map (cur s') = Some m).
Proof.
  intros [h nd mo tb sn]. unfold index_of_v. destruct (c_map (cur s)) as [m|] eqn:M.
  { split; [apply (mo (here s)); auto|]. split; [constructor; auto|]. eauto. }
  split; [apply make_map_ok; auto|].
  assert (CL : c_list (cur (set_cell (mkCell (c_list (cur s)) (Some (make_map (c_list (cur s))))) s)) = c_list (cur s)).
  { unfold cur at 1, set_cell. cbn. rewrite hupd_same. reflexivity. }
  split; [|split; [exact CL|]; split; [reflexivity|]; unfold cur at 1, set_cell; cbn; rewrite hupd_same; cbn; eauto].
  constructor; try (rewrite CL; auto); cbn; auto.
  - intros p. unfold hupd. destruct (Nat.eqb_spec p (here s)); [|apply mo]. intros m b H. cbn in *. injection H as <-. apply make_map_ok. auto.
  - intros p l H. destruct (tb p l H) as (A & B & C). split; [auto|]. split; [|auto].
    unfold hupd. destruct (Nat.eqb_spec p (here s)); [subst p; cbn; exact B | exact B].
Qed.

(** Making the cell the state's own: same list, unshared. *)
Lemma own_inv s t : inv s t ->
  let s' := update None s in
  inv s' t /\ c_list (cur s') = c_list (cur s) /\ snap s' = None.
Proof.
  intros [h nd mo tb sn]. unfold update. destruct (snap s) as [p0|] eqn:SN.
  - assert (CL : c_list (cur (mkV (hupd (heap s) (fresh s) (mkCell (c_list (cur s)) None)) (S (fresh s)) (fresh s) None)) = c_list (cur s)).
    { unfold cur at 1. cbn. rewrite hupd_same. reflexivity. }
    split; [|split; [exact CL | reflexivity]]. constructor; try (rewrite CL; auto); cbn; auto.
    + intros p. unfold hupd. destruct (Nat.eqb_spec p (fresh s)); [intros m a H; discriminate | apply mo].
    + intros p l H. destruct (tb p l H) as (A & B & C). rewrite hupd_other by lia. repeat split; auto.
    + destruct (t (fresh s)) as [l|] eqn:F; [|auto]. destruct (tb _ _ F). lia.
  - split; [constructor; auto; rewrite SN; auto|]. auto.
Qed.
(** Writing the own cell. *)
Lemma write_inv s t c : inv s t -> snap s = None -> NoDup (addrs (c_list c)) -> map_ok c -> inv (set_cell c s) t.
Proof.
  intros [h nd mo tb sn] SN nd' mc. rewrite SN in sn. constructor; cbn; auto.
  - unfold cur, set_cell. cbn. rewrite hupd_same. auto.
  - intros p. unfold hupd. destruct (Nat.eqb_spec p (here s)); [auto | apply mo].
  - intros p l H. destruct (tb p l H) as (A & B & C). rewrite hupd_other by congruence. auto.
  - rewrite SN. auto.
Qed.
Lemma set_cell_cur s c : cur (set_cell c s) = c.
Proof. unfold cur, set_cell. cbn. apply hupd_same. Qed.

Lemma set_at_inv s t l1 o l2 v : inv s t -> c_list (cur s) = l1 ++ o :: l2 -> ~ In (v_addr v) (addrs (c_list (cur s))) ->
  inv (set_at_locked (length l1) (v_addr o) v s) t /\ c_list (cur (set_at_locked (length l1) (v_addr o) v s)) = l1 ++ v :: l2.
Proof.
  intros iv L ni. pose proof (own_inv s t iv) as (I & CL & SN). cbv zeta in *. unfold set_at_locked. set (s1 := update None s) in *.
  rewrite CL, L, set_nth_split. rewrite set_cell_cur. split; [|reflexivity]. apply write_inv; auto; cbn [c_list].
  - rewrite L in ni. eapply nodup_swap; [|exact ni]. rewrite <- L. apply iv.
  - intros m a H. cbn in *. destruct (c_map (cur s1)) as [m0|] eqn:M; [|discriminate]. injection H as <-.
    rewrite map_get_set, map_get_del. apply index_swap; [rewrite <- L; apply iv | rewrite <- L; auto |].
    rewrite <- L, <- CL. apply (i_map _ _ I (here s1)). auto.
Qed.

Theorem vstep_spec s t op : inv s t -> (forall p, op = VReset p -> t p <> None) ->
  let '(r, s') := vstep op s in
  exists t', spec (c_list (cur s)) t op r (c_list (cur s')) t' /\ inv s' t' /\
    (forall p l, t p = Some l -> t' p = Some l).
Proof.
  intros iv rs. destruct op; cbn [vstep].
  - pose proof (index_inv a s t iv) as H. destruct (index_of_v a s) as [i s']. destruct H as (A & B & C & _). exists t. rewrite C.
    split; [constructor; auto | auto].
  - exists t. split; [constructor | auto].
  - exists t. split; [constructor | auto].
  - unfold set_v. destruct (same_list _ l) eqn:SL.
    { apply same_list_eq in SL. exists t. split; [|auto]. rewrite <- SL. constructor. apply iv. }
    destruct (Nat.eqb _ _) eqn:ST.
    + apply strict_ok in ST. exists t.
      assert (G : inv (update (Some (l, make_map l)) s) t /\ c_list (cur (update (Some (l, make_map l)) s)) = l).
      { unfold update. destruct (snap s) as [p0|] eqn:SN.
        - split; [|unfold cur; cbn; rewrite hupd_same; reflexivity].
          destruct iv as [h nd mo tb sn]. constructor; cbn; auto.
          + unfold cur. cbn. rewrite hupd_same. auto.
          + intros p. unfold hupd. destruct (Nat.eqb_spec p (fresh s)); [intros m a H; discriminate | apply mo].
          + intros p k H. destruct (tb p k H) as (A & B & C). rewrite hupd_other by lia. repeat split; auto.
          + destruct (t (fresh s)) as [k|] eqn:F; [|auto]. destruct (tb _ _ F). lia.
        - rewrite set_cell_cur. split; [|reflexivity]. apply write_inv; auto.
          intros m a H. cbn in *. injection H as <-. apply make_map_ok. auto. }
      destruct G as [G1 G2]. rewrite G2. split; [constructor; auto | auto].
    + exists t. split; [|auto]. constructor. rewrite <- strict_ok. congruence.
  - unfold add_v. pose proof (index_inv (v_addr v) s t iv) as H. destruct (index_of_v (v_addr v) s) as [i s1].
    destruct H as (A & B & C & D & _). destruct i as [i|].
    + exists t. rewrite C. split; [|auto]. apply S_add_in. cbn in A. eapply nth_error_In; eauto.
    + pose proof (own_inv s1 t B) as (I & CL & SN). cbv zeta in *. set (s2 := update None s1) in *. exists t.
      rewrite set_cell_cur. cbn [c_list]. rewrite CL, C. cbn in A. split; [apply S_add; auto|]. split; [|auto].
      apply write_inv; auto.
      * cbn. rewrite addrs_app. cbn.
        apply (NoDup_Add (a := v_addr v) (l := addrs (c_list (cur s)))).
        -- rewrite <- (app_nil_r (addrs (c_list (cur s)))) at 1. apply Add_app.
        -- split; [apply iv | auto].
      * intros m a H. cbn in *. destruct (c_map (cur s2)) as [m0|] eqn:M; [|discriminate]. injection H as <-.
        rewrite map_get_set. pose proof (i_map _ _ I (here s2) m0 a M) as AI. change (heap s2 (here s2)) with (cur s2) in AI. rewrite CL, C in AI.
        rewrite app_length. cbn [length]. replace (length (c_list (cur s)) + 1 - 1) with (length (c_list (cur s))) by lia.
        destruct (addr_eqb (v_addr v) a) eqn:E.
        -- apply addr_eqb_eq in E. subst a. cbn. rewrite addrs_app, nth_error_app2; unfold addrs; rewrite map_length; [|lia].
           rewrite Nat.sub_diag. reflexivity.
        -- apply addr_eqb_ne in E. destruct (map_get m0 a) as [j|]; cbn in *; rewrite addrs_app.
           ++ rewrite nth_error_app1; [auto|]. apply nth_error_Some. congruence.
           ++ intros G. apply in_app_or in G as [G | [G|[]]]; auto.
  - unfold remove_v. pose proof (index_inv a s t iv) as H. destruct (index_of_v a s) as [i s1].
    destruct H as (A & B & C & D & _). destruct i as [i|].
    + cbn in A. apply addrs_nth in A as (v & A & E). apply nth_split' in A as (l1 & l2 & L & Li).
      pose proof (own_inv s1 t B) as (I & CL & SN). cbv zeta in *. set (s2 := update None s1) in *. exists t.
      rewrite set_cell_cur. cbn [c_list]. rewrite CL, C, L, <- Li, remove_nth_split.
      split; [rewrite <- E; eapply S_remove; eauto|]. split; [|auto]. apply write_inv; auto.
      * cbn. pose proof (i_nodup _ _ iv) as nd. rewrite L, addrs_app in nd. cbn in nd. apply NoDup_remove in nd as [nd _]. rewrite addrs_app. auto.
      * intros m b H. discriminate.
    + exists t. rewrite C. split; [|auto]. apply S_remove_no. auto.
  - unfold replace_v. pose proof (index_inv old s t iv) as H. destruct (index_of_v old s) as [i s1].
    destruct H as (A & B & C & D & _). destruct i as [i|].
    + destruct (addr_eqb old (v_addr v)) eqn:E.
      { apply addr_eqb_eq in E. exists t. rewrite C. split; [|auto]. apply S_replace_same; auto. cbn in A. eapply nth_error_In; eauto. }
      apply addr_eqb_ne in E. pose proof (index_inv (v_addr v) s1 t B) as H. destruct (index_of_v (v_addr v) s1) as [j s2].
      destruct H as (A2 & B2 & C2 & D2 & _). rewrite C in A2. destruct j as [j|].
      { exists t. rewrite C2, C. split; [|auto]. apply S_replace_no. right. split; [|congruence]. cbn in A2. eapply nth_error_In; eauto. }
      cbn in A, A2. apply addrs_nth in A as (o & A & O). apply nth_split' in A as (l1 & l2 & L & Li). subst i old.
      destruct (set_at_inv s2 t l1 o l2 v B2) as [G1 G2]; [congruence | rewrite C2, C; auto|].
      exists t. rewrite G2. split; [|auto]. apply S_replace; auto.
    + exists t. rewrite C. split; [|auto]. apply S_replace_no. left. auto.
  - unfold set_at_v, get_v. destruct (nth_error (c_list (cur s)) i) as [o|] eqn:N.
    + destruct (addr_eqb (v_addr o) (v_addr v)) eqn:E.
      { apply addr_eqb_eq in E. exists t. split; [|auto]. eapply S_set_at_same; eauto. }
      apply addr_eqb_ne in E. pose proof (index_inv (v_addr v) s t iv) as H. destruct (index_of_v (v_addr v) s) as [j s2].
      destruct H as (A2 & B2 & C2 & D2 & _). destruct j as [j|].
      { exists t. rewrite C2. split; [|auto]. apply S_set_at_no. right. cbn in A2. split; [eapply nth_error_In; eauto|].
        unfold addrs. rewrite nth_error_map, N. cbn. congruence. }
      apply nth_split' in N as (l1 & l2 & L & Li). subst i. cbn in A2.
      destruct (set_at_inv s2 t l1 o l2 v B2) as [G1 G2]; [congruence | rewrite C2; auto|].
      exists t. rewrite G2. split; [|auto]. eapply S_set_at; eauto.
    + exists t. split; [|auto]. apply S_set_at_no. left. apply nth_error_None. auto.
  - unfold get_snapshot. destruct (snap s) as [p|] eqn:SN.
    + assert (iv2 := iv). destruct iv2 as [h nd mo tb sn]. rewrite SN in sn. destruct sn as [-> sn]. exists t. split; [|auto].
      apply S_snapshot; auto.
    + assert (iv2 := iv). destruct iv2 as [h nd mo tb sn]. rewrite SN in sn.
      exists (fun q => if Nat.eqb q (here s) then Some (c_list (cur s)) else t q). split; [|split].
      * apply S_snapshot; [rewrite Nat.eqb_refl; auto | | auto]. intros q nq. destruct (Nat.eqb_spec q (here s)); [contradiction | auto].
      * constructor; cbn; auto.
        -- intros p l. destruct (Nat.eqb_spec p (here s)) as [-> |]; [|apply tb]. intros H. injection H as <-. auto.
        -- rewrite Nat.eqb_refl. auto.
      * intros p l H. destruct (Nat.eqb_spec p (here s)) as [-> |]; [congruence | auto].
  - specialize (rs p eq_refl). destruct (t p) as [k|] eqn:T; [|contradiction]. exists t.
    destruct iv as [h nd mo tb sn]. destruct (tb p k T) as (A & B & C). unfold cur at 2. cbn. rewrite B. split; [apply S_reset; auto|].
    split; [|auto]. constructor; cbn; auto; unfold cur; cbn; rewrite ?B; auto.
Qed.
