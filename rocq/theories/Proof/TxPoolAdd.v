(** Add and Remove on the list. *)
From Coq Require Import ZArith List Bool Arith Lia.
From Verif Require Import Model.Bytes Model.TxPool Proof.TxPoolFacts Proof.TxPoolInv.
Import ListNotations.
Open Scope Z_scope.

Lemma rep_empty : rep empty_list [].
Proof.
  constructor; cbn.
  - constructor; cbn; try reflexivity; try constructor.
  - intros a. split; [discriminate | intros []].
  - intros i a. split; [discriminate | intros [[] _]].
  - reflexivity.
  - intros a [].
  - constructor; cbn; [lia | lia | intros a []].
Qed.

Lemma links_frame s s' l :
  front s' = front s -> back s' = back s -> (forall f, last_of s' f = last_of s f) ->
  (forall a, In a l -> txs s' a = txs s a /\ lnext s' a = lnext s a /\ lprev s' a = lprev s a
                       /\ snext s' a = snext s a /\ sprev s' a = sprev s a) ->
  links s l -> links s' l.
Proof.
  intros Hf Hb Hl H K.
  assert (Ho : forall f, own s' f l = own s f l) by (intros f; apply own_ext; intros a Ha; now apply H).
  constructor.
  - apply (k_nodup _ _ K).
  - refine (seg_frame _ _ _ _ _ _ _ _ (k_list _ _ K)). intros a Ha. destruct (H a Ha) as (_ & ? & ? & _). tauto.
  - rewrite Hf. apply (k_front _ _ K).
  - rewrite Hb. apply (k_back _ _ K).
  - intros f. rewrite Ho. refine (seg_frame _ _ _ _ _ _ _ _ (k_src _ _ K f)). intros a Ha.
    apply own_In in Ha. destruct (H a (proj1 Ha)) as (_ & _ & _ & ? & ?). tauto.
  - intros f. rewrite Ho, Hl. apply (k_last _ _ K).
  - refine (fop_ext (in_order s) _ _ _ (k_sorted _ _ K)). intros x y Hx Hy. unfold in_order.
    destruct (H x Hx) as (-> & _), (H y Hy) as (-> & _). tauto.
Qed.

(** The sequence after [t] is added. *)
Fixpoint place_tx (s : pool_list) (t : tx) (e : addr) (l : list addr) : list addr :=
  match l with
  | [] => [e]
  | a :: r => if bytes_eqb (t_from (txs s a)) (t_from t) && (t_time t <? t_time (txs s a))
              then e :: a :: r else a :: place_tx s t e r
  end.

Lemma list_add_ok s l t d : rep s l ->
  match list_add s t d with
  | Duplicate => exists a, In a l /\ t_id (txs s a) = t_id t
  | Panicked => False
  | Added s' =>
      (forall a, In a l -> t_id (txs s a) <> t_id t)
      /\ exists l1 l2, l = l1 ++ l2 /\ place_tx s t (fresh s) l = l1 ++ fresh s :: l2
      /\ rep s' (l1 ++ fresh s :: l2)
      /\ fresh s' = S (fresh s) /\ txs s' = upd (txs s) (fresh s) t
      /\ direct s' = upd (direct s) (fresh s) d /\ err s' = upd (err s) (fresh s) None
      /\ (forall a, In a l -> blm s' a = blm s a)
      /\ (forall x n, (x < bfresh s)%nat -> bnext s x = Some n -> bnext s' x = Some n)
      /\ (bfresh s <= bfresh s')%nat
      /\ match last_error l1 with
         | Some a => exists b b', blm s a = Some b /\ blm s' (fresh s) = Some b' /\ reach (bnext s') b b'
         | None => True
         end
  end.
Proof.
  intros R. unfold list_add. destruct (by_id s (t_id t)) as [a|] eqn:Ei.
  { exists a. apply (r_id _ _ R). exact Ei. }
  set (e := fresh s).
  assert (Hne : ~ In e l) by (intros H; apply (r_fresh _ _ R) in H; unfold e in H; lia).
  assert (Hde : forall x, In x l -> x <> e) by (intros x Hx ->; contradiction).
  assert (Hid : forall a, In a l -> t_id (txs s a) <> t_id t).
  { intros a Ha E. assert (by_id s (t_id t) = Some a) by (apply (r_id _ _ R); split; assumption). congruence. }
  set (s1 := new_elem s t d).
  assert (K1 : links s1 l).
  { apply (links_frame s); try reflexivity; [|apply (r_links _ _ R)].
    intros a Ha. cbn. repeat split; apply upd_other; now apply Hde. }
  assert (U1 : unlinked s1 e).
  { unfold unlinked. cbn. now rewrite !upd_same. }
  assert (F1 : forall a, In a l -> (a < fresh s1)%nat).
  { intros a Ha. apply (r_fresh _ _ R) in Ha. cbn. lia. }
  destruct (link_src_spec s1 e l K1 Hne U1 F1)
    as (l1 & l2 & s2 & El & Es & Hl1 & Hl2 & Htx & Hn & Hp & Hf & Hb & Hsrc & Hlast & Eq2).
  rewrite Es. subst l.
  assert (Tx1 : txs s1 = upd (txs s) e t) by reflexivity.
  assert (Tx2 : txs s2 = txs s1) by (rewrite Eq2; reflexivity).
  assert (K2 : links (with_links s1 (front s1) (back s1) (lnext s1) (lprev s1) (snext s1) (sprev s1) (last_of s1)) (l1 ++ l2)).
  { exact (links_frame s1 _ _ eq_refl eq_refl (fun f => eq_refl)
             (fun a _ => conj eq_refl (conj eq_refl (conj eq_refl (conj eq_refl eq_refl)))) K1). }
  assert (Hlk : let s' := link_list s2 e (hd_error l2) in
    seg (lnext s') (lprev s') None (l1 ++ e :: l2) None
    /\ front s' = hd_error (l1 ++ e :: l2) /\ back s' = last_error (l1 ++ e :: l2)
    /\ s' = with_links s2 (front s') (back s') (lnext s') (lprev s') (snext s2) (sprev s2) (last_of s2)).
  { assert (Hq := link_list_spec s1 e l1 l2 K1 Hne U1). cbv zeta in Hq |- *.
    assert (Efn : lnext (link_list s2 e (hd_error l2)) = lnext (link_list s1 e (hd_error l2))
      /\ lprev (link_list s2 e (hd_error l2)) = lprev (link_list s1 e (hd_error l2))
      /\ front (link_list s2 e (hd_error l2)) = front (link_list s1 e (hd_error l2))
      /\ back (link_list s2 e (hd_error l2)) = back (link_list s1 e (hd_error l2))).
    { unfold link_list. rewrite Hn, Hp, Hf, Hb. destruct (hd_error l2) as [pos|].
      - destruct (lprev s1 pos); repeat split.
      - destruct (back s1); repeat split. }
    destruct Efn as (-> & -> & -> & ->). destruct Hq as (Q1 & Q2 & Q3 & _).
    split; [exact Q1|]. split; [exact Q2|]. split; [exact Q3|].
    unfold link_list. rewrite Hn, Hp, Hf, Hb. destruct (hd_error l2) as [pos|].
    - destruct (lprev s1 pos); reflexivity.
    - destruct (back s1); reflexivity. }
  set (s3 := link_list s2 e (hd_error l2)) in *. cbv zeta in Hlk.
  destruct Hlk as (L1 & L2 & L3 & Eq3).
  assert (B3 : blooms s3 (l1 ++ l2)).
  { assert (B := r_bloom _ _ R). constructor.
    - rewrite Eq3, Eq2. exact (b_wide _ _ B).
    - rewrite Eq3, Eq2. exact (b_next _ _ B).
    - intros a Ha. destruct (b_has _ _ B a Ha) as (b & H1 & H2 & H3). exists b.
      rewrite Eq3, Eq2. cbn [blm with_links bfresh bbloom txs]. cbn [s1 new_elem blm bfresh bbloom txs]. fold e.
      rewrite !upd_other by now apply Hde. tauto. }
  assert (Tx3 : txs s3 = txs s1) by (rewrite Eq3, <- Tx2; reflexivity).
  assert (Hpe : lprev s3 e = last_error l1).
  { apply (seg_at _ _ _ _ _ L1). }
  destruct (update_bloom_ok s3 e (l1 ++ l2) (last_error l1) B3 Hne Hpe)
    as (s4 & E4 & Eq4 & B4 & M4 & N4 & F4 & R4).
  { destruct (last_error l1) eqn:E; [|exact Logic.I]. apply in_or_app. left. now apply last_error_In. }
  rewrite E4. split; [exact Hid|].
  assert (Hin : forall a, In a (l1 ++ e :: l2) <-> a = e \/ In a (l1 ++ l2)).
  { intros a. rewrite !in_app_iff. cbn [In]. split; intuition congruence. }
  assert (Tx4 : txs s4 = upd (txs s) e t) by (rewrite Eq4; cbn [with_blooms txs]; rewrite Tx3; exact Tx1).
  exists l1, l2. split; [reflexivity|].
  split.
  { assert (Hgen : forall l1 l2, (forall x, In x (l1 ++ l2) -> x <> e) ->
      (forall x, In x l1 -> later s1 e x = false) ->
      match l2 with [] => True | a :: _ => later s1 e a = true end -> place_tx s t e (l1 ++ l2) = l1 ++ e :: l2).
    { clear - Tx1. intros l1 l2 Hne H1 H2.
      assert (Hla : forall x, x <> e -> later s1 e x
        = bytes_eqb (t_from (txs s x)) (t_from t) && (t_time t <? t_time (txs s x))).
      { intros x Hx. unfold later, from_is. rewrite Tx1, upd_same, upd_other by exact Hx. reflexivity. }
      induction l1 as [|a r IH]; cbn [app place_tx].
      - destruct l2 as [|b l2]; [reflexivity|]. cbn [place_tx]. rewrite <- Hla, H2; [reflexivity|].
        apply Hne. now left.
      - rewrite <- Hla by (apply Hne; now left). rewrite (H1 a) by now left. rewrite IH; [reflexivity| |].
        + intros x Hx. apply Hne. now right.
        + intros x Hx. apply H1. now right. }
    now apply Hgen. }
  assert (K4 : links s4 (l1 ++ e :: l2)).
  { assert (N : NoDup (l1 ++ e :: l2)).
    { apply NoDup_app_iff. destruct (proj1 (NoDup_app_iff l1 l2) (k_nodup _ _ K1)) as (N1 & N2 & D).
      split; [exact N1|]. split.
      - constructor; [intros Hi; apply Hne, in_or_app; now right | exact N2].
      - intros x Hx [<-|Hi]; [apply Hne, in_or_app; now left | exact (D x Hx Hi)]. }
    assert (Ho : forall f, own s4 f (l1 ++ e :: l2) = own s1 f (l1 ++ e :: l2)).
    { intros f. apply own_ext. intros a _. now rewrite Tx4, Tx1. }
    rewrite Eq4. constructor; cbn [with_blooms lnext lprev front back snext sprev last_of].
    - exact N.
    - exact L1.
    - exact L2.
    - exact L3.
    - intros f. rewrite <- Eq4, Ho. rewrite Eq3. apply Hsrc.
    - intros f. rewrite <- Eq4, Ho. rewrite Eq3. apply Hlast.
    - rewrite <- Eq4.
      assert (Hio : forall x y, in_order s1 x y -> in_order s4 x y).
      { intros x y. unfold in_order. now rewrite Tx4, Tx1. }
      apply (fop_ext (in_order s1)); [intros x y _ _; apply Hio|].
      assert (Hs := k_sorted _ _ K1). apply fop_app in Hs. destruct Hs as (S1 & S2 & S3).
      assert (Se : forall y, In y l2 -> in_order s1 e y).
      { intros y Hy Efr. destruct l2 as [|pos l2]; [destruct Hy|].
        unfold later, from_is in Hl2. apply andb_true_iff in Hl2. destruct Hl2 as [Hf2 Ht2].
        apply bytes_eqb_eq in Hf2. apply Z.ltb_lt in Ht2.
        destruct Hy as [<-|Hy]; [lia|].
        inversion S2 as [|? ? Ha Hr E1]. subst. rewrite Forall_forall in Ha. specialize (Ha y Hy).
        unfold in_order in Ha. rewrite Hf2, Efr in Ha. specialize (Ha eq_refl). lia. }
      apply fop_app. split; [exact S1|]. split.
      + constructor; [apply Forall_forall; exact Se | exact S2].
      + intros x y Hx [<-|Hy]; [|now apply S3].
        intros Efr. specialize (Hl1 x Hx). unfold later, from_is in Hl1. rewrite Efr, bytes_eqb_refl in Hl1.
        cbn [andb] in Hl1. apply Z.ltb_ge in Hl1. exact Hl1. }
  assert (Hfin : with_len s4 (len s4 + 1)
    = mkList (front s4) (back s4) (len s + 1) (key_upd (by_id s) (t_id t) (Some e)) (last_of s4) (S e)
        (upd (txs s) e t) (upd (direct s) e d) (upd (err s) e None) (upd (here s) e true)
        (lnext s4) (lprev s4) (snext s4) (sprev s4) (blm s4) (bfresh s4) (bcount s4) (bbloom s4) (bnext s4)).
  { unfold with_len. rewrite <- Tx4. rewrite Eq4. cbn [with_blooms]. unfold with_blooms.
    cbn [len by_id fresh direct err here front back txs last_of lnext lprev snext sprev blm bfresh bcount bbloom bnext].
    rewrite Eq3. unfold with_links.
    cbn [len by_id fresh direct err here front back txs last_of lnext lprev snext sprev blm bfresh bcount bbloom bnext].
    rewrite Eq2. unfold with_links.
    cbn [len by_id fresh direct err here front back txs last_of lnext lprev snext sprev blm bfresh bcount bbloom bnext].
    reflexivity. }
  rewrite Hfin.
  split.
  { constructor; cbn [here by_id txs len fresh].
    - apply (links_frame s4); [reflexivity | reflexivity | reflexivity | | exact K4].
      intros a _. cbn [txs lnext lprev snext sprev]. rewrite Tx4. tauto.
    - intros a. rewrite Hin. unfold upd. destruct (Nat.eqb_spec a e) as [->|Hae]; [tauto|].
      rewrite (r_here _ _ R). tauto.
    - intros i a. rewrite Hin. unfold key_upd, upd.
      destruct (bytes_eqb i (t_id t)) eqn:Ei2.
      + apply bytes_eqb_eq in Ei2. subst i. split.
        * intros E. injection E as <-. rewrite Nat.eqb_refl. tauto.
        * destruct (Nat.eqb_spec a e) as [->|Hae]; [reflexivity|].
          intros [[->|Ha] E]; [contradiction|]. exfalso. exact (Hid a Ha E).
      + rewrite (r_id _ _ R). destruct (Nat.eqb_spec a e) as [->|Hae]; [|tauto].
        split; [intros [? _]; contradiction|]. intros [_ <-]. rewrite bytes_eqb_refl in Ei2. discriminate.
    - rewrite (r_len _ _ R), !app_length. cbn [length]. lia.
    - intros a Ha. apply Hin in Ha. destruct Ha as [->|Ha]; [lia|]. apply (r_fresh _ _ R) in Ha. unfold e. lia.
    - assert (B := B4 (l1 ++ e :: l2) Hin). constructor; cbn [bfresh bbloom bnext blm txs].
      + apply (b_wide _ _ B).
      + apply (b_next _ _ B).
      + intros a Ha. destruct (b_has _ _ B a Ha) as (b & H1 & H2 & H3). exists b. rewrite <- Tx4. tauto. }
  cbn [fresh txs direct err blm bnext bfresh].
  split; [reflexivity|]. split; [reflexivity|]. split; [reflexivity|]. split; [reflexivity|].
  assert (Eb3 : bfresh s3 = bfresh s /\ bnext s3 = bnext s /\ blm s3 = upd (blm s) e None).
  { rewrite Eq3, Eq2. repeat split. }
  destruct Eb3 as (Eb1 & Eb2 & Eb3).
  split. { intros a Ha. rewrite M4 by now apply Hde. rewrite Eb3. apply upd_other. now apply Hde. }
  split. { intros x n Hx E. apply N4; [now rewrite Eb1 | now rewrite Eb2]. }
  split; [rewrite <- Eb1; exact F4|].
  destruct (last_error l1) as [a|] eqn:El; [|exact Logic.I].
  destruct R4 as (b & b' & H1 & H2 & H3). exists b, b'. split; [|split; assumption].
  rewrite Eb3, upd_other in H1; [exact H1|]. apply Hde, in_or_app. left. now apply last_error_In.
Qed.

(** transactionlist.go:189-236. *)
Lemma list_remove_gone s l a : rep s l -> ~ In a l -> list_remove s a = (s, false).
Proof.
  intros R H. unfold list_remove. replace (here s a) with false; [reflexivity|].
  symmetry. destruct (here s a) eqn:E; [|reflexivity]. apply (r_here _ _ R) in E. contradiction.
Qed.

Lemma hd_app (l1 l2 : list addr) : hd_error (l1 ++ l2) = or (hd_error l1) (hd_error l2).
Proof. destruct l1; reflexivity. Qed.
Lemma last_app (l1 l2 : list addr) : last_error (l1 ++ l2) = or (last_error l2) (last_error l1).
Proof.
  destruct l2 as [|a r]; [now rewrite app_nil_r | rewrite last_error_app].
  destruct (last_error (a :: r)) eqn:E; [reflexivity|]. apply last_error_nil in E. discriminate.
Qed.

Lemma first_is l1 e l2 : NoDup (l1 ++ e :: l2) ->
  (if same (hd_error (l1 ++ e :: l2)) e then hd_error l2 else hd_error (l1 ++ e :: l2)) = hd_error (l1 ++ l2).
Proof.
  intros ND. destruct l1 as [|a r]; cbn [app hd_error same]; [now rewrite Nat.eqb_refl|].
  destruct (Nat.eqb_spec a e) as [->|]; [|reflexivity].
  apply NoDup_remove_2 in ND. exfalso. apply ND. now left.
Qed.

Lemma last_is l1 e l2 : NoDup (l1 ++ e :: l2) ->
  (if same (last_error (l1 ++ e :: l2)) e then last_error l1 else last_error (l1 ++ e :: l2)) = last_error (l1 ++ l2).
Proof.
  intros ND. rewrite !last_app. change (e :: l2) with ([e] ++ l2). rewrite last_app.
  change (last_error [e]) with (Some e).
  destruct (last_error l2) as [z|] eqn:E; cbn [or same]; [|now rewrite Nat.eqb_refl].
  destruct (Nat.eqb_spec z e) as [->|]; [|reflexivity].
  apply NoDup_remove_2 in ND. exfalso. apply ND, in_or_app. right. now apply last_error_In.
Qed.

Lemma list_remove_ok s l1 a l2 : rep s (l1 ++ a :: l2) ->
  exists s', list_remove s a = (s', true) /\ rep s' (l1 ++ l2)
    /\ fresh s' = fresh s /\ txs s' = txs s /\ direct s' = direct s /\ err s' = err s
    /\ blm s' = blm s /\ bfresh s' = bfresh s /\ bnext s' = bnext s /\ bbloom s' = bbloom s.
Proof.
  intros R. unfold list_remove.
  assert (Ha : In a (l1 ++ a :: l2)) by (apply in_or_app; right; now left).
  replace (here s a) with true by (symmetry; now apply (r_here _ _ R)). cbn [negb].
  eexists. split; [reflexivity|].
  split; [|repeat split; reflexivity].
  assert (K := r_links _ _ R). assert (ND := k_nodup _ _ K).
  destruct (seg_at _ _ _ _ _ (k_list _ _ K)) as [Hp Hn].
  assert (Hna : ~ In a (l1 ++ l2)) by now apply NoDup_remove_2.
  assert (Hin : forall x, In x (l1 ++ a :: l2) <-> x = a \/ In x (l1 ++ l2)).
  { intros x. rewrite !in_app_iff. cbn [In]. split; intuition congruence. }
  assert (Hne : forall x, In x (l1 ++ l2) -> x <> a) by (intros x Hx ->; contradiction).
  set (f0 := t_from (txs s a)).
  assert (Hown : forall f, own s f (l1 ++ a :: l2)
            = if bytes_eqb f0 f then own s f l1 ++ a :: own s f l2 else own s f (l1 ++ l2)).
  { intros f. rewrite !own_app, own_cons. unfold from_is at 1. fold f0.
    destruct (bytes_eqb f0 f); reflexivity. }
  assert (K0 := k_src _ _ K f0). rewrite Hown, bytes_eqb_refl in K0.
  destruct (seg_at _ _ _ _ _ K0) as [Hsp Hsn].
  assert (ND0 : NoDup (own s f0 l1 ++ a :: own s f0 l2)).
  { assert (Hq := own_nodup s f0 _ ND). rewrite Hown, bytes_eqb_refl in Hq. exact Hq. }
  assert (Hlast0 := k_last _ _ K f0). rewrite Hown, bytes_eqb_refl in Hlast0.
  constructor; cbn [here by_id txs len fresh].
  - constructor; cbn [lnext lprev front back snext sprev last_of].
    + exact (NoDup_remove_1 _ _ _ ND).
    + refine (seg_delete (lnext s) (lprev s) l1 l2 a _ _ ND (k_list _ _ K) _ _).
      * intros x Hx. rewrite upd_other by now apply Hne. rewrite Hp.
        change (match last_error l1 with Some p => upd (lnext s) p (lnext s a) | None => lnext s end)
          with (upd_opt (lnext s) (last_error l1) (lnext s a)). apply upd_opt_at.
      * intros x Hx. rewrite upd_other by now apply Hne. rewrite Hn.
        change (match hd_error l2 with Some p => upd (lprev s) p (lprev s a) | None => lprev s end)
          with (upd_opt (lprev s) (hd_error l2) (lprev s a)). apply upd_opt_at.
    + rewrite (k_front _ _ K), Hn. now apply first_is.
    + rewrite (k_back _ _ K), Hp. now apply last_is.
    + intros f. change (own _ f (l1 ++ l2)) with (own s f (l1 ++ l2)).
      rewrite Hsp, Hsn.
      change (match last_error (own s f0 l1) with Some p => upd (snext s) p (hd_error (own s f0 l2)) | None => snext s end)
        with (upd_opt (snext s) (last_error (own s f0 l1)) (hd_error (own s f0 l2))).
      change (match hd_error (own s f0 l2) with Some n => upd (sprev s) n (last_error (own s f0 l1)) | None => sprev s end)
        with (upd_opt (sprev s) (hd_error (own s f0 l2)) (last_error (own s f0 l1))).
      destruct (bytes_eqb f0 f) eqn:Ef.
      * apply bytes_eqb_eq in Ef. subst f. rewrite own_app.
        assert (Hxa : forall x, In x (own s f0 l1 ++ own s f0 l2) -> x <> a).
        { intros x Hx. rewrite <- own_app in Hx. apply own_In in Hx. apply Hne, Hx. }
        refine (seg_delete (snext s) (sprev s) _ _ a _ _ ND0 K0 _ _).
        -- intros x Hx. rewrite upd_other by now apply Hxa. rewrite Hsn. apply upd_opt_at.
        -- intros x Hx. rewrite upd_other by now apply Hxa. rewrite Hsp. apply upd_opt_at.
      * assert (Kf := k_src _ _ K f). rewrite Hown, Ef in Kf.
        refine (seg_frame (snext s) (sprev s) _ _ _ _ _ _ Kf). intros x Hx.
        assert (Hfx : t_from (txs s x) = f /\ In x (l1 ++ l2)) by (apply own_In in Hx; tauto).
        assert (Hx0 : ~ In x (own s f0 l1) /\ ~ In x (own s f0 l2)).
        { split; intros Hi; apply own_In in Hi; destruct Hi as [_ Hi], Hfx as [Hfx _]; rewrite Hfx in Hi;
            rewrite Hi, bytes_eqb_refl in Ef; discriminate. }
        split; (rewrite upd_other by (apply Hne, Hfx)); rewrite upd_opt_at, same_false; try reflexivity.
        -- intros E. apply last_error_In in E. tauto.
        -- intros E. destruct (own s f0 l2) as [|z c]; [discriminate E|]. injection E as ->.
           apply (proj2 Hx0). now left.
    + intros f. change (own _ f (l1 ++ l2)) with (own s f (l1 ++ l2)). fold f0.
      assert (Hlf := k_last _ _ K f). rewrite Hown in Hlf.
      assert (Hcase := last_is _ _ _ ND0). rewrite <- Hlast0 in Hcase. rewrite <- own_app in Hcase.
      destruct (bytes_eqb f0 f) eqn:Ef.
      * apply bytes_eqb_eq in Ef. subst f. rewrite <- Hcase, Hsp.
        destruct (same (last_of s f0) a); [apply key_upd_same | reflexivity].
      * rewrite <- Hlf. destruct (same (last_of s f0) a); [|reflexivity]. apply key_upd_other.
        intros ->. rewrite bytes_eqb_refl in Ef. discriminate.
    + assert (Hs := k_sorted _ _ K). apply fop_app in Hs. destruct Hs as (S1 & S2 & S3).
      apply fop_app. split; [exact S1|]. split.
      * inversion S2. assumption.
      * intros x y Hx Hy. apply S3; [exact Hx | now right].
  - intros x. unfold upd. destruct (Nat.eqb_spec x a) as [->|Hxa]; [split; [discriminate | contradiction]|].
    rewrite (r_here _ _ R), Hin. tauto.
  - intros i x. unfold key_upd. destruct (bytes_eqb i (t_id (txs s a))) eqn:Ei.
    + apply bytes_eqb_eq in Ei. subst i. split; [discriminate|]. intros [Hx E]. exfalso.
      assert (E1 : by_id s (t_id (txs s a)) = Some x) by (apply (r_id _ _ R); split; [apply Hin; now right | exact E]).
      assert (E2 : by_id s (t_id (txs s a)) = Some a) by (apply (r_id _ _ R); split; [exact Ha | reflexivity]).
      assert (x = a) by congruence. subst x. contradiction.
    + rewrite (r_id _ _ R), Hin. split.
      * intros [[->|Hx] E]; [|tauto]. subst i. rewrite bytes_eqb_refl in Ei. discriminate.
      * tauto.
  - rewrite (r_len _ _ R), !app_length. cbn [length]. lia.
  - intros x Hx. apply (r_fresh _ _ R), Hin. now right.
  - assert (B := r_bloom _ _ R). constructor; cbn [bfresh bbloom bnext blm txs].
    + apply (b_wide _ _ B).
    + apply (b_next _ _ B).
    + intros x Hx. apply (b_has _ _ B), Hin. now right.
Qed.
