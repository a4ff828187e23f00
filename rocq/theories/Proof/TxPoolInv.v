(** The list of the pool stands for a sequence of elements. *)
From Coq Require Import ZArith List Bool Arith Lia.
From Verif Require Import Model.Bytes Model.TxPool Proof.TxPoolFacts.
Import ListNotations.
Open Scope Z_scope.

Definition from_is (s : pool_list) (f : bytes) (a : addr) : bool := bytes_eqb (t_from (txs s a)) f.
Definition own (s : pool_list) (f : bytes) (l : list addr) : list addr := filter (from_is s f) l.

Definition in_order (s : pool_list) (a b : addr) : Prop :=
  t_from (txs s a) = t_from (txs s b) -> t_time (txs s a) <= t_time (txs s b).

Lemma fop_app {A} (R : A -> A -> Prop) l1 l2 :
  ForallOrdPairs R (l1 ++ l2)
  <-> ForallOrdPairs R l1 /\ ForallOrdPairs R l2 /\ (forall x y, In x l1 -> In y l2 -> R x y).
Proof.
  induction l1 as [|a r IH]; cbn [app].
  - split; [intros H; split; [constructor | split; [exact H | intros x y []]] | tauto].
  - split.
    + intros H. inversion H as [|? ? Ha Hr E1]. subst. apply IH in Hr. destruct Hr as (H1 & H2 & H3).
      rewrite Forall_forall in Ha.
      split. { constructor; [apply Forall_forall; intros x Hx; apply Ha, in_or_app; now left | exact H1]. }
      split; [exact H2|]. intros x y [->|Hx] Hy; [apply Ha, in_or_app; now right | now apply H3].
    + intros (H1 & H2 & H3). inversion H1 as [|? ? Ha Hr E1]. subst. rewrite Forall_forall in Ha. constructor.
      * apply Forall_forall. intros x Hx. apply in_app_or in Hx. destruct Hx as [Hx|Hx]; [now apply Ha|].
        apply H3; [now left | exact Hx].
      * apply IH. split; [exact Hr|]. split; [exact H2|]. intros x y Hx Hy. apply H3; [now right | exact Hy].
Qed.

Lemma fop_ext {A} (R Q : A -> A -> Prop) l :
  (forall x y, In x l -> In y l -> R x y -> Q x y) -> ForallOrdPairs R l -> ForallOrdPairs Q l.
Proof.
  induction l as [|a r IH]; intros H F; [constructor|]. inversion F as [|? ? Ha Hr E1]. subst. constructor.
  - rewrite Forall_forall in Ha |- *. intros x Hx. apply H; [now left | now right | now apply Ha].
  - apply IH; [intros x y Hx Hy; apply H; now right | exact Hr].
Qed.

Record links (s : pool_list) (l : list addr) : Prop := mkLinks {
  k_nodup : NoDup l;
  k_list : seg (lnext s) (lprev s) None l None;
  k_front : front s = hd_error l;
  k_back : back s = last_error l;
  k_src : forall f, seg (snext s) (sprev s) None (own s f l) None;
  k_last : forall f, last_of s f = last_error (own s f l);
  k_sorted : ForallOrdPairs (in_order s) l
}.

Lemma own_app s f l1 l2 : own s f (l1 ++ l2) = own s f l1 ++ own s f l2.
Proof. apply filter_app. Qed.

Lemma own_cons s f a l : own s f (a :: l) = if from_is s f a then a :: own s f l else own s f l.
Proof. reflexivity. Qed.

Lemma own_In s f l a : In a (own s f l) <-> In a l /\ t_from (txs s a) = f.
Proof.
  unfold own. rewrite filter_In. unfold from_is. split; intros [H E]; (split; [exact H|]).
  - now apply bytes_eqb_eq.
  - now apply bytes_eqb_eq.
Qed.

Lemma own_ext s s' f l : (forall a, In a l -> txs s' a = txs s a) -> own s' f l = own s f l.
Proof.
  intros H. unfold own. apply filter_ext_in. intros a Ha. unfold from_is. now rewrite H.
Qed.

Lemma own_nodup s f l : NoDup l -> NoDup (own s f l).
Proof. apply NoDup_filter. Qed.

Lemma own_split s f l c1 a c2 :
  own s f l = c1 ++ a :: c2 -> exists l1 l2, l = l1 ++ a :: l2 /\ own s f l1 = c1 /\ own s f l2 = c2.
Proof.
  revert c1. induction l as [|x r IH]; intros c1 H.
  - destruct c1; discriminate H.
  - rewrite own_cons in H. destruct (from_is s f x) eqn:E.
    + destruct c1 as [|y c1].
      * cbn [app] in H. injection H as -> H. exists [], r. repeat split. exact H.
      * cbn [app] in H. injection H as -> H. destruct (IH _ H) as (l1 & l2 & -> & E1 & E2).
        exists (y :: l1), l2. split; [reflexivity|]. split; [|exact E2]. rewrite own_cons, E, E1. reflexivity.
    + destruct (IH _ H) as (l1 & l2 & -> & E1 & E2).
      exists (x :: l1), l2. split; [reflexivity|]. split; [|exact E2]. rewrite own_cons, E. exact E1.
Qed.

(** transactionlist.go:133-140. *)
Lemma earlier_finds s ts l f : seg (snext s) (sprev s) None (own s f l) None ->
  ForallOrdPairs (in_order s) l ->
  forall fuel c1 t2 c2, own s f l = c1 ++ t2 :: c2 -> (length c1 <= fuel)%nat -> ts < t_time (txs s t2) ->
  exists d1 d2, own s f l = d1 ++ earlier fuel s ts t2 :: d2
    /\ ts < t_time (txs s (earlier fuel s ts t2))
    /\ (forall x, In x d1 -> t_time (txs s x) <= ts).
Proof.
  intros Hseg Hs fuel. induction fuel as [|k IH]; intros c1 t2 c2 Hc Hf Ht.
  - destruct c1 as [|y c1]; [|cbn in Hf; lia]. cbn [earlier]. exists [], c2.
    split; [exact Hc|]. split; [exact Ht | intros x []].
  - cbn [earlier]. rewrite Hc in Hseg. destruct (seg_at _ _ _ _ _ Hseg) as [Hp _]. rewrite Hp.
    destruct (last_error c1) as [t1|] eqn:El.
    2:{ apply last_error_nil in El. subst c1. exists [], c2.
        split; [exact Hc|]. split; [exact Ht | intros x []]. }
    destruct (last_error_split _ _ El) as [c0 ->].
    destruct (Z.ltb_spec ts (t_time (txs s t1))) as [Hlt|Hge].
    + rewrite <- app_assoc in Hc. cbn [app] in Hc. apply (IH c0 t1 (t2 :: c2) Hc); [|exact Hlt].
      rewrite app_length in Hf. cbn in Hf. lia.
    + exists (c0 ++ [t1]), c2. split; [exact Hc|]. split; [exact Ht|].
      intros x Hx. apply in_app_or in Hx. destruct Hx as [Hx|[->|[]]]; [|exact Hge].
      rewrite <- app_assoc in Hc. cbn [app] in Hc.
      destruct (own_split _ _ _ _ _ _ Hc) as (l1 & l2 & -> & E1 & E2).
      apply fop_app in Hs. destruct Hs as (_ & _ & Hs).
      assert (Hx1 : In x (own s f l1)) by (rewrite E1; exact Hx).
      apply own_In in Hx1. destruct Hx1 as [Hx1 Ex].
      assert (Hx2 : In t1 (own s f (l1 ++ t1 :: l2))).
      { rewrite Hc. apply in_or_app. right. now left. }
      apply own_In in Hx2. destruct Hx2 as [_ Et].
      specialize (Hs x t1 Hx1 (or_introl eq_refl)). unfold in_order in Hs.
      rewrite Ex, Et in Hs. specialize (Hs eq_refl). lia.
Qed.

(** Where a new element goes. *)
Definition later (s : pool_list) (e a : addr) : bool :=
  from_is s (t_from (txs s e)) a && (t_time (txs s e) <? t_time (txs s a)).

Fixpoint place (s : pool_list) (e : addr) (l : list addr) : list addr :=
  match l with
  | [] => [e]
  | a :: r => if later s e a then e :: a :: r else a :: place s e r
  end.

Lemma place_at s e l1 l2 :
  (forall x, In x l1 -> later s e x = false) ->
  match l2 with [] => True | a :: _ => later s e a = true end ->
  place s e (l1 ++ l2) = l1 ++ e :: l2.
Proof.
  intros H1 H2. induction l1 as [|a r IH]; cbn [app place].
  - destruct l2 as [|b l2]; [reflexivity|]. cbn [place]. now rewrite H2.
  - rewrite (H1 a) by now left. rewrite IH; [reflexivity|]. intros x Hx. apply H1. now right.
Qed.

Lemma nodup_bound (l : list addr) n : NoDup l -> (forall a, In a l -> (a < n)%nat) -> (length l <= n)%nat.
Proof.
  intros ND H. rewrite <- (seq_length n 0). apply NoDup_incl_length; [exact ND|].
  intros a Ha. apply in_seq. specialize (H a Ha). lia.
Qed.

(** ** Add *)

Definition unlinked (s : pool_list) (e : addr) : Prop :=
  lnext s e = None /\ lprev s e = None /\ snext s e = None /\ sprev s e = None.

Lemma same_false x a : x <> Some a -> same x a = false.
Proof. intros H. destruct (same x a) eqn:E; [|reflexivity]. apply same_true in E. contradiction. Qed.

(** What [link_src] does to the maps. *)
Lemma link_src_spec s e l : links s l -> ~ In e l -> unlinked s e -> (forall a, In a l -> (a < fresh s)%nat) ->
  exists l1 l2 s2, l = l1 ++ l2 /\ link_src s e = (s2, hd_error l2)
    /\ (forall x, In x l1 -> later s e x = false)
    /\ match l2 with [] => True | a :: _ => later s e a = true end
    /\ (forall a, txs s2 a = txs s a)
    /\ lnext s2 = lnext s /\ lprev s2 = lprev s /\ front s2 = front s /\ back s2 = back s
    /\ (forall f, seg (snext s2) (sprev s2) None (own s f (l1 ++ e :: l2)) None)
    /\ (forall f, last_of s2 f = last_error (own s f (l1 ++ e :: l2)))
    /\ s2 = with_links s (front s) (back s) (lnext s) (lprev s) (snext s2) (sprev s2) (last_of s2).
Proof.
  intros K Hne (U1 & U2 & U3 & U4) Hfr. unfold link_src.
  remember (t_from (txs s e)) as f0 eqn:Hf0. assert (Hl := k_last _ _ K f0).
  assert (Hown : forall f l1 l2, l = l1 ++ l2 -> own s f (l1 ++ e :: l2)
            = if bytes_eqb f0 f then own s f l1 ++ e :: own s f l2 else own s f l).
  { intros f l1 l2 ->. rewrite !own_app, own_cons. unfold from_is at 1. rewrite <- Hf0.
    destruct (bytes_eqb f0 f); reflexivity. }
  assert (Hother : forall f a, In a (own s f l) -> bytes_eqb f0 f = false -> ~ In a (own s f0 l)).
  { intros f a Ha E Hb. apply own_In in Ha. apply own_In in Hb. destruct Ha as [_ Ea], Hb as [_ Eb].
    assert (Eq : bytes_eqb f0 f = true) by (apply bytes_eqb_eq; congruence). congruence. }
  assert (Hneo : forall f, ~ In e (own s f l)).
  { intros f Hi. apply own_In in Hi. tauto. }
  destruct (last_of s f0) as [t2|] eqn:E2.
  - symmetry in Hl. destruct (last_error_split _ _ Hl) as [c1 Hc].
    destruct (Z.ltb_spec (t_time (txs s e)) (t_time (txs s t2))) as [Hlt|Hge].
    + (* before pos *)
      destruct (earlier_finds s (t_time (txs s e)) l f0 (k_src _ _ K f0) (k_sorted _ _ K) (fresh s) c1 t2 [] Hc)
        as (d1 & d2 & Hd & Hpt & Hd1); [|exact Hlt|].
      { assert (length (own s f0 l) <= fresh s)%nat.
        { apply nodup_bound; [apply own_nodup, (k_nodup _ _ K)|].
          intros a Ha. apply own_In in Ha. apply Hfr, Ha. }
        rewrite Hc, app_length in H. lia. }
      set (pos := earlier (fresh s) s (t_time (txs s e)) t2) in *.
      destruct (own_split _ _ _ _ _ _ Hd) as (l1 & l2 & El & E1 & E2').
      exists l1, (pos :: l2). eexists. split; [exact El|].
      assert (Hsp : sprev s pos = last_error d1).
      { assert (Hs := k_src _ _ K f0). rewrite Hd in Hs. apply (seg_at _ _ _ _ _ Hs). }
      split.
      { rewrite Hsp. cbn [hd_error].
        replace (match last_error d1 with
                 | Some p => (upd (snext s) p (Some e), upd (sprev s) e (Some p))
                 | None => (snext s, sprev s) end)
          with (upd_opt (snext s) (last_error d1) (Some e),
                match last_error d1 with Some p => upd (sprev s) e (Some p) | None => sprev s end)
          by (destruct (last_error d1); reflexivity).
        reflexivity. }
      assert (Hpin : In pos (own s f0 l)) by (rewrite Hd; apply in_or_app; right; now left).
      split. { intros x Hx. unfold later. rewrite <- Hf0. destruct (from_is s f0 x) eqn:Ex; [|reflexivity].
               cbn [andb]. apply Z.ltb_ge. apply Hd1. rewrite <- E1. apply filter_In. split; assumption. }
      split. { unfold later. rewrite <- Hf0. apply own_In in Hpin. destruct Hpin as [_ Ep].
               unfold from_is. rewrite Ep, bytes_eqb_refl. cbn [andb]. now apply Z.ltb_lt. }
      split; [reflexivity|]. split; [reflexivity|]. split; [reflexivity|]. split; [reflexivity|].
      split; [reflexivity|].
      assert (Hpe : pos <> e) by (intros ->; apply own_In in Hpin; destruct Hpin; contradiction).
      assert (Hde : forall x, In x (own s f0 l) -> x <> e) by (intros x Hx ->; exact (Hneo f0 Hx)).
      assert (Hl1e : last_error d1 <> Some e).
      { intros E. apply last_error_In in E. apply (Hneo f0). rewrite Hd. apply in_or_app. now left. }
      split; [|split; [|reflexivity]].
      * intros f. rewrite (Hown f l1 (pos :: l2) El). cbn [snext sprev with_links].
        destruct (bytes_eqb f0 f) eqn:Ef.
        -- apply bytes_eqb_eq in Ef. subst f. rewrite own_cons.
           replace (from_is s f0 pos) with true
             by (symmetry; apply own_In in Hpin; apply bytes_eqb_eq, Hpin).
           rewrite E1, E2'.
           refine (seg_insert (snext s) (sprev s) d1 (pos :: d2) e _ _ _ _ _ _ _ _ _).
           ++ rewrite <- Hd. apply own_nodup, (k_nodup _ _ K).
           ++ rewrite <- Hd. apply Hneo.
           ++ rewrite <- Hd. apply (k_src _ _ K).
           ++ rewrite upd_same. reflexivity.
           ++ rewrite upd_other by (intro; apply Hpe; congruence).
              destruct (last_error d1); [apply upd_same | exact U4].
           ++ intros x Hx. rewrite <- Hd in Hx. rewrite upd_other by (now apply Hde). apply upd_opt_at.
           ++ intros x Hx. rewrite <- Hd in Hx. cbn [hd_error same]. unfold upd at 1.
              rewrite (Nat.eqb_sym x pos). destruct (Nat.eqb pos x); [reflexivity|].
              destruct (last_error d1); [apply upd_other; now apply Hde | reflexivity].
        -- refine (seg_frame (snext s) (sprev s) _ _ _ _ _ _ (k_src _ _ K f)).
           intros x Hx. assert (Hx0 := Hother f x Hx Ef). assert (x <> e) by (intros ->; exact (Hneo f Hx)).
           split.
           ++ rewrite upd_other by assumption. rewrite upd_opt_at, same_false; [reflexivity|].
              intros E. apply Hx0. rewrite Hd. apply in_or_app. left. now apply last_error_In.
           ++ rewrite upd_other by (intros ->; contradiction).
              destruct (last_error d1); [now apply upd_other | reflexivity].
      * intros f. rewrite (Hown f l1 (pos :: l2) El). cbn [last_of with_links]. rewrite (k_last _ _ K f).
        destruct (bytes_eqb f0 f) eqn:Ef; [|reflexivity].
        apply bytes_eqb_eq in Ef. subst f. rewrite Hd, own_cons.
        replace (from_is s f0 pos) with true
             by (symmetry; apply own_In in Hpin; apply bytes_eqb_eq, Hpin).
        rewrite E1, E2'. rewrite last_error_app.
        change (e :: pos :: d2) with ([e] ++ pos :: d2).
        rewrite app_assoc. rewrite (last_error_app (d1 ++ [e])). reflexivity.
    + (* at the end, after t2 *)
      exists l, []. eexists. split; [now rewrite app_nil_r|]. split; [reflexivity|].
      assert (Htin : In t2 (own s f0 l)) by now apply last_error_In.
      split.
      { intros x Hx. unfold later. rewrite <- Hf0. destruct (from_is s f0 x) eqn:Ex; [|reflexivity].
        cbn [andb]. apply Z.ltb_ge. destruct (own_split _ _ _ _ _ _ Hc) as (l1 & l2 & El & E1 & E2').
        assert (Hs := k_sorted _ _ K). rewrite El in Hs, Hx. apply fop_app in Hs. destruct Hs as (_ & _ & Hs).
        apply in_app_or in Hx. destruct Hx as [Hx|[->|Hx]].
        - specialize (Hs x t2 Hx (or_introl eq_refl)). unfold in_order in Hs.
          apply bytes_eqb_eq in Ex. apply own_In in Htin. destruct Htin as [_ Et]. rewrite Ex, Et in Hs.
          specialize (Hs eq_refl). lia.
        - exact Hge.
        - exfalso. assert (In x (own s f0 l2)) by (apply filter_In; split; assumption).
          rewrite E2' in H. destruct H. }
      split; [exact Logic.I|].
      split; [reflexivity|]. split; [reflexivity|]. split; [reflexivity|]. split; [reflexivity|].
      split; [reflexivity|].
      split; [|split; [|reflexivity]].
      * intros f. rewrite (Hown f l [] (eq_sym (app_nil_r l))). cbn [snext sprev with_links].
        destruct (bytes_eqb f0 f) eqn:Ef.
        -- apply bytes_eqb_eq in Ef. subst f. change (own s f0 []) with (@nil addr).
           refine (seg_insert (snext s) (sprev s) (own s f0 l) [] e _ _ _ _ _ _ _ _ _); rewrite ?app_nil_r.
           ++ apply own_nodup, (k_nodup _ _ K).
           ++ apply Hneo.
           ++ apply (k_src _ _ K).
           ++ rewrite upd_other by (intros ->; exact (Hneo f0 Htin)). exact U3.
           ++ rewrite Hl. apply upd_same.
           ++ intros x Hx. rewrite Hl. cbn [same]. unfold upd. now rewrite (Nat.eqb_sym x t2).
           ++ intros x Hx. cbn [hd_error same]. apply upd_other. intros ->. exact (Hneo f0 Hx).
        -- refine (seg_frame (snext s) (sprev s) _ _ _ _ _ _ (k_src _ _ K f)).
           intros x Hx. assert (Hx0 := Hother f x Hx Ef). split; apply upd_other; intros ->; [contradiction|].
           exact (Hneo f Hx).
      * intros f. rewrite (Hown f l [] (eq_sym (app_nil_r l))). cbn [last_of with_links]. unfold key_upd.
        destruct (bytes_eqb f f0) eqn:Ef.
        -- apply bytes_eqb_eq in Ef. subst f. rewrite bytes_eqb_refl. now rewrite last_error_app.
        -- replace (bytes_eqb f0 f) with false; [apply (k_last _ _ K)|].
           symmetry. destruct (bytes_eqb f0 f) eqn:Ef'; [|reflexivity]. apply bytes_eqb_eq in Ef'. subst f.
           rewrite bytes_eqb_refl in Ef. discriminate.
  - (* the first of its sender *)
    symmetry in Hl. apply last_error_nil in Hl.
    exists l, []. eexists. split; [now rewrite app_nil_r|]. split; [reflexivity|].
    split.
    { intros x Hx. unfold later. rewrite <- Hf0. destruct (from_is s f0 x) eqn:Ex; [|reflexivity]. exfalso.
      assert (In x (own s f0 l)) by (apply filter_In; split; assumption). rewrite Hl in H. destruct H. }
    split; [exact Logic.I|].
    split; [reflexivity|]. split; [reflexivity|]. split; [reflexivity|]. split; [reflexivity|].
    split; [reflexivity|].
    split; [|split; [|reflexivity]].
    + intros f. rewrite (Hown f l [] (eq_sym (app_nil_r l))). cbn [snext sprev with_links].
      destruct (bytes_eqb f0 f) eqn:Ef; [|apply (k_src _ _ K)].
      apply bytes_eqb_eq in Ef. subst f. rewrite Hl. cbn. rewrite U3, U4. tauto.
    + intros f. rewrite (Hown f l [] (eq_sym (app_nil_r l))). cbn [last_of with_links]. unfold key_upd.
      destruct (bytes_eqb f f0) eqn:Ef.
      * apply bytes_eqb_eq in Ef. subst f. rewrite bytes_eqb_refl. now rewrite last_error_app.
      * replace (bytes_eqb f0 f) with false; [apply (k_last _ _ K)|].
        symmetry. destruct (bytes_eqb f0 f) eqn:Ef'; [|reflexivity]. apply bytes_eqb_eq in Ef'. subst f.
        rewrite bytes_eqb_refl in Ef. discriminate.
Qed.

(** transactionlist.go:155-174. *)
Lemma link_list_spec s e l1 l2 : links s (l1 ++ l2) -> ~ In e (l1 ++ l2) -> unlinked s e ->
  let s' := link_list s e (hd_error l2) in
  seg (lnext s') (lprev s') None (l1 ++ e :: l2) None
  /\ front s' = hd_error (l1 ++ e :: l2) /\ back s' = last_error (l1 ++ e :: l2)
  /\ s' = with_links s (front s') (back s') (lnext s') (lprev s') (snext s) (sprev s) (last_of s).
Proof.
  intros K Hne (U1 & U2 & _ & _). cbv zeta. unfold link_list.
  assert (Hde : forall x, In x (l1 ++ l2) -> x <> e) by (intros x Hx ->; contradiction).
  destruct l2 as [|pos l2]; cbn [hd_error].
  - rewrite app_nil_r in *. rewrite (k_back _ _ K).
    replace (match last_error l1 with
             | Some b => (front s, upd (lnext s) b (Some e), upd (lprev s) e (Some b))
             | None => (Some e, lnext s, lprev s) end)
      with (or (front s) (Some e), upd_opt (lnext s) (last_error l1) (Some e),
            match last_error l1 with Some b => upd (lprev s) e (Some b) | None => lprev s end).
    2:{ rewrite (k_front _ _ K). destruct (last_error l1) eqn:E; cbn [upd_opt].
        - destruct l1; [discriminate E | reflexivity].
        - apply last_error_nil in E. subst l1. reflexivity. }
    cbn [lnext lprev front back with_links].
    split; [|split; [|split; [now rewrite last_error_app | reflexivity]]].
    + refine (seg_insert (lnext s) (lprev s) l1 [] e _ _ _ _ _ _ _ _ _); rewrite ?app_nil_r.
      * apply (k_nodup _ _ K).
      * exact Hne.
      * apply (k_list _ _ K).
      * rewrite upd_opt_at, same_false; [exact U1|]. intros E. apply last_error_In in E. contradiction.
      * destruct (last_error l1); [apply upd_same | exact U2].
      * intros x Hx. apply upd_opt_at.
      * intros x Hx. cbn [hd_error same]. destruct (last_error l1); [apply upd_other; now apply Hde | reflexivity].
    + rewrite (k_front _ _ K). destruct l1; reflexivity.
  - destruct (seg_at _ _ _ _ _ (k_list _ _ K)) as [Hp _]. rewrite Hp.
    replace (match last_error l1 with
             | Some p => (front s, upd (lnext s) p (Some e), upd (lprev s) e (Some p))
             | None => (Some e, lnext s, lprev s) end)
      with (match last_error l1 with Some _ => front s | None => Some e end,
            upd_opt (lnext s) (last_error l1) (Some e),
            match last_error l1 with Some p => upd (lprev s) e (Some p) | None => lprev s end)
      by (destruct (last_error l1); reflexivity).
    cbn [lnext lprev front back with_links].
    assert (Hpe : pos <> e) by (apply Hde, in_or_app; right; now left).
    split; [|split; [|split; [|reflexivity]]].
    + refine (seg_insert (lnext s) (lprev s) l1 (pos :: l2) e _ _ _ _ _ _ _ _ _).
      * apply (k_nodup _ _ K).
      * exact Hne.
      * apply (k_list _ _ K).
      * apply upd_same.
      * rewrite upd_other by (intro; apply Hpe; congruence). destruct (last_error l1); [apply upd_same | exact U2].
      * intros x Hx. rewrite upd_other by now apply Hde. apply upd_opt_at.
      * intros x Hx. cbn [hd_error same]. unfold upd at 1. rewrite (Nat.eqb_sym x pos).
        destruct (Nat.eqb pos x); [reflexivity|].
        destruct (last_error l1); [apply upd_other; now apply Hde | reflexivity].
    + rewrite (k_front _ _ K). destruct (last_error l1) eqn:E.
      * destruct l1; [discriminate E | reflexivity].
      * apply last_error_nil in E. subst l1. reflexivity.
    + rewrite (k_back _ _ K), last_error_app. change (e :: pos :: l2) with ([e] ++ pos :: l2).
      now rewrite app_assoc, last_error_app.
Qed.

(** The filters: each is as wide as it should, the chain goes forward, and each
    element is in its own. *)
Record blooms (s : pool_list) (l : list addr) : Prop := mkBlooms {
  b_wide : forall b, (b < bfresh s)%nat -> b_bits (bbloom s b) = 12;
  b_next : forall b n, (b < bfresh s)%nat -> bnext s b = Some n -> (b < n < bfresh s)%nat;
  b_has : forall a, In a l -> exists b, blm s a = Some b /\ (b < bfresh s)%nat
                              /\ contains (bbloom s b) (t_id (txs s a)) = true
}.

Record rep (s : pool_list) (l : list addr) : Prop := mkRep {
  r_links : links s l;
  r_here : forall a, here s a = true <-> In a l;
  r_id : forall i a, by_id s i = Some a <-> In a l /\ t_id (txs s a) = i;
  r_len : len s = Z.of_nat (length l);
  r_fresh : forall a, In a l -> (a < fresh s)%nat;
  r_bloom : blooms s l
}.

(** *** Filters *)

Lemma setbit_all l : forall n i, (forall x, In x l -> 0 <= x) ->
  Z.testbit (fold_left Z.setbit l n) i = Z.testbit n i || existsb (Z.eqb i) l.
Proof.
  induction l as [|x r IH]; intros n i H; cbn [fold_left existsb]; [now rewrite orb_false_r|].
  rewrite IH by (intros y Hy; apply H; now right).
  rewrite Z.setbit_eqb by (apply H; now left).
  rewrite (Z.eqb_sym x i). destruct (i =? x), (Z.testbit n i); reflexivity.
Qed.

Lemma mark_bound bits id i : 0 <= bits -> 0 <= mark bits id i < 2 ^ bits.
Proof. intros H. unfold mark. apply Z.mod_pos_bound. now apply Z.pow_pos_nonneg. Qed.

Lemma marks_pos bits id x : 0 <= bits -> In x (marks bits id) -> 0 <= x.
Proof.
  intros H Hx. unfold marks in Hx. apply in_map_iff in Hx. destruct Hx as (i & <- & _). now apply mark_bound.
Qed.

Lemma bloom_add_has b id : 0 <= b_bits b -> contains (bloom_add b id) id = true.
Proof.
  intros H. unfold contains, bloom_add. cbn [b_bits b_set].
  set (bits := if b_bits b =? 0 then 12 else b_bits b).
  assert (Hb : 0 < bits) by (unfold bits; destruct (Z.eqb_spec (b_bits b) 0); lia).
  replace (bits =? 0) with false by (symmetry; apply Z.eqb_neq; lia).
  apply forallb_forall. intros x Hx. rewrite setbit_all by (intros y Hy; apply (marks_pos bits id); [lia | exact Hy]).
  apply orb_true_iff. right. apply existsb_exists. exists x. split; [exact Hx | apply Z.eqb_refl].
Qed.

Lemma bloom_add_keeps b id id2 : 0 <= b_bits b -> contains b id = true -> contains (bloom_add b id2) id = true.
Proof.
  intros Hb H. unfold contains in *. destruct (b_bits b =? 0) eqn:E; [discriminate|].
  unfold bloom_add. rewrite E. cbn [b_bits b_set]. rewrite E. rewrite forallb_forall in H |- *.
  intros x Hx. rewrite setbit_all by (intros y Hy; apply (marks_pos (b_bits b) id2); [lia | exact Hy]).
  apply orb_true_iff. left. now apply H.
Qed.

Lemma bloom_add_wide b id : b_bits b = 12 \/ b_bits b = 0 -> b_bits (bloom_add b id) = 12.
Proof. intros [H|H]; unfold bloom_add; rewrite H; reflexivity. Qed.

(** ContainsAllOf means that each ID of the second is in the first. *)
Lemma contains_all_has b b2 id : b_bits b2 <> 0 -> contains_all b b2 = true -> contains b2 id = true -> contains b id = true.
Proof.
  intros H0 H H2. unfold contains_all in H. destruct (Z.eqb_spec (b_bits b2) 0); [contradiction|].
  destruct (Z.eqb_spec (b_bits b) (b_bits b2)) as [E|]; [|discriminate].
  unfold contains in *. rewrite E. destruct (b_bits b2 =? 0); [discriminate|].
  rewrite forallb_forall in H2 |- *. intros x Hx. specialize (H2 x Hx).
  apply Z.eqb_eq in H. rewrite <- H in H2. rewrite Z.land_spec in H2. now apply andb_true_iff in H2.
Qed.

Lemma bloom_room_in s : (forall b n, (b < bfresh s)%nat -> bnext s b = Some n -> (b < n < bfresh s)%nat) ->
  forall fuel b b' ok, (b < bfresh s)%nat -> bloom_room fuel s b = (b', ok) ->
  (b <= b' < bfresh s)%nat /\ (bfresh s <= fuel + b -> ok = false -> bnext s b' = None)%nat.
Proof.
  intros Hn fuel. induction fuel as [|k IH]; intros b b' ok Hb H.
  - cbn [bloom_room] in H. destruct (bcount s b <? 50); injection H as <- <-; (split; [lia|]); intros; [discriminate | lia].
  - cbn [bloom_room] in H. destruct (bcount s b <? 50).
    + injection H as <- <-. split; [lia | intros; discriminate].
    + destruct (bnext s b) as [n|] eqn:E.
      * specialize (Hn b n Hb E). destruct (IH n b' ok ltac:(lia) H) as [H1 H2]. split; [lia|].
        intros Hf. apply H2. lia.
      * injection H as <- <-. split; [lia | intros; exact E].
Qed.

Inductive reach (nx : addr -> option addr) : addr -> addr -> Prop :=
| reach_here b : reach nx b b
| reach_step b n b' : nx b = Some n -> reach nx n b' -> reach nx b b'.

Lemma reach_trans nx a b c : reach nx a b -> reach nx b c -> reach nx a c.
Proof. induction 1 as [|a n b E _ IH]; intros H; [exact H | exact (reach_step _ _ _ _ E (IH H))]. Qed.

Lemma reach_more nx nx' a b : (forall x n, nx x = Some n -> nx' x = Some n) -> reach nx a b -> reach nx' a b.
Proof. intros H. induction 1 as [|a n b E _ IH]; [constructor | exact (reach_step _ _ _ _ (H _ _ E) IH)]. Qed.

Lemma bloom_room_reach s fuel : forall b b' ok, bloom_room fuel s b = (b', ok) -> reach (bnext s) b b'.
Proof.
  induction fuel as [|k IH]; intros b b' ok H; cbn [bloom_room] in H.
  - destruct (bcount s b <? 50); injection H as <- <-; constructor.
  - destruct (bcount s b <? 50); [injection H as <- <-; constructor|].
    destruct (bnext s b) as [n|] eqn:E; [|injection H as <- <-; constructor].
    exact (reach_step _ _ _ _ E (IH _ _ _ H)).
Qed.

Definition same_but_blooms (s s' : pool_list) : Prop :=
  s' = with_blooms s (blm s') (bfresh s') (bcount s') (bbloom s') (bnext s').

Lemma update_bloom_ok s e l p : blooms s l -> ~ In e l -> lprev s e = p ->
  match p with Some a => In a l | None => True end ->
  exists s', update_bloom s e = Some s' /\ same_but_blooms s s'
    /\ (forall l', (forall a, In a l' <-> a = e \/ In a l) -> blooms s' l')
    /\ (forall a, a <> e -> blm s' a = blm s a)
    /\ (forall x n, (x < bfresh s)%nat -> bnext s x = Some n -> bnext s' x = Some n)
    /\ (bfresh s <= bfresh s')%nat
    /\ match p with
       | Some a => exists b b', blm s a = Some b /\ blm s' e = Some b' /\ reach (bnext s') b b'
       | None => True
       end.
Proof.
  intros B Hne Hp Hin. unfold update_bloom. rewrite Hp.
  assert (Hput : forall s1 b, same_but_blooms s s1 -> (bfresh s <= bfresh s1)%nat -> (b < bfresh s1)%nat ->
    (forall a, blm s1 a = blm s a) ->
    (forall x, (x < bfresh s)%nat -> bbloom s1 x = bbloom s x) ->
    (forall x, (x < bfresh s1)%nat -> b_bits (bbloom s1 x) = 12 \/ (x = b /\ b_bits (bbloom s1 x) = 0)) ->
    (forall x n, (x < bfresh s1)%nat -> bnext s1 x = Some n -> (x < n < bfresh s1)%nat) ->
    (forall l', (forall a, In a l' <-> a = e \/ In a l) -> blooms (bloom_put s1 e b (t_id (txs s e))) l')).
  { intros s1 b S1 F1 Fb M1 BB W N l' Hl'.
    assert (Etx : txs s1 = txs s) by (rewrite S1; reflexivity).
    constructor; cbn [bloom_put with_blooms bfresh bbloom bnext blm txs].
    - intros x Hx. unfold upd. destruct (Nat.eqb_spec x b) as [->|Hxb].
      + apply bloom_add_wide. destruct (W b Hx) as [?|[_ ?]]; tauto.
      + destruct (W x Hx) as [?|[? _]]; [assumption | contradiction].
    - exact N.
    - intros a Ha. apply Hl' in Ha. unfold upd at 1. rewrite Etx.
      destruct (Nat.eqb_spec a e) as [->|Hae].
      + exists b. split; [reflexivity|]. split; [exact Fb|]. rewrite upd_same. apply bloom_add_has.
        destruct (W b Fb) as [->|[_ ->]]; lia.
      + destruct Ha as [->|Ha]; [contradiction|]. destruct (b_has _ _ B a Ha) as (x & E & Hx & Hc).
        exists x. rewrite M1. split; [exact E|]. split; [lia|].
        unfold upd. destruct (Nat.eqb_spec x b) as [->|Hxb]; [|rewrite BB by exact Hx; exact Hc].
        rewrite (BB b Hx). apply bloom_add_keeps; [|exact Hc]. rewrite (b_wide _ _ B b Hx). lia. }
  destruct p as [p|].
  - destruct (b_has _ _ B p Hin) as (b & Eb & Hb & _). rewrite Eb.
    destruct (bloom_room (bfresh s) s b) as [b' ok] eqn:Er.
    destruct (bloom_room_in s (b_next _ _ B) _ _ _ _ Hb Er) as [Hb' Hend].
    assert (Hre := bloom_room_reach _ _ _ _ _ Er). destruct ok.
    + exists (bloom_put s e b' (t_id (txs s e))). split; [reflexivity|]. split; [reflexivity|].
      split. { apply Hput; try reflexivity; try lia.
               - destruct s; reflexivity.
               - intros x Hx. left. now apply (b_wide _ _ B).
               - apply (b_next _ _ B). }
      split. { intros a Ha. cbn. now apply upd_other. }
      split. { intros x n _ E. exact E. }
      split; [cbn; lia|]. exists b, b'. split; [reflexivity|]. split; [cbn; apply upd_same | exact Hre].
    + specialize (Hend ltac:(lia) eq_refl). cbn [bloom_new].
      eexists. split; [reflexivity|]. split; [reflexivity|].
      assert (Hnx : forall x n, (x < bfresh s)%nat -> bnext s x = Some n ->
        upd (upd (bnext s) (bfresh s) None) b' (Some (bfresh s)) x = Some n).
      { intros x n Hx E. unfold upd. destruct (Nat.eqb_spec x b') as [->|_]; [congruence|].
        destruct (Nat.eqb_spec x (bfresh s)); [lia | exact E]. }
      split. { apply Hput; cbn [with_blooms bfresh blm bbloom bnext]; try lia.
               - destruct s; reflexivity.
               - reflexivity.
               - intros x Hx. apply upd_other. lia.
               - intros x Hx. unfold upd. destruct (Nat.eqb_spec x (bfresh s)) as [->|Hne2]; [now right|].
                 left. apply (b_wide _ _ B). lia.
               - intros x n Hx. unfold upd. destruct (Nat.eqb_spec x b') as [->|_].
                 + intros E. injection E as <-. lia.
                 + destruct (Nat.eqb_spec x (bfresh s)); [discriminate|]. intros E.
                   assert (x < bfresh s)%nat as Hx' by lia.
                   assert (Hq := b_next _ _ B x n Hx' E). lia. }
      split. { intros a Ha. cbn. now apply upd_other. }
      split. { exact Hnx. }
      split; [cbn; lia|]. exists b, (bfresh s). split; [reflexivity|]. split; [cbn; apply upd_same|].
      cbn [bloom_put with_blooms bnext]. apply (reach_trans _ _ b').
      * assert (Hgen : forall x y, reach (bnext s) x y -> (x < bfresh s)%nat ->
          reach (upd (upd (bnext s) (bfresh s) None) b' (Some (bfresh s))) x y).
        { induction 1 as [|x n y E _ IH]; intros Hx; [constructor|].
          assert (Hq := b_next _ _ B x n Hx E).
          apply (reach_step _ _ n); [now apply Hnx | apply IH; lia]. }
        now apply Hgen.
      * apply (reach_step _ _ (bfresh s)); [apply upd_same | constructor].
  - cbn [bloom_new]. eexists. split; [reflexivity|]. split; [reflexivity|].
    split. { apply Hput; cbn [with_blooms bfresh blm bbloom bnext]; try lia.
             - destruct s; reflexivity.
             - reflexivity.
             - intros x Hx. apply upd_other. lia.
             - intros x Hx. unfold upd. destruct (Nat.eqb_spec x (bfresh s)) as [->|Hne2]; [now right|].
               left. apply (b_wide _ _ B). lia.
             - intros x n Hx. unfold upd. destruct (Nat.eqb_spec x (bfresh s)); [discriminate|]. intros E.
               assert (x < bfresh s)%nat as Hx' by lia. assert (Hq := b_next _ _ B x n Hx' E). lia. }
    split. { intros a Ha. cbn. now apply upd_other. }
    split. { intros x n Hx E. cbn. rewrite upd_other by lia. exact E. }
    split; [cbn; lia | exact Logic.I].
Qed.
