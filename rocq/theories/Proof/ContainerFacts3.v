(** Container operations write only their own slots; histories. *)
From Verif Require Import Model.Bytes Model.IntCodec Model.DbKey Model.Utf8 Model.Exn Model.Monad Model.Address Model.Typed Model.EE Model.Containers
  Spec.EagerEE Spec.Slots Spec.Running Spec.ContainerOps Proof.BytesFacts Proof.DbKeyFacts Proof.EESim Proof.RunningFacts Proof.ContainerFacts Proof.ContainerFacts2.
From Coq Require Import ZifyBool.

Section WithHash.
Context (sha3 : bytes -> bytes).
Notation running := (running sha3).
Notation post := (Running.post sha3).

Lemma only_same P w w' : same_but_steps w w' -> changed_only P w w'.
Proof. intros (H1 & H2 & H3). split; [auto|]. split; [auto|]. rewrite H1. auto. Qed.
Lemma only_wrote (P : bytes -> Prop) k v w w' : wrote k v w w' -> P k -> changed_only P w w'.
Proof.
  intros (H1 & H2 & H3) Hk. split; [auto|]. split; [auto|]. rewrite H1. split; [reflexivity|]. intros a k' N. cbn.
  destruct (bytes_eqb a (here w)) eqn:Ea; [|reflexivity]. destruct (bytes_eqb k' k) eqn:Ek; [|reflexivity].
  apply bytes_eqb_eq in Ea, Ek. subst. destruct N; [congruence|contradiction].
Qed.
Lemma only_trans P a b c : changed_only P a b -> changed_only P b c -> changed_only P a c.
Proof.
  intros (H1 & H2 & H3 & H4) (G1 & G2 & G3 & G4). split; [congruence|]. split; [congruence|]. split; [congruence|].
  intros x k N. rewrite G4, H4 by (destruct (here_frames _ _ H1) as [-> _]; auto) || auto. auto.
Qed.
Lemma only_weak (P Q : bytes -> Prop) a b : (forall k, P k -> Q k) -> changed_only P a b -> changed_only Q a b.
Proof. intros I (H1 & H2 & H3 & H4). repeat (split; [auto|]). intros x k N. apply H4. destruct N; [auto|right; intros C; auto]. Qed.

Definition keeps {A} (P : bytes -> Prop) (m : M A) (w : world) : Prop := post m w (fun r w' => r <> Stuck /\ changed_only P w w').
Lemma keeps_bind {A B} P (m : M A) (f : A -> M B) w : keeps P m w ->
  (forall a w', running w' -> changed_only P w w' -> keeps P (f a) w') -> keeps P (mbind m f) w.
Proof.
  intros H K. eapply post_bind; [exact H| | |].
  - intros a w' R' (_ & C). eapply post_weak; [apply K; auto|]. intros r w2 R2 (N & C2). split; [exact N|eapply only_trans; eauto].
  - intros e w' R' (_ & C). split; [discriminate|exact C].
  - intros w' (N & _). congruence.
Qed.
Lemma keeps_from {A} P (m : M A) w w1 : same_but_steps w w1 -> keeps P m w1 -> post m w1 (fun r w' => r <> Stuck /\ changed_only P w w').
Proof. intros S1 K. eapply post_weak; [exact K|]. intros r w' _ (N & C). split; [exact N|eapply only_trans; [apply only_same; exact S1|exact C]]. Qed.
Lemma keeps_ret {A} P (a : A) w : running w -> keeps P (mret a) w.
Proof. intros R. apply post_ret; [exact R|]. split; [discriminate|apply only_same, same_refl]. Qed.
Lemma keeps_raise {A} P e w : running w -> @keeps A P (mraise e) w.
Proof. intros R. apply post_raise; [exact R|]. split; [discriminate|apply only_same, same_refl]. Qed.
Lemma keeps_lift {A} P (x : pyres A) w : running w -> x <> Stuck -> keeps P (mlift x) w.
Proof. intros R N. exists x, w. split; [reflexivity|]. split; [exact R|]. split; [exact N|apply only_same, same_refl]. Qed.
Lemma keeps_get P key w : running w -> keeps P (db_get sha3 key) w.
Proof.
  intros R. eapply post_weak; [apply (get_post sha3 w key R)|]. intros r w' R' (S & [->|(e & -> & _)]); (split; [discriminate|apply only_same, S]).
Qed.
Lemma keeps_put (P : bytes -> Prop) key v w : running w -> P key -> keeps P (db_put sha3 key v) w.
Proof.
  intros R Hk. eapply post_weak; [apply (put_post sha3 w key v R)|]. intros r w' R' [(-> & W)|(e & -> & _ & S)]; (split; [discriminate|]).
  - eapply only_wrote; eauto.
  - apply only_same, S.
Qed.
Lemma keeps_delete (P : bytes -> Prop) key w : running w -> P key -> keeps P (db_delete sha3 key) w.
Proof.
  intros R Hk. eapply post_weak; [apply (delete_post sha3 w key R)|]. intros r w' R' [(-> & W)|(e & -> & _ & S)]; (split; [discriminate|]).
  - eapply only_wrote; eauto.
  - apply only_same, S.
Qed.
Lemma keeps_contains P pre v w : running w -> keeps P (db_contains sha3 pre v) w.
Proof.
  intros R. pose proof (contains_effect sha3 w pre v (running_live sha3 w R)) as K.
  destruct (go_contains _ _ _ _ _ _ _) as [[yn cnt] size]. destruct K as (r & w' & E & L & S & K).
  exists r, w'. split; [exact E|]. split; [eapply run_contains; eauto|]. split; [|apply only_same, S].
  destruct (_ && _) in K; [destruct K as (-> & _); discriminate|]. destruct K as ((e & -> & _) & _). discriminate.
Qed.
Lemma enc_ns v : encode_value v <> Stuck.
Proof. destruct (encode_value_total v) as [(b & ->)|(b & ->)]; discriminate. Qed.
Lemma key_ns v : encode_key v <> Stuck.
Proof. exact (enc_ns v). Qed.
Lemma dec_ns v ty : decode_object v ty <> Stuck.
Proof. destruct (decode_object_total v ty) as [(b & ->)|(b & ->)]; discriminate. Qed.

Lemma keeps_size P d w : running w -> keeps P (arr_get_size sha3 d) w.
Proof.
  intros R. eapply post_weak; [apply (size_post sha3 w d R)|]. intros r w' R' (S & [->|(e & -> & _)]); (split; [discriminate|apply only_same, S]).
Qed.
Lemma keeps_get_in P d size idx w : running w -> keeps P (arr_get_in sha3 d size idx) w.
Proof.
  intros R. unfold arr_get_in. destruct (as_index idx); [|apply keeps_raise; exact R]. cbv zeta.
  destruct (_ && _); [|apply keeps_raise; exact R].
  apply keeps_bind; [apply keeps_lift; [exact R|apply key_ns]|]. intros k w1 R1 _.
  apply keeps_bind; [apply keeps_get; exact R1|]. intros b w2 R2 _. apply keeps_lift; [exact R2|apply dec_ns].
Qed.
Lemma keeps_getitem P d idx w : running w -> keeps P (arr_getitem sha3 d idx) w.
Proof. intros R. apply keeps_bind; [apply keeps_size; exact R|]. intros n w1 R1 _. apply keeps_get_in; exact R1. Qed.

Lemma keeps_put_at (P : bytes -> Prop) d i v w : running w -> (forall k, int_to_bytes i = Some k -> P (hash_key sha3 (arr_sdb d) (Some k))) ->
  keeps P (arr_put_at sha3 d i v) w.
Proof.
  intros R H. destruct (encode_value_total v) as [(b & Eb)|(e & Eb)].
  - eapply post_weak; [apply (put_at_post sha3 w d i v b R Eb)|]. intros r w' R' [(-> & W)|(e & -> & _ & S)]; (split; [discriminate|]).
    + destruct (int_bytes i) as (k & Ek & _). rewrite <- (elem_slot_eq sha3 d _ _ Ek) in W. eapply only_wrote; eauto.
    + apply only_same, S.
  - eapply post_lift_exc; [exact Eb|exact R|]. split; [discriminate|apply only_same, same_refl].
Qed.
Lemma keeps_set_size (P : bytes -> Prop) d n w : running w -> P (size_slot sha3 d) -> keeps P (arr_set_size sha3 d n) w.
Proof.
  intros R H. eapply post_weak; [apply (set_size_post sha3 w d n R)|]. intros r w' R' [(-> & b & _ & _ & _ & W)|(e & -> & _ & S)]; (split; [discriminate|]).
  - eapply only_wrote; eauto.
  - apply only_same, S.
Qed.

Lemma keeps_iter P d size : forall n i w, running w -> keeps P (arr_iter_from sha3 d size n i) w.
Proof.
  induction n as [|n IH]; intros i w R; [apply keeps_ret; exact R|]. cbn [arr_iter_from].
  apply keeps_bind; [apply keeps_get_in; exact R|]. intros a w1 R1 _. apply keeps_bind; [apply IH; exact R1|]. intros; apply keeps_ret; auto.
Qed.
Lemma keeps_search P d size item : forall n i w, running w -> keeps P (arr_search sha3 d size item n i) w.
Proof.
  induction n as [|n IH]; intros i w R; [apply keeps_ret; exact R|]. cbn [arr_search].
  apply keeps_bind; [apply keeps_get_in; exact R|]. intros a w1 R1 _. destruct (py_eq a item); [apply keeps_ret|apply IH]; exact R1.
Qed.

(** The slots an operation may write. *)
Definition own_slot (o : cop) (w : world) (k : bytes) : Prop := exists e, may_write sha3 o w e /\ k = hash_key sha3 (op_db o) e.

Lemma op_keeps o w : running w -> keeps (own_slot o w) (run_op sha3 o) w.
Proof.
  intros R. destruct o as [d v|d|d|d k v|d k|d k|d k|d v|d|d i|d i v|d|d|d v]; cbn [run_op].
  - apply keeps_bind; [apply keeps_lift; [exact R|apply enc_ns]|]. intros b w1 R1 _. apply keeps_put; [exact R1|]. exists None. cbn. auto.
  - apply keeps_bind; [|intros; apply keeps_ret; auto]. apply keeps_bind; [apply keeps_get; exact R|]. intros; apply keeps_lift; [auto|apply dec_ns].
  - apply keeps_delete; [exact R|]. exists None. cbn. auto.
  - unfold dict_setitem. destruct (negb _); [apply keeps_raise; exact R|].
    destruct (encode_key_total k) as [(kb & Ek)|(e & Ek)].
    + eapply post_lift_ok; [exact Ek|]. apply keeps_bind; [apply keeps_lift; [exact R|apply enc_ns]|]. intros b w1 R1 _.
      apply keeps_put; [exact R1|]. exists (Some kb). cbn. eauto.
    + eapply post_lift_exc; [exact Ek|exact R|]. split; [discriminate|apply only_same, same_refl].
  - apply keeps_bind; [|intros; apply keeps_ret; auto]. unfold dict_getitem. destruct (_ =? 1).
    + apply keeps_bind; [apply keeps_lift; [exact R|apply key_ns]|]. intros kb w1 R1 _. apply keeps_bind; [apply keeps_get; exact R1|]. intros b w2 R2 _.
      apply keeps_bind; [apply keeps_lift; [exact R2|apply dec_ns]|]. intros; apply keeps_ret; auto.
    + apply keeps_bind; [apply keeps_lift; [exact R|]|intros; apply keeps_ret; auto].
      unfold new_DictDB. destruct (encode_key_total k) as [(kb & ->)|(e & ->)]; discriminate.
  - apply keeps_bind; [|intros; apply keeps_ret; auto].
    apply keeps_bind; [apply keeps_lift; [exact R|apply key_ns]|]. intros kb w1 R1 _. apply keeps_bind; [apply keeps_get; exact R1|]. intros; apply keeps_ret; auto.
  - unfold dict_remove. destruct (negb _); [apply keeps_raise; exact R|].
    destruct (encode_key_total k) as [(kb & Ek)|(e & Ek)].
    + eapply post_lift_ok; [exact Ek|]. apply keeps_delete; [exact R|]. exists (Some kb). cbn. eauto.
    + eapply post_lift_exc; [exact Ek|exact R|]. split; [discriminate|apply only_same, same_refl].
  - (* put *)
    eapply post_bind; [apply (size_post sha3 w d R)| | |].
    + intros n w1 R1 (S1 & [X|(e & X & _)]); [|discriminate]. injection X as ->.
      apply (keeps_from _ _ w w1 S1).
      apply keeps_bind; [apply keeps_put_at; [exact R1|]|].
      * intros k Ek. exists (Some k). cbn. auto.
      * intros _ w2 R2 _. apply keeps_set_size; [exact R2|]. exists None. cbn. auto.
    + intros e w' R' (S & _). split; [discriminate|apply only_same, S].
    + intros w' (S & [X|(e & X & _)]); discriminate.
  - (* pop *)
    apply keeps_bind; [|intros; apply keeps_ret; auto].
    eapply post_bind; [apply (size_post sha3 w d R)| | |].
    + intros n w1 R1 (S1 & [X|(e & X & _)]); [|discriminate]. injection X as ->.
      apply (keeps_from _ _ w w1 S1).
      destruct (_ =? 0); [apply keeps_ret; exact R1|]. cbv zeta.
      apply keeps_bind; [apply keeps_getitem; exact R1|]. intros last w2 R2 _.
      destruct (int_bytes (array_size sha3 w d - 1)) as (k & Ek & _).
      eapply post_lift_ok; [cbn [encode_key]; rewrite Ek; reflexivity|].
      apply keeps_bind; [apply keeps_delete; [exact R2|]|].
      * exists (Some k). cbn. auto.
      * intros _ w3 R3 _. apply keeps_bind; [apply keeps_set_size; [exact R3|]|intros; apply keeps_ret; auto]. exists None. cbn. auto.
    + intros e w' R' (S & _). split; [discriminate|apply only_same, S].
    + intros w' (S & [X|(e & X & _)]); discriminate.
  - apply keeps_bind; [apply keeps_getitem; exact R|intros; apply keeps_ret; auto].
  - unfold arr_setitem. destruct (as_index i) as [z|]; [|apply keeps_raise; exact R].
    eapply post_bind; [apply (size_post sha3 w d R)| | |].
    + intros n w1 R1 (S1 & [X|(e & X & _)]); [|discriminate]. injection X as ->. cbv zeta.
      apply (keeps_from _ _ w w1 S1).
      set (j := if z <? 0 then _ else _). destruct ((0 <=? j) && (j <? array_size sha3 w d)) eqn:Y; [|apply keeps_raise; exact R1].
      apply keeps_put_at; [exact R1|]. intros k Ek. exists (Some k). split; [|reflexivity]. exists j. split; [lia|congruence].
    + intros e w' R' (S & _). split; [discriminate|apply only_same, S].
    + intros w' (S & [X|(e & X & _)]); discriminate.
  - apply keeps_bind; [|intros; apply keeps_ret; auto]. apply keeps_bind; [apply keeps_size; exact R|]. intros n w1 R1 _.
    destruct (n <? 0); [apply keeps_raise; exact R1|]. destruct (_ <=? n); [apply keeps_raise; exact R1|apply keeps_ret; exact R1].
  - apply keeps_bind; [|intros; apply keeps_ret; auto]. apply keeps_bind; [apply keeps_size; exact R|]. intros; apply keeps_iter; auto.
  - apply keeps_bind; [|intros; apply keeps_ret; auto]. unfold arr_contains. destruct (type_is _ _).
    + apply keeps_bind; [apply keeps_size; exact R|]. intros n w1 R1 _. destruct (n =? 0); [apply keeps_ret; exact R1|].
      apply keeps_bind; [apply keeps_lift; [exact R1|apply enc_ns]|]. intros b w2 R2 _. apply keeps_contains; exact R2.
    + apply keeps_bind; [apply keeps_size; exact R|]. intros; apply keeps_search; auto.
Qed.

Lemma only_cell P w w' k : changed_only P w w' -> ~ P k -> cell w' k = cell w k.
Proof. intros (H1 & _ & _ & H4) N. unfold cell, ns_get. destruct (here_frames _ _ H1) as [-> _]. rewrite H4; auto. Qed.

Lemma op_frame o w r w' : running w -> run_op sha3 o w = (r, w') -> running w' /\ r <> Stuck /\ changed_only (own_slot o w) w w'.
Proof. intros R E. destruct (op_keeps o w R) as (r0 & w0 & E0 & R0 & N & C). rewrite E in E0. injection E0 as <- <-. auto. Qed.

Lemma other_container k1 n1 lv1 o w r w' k2 n2 lv2 e2 :
  running w -> run_op sha3 o w = (r, w') -> op_db o = container_db k1 [] n1 lv1 ->
  (forall e, may_write sha3 o w e -> Forall part_ok (n1 :: lv1 ++ opt_list e)) -> Forall part_ok (n2 :: lv2 ++ opt_list e2) ->
  (forall e, may_write sha3 o w e -> sha3 (slot_preimage k1 [] n1 lv1 e) = sha3 (slot_preimage k2 [] n2 lv2 e2) ->
     slot_preimage k1 [] n1 lv1 e = slot_preimage k2 [] n2 lv2 e2) ->
  (forall e, may_write sha3 o w e -> k1 <> k2 \/ n1 <> n2 \/ lv1 ++ opt_list e <> lv2 ++ opt_list e2) ->
  cell w' (slot sha3 k2 [] n2 lv2 e2) = cell w (slot sha3 k2 [] n2 lv2 e2).
Proof.
  intros R E Db P1 P2 Hs D. destruct (op_frame o w r w' R E) as (_ & _ & C). apply (only_cell _ _ _ _ C).
  intros (e & Mw & X). rewrite Db in X. change (sha3 (slot_preimage k2 [] n2 lv2 e2) = sha3 (slot_preimage k1 [] n1 lv1 e)) in X.
  symmetry in X. apply (Hs e Mw) in X. apply slot_preimage_inj in X; [|apply P1; exact Mw|exact P2]. cbn [app] in X.
  destruct X as (X1 & X2 & X3). specialize (D e Mw). tauto.
Qed.

(** ** Histories *)
Lemma history_running w h w' : running w -> history sha3 w h w' -> running w'.
Proof.
  intros R H. induction H as [|o w w1 h w' E _ IH|o e w w1 h w' E _ IH]; auto; apply IH; eapply op_frame; eauto.
Qed.

Lemma hash_none_own o w key : (forall e, hash_key sha3 (op_db o) e <> key) -> ~ own_slot o w key.
Proof. intros H (e & _ & E). apply (H e). auto. Qed.

Lemma var_history d : forall h w w', running w -> history sha3 w (map (fun x => (var_op d (fst x), snd x)) h) w' ->
  (forall o b, In (inr o, b) h -> forall e, hash_key sha3 (op_db o) e <> hash_key sha3 (var_sdb d) None) ->
  cell w' (hash_key sha3 (var_sdb d) None) = fold_left var_after h (cell w (hash_key sha3 (var_sdb d) None)).
Proof.
  induction h as [|[x b] h IH]; intros w w' R H Ho; cbn [map fst snd] in H; [inversion H; reflexivity|].
  set (key := hash_key sha3 (var_sdb d) None) in *.
  assert (K : exists w1 r, run_op sha3 (var_op d x) w = (r, w1) /\ history sha3 w1 (map (fun x => (var_op d (fst x), snd x)) h) w' /\
     (b = true /\ r = Ok tt \/ b = false /\ exists e, r = Exc e)).
  { inversion H; subst; [exists w1, (Ok tt)|exists w1, (Exc e)]; eauto 6. }
  clear H. destruct K as (w1 & r & E & H & Hb). destruct (op_frame _ _ _ _ R E) as (R1 & _ & C).
  rewrite (IH w1 w' R1 H) by (intros o b' I; apply (Ho o b'); right; exact I). cbn [fold_left]. f_equal.
  destruct x as [[v| |]|o]; cbn [var_op run_op] in E.
  - cbn [var_after]. destruct (encode_value_total v) as [(bv & Ev)|(e & Ev)].
    + destruct (var_set_post sha3 w d v bv R Ev) as (r0 & w0 & E0 & _ & K). rewrite E in E0. injection E0 as <- <-. fold key in K. rewrite Ev.
      destruct K as [(-> & W)|(e & -> & _ & S)]; destruct Hb as [(-> & Hb)|(-> & e' & Hb)]; try discriminate.
      * rewrite (cell_enc _ _ _ _ _ W), bytes_eqb_refl. reflexivity.
      * apply (cell_same _ _ _ S).
    + unfold var_set in E. rewrite Ev, (bind_exc _ _ w e w) in E by reflexivity. injection E as <- <-.
      destruct Hb as [(-> & Hb)|(-> & _)]; [discriminate|reflexivity].
  - cbn [var_after]. transitivity (cell w key); [|destruct b; reflexivity]. apply (only_cell _ _ _ _ C).
    intros (e & [] & _).
  - destruct (var_remove_post sha3 w d R) as (r0 & w0 & E0 & _ & K). rewrite E in E0. injection E0 as <- <-. fold key in K.
    destruct K as [(-> & W)|(e & -> & _ & S)]; destruct Hb as [(-> & Hb)|(-> & e' & Hb)]; try discriminate; cbn [var_after].
    * rewrite (cell_enc _ _ _ _ _ W), bytes_eqb_refl. reflexivity.
    * apply (cell_same _ _ _ S).
  - cbn [var_after]. apply (only_cell _ _ _ _ C). apply hash_none_own. apply (Ho o b). left. reflexivity.
Qed.

Lemma dict_history d kb : dict_depth d = 1 -> forall h w w', running w -> history sha3 w (map (fun x => (dict_op d (fst x), snd x)) h) w' ->
  (forall o b, In (inr o, b) h -> forall e, hash_key sha3 (op_db o) e <> hash_key sha3 (dict_sdb d) (Some kb)) ->
  (forall o b kb', In (inl o, b) h -> encode_key (dop_key o) = Ok kb' -> kb' <> kb -> hash_key sha3 (dict_sdb d) (Some kb') <> hash_key sha3 (dict_sdb d) (Some kb)) ->
  cell w' (hash_key sha3 (dict_sdb d) (Some kb)) = fold_left (dict_after kb) h (cell w (hash_key sha3 (dict_sdb d) (Some kb))).
Proof.
  intros Dd. induction h as [|[x b] h IH]; intros w w' R H Ho Hk; cbn [map fst snd] in H; [inversion H; reflexivity|].
  set (key := hash_key sha3 (dict_sdb d) (Some kb)) in *.
  assert (K : exists w1 r, run_op sha3 (dict_op d x) w = (r, w1) /\ history sha3 w1 (map (fun x => (dict_op d (fst x), snd x)) h) w' /\
     (b = true /\ r = Ok tt \/ b = false /\ exists e, r = Exc e)).
  { inversion H; subst; [exists w1, (Ok tt)|exists w1, (Exc e)]; eauto 6. }
  clear H. destruct K as (w1 & r & E & H & Hb). destruct (op_frame _ _ _ _ R E) as (R1 & _ & C).
  rewrite (IH w1 w' R1 H) by (intros; first [solve [eapply Ho; right; eauto]|solve [eapply Hk; [right; eauto|eauto|eauto]]]). cbn [fold_left]. f_equal.
  assert (Q : forall kb', (forall o, x = inl o -> encode_key (dop_key o) = Ok kb') -> (exists o, x = inl o) ->
     bytes_eqb key (hash_key sha3 (dict_sdb d) (Some kb')) = bytes_eqb kb' kb).
  { intros kb' E1 (o & ->). destruct (bytes_eqb kb' kb) eqn:Y.
    - apply bytes_eqb_eq in Y. subst. apply bytes_eqb_refl.
    - apply bytes_eqb_neq. apply bytes_eqb_neq in Y. apply not_eq_sym. apply (Hk o b kb'); [left; reflexivity|apply E1; reflexivity|exact Y]. }
  destruct x as [[k v|k|k|k]|o]; cbn [dict_op run_op] in E.
  - cbn [dict_after]. destruct (encode_key_total k) as [(kb' & Ek)|(e & Ek)]; rewrite Ek.
    2: { unfold dict_setitem in E. rewrite Dd in E. change (negb (1 =? 1)) with false in E. cbv iota in E.
         rewrite Ek, (bind_exc _ _ w e w) in E by reflexivity. injection E as <- <-.
         destruct Hb as [(-> & Hb)|(-> & _)]; [discriminate|reflexivity]. }
    destruct (encode_value_total v) as [(bv & Ev)|(e & Ev)]; rewrite Ev.
    2: { unfold dict_setitem in E. rewrite Dd in E. change (negb (1 =? 1)) with false in E. cbv iota in E.
         rewrite Ek, (bind_ok _ _ w kb' w), Ev, (bind_exc _ _ w e w) in E by reflexivity. injection E as <- <-.
         destruct Hb as [(-> & Hb)|(-> & _)]; [discriminate|reflexivity]. }
    destruct (dict_set_post sha3 w d k kb' v bv R Dd Ek Ev) as (r0 & w0 & E0 & _ & K). rewrite E in E0. injection E0 as <- <-.
    destruct K as [(-> & W)|(e & -> & _ & S)]; destruct Hb as [(-> & Hb)|(-> & e' & Hb)]; try discriminate.
    + rewrite (cell_enc _ _ _ _ _ W), (Q kb') by (try (intros o [= <-]); eauto). reflexivity.
    + apply (cell_same _ _ _ S).
  - transitivity (cell w key); [|cbn [dict_after]; destruct b; reflexivity]. apply (only_cell _ _ _ _ C). intros (e & [] & _).
  - transitivity (cell w key); [|cbn [dict_after]; destruct b; reflexivity]. apply (only_cell _ _ _ _ C). intros (e & [] & _).
  - cbn [dict_after]. destruct (encode_key_total k) as [(kb' & Ek)|(e & Ek)]; rewrite Ek.
    2: { unfold dict_remove in E. rewrite Dd in E. change (negb (1 =? 1)) with false in E. cbv iota in E.
         rewrite Ek, (bind_exc _ _ w e w) in E by reflexivity. injection E as <- <-.
         destruct Hb as [(-> & Hb)|(-> & _)]; [discriminate|reflexivity]. }
    destruct (dict_remove_post sha3 w d k kb' R Dd Ek) as (r0 & w0 & E0 & _ & K). rewrite E in E0. injection E0 as <- <-.
    destruct K as [(-> & W)|(e & -> & _ & S)]; destruct Hb as [(-> & Hb)|(-> & e' & Hb)]; try discriminate.
    + rewrite (cell_enc _ _ _ _ _ W), (Q kb') by (try (intros o [= <-]); eauto). reflexivity.
    + apply (cell_same _ _ _ S).
  - cbn [dict_after]. apply (only_cell _ _ _ _ C). apply hash_none_own. apply (Ho o b). left. reflexivity.
Qed.
End WithHash.
