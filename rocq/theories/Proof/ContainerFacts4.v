(** Histories of one ArrayDB. *)
From Verif Require Import Model.Bytes Model.IntCodec Model.DbKey Model.Utf8 Model.Exn Model.Monad Model.Address Model.Typed Model.EE Model.Containers
  Spec.EagerEE Spec.Slots Spec.Running Spec.ContainerOps Proof.BytesFacts Proof.IntCodecFacts Proof.Int64Facts Proof.DbKeyFacts Proof.EESim Proof.RunningFacts Proof.ContainerFacts Proof.ContainerFacts2 Proof.ContainerFacts3.
From Coq Require Import ZifyBool.

Section WithHash.
Context (sha3 : bytes -> bytes).
Notation running := (running sha3).
Notation post := (Running.post sha3).

Lemma put_bad w d v e : running w -> encode_value v = Exc e ->
  post (arr_put sha3 d v) w (fun r w' => same_but_steps w w' /\ exists e', r = Exc e').
Proof.
  intros R E. eapply post_bind; [apply (size_post sha3 w d R)| | |].
  - intros n w1 R1 (S1 & _). exists (Exc e), w1. unfold arr_put_at. rewrite E. split; [reflexivity|]. split; [exact R1|]. split; [exact S1|eauto].
  - intros e' w' R' (S & _). split; [exact S|eauto].
  - intros w' (S & [X|(e' & X & _)]); discriminate.
Qed.
Lemma set_bad w d i v : running w -> as_index i = None \/ (exists e, encode_value v = Exc e) ->
  post (arr_setitem sha3 d i v) w (fun r w' => same_but_steps w w' /\ exists e', r = Exc e').
Proof.
  intros R E. unfold arr_setitem. destruct (as_index i) as [z|] eqn:Ei.
  2: { apply post_raise; [exact R|]. split; [apply same_refl|eauto]. }
  destruct E as [E|(e & E)]; [discriminate|]. eapply post_bind; [apply (size_post sha3 w d R)| | |].
  - intros n w1 R1 (S1 & _). cbv zeta. destruct (_ && _).
    + exists (Exc e), w1. unfold arr_put_at. rewrite E. split; [reflexivity|]. split; [exact R1|]. split; [exact S1|eauto].
    + apply post_raise; [exact R1|]. split; [exact S1|eauto].
  - intros e' w' R' (S & _). split; [exact S|eauto].
  - intros w' (S & [X|(e' & X & _)]); discriminate.
Qed.

Lemma distinct_le d n m : (m <= n)%nat -> slots_distinct sha3 d n -> slots_distinct sha3 d m.
Proof. intros L [D1 D2]. split; intros; [apply D1|apply D2]; auto; lia. Qed.

Lemma holds_only P w w' d l : changed_only P w w' -> array_holds sha3 w d l -> ~ P (size_slot sha3 d) ->
  (forall i, (i < length l)%nat -> ~ P (elem_slot sha3 d (Z.of_nat i))) -> array_holds sha3 w' d l.
Proof.
  intros C [H1 H2] N1 N2. split.
  - rewrite (only_cell _ _ _ _ C N1). exact H1.
  - intros i Hi. rewrite (only_cell _ _ _ _ C (N2 i Hi)). auto.
Qed.

Lemma arr_after_le l x : (length (arr_after l x) <= S (length l))%nat.
Proof.
  destruct x as [[v| |i|i v| | |v]|o]; cbn [arr_after]; try lia.
  - destruct (encode_value v); try lia. rewrite app_length. cbn. lia.
  - destruct l as [|y l _] using rev_ind; [cbn; lia|]. rewrite removelast_last, app_length; cbn; lia.
  - destruct (as_index i); try lia. destruct (encode_value v); try lia. destruct (position _ _); try lia. rewrite length_replace. lia.
Qed.

(** One operation. *)
Definition arr_next (l : list bytes) (x : aop + cop) (b : bool) (l' : list bytes) : Prop :=
  if b then l' = arr_after l x else l' = l \/ (x = inl APop /\ exists m y, l = m ++ [y] /\ l' = m ++ [[]]).
Lemma arr_one d x b w w1 r l n : running w -> array_holds sha3 w d l -> (length l <= n)%nat -> slots_distinct sha3 d n ->
  run_op sha3 (arr_op d x) w = (r, w1) -> b = true /\ r = Ok tt \/ b = false /\ (exists e, r = Exc e) ->
  (forall o, x = inr o -> forall e, hash_key sha3 (op_db o) e <> size_slot sha3 d /\
     forall i, (i <= n)%nat -> hash_key sha3 (op_db o) e <> elem_slot sha3 d (Z.of_nat i)) ->
  exists l', arr_next l x b l' /\ array_holds sha3 w1 d l'.
Proof.
  intros R Hl Ln Ds E Hb Ho. destruct (op_frame sha3 _ _ _ _ R E) as (R1 & _ & C).
  assert (Dl : slots_distinct sha3 d (length l)) by (apply (distinct_le d n); [lia|exact Ds]).
  assert (Same : array_holds sha3 w1 d l -> arr_after l x = l -> exists l', arr_next l x b l' /\ array_holds sha3 w1 d l').
  { intros H A. exists l. split; [|exact H]. destruct b; cbn [arr_next]; auto. }
  assert (Rd : (forall e, ~ may_write sha3 (arr_op d x) w e) -> array_holds sha3 w1 d l).
  { intros Nw. apply (holds_only _ _ _ _ _ C Hl); [|intros i _]; intros (e & Me & _); apply (Nw e Me). }
  assert (Fl : b = false -> array_holds sha3 w1 d l -> exists l', arr_next l x b l' /\ array_holds sha3 w1 d l').
  { intros -> H. exists l. split; [left; reflexivity|exact H]. }
  destruct x as [[v| |i|i v| | |v]|o]; cbn [arr_op run_op] in *; cbn [arr_after] in Same.
  - destruct (encode_value_total v) as [(bv & Ev)|(e & Ev)].
    + destruct (arr_put_post sha3 w d l v bv R Hl Dl Ev) as (r0 & w0 & E0 & _ & K). rewrite E in E0. injection E0 as <- <-.
      destruct K as [(-> & W)|(e & -> & _ & S)]; destruct Hb as [(-> & Hb)|(-> & e' & Hb)]; try discriminate; [|auto].
      eexists. split; [|exact W]. cbn [arr_next arr_after]. rewrite Ev. reflexivity.
    + destruct (put_bad w d v e R Ev) as (r0 & w0 & E0 & _ & S & e' & K). rewrite E in E0. injection E0 as <- <-. subst r.
      destruct Hb as [(-> & Hb)|(-> & _)]; [discriminate|]. apply Fl; [reflexivity|]. eapply holds_same; eauto.
  - assert (E' : exists r', arr_pop sha3 d w = (r', w1) /\ (b = true -> exists v, r' = Ok v) /\ (b = false -> exists e, r' = Exc e)).
    { unfold mbind in E. destruct (arr_pop sha3 d w) as [[v|e|] w0]; injection E as E E0; subst r w0; destruct Hb as [(-> & Hb)|(-> & e' & Hb)];
        try discriminate; eexists; (split; [reflexivity|]); split; try discriminate; eauto. }
    destruct E' as (r' & E' & Ht & Hf).
    destruct l as [|y l] using rev_ind; [|clear IHl].
    + destruct (arr_pop_empty sha3 w d R Hl) as (r0 & w0 & E0 & _ & S & _). rewrite E' in E0. injection E0 as <- <-.
      apply Same; [eapply holds_same; eauto|reflexivity].
    + destruct (arr_pop_post sha3 w d l y R Hl) as (r0 & w0 & E0 & _ & K).
      { apply (distinct_le d n); [rewrite app_length in Ln; lia|exact Ds]. }
      rewrite E' in E0. injection E0 as <- <-.
      destruct K as [(_ & (v & ->) & K)|[(e & -> & _ & S)|(e & -> & _ & K)]].
      * destruct b; [|destruct (Hf eq_refl); discriminate]. exists l. split; [|exact K]. cbn [arr_next arr_after]. rewrite removelast_last. reflexivity.
      * destruct b; [destruct (Ht eq_refl); discriminate|]. apply Fl; [reflexivity|]. eapply holds_same; eauto.
      * destruct b; [destruct (Ht eq_refl); discriminate|]. exists (l ++ [[]]). split; [|exact K]. right. split; [reflexivity|]. exists l, y. auto.
  - apply Same; [|reflexivity]. apply Rd; intros e [].
  - destruct (as_index i) as [z|] eqn:Ei.
    2: { destruct (set_bad w d i v R (or_introl Ei)) as (r0 & w0 & E0 & _ & S & e' & K). rewrite E in E0. injection E0 as <- <-.
         apply Same; [eapply holds_same; eauto|reflexivity]. }
    destruct (encode_value_total v) as [(bv & Ev)|(e & Ev)]; rewrite Ev in Same.
    2: { destruct (set_bad w d i v R (or_intror (ex_intro _ e Ev))) as (r0 & w0 & E0 & _ & S & e' & K). rewrite E in E0. injection E0 as <- <-.
         apply Same; [eapply holds_same; eauto|reflexivity]. }
    destruct (setitem_post sha3 w d l i z v bv R Hl Dl Ei Ev) as (r0 & w0 & E0 & _ & K). rewrite E in E0. injection E0 as <- <-.
    destruct (position z (length l)) as [p|] eqn:P.
    + destruct K as [(-> & W & K)|(e & -> & _ & S)]; destruct Hb as [(-> & Hb)|(-> & e' & Hb)]; try discriminate.
      * eexists. split; [|exact K]. cbn [arr_next arr_after]. rewrite Ei, Ev, P. reflexivity.
      * apply Fl; [reflexivity|]. eapply holds_same; eauto.
    + destruct K as (S & _). apply Same; [eapply holds_same; eauto|reflexivity].
  - apply Same; [|reflexivity]. apply Rd; intros e [].
  - apply Same; [|reflexivity]. apply Rd; intros e [].
  - apply Same; [|reflexivity]. apply Rd; intros e [].
  - apply Same; [|reflexivity]. apply (holds_only _ _ _ _ _ C Hl).
    + intros (e & _ & X). apply (proj1 (Ho o eq_refl e)). auto.
    + intros i Hi (e & _ & X). apply (proj2 (Ho o eq_refl e) i); [lia|auto].
Qed.

Lemma arr_history d : forall h w w' l n, running w -> array_holds sha3 w d l -> (length l + length h <= n)%nat -> slots_distinct sha3 d n ->
  history sha3 w (map (fun x => (arr_op d (fst x), snd x)) h) w' ->
  (forall o b, In (inr o, b) h -> forall e, hash_key sha3 (op_db o) e <> size_slot sha3 d /\
     forall i, (i <= n)%nat -> hash_key sha3 (op_db o) e <> elem_slot sha3 d (Z.of_nat i)) ->
  exists l', arr_steps l h l' /\ array_holds sha3 w' d l'.
Proof.
  induction h as [|[x b] h IH]; intros w w' l n R Hl Ln Ds H Ho; cbn [map fst snd] in H; [inversion H; subst; exists l; split; [constructor|exact Hl]|].
  assert (K : exists w1 r, run_op sha3 (arr_op d x) w = (r, w1) /\ history sha3 w1 (map (fun x => (arr_op d (fst x), snd x)) h) w' /\
     (b = true /\ r = Ok tt \/ b = false /\ exists e, r = Exc e)).
  { inversion H; subst; [exists w1, (Ok tt)|exists w1, (Exc e)]; eauto 6. }
  clear H. destruct K as (w1 & r & E & H & Hb). destruct (op_frame sha3 _ _ _ _ R E) as (R1 & _ & _). cbn [length] in Ln.
  destruct (arr_one d x b w w1 r l n R Hl ltac:(lia) Ds E Hb) as (l1 & N1 & Hl1).
  { intros o ->. apply (Ho o b). left. reflexivity. }
  assert (L1 : (length l1 <= S (length l))%nat).
  { destruct b; cbn [arr_next] in N1; [subst; apply arr_after_le|]. destruct N1 as [->|(_ & m & y & -> & ->)]; [lia|]. rewrite !app_length. cbn. lia. }
  destruct (IH w1 w' l1 n R1 Hl1 ltac:(lia) Ds H) as (l' & S & Hl').
  { intros o b' I. apply (Ho o b'). right. exact I. }
  exists l'. split; [|exact Hl']. destruct b; cbn [arr_next] in N1.
  - subst l1. constructor. exact S.
  - destruct N1 as [->|(-> & m & y & -> & ->)]; [apply steps_raised|apply steps_blanked]; exact S.
Qed.

(** Without hash collisions among its own slots, an array's slots are distinct. *)
Lemma distinct_of_hash nb ty n : part_ok nb -> Z.of_nat n < 2 ^ 63 ->
  (forall e1 e2, sha3 (slot_preimage KArray [] nb [] e1) = sha3 (slot_preimage KArray [] nb [] e2) ->
     slot_preimage KArray [] nb [] e1 = slot_preimage KArray [] nb [] e2) ->
  slots_distinct sha3 (mk_array (container_db KArray [] nb []) ty) n.
Proof.
  intros Pn Ln Hs.
  assert (K : forall i, (i <= n)%nat -> exists k, int_to_bytes (Z.of_nat i) = Some k /\ part_ok k).
  { intros i Hi. destruct (int_bytes (Z.of_nat i)) as (k & Ek & _ & _ & Wk). exists k. split; [exact Ek|]. split; [exact Wk|].
    rewrite Int64ToBytes_ok in Ek by lia. injection Ek as <-. pose proof (i64_len (Z.of_nat i) ltac:(lia)). lia. }
  unfold slots_distinct, size_slot, elem_slot. cbn [arr_sdb]. split.
  - intros i Hi E. destruct (K i Hi) as (k & Ek & Pk). rewrite Ek in E. apply Hs in E.
    apply slot_preimage_inj in E; [|repeat constructor; apply Pn|repeat constructor; first [apply Pn|apply Pk]].
    destruct E as (_ & _ & E). discriminate.
  - intros i j Hi Hj N E. destruct (K i Hi) as (k & Ek & Pk). destruct (K j Hj) as (k' & Ek' & Pk'). rewrite Ek, Ek' in E. apply Hs in E.
    apply slot_preimage_inj in E; [|repeat constructor; first [apply Pn|apply Pk]|repeat constructor; first [apply Pn|apply Pk']].
    destruct E as (_ & _ & E). cbn in E. injection E as E. apply N. apply Nat2Z.inj. apply int_to_bytes_inj. congruence.
Qed.
End WithHash.
