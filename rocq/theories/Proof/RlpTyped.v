(** What is read is a value of the type. *)
From Coq Require Import ZArith List Lia Bool.
From Verif Require Import Model.Bytes Model.IntCodec Proof.BytesFacts Model.Rlp Spec.RlpSpec Proof.RlpFacts Proof.RlpPrefix.
From Verif Require Proof.Int64Facts.
Import ListNotations.
Open Scope Z_scope.

Lemma proper_fields fs : fold_right (fun f p => proper f /\ p) True fs -> Forall proper fs.
Proof. induction fs as [|f fs IH]; intros H; [constructor|]. destruct H. constructor; auto. Qed.

Lemma repeat_wf n : wf_bytes (repeat 0 n).
Proof. induction n; constructor; [red; lia|assumption]. Qed.

Lemma zero_has t : proper t -> has t (zero t).
Proof.
  induction t as [|n| |w|w| | |t IH|t IH|n t IH|fs IH] using ty_ind'; intros H; cbn [zero proper] in *;
    try (constructor; fail).
  - constructor; [apply repeat_wf|apply repeat_length].
  - constructor; [exact H|]. split; [lia|]. apply Z.pow_pos_nonneg; cbn in H; intuition lia.
  - constructor; [exact H|]. assert (0 < 2 ^ (w - 1)) by (apply Z.pow_pos_nonneg; cbn in H; intuition lia). lia.
  - constructor. constructor.
  - constructor. apply H.
  - constructor; [apply repeat_length|]. specialize (IH H). clear H.
    induction n as [|n IHn]; constructor; assumption.
  - constructor. apply proper_fields in H. revert H. induction IH as [|f fr Hf Hr IHf]; intros H; [constructor|].
    inversion H; subst. constructor; auto.
Qed.

Lemma copied_wf n b : wf_bytes b -> wf_bytes (copied n b) /\ length (copied n b) = n.
Proof.
  intros H. unfold copied. split.
  - apply Forall_forall. intros x Hx. assert (K : wf_bytes (b ++ repeat 0 n)) by (apply wf_bytes_app; split; [exact H|apply repeat_wf]).
    unfold wf_bytes in K. rewrite Forall_forall in K. apply K. rewrite <- (firstn_skipn n). apply in_or_app. now left.
  - rewrite firstn_length, app_length, repeat_length. lia.
Qed.

(** Bytes, when read without an error. *)
Lemma wf_left {A} (f : reader -> outcome A * reader) r o r' : steady f -> f r = (o, r') -> o <> Bad ->
  wf_bytes (src r) -> wf_bytes (src r').
Proof.
  intros Hs E Ho W. destruct (Hs _ _ _ E) as [K _]. destruct o; try congruence.
  - destruct K as (p & P1 & _). rewrite P1 in W. now apply wf_bytes_app in W.
  - destruct K as [_ ->]. exact W.
  - destruct K as (p & P1 & _). rewrite P1 in W. now apply wf_bytes_app in W.
Qed.

Lemma read_all_wf n r b r' : read_all n r = (Got b, r') -> wf_bytes (src r) -> wf_bytes b.
Proof.
  intros H W. apply read_all_takes in H. destruct H as [(_ & -> & _)|(_ & _ & E & _)]; [constructor|].
  rewrite E in W. now apply wf_bytes_app in W.
Qed.

Lemma read_bytes_wf r b r' : read_bytes r = (Got b, r') -> wf_bytes (src r) -> wf_bytes b.
Proof.
  unfold read_bytes. intros H W. destruct (read_tag r) as [ot r1] eqn:Et.
  destruct ot as [tag| | |]; try discriminate H. apply read_tag_takes in Et. destruct Et as (T1 & _).
  rewrite T1 in W. apply wf_bytes_cons in W. destruct W as [W1 W2].
  destruct (tag <? 128); [injection H as <- <-; constructor; [exact W1|constructor]|].
  destruct (tag <=? 183); [eapply read_all_wf; eassumption|].
  destruct (Z.ltb_spec tag 192) as [H3|H3].
  - destruct (read_size (tag - 183) r1) as [oz r2] eqn:Ez. destruct oz as [n| | |]; try discriminate H.
    destruct (cap r <? n); [discriminate H|]. unfold read_size in Ez.
    destruct (read_all (tag - 183) r1) as [oa r3] eqn:Ea. destruct oa as [zs| | |]; try discriminate Ez.
    assert (E3 : r3 = r2).
    { destruct (go_SafeBytesToSize64 zs) as [z|]; [|discriminate Ez]. destruct (z <=? 2 ^ 63 - 1); [|discriminate Ez].
      now injection Ez. }
    subst r3. eapply read_all_wf; [exact H|]. apply read_all_takes in Ea.
    destruct Ea as [(_ & _ & ->)|(_ & _ & E & _)]; [exact W2|]. rewrite E in W2. now apply wf_bytes_app in W2.
  - destruct (tag =? 248); [|discriminate H]. destruct (read_size 1 r1) as [oz r2]. destruct oz as [n| | |]; try discriminate H.
    destruct (n =? 0); discriminate H.
Qed.

Lemma plain_has t conv r v r' : (forall b v, wf_bytes b -> conv b = Got v -> has t v) ->
  plain conv r = (Got v, r') -> wf_bytes (src r) -> has t v.
Proof.
  intros Hc H W. unfold plain in H. destruct (read_bytes r) as [o r1] eqn:E. destruct o as [b| | |]; try discriminate H.
  assert (Ec : conv b = Got v) by congruence. apply (Hc b); [|exact Ec]. eapply read_bytes_wf; eassumption.
Qed.

Lemma child_wf r n : wf_bytes (src r) -> wf_bytes (src (child r n)).
Proof.
  intros W. cbn [src child]. rewrite <- (firstn_skipn (Z.to_nat (lim r)) (src r)) in W. now apply wf_bytes_app in W.
Qed.

Lemma listed_has inside (P : list val -> Prop) r v r' :
  (forall c l c1, wf_bytes (src c) -> inside c = (Got l, c1) -> P l) ->
  listed inside r = (Got v, r') -> wf_bytes (src r) -> exists l, v = VList (Some l) /\ P l.
Proof.
  intros Hi H W. unfold listed in H. destruct (read_list r) as [ol r1] eqn:El.
  pose proof (read_list_takes _ _ _ El) as K. destruct ol as [c| | |]; try discriminate H.
  destruct K as (h & n & K1 & _ & _ & _ & _ & -> & _).
  destruct (inside (child r1 n)) as [oi c1] eqn:Ei. destruct oi as [l| | |]; try discriminate H.
  destruct (close c1) as [oc c2]. destruct oc; try discriminate H. injection H as <- <-.
  exists l. split; [reflexivity|]. apply (Hi (child r1 n) l c1); [|exact Ei]. apply child_wf.
  rewrite K1 in W. now apply wf_bytes_app in W.
Qed.

Definition typed (t : ty) : Prop := forall r v r', wf_bytes (src r) -> dec t r = (Got v, r') -> has t v.

Lemma nullable_has t r v r' : proper t -> typed t -> wf_bytes (src r) -> nullable t (dec t) r = (Got v, r') -> has t v.
Proof.
  intros Hp Ht W H. unfold nullable in H. destruct (dec t r) as [o r1] eqn:E. destruct o as [x| | |]; try discriminate H.
  - injection H as <- <-. eapply Ht; eassumption.
  - injection H as <- <-. now apply zero_has.
Qed.

Lemma elements_has t : proper t -> typed t -> forall k c l c1, wf_bytes (src c) ->
  elements k (nullable t (dec t)) c = (Got l, c1) -> Forall (has t) l.
Proof.
  intros Hp Ht. induction k as [|k IH]; intros c l c1 W H; [discriminate H|]. cbn [elements] in H.
  destruct (nullable t (dec t) c) as [o c2] eqn:E. destruct o as [v| | |]; try discriminate H.
  - destruct (elements k _ c2) as [ol c3] eqn:El. destruct ol as [l'| | |]; try discriminate H.
    injection H as <- <-. constructor; [eapply nullable_has; eassumption|]. eapply IH; [|exact El].
    refine (wf_left _ _ _ _ (nullable_steady t _ (dec_steady t)) E _ W). discriminate.
  - injection H as <- <-. constructor.
Qed.

Lemma slots_has t : proper t -> typed t -> forall n c l c1, wf_bytes (src c) ->
  slots n (zero t) (nullable t (dec t)) c = (Got l, c1) -> length l = n /\ Forall (has t) l.
Proof.
  intros Hp Ht. induction n as [|n IH]; intros c l c1 W H; cbn [slots] in H.
  - injection H as <- <-. split; constructor.
  - destruct (nullable t (dec t) c) as [o c2] eqn:E. destruct o as [v| | |]; try discriminate H.
    + destruct (slots n _ _ c2) as [ol c3] eqn:El. destruct ol as [l'| | |]; try discriminate H.
      injection H as <- <-. destruct (IH c2 l' c3) as [I1 I2]; [|exact El|].
      * refine (wf_left _ _ _ _ (nullable_steady t _ (dec_steady t)) E _ W). discriminate.
      * split; [cbn; now rewrite I1|]. constructor; [eapply nullable_has; eassumption|exact I2].
    + injection H as <- <-. split; [cbn; now rewrite repeat_length|].
      change (Forall (has t) (repeat (zero t) (S n))). pose proof (zero_has t Hp) as Z0. clear -Z0.
      generalize (S n). intros m. induction m; constructor; assumption.
Qed.

Lemma fields_has fs : Forall proper fs -> Forall typed fs -> forall c l c1, wf_bytes (src c) ->
  dec_fields fs c = (Got l, c1) -> Forall2 has fs l.
Proof.
  intros Hp. induction Hp as [|f fr Hf Hfr IH]; intros Ht c l c1 W H.
  - injection H as <- <-. constructor.
  - inversion Ht as [|? ? Ht1 Ht2]; subst. cbn [dec_fields] in H.
    destruct (dec f c) as [o c2] eqn:E. destruct o as [v| | |]; try discriminate H.
    + destruct (dec_fields fr c2) as [ol c3] eqn:El. destruct ol as [l'| | |]; try discriminate H.
      injection H as <- <-. constructor; [eapply Ht1; eassumption|]. eapply IH; [exact Ht2| |exact El].
      refine (wf_left _ _ _ _ (dec_steady f) E _ W). discriminate.
    + destruct (dec_fields fr c2) as [ol c3] eqn:El. destruct ol as [l'| | |]; try discriminate H.
      injection H as <- <-. constructor; [now apply zero_has|]. eapply IH; [exact Ht2| |exact El].
      refine (wf_left _ _ _ _ (dec_steady f) E _ W). discriminate.
Qed.

Theorem dec_has t : proper t -> typed t.
Proof.
  induction t as [|n| |w|w| | |t IH|t IH|n t IH|fs IH] using ty_ind'; intros Hp r v r' W H.
  - cbn [dec] in H. destruct (read_bytes r) as [o r1] eqn:E. destruct o as [b| | |]; try discriminate H;
      injection H as <- <-; constructor. eapply read_bytes_wf; eassumption.
  - refine (plain_has _ _ _ _ _ _ H W). intros b x Wb Eb. injection Eb as <-.
    destruct (copied_wf n b Wb). now constructor.
  - refine (plain_has _ _ _ _ _ _ H W). intros b x Wb Eb. unfold to_bool in Eb.
    destruct (go_SafeBytesToUint64 b) as [z|]; [|discriminate Eb].
    destruct (z =? 0); [injection Eb as <-; constructor|]. destruct (z =? 1); [injection Eb as <-; constructor|discriminate Eb].
  - refine (plain_has _ _ _ _ _ _ H W). intros b x Wb Eb. unfold to_uint in Eb.
    pose proof (Proof.Int64Facts.SafeBytesToUint64_ok b Wb) as K.
    destruct (go_SafeBytesToUint64 b) as [z|]; [|discriminate Eb].
    destruct (Z.ltb_spec z (2 ^ w)); [|discriminate Eb]. injection Eb as <-. constructor; [exact Hp|lia].
  - refine (plain_has _ _ _ _ _ _ H W). intros b x Wb Eb. unfold to_int in Eb.
    destruct (go_SafeBytesToInt64 b) as [z|]; [|discriminate Eb].
    destruct (Z.leb_spec (- 2 ^ (w - 1)) z); [|discriminate Eb].
    destruct (Z.ltb_spec z (2 ^ (w - 1))); [|discriminate Eb]. injection Eb as <-. constructor; [exact Hp|lia].
  - refine (plain_has _ _ _ _ _ _ H W). intros b x Wb Eb. injection Eb as <-. constructor.
  - refine (plain_has _ _ _ _ _ _ H W). intros b x Wb Eb. injection Eb as <-. now constructor.
  - cbn [dec proper] in *. destruct Hp as [Hn Hp]. destruct (dec t r) as [o r1] eqn:E.
    destruct o as [x| | |]; try discriminate H; injection H as <- <-; constructor; try assumption.
    exact (IH Hp _ _ _ W E).
  - cbn [dec proper] in *.
    destruct (listed (fun c => elements (S (length (src c))) (nullable t (dec t)) c) r) as [o r1] eqn:E.
    destruct o as [x| | |]; try discriminate H; injection H as <- <-; [|constructor].
    destruct (listed_has _ (Forall (has t)) _ _ _ (fun c l c1 Wc Hc => elements_has t Hp (IH Hp) _ c l c1 Wc Hc) E W)
      as (l & -> & Hl). now constructor.
  - cbn [dec proper] in *.
    destruct (listed_has _ (fun l => length l = n /\ Forall (has t) l) _ _ _
                (fun c l c1 Wc Hc => slots_has t Hp (IH Hp) n c l c1 Wc Hc) H W) as (l & -> & Hl1 & Hl2). now constructor.
  - rewrite dec_struct in H. cbn [proper] in Hp. apply proper_fields in Hp.
    assert (Ht : Forall typed fs).
    { clear H. induction Hp as [|f fr Hf Hfr IHp]; [constructor|]. inversion IH; subst. constructor; auto. }
    destruct (listed_has _ (Forall2 has fs) _ _ _
                (fun c l c1 Wc Hc => fields_has fs Hp Ht c l c1 Wc Hc) H W) as (l & -> & Hl). now constructor.
Qed.
