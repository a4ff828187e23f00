From Verif Require Import Model.Bytes.
From Coq Require Import ZifyBool.
Ltac Zify.zify_post_hook ::= Z.div_mod_to_equations.

Lemma blen_nonneg {A} (l : list A) : 0 <= blen l.
Proof. unfold blen; lia. Qed.

Lemma blen_app {A} (a b : list A) : blen (a ++ b) = blen a + blen b.
Proof. unfold blen; rewrite app_length; lia. Qed.

Lemma blen_cons {A} (x : A) l : blen (x :: l) = 1 + blen l.
Proof. unfold blen; simpl length; lia. Qed.

Lemma blen_nil {A} : blen (@nil A) = 0.
Proof. reflexivity. Qed.

Lemma blen_0 {A} (l : list A) : blen l = 0 -> l = [].
Proof. destruct l; auto. rewrite blen_cons. pose proof (blen_nonneg l). lia. Qed.

Lemma be_val_acc bs : forall a, fold_left (fun a b => a * 256 + b) bs a = a * 256 ^ blen bs + be_val bs.
Proof.
  unfold be_val. induction bs as [|b bs IH]; intros a.
  - simpl. change (blen (@nil Z)) with 0. lia.
  - cbn [fold_left]. rewrite IH, (IH (0 * 256 + b)), blen_cons.
    rewrite Z.pow_add_r by (pose proof (blen_nonneg bs); lia). ring.
Qed.

Lemma be_val_cons b bs : be_val (b :: bs) = b * 256 ^ blen bs + be_val bs.
Proof. unfold be_val at 1. cbn [fold_left]. rewrite be_val_acc. ring. Qed.

Lemma be_val_nil : be_val [] = 0.
Proof. reflexivity. Qed.

Lemma be_val_app a b : be_val (a ++ b) = be_val a * 256 ^ blen b + be_val b.
Proof. unfold be_val at 1. rewrite fold_left_app, be_val_acc. reflexivity. Qed.

Lemma be_val_snoc a x : be_val (a ++ [x]) = be_val a * 256 + x.
Proof. rewrite be_val_app. unfold blen, be_val; simpl. lia. Qed.

Lemma pow256_pos n : 0 <= n -> 0 < 256 ^ n.
Proof. intros; apply Z.pow_pos_nonneg; lia. Qed.

Lemma be_val_bound bs : wf_bytes bs -> 0 <= be_val bs < 256 ^ blen bs.
Proof.
  induction 1 as [|b bs Hb _ IH].
  - cbv; split; congruence.
  - rewrite be_val_cons, blen_cons, Z.pow_add_r by (pose proof (blen_nonneg bs); lia).
    red in Hb. change (256 ^ 1) with 256.
    pose proof (pow256_pos _ (blen_nonneg bs)). nia.
Qed.

Lemma be_bytes_length n v : length (be_bytes n v) = n.
Proof. revert v; induction n as [|n IH]; intros v; simpl; auto. rewrite app_length, IH; simpl; lia. Qed.

Lemma blen_be_bytes n v : blen (be_bytes n v) = Z.of_nat n.
Proof. unfold blen; now rewrite be_bytes_length. Qed.

Lemma be_bytes_wf n v : wf_bytes (be_bytes n v).
Proof.
  revert v; induction n as [|n IH]; intros v; simpl; [constructor|].
  apply Forall_app; split; [apply IH|]. constructor; [|constructor]. unfold wf_byte; lia.
Qed.

Lemma be_val_be_bytes n v : be_val (be_bytes n v) = v mod 256 ^ Z.of_nat n.
Proof.
  revert v; induction n as [|n IH]; intros v.
  - cbn [be_bytes]. rewrite be_val_nil. simpl (256 ^ Z.of_nat 0). now rewrite Z.mod_1_r.
  - cbn [be_bytes]. rewrite be_val_snoc, IH.
    rewrite Nat2Z.inj_succ, <- Z.add_1_r, Z.pow_add_r by lia. change (256 ^ 1) with 256.
    rewrite (Z.mul_comm (256 ^ _)), Z.rem_mul_r by (try lia; apply pow256_pos; lia). lia.
Qed.

Lemma be_bytes_be_val bs : wf_bytes bs -> be_bytes (length bs) (be_val bs) = bs.
Proof.
  induction bs as [|x bs IH] using rev_ind; intros H; auto.
  apply Forall_app in H as [H1 H2]. inversion H2 as [|? ? Hx _]; subst. unfold wf_byte in Hx.
  rewrite app_length, Nat.add_1_r. cbn [be_bytes]. rewrite be_val_snoc.
  rewrite Z.div_add_l by lia. rewrite (Z.div_small x) by lia. rewrite Z.add_0_r, IH by auto.
  f_equal. f_equal. rewrite Z.add_comm, Z.mod_add by lia. now rewrite Z.mod_small by lia.
Qed.

Lemma be_val_inj a b : wf_bytes a -> wf_bytes b -> length a = length b -> be_val a = be_val b -> a = b.
Proof.
  intros Ha Hb Hl Hv. rewrite <- (be_bytes_be_val a), <- (be_bytes_be_val b) by auto.
  now rewrite Hl, Hv.
Qed.

Lemma be_bytes_mod n v : be_bytes n (v mod 256 ^ Z.of_nat n) = be_bytes n v.
Proof.
  apply be_val_inj; try apply be_bytes_wf; [now rewrite !be_bytes_length|].
  rewrite !be_val_be_bytes. apply Z.mod_mod. pose proof (pow256_pos (Z.of_nat n)); lia.
Qed.

Lemma wf_bytes_app a b : wf_bytes (a ++ b) <-> wf_bytes a /\ wf_bytes b.
Proof. apply Forall_app. Qed.

Lemma wf_bytes_cons a b : wf_bytes (a :: b) <-> wf_byte a /\ wf_bytes b.
Proof. split; [intros H; inversion H; auto | intros [? ?]; constructor; auto]. Qed.

(** [rewrite blen_nil] may pick up a literal 0 (they are convertible); use these instead. *)
Ltac blens := repeat first [rewrite blen_app | rewrite blen_cons]; change (blen (@nil Z)) with 0.
Ltac blens_in H := repeat first [rewrite blen_app in H | rewrite blen_cons in H]; change (blen (@nil Z)) with 0 in H.

Lemma some_inj {A} (a b : A) : Some a = Some b -> a = b.
Proof. congruence. Qed.
