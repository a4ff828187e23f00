(** Doubly linked lists over maps of addresses, and the list of the pool. *)
From Coq Require Import ZArith List Bool Arith Lia.
From Verif Require Import Model.Bytes Model.TxPool.
Import ListNotations.
Open Scope Z_scope.

Definition last_error (l : list addr) : option addr := hd_error (rev l).

Lemma last_error_snoc l a : last_error (l ++ [a]) = Some a.
Proof. unfold last_error. now rewrite rev_app_distr. Qed.

Lemma last_error_app l a r : last_error (l ++ a :: r) = last_error (a :: r).
Proof.
  unfold last_error. rewrite rev_app_distr. cbn [rev]. destruct (rev r); reflexivity.
Qed.

Lemma last_error_In l a : last_error l = Some a -> In a l.
Proof.
  unfold last_error. intros H. apply in_rev. destruct (rev l); [discriminate | injection H as ->; now left].
Qed.

Lemma last_error_split l a : last_error l = Some a -> exists p, l = p ++ [a].
Proof.
  unfold last_error. intros H. destruct (rev l) as [|b r] eqn:E; [discriminate | injection H as ->].
  exists (rev r). rewrite <- (rev_involutive l), E. reflexivity.
Qed.

Lemma last_error_nil l : last_error l = None -> l = [].
Proof.
  unfold last_error. intros H. destruct (rev l) eqn:E; [|discriminate].
  rewrite <- (rev_involutive l), E. reflexivity.
Qed.

Definition or (x y : option addr) : option addr := match x with Some _ => x | None => y end.

Fixpoint seg (nxt prv : addr -> option addr) (p : option addr) (l : list addr) (q : option addr) : Prop :=
  match l with
  | [] => True
  | a :: r => prv a = p /\ nxt a = or (hd_error r) q /\ seg nxt prv (Some a) r q
  end.

Lemma seg_app nxt prv l1 l2 p q :
  seg nxt prv p (l1 ++ l2) q
  <-> seg nxt prv p l1 (or (hd_error l2) q) /\ seg nxt prv (or (last_error l1) p) l2 q.
Proof.
  revert p. induction l1 as [|a r IH]; intros p.
  - cbn. tauto.
  - cbn [app seg]. rewrite IH.
    replace (hd_error (r ++ l2)) with (or (hd_error r) (hd_error l2)) by (destruct r; reflexivity).
    replace (or (last_error (a :: r)) p) with (or (last_error r) (Some a)).
    2:{ unfold last_error. cbn [rev]. destruct (rev r); reflexivity. }
    replace (or (or (hd_error r) (hd_error l2)) q) with (or (hd_error r) (or (hd_error l2) q))
      by (destruct r; reflexivity).
    tauto.
Qed.

Lemma seg_frame nxt prv nxt' prv' l p q :
  (forall a, In a l -> nxt' a = nxt a /\ prv' a = prv a) -> seg nxt prv p l q -> seg nxt' prv' p l q.
Proof.
  revert p. induction l as [|a r IH]; intros p Hf H; [exact Logic.I|].
  destruct H as (H1 & H2 & H3). destruct (Hf a (or_introl eq_refl)) as [F1 F2].
  cbn [seg]. rewrite F1, F2. split; [exact H1|]. split; [exact H2|].
  apply IH; [intros b Hb; apply Hf; now right | exact H3].
Qed.

(** A new end. *)
Lemma seg_right nxt prv nxt' prv' l p q q' :
  NoDup l -> seg nxt prv p l q ->
  (forall x, In x l -> prv' x = prv x) ->
  (forall x, In x l -> nxt' x = if same (last_error l) x then q' else nxt x) ->
  seg nxt' prv' p l q'.
Proof.
  intros ND H Hp Hn. destruct (last_error l) as [a|] eqn:E.
  2:{ apply last_error_nil in E. subst l. exact Logic.I. }
  destruct (last_error_split _ _ E) as [r ->].
  apply seg_app in H. destruct H as [H1 H2]. apply seg_app. split.
  - refine (seg_frame nxt prv nxt' prv' r p _ _ H1). intros x Hx. split.
    + rewrite Hn by (apply in_or_app; now left). cbn [same].
      destruct (Nat.eqb a x) eqn:Ex; [|reflexivity].
      apply Nat.eqb_eq in Ex. subst x. apply NoDup_remove_2 in ND. rewrite app_nil_r in ND. contradiction.
    + apply Hp, in_or_app. now left.
  - cbn [seg] in H2 |- *. destruct H2 as (H2 & _ & _).
    rewrite Hp by (apply in_or_app; right; now left). split; [exact H2|]. split; [|exact Logic.I].
    rewrite Hn by (apply in_or_app; right; now left). cbn [same]. now rewrite Nat.eqb_refl.
Qed.

Lemma seg_left nxt prv nxt' prv' l p p' q :
  NoDup l -> seg nxt prv p l q ->
  (forall x, In x l -> nxt' x = nxt x) ->
  (forall x, In x l -> prv' x = if same (hd_error l) x then p' else prv x) ->
  seg nxt' prv' p' l q.
Proof.
  intros ND H Hn Hp. destruct l as [|a r]; [exact Logic.I|].
  cbn [seg] in H |- *. destruct H as (H1 & H2 & H3).
  split. { rewrite Hp by now left. cbn [hd_error same]. now rewrite Nat.eqb_refl. }
  split. { rewrite Hn by now left. exact H2. }
  refine (seg_frame nxt prv nxt' prv' r _ _ _ H3). intros x Hx.
  split; [apply Hn; now right|]. rewrite Hp by now right. cbn [hd_error same].
  destruct (Nat.eqb a x) eqn:Ex; [|reflexivity].
  apply Nat.eqb_eq in Ex. subst x. inversion ND; contradiction.
Qed.

Lemma same_true x a : same x a = true <-> x = Some a.
Proof.
  destruct x as [b|]; cbn; [rewrite Nat.eqb_eq; split; congruence | split; discriminate].
Qed.

Lemma upd_same {A} (m : addr -> A) a v : upd m a v a = v.
Proof. unfold upd. now rewrite Nat.eqb_refl. Qed.
Lemma upd_other {A} (m : addr -> A) a v x : x <> a -> upd m a v x = m x.
Proof. unfold upd. intros H. destruct (Nat.eqb_spec x a); [contradiction | reflexivity]. Qed.
Lemma key_upd_same {A} (m : bytes -> A) k v : key_upd m k v k = v.
Proof. unfold key_upd. now rewrite bytes_eqb_refl. Qed.
Lemma key_upd_other {A} (m : bytes -> A) k v x : x <> k -> key_upd m k v x = m x.
Proof.
  unfold key_upd. intros H. destruct (bytes_eqb x k) eqn:E; [|reflexivity].
  apply bytes_eqb_eq in E. contradiction.
Qed.

(** Insertion and deletion. *)
Definition upd_opt {A} (m : addr -> A) (a : option addr) (v : A) : addr -> A :=
  match a with Some a => upd m a v | None => m end.

Lemma upd_opt_at {A} (m : addr -> A) a v x : upd_opt m a v x = if same a x then v else m x.
Proof.
  destruct a as [a|]; cbn [upd_opt same]; [|reflexivity].
  unfold upd. rewrite (Nat.eqb_sym x a). reflexivity.
Qed.

Lemma NoDup_app_iff (l1 l2 : list addr) :
  NoDup (l1 ++ l2) <-> NoDup l1 /\ NoDup l2 /\ (forall x, In x l1 -> ~ In x l2).
Proof.
  induction l1 as [|a r IH]; cbn [app].
  - split; [intros H; split; [constructor | split; [exact H | intros x []]] | tauto].
  - split.
    + intros H. inversion H as [|? ? Hn H' E1]. subst. apply IH in H'. destruct H' as (N1 & N2 & D).
      split. { constructor; [intros Hi; apply Hn, in_or_app; now left | exact N1]. }
      split; [exact N2|]. intros x [->|Hx]; [intros Hi; apply Hn, in_or_app; now right | now apply D].
    + intros (N1 & N2 & D). inversion N1 as [|? ? Hn H' E1]. subst. constructor.
      * intros Hi. apply in_app_or in Hi. destruct Hi as [Hi|Hi]; [contradiction|].
        exact (D a (or_introl eq_refl) Hi).
      * apply IH. split; [exact H'|]. split; [exact N2|]. intros x Hx. apply D. now right.
Qed.

Lemma seg_insert nxt prv l1 l2 e nxt' prv' :
  NoDup (l1 ++ l2) -> ~ In e (l1 ++ l2) -> seg nxt prv None (l1 ++ l2) None ->
  nxt' e = hd_error l2 -> prv' e = last_error l1 ->
  (forall x, In x (l1 ++ l2) -> nxt' x = if same (last_error l1) x then Some e else nxt x) ->
  (forall x, In x (l1 ++ l2) -> prv' x = if same (hd_error l2) x then Some e else prv x) ->
  seg nxt' prv' None (l1 ++ e :: l2) None.
Proof.
  intros ND Hne H En Ep Hn Hp.
  destruct (proj1 (NoDup_app_iff l1 l2) ND) as (N1 & N2 & D).
  apply seg_app in H. destruct H as [H1 H2]. apply seg_app. split.
  - refine (seg_right nxt prv nxt' prv' l1 _ _ _ N1 H1 _ _).
    + intros x Hx. rewrite Hp by (apply in_or_app; now left).
      destruct (same (hd_error l2) x) eqn:E; [|reflexivity].
      apply same_true in E. exfalso. apply (D x Hx). destruct l2 as [|z l2]; [discriminate E|].
      injection E as ->. now left.
    + intros x Hx. rewrite Hn by (apply in_or_app; now left). reflexivity.
  - cbn [seg]. rewrite En, Ep. split; [destruct (last_error l1); reflexivity|].
    split; [destruct (hd_error l2); reflexivity|].
    refine (seg_left nxt prv nxt' prv' l2 _ _ _ N2 H2 _ _).
    + intros x Hx. rewrite Hn by (apply in_or_app; now right).
      destruct (same (last_error l1) x) eqn:E; [|reflexivity].
      apply same_true in E. exfalso. exact (D x (last_error_In _ _ E) Hx).
    + intros x Hx. apply Hp, in_or_app. now right.
Qed.

Lemma seg_delete nxt prv l1 l2 e nxt' prv' :
  NoDup (l1 ++ e :: l2) -> seg nxt prv None (l1 ++ e :: l2) None ->
  (forall x, In x (l1 ++ l2) -> nxt' x = if same (last_error l1) x then nxt e else nxt x) ->
  (forall x, In x (l1 ++ l2) -> prv' x = if same (hd_error l2) x then prv e else prv x) ->
  seg nxt' prv' None (l1 ++ l2) None.
Proof.
  intros ND H Hn Hp. assert (ND' := NoDup_remove_1 _ _ _ ND).
  destruct (proj1 (NoDup_app_iff l1 l2) ND') as (N1 & N2 & D).
  apply seg_app in H. destruct H as [H1 H2]. cbn [seg] in H2. destruct H2 as (Hpe & Hne & H2).
  apply seg_app. split.
  - refine (seg_right nxt prv nxt' prv' l1 _ _ _ N1 H1 _ _).
    + intros x Hx. rewrite Hp by (apply in_or_app; now left).
      destruct (same (hd_error l2) x) eqn:E; [|reflexivity].
      apply same_true in E. exfalso. apply (D x Hx). destruct l2 as [|z l2]; [discriminate E|].
      injection E as ->. now left.
    + intros x Hx. rewrite Hn by (apply in_or_app; now left). rewrite Hne. reflexivity.
  - refine (seg_left nxt prv nxt' prv' l2 _ _ _ N2 H2 _ _).
    + intros x Hx. rewrite Hn by (apply in_or_app; now right).
      destruct (same (last_error l1) x) eqn:E; [|reflexivity].
      apply same_true in E. exfalso. exact (D x (last_error_In _ _ E) Hx).
    + intros x Hx. rewrite Hp by (apply in_or_app; now right). rewrite Hpe. reflexivity.
Qed.

(** Neighbours in a linked list. *)
Lemma seg_at nxt prv l1 e l2 :
  seg nxt prv None (l1 ++ e :: l2) None -> prv e = last_error l1 /\ nxt e = hd_error l2.
Proof.
  intros H. apply seg_app in H. destruct H as [_ H]. cbn [seg] in H. destruct H as (H1 & H2 & _).
  rewrite H1, H2. split; [destruct (last_error l1) | destruct (hd_error l2)]; reflexivity.
Qed.
