(** Basic facts about the validator model: lists, votes, selection, seats. *)
From Verif Require Import Model.HvhState Model.HvhValidator.
From Coq Require Import ZArith List Bool Arith Lia Permutation.
Import ListNotations.
Open Scope nat_scope.

Lemma aeq a b : addr_eqb a b = true <-> a = b.
Proof.
  unfold addr_eqb. destruct a as [c i], b as [d j]. cbn. rewrite andb_true_iff, Bool.eqb_true_iff, Z.eqb_eq.
  split; [intros [-> ->]; auto | intros H; injection H; auto].
Qed.
Lemma arefl a : addr_eqb a a = true.
Proof. apply aeq. auto. Qed.
Lemma ane a b : addr_eqb a b = false <-> a <> b.
Proof. rewrite <- aeq. destruct (addr_eqb a b); split; congruence. Qed.
Lemma adec (a b : addr) : {a = b} + {a <> b}.
Proof. destruct (addr_eqb a b) eqn:E; [left; apply aeq; auto | right; apply ane; auto]. Qed.
Lemma aupd_same {A} (f : addr -> option A) k v : aupd f k v k = Some v.
Proof. unfold aupd. rewrite arefl. auto. Qed.
Lemma aupd_other {A} (f : addr -> option A) k v x : x <> k -> aupd f k v x = f x.
Proof. intros H. unfold aupd. apply ane in H. rewrite H. auto. Qed.
Lemma has_in a l : has a l = true <-> In a l.
Proof.
  unfold has. rewrite existsb_exists. split; [intros (x & H & E); apply aeq in E; congruence | intros H; exists a; split; [auto | apply arefl]].
Qed.
Lemma has_out a l : has a l = false <-> ~ In a l.
Proof. rewrite <- has_in. destruct (has a l); split; congruence. Qed.
Lemma no_dup_ok l : no_dup l = true <-> NoDup l.
Proof.
  induction l as [|x r IH]; cbn; [split; [constructor | auto]|]. rewrite andb_true_iff, negb_true_iff, has_out, IH.
  split; [intros [A B]; constructor; auto | intros H; inversion H; auto].
Qed.
Lemma list_eqb_eq l : forall k, list_eqb l k = true -> l = k.
Proof.
  induction l as [|x r IH]; intros [|y q] H; cbn in H; try discriminate; auto.
  apply andb_true_iff in H as [A B]. apply aeq in A. f_equal; auto.
Qed.
Lemma set_list_some l old k : NoDup old -> set_list l old = Some k -> k = l /\ NoDup l.
Proof.
  unfold set_list. intros nd. destruct (list_eqb old l) eqn:E; [apply list_eqb_eq in E; subst; intros H; injection H as <-; auto|].
  destruct (no_dup l) eqn:N; [|discriminate]. intros H. injection H as <-. split; [auto | apply no_dup_ok; auto].
Qed.
Lemma set_list_ok l old : NoDup l -> set_list l old = Some l.
Proof.
  intros nd. unfold set_list. destruct (list_eqb old l) eqn:E; [apply list_eqb_eq in E; congruence|].
  apply no_dup_ok in nd. rewrite nd. auto.
Qed.

Lemma index_some a l : forall i, index_of a l = Some i -> nth_error l i = Some a.
Proof.
  induction l as [|x r IH]; intros i H; cbn in H; [discriminate|]. destruct (addr_eqb a x) eqn:E.
  - injection H as <-. apply aeq in E. cbn. congruence.
  - destruct (index_of a r) as [j|]; [|discriminate]. injection H as <-. cbn. auto.
Qed.
Lemma index_none a l : index_of a l = None <-> ~ In a l.
Proof.
  induction l as [|x r IH]; cbn; [tauto|]. destruct (addr_eqb a x) eqn:E.
  - apply aeq in E. split; [discriminate | intros H; exfalso; apply H; auto].
  - apply ane in E. destruct (index_of a r) as [j|]; cbn; split; try discriminate; try tauto.
    + intros H. exfalso. destruct IH as [_ IH]. discriminate IH. tauto.
    + intros _ [H|H]; [congruence|]. apply IH in H; auto.
Qed.
Lemma index_in a l : In a l -> exists i, index_of a l = Some i.
Proof. intros H. destruct (index_of a l) as [i|] eqn:E; [eauto|]. apply index_none in E. tauto. Qed.

Lemma set_nth_split (a : addr) : forall i l x, nth_error l i = Some x ->
  exists l1 l2, l = l1 ++ x :: l2 /\ length l1 = i /\ set_nth i a l = l1 ++ a :: l2.
Proof.
  induction i as [|i IH]; intros [|y l] x H; cbn in H; try discriminate.
  - injection H as ->. exists [], l. auto.
  - destruct (IH l x H) as (l1 & l2 & E & L & S0). exists (y :: l1), l2. cbn. rewrite L, S0, E. auto.
Qed.
Lemma del_at_split (i : nat) (l : list addr) x : nth_error l i = Some x ->
  exists l1 l2, l = l1 ++ x :: l2 /\ length l1 = i /\ del_at i l = l1 ++ l2.
Proof.
  intros H. destruct (set_nth_split x i l x H) as (l1 & l2 & E & L & _). exists l1, l2. repeat split; auto.
  unfold del_at. rewrite E, <- L. rewrite firstn_app, firstn_all, Nat.sub_diag. cbn [firstn]. rewrite app_nil_r. f_equal.
  rewrite skipn_app. rewrite skipn_all2 by lia. replace (S (length l1) - length l1) with 1 by lia. reflexivity.
Qed.
Lemma nodup_mid (l1 l2 : list addr) x : NoDup (l1 ++ x :: l2) <-> NoDup (l1 ++ l2) /\ ~ In x (l1 ++ l2).
Proof.
  split; [intros H; apply NoDup_remove in H; auto|]. intros [A B].
  apply (NoDup_Add (a := x) (l := l1 ++ l2)); [apply Add_app | auto].
Qed.
(** Removing from a duplicate-free list *)
Lemma take_out_some a l k : NoDup l -> take_out a l = Some k ->
  In a l /\ NoDup k /\ (forall x, In x k <-> In x l /\ x <> a) /\ length l = S (length k).
Proof.
  unfold take_out. intros nd H. destruct (index_of a l) as [i|] eqn:E; [|discriminate]. injection H as <-.
  apply index_some in E. destruct (del_at_split i l a E) as (l1 & l2 & L & _ & D). rewrite D, L in *.
  apply nodup_mid in nd as [nd na]. split; [apply in_elt|]. split; [auto|]. split.
  - intros x. rewrite !in_app_iff. cbn. rewrite in_app_iff in na. intuition congruence.
  - rewrite !app_length. cbn. lia.
Qed.
Lemma take_out_none a l : take_out a l = None <-> ~ In a l.
Proof. unfold take_out. rewrite <- index_none. destruct (index_of a l); cbn; split; congruence. Qed.
(** Replacing at a position *)
Lemma set_at_some i a l x k : NoDup l -> nth_error l i = Some x -> ~ In a l -> set_at i a l = Some k ->
  NoDup k /\ (forall y, In y k <-> y = a \/ (In y l /\ y <> x)) /\ length k = length l /\
  (forall j, j <> i -> nth_error k j = nth_error l j).
Proof.
  intros nd N na H. unfold set_at in H. rewrite N in H. destruct (addr_eqb x a) eqn:E.
  { apply aeq in E. subst a. exfalso. apply na. eapply nth_error_In; eauto. }
  apply has_out in na. rewrite na in H. apply has_out in na. injection H as <-.
  destruct (set_nth_split a i l x N) as (l1 & l2 & L & Li & S0). rewrite S0. subst l.
  apply nodup_mid in nd as [nd nx]. split.
  { apply nodup_mid. split; [auto|]. rewrite in_app_iff in *. cbn in na. tauto. }
  split; [intros y; rewrite !in_app_iff; cbn; rewrite in_app_iff in nx; intuition congruence|].
  split; [rewrite !app_length; auto|].
  intros j nj. destruct (Nat.lt_ge_cases j (length l1)); [rewrite !nth_error_app1 by auto; auto|].
  rewrite !nth_error_app2 by auto. destruct (j - length l1) as [|d] eqn:D; [lia | reflexivity].
Qed.
Lemma set_at_ok i a l x : nth_error l i = Some x -> ~ In a l -> exists k, set_at i a l = Some k.
Proof.
  intros N na. unfold set_at. rewrite N. destruct (addr_eqb x a); [eauto|]. apply has_out in na. rewrite na. eauto.
Qed.
(** The registry's lists *)
Lemma pop_swap_some o l k : NoDup l -> pop_swap o l = Some k -> In o l /\ NoDup k /\ (forall x, In x k <-> In x l /\ x <> o).
Proof.
  unfold pop_swap. intros nd. destruct (rev l) as [|z q] eqn:R; [discriminate|].
  assert (L : l = rev q ++ [z]) by (rewrite <- (rev_involutive l), R; reflexivity). subst l. clear R.
  rewrite removelast_last. apply nodup_mid in nd as [nd nz]. rewrite app_nil_r in *.
  destruct (addr_eqb o z) eqn:E.
  - apply aeq in E. subst z. intros H. injection H as <-. split; [rewrite in_app_iff; cbn; auto|]. split; [auto|].
    intros x. rewrite in_app_iff. cbn. split; [intros H; split; [auto | congruence] | intros [[H|[H|[]]] F]; congruence].
  - apply ane in E. destruct (index_of o (rev q)) as [i|] eqn:I0; [|discriminate]. intros H. injection H as <-.
    apply index_some in I0. destruct (set_nth_split z i (rev q) o I0) as (l1 & l2 & L & Li & S0). rewrite S0. rewrite L in nd, nz |- *.
    apply nodup_mid in nd as [nd no]. rewrite in_app_iff in nz, no. cbn in nz. split; [rewrite !in_app_iff; cbn; auto|]. split.
    + apply nodup_mid. split; [auto|]. rewrite in_app_iff. tauto.
    + intros x. rewrite !in_app_iff. cbn. intuition congruence.
Qed.
Lemma pop_swap_ok o l : In o l -> exists k, pop_swap o l = Some k.
Proof.
  unfold pop_swap. intros H. destruct (rev l) as [|z q] eqn:R.
  { apply in_rev in H. rewrite R in H. contradiction. }
  assert (L : l = rev q ++ [z]) by (rewrite <- (rev_involutive l), R; reflexivity). subst l. rewrite removelast_last.
  destruct (addr_eqb o z) eqn:E; [eauto|]. apply ane in E. apply in_app_or in H as [H|[H|[]]]; [|congruence].
  destruct (index_in o _ H) as (i & ->). cbn. eauto.
Qed.
