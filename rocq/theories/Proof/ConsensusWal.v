(* The write-ahead logs of a node as lists, and what a crash leaves of them
   (for C53, C54). *)
From Coq Require Import ZArith List Bool Arith Lia.
From Verif Require Import Model.Votes Model.Consensus.
Import ListNotations.
Open Scope nat_scope.

(* newest first *)
Fixpoint news (w : walname) (f : list fx) : list entry :=
  match f with
  | [] => []
  | FxWrite w' e :: f' => if wal_eqb w w' then e :: news w f' else news w f'
  | _ :: f' => news w f'
  end.

Lemma wal_eqb_refl : forall w, wal_eqb w w = true.
Proof. destruct w; reflexivity. Qed.

Lemma wal_eqb_eq : forall a b, wal_eqb a b = true <-> a = b.
Proof. destruct a, b; cbn; split; congruence. Qed.

Lemma entries_news : forall w f, entries w f = rev (news w f).
Proof.
  intros w f. induction f as [|[w' e|w'|v|r id p] f IH]; cbn; auto.
  destruct (wal_eqb w w'); cbn; rewrite IH; reflexivity.
Qed.

Lemma unsynced_news : forall w f, unsynced w f <= List.length (news w f).
Proof.
  intros w f. induction f as [|[w' e|w'|v|r id p] f IH]; cbn; try lia;
  destruct (wal_eqb w w'); cbn; lia.
Qed.

Lemma news_drop_same : forall w f k, news w (drop_newest w k f) = skipn k (news w f).
Proof.
  intros w f. induction f as [|[w' e|w'|v|r id p] f IH]; intros [|k]; cbn; auto;
    try exact (IH (S k)).
  destruct (wal_eqb w w') eqn:E; cbn; [apply IH|]. rewrite E. exact (IH (S k)).
Qed.

Lemma news_drop_other : forall w w0 f k, w <> w0 -> news w (drop_newest w0 k f) = news w f.
Proof.
  intros w w0 f. induction f as [|[w' e|w'|v|r id p] f IH]; intros [|k] H; cbn; auto;
    try exact (IH (S k) H).
  destruct (wal_eqb w0 w') eqn:E; cbn.
  - apply wal_eqb_eq in E. subst w'. destruct (wal_eqb w w0) eqn:E2; [apply wal_eqb_eq in E2; congruence|].
    apply IH; exact H.
  - destruct (wal_eqb w w'); rewrite ?(IH (S k) H); reflexivity.
Qed.

Lemma unsynced_drop_other : forall w w0 f k, w <> w0 -> unsynced w (drop_newest w0 k f) = unsynced w f.
Proof.
  intros w w0 f. induction f as [|[w' e|w'|v|r id p] f IH]; intros [|k] H; cbn; auto;
    try exact (IH (S k) H).
  - destruct (wal_eqb w0 w') eqn:E; cbn.
    + apply wal_eqb_eq in E. subst w'. destruct (wal_eqb w w0) eqn:E2; [apply wal_eqb_eq in E2; congruence|].
      apply IH; exact H.
    + destruct (wal_eqb w w'); rewrite ?(IH (S k) H); reflexivity.
  - destruct (wal_eqb w w'); [reflexivity|]. exact (IH (S k) H).
Qed.

Lemma drop_sent : forall w f k v, In (FxVote v) (drop_newest w k f) <-> In (FxVote v) f.
Proof.
  intros w f. induction f as [|[w' e|w'|x|r id p] f IH]; intros [|k] v; cbn; try tauto.
  - destruct (wal_eqb w w'); cbn; rewrite IH; [|split; intros [H|H]; auto].
    split; [auto|]. intros [H|H]; [discriminate|exact H].
  - rewrite IH. tauto.
  - rewrite IH. tauto.
  - rewrite IH. tauto.
Qed.

Lemma in_news : forall w e f, In e (news w f) <-> In (FxWrite w e) f.
Proof.
  intros w e f. induction f as [|[w' e'|w'|x|r id p] f IH]; cbn; try tauto.
  - destruct (wal_eqb w w') eqn:E.
    + apply wal_eqb_eq in E. subst w'. cbn. rewrite IH. split; intros [H|H]; auto; left; congruence.
    + rewrite IH. split; [auto|]. intros [H|H]; [|exact H]. injection H as -> ->.
      rewrite wal_eqb_refl in E. discriminate.
  - rewrite IH. split; [auto|]. intros [H|H]; [discriminate|exact H].
  - rewrite IH. split; [auto|]. intros [H|H]; [discriminate|exact H].
  - rewrite IH. split; [auto|]. intros [H|H]; [discriminate|exact H].
Qed.

(* what is left after a crash *)
Definition left_over (kr kl kc : nat) (f : list fx) : list fx :=
  lose CommitWAL kc (lose LockWAL kl (lose RoundWAL kr f)).

Lemma left_over_news : forall kr kl kc f, exists a b c,
  a <= unsynced RoundWAL f /\ b <= unsynced LockWAL f /\ c <= unsynced CommitWAL f /\
  news RoundWAL (left_over kr kl kc f) = skipn a (news RoundWAL f) /\
  news LockWAL (left_over kr kl kc f) = skipn b (news LockWAL f) /\
  news CommitWAL (left_over kr kl kc f) = skipn c (news CommitWAL f) /\
  (forall v, In (FxVote v) (left_over kr kl kc f) <-> In (FxVote v) f).
Proof.
  intros kr kl kc f. unfold left_over, lose.
  exists (unsynced RoundWAL f - kr), (unsynced LockWAL f - kl), (unsynced CommitWAL f - kc).
  split; [lia|]. split; [lia|]. split; [lia|].
  set (f1 := drop_newest RoundWAL (unsynced RoundWAL f - kr) f).
  assert (U1 : unsynced LockWAL f1 = unsynced LockWAL f) by (apply unsynced_drop_other; discriminate).
  assert (U2 : unsynced CommitWAL f1 = unsynced CommitWAL f) by (apply unsynced_drop_other; discriminate).
  rewrite U1. set (f2 := drop_newest LockWAL (unsynced LockWAL f - kl) f1).
  assert (U3 : unsynced CommitWAL f2 = unsynced CommitWAL f1) by (apply unsynced_drop_other; discriminate).
  rewrite U3, U2. split; [|split; [|split]].
  - rewrite news_drop_other by discriminate. unfold f2. rewrite news_drop_other by discriminate.
    unfold f1. apply news_drop_same.
  - rewrite news_drop_other by discriminate. unfold f2. rewrite news_drop_same.
    unfold f1. rewrite news_drop_other by discriminate. reflexivity.
  - rewrite news_drop_same. unfold f2, f1. rewrite !news_drop_other by discriminate. reflexivity.
  - intros v. rewrite drop_sent. unfold f2. rewrite drop_sent. unfold f1. apply drop_sent.
Qed.
