(* Every schedule of the parallel execution comes to an end (for C61). *)
From Coq Require Import List Bool Arith Lia.
From Verif Require Import Model.ParallelExec Proof.ParFacts.
Import ListNotations.

Section Halt.
Variables V R : Type.
Variable is_empty : V -> bool.
Notation prog := (prog V R).

(* What is left of a transaction that has begun; [None]: nothing. *)
Definition left (e : vws V * thread V R) : option prog := match t_out (snd e) with Some _ => None | None => Some (t_prog (snd e)) end.
Definition lefts (s : sys V R) : list (option prog) := map left (x_ws s).

Inductive child : option prog -> option prog -> Prop :=
| c_get : forall id k v, child (Some (k v)) (Some (Get id k))
| c_put : forall id v k, child (Some k) (Some (Put id v k))
| c_snap : forall k n, child (Some (k n)) (Some (Snap k))
| c_back : forall h k, child (Some k) (Some (Rollback h k))
| c_done : forall r, child None (Some (Done r)).
Lemma child_none : Acc child None.
Proof. constructor. intros y H. inversion H. Qed.
Lemma child_wf : forall o, Acc child o.
Proof.
  intros [p|]; [|exact child_none]. induction p as [id k IH|id v p IH|k IH|h p IH|r]; constructor; intros y H; inversion H; subst; auto.
  exact child_none.
Qed.

(* One of the transactions goes on. *)
Definition onward (l' l : list (option prog)) : Prop := exists i a b, nth_error l i = Some a /\ child b a /\ l' = set_nth i b l.
Lemma onward_cons : forall a, Acc child a -> forall l, Acc onward l -> Acc onward (a :: l).
Proof.
  intros a Ha. induction Ha as [a _ IHa]. intros l Hl. induction Hl as [l Hl IHl]. constructor. intros l' (i & x & b & E & C & ->).
  destruct i as [|i]; cbn in E |- *.
  - injection E as ->. apply (IHa b C). constructor. exact Hl.
  - apply IHl. exists i, x, b. auto.
Qed.
Lemma onward_wf : forall l, Acc onward l.
Proof.
  induction l as [|a l IH]; [constructor; intros l' (i & x & b & E & _); destruct i; discriminate E|]. apply onward_cons; [apply child_wf|exact IH].
Qed.

(* A step: a transaction goes on, or the next one begins. *)
Definition same (s s1 : sys V R) : Prop := map snd (x_ws s1) = map snd (x_ws s) /\ x_todo s1 = x_todo s.
Lemma same_refl : forall s, same s s. Proof. split; reflexivity. Qed.
Lemma same_trans : forall a b c, same a b -> same b c -> same a c.
Proof. intros a b c (A1 & A2) (B1 & B2). split; congruence. Qed.
Lemma same_set_w : forall s i w, same s (set_w s i w).
Proof.
  intros s i w. unfold set_w, same. destruct (nth_error (x_ws s) i) as [(w0, t)|] eqn:E; [|auto]. cbn [x_ws x_todo]. split; [|reflexivity].
  revert i E. induction (x_ws s) as [|(w1, t1) l IH]; intros [|i] E; cbn in E |- *; try discriminate E.
  - injection E as -> ->. reflexivity.
  - f_equal. exact (IH i E).
Qed.
Lemma same_set_real : forall s r, same s (set_real s r). Proof. split; reflexivity. Qed.
Lemma same_realize : forall s i s1, realize s i = Ok s1 -> same s s1.
Proof.
  intros s i s1 E. unfold realize in E. destruct (get_w s i) as [w|]; [|discriminate E]. destruct (w_committed w); [injection E as <-; apply same_refl|].
  destruct (ready (S i) s i); [|discriminate E]. injection E as <-. apply same_set_w.
Qed.
Lemma same_realize_base : forall s i s1, realize_base s i = Ok s1 -> same s s1.
Proof.
  intros s i s1 E. unfold realize_base in E. destruct (get_w s i) as [w|]; [|discriminate E]. destruct (w_base w); [injection E as <-; apply same_refl|].
  destruct (w_parent w) as [p|]; [|discriminate E]. destruct (realize s p) as [s2| |] eqn:Er; try discriminate E.
  destruct (get_w s2 p) as [wp|]; [|discriminate E]. injection E as <-. apply (same_trans s s2); [exact (same_realize _ _ _ Er)|apply same_set_w].
Qed.
Lemma same_get : forall f s i id s1 st, get_account f s i id = Ok (s1, st) -> same s s1.
Proof.
  induction f as [|f IH]; intros s i id s1 st E; cbn [get_account] in E; [discriminate E|]. destruct (get_w s i) as [w|]; [|discriminate E].
  destruct (assoc id (w_accts w)) as [a|].
  - destruct (l_dep a) as [d|].
    + destruct (negb (is_done s d)); [discriminate E|].
      assert (K : forall r : res (sys V R * acc V), (forall s2 st2, r = Ok (s2, st2) -> same s s2) ->
        match r with
        | Ok (s1, st) => Ok (set_w s1 i (mkVws (w_parent w) (w_base w) (w_committed w) (w_waiting w)
                              (replace id (mkLas (l_lock a) (Some st) (Some (value s1 st id)) None) (w_accts w)) (w_lock w)), st)
        | Blocked => Blocked | Panic => Panic end = Ok (s1, st) -> same s s1).
      { intros r Hr Er. destruct r as [(s2, st2)| |]; try discriminate Er. injection Er as <- _. apply (same_trans s s2); [exact (Hr s2 st2 eq_refl)|apply same_set_w]. }
      revert E. apply K. intros s2 st2 Er.
      destruct (l_lock a); try (injection Er as <- _; apply same_refl);
        destruct (get_account f s d id) as [(s3, st3)| |] eqn:Eg; try discriminate Er; injection Er as <- _; exact (IH _ _ _ _ _ Eg).
    + destruct (l_state a); [|discriminate E]. injection E as <- _. apply same_refl.
  - assert (K : (match realize_base s i with
                  | Ok s1 => match get_w s1 i with
                      | Some w1 => match w_committed w1, w_lock w1, w_base w1 with
                          | Some c, _, _ => Ok (s1, Frozen (c id)) | None, WLock, _ => Ok (s1, Live) | None, _, Some b => Ok (s1, Frozen (b id)) | None, _, None => Panic end
                      | None => Panic end
                  | Blocked => Blocked | Panic => Panic end) = Ok (s1, st) -> same s s1).
    { intros Er. destruct (realize_base s i) as [s2| |] eqn:Eb; try discriminate Er. apply same_realize_base in Eb. destruct (get_w s2 i) as [w1|]; [|discriminate Er].
      destruct (w_committed w1); [injection Er as <- _; exact Eb|]. destruct (w_lock w1), (w_base w1); try discriminate Er; injection Er as <- _; exact Eb. }
    destruct (w_lock w); [discriminate E|exact (K E)|exact (K E)|exact (K E)].
Qed.
Lemma same_snapshot : forall s i s1 sn, get_snapshot s i = Ok (s1, sn) -> same s s1.
Proof.
  intros s i s1 sn E. unfold get_snapshot in E. destruct (get_w s i) as [w|]; [|discriminate E]. destruct (w_committed w); [injection E as <- _; apply same_refl|].
  destruct (w_lock w); [injection E as <- _; apply same_refl| | |discriminate E];
    destruct (realize_base s i) as [s2| |] eqn:Eb; try discriminate E; apply same_realize_base in Eb; destruct (get_w s2 i) as [w1|]; try discriminate E; injection E as <- _; exact Eb.
Qed.
Lemma same_reset : forall s i sn s1, reset is_empty s i sn = Ok s1 -> same s s1.
Proof.
  intros s i sn s1 E. unfold reset in E. destruct (get_w s i) as [w|]; [|discriminate E]. destruct (negb (w_waiting w)); [discriminate E|].
  destruct (w_lock w); try (destruct (reset_accts is_empty sn (w_accts w) (x_real s)); try discriminate E; injection E as <-; apply same_set_real).
  destruct (s_base sn); [|discriminate E]. injection E as <-. apply same_set_real.
Qed.
Lemma same_commit_accts : forall l f s s1 l2, commit_accts f s l = Ok (s1, l2) -> same s s1.
Proof.
  induction l as [|(id, a) l IH]; intros f s s1 l2 E; cbn [commit_accts] in E; [injection E as <- _; apply same_refl|].
  assert (K : forall r : res (sys V R * las V), (forall s2 a2, r = Ok (s2, a2) -> same s s2) ->
    match r with
    | Ok (s1, a1) => match commit_accts f s1 l with Ok (s2, l2) => Ok (s2, (id, a1) :: l2) | Blocked => Blocked | Panic => Panic end
    | Blocked => Blocked | Panic => Panic end = Ok (s1, l2) -> same s s1).
  { intros r Hr Er. destruct r as [(s2, a2)| |]; try discriminate Er. destruct (commit_accts f s2 l) as [(s3, l3)| |] eqn:Ec; try discriminate Er.
    injection Er as <- _. apply (same_trans s s2); [exact (Hr s2 a2 eq_refl)|exact (IH _ _ _ _ Ec)]. }
  revert E. apply K. intros s2 a2 Er. destruct (l_lock a); try (injection Er as <- _; apply same_refl).
  destruct (l_dep a) as [d|].
  - destruct (negb (is_done s d)); [discriminate Er|]. destruct (get_account f s d id) as [(s3, st3)| |] eqn:Eg; try discriminate Er. injection Er as <- _. exact (same_get _ _ _ _ _ _ Eg).
  - destruct (l_state a); [|discriminate Er]. injection Er as <- _. apply same_refl.
Qed.
Lemma same_commit : forall s i s1, commit s i = Ok s1 -> same s s1.
Proof.
  intros s i s1 E. unfold commit in E. destruct (get_w s i) as [w|]; [|discriminate E]. destruct (negb (w_waiting w)); [injection E as <-; apply same_refl|].
  destruct (commit_accts i s (w_accts w)) as [(s2, l2)| |] eqn:Ec; try discriminate E. apply same_commit_accts in Ec.
  destruct (w_lock w); injection E as <-; apply (same_trans s s2); auto using same_set_w.
Qed.
Lemma same_lefts : forall s s1, same s s1 -> lefts s1 = lefts s.
Proof.
  intros s s1 (A & _). unfold lefts.
  assert (K : forall l : list (vws V * thread V R), map left l = map (fun t => match t_out t with Some _ => None | None => Some (t_prog t) end) (map snd l)).
  { intros l. rewrite map_map. reflexivity. }
  rewrite !K, A. reflexivity.
Qed.
Lemma same_nth : forall s s1 i w t, same s s1 -> nth_error (x_ws s) i = Some (w, t) -> exists w1, nth_error (x_ws s1) i = Some (w1, t).
Proof.
  intros s s1 i w t (A & _) E. assert (K : nth_error (map snd (x_ws s1)) i = Some t) by (rewrite A; exact (map_nth_error snd i (x_ws s) E)).
  destruct (nth_error (x_ws s1) i) as [(w1, t1)|] eqn:E1.
  - rewrite (map_nth_error snd i (x_ws s1) E1) in K. cbn in K. injection K as ->. eauto.
  - apply nth_error_None in E1. rewrite (proj2 (nth_error_None (map snd (x_ws s1)) i)) in K by (rewrite map_length; exact E1). discriminate K.
Qed.
Lemma map_set_nth : forall (A B : Type) (f : A -> B) i x l, map f (set_nth i x l) = set_nth i (f x) (map f l).
Proof. intros A B f i x l. revert i. induction l as [|y l IH]; intros [|i]; cbn; auto. f_equal. apply IH. Qed.

Lemma set_t_onward : forall s s1 i w t t', same s s1 -> nth_error (x_ws s) i = Some (w, t) -> child (left (w, t')) (left (w, t)) ->
  onward (lefts (set_t s1 i t')) (lefts s) /\ x_todo (set_t s1 i t') = x_todo s.
Proof.
  intros s s1 i w t t' S1 E C. destruct (same_nth _ _ _ _ _ S1 E) as (w1 & E1). unfold set_t. rewrite E1. cbn [x_todo]. split; [|exact (proj2 S1)].
  exists i, (left (w, t)), (left (w, t')). split; [exact (map_nth_error left i (x_ws s) E)|]. split; [exact C|]. unfold lefts at 1. cbn [x_ws].
  rewrite map_set_nth. fold (lefts s1). rewrite (same_lefts _ _ S1). reflexivity.
Qed.
Lemma run_onward : forall s i s', run is_empty s i = Ok s' -> onward (lefts s') (lefts s) /\ x_todo s' = x_todo s.
Proof.
  intros s i s' E. unfold run in E. destruct (nth_error (x_ws s) i) as [(w, t)|] eqn:Ei; [|discriminate E].
  destruct (t_out t) eqn:Eo; [discriminate E|]. assert (Lt : left (w, t) = Some (t_prog t)) by (unfold left; cbn; rewrite Eo; reflexivity).
  destruct (t_prog t) as [id k|id v k|k|h k|r] eqn:Ep.
  - destruct (get_account (S i) s i id) as [(s1, st)| |] eqn:Eg; try discriminate E. injection E as <-.
    apply (set_t_onward s s1 i w t); [exact (same_get _ _ _ _ _ _ Eg)|exact Ei|]. rewrite Lt. constructor.
  - destruct (get_account (S i) s i id) as [(s1, [|v'])| |] eqn:Eg; try discriminate E. injection E as <-.
    apply (set_t_onward s _ i w t); [apply (same_trans s s1); [exact (same_get _ _ _ _ _ _ Eg)|apply same_set_real]|exact Ei|]. rewrite Lt. constructor.
  - destruct (get_snapshot s i) as [(s1, sn)| |] eqn:Eg; try discriminate E. injection E as <-.
    apply (set_t_onward s s1 i w t); [exact (same_snapshot _ _ _ _ Eg)|exact Ei|]. rewrite Lt. constructor.
  - destruct (nth_error (t_snaps t) h) as [sn|]; [|discriminate E]. destruct (reset is_empty s i sn) as [s1| |] eqn:Eg; try discriminate E. injection E as <-.
    apply (set_t_onward s s1 i w t); [exact (same_reset _ _ _ _ Eg)|exact Ei|]. rewrite Lt. constructor.
  - destruct (commit s i) as [s1| |] eqn:Eg; try discriminate E. injection E as <-.
    destruct (set_t_onward s s1 i w t (mkThread (Done r) (t_snaps t) (Some r)) (same_commit _ _ _ Eg) Ei) as (A & B); [rewrite Lt; constructor|].
    split; [exact A|exact B].
Qed.
Lemma prepare_todo : forall (s : sys V R) s', prepare s = Ok s' -> exists x, x_todo s = x :: x_todo s'.
Proof.
  intros s s' E. unfold prepare in E. destruct (x_todo s) as [|(rq, p) todo]; [discriminate E|]. exists (rq, p). destruct (x_err s); [discriminate E|].
  cbv zeta in E. destruct (world_lock (rq ++ [(Some system_id, RLock)]));
    try (destruct (bind_accts _ _ _ _ _ _ _) as ((accts, lockers), ro)); injection E as <-; reflexivity.
Qed.

Lemma halts : forall s : sys V R, Acc (fun s' s : sys V R => exists e, step is_empty s e = Ok s') s.
Proof.
  intros s. remember (length (x_todo s)) as n eqn:En. revert s En. induction n as [n IHn] using lt_wf_ind. intros s En.
  remember (lefts s) as l eqn:El. revert s En El. induction (onward_wf l) as [l _ IHl]. intros s En El. constructor. intros s' (e & E). destruct e as [|i]; cbn [step] in E.
  - destruct (prepare_todo s s' E) as (x & Ex). apply (IHn (length (x_todo s'))); [|reflexivity]. rewrite En, Ex. cbn. lia.
  - destruct (run_onward s i s' E) as (A & B). apply (IHl (lefts s')); [rewrite El; exact A|rewrite B; exact En|reflexivity].
Qed.
End Halt.
