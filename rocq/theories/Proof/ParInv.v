(* What holds in every state of the parallel execution (for C60, C61). *)
From Coq Require Import List Bool Arith Lia.
From Verif Require Import Model.ParallelExec Spec.ParallelSpec Proof.ParFacts.
Import ListNotations.

Section Inv.
Variables V R : Type.
Variable is_empty : V -> bool.
Notation prog := (prog V R).
Notation world := (nat -> V).
Variable txs : list (list req * prog).
Variable w0 : world.
Hypothesis GB : good_block txs w0.

Definition sig (i : nat) : world := before txs w0 i.
Definition reqs (i : nat) : list req := match nth_error txs i with Some (r, _) => r | None => [] end.
Definition body (i : nat) : prog := match nth_error txs i with Some (_, p) => p | None => Done None end.
Definition writes (i id : nat) : bool := wr (reqs i) id.
Fixpoint lastw (n id : nat) : option nat := match n with O => None | S k => if writes k id then Some k else lastw k id end.

(* ---- the sequential run ---- *)
Lemma before_step : forall (l : list (list req * prog)) w i r p, nth_error l i = Some (r, p) -> before l w (S i) = fst (whole p (before l w i)).
Proof.
  induction l as [|(r0, p0) l IH]; intros w i r p E; [destruct i; discriminate E|]. destruct i as [|i].
  - cbn in E. injection E as -> ->. cbn. destruct l; reflexivity.
  - cbn in E. change (before ((r0, p0) :: l) w (S (S i))) with (before l (fst (whole p0 w)) (S i)).
    change (before ((r0, p0) :: l) w (S i)) with (before l (fst (whole p0 w)) i). exact (IH _ _ _ _ E).
Qed.
Lemma before_end : forall (l : list (list req * prog)) w i, length l <= i -> before l w i = before l w (length l).
Proof.
  induction l as [|(r0, p0) l IH]; intros w i H; [destruct i; reflexivity|]. cbn in H. destruct i as [|i]; [lia|]. cbn. apply IH. lia.
Qed.
Lemma sig_S : forall i, i < length txs -> sig (S i) = fst (whole (body i) (sig i)).
Proof.
  intros i H. unfold sig, body. destruct (nth_error txs i) as [(r, p)|] eqn:E; [exact (before_step _ _ _ _ _ E)|].
  apply nth_error_None in E. lia.
Qed.
Lemma sig_end : forall i, length txs <= i -> sig (S i) = sig i.
Proof. intros i H. unfold sig. rewrite (before_end txs w0 (S i)), (before_end txs w0 i) by lia. reflexivity. Qed.

Lemma frame : forall rq id (p : prog) w snaps, ~ may_write rq id -> asks rq p w snaps -> (forall s, In s snaps -> s id = w id) ->
  fst (alone p w snaps) id = w id.
Proof.
  intros rq id. induction p as [k f IH|k v p IH|f IH|h p IH|r]; intros w snaps NW A HS; cbn in A |- *.
  - destruct A as (_ & A). exact (IH (w k) w snaps NW A HS).
  - destruct A as (Hk & A). assert (E : Nat.eqb id k = false) by (apply Nat.eqb_neq; intros ->; exact (NW Hk)).
    rewrite IH; [rewrite E; reflexivity|exact NW|exact A|]. intros s Hs. rewrite E. exact (HS s Hs).
  - apply IH; [exact NW|exact A|]. intros s Hs. apply in_app_or in Hs. destruct Hs as [Hs|[<-|[]]]; [exact (HS s Hs)|reflexivity].
  - destruct A as (Hh & A). assert (Hin : In (nth h snaps w) snaps) by (apply nth_In; exact Hh).
    rewrite IH; [exact (HS _ Hin)|exact NW|exact A|]. intros s Hs. rewrite (HS _ Hin). exact (HS s Hs).
  - reflexivity.
Qed.

Lemma good : forall i, i < length txs -> good_requests (reqs i) /\ asks (reqs i) (body i) (sig i) [sig i].
Proof.
  intros i H. unfold reqs, body. destruct (nth_error txs i) as [(r, p)|] eqn:E; [exact (GB i r p E)|]. apply nth_error_None in E. lia.
Qed.
Lemma writes_in : forall i id, writes i id = true -> i < length txs.
Proof.
  intros i id. unfold writes, reqs. destruct (nth_error txs i) eqn:E; [|discriminate]. intros _. apply nth_error_Some. congruence.
Qed.
Lemma sig_frame1 : forall i id, writes i id = false -> sig (S i) id = sig i id.
Proof.
  intros i id H. destruct (le_lt_dec (length txs) i) as [L|L]; [rewrite sig_end by exact L; reflexivity|].
  rewrite sig_S by exact L. destruct (good i L) as (_ & A). apply (frame (reqs i)); [|exact A|].
  - intros F. apply wr_spec in F. unfold writes in H. congruence.
  - intros s [<-|[]]. reflexivity.
Qed.
Lemma sig_frame : forall id i j, i <= j -> (forall k, i <= k < j -> writes k id = false) -> sig j id = sig i id.
Proof.
  intros id i j. induction j as [|j IH]; intros L H.
  - replace i with 0 by lia. reflexivity.
  - destruct (Nat.eq_dec i (S j)) as [->|N]; [reflexivity|]. rewrite sig_frame1 by (apply H; lia). apply IH; [lia|]. intros k Hk. apply H. lia.
Qed.

(* ---- last writers ---- *)
Lemma lastw_some : forall n id d, lastw n id = Some d -> d < n /\ writes d id = true /\ forall k, d < k < n -> writes k id = false.
Proof.
  induction n as [|n IH]; intros id d E; cbn in E; [discriminate E|]. destruct (writes n id) eqn:Ew.
  - injection E as <-. split; [lia|]. split; [exact Ew|]. intros k Hk. lia.
  - destruct (IH id d E) as (A & B & C). split; [lia|]. split; [exact B|]. intros k Hk. destruct (Nat.eq_dec k n) as [->|]; [exact Ew|]. apply C. lia.
Qed.
Lemma lastw_none : forall n id, lastw n id = None -> forall k, k < n -> writes k id = false.
Proof.
  induction n as [|n IH]; intros id E k Hk; [lia|]. cbn in E. destruct (writes n id) eqn:Ew; [discriminate E|].
  destruct (Nat.eq_dec k n) as [->|]; [exact Ew|]. apply IH; [exact E|lia].
Qed.
Lemma sig_lastw : forall n id d, lastw n id = Some d -> sig n id = sig (S d) id.
Proof.
  intros n id d E. destruct (lastw_some _ _ _ E) as (A & _ & C). apply sig_frame; [lia|]. intros k Hk. apply C. lia.
Qed.
Lemma sig_nolastw : forall n id, lastw n id = None -> sig n id = w0 id.
Proof. intros n id E. rewrite (sig_frame id 0 n); [unfold sig; destruct txs; reflexivity|lia|]. intros k Hk. apply (lastw_none n id E). lia. Qed.

(* ---- the invariant ---- *)
Definition prior_done (D : nat -> bool) (i id : nat) : Prop := forall j, j < i -> writes j id = true -> D j = true.
Definition all_before (D : nat -> bool) (i : nat) : Prop := forall j, j < i -> D j = true.
Definition front (D : nat -> bool) (n i id : nat) : Prop := i < n /\ writes i id = true /\ D i = false /\ prior_done D i id.

Definition las_ok (D : nat -> bool) (i id : nat) (snaps : list (vsnap V)) (tau : world) (a : las V) : Prop :=
  l_lock a = (if acct_w (reqs i) id then WLock else RLock) /\
  match l_dep a with
  | Some d => lastw i id = Some d /\ l_state a = None /\ tau id = sig i id /\ (forall sn, In sn snaps -> assoc id (s_accts sn) = None)
  | None => if acct_w (reqs i) id
            then prior_done D i id /\ l_state a = Some Live /\
                 match l_base a with Some v => v = sig i id | None => forall sn, In sn snaps -> assoc id (s_accts sn) <> None end
            else l_state a = Some (Frozen (sig i id))
  end.
Definition snap_ok (i : nat) (sn : vsnap V) (w : world) : Prop :=
  (forall id v, assoc id (s_accts sn) = Some v -> v = w id) /\
  (forall b, s_base sn = Some b -> forall id, b id = sig i id) /\
  (forall id, assoc id (s_accts sn) = None -> w id = sig i id).
Definition wsnap_ok (sn : vsnap V) (w : world) : Prop := exists b, s_base sn = Some b /\ forall id, b id = w id.

Definition acct_ok (D : nat -> bool) (i : nat) (w : vws V) (t : thread V R) (tau : world) (sn : list world) : Prop :=
  w_lock w = NoLock /\ NoDup (map fst (w_accts w)) /\ (forall id, assoc id (w_accts w) = None <-> acct_any (reqs i) id = false) /\
  if w_waiting w
  then (forall id a, assoc id (w_accts w) = Some a -> las_ok D i id (t_snaps t) tau a) /\ Forall2 (snap_ok i) (t_snaps t) sn
  else forall id, writes i id = true -> exists a, assoc id (w_accts w) = Some a /\ l_dep a = None /\ l_state a = Some (Frozen (sig (S i) id)).
Definition world_ok (i : nat) (w : vws V) (t : thread V R) (tau : world) (sn : list world) : Prop :=
  w_accts w = [] /\
  if w_waiting w
  then w_lock w = WLock /\ (w_base w = None -> tau = sig i /\ exists k, t_prog t = Snap k) /\ Forall2 wsnap_ok (t_snaps t) sn
  else w_lock w = Unlocked /\ w_base w <> None /\ w_committed w <> None.
Definition thread_ok (i : nat) (waiting : bool) (t : thread V R) (tau : world) (sn : list world) : Prop :=
  if waiting
  then t_out t = None /\ alone (t_prog t) tau sn = whole (body i) (sig i) /\ asks (reqs i) (t_prog t) tau sn /\
       (rolls_back (t_prog t) tau sn -> rolls_back (body i) (sig i) [sig i]) /\ length (t_snaps t) = length sn /\
       forall id, writes i id = false -> tau id = sig i id /\ forall s, In s sn -> s id = sig i id
  else t_out t = Some (snd (whole (body i) (sig i))).
Definition txinv (D : nat -> bool) (i : nat) (w : vws V) (t : thread V R) (tau : world) (sn : list world) : Prop :=
  w_parent w = (if Nat.eqb i 0 then None else Some (i - 1)) /\ (i = 0 -> w_base w <> None) /\
  (forall b, w_base w = Some b -> all_before D i /\ forall id, b id = sig i id) /\
  (forall c, w_committed w = Some c -> all_before D (S i) /\ forall id, c id = sig (S i) id) /\
  (if world_w (reqs i) then world_ok i w t tau sn else acct_ok D i w t tau sn) /\
  thread_ok i (w_waiting w) t tau sn.

Definition inv (s : sys V R) (tau : nat -> world) (sn : nat -> list world) : Prop :=
  let n := length (x_ws s) in let D := is_done s in
  n <= length txs /\ x_todo s = skipn n txs /\ x_err s = false /\
  (forall id, get_locker id (x_lockers s) (x_wlocker s) = lastw n id) /\
  (forall id v, assoc id (x_ro s) = Some v -> v = w0 id) /\
  (forall i w t, nth_error (x_ws s) i = Some (w, t) -> txinv D i w t (tau i) (sn i)) /\
  (forall i id, front D n i id -> x_real s id = tau i id) /\
  (forall id, prior_done D n id -> x_real s id = sig n id) /\
  (forall i id, D i = true -> writes i id = true -> prior_done D i id).

(* ---- little facts ---- *)
Lemma front_unique : forall D n i j id, front D n i id -> front D n j id -> i = j.
Proof.
  intros D n i j id (_ & A2 & A3 & A4) (_ & B2 & B3 & B4). destruct (lt_eq_lt_dec i j) as [[L| ->]|L]; [|reflexivity|].
  - rewrite (B4 i L A2) in A3. discriminate A3.
  - rewrite (A4 j L B2) in B3. discriminate B3.
Qed.
Lemma las_mono : forall D D' i id snaps tau a, (forall j, D j = true -> D' j = true) -> las_ok D i id snaps tau a -> las_ok D' i id snaps tau a.
Proof.
  intros D D' i id snaps tau a M (A & B). split; [exact A|]. destruct (l_dep a); [exact B|]. destruct (acct_w (reqs i) id); [|exact B].
  destruct B as (B1 & B2). split; [|exact B2]. intros j Lj Wj. apply M. exact (B1 j Lj Wj).
Qed.
Lemma txinv_mono : forall D D' i w t tau sn, (forall j, D j = true -> D' j = true) -> txinv D i w t tau sn -> txinv D' i w t tau sn.
Proof.
  intros D D' i w t tau sn M (A & B & C & E & F & G). split; [exact A|]. split; [exact B|]. split; [|split; [|split; [|exact G]]].
  - intros b Eb. destruct (C b Eb) as (C1 & C2). split; [|exact C2]. intros j Lj. apply M. exact (C1 j Lj).
  - intros c Ec. destruct (E c Ec) as (C1 & C2). split; [|exact C2]. intros j Lj. apply M. exact (C1 j Lj).
  - destruct (world_w (reqs i)); [exact F|]. destruct F as (F1 & F2 & F3 & F4). split; [exact F1|]. split; [exact F2|]. split; [exact F3|].
    destruct (w_waiting w); [|exact F4]. destruct F4 as (F4 & F5). split; [|exact F5]. intros id a Ea. exact (las_mono D D' _ _ _ _ _ M (F4 id a Ea)).
Qed.
Lemma done_at : forall (s : sys V R) i w t, nth_error (x_ws s) i = Some (w, t) -> is_done s i = negb (w_waiting w).
Proof. intros s i w t E. unfold is_done, get_w. rewrite E. reflexivity. Qed.
Lemma done_in : forall (s : sys V R) i, is_done s i = true -> exists w t, nth_error (x_ws s) i = Some (w, t) /\ w_waiting w = false.
Proof.
  intros s i E. unfold is_done, get_w in E. destruct (nth_error (x_ws s) i) as [(w, t)|]; [|discriminate E]. cbn in E. exists w, t. split; [reflexivity|].
  destruct (w_waiting w); [discriminate E|reflexivity].
Qed.

(* Changing what one transaction holds, and the real state where it is in front. *)
Lemma set_done : forall (s : sys V R) i w t w' t' real lockers wl ro todo err, nth_error (x_ws s) i = Some (w, t) -> w_waiting w' = w_waiting w ->
  forall j, is_done (mkSys real lockers wl ro (set_nth i (w', t') (x_ws s)) todo err) j = is_done s j.
Proof.
  intros s i w t w' t' real lockers wl ro todo err E Ew j. unfold is_done, get_w. cbn [x_ws].
  assert (L : i < length (x_ws s)) by (apply nth_error_Some; congruence). rewrite (set_nth_get _ i _ _ j L).
  destruct (Nat.eqb_spec j i) as [->|N]; [|reflexivity]. rewrite E. cbn. rewrite Ew. reflexivity.
Qed.
Definition put {A : Type} (i : nat) (v : A) (f : nat -> A) : nat -> A := fun j => if Nat.eqb j i then v else f j.
Lemma put_same : forall (A : Type) i (v : A) f, put i v f i = v.
Proof. intros. unfold put. rewrite Nat.eqb_refl. reflexivity. Qed.
Lemma put_other : forall (A : Type) i j (v : A) f, j <> i -> put i v f j = f j.
Proof. intros. unfold put. rewrite (proj2 (Nat.eqb_neq j i)) by assumption. reflexivity. Qed.

Lemma inv_set : forall s tau sn i w t w' t' real tau' sn',
  inv s tau sn -> nth_error (x_ws s) i = Some (w, t) -> w_waiting w' = w_waiting w ->
  txinv (is_done s) i w' t' tau' sn' ->
  (forall id, front (is_done s) (length (x_ws s)) i id -> real id = tau' id) ->
  (forall id, ~ front (is_done s) (length (x_ws s)) i id -> real id = x_real s id) ->
  inv (mkSys real (x_lockers s) (x_wlocker s) (x_ro s) (set_nth i (w', t') (x_ws s)) (x_todo s) (x_err s)) (put i tau' tau) (put i sn' sn).
Proof.
  intros s tau sn i w t w' t' real tau' sn' (H1 & H2 & H3 & H4 & H5 & H6 & H7 & H8 & H9) E Ew T F1 F2.
  set (s' := mkSys real (x_lockers s) (x_wlocker s) (x_ro s) (set_nth i (w', t') (x_ws s)) (x_todo s) (x_err s)).
  assert (HD : forall j, is_done s' j = is_done s j) by (apply (set_done s i w t w' t'); assumption).
  assert (Li : i < length (x_ws s)) by (apply nth_error_Some; congruence).
  assert (HL : length (x_ws s') = length (x_ws s)) by (unfold s'; cbn; apply set_nth_len).
  assert (FR : forall j id, front (is_done s') (length (x_ws s)) j id -> front (is_done s) (length (x_ws s)) j id).
  { intros j id (X1 & X2 & X3 & X4). split; [exact X1|]. split; [exact X2|]. split; [rewrite <- HD; exact X3|].
    intros k Lk Wk. rewrite <- HD. exact (X4 k Lk Wk). }
  unfold inv. rewrite HL. split; [exact H1|]. split; [exact H2|]. split; [exact H3|]. split; [exact H4|]. split; [exact H5|].
  split; [|split; [|split]].
  - intros j wj tj Ej. unfold s' in Ej. cbn [x_ws] in Ej. rewrite (set_nth_get _ i _ _ j Li) in Ej.
    apply (txinv_mono (is_done s)); [intros k; rewrite HD; auto|]. destruct (Nat.eqb_spec j i) as [->|N].
    + injection Ej as <- <-. rewrite !put_same. exact T.
    + rewrite !put_other by exact N. exact (H6 j wj tj Ej).
  - intros j id Fj. apply FR in Fj. cbn [x_real s']. destruct (Nat.eq_dec j i) as [->|N].
    + rewrite put_same. exact (F1 id Fj).
    + rewrite put_other by exact N. rewrite F2; [exact (H7 j id Fj)|]. intros Fi. apply N. exact (front_unique _ _ _ _ _ Fj Fi).
  - intros id P. cbn [x_real s'].
    assert (P' : prior_done (is_done s) (length (x_ws s)) id) by (intros k Lk Wk; rewrite <- HD; exact (P k Lk Wk)).
    rewrite F2; [exact (H8 id P')|]. intros (X1 & X2 & X3 & _). rewrite (P' i X1 X2) in X3. discriminate X3.
  - intros j id Dj Wj k Lk Wk. rewrite HD in Dj |- *. exact (H9 j id Dj Wj k Lk Wk).
Qed.

Lemma inv_ext : forall s tau sn tau' sn', (forall i, tau' i = tau i) -> (forall i, sn' i = sn i) -> inv s tau sn -> inv s tau' sn'.
Proof.
  intros s tau sn tau' sn' Et Es (H1 & H2 & H3 & H4 & H5 & H6 & H7 & H8 & H9). split; [exact H1|]. split; [exact H2|]. split; [exact H3|]. split; [exact H4|].
  split; [exact H5|]. split; [|split; [|split; [exact H8|exact H9]]].
  - intros i w t E. rewrite Et, Es. exact (H6 i w t E).
  - intros i id F. rewrite Et. exact (H7 i id F).
Qed.
Lemma put_id : forall (A : Type) i (f : nat -> A) j, f j = put i (f i) f j.
Proof. intros A i f j. unfold put. destruct (Nat.eqb_spec j i) as [->|N]; reflexivity. Qed.
Lemma inv_setw : forall s tau sn i w t w',
  inv s tau sn -> nth_error (x_ws s) i = Some (w, t) -> w_waiting w' = w_waiting w ->
  txinv (is_done s) i w' t (tau i) (sn i) -> inv (set_w s i w') tau sn.
Proof.
  intros s tau sn i w t w' H E Ew T. unfold set_w. rewrite E.
  apply (inv_ext _ (put i (tau i) tau) (put i (sn i) sn)); [intros; apply put_id|intros; apply put_id|].
  apply (inv_set s tau sn i w t w' t (x_real s) (tau i) (sn i)); auto. destruct H as (_ & _ & _ & _ & _ & _ & H7 & _). intros id F. exact (H7 i id F).
Qed.
Lemma setw_at : forall (s : sys V R) i w t w' j, nth_error (x_ws s) i = Some (w, t) ->
  nth_error (x_ws (set_w s i w')) j = if Nat.eqb j i then Some (w', t) else nth_error (x_ws s) j.
Proof.
  intros s i w t w' j E. unfold set_w. rewrite E. cbn [x_ws]. apply set_nth_get. apply nth_error_Some. congruence.
Qed.
Lemma setw_real : forall (s : sys V R) i w', x_real (set_w s i w') = x_real s.
Proof. intros s i w'. unfold set_w. destruct (nth_error (x_ws s) i) as [(w, t)|]; reflexivity. Qed.
Lemma setw_len : forall (s : sys V R) i w', length (x_ws (set_w s i w')) = length (x_ws s).
Proof. intros s i w'. unfold set_w. destruct (nth_error (x_ws s) i) as [(w, t)|]; [cbn; apply set_nth_len|reflexivity]. Qed.
Lemma setw_done : forall (s : sys V R) i w t w' j, nth_error (x_ws s) i = Some (w, t) -> w_waiting w' = w_waiting w -> is_done (set_w s i w') j = is_done s j.
Proof. intros s i w t w' j E Ew. unfold set_w. rewrite E. apply (set_done s i w t w' t); assumption. Qed.
Lemma get_w_at : forall (s : sys V R) i w t, nth_error (x_ws s) i = Some (w, t) -> get_w s i = Some w.
Proof. intros s i w t E. unfold get_w. rewrite E. reflexivity. Qed.

Definition keeps (s s1 : sys V R) (i : nat) (w1 : vws V) (t : thread V R) : Prop :=
  x_real s1 = x_real s /\ length (x_ws s1) = length (x_ws s) /\ (forall j, is_done s1 j = is_done s j) /\ nth_error (x_ws s1) i = Some (w1, t).

(* What a committed writer shows. *)
Lemma peek : forall s tau sn d id f, inv s tau sn -> is_done s d = true -> writes d id = true -> get_account (S f) s d id = Ok (s, Frozen (sig (S d) id)).
Proof.
  intros s tau sn d id f H Dd Wd. destruct (done_in s d Dd) as (w & t & E & Ew). destruct H as (_ & _ & _ & _ & _ & H6 & _).
  destruct (H6 d w t E) as (T1 & T2 & T3 & T4 & T5 & T6). cbn [get_account]. rewrite (get_w_at s d w t E).
  destruct (world_w (reqs d)) eqn:Ed.
  - destruct T5 as (A1 & A2). rewrite Ew in A2. destruct A2 as (A2 & A3 & A4). rewrite A1, A2. cbn [assoc].
    unfold realize_base. rewrite (get_w_at s d w t E). destruct (w_base w) as [b|]; [|contradiction].
    rewrite (get_w_at s d w t E). destruct (w_committed w) as [c|]; [|contradiction]. destruct (T4 c eq_refl) as (_ & Hc). rewrite Hc. reflexivity.
  - destruct T5 as (A1 & A2 & A3 & A4). rewrite Ew in A4. destruct (A4 id Wd) as (a & Ea & Eb & Ec). rewrite Ea, Eb, Ec. reflexivity.
Qed.

Lemma ready_all : forall s tau sn f i, inv s tau sn -> ready f s i = true -> all_before (is_done s) (S i).
Proof.
  intros s tau sn f. induction f as [|f IH]; intros i H E; [discriminate E|]. cbn [ready] in E. unfold get_w in E.
  destruct (nth_error (x_ws s) i) as [(w, t)|] eqn:Ei; [|discriminate E]. cbn [option_map fst] in E.
  destruct H as (H1 & H2 & H3 & H4 & H5 & H6 & H7). pose proof (H6 i w t Ei) as (T1 & T2 & T3 & T4 & _).
  destruct (w_committed w) as [c|]; [exact (proj1 (T4 c eq_refl))|]. apply andb_prop in E. destruct E as (E1 & E2).
  assert (Di : is_done s i = true) by (rewrite (done_at s i w t Ei); exact E1).
  assert (K : all_before (is_done s) i -> all_before (is_done s) (S i)).
  { intros A j Lj. destruct (Nat.eq_dec j i) as [->|]; [exact Di|]. apply A. lia. }
  apply K. destruct (w_base w) as [b|]; [exact (proj1 (T3 b eq_refl))|]. rewrite T1 in E2. destruct (Nat.eqb_spec i 0) as [->|N].
  - intros j Lj. lia.
  - assert (HH : inv s tau sn) by (unfold inv; auto 10). pose proof (IH (i - 1) HH E2) as A. replace (S (i - 1)) with i in A by lia. exact A.
Qed.
Lemma all_ready : forall s tau sn i f, inv s tau sn -> i < f -> i < length (x_ws s) -> all_before (is_done s) (S i) -> ready f s i = true.
Proof.
  intros s tau sn i f H. revert i. induction f as [|f IH]; intros i Lf L A; [lia|]. cbn [ready]. unfold get_w.
  destruct (nth_error (x_ws s) i) as [(w, t)|] eqn:Ei; [|apply nth_error_None in Ei; lia]. cbn [option_map fst].
  destruct (w_committed w); [reflexivity|]. pose proof (A i (Nat.lt_succ_diag_r i)) as Di. rewrite (done_at s i w t Ei) in Di. rewrite Di. cbn [andb].
  destruct (w_base w); [reflexivity|]. destruct H as (H1 & H2 & H3 & H4 & H5 & H6 & H7). pose proof (H6 i w t Ei) as (T1 & _). rewrite T1.
  destruct (Nat.eqb_spec i 0) as [->|N]; [reflexivity|]. apply IH; [lia|lia|]. intros j Lj. apply A. lia.
Qed.

(* A waiting transaction with the world lock. *)
Lemma world_front : forall (s : sys V R) i w t id, nth_error (x_ws s) i = Some (w, t) -> w_waiting w = true -> world_w (reqs i) = true -> all_before (is_done s) i ->
  front (is_done s) (length (x_ws s)) i id.
Proof.
  intros s i w t id E Ew W A. split; [apply nth_error_Some; congruence|]. split; [unfold writes, wr; rewrite W; reflexivity|].
  split; [rewrite (done_at s i w t E), Ew; reflexivity|]. intros j Lj _. exact (A j Lj).
Qed.
Lemma realize_base_spec : forall s tau sn i w t, inv s tau sn -> nth_error (x_ws s) i = Some (w, t) -> w_waiting w = true -> world_w (reqs i) = true ->
  match realize_base s i with
  | Ok s1 => inv s1 tau sn /\ exists w1, keeps s s1 i w1 t /\ w_waiting w1 = true /\ w_base w1 <> None
  | Blocked => ~ all_before (is_done s) i
  | Panic => False
  end.
Proof.
  intros s tau sn i w t H E Ew W. unfold realize_base. rewrite (get_w_at s i w t E).
  destruct (w_base w) as [b|] eqn:Eb.
  { split; [exact H|]. exists w. split; [unfold keeps; auto|]. split; [exact Ew|congruence]. }
  pose proof H as (H1 & H2 & H3 & H4 & H5 & H6 & H7 & H8 & H9). pose proof (H6 i w t E) as T. destruct T as (T1 & T2 & T3 & T4 & T5 & T6).
  rewrite T1. destruct (Nat.eqb_spec i 0) as [Ei|Ni]; [exact (T2 Ei Eb)|].
  rewrite W in T5. destruct T5 as (W1 & W2). rewrite Ew in W2. destruct W2 as (W2 & W3 & W4). destruct (W3 Eb) as (Et & Ek).
  assert (Li : i < length (x_ws s)) by (apply nth_error_Some; congruence).
  destruct (nth_error (x_ws s) (i - 1)) as [(wp, tp)|] eqn:Ep; [|apply nth_error_None in Ep; lia].
  unfold realize. rewrite (get_w_at s _ wp tp Ep).
  assert (Fin : forall s1 wp1, inv s1 tau sn -> x_real s1 = x_real s -> length (x_ws s1) = length (x_ws s) -> (forall j, is_done s1 j = is_done s j) ->
     nth_error (x_ws s1) i = Some (w, t) -> nth_error (x_ws s1) (i - 1) = Some (wp1, tp) -> w_committed wp1 <> None ->
     match get_w s1 (i - 1) with
     | Some wq => inv (set_w s1 i (mkVws (Some (i - 1)) (w_committed wq) (w_committed w) (w_waiting w) (w_accts w) (w_lock w))) tau sn /\
         exists w1, keeps s (set_w s1 i (mkVws (Some (i - 1)) (w_committed wq) (w_committed w) (w_waiting w) (w_accts w) (w_lock w))) i w1 t /\ w_waiting w1 = true /\ w_base w1 <> None
     | None => False
     end).
  { intros s1 wp1 HI R1 R2 R3 R4 R5 R6. rewrite (get_w_at s1 _ wp1 tp R5).
    set (w' := mkVws (Some (i - 1)) (w_committed wp1) (w_committed w) (w_waiting w) (w_accts w) (w_lock w)). split.
    - apply (inv_setw s1 tau sn i w t w' HI R4 eq_refl). pose proof HI as (_ & _ & _ & _ & _ & I6 & _).
      destruct (I6 i w t R4) as (U1 & U2 & U3 & U4 & U5 & U6). pose proof (I6 _ wp1 tp R5) as (_ & _ & _ & P4 & _).
      split; [cbn; rewrite (proj2 (Nat.eqb_neq i 0) Ni); reflexivity|]. split; [intros; contradiction|]. split; [|split; [exact U4|split; [|exact U6]]].
      + intros b Ebb. cbn [w' w_base] in Ebb. destruct (P4 b Ebb) as (P5 & P6). replace (S (i - 1)) with i in P5, P6 by lia. auto.
      + rewrite W in U5 |- *. destruct U5 as (V1 & V2). split; [exact V1|]. cbn [w' w_waiting]. rewrite Ew in V2 |- *. destruct V2 as (V2 & V3 & V4).
        split; [exact V2|]. split; [|exact V4]. intros F. contradiction.
    - exists w'. split; [|split; [exact Ew|exact R6]]. unfold keeps. rewrite setw_real, setw_len. split; [exact R1|]. split; [exact R2|]. split.
      + intros j. rewrite (setw_done s1 i w t w' j R4 eq_refl). apply R3.
      + rewrite (setw_at s1 i w t w' i R4), Nat.eqb_refl. reflexivity. }
  destruct (w_committed wp) as [c|] eqn:Ec.
  { pose proof (Fin s wp H eq_refl eq_refl (fun j => eq_refl) E Ep) as K. rewrite Ec in K. specialize (K ltac:(discriminate)).
    destruct (get_w s (i - 1)); exact K. }
  replace (S (i - 1)) with i by lia. destruct (ready i s (i - 1)) eqn:Er.
  2:{ intros A. rewrite (all_ready s tau sn (i - 1) i H) in Er; [discriminate Er|lia|lia|]. replace (S (i - 1)) with i by lia. exact A. }
  pose proof (ready_all s tau sn _ _ H Er) as A. replace (S (i - 1)) with i in A by lia.
  set (wp' := mkVws (w_parent wp) (w_base wp) (Some (x_real s)) (w_waiting wp) (w_accts wp) (w_lock wp)).
  assert (Ne : i <> i - 1) by lia.
  assert (HI : inv (set_w s (i - 1) wp') tau sn).
  { apply (inv_setw s tau sn (i - 1) wp tp wp' H Ep eq_refl). destruct (H6 _ wp tp Ep) as (P1 & P2 & P3 & P4 & P5 & P6).
    split; [exact P1|]. split; [exact P2|]. split; [exact P3|]. split; [|split; [|exact P6]].
    - intros c' E'. cbn [wp' w_committed] in E'. injection E' as <-. replace (S (i - 1)) with i by lia. split; [exact A|]. intros id.
      rewrite (H7 i id (world_front s i w t id E Ew W A)), Et. reflexivity.
    - destruct (world_w (reqs (i - 1))) eqn:Wp; [|exact P5]. destruct P5 as (Q1 & Q2). split; [exact Q1|]. cbn [wp' w_waiting].
      destruct (w_waiting wp); [exact Q2|]. destruct Q2 as (Q2 & Q3 & Q4). split; [exact Q2|]. split; [exact Q3|]. discriminate. }
  pose proof (Fin (set_w s (i - 1) wp') wp' HI (setw_real _ _ _) (setw_len _ _ _) (fun j => setw_done s (i - 1) wp tp wp' j Ep eq_refl)) as K.
  rewrite (setw_at s (i - 1) wp tp wp' i Ep), (proj2 (Nat.eqb_neq i (i - 1)) Ne) in K.
  rewrite (setw_at s (i - 1) wp tp wp' (i - 1) Ep), Nat.eqb_refl in K. specialize (K E eq_refl ltac:(discriminate)).
  destruct (get_w (set_w s (i - 1) wp') (i - 1)); exact K.
Qed.

Lemma dep_prior : forall s tau sn i id d, inv s tau sn -> lastw i id = Some d -> is_done s d = true -> prior_done (is_done s) i id.
Proof.
  intros s tau sn i id d (_ & _ & _ & _ & _ & _ & _ & _ & H9) Ld Dd j Lj Wj. destruct (lastw_some _ _ _ Ld) as (A & B & C).
  destruct (lt_eq_lt_dec j d) as [[L| ->]|L]; [exact (H9 d id Dd B j L Wj)|exact Dd|]. rewrite (C j (conj L Lj)) in Wj. discriminate Wj.
Qed.
Lemma wait_front : forall (s : sys V R) i w t id, nth_error (x_ws s) i = Some (w, t) -> w_waiting w = true -> writes i id = true -> prior_done (is_done s) i id ->
  front (is_done s) (length (x_ws s)) i id.
Proof.
  intros s i w t id E Ew W P. split; [apply nth_error_Some; congruence|]. split; [exact W|]. split; [rewrite (done_at s i w t E), Ew; reflexivity|exact P].
Qed.
Lemma acct_writes : forall i id, world_w (reqs i) = false -> writes i id = acct_w (reqs i) id.
Proof. intros i id W. unfold writes, wr. rewrite W. reflexivity. Qed.

Lemma get_account_spec : forall s tau sn i w t id, inv s tau sn -> nth_error (x_ws s) i = Some (w, t) -> w_waiting w = true -> may_read (reqs i) id ->
  match get_account (S i) s i id with
  | Ok (s1, st) => inv s1 tau sn /\ value s1 st id = tau i id /\ (may_write (reqs i) id -> st = Live /\ front (is_done s) (length (x_ws s)) i id) /\
      exists w1, keeps s s1 i w1 t /\ w_waiting w1 = true /\
        (if world_w (reqs i) then w_base w1 <> None else exists a, assoc id (w_accts w1) = Some a /\ l_dep a = None)
  | Blocked => ~ all_before (is_done s) i
  | Panic => False
  end.
Proof.
  intros s tau sn i w t id H E Ew MR. cbn [get_account]. rewrite (get_w_at s i w t E).
  pose proof H as (H1 & H2 & H3 & H4 & H5 & H6 & H7 & H8 & H9). pose proof (H6 i w t E) as (T1 & T2 & T3 & T4 & T5 & T6).
  assert (Li : i < length (x_ws s)) by (apply nth_error_Some; congruence).
  destruct (world_w (reqs i)) eqn:W.
  - (* the world lock *)
    destruct T5 as (A1 & A2). rewrite Ew in A2. destruct A2 as (A2 & A3 & A4). rewrite A1, A2. cbn [assoc].
    pose proof (realize_base_spec s tau sn i w t H E Ew W) as K. destruct (realize_base s i) as [s1| |]; [|exact K|exact K].
    destruct K as (HI & w1 & (K1 & K2 & K3 & K4) & K5 & K6). rewrite (get_w_at s1 i w1 t K4).
    pose proof HI as (_ & _ & _ & _ & _ & I6 & I7 & _). pose proof (I6 i w1 t K4) as (U1 & U2 & U3 & U4 & U5 & U6).
    destruct (w_base w1) as [b|] eqn:Eb; [|contradiction]. destruct (U3 b eq_refl) as (Ab & _).
    destruct (w_committed w1) as [c|] eqn:Ec.
    + exfalso. destruct (U4 c eq_refl) as (Ac & _). pose proof (Ac i (Nat.lt_succ_diag_r i)) as Di.
      rewrite (done_at s1 i w1 t K4), K5 in Di. discriminate Di.
    + rewrite W in U5. destruct U5 as (_ & U5). rewrite K5 in U5. destruct U5 as (U5 & _). rewrite U5.
      pose proof (world_front s1 i w1 t id K4 K5 W Ab) as F.
      split; [exact HI|]. split; [cbn [value]; exact (I7 i id F)|]. split.
      * intros _. split; [reflexivity|]. apply (world_front s i w t id E Ew W). intros j Lj. rewrite <- K3. exact (Ab j Lj).
      * exists w1. split; [unfold keeps; auto|]. split; [exact K5|]. rewrite Eb. discriminate.
  - (* account locks *)
    destruct T5 as (A1 & A2 & A3 & A4). rewrite Ew in A4. destruct A4 as (A4 & A5).
    destruct (assoc id (w_accts w)) as [a|] eqn:Ea.
    2:{ exfalso. apply A3 in Ea. destruct (good i ltac:(lia)) as (G & _). rewrite (any_spec (reqs i) id G MR W) in Ea. discriminate Ea. }
    destruct (A4 id a Ea) as (L1 & L2). destruct (l_dep a) as [d|] eqn:Ed.
    + destruct L2 as (L2 & L3 & L4 & L5). destruct (lastw_some _ _ _ L2) as (Ld & Wd & _). destruct (is_done s d) eqn:Dd; cbn [negb].
      2:{ intros A. rewrite (A d Ld) in Dd. discriminate Dd. }
      pose proof (dep_prior s tau sn i id d H L2 Dd) as P.
      set (fin := fun st : acc V => set_w s i (mkVws (w_parent w) (w_base w) (w_committed w) (w_waiting w)
                              (replace id (mkLas (l_lock a) (Some st) (Some (value s st id)) None) (w_accts w)) (w_lock w))).
      assert (Fin : forall st, value s st id = sig i id -> (if acct_w (reqs i) id then st = Live else st = Frozen (sig i id)) ->
        inv (fin st) tau sn /\ value (fin st) st id = tau i id /\ (may_write (reqs i) id -> st = Live /\ front (is_done s) (length (x_ws s)) i id) /\
        exists w1, keeps s (fin st) i w1 t /\ w_waiting w1 = true /\ exists a, assoc id (w_accts w1) = Some a /\ l_dep a = None).
      { intros st Hv Hst. set (a' := mkLas (l_lock a) (Some st) (Some (value s st id)) None).
        set (w1 := mkVws (w_parent w) (w_base w) (w_committed w) (w_waiting w) (replace id a' (w_accts w)) (w_lock w)).
        assert (Ea' : assoc id (w_accts w) <> None) by congruence. split; [|split; [|split]].
        - apply (inv_setw s tau sn i w t w1 H E eq_refl). split; [exact T1|]. split; [exact T2|]. split; [exact T3|]. split; [exact T4|]. split; [|exact T6].
          rewrite W. split; [exact A1|]. split; [cbn [w1 w_accts]; rewrite keys_replace; exact A2|]. split.
          + intros k. cbn [w1 w_accts]. rewrite assoc_replace by exact Ea'. destruct (Nat.eqb_spec k id) as [->|N]; [|apply A3].
            split; [discriminate|]. intros F. apply A3 in F. congruence.
          + cbn [w1 w_waiting w_accts]. rewrite Ew. split; [|exact A5]. intros k x Ex. rewrite assoc_replace in Ex by exact Ea'.
            destruct (Nat.eqb_spec k id) as [->|N]; [|exact (A4 k x Ex)]. injection Ex as <-. split; [exact L1|]. cbn [a' l_dep l_state l_base].
            destruct (acct_w (reqs i) id); rewrite Hst in *; [|reflexivity]. split; [exact P|]. split; [reflexivity|exact Hv].
        - unfold fin. destruct st as [|v]; cbn [value]; [rewrite setw_real; cbn [value] in Hv; rewrite Hv; symmetry; exact L4|cbn [value] in Hv; rewrite Hv; symmetry; exact L4].
        - intros MW. apply wr_spec in MW. change (writes i id = true) in MW. split.
          + rewrite (acct_writes i id W) in MW. rewrite MW in Hst. exact Hst.
          + exact (wait_front s i w t id E Ew MW P).
        - exists w1. split.
          + unfold keeps, fin. rewrite setw_real, setw_len. split; [reflexivity|]. split; [reflexivity|]. split.
            * intros j. exact (setw_done s i w t w1 j E eq_refl).
            * pose proof (setw_at s i w t w1 i E) as X. rewrite Nat.eqb_refl in X. exact X.
          + split; [exact Ew|]. exists a'. cbn [w1 w_accts]. rewrite assoc_replace, Nat.eqb_refl by exact Ea'. split; reflexivity. }
      unfold fin in Fin. rewrite L1 in Fin |- *. destruct (acct_w (reqs i) id) eqn:AW.
      * apply Fin; [|reflexivity]. cbn [value]. rewrite <- L4. apply H7. apply (wait_front s i w t id E Ew); [|exact P]. rewrite (acct_writes i id W). exact AW.
      * destruct i as [|f]; [lia|]. rewrite (peek s tau sn d id f H Dd Wd). cbn [value].
        apply (Fin (Frozen (sig (S d) id))); cbn [value]; rewrite (sig_lastw (S f) id d L2); reflexivity.
    + assert (KW : keeps s s i w t) by (unfold keeps; auto).
      destruct (acct_w (reqs i) id) eqn:AW.
      * destruct L2 as (P & Ls & Lb). rewrite Ls. pose proof (wait_front s i w t id E Ew) as F. rewrite (acct_writes i id W) in F. specialize (F AW P).
        split; [exact H|]. split; [exact (H7 i id F)|]. split; [auto|]. exists w. split; [exact KW|]. split; [exact Ew|]. exists a. auto.
      * rewrite L2. assert (NW : writes i id = false) by (rewrite (acct_writes i id W); exact AW).
        split; [exact H|]. split; [|split].
        -- cbn [value]. unfold thread_ok in T6. rewrite Ew in T6. destruct T6 as (_ & _ & _ & _ & _ & T6). exact (eq_sym (proj1 (T6 id NW))).
        -- intros MW. apply wr_spec in MW. unfold writes in NW. congruence.
        -- exists w. split; [exact KW|]. split; [exact Ew|]. exists a. auto.
Qed.

(* ---- committing ---- *)
Lemma acct_w_any : forall i id, acct_w (reqs i) id = true -> acct_any (reqs i) id = true.
Proof.
  intros i id A. unfold acct_w in A. apply existsb_exists in A. destruct A as ((o, k) & Hin & E). destruct o as [x|]; [|discriminate E].
  destruct k; try discriminate E. unfold acct_any. apply existsb_exists. exists (Some x, WLock). split; [apply in_or_app; auto|exact E].
Qed.
Lemma not_yet : forall s tau sn i j wj tj id, inv s tau sn -> nth_error (x_ws s) j = Some (wj, tj) -> w_waiting wj = true -> writes j id = true ->
  i < j -> writes i id = true -> is_done s i = false -> tau j id = sig j id.
Proof.
  intros s tau sn i j wj tj id (_ & _ & _ & _ & _ & H6 & _) Ej Ew Wj L Wi Di. pose proof (H6 j wj tj Ej) as (_ & _ & T3 & _ & T5 & _).
  destruct (world_w (reqs j)) eqn:W.
  - destruct T5 as (_ & T5). rewrite Ew in T5. destruct T5 as (_ & T5 & _). destruct (w_base wj) as [b|].
    + destruct (T3 b eq_refl) as (A & _). rewrite (A i L) in Di. discriminate Di.
    + destruct (T5 eq_refl) as (-> & _). reflexivity.
  - destruct T5 as (_ & _ & T5 & T6). rewrite Ew in T6. destruct T6 as (T6 & _). rewrite (acct_writes j id W) in Wj.
    destruct (assoc id (w_accts wj)) as [a|] eqn:Ea.
    + destruct (T6 id a Ea) as (_ & L2). destruct (l_dep a) as [d|]; [exact (proj1 (proj2 (proj2 L2)))|]. rewrite Wj in L2. destruct L2 as (P & _).
      rewrite (P i L Wi) in Di. discriminate Di.
    + apply T5 in Ea. rewrite (acct_w_any j id Wj) in Ea. discriminate Ea.
Qed.

Lemma inv_commit : forall s tau sn i w t w' t',
  inv s tau sn -> nth_error (x_ws s) i = Some (w, t) -> w_waiting w = true -> w_waiting w' = false ->
  (forall D, (forall j, is_done s j = true -> D j = true) -> D i = true -> txinv D i w' t' (tau i) (sn i)) ->
  (forall id, writes i id = true -> prior_done (is_done s) i id) ->
  (forall id, writes i id = true -> tau i id = sig (S i) id) ->
  inv (mkSys (x_real s) (x_lockers s) (x_wlocker s) (x_ro s) (set_nth i (w', t') (x_ws s)) (x_todo s) (x_err s)) tau sn.
Proof.
  intros s tau sn i w t w' t' H E Ew Ew' T P Ht. pose proof H as (H1 & H2 & H3 & H4 & H5 & H6 & H7 & H8 & H9).
  set (s' := mkSys (x_real s) (x_lockers s) (x_wlocker s) (x_ro s) (set_nth i (w', t') (x_ws s)) (x_todo s) (x_err s)).
  assert (Li : i < length (x_ws s)) by (apply nth_error_Some; congruence).
  assert (HD : forall j, is_done s' j = if Nat.eqb j i then true else is_done s j).
  { intros j. unfold is_done, get_w, s'. cbn [x_ws]. rewrite (set_nth_get _ i _ _ j Li). destruct (Nat.eqb j i); [cbn; rewrite Ew'; reflexivity|reflexivity]. }
  assert (Di : is_done s i = false) by (rewrite (done_at s i w t E), Ew; reflexivity).
  assert (Mo : forall j, is_done s j = true -> is_done s' j = true) by (intros j Dj; rewrite HD, Dj; destruct (Nat.eqb j i); reflexivity).
  assert (HL : length (x_ws s') = length (x_ws s)) by (unfold s'; cbn; apply set_nth_len).
  assert (Gap : forall n id, prior_done (is_done s') n id -> writes i id = true -> forall k, i < k < n -> writes k id = false).
  { intros n id Pn Wi k (L1 & L2). destruct (writes k id) eqn:Wk; [|reflexivity]. pose proof (Pn k L2 Wk) as Dk. rewrite HD in Dk.
    rewrite (proj2 (Nat.eqb_neq k i)) in Dk by lia. rewrite (H9 k id Dk Wk i L1 Wi) in Di. discriminate Di. }
  assert (Back : forall n id, prior_done (is_done s') n id -> i < n /\ writes i id = true \/ prior_done (is_done s) n id).
  { intros n id Pn. destruct (lt_dec i n) as [L|L]; [destruct (writes i id) eqn:Wi; [auto|]|]; right; intros k Lk Wk; pose proof (Pn k Lk Wk) as Dk; rewrite HD in Dk;
      destruct (Nat.eqb_spec k i) as [->|N]; try exact Dk; [congruence|contradiction]. }
  unfold inv. rewrite HL. split; [exact H1|]. split; [exact H2|]. split; [exact H3|]. split; [exact H4|]. split; [exact H5|]. split; [|split; [|split]].
  - intros j wj tj Ej. unfold s' in Ej. cbn [x_ws] in Ej. rewrite (set_nth_get _ i _ _ j Li) in Ej. destruct (Nat.eqb_spec j i) as [->|N].
    + injection Ej as <- <-. apply T; [exact Mo|]. rewrite HD, Nat.eqb_refl. reflexivity.
    + exact (txinv_mono _ _ _ _ _ _ _ Mo (H6 j wj tj Ej)).
  - intros j id (F1 & F2 & F3 & F4). cbn [s' x_real]. rewrite HD in F3. destruct (Nat.eqb_spec j i) as [->|N]; [discriminate F3|].
    destruct (Back j id F4) as [(L & Wi)|B].
    + rewrite (H7 i id (wait_front s i w t id E Ew Wi (P id Wi))), (Ht id Wi).
      destruct (nth_error (x_ws s) j) as [(wj, tj)|] eqn:Ej; [|apply nth_error_None in Ej; lia].
      rewrite (done_at s j wj tj Ej) in F3. rewrite (not_yet s tau sn i j wj tj id H Ej); [|destruct (w_waiting wj); [reflexivity|discriminate F3]|exact F2|exact L|exact Wi|exact Di].
      symmetry. apply sig_frame; [lia|]. intros k Hk. apply (Gap j id F4 Wi). lia.
    + apply H7. split; [exact F1|]. split; [exact F2|]. split; [exact F3|exact B].
  - intros id Pn. cbn [s' x_real]. destruct (Back _ id Pn) as [(L & Wi)|B]; [|exact (H8 id B)].
    rewrite (H7 i id (wait_front s i w t id E Ew Wi (P id Wi))), (Ht id Wi). symmetry. apply sig_frame; [lia|]. intros k Hk. apply (Gap _ id Pn Wi). lia.
  - intros j id Dj Wj k Lk Wk. apply Mo. rewrite HD in Dj. destruct (Nat.eqb_spec j i) as [->|N]; [exact (P id Wj k Lk Wk)|exact (H9 j id Dj Wj k Lk Wk)].
Qed.

Lemma commit_accts_spec : forall s tau sn i w t l, inv s tau sn -> nth_error (x_ws s) i = Some (w, t) -> w_waiting w = true -> world_w (reqs i) = false ->
  (forall id a, In (id, a) l -> las_ok (is_done s) i id (t_snaps t) (tau i) a) ->
  match commit_accts i s l with
  | Ok (s1, l2) => s1 = s /\ map fst l2 = map fst l /\
      forall id a, assoc id l = Some a -> acct_w (reqs i) id = true ->
        prior_done (is_done s) i id /\ exists a', assoc id l2 = Some a' /\ l_dep a' = None /\ l_state a' = Some (Frozen (tau i id))
  | Blocked => ~ all_before (is_done s) i
  | Panic => False
  end.
Proof.
  intros s tau sn i w t l H E Ew W. pose proof H as (H1 & H2 & H3 & H4 & H5 & H6 & H7 & H8 & H9).
  induction l as [|(id, a) l IH]; intros HL; cbn [commit_accts].
  { split; [reflexivity|]. split; [reflexivity|]. intros id a F. discriminate F. }
  assert (HL' : forall k x, In (k, x) l -> las_ok (is_done s) i k (t_snaps t) (tau i) x) by (intros k x Hx; apply HL; right; exact Hx).
  specialize (IH HL'). destruct (HL id a (or_introl eq_refl)) as (L1 & L2).
  assert (Fin : forall a1, (acct_w (reqs i) id = true -> prior_done (is_done s) i id /\ l_dep a1 = None /\ l_state a1 = Some (Frozen (tau i id))) ->
    match match commit_accts i s l with Ok (s2, l2) => Ok (s2, (id, a1) :: l2) | Blocked => Blocked | Panic => Panic end with
    | Ok (s1, l2) => s1 = s /\ map fst l2 = map fst ((id, a) :: l) /\
      forall id0 a0, assoc id0 ((id, a) :: l) = Some a0 -> acct_w (reqs i) id0 = true ->
        prior_done (is_done s) i id0 /\ exists a', assoc id0 l2 = Some a' /\ l_dep a' = None /\ l_state a' = Some (Frozen (tau i id0))
    | Blocked => ~ all_before (is_done s) i
    | Panic => False
    end).
  { intros a1 Ha. destruct (commit_accts i s l) as [(s2, l2)| |]; [|exact IH|exact IH]. destruct IH as (-> & I2 & I3).
    split; [reflexivity|]. split; [cbn; congruence|]. intros k x Ek Ak. cbn [assoc] in Ek |- *. destruct (Nat.eqb_spec id k) as [->|N]; [|exact (I3 k x Ek Ak)].
    destruct (Ha Ak) as (X1 & X2 & X3). split; [exact X1|]. exists a1. auto. }
  rewrite L1. destruct (acct_w (reqs i) id) eqn:AW; [|apply Fin; congruence].
  assert (Wi : writes i id = true) by (rewrite (acct_writes i id W); exact AW).
  destruct (l_dep a) as [d|].
  - destruct L2 as (L2 & L3 & L4 & L5). destruct (lastw_some _ _ _ L2) as (Ld & Wd & _). destruct (is_done s d) eqn:Dd; cbn [negb].
    2:{ intros A. rewrite (A d Ld) in Dd. discriminate Dd. }
    pose proof (dep_prior s tau sn i id d H L2 Dd) as P. destruct i as [|f]; [lia|]. rewrite (peek s tau sn d id f H Dd Wd). cbn [value].
    apply Fin. intros _. split; [exact P|]. split; [reflexivity|]. cbn [l_state]. rewrite L4, (sig_lastw (S f) id d L2). reflexivity.
  - destruct L2 as (P & Ls & Lb). rewrite Ls. apply Fin. intros _. split; [exact P|]. split; [reflexivity|]. cbn [l_state value].
    rewrite (H7 i id (wait_front s i w t id E Ew Wi P)). reflexivity.
Qed.

(* ---- snapshots ---- *)
Lemma snap_accts_spec : forall (s : sys V R) l id, NoDup (map fst l) ->
  assoc id (snap_accts s l) = match assoc id l with
                              | Some a => match l_lock a, l_state a with WLock, Some st => Some (value s st id) | _, _ => None end
                              | None => None end.
Proof.
  intros s l id. induction l as [|(k, a) l IH]; intros ND; [reflexivity|]. cbn [map fst] in ND. inversion ND as [|? ? N1 N2]. subst.
  unfold snap_accts. cbn [flat_map fst snd]. fold (snap_accts s l). rewrite assoc_app. cbn [assoc]. rewrite IH by exact N2.
  destruct (Nat.eqb_spec k id) as [->|N].
  - assert (En : assoc id l = None) by (apply assoc_none; exact N1). rewrite En.
    destruct (l_lock a), (l_state a); cbn [assoc]; rewrite ?Nat.eqb_refl; reflexivity.
  - destruct (l_lock a), (l_state a); cbn [assoc]; rewrite ?(proj2 (Nat.eqb_neq k id) N); reflexivity.
Qed.
Lemma forall2_app1 : forall (A B : Type) (P : A -> B -> Prop) l l' a b, Forall2 P l l' -> P a b -> Forall2 P (l ++ [a]) (l' ++ [b]).
Proof. intros A B P l l' a b H Hp. apply Forall2_app; [exact H|]. constructor; [exact Hp|constructor]. Qed.
Lemma forall2_nth : forall (A B : Type) (P : A -> B -> Prop) l l' h a, Forall2 P l l' -> nth_error l h = Some a -> exists b, nth_error l' h = Some b /\ P a b.
Proof.
  intros A B P l l' h a H. revert h. induction H as [|x y l l' Hxy _ IH]; intros h E; [destruct h; discriminate E|]. destruct h as [|h]; cbn in *.
  - injection E as <-. eauto.
  - exact (IH h E).
Qed.

Definition unsafe (i : nat) : Prop :=
  rolls_back (body i) (sig i) [sig i] /\ world_w (reqs i) = false /\ exists id, acct_w (reqs i) id = true /\ is_empty (sig i id) = true.

Lemma reset_accts_spec : forall D i snaps tau snp w l real, In snp snaps -> snap_ok i snp w -> NoDup (map fst l) ->
  (forall id a, assoc id l = Some a -> las_ok D i id snaps tau a) ->
  match reset_accts is_empty snp l real with
  | Ok r => forall id, r id = match assoc id l with
                              | Some a => if acct_w (reqs i) id then match l_dep a with None => w id | Some _ => real id end else real id
                              | None => real id end
  | Blocked => False
  | Panic => exists id, acct_w (reqs i) id = true /\ is_empty (sig i id) = true
  end.
Proof.
  intros D i snaps tau snp w l. induction l as [|(id, a) l IH]; intros real Hin SO ND HL; cbn [reset_accts]; [reflexivity|].
  cbn [map fst] in ND. inversion ND as [|? ? N1 N2]. subst. assert (En : assoc id l = None) by (apply assoc_none; exact N1).
  assert (HL' : forall k x, assoc k l = Some x -> las_ok D i k snaps tau x).
  { intros k x Ek. apply HL. cbn [assoc]. destruct (Nat.eqb_spec id k) as [->|N]; [congruence|exact Ek]. }
  pose proof (HL id a) as La. cbn [assoc] in La. rewrite Nat.eqb_refl in La. destruct (La eq_refl) as (L1 & L2). rewrite L1.
  assert (Fin : forall real', (forall k, k <> id -> real' k = real k) ->
     (real' id = if acct_w (reqs i) id then match l_dep a with None => w id | Some _ => real id end else real id) ->
     match reset_accts is_empty snp l real' with
     | Ok r => forall id0, r id0 = match assoc id0 ((id, a) :: l) with
                              | Some a => if acct_w (reqs i) id0 then match l_dep a with None => w id0 | Some _ => real id0 end else real id0
                              | None => real id0 end
     | Blocked => False
     | Panic => exists id, acct_w (reqs i) id = true /\ is_empty (sig i id) = true
     end).
  { intros real' Ho Hi. specialize (IH real' Hin SO N2 HL'). destruct (reset_accts is_empty snp l real') as [r| |]; [|exact IH|exact IH].
    intros k. rewrite IH. cbn [assoc]. destruct (Nat.eqb_spec id k) as [->|N]; [rewrite En; exact Hi|].
    destruct (assoc k l) as [x|]; rewrite ?Ho by auto; reflexivity. }
  assert (U : forall v k, k <> id -> upd real id v k = real k) by (intros v k N; unfold upd; rewrite (proj2 (Nat.eqb_neq k id) N); reflexivity).
  assert (U' : forall v, upd real id v id = v) by (intros v; unfold upd; rewrite Nat.eqb_refl; reflexivity).
  destruct SO as (S1 & S2 & S3). destruct (acct_w (reqs i) id) eqn:AW; [|apply Fin; reflexivity].
  destruct (l_dep a) as [d|].
  - destruct L2 as (_ & -> & _ & L5). rewrite (L5 snp Hin). apply Fin; reflexivity.
  - destruct L2 as (P & -> & Lb). destruct (assoc id (s_accts snp)) as [v|] eqn:Es.
    + apply Fin; [apply U|]. rewrite U'. exact (S1 id v Es).
    + destruct (s_base snp) as [b|] eqn:Eb.
      * destruct (is_empty (b id)) eqn:Em.
        -- exists id. split; [exact AW|]. rewrite <- (S2 b eq_refl id). exact Em.
        -- apply Fin; [apply U|]. rewrite U'. rewrite (S2 b eq_refl id). symmetry. exact (S3 id Es).
      * destruct (l_base a) as [v|]; [|destruct (Lb snp Hin Es)]. apply Fin; [apply U|]. rewrite U', Lb. symmetry. exact (S3 id Es).
Qed.

(* ---- one step of a transaction ---- *)
Lemma sett_form : forall (s : sys V R) i w t t', nth_error (x_ws s) i = Some (w, t) ->
  set_t s i t' = mkSys (x_real s) (x_lockers s) (x_wlocker s) (x_ro s) (set_nth i (w, t') (x_ws s)) (x_todo s) (x_err s).
Proof. intros s i w t t' E. unfold set_t. rewrite E. reflexivity. Qed.

Lemma run_spec : forall s tau sn i, inv s tau sn -> i < length (x_ws s) ->
  match run is_empty s i with
  | Ok s' => exists tau' sn', inv s' tau' sn'
  | Blocked => is_done s i = true \/ ~ all_before (is_done s) i
  | Panic => unsafe i
  end.
Proof.
  intros s tau sn i H Li. unfold run. destruct (nth_error (x_ws s) i) as [(w, t)|] eqn:E; [|apply nth_error_None in E; lia].
  pose proof H as (H1 & H2 & H3 & H4 & H5 & H6 & H7 & H8 & H9). pose proof (H6 i w t E) as (T1 & T2 & T3 & T4 & T5 & T6).
  destruct (w_waiting w) eqn:Ew.
  2:{ unfold thread_ok in T6. rewrite T6. left. rewrite (done_at s i w t E), Ew. reflexivity. }
  unfold thread_ok in T6. destruct T6 as (O1 & O2 & O3 & O4 & O5 & O6). rewrite O1.
  destruct (t_prog t) as [id k|id v k|k|h k|r] eqn:Ep.
  - (* Get *)
    cbn [asks] in O3. destruct O3 as (MR & O3). pose proof (get_account_spec s tau sn i w t id H E Ew MR) as K.
    destruct (get_account (S i) s i id) as [(s1, st)| |]; [|right; exact K|destruct K].
    destruct K as (HI & Hv & _ & w1 & (K1 & K2 & K3 & K4) & K5 & K6). exists (put i (tau i) tau), (put i (sn i) sn).
    rewrite (sett_form s1 i w1 t _ K4). pose proof HI as (_ & _ & _ & _ & _ & I6 & I7 & _). pose proof (I6 i w1 t K4) as (U1 & U2 & U3 & U4 & U5 & U6).
    apply (inv_set s1 tau sn i w1 t w1 _ (x_real s1) (tau i) (sn i) HI K4 eq_refl); [|intros id' F; exact (I7 i id' F)|reflexivity].
    split; [exact U1|]. split; [exact U2|]. split; [exact U3|]. split; [exact U4|]. split.
    + destruct (world_w (reqs i)); [|exact U5]. destruct U5 as (X1 & X2). split; [exact X1|]. rewrite K5 in X2 |- *. destruct X2 as (X2 & X3 & X4).
      split; [exact X2|]. split; [intros F; contradiction|exact X4].
    + rewrite K5. unfold thread_ok. cbn [t_out t_prog t_snaps]. rewrite Hv. cbn [alone rolls_back] in O2, O4.
      split; [reflexivity|]. split; [exact O2|]. split; [exact O3|]. split; [exact O4|]. split; [exact O5|exact O6].
  - (* Put *)
    cbn [asks] in O3. destruct O3 as (MW & O3). pose proof (get_account_spec s tau sn i w t id H E Ew (or_introl MW)) as K.
    destruct (get_account (S i) s i id) as [(s1, st)| |]; [|right; exact K|destruct K].
    destruct K as (HI & Hv & Hl & w1 & (K1 & K2 & K3 & K4) & K5 & K6). destruct (Hl MW) as (-> & Fr).
    exists (put i (fun x => if Nat.eqb x id then v else tau i x) tau), (put i (sn i) sn).
    unfold set_t, set_real. cbn [x_ws x_real x_lockers x_wlocker x_ro x_todo x_err]. rewrite K4.
    pose proof HI as (_ & _ & _ & _ & _ & I6 & I7 & _). pose proof (I6 i w1 t K4) as (U1 & U2 & U3 & U4 & U5 & U6).
    assert (Fr1 : front (is_done s1) (length (x_ws s1)) i id).
    { destruct Fr as (F1 & F2 & F3 & F4). rewrite K2. split; [exact F1|]. split; [exact F2|]. split; [rewrite K3; exact F3|]. intros j Lj Wj. rewrite K3. exact (F4 j Lj Wj). }
    apply (inv_set s1 tau sn i w1 t w1 _ (upd (x_real s1) id v) (fun x => if Nat.eqb x id then v else tau i x) (sn i) HI K4 eq_refl).
    + split; [exact U1|]. split; [exact U2|]. split; [exact U3|]. split; [exact U4|]. split.
      * destruct (world_w (reqs i)) eqn:W.
        -- destruct U5 as (X1 & X2). split; [exact X1|]. rewrite K5 in X2 |- *. destruct X2 as (X2 & X3 & X4).
           split; [exact X2|]. split; [intros F; contradiction|exact X4].
        -- destruct U5 as (X1 & X2 & X3 & X4). split; [exact X1|]. split; [exact X2|]. split; [exact X3|]. rewrite K5 in X4 |- *. destruct X4 as (X4 & X5).
           cbn [t_snaps]. split; [|exact X5]. intros k0 a0 E0. destruct (X4 k0 a0 E0) as (Y1 & Y2). split; [exact Y1|].
           destruct (Nat.eqb_spec k0 id) as [->|N].
           ++ destruct K6 as (a & Ea & Ed). assert (a0 = a) by congruence. subst a0. rewrite Ed in Y2 |- *. exact Y2.
           ++ destruct (l_dep a0); [|exact Y2]. exact Y2.
      * rewrite K5. unfold thread_ok. cbn [t_out t_prog t_snaps]. cbn [alone rolls_back] in O2, O4.
        split; [reflexivity|]. split; [exact O2|]. split; [exact O3|]. split; [exact O4|]. split; [exact O5|].
        intros k0 NW. destruct (Nat.eqb_spec k0 id) as [->|N]; [|exact (O6 k0 NW)]. apply wr_spec in MW. unfold writes in NW. congruence.
    + intros k0 F0. unfold upd. destruct (Nat.eqb k0 id); [reflexivity|]. exact (I7 i k0 F0).
    + intros k0 F0. unfold upd. destruct (Nat.eqb_spec k0 id) as [->|N]; [contradiction|reflexivity].
  - (* Snap *)
    cbn [asks alone rolls_back] in O2, O3, O4. unfold get_snapshot. rewrite (get_w_at s i w t E).
    assert (Ec : w_committed w = None).
    { destruct (w_committed w) as [c|]; [|reflexivity]. destruct (T4 c eq_refl) as (A & _). pose proof (A i (Nat.lt_succ_diag_r i)) as Di.
      rewrite (done_at s i w t E), Ew in Di. discriminate Di. }
    rewrite Ec.
    assert (TO : forall snp, thread_ok i true (mkThread (k (length (t_snaps t))) (t_snaps t ++ [snp]) None) (tau i) (sn i ++ [tau i])).
    { intros snp. unfold thread_ok. cbn [t_out t_prog t_snaps]. rewrite O5. split; [reflexivity|]. split; [exact O2|]. split; [exact O3|]. split; [exact O4|].
      split; [rewrite !app_length, O5; reflexivity|]. intros id NW. destruct (O6 id NW) as (X1 & X2). split; [exact X1|].
      intros x Hx. apply in_app_or in Hx. destruct Hx as [Hx|[<-|[]]]; [exact (X2 x Hx)|exact X1]. }
    destruct (world_w (reqs i)) eqn:W.
    + destruct T5 as (X1 & X2). rewrite Ew in X2. destruct X2 as (X2 & X3 & X4). rewrite X2.
      pose proof (realize_base_spec s tau sn i w t H E Ew W) as K. destruct (realize_base s i) as [s1| |]; [|right; exact K|destruct K].
      destruct K as (HI & w1 & (K1 & K2 & K3 & K4) & K5 & K6). exists (put i (tau i) tau), (put i (sn i ++ [tau i]) sn).
      rewrite (sett_form s1 i w1 t _ K4). pose proof HI as (_ & _ & _ & _ & _ & I6 & I7 & _). pose proof (I6 i w1 t K4) as (U1 & U2 & U3 & U4 & U5 & U6).
      apply (inv_set s1 tau sn i w1 t w1 _ (x_real s1) (tau i) (sn i ++ [tau i]) HI K4 eq_refl); [|intros id' F; exact (I7 i id' F)|reflexivity].
      split; [exact U1|]. split; [exact U2|]. split; [exact U3|]. split; [exact U4|]. split.
      * rewrite W in U5 |- *. destruct U5 as (Y1 & Y2). split; [exact Y1|]. rewrite K5 in Y2 |- *. destruct Y2 as (Y2 & Y3 & Y4). split; [exact Y2|].
        split; [intros F; contradiction|]. cbn [t_snaps]. apply forall2_app1; [exact Y4|]. exists (x_real s1). split; [reflexivity|]. intros id.
        destruct (w_base w1) as [b|] eqn:Eb; [|contradiction]. destruct (U3 b eq_refl) as (Ab & _). exact (I7 i id (world_front s1 i w1 t id K4 K5 W Ab)).
      * rewrite K5. apply TO.
    + destruct T5 as (X1 & X2 & X3 & X4). rewrite Ew in X4. destruct X4 as (X4 & X5). rewrite X1.
      exists (put i (tau i) tau), (put i (sn i ++ [tau i]) sn). rewrite (sett_form s i w t _ E).
      apply (inv_set s tau sn i w t w _ (x_real s) (tau i) (sn i ++ [tau i]) H E eq_refl); [|intros id' F; exact (H7 i id' F)|reflexivity].
      assert (HS : forall id, assoc id (snap_accts s (w_accts w)) = match assoc id (w_accts w) with
           | Some a => if acct_w (reqs i) id then match l_dep a with None => Some (tau i id) | Some _ => None end else None | None => None end).
      { intros id. rewrite (snap_accts_spec s (w_accts w) id X2). destruct (assoc id (w_accts w)) as [a|] eqn:Ea; [|reflexivity].
        destruct (X4 id a Ea) as (L1 & L2). rewrite L1. destruct (acct_w (reqs i) id) eqn:AW; [|reflexivity].
        destruct (l_dep a) as [d|]; [destruct L2 as (_ & -> & _); reflexivity|]. destruct L2 as (P & -> & _). cbn [value].
        rewrite (H7 i id); [reflexivity|]. apply (wait_front s i w t id E Ew); [|exact P]. rewrite (acct_writes i id W). exact AW. }
      split; [exact T1|]. split; [exact T2|]. split; [exact T3|]. split; [exact T4|]. split; [|rewrite Ew; apply TO].
      rewrite W. split; [exact X1|]. split; [exact X2|]. split; [exact X3|]. rewrite Ew. cbn [t_snaps]. split.
      * intros id a Ea. destruct (X4 id a Ea) as (L1 & L2). split; [exact L1|]. pose proof (HS id) as Hid. rewrite Ea in Hid. destruct (l_dep a) as [d|].
        -- destruct L2 as (L2 & L3 & L4 & L5). split; [exact L2|]. split; [exact L3|]. split; [exact L4|]. intros x Hx. apply in_app_or in Hx.
           destruct Hx as [Hx|[<-|[]]]; [exact (L5 x Hx)|]. cbn [s_accts]. rewrite Hid. destruct (acct_w (reqs i) id); reflexivity.
        -- destruct (acct_w (reqs i) id); [|exact L2]. destruct L2 as (P & Ls & Lb). split; [exact P|]. split; [exact Ls|].
           destruct (l_base a); [exact Lb|]. intros x Hx. apply in_app_or in Hx. destruct Hx as [Hx|[<-|[]]]; [exact (Lb x Hx)|]. cbn [s_accts]. rewrite Hid. discriminate.
      * apply forall2_app1; [exact X5|]. split; [|split]; cbn [s_accts s_base].
        -- intros id v Hv. rewrite HS in Hv. destruct (assoc id (w_accts w)) as [a|]; [|discriminate Hv]. destruct (acct_w (reqs i) id); [|discriminate Hv].
           destruct (l_dep a); [discriminate Hv|]. congruence.
        -- intros b Eb. exact (proj2 (T3 b Eb)).
        -- intros id Hn. rewrite HS in Hn. destruct (acct_w (reqs i) id) eqn:AW.
           ++ destruct (assoc id (w_accts w)) as [a|] eqn:Ea.
              ** destruct (X4 id a Ea) as (_ & L2). destruct (l_dep a); [exact (proj1 (proj2 (proj2 L2)))|discriminate Hn].
              ** apply X3 in Ea. rewrite (acct_w_any i id AW) in Ea. discriminate Ea.
           ++ rewrite <- (acct_writes i id W) in AW. exact (proj1 (O6 id AW)).
  - (* Rollback *)
    cbn [asks alone rolls_back] in O2, O3, O4. destruct O3 as (Lh & O3).
    destruct (nth_error (t_snaps t) h) as [snp|] eqn:Es; [|apply nth_error_None in Es; lia].
    assert (Hin : In snp (t_snaps t)) by (apply nth_error_In in Es; exact Es).
    unfold reset. rewrite (get_w_at s i w t E), Ew. cbn [negb].
    assert (Nth : forall x, nth_error (sn i) h = Some x -> nth h (sn i) (tau i) = x) by (intros x Ex; apply nth_error_nth; exact Ex).
    assert (TO : forall x, nth_error (sn i) h = Some x -> thread_ok i true (mkThread k (t_snaps t) None) x (sn i)).
    { intros x Ex. unfold thread_ok. cbn [t_out t_prog t_snaps]. rewrite (Nth x Ex) in O2, O3. split; [reflexivity|]. split; [exact O2|]. split; [exact O3|].
      split; [intros _; apply O4; constructor|]. split; [exact O5|]. intros id NW. destruct (O6 id NW) as (Y1 & Y2). split; [|exact Y2]. apply Y2. apply nth_error_In in Ex. exact Ex. }
    destruct (world_w (reqs i)) eqn:W.
    + destruct T5 as (X1 & X2). rewrite Ew in X2. destruct X2 as (X2 & X3 & X4). rewrite X2.
      destruct (forall2_nth _ _ _ _ _ _ _ X4 Es) as (x & Ex & (b & Eb & Hb)). rewrite Eb.
      assert (NB : w_base w <> None) by (intros F; destruct (X3 F) as (_ & kk & F'); congruence).
      destruct (w_base w) as [bb|] eqn:Ebb; [|contradiction]. destruct (T3 bb eq_refl) as (Ab & _).
      exists (put i x tau), (put i (sn i) sn). unfold set_t, set_real. cbn [x_ws x_real x_lockers x_wlocker x_ro x_todo x_err]. rewrite E.
      apply (inv_set s tau sn i w t w _ b x (sn i) H E eq_refl).
      * split; [exact T1|]. split; [rewrite Ebb; exact T2|]. split; [rewrite Ebb; exact T3|]. split; [exact T4|]. split; [|rewrite Ew; exact (TO x Ex)].
        rewrite W. split; [exact X1|]. rewrite Ew. split; [exact X2|]. split; [intros F; congruence|exact X4].
      * intros id _. exact (Hb id).
      * intros id NF. destruct NF. exact (world_front s i w t id E Ew W Ab).
    + destruct T5 as (X1 & X2 & X3 & X4). rewrite Ew in X4. destruct X4 as (X4 & X5). rewrite X1.
      destruct (forall2_nth _ _ _ _ _ _ _ X5 Es) as (x & Ex & SO).
      pose proof (reset_accts_spec (is_done s) i (t_snaps t) (tau i) snp x (w_accts w) (x_real s) Hin SO X2 X4) as K.
      destruct (reset_accts is_empty snp (w_accts w) (x_real s)) as [r| |]; [|destruct K|].
      2:{ split; [apply O4; constructor|]. split; [exact W|exact K]. }
      assert (Un : forall id a, assoc id (w_accts w) = Some a -> forall d, l_dep a = Some d -> x id = sig i id /\ tau i id = sig i id).
      { intros id a Ea d Ed. destruct (X4 id a Ea) as (_ & L2). rewrite Ed in L2. destruct L2 as (_ & _ & L4 & L5). split; [|exact L4].
        destruct SO as (_ & _ & S3). apply S3. exact (L5 snp Hin). }
      exists (put i x tau), (put i (sn i) sn). unfold set_t, set_real. cbn [x_ws x_real x_lockers x_wlocker x_ro x_todo x_err]. rewrite E.
      apply (inv_set s tau sn i w t w _ r x (sn i) H E eq_refl).
      * split; [exact T1|]. split; [exact T2|]. split; [exact T3|]. split; [exact T4|]. split; [|rewrite Ew; exact (TO x Ex)].
        rewrite W. split; [exact X1|]. split; [exact X2|]. split; [exact X3|]. rewrite Ew. cbn [t_snaps]. split; [|exact X5].
        intros id a Ea. destruct (X4 id a Ea) as (L1 & L2). split; [exact L1|]. destruct (l_dep a) as [d|] eqn:Ed; [|exact L2].
        destruct L2 as (L2 & L3 & L4 & L5). split; [exact L2|]. split; [exact L3|]. split; [exact (proj1 (Un id a Ea d Ed))|exact L5].
      * intros id F. rewrite K. pose proof F as (_ & Wi & _). rewrite (acct_writes i id W) in Wi. rewrite Wi.
        destruct (assoc id (w_accts w)) as [a|] eqn:Ea.
        -- destruct (l_dep a) as [d|] eqn:Ed; [|reflexivity]. destruct (Un id a Ea d Ed) as (Y1 & Y2). rewrite (H7 i id F). congruence.
        -- apply X3 in Ea. rewrite (acct_w_any i id Wi) in Ea. discriminate Ea.
      * intros id NF. rewrite K. destruct (assoc id (w_accts w)) as [a|] eqn:Ea; [|reflexivity]. destruct (acct_w (reqs i) id) eqn:AW; [|reflexivity].
        destruct (l_dep a) as [d|] eqn:Ed; [reflexivity|]. exfalso. apply NF. destruct (X4 id a Ea) as (_ & L2). rewrite Ed, AW in L2. destruct L2 as (P & _).
        apply (wait_front s i w t id E Ew); [|exact P]. rewrite (acct_writes i id W). exact AW.
  - (* Done *)
    cbn [alone] in O2. unfold commit. rewrite (get_w_at s i w t E), Ew. cbn [negb].
    assert (Es : tau i = sig (S i)) by (rewrite sig_S by lia; rewrite <- O2; reflexivity).
    assert (Er : r = snd (whole (body i) (sig i))) by (rewrite <- O2; reflexivity).
    assert (Rep : match r with Some _ => false | None => report false end = false) by (destruct r; reflexivity).
    assert (TO : thread_ok i false (mkThread (Done r) (t_snaps t) (Some r)) (tau i) (sn i)) by (unfold thread_ok; cbn [t_out]; rewrite Er; reflexivity).
    assert (Di : is_done s i = false) by (rewrite (done_at s i w t E), Ew; reflexivity).
    assert (Fin : forall w', w_waiting w' = false ->
      (forall D, (forall j, is_done s j = true -> D j = true) -> D i = true -> txinv D i w' (mkThread (Done r) (t_snaps t) (Some r)) (tau i) (sn i)) ->
      (forall id, writes i id = true -> prior_done (is_done s) i id) ->
      exists tau' sn', inv (let s2 := set_t (set_w s i w') i (mkThread (Done r) (t_snaps t) (Some r)) in
        mkSys (x_real s2) (x_lockers s2) (x_wlocker s2) (x_ro s2) (x_ws s2) (x_todo s2) (match r with Some _ => x_err s2 | None => report (x_err s2) end)) tau' sn').
    { intros w' Ew' Ht Hp. exists tau, sn.
      assert (Ef : (let s2 := set_t (set_w s i w') i (mkThread (Done r) (t_snaps t) (Some r)) in
        mkSys (x_real s2) (x_lockers s2) (x_wlocker s2) (x_ro s2) (x_ws s2) (x_todo s2) (match r with Some _ => x_err s2 | None => report (x_err s2) end))
        = mkSys (x_real s) (x_lockers s) (x_wlocker s) (x_ro s) (set_nth i (w', mkThread (Done r) (t_snaps t) (Some r)) (x_ws s)) (x_todo s) (x_err s)).
      { cbv zeta. pose proof (setw_at s i w t w' i E) as X. rewrite Nat.eqb_refl in X. rewrite (sett_form _ i w' t _ X). unfold set_w. rewrite E.
        cbn [x_ws x_real x_lockers x_wlocker x_ro x_todo x_err]. rewrite H3, Rep. f_equal.
        clear. generalize (x_ws s). induction i as [|i IH]; intros [|y l]; cbn; try reflexivity. f_equal. apply IH. }
      rewrite Ef. apply (inv_commit s tau sn i w t w' _ H E Ew Ew' Ht Hp). intros id _. rewrite Es. reflexivity. }
    destruct (world_w (reqs i)) eqn:W.
    + destruct T5 as (X1 & X2). rewrite Ew in X2. destruct X2 as (X2 & X3 & X4). rewrite X1, X2. cbn [commit_accts].
      assert (NB : w_base w <> None) by (intros F; destruct (X3 F) as (_ & kk & F'); congruence).
      destruct (w_base w) as [bb|] eqn:Ebb; [|contradiction]. destruct (T3 bb eq_refl) as (Ab & _).
      apply Fin; [reflexivity| |].
      * intros D Mo Dd. split; [exact T1|]. split; [discriminate|]. split; [|split; [|split; [|exact TO]]].
        -- intros b Eb. destruct (T3 b Eb) as (Y1 & Y2). split; [intros j Lj; exact (Mo j (Y1 j Lj))|exact Y2].
        -- intros c Ec. cbn [w_committed] in Ec. injection Ec as <-. split.
           ++ intros j Lj. destruct (Nat.eq_dec j i) as [->|]; [exact Dd|]. apply Mo. apply Ab. lia.
           ++ intros id. rewrite (H7 i id (world_front s i w t id E Ew W Ab)), Es. reflexivity.
        -- rewrite W. split; [reflexivity|]. cbn [w_waiting]. split; [reflexivity|]. split; cbn [w_base w_committed]; discriminate.
      * intros id _ j Lj _. exact (Ab j Lj).
    + destruct T5 as (X1 & X2 & X3 & X4). rewrite Ew in X4. destruct X4 as (X4 & X5).
      assert (HLin : forall id a, In (id, a) (w_accts w) -> las_ok (is_done s) i id (t_snaps t) (tau i) a).
      { intros id a Ha. apply X4. apply in_assoc; assumption. }
      pose proof (commit_accts_spec s tau sn i w t (w_accts w) H E Ew W HLin) as K.
      destruct (commit_accts i s (w_accts w)) as [(s1, l2)| |]; [|right; exact K|destruct K]. destruct K as (-> & K2 & K3). rewrite X1.
      assert (As : forall id, acct_w (reqs i) id = true -> exists a, assoc id (w_accts w) = Some a).
      { intros id AW. destruct (assoc id (w_accts w)) as [a|] eqn:Ea; [eauto|]. apply X3 in Ea. rewrite (acct_w_any i id AW) in Ea. discriminate Ea. }
      apply Fin; [reflexivity| |].
      * intros D Mo Dd. split; [exact T1|]. split; [exact T2|]. split; [|split; [|split; [|exact TO]]].
        -- intros b Eb. destruct (T3 b Eb) as (Y1 & Y2). split; [intros j Lj; exact (Mo j (Y1 j Lj))|exact Y2].
        -- intros c Ec. destruct (T4 c Ec) as (Y1 & Y2). split; [intros j Lj; exact (Mo j (Y1 j Lj))|exact Y2].
        -- rewrite W. split; [reflexivity|]. cbn [w_accts w_waiting]. split; [rewrite K2; exact X2|]. split.
           ++ intros id. rewrite assoc_none, K2, <- assoc_none. apply X3.
           ++ intros id Wi. rewrite (acct_writes i id W) in Wi. destruct (As id Wi) as (a & Ea). destruct (K3 id a Ea Wi) as (_ & a' & Y1 & Y2 & Y3).
              exists a'. rewrite <- Es. auto.
      * intros id Wi. rewrite (acct_writes i id W) in Wi. destruct (As id Wi) as (a & Ea). exact (proj1 (K3 id a Ea Wi)).
Qed.

(* ---- the next transaction ---- *)
Lemma inv_append : forall s tau sn w t lockers wl ro,
  inv s tau sn -> length (x_ws s) < length txs -> w_waiting w = true -> txinv (is_done s) (length (x_ws s)) w t (sig (length (x_ws s))) [] ->
  (forall id, get_locker id lockers wl = lastw (S (length (x_ws s))) id) -> (forall id v, assoc id ro = Some v -> v = w0 id) ->
  inv (mkSys (x_real s) lockers wl ro (x_ws s ++ [(w, t)]) (skipn (S (length (x_ws s))) txs) (x_err s))
      (put (length (x_ws s)) (sig (length (x_ws s))) tau) (put (length (x_ws s)) [] sn).
Proof.
  intros s tau sn w t lockers wl ro (H1 & H2 & H3 & H4 & H5 & H6 & H7 & H8 & H9) L Ew T HK HR. set (n := length (x_ws s)) in *.
  set (s' := mkSys (x_real s) lockers wl ro (x_ws s ++ [(w, t)]) (skipn (S n) txs) (x_err s)).
  assert (NE : forall j, nth_error (x_ws s') j = if Nat.eqb j n then Some (w, t) else nth_error (x_ws s) j).
  { intros j. unfold s'. cbn [x_ws]. destruct (Nat.eqb_spec j n) as [->|N].
    - rewrite nth_error_app2 by (unfold n; lia). unfold n. rewrite Nat.sub_diag. reflexivity.
    - destruct (lt_dec j n) as [Lj|Lj]; [apply nth_error_app1; exact Lj|]. rewrite (proj2 (nth_error_None (x_ws s) j)) by (unfold n in *; lia).
      apply nth_error_None. rewrite app_length. cbn. unfold n in *. lia. }
  assert (HD : forall j, is_done s' j = is_done s j).
  { intros j. unfold is_done, get_w. rewrite NE. destruct (Nat.eqb_spec j n) as [->|N]; [|reflexivity].
    rewrite (proj2 (nth_error_None (x_ws s) n)) by (unfold n; lia). cbn. rewrite Ew. reflexivity. }
  assert (HL : length (x_ws s') = S n) by (unfold s'; cbn [x_ws]; rewrite app_length; cbn; unfold n; lia).
  assert (Dn : is_done s n = false) by (unfold is_done, get_w; rewrite (proj2 (nth_error_None (x_ws s) n)) by (unfold n; lia); reflexivity).
  unfold inv. rewrite HL. split; [lia|]. split; [reflexivity|]. split; [exact H3|]. split; [exact HK|]. split; [exact HR|]. split; [|split; [|split]].
  - intros j wj tj Ej. rewrite NE in Ej. apply (txinv_mono (is_done s)); [intros k; rewrite HD; auto|]. destruct (Nat.eqb_spec j n) as [->|N].
    + injection Ej as <- <-. rewrite !put_same. exact T.
    + rewrite !put_other by exact N. exact (H6 j wj tj Ej).
  - intros j id (F1 & F2 & F3 & F4). cbn [s' x_real]. rewrite HD in F3.
    assert (F5 : prior_done (is_done s) j id) by (intros k Lk Wk; rewrite <- HD; exact (F4 k Lk Wk)).
    destruct (Nat.eq_dec j n) as [->|N].
    + rewrite put_same. exact (H8 id F5).
    + rewrite put_other by exact N. apply H7. split; [lia|]. split; [exact F2|]. split; [exact F3|exact F5].
  - intros id P. cbn [s' x_real]. destruct (writes n id) eqn:Wn.
    + pose proof (P n (Nat.lt_succ_diag_r n) Wn) as F. rewrite HD, Dn in F. discriminate F.
    + rewrite (sig_frame1 n id Wn). apply H8. intros k Lk Wk. rewrite <- HD. apply P; [lia|exact Wk].
  - intros j id Dj Wj k Lk Wk. rewrite HD in Dj |- *. exact (H9 j id Dj Wj k Lk Wk).
Qed.

Lemma skipn_cons : forall (A : Type) n (l : list A) x l', skipn n l = x :: l' -> nth_error l n = Some x /\ l' = skipn (S n) l.
Proof.
  intros A n. induction n as [|n IH]; intros l x l' E.
  - cbn in E. subst l. split; reflexivity.
  - destruct l as [|y l]; [discriminate E|]. cbn in E. exact (IH l x l' E).
Qed.

Lemma prepare_spec : forall s tau sn, inv s tau sn ->
  match prepare s with
  | Ok s' => exists tau' sn', inv s' tau' sn'
  | Blocked => x_todo s = []
  | Panic => False
  end.
Proof.
  intros s tau sn H. pose proof H as (H1 & H2 & H3 & H4 & H5 & H6 & H7 & H8 & H9). unfold prepare.
  destruct (x_todo s) as [|(rq, p) todo] eqn:Et; [reflexivity|]. symmetry in H2. destruct (skipn_cons _ _ _ _ _ H2) as (En & Ed).
  set (n := length (x_ws s)) in *. rewrite H3.
  assert (Ln : n < length txs) by (apply nth_error_Some; congruence).
  assert (Erq : reqs n = rq) by (unfold reqs; rewrite En; reflexivity). assert (Ebd : body n = p) by (unfold body; rewrite En; reflexivity).
  destruct (good n Ln) as (G & A). cbv zeta. change (rq ++ [(Some system_id, RLock)]) with (rq ++ [sys_req]). rewrite (world_lock_good rq) by (rewrite <- Erq; exact G). rewrite <- Erq, <- Ebd, Ed.
  set (t := mkThread (Snap (fun _ : nat => body n)) [] None : thread V R).
  set (parent := if Nat.eqb n 0 then None else Some (n - 1)).
  set (base := if Nat.eqb n 0 then Some (x_real s) else match nth_error (x_ws s) (n - 1) with Some (w, _) => w_committed w | None => None end).
  assert (TO : thread_ok n true t (sig n) []).
  { unfold thread_ok, t. cbn [t_out t_prog t_snaps alone asks rolls_back length app]. split; [reflexivity|]. split; [reflexivity|]. split; [exact A|].
    split; [auto|]. split; [reflexivity|]. intros id _. split; [reflexivity|intros x []]. }
  assert (B0 : n = 0 -> base <> None) by (intros E; unfold base; rewrite E; discriminate).
  assert (B1 : forall b, base = Some b -> all_before (is_done s) n /\ forall id, b id = sig n id).
  { intros b Eb. unfold base in Eb. destruct (Nat.eqb_spec n 0) as [E0|N0].
    - injection Eb as <-. split; [intros j Lj; lia|]. intros id. apply H8. intros j Lj. lia.
    - destruct (nth_error (x_ws s) (n - 1)) as [(wp, tp)|] eqn:Ep; [|discriminate Eb]. destruct (H6 _ wp tp Ep) as (_ & _ & _ & T4 & _).
      destruct (T4 b Eb) as (X1 & X2). replace (S (n - 1)) with n in X1, X2 by lia. auto. }
  destruct (world_w (reqs n)) eqn:W.
  - exists (put n (sig n) tau), (put n [] sn).
    pose proof (inv_append s tau sn (mkVws parent base None true [] WLock) t [] (Some n) (x_ro s) H Ln eq_refl) as K. rewrite H3 in K. apply K; [| |exact H5].
    + split; [reflexivity|]. split; [exact B0|]. split; [exact B1|]. split; [discriminate|]. split; [|exact TO]. fold n. rewrite W. split; [reflexivity|]. cbn [w_waiting].
      split; [reflexivity|]. split; [intros _; split; [reflexivity|]; eexists; reflexivity|]. constructor.
    + intros id. cbn [lastw]. fold n. unfold writes, wr. rewrite W. reflexivity.
  - set (l := fold_left (add_lock NoLock) (reqs n ++ [sys_req]) []). destruct (locks_good V (reqs n) G) as (ND & HL). fold l in ND, HL.
    destruct (bind_accts (Nat.eqb n 0) n (x_real s) l (x_lockers s) (x_wlocker s) (x_ro s)) as ((accts, lockers), ro) eqn:Eb.
    destruct (bind_spec V (Nat.eqb n 0) n (x_real s) (x_wlocker s) l (x_lockers s) (x_ro s) accts lockers ro ND) as (K1 & K2 & K3 & K4); [|exact Eb|].
    { intros E0 id _. rewrite H4. apply Nat.eqb_eq in E0. rewrite E0. reflexivity. }
    assert (RL : forall id, lastw n id = None -> x_real s id = w0 id).
    { intros id E. rewrite (H8 id); [exact (sig_nolastw n id E)|]. intros j Lj Wj. rewrite (lastw_none n id E j Lj) in Wj. discriminate Wj. }
    exists (put n (sig n) tau), (put n [] sn).
    pose proof (inv_append s tau sn (mkVws parent base None true accts NoLock) t lockers (x_wlocker s) ro H Ln eq_refl) as K. rewrite H3 in K. apply K.
    + split; [reflexivity|]. split; [exact B0|]. split; [exact B1|]. split; [discriminate|]. split; [|exact TO]. fold n. rewrite W. split; [reflexivity|].
      cbn [w_accts w_waiting]. split; [rewrite K1; exact ND|]. split.
      * intros id. specialize (K2 id). specialize (HL id). destruct (assoc id l) as [a|].
        -- destruct K2 as (st & -> & _). destruct HL as (_ & HL & _). rewrite HL. split; discriminate.
        -- rewrite K2, HL. split; reflexivity.
      * split; [|constructor]. intros id a Ea. specialize (K2 id). specialize (HL id). destruct (assoc id l) as [a0|]; [|congruence].
        destruct K2 as (st & Es & Hst). destruct HL as (_ & HA & Hl). rewrite Ea in Es. injection Es as ->. split; [exact Hl|]. cbn [l_dep l_state l_base].
        rewrite H4 in Hst |- *. rewrite Hl in Hst. destruct (lastw n id) as [d|] eqn:El.
        -- split; [reflexivity|]. split; [exact Hst|]. split; [reflexivity|]. intros x [].
        -- destruct (acct_w (reqs n) id).
           ++ split; [intros j Lj Wj; rewrite (lastw_none n id El j Lj) in Wj; discriminate Wj|]. split; [exact Hst|]. intros x [].
           ++ destruct Hst as (v & -> & [Hv|Hv]); rewrite (sig_nolastw n id El); [rewrite (H5 id v Hv); reflexivity|]. rewrite Hv, (RL id El). reflexivity.
    + intros id. fold n. cbn [lastw]. rewrite K3, H4. rewrite (acct_writes n id W). specialize (HL id). destruct (assoc id l) as [a0|].
      * destruct HL as (_ & _ & ->). destruct (acct_w (reqs n) id); reflexivity.
      * destruct (acct_w (reqs n) id) eqn:AW; [|reflexivity]. rewrite (acct_w_any n id AW) in HL. discriminate HL.
    + intros id v Ev. destruct (K4 id v Ev) as [Ho|(-> & Ho)]; [exact (H5 id v Ho)|]. rewrite H4 in Ho. exact (RL id Ho).
Qed.

(* ---- all schedules ---- *)
Lemma inv_start : inv (start w0 txs) (fun _ => w0) (fun _ => []).
Proof.
  unfold inv, start. cbn [x_ws x_todo x_err x_lockers x_wlocker x_ro x_real length skipn]. split; [lia|]. split; [reflexivity|]. split; [reflexivity|].
  split; [reflexivity|]. split; [discriminate|]. split; [intros i w t E; destruct i; discriminate E|]. split; [intros i id (F & _); lia|].
  split; [intros id _; unfold sig; destruct txs; reflexivity|]. intros i id D. unfold is_done, get_w in D. cbn [x_ws] in D. destruct i; discriminate D.
Qed.
Theorem reach_inv : forall s, reach is_empty (start w0 txs) s -> exists tau sn, inv s tau sn.
Proof.
  intros s H. induction H as [|s e s' _ IH E]; [exists (fun _ => w0), (fun _ => []); exact inv_start|]. destruct IH as (tau & sn & HI). destruct e as [|i]; cbn [step] in E.
  - pose proof (prepare_spec s tau sn HI) as K. rewrite E in K. exact K.
  - destruct (lt_dec i (length (x_ws s))) as [L|L].
    + pose proof (run_spec s tau sn i HI L) as K. rewrite E in K. exact K.
    + unfold run in E. rewrite (proj2 (nth_error_None (x_ws s) i)) in E by lia. discriminate E.
Qed.
End Inv.
