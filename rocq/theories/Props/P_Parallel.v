(* C60, C61: executing the transactions of a block in parallel. *)
From Coq Require Import List Bool Arith Lia.
From Verif Require Import Model.ParallelExec Spec.ParallelSpec Proof.ParFacts Proof.ParInv Proof.ParHalt.
Import ListNotations.

(* ---- C60 ---- *)

(* Whenever a transaction is through, it has the receipt (or the fatal error) it
   has when the transactions are executed one after the other. *)
Theorem C60_receipts : forall V R (is_empty : V -> bool) (txs : list (list req * prog V R)) w0 s i w t r,
  good_block txs w0 -> reach is_empty (start w0 txs) s ->
  nth_error (x_ws s) i = Some (w, t) -> t_out t = Some r -> receipt txs w0 i = Some r.
Proof.
  intros V R is_empty txs w0 s i w t r G H E O. destruct (reach_inv V R is_empty txs w0 G s H) as (tau & sn & H1 & _ & _ & _ & _ & H6 & _).
  destruct (H6 i w t E) as (_ & _ & _ & _ & _ & T). assert (L : i < length (x_ws s)) by (apply nth_error_Some; congruence).
  unfold thread_ok in T. destruct (w_waiting w); [destruct T as (T & _); congruence|]. rewrite O in T. injection T as ->.
  unfold receipt, body, sig. destruct (nth_error txs i) as [(rq, p)|] eqn:En; [reflexivity|]. apply nth_error_None in En. lia.
Qed.
Print Assumptions C60_receipts.

(* When all are through: every transaction has its receipt, and the world is what
   executing them one after the other makes of it. *)
Theorem C60_world : forall V R (is_empty : V -> bool) (txs : list (list req * prog V R)) w0 s,
  good_block txs w0 -> reach is_empty (start w0 txs) s -> finished s ->
  (forall id, x_real s id = world_after txs w0 id) /\
  length (x_ws s) = length txs /\
  forall i w t, nth_error (x_ws s) i = Some (w, t) -> t_out t = receipt txs w0 i /\ t_out t <> None.
Proof.
  intros V R is_empty txs w0 s G H (F1 & F2). destruct (reach_inv V R is_empty txs w0 G s H) as (tau & sn & H1 & H2 & H3 & H4 & H5 & H6 & H7 & H8 & H9).
  assert (L : length (x_ws s) = length txs).
  { rewrite F1 in H2. pose proof (skipn_length (length (x_ws s)) txs) as K. rewrite <- H2 in K. cbn in K. lia. }
  split; [|split; [exact L|]].
  - intros id. rewrite H8; [rewrite L; reflexivity|]. intros j Lj _. destruct (nth_error (x_ws s) j) as [(w, t)|] eqn:E; [|apply nth_error_None in E; lia].
    rewrite (done_at V R s j w t E), (F2 j w t E). reflexivity.
  - intros i w t E. destruct (H6 i w t E) as (_ & _ & _ & _ & _ & T). rewrite (F2 i w t E) in T. cbn in T. split; [|rewrite T; discriminate].
    symmetry. rewrite T. apply (C60_receipts V R is_empty txs w0 s i w t _ G H E). exact T.
Qed.
Print Assumptions C60_world.

(* The snapshot the block ends with (Realize on the last of them) is that world. *)
Theorem C60_snapshot : forall V R (is_empty : V -> bool) (txs : list (list req * prog V R)) w0 s,
  good_block txs w0 -> reach is_empty (start w0 txs) s -> finished s -> txs <> [] ->
  exists s1 w c, realize s (length txs - 1) = Ok s1 /\ get_w s1 (length txs - 1) = Some w /\ w_committed w = Some c /\
    forall id, c id = world_after txs w0 id.
Proof.
  intros V R is_empty txs w0 s G H F N. destruct (C60_world V R is_empty txs w0 s G H F) as (A & L & _). destruct F as (F1 & F2).
  destruct (reach_inv V R is_empty txs w0 G s H) as (tau & sn & HI). pose proof HI as (_ & _ & _ & _ & _ & H6 & _).
  assert (Ln : 0 < length txs) by (destruct txs; [contradiction|cbn; lia]).
  destruct (nth_error (x_ws s) (length txs - 1)) as [(w, t)|] eqn:E; [|apply nth_error_None in E; lia].
  unfold realize. rewrite (get_w_at V R s _ w t E). destruct (w_committed w) as [c|] eqn:Ec.
  - exists s, w, c. split; [reflexivity|]. split; [exact (get_w_at V R s _ w t E)|]. split; [exact Ec|].
    destruct (H6 _ w t E) as (_ & _ & _ & T4 & _). destruct (T4 c Ec) as (_ & Hc). intros id. rewrite Hc. unfold sig, world_after. do 2 f_equal. lia.
  - rewrite (all_ready V R txs w0 s tau sn (length txs - 1) (S (length txs - 1)) HI); [|lia|lia|].
    + eexists _, _, (x_real s). split; [reflexivity|]. split; [|split; [|exact A]].
      * apply (get_w_at V R _ _ (mkVws (w_parent w) (w_base w) (Some (x_real s)) (w_waiting w) (w_accts w) (w_lock w)) t).
        rewrite (setw_at V R s _ w t _ _ E), Nat.eqb_refl. reflexivity.
      * reflexivity.
    + intros j Lj. destruct (nth_error (x_ws s) j) as [(wj, tj)|] eqn:Ej; [|apply nth_error_None in Ej; lia].
      rewrite (done_at V R s j wj tj Ej), (F2 j wj tj Ej). reflexivity.
Qed.
Print Assumptions C60_snapshot.

(* So the schedule does not matter. *)
Theorem C60_schedules_agree : forall V R (is_empty : V -> bool) (txs : list (list req * prog V R)) w0 s s',
  good_block txs w0 -> reach is_empty (start w0 txs) s -> reach is_empty (start w0 txs) s' -> finished s -> finished s' ->
  (forall id, x_real s id = x_real s' id) /\
  forall i w t w' t', nth_error (x_ws s) i = Some (w, t) -> nth_error (x_ws s') i = Some (w', t') -> t_out t = t_out t'.
Proof.
  intros V R is_empty txs w0 s s' G H H' F F'. destruct (C60_world _ _ _ _ _ _ G H F) as (A & _ & B). destruct (C60_world _ _ _ _ _ _ G H' F') as (A' & _ & B').
  split; [intros id; rewrite A, A'; reflexivity|]. intros i w t w' t' E E'. rewrite (proj1 (B i w t E)), (proj1 (B' i w' t' E')). reflexivity.
Qed.
Print Assumptions C60_schedules_agree.

Fixpoint steps {V R} (is_empty : V -> bool) (s : sys V R) (es : list event) : res (sys V R) :=
  match es with [] => Ok s | e :: es' => match step is_empty s e with Ok s' => steps is_empty s' es' | Blocked => Blocked | Panic => Panic end end.
Lemma steps_reach : forall V R (is_empty : V -> bool) (s0 s s' : sys V R) es, reach is_empty s0 s -> steps is_empty s es = Ok s' -> reach is_empty s0 s'.
Proof.
  intros V R is_empty s0 s s' es. revert s. induction es as [|e es IH]; intros s H E; cbn in E; [injection E as <-; exact H|].
  destruct (step is_empty s e) as [s1| |] eqn:E1; try discriminate E. exact (IH s1 (reach_step _ _ _ _ _ _ _ H E1) E).
Qed.
Definition ends {V R} (s : sys V R) : bool := match x_todo s with [] => forallb (fun e => negb (w_waiting (fst e))) (x_ws s) | _ => false end.
Lemma ends_finished : forall V R (s : sys V R), ends s = true -> finished s.
Proof.
  intros V R s E. unfold ends in E. destruct (x_todo s) eqn:Et; [|discriminate E]. split; [exact Et|]. intros i w t En.
  rewrite forallb_forall in E. apply nth_error_In in En. specialize (E _ En). cbn in E. destruct (w_waiting w); [discriminate E|reflexivity].
Qed.

(* A block that meets the hypotheses, and two of its schedules: transfers between
   accounts 1, 2 and 3, one of which fails and rolls back, then one with the world
   lock, then another transfer. *)
Definition transfer (a b amount : nat) : prog nat nat :=
  Get a (fun x => Get b (fun y => Snap (fun h => Put a (x - amount) (Put b (y + amount) (if Nat.ltb x amount then Rollback h (Done (Some 0)) else Done (Some 1)))))).
Definition ex_txs : list (list req * prog nat nat) :=
  [([(Some 1, WLock); (Some 2, WLock)], transfer 1 2 5);
   ([(Some 3, WLock); (Some 4, WLock)], transfer 3 4 50);
   ([(Some 2, RLock); (Some 3, WLock)], Get 2 (fun x => Put 3 x (Done (Some x))));
   ([(None, WLock)], Get 3 (fun x => Put 7 x (Done (Some x))));
   ([(Some 7, WLock); (Some 1, WLock)], transfer 7 1 2)].
Definition ex_w0 (id : nat) : nat := match id with 1 => 10 | 2 => 20 | 3 => 30 | 4 => 40 | _ => 0 end.
Example C60_ex_good : good_block ex_txs ex_w0.
Proof.
  intros i rq p E. destruct i as [|[|[|[|[|i]]]]]; cbn in E; try (injection E as <- <-); try (destruct i; discriminate E);
    (split; [intros r Hr; cbn in Hr; repeat (destruct Hr as [<-|Hr]; [cbn; intuition discriminate|]); destruct Hr
            |cbn; unfold may_read, may_write; cbn; intuition auto]).
Qed.
Definition sched1 : list event :=
  [EPrepare; EPrepare; EPrepare; ERun 1; ERun 1; ERun 1; ERun 0; EPrepare; ERun 2; ERun 0; ERun 0; ERun 1; ERun 1; ERun 0; EPrepare; ERun 1; ERun 1; ERun 1;
   ERun 0; ERun 0; ERun 0; ERun 4; ERun 2; ERun 2; ERun 2; ERun 3; ERun 3; ERun 3; ERun 3; ERun 4; ERun 4; ERun 4; ERun 4; ERun 4; ERun 4].
Definition sched2 : list event :=
  [EPrepare; ERun 0; ERun 0; ERun 0; ERun 0; ERun 0; ERun 0; ERun 0; EPrepare; ERun 1; ERun 1; ERun 1; ERun 1; ERun 1; ERun 1; ERun 1; ERun 1;
   EPrepare; ERun 2; ERun 2; ERun 2; ERun 2; EPrepare; ERun 3; ERun 3; ERun 3; ERun 3; EPrepare; ERun 4; ERun 4; ERun 4; ERun 4; ERun 4; ERun 4; ERun 4].
Definition shown (r : res (sys nat nat)) : option (bool * list nat * list (option (option nat))) :=
  match r with Ok s => Some (ends s, map (x_real s) (seq 0 8), map (fun e => t_out (snd e)) (x_ws s)) | _ => None end.
Example C60_ex_sched1 : shown (steps (Nat.eqb 0) (start ex_w0 ex_txs) sched1) =
  Some (true, [0; 7; 25; 25; 40; 0; 0; 23], [Some (Some 1); Some (Some 0); Some (Some 25); Some (Some 25); Some (Some 1)]).
Proof. vm_compute. reflexivity. Qed.
Example C60_ex_sched2 : shown (steps (Nat.eqb 0) (start ex_w0 ex_txs) sched2) =
  Some (true, [0; 7; 25; 25; 40; 0; 0; 23], [Some (Some 1); Some (Some 0); Some (Some 25); Some (Some 25); Some (Some 1)]).
Proof. vm_compute. reflexivity. Qed.
Example C60_ex_sequential : map (world_after ex_txs ex_w0) (seq 0 8) = [0; 7; 25; 25; 40; 0; 0; 23].
Proof. vm_compute. reflexivity. Qed.

(* A read lock on the world would not do: transaction 1 reads account 2 as
   transaction 2 left it. *)
Theorem C60_violated_world_read : exists (txs : list (list req * prog nat nat)) w0 s w t,
  txs = [([(Some 1, WLock)], Done (Some 0)); ([(None, RLock)], Get 2 (fun x => Done (Some x))); ([(Some 2, WLock)], Put 2 5 (Done (Some 0)))] /\
  reach (Nat.eqb 0) (start w0 txs) s /\ finished s /\
  nth_error (x_ws s) 1 = Some (w, t) /\ t_out t = Some (Some 5) /\ receipt txs w0 1 = Some (Some 0).
Proof.
  eexists _, (fun _ => 0). destruct (steps (Nat.eqb 0) (start (fun _ => 0)
    [([(Some 1, WLock)], Done (Some 0)); ([(None, RLock)], Get 2 (fun x => Done (Some x))); ([(Some 2, WLock)], Put 2 5 (Done (Some 0)))])
    [EPrepare; EPrepare; EPrepare; ERun 0; ERun 0; ERun 2; ERun 2; ERun 2; ERun 1; ERun 1; ERun 1]) as [s| |] eqn:E; [|vm_compute in E; discriminate E|vm_compute in E; discriminate E].
  assert (X1 : ends s = true) by (revert E; vm_compute; intros E; injection E as <-; reflexivity).
  assert (X2 : option_map (fun e => t_out (snd e)) (nth_error (x_ws s) 1) = Some (Some (Some 5))) by (revert E; vm_compute; intros E; injection E as <-; reflexivity).
  destruct (nth_error (x_ws s) 1) as [(w, t)|] eqn:E1; [|discriminate X2]. cbn in X2. injection X2 as X2.
  exists s, w, t. split; [reflexivity|]. split; [exact (steps_reach _ _ _ _ _ _ _ (reach_refl _ _ _ _) E)|]. split; [exact (ends_finished _ _ s X1)|].
  split; [exact E1|]. split; [exact X2|reflexivity].
Qed.
Print Assumptions C60_violated_world_read.

(* A fatal error does not stop the block, although a recorded error would: it is
   never recorded. *)
Theorem C60_violated_error_lost : forall V R (is_empty : V -> bool) (txs : list (list req * prog V R)) w0 s,
  reach is_empty (start w0 txs) s -> x_err s = false.
Proof.
  intros V R is_empty txs w0 s H. induction H as [|s e s' _ IH E]; [reflexivity|]. destruct e as [|i]; cbn [step] in E.
  - unfold prepare in E. destruct (x_todo s) as [|(rq, p) todo]; [discriminate E|]. rewrite IH in E. cbv zeta in E.
    destruct (world_lock (rq ++ [(Some system_id, RLock)])); try (destruct (bind_accts _ _ _ _ _ _ _) as ((accts, lockers), ro)); injection E as <-; reflexivity.
  - assert (SW : forall (s : sys V R) j w, x_err (set_w s j w) = x_err s) by (intros s1 j w; unfold set_w; destruct (nth_error (x_ws s1) j) as [(?, ?)|]; reflexivity).
    assert (ST : forall (s : sys V R) j t, x_err (set_t s j t) = x_err s) by (intros s1 j t; unfold set_t; destruct (nth_error (x_ws s1) j) as [(?, ?)|]; reflexivity).
    assert (RB : forall (s s1 : sys V R) j, realize_base s j = Ok s1 -> x_err s1 = x_err s).
    { intros s0 s1 j Er. unfold realize_base in Er. destruct (get_w s0 j) as [w|]; [|discriminate Er]. destruct (w_base w); [injection Er as <-; reflexivity|].
      destruct (w_parent w) as [q|]; [|discriminate Er]. unfold realize in Er. destruct (get_w s0 q) as [wq|]; [|discriminate Er].
      destruct (w_committed wq).
      - destruct (get_w s0 q); [|discriminate Er]. injection Er as <-. apply SW.
      - destruct (ready (S q) s0 q); [|discriminate Er]. destruct (get_w (set_w s0 q _) q); [|discriminate Er]. injection Er as <-. rewrite !SW. reflexivity. }
    assert (GA : forall f (s s1 : sys V R) j id st, get_account f s j id = Ok (s1, st) -> x_err s1 = x_err s).
    { induction f as [|f IHf]; intros s0 s1 j id st Eg; cbn [get_account] in Eg; [discriminate Eg|]. destruct (get_w s0 j) as [w|]; [|discriminate Eg].
      destruct (assoc id (w_accts w)) as [a|].
      - destruct (l_dep a) as [d|]; [|destruct (l_state a); [injection Eg as <- _; reflexivity|discriminate Eg]].
        destruct (negb (is_done s0 d)); [discriminate Eg|]. destruct (l_lock a);
          try (destruct (get_account f s0 d id) as [(s2, st2)| |] eqn:E2; try discriminate Eg; injection Eg as <- _; rewrite SW; exact (IHf _ _ _ _ _ E2)).
        injection Eg as <- _. apply SW.
      - destruct (w_lock w); try discriminate Eg; destruct (realize_base s0 j) as [s2| |] eqn:E2; try discriminate Eg; apply RB in E2;
          destruct (get_w s2 j) as [w1|]; try discriminate Eg; destruct (w_committed w1), (w_lock w1), (w_base w1); try discriminate Eg; injection Eg as <- _; exact E2. }
    unfold run in E. destruct (nth_error (x_ws s) i) as [(w, t)|]; [|discriminate E]. destruct (t_out t); [discriminate E|].
    destruct (t_prog t) as [id k|id v k|k|h k|r].
    + destruct (get_account (S i) s i id) as [(s1, st)| |] eqn:Eg; try discriminate E. injection E as <-. rewrite ST, (GA _ _ _ _ _ _ Eg). exact IH.
    + destruct (get_account (S i) s i id) as [(s1, [|v'])| |] eqn:Eg; try discriminate E. injection E as <-. rewrite ST. cbn. rewrite (GA _ _ _ _ _ _ Eg). exact IH.
    + destruct (get_snapshot s i) as [(s1, sn)| |] eqn:Eg; try discriminate E. injection E as <-. rewrite ST. unfold get_snapshot in Eg.
      destruct (get_w s i) as [w1|]; [|discriminate Eg]. destruct (w_committed w1); [injection Eg as <- _; exact IH|].
      destruct (w_lock w1); [injection Eg as <- _; exact IH| | |discriminate Eg]; destruct (realize_base s i) as [s2| |] eqn:E2; try discriminate Eg; apply RB in E2;
        destruct (get_w s2 i); try discriminate Eg; injection Eg as <- _; rewrite E2; exact IH.
    + destruct (nth_error (t_snaps t) h) as [sn|]; [|discriminate E]. destruct (reset is_empty s i sn) as [s1| |] eqn:Eg; try discriminate E. injection E as <-. rewrite ST.
      unfold reset in Eg. destruct (get_w s i) as [w1|]; [|discriminate Eg]. destruct (negb (w_waiting w1)); [discriminate Eg|].
      destruct (w_lock w1); try (destruct (reset_accts is_empty sn (w_accts w1) (x_real s)); try discriminate Eg; injection Eg as <-; exact IH).
      destruct (s_base sn); [|discriminate Eg]. injection Eg as <-. exact IH.
    + destruct (commit s i) as [s1| |] eqn:Eg; try discriminate E. injection E as <-.
      assert (X : x_err s1 = x_err s).
      { unfold commit in Eg. destruct (get_w s i) as [w1|]; [|discriminate Eg]. destruct (negb (w_waiting w1)); [injection Eg as <-; reflexivity|].
        assert (CA : forall l f (s s1 : sys V R) l2, commit_accts f s l = Ok (s1, l2) -> x_err s1 = x_err s).
        { induction l as [|(id, a) l IHl]; intros f s0 s2 l2 Ec; cbn [commit_accts] in Ec; [injection Ec as <- _; reflexivity|].
          assert (Q : forall (s3 : sys V R) a3, match commit_accts f s3 l with Ok (s4, l4) => Ok (s4, (id, a3) :: l4) | Blocked => Blocked | Panic => Panic end = Ok (s2, l2) -> x_err s2 = x_err s3).
          { intros s3 a3 E3. destruct (commit_accts f s3 l) as [(s4, l4)| |] eqn:E4; try discriminate E3. injection E3 as <- _. exact (IHl _ _ _ _ E4). }
          destruct (l_lock a); try exact (Q _ _ Ec). destruct (l_dep a) as [d|].
          - destruct (negb (is_done s0 d)); [discriminate Ec|]. destruct (get_account f s0 d id) as [(s3, st3)| |] eqn:E3; try discriminate Ec.
            rewrite (Q _ _ Ec). exact (GA _ _ _ _ _ _ E3).
          - destruct (l_state a); [exact (Q _ _ Ec)|discriminate Ec]. }
        destruct (commit_accts i s (w_accts w1)) as [(s2, l2)| |] eqn:E2; try discriminate Eg. apply CA in E2.
        destruct (w_lock w1); injection Eg as <-; rewrite SW; exact E2. }
      cbn [x_err]. rewrite ST, X, IH. destruct r; reflexivity.
Qed.
Print Assumptions C60_violated_error_lost.
Example C60_ex_error_lost : shown (steps (Nat.eqb 0) (start (fun _ => 0) [([(Some 1, WLock)], Put 1 9 (Done None)); ([(Some 1, WLock)], Get 1 (fun x => Done (Some x)))])
    [EPrepare; ERun 0; ERun 0; ERun 0; EPrepare; ERun 1; ERun 1; ERun 1])
  = Some (true, [0; 9; 0; 0; 0; 0; 0; 0], [Some None; Some (Some 9)]).
Proof. vm_compute. reflexivity. Qed.

(* ---- C61 ---- *)

(* Transactions that roll back have the world lock, or write accounts that exist. *)
Definition rolls_back_safely {V R} (is_empty : V -> bool) (txs : list (list req * prog V R)) (w0 : nat -> V) : Prop :=
  forall i rq p, nth_error txs i = Some (rq, p) -> rolls_back p (before txs w0 i) [before txs w0 i] ->
    In (None, WLock) rq \/ forall id, In (Some id, WLock) rq -> is_empty (before txs w0 i id) = false.

Theorem C61_no_panic : forall V R (is_empty : V -> bool) (txs : list (list req * prog V R)) w0 s,
  good_block txs w0 -> rolls_back_safely is_empty txs w0 -> reach is_empty (start w0 txs) s ->
  step is_empty s EPrepare <> Panic /\ forall i, i < length (x_ws s) -> step is_empty s (ERun i) <> Panic.
Proof.
  intros V R is_empty txs w0 s G SF H. destruct (reach_inv V R is_empty txs w0 G s H) as (tau & sn & HI). split; cbn [step].
  - pose proof (prepare_spec V R txs w0 G s tau sn HI) as K. intros F. rewrite F in K. exact K.
  - intros i L F. pose proof (run_spec V R is_empty txs w0 G s tau sn i HI L) as K. rewrite F in K. destruct K as (K1 & K2 & id & K3 & K4).
    unfold body, reqs, sig in *. destruct (nth_error txs i) as [(rq, p)|] eqn:En; [|destruct K1].
    destruct (SF i rq p En K1) as [S1|S1].
    + unfold world_w in K2. apply not_true_iff_false in K2. apply K2. apply existsb_exists. exists (None, WLock). auto.
    + unfold acct_w in K3. apply existsb_exists in K3. destruct K3 as ((o, k) & Hin & E). destruct o as [x|]; [|discriminate E]. destruct k; try discriminate E.
      apply Nat.eqb_eq in E. subst x. rewrite (S1 id Hin) in K4. discriminate K4.
Qed.
Print Assumptions C61_no_panic.

(* The oldest transaction that is not through never waits; when all that have
   begun are through, the next one can begin. *)
Theorem C61_oldest_runs : forall V R (is_empty : V -> bool) (txs : list (list req * prog V R)) w0 s i w t,
  good_block txs w0 -> reach is_empty (start w0 txs) s -> nth_error (x_ws s) i = Some (w, t) -> w_waiting w = true ->
  (forall j wj tj, j < i -> nth_error (x_ws s) j = Some (wj, tj) -> w_waiting wj = false) ->
  step is_empty s (ERun i) <> Blocked.
Proof.
  intros V R is_empty txs w0 s i w t G H E Ew A F. cbn [step] in F. destruct (reach_inv V R is_empty txs w0 G s H) as (tau & sn & HI).
  assert (L : i < length (x_ws s)) by (apply nth_error_Some; congruence). pose proof (run_spec V R is_empty txs w0 G s tau sn i HI L) as K. rewrite F in K.
  destruct K as [K|K]; [rewrite (done_at V R s i w t E), Ew in K; discriminate K|]. apply K. intros j Lj.
  destruct (nth_error (x_ws s) j) as [(wj, tj)|] eqn:Ej; [|apply nth_error_None in Ej; lia]. rewrite (done_at V R s j wj tj Ej), (A j wj tj Lj Ej). reflexivity.
Qed.
Print Assumptions C61_oldest_runs.
Theorem C61_next_begins : forall V R (is_empty : V -> bool) (txs : list (list req * prog V R)) w0 s,
  good_block txs w0 -> reach is_empty (start w0 txs) s -> x_todo s <> [] -> exists s', step is_empty s EPrepare = Ok s'.
Proof.
  intros V R is_empty txs w0 s G H N. destruct (reach_inv V R is_empty txs w0 G s H) as (tau & sn & HI). pose proof (prepare_spec V R txs w0 G s tau sn HI) as K.
  cbn [step]. destruct (prepare s) as [s'| |]; [eauto|contradiction|contradiction].
Qed.
Print Assumptions C61_next_begins.

(* No schedule goes on for ever. *)
Theorem C61_halts : forall V R (is_empty : V -> bool) (s : sys V R), Acc (fun s' s => exists e, step is_empty s e = Ok s') s.
Proof. exact halts. Qed.
Print Assumptions C61_halts.

(* A schedule that can go no further has executed the block. *)
Theorem C61_completes : forall V R (is_empty : V -> bool) (txs : list (list req * prog V R)) w0 s,
  good_block txs w0 -> rolls_back_safely is_empty txs w0 -> reach is_empty (start w0 txs) s ->
  (forall e s', step is_empty s e <> Ok s') -> finished s.
Proof.
  intros V R is_empty txs w0 s G SF H St. destruct (C61_no_panic V R is_empty txs w0 s G SF H) as (_ & NP).
  assert (Et : x_todo s = []).
  { destruct (x_todo s) eqn:Et; [reflexivity|]. destruct (C61_next_begins V R is_empty txs w0 s G H) as (s' & E); [congruence|]. destruct (St _ _ E). }
  split; [exact Et|]. intros i. induction i as [i IH] using lt_wf_ind. intros w t E. destruct (w_waiting w) eqn:Ew; [|reflexivity]. exfalso.
  assert (L : i < length (x_ws s)) by (apply nth_error_Some; congruence).
  pose proof (C61_oldest_runs V R is_empty txs w0 s i w t G H E Ew (fun j wj tj Lj Ej => IH j Lj wj tj Ej)) as NB. specialize (NP i L).
  destruct (step is_empty s (ERun i)) as [s'| |] eqn:Es; [exact (St _ _ Es)|contradiction|contradiction].
Qed.
Print Assumptions C61_completes.
Example C61_ex_safe : rolls_back_safely (Nat.eqb 0) ex_txs ex_w0.
Proof.
  intros i rq p E. destruct i as [|[|[|[|[|i]]]]]; cbn in E; try (injection E as <- <-); try (destruct i; discriminate E); intros RB; vm_compute in RB; try destruct RB.
  - right. intros id Hin. cbn in Hin. destruct Hin as [Hin|[Hin|[]]]; injection Hin as <-; reflexivity.
Qed.

(* Without that: a transaction after one with the world lock writes an account
   that did not exist and rolls back. *)
Theorem C61_violated_rollback : exists (txs : list (list req * prog nat nat)) w0 s,
  txs = [([(None, WLock)], Done (Some 0)); ([(Some 1, WLock)], Put 1 5 (Rollback 0 (Done (Some 0))))] /\
  good_block txs w0 /\ reach (Nat.eqb 0) (start w0 txs) s /\ step (Nat.eqb 0) s (ERun 1) = Panic.
Proof.
  exists [([(None, WLock)], Done (Some 0)); ([(Some 1, WLock)], Put 1 5 (Rollback 0 (Done (Some 0))))], (fun _ => 0).
  destruct (steps (Nat.eqb 0) (start (fun _ => 0) [([(None, WLock)], Done (Some 0)); ([(Some 1, WLock)], Put 1 5 (Rollback 0 (Done (Some 0))))])
    [EPrepare; ERun 0; ERun 0; EPrepare; ERun 1; ERun 1]) as [s| |] eqn:E; [|vm_compute in E; discriminate E|vm_compute in E; discriminate E].
  exists s. split; [reflexivity|]. split; [|split].
  - intros i rq p En. destruct i as [|[|i]]; cbn in En; try (injection En as <- <-); try (destruct i; discriminate En);
      (split; [intros r Hr; cbn in Hr; destruct Hr as [<-|[]]; left; reflexivity|cbn; unfold may_write; cbn; auto]).
  - exact (steps_reach _ _ _ _ _ _ _ (reach_refl _ _ _ _) E).
  - revert E. vm_compute. intros E. injection E as <-. reflexivity.
Qed.
Print Assumptions C61_violated_rollback.
