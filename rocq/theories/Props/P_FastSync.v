(** C70: catching up by fetching blocks from peers. *)
From Coq Require Import ZArith List Bool Arith Lia.
From Verif Require Import Model.Bytes Model.FastSync Spec.FastSyncSpec Proof.FastSyncInv Proof.FastSyncOps Proof.FastSyncSys Proof.FastSyncMore Proof.FastSyncDead Proof.FastSyncBad.
Import ListNotations.
Open Scope Z_scope.

(** Whatever peers, timers and the caller do, no step panics. *)
Theorem C70_safe : forall parse l, Forall plain l -> exists s e, run parse start l = Some (s, e).
Proof. intros parse l PL. destruct (run_ok parse false l PL ltac:(discriminate)) as (s & e & E & _). eauto. Qed.
Print Assumptions C70_safe.

(** Every request is seen to do only what [moves] allows: one block at a time,
    the next height each time. *)
Theorem C70_protocol : forall parse l s e n, Forall plain l -> run parse start l = Some (s, e) ->
  exists p, follows parse n NotYet e p.
Proof.
  intros parse l s e n PL E. destruct (run_ok parse false l PL ltac:(discriminate)) as (s' & e' & E' & SI). rewrite E in E'.
  injection E' as <- <-. exact (some_phase parse false s e n SI).
Qed.
Print Assumptions C70_protocol.

(** The blocks taken of a request are its first ones, in order, without gaps and
    without repetition. *)
Theorem C70_order : forall parse l s e n b last, Forall plain l -> run parse start l = Some (s, e) -> In (EBegin n b last) e ->
  exists k, taken n e = upwards b k.
Proof.
  intros parse l s e n b last PL E I1. destruct (C70_protocol parse l s e n PL E) as (p & F).
  destruct (taken_of_follows parse n _ _ _ F) as ((A & _) & _). exact (A b last I1).
Qed.
Print Assumptions C70_order.

(** A block which the caller is given is one of the height which it says. *)
Theorem C70_height : forall parse l s e r, Forall plain l -> run parse start l = Some (s, e) -> In (EBlock r) e ->
  parse (r_data r) = Some (r_height r).
Proof.
  intros parse l s e r PL E I1. destruct (C70_protocol parse l s e (r_of r) PL E) as (p & F).
  exact (follows_block parse _ _ _ _ r F I1 eq_refl).
Qed.
Print Assumptions C70_height.

(** When a request has ended or was cancelled nothing more is heard of it; the
    caller may only answer what it had. *)
Theorem C70_over : forall parse l s n e1 ev e2, Forall plain l -> run parse start l = Some (s, e1 ++ ev :: e2) ->
  (exists b, ev = EEnd n b) \/ ev = ECancel n ->
  forall x, In x e2 -> number x = n -> exists r, x = EConsumed r \/ x = ERejected r.
Proof.
  intros parse l s n e1 ev e2 PL E EV. destruct (C70_protocol parse l s _ n PL E) as (p & F).
  destruct (follows_split parse n _ _ _ _ F) as (p1 & _ & F1). destruct (over_after parse n _ _ _ _ F1 EV) as (w & F2).
  exact (follows_over parse n w _ _ F2).
Qed.
Print Assumptions C70_over.

(** It ends without an error when its last block was taken, or when a block was
    taken, no peer is left and the next block is not there. *)
Theorem C70_ends_well : forall parse l s e o s' e' n, Forall plain (l ++ [o]) -> run parse start l = Some (s, e) ->
  step parse s o = Some (s', e') -> In (EEnd n false) e' ->
  exists net k r q, o = Consume net k /\ nth_error (s_out s) k = Some r /\ c_req (s_client s) = Some q /\ q_no q = n /\ r_of r = n
    /\ r_height r = q_offset q /\ (h_end (q_hs q) <= r_height r \/ (q_peers q = [] /\ nth 1 (q_pending q) None = None)).
Proof.
  intros parse l s e o s' e' n PL E ST I1. apply Forall_app in PL. destruct PL as (PL & P1). inversion P1 as [|x y P2 _]. subst x y.
  destruct (run_ok parse false l PL ltac:(discriminate)) as (s1 & e1 & E' & SI). rewrite E in E'. injection E' as <- <-.
  exact (ends_well parse s e o s' e' n SI P2 ST I1).
Qed.
Print Assumptions C70_ends_well.

(** A peer whose block was rejected gives none any more, unless it joins again. *)
Theorem C70_rejected : forall parse l net k l' s e r s' e', Forall plain (l ++ Reject net k :: l') ->
  run parse start l = Some (s, e) -> nth_error (s_out s) k = Some r ->
  run parse s (Reject net k :: l') = Some (s', e') ->
  (forall nt, ~ In (Join nt (r_peer r)) l') ->
  forall x, In (EBlock x) e' -> r_of x = r_of r -> r_peer x <> r_peer r.
Proof.
  intros parse l net k l' s e r s' e' PL E N E' NJ. apply Forall_app in PL. destruct PL as (PL & P1). inversion P1 as [|x y P2 P3]. subst x y.
  destruct (run_ok parse false l PL ltac:(discriminate)) as (s0 & e0 & E0 & SI). rewrite E in E0. injection E0 as <- <-.
  cbn [run] in E'. destruct (step parse s (Reject net k)) as [[s1 e1]|] eqn:ST; [|discriminate E'].
  destruct (run parse s1 l') as [[s2 e2]|] eqn:RU; [|discriminate E']. injection E' as <- <-.
  destruct (step_ok parse false s e (Reject net k) SI P2 ltac:(discriminate)) as (s1' & e1' & ST' & SI1). rewrite ST in ST'. injection ST' as <- <-.
  destruct (rejected_shut parse s e net k r s1 e1 SI N ST) as (SH & e1' & -> & NB).
  pose proof (run_shut parse (r_peer r) (r_of r) l' s1 _ s2 e2 SI1 P3 NJ SH RU) as Q.
  intros x I1 RO. apply in_app_iff in I1. destruct I1 as [[X|I1]|I1]; [discriminate X|contradiction (NB x I1)|exact (Q x I1 RO)].
Qed.
Print Assumptions C70_rejected.

(** A peer which sends more than it announced, or what is not the block asked for, while no block of its own waits to be answered,
    gives none any more, unless it joins again. *)
Theorem C70_bad_data : forall parse l net i data l' s e q p f s' e', Forall plain (l ++ Receive net i (Data (f_req f) data) :: l') ->
  run parse start l = Some (s, e) -> c_req (s_client s) = Some q -> In p (q_peers q) -> p_id p = i -> p_f p = Some f -> f_step f = FWaitData ->
  (f_left f - Z.of_nat (length data) < 0
   \/ (f_left f - Z.of_nat (length data) = 0 /\ parse (concat (f_data f ++ [data])) <> Some (f_height f))) ->
  (forall r, In r (s_out s) -> r_of r = q_no q -> r_peer r <> i) ->
  run parse s (Receive net i (Data (f_req f) data) :: l') = Some (s', e') ->
  (forall nt, ~ In (Join nt i) l') ->
  forall x, In (EBlock x) e' -> r_of x = q_no q -> r_peer x <> i.
Proof.
  intros parse l net i data l' s e q p f s' e' PL E EQ IP PI PF FS BD OU E' NJ. apply Forall_app in PL. destruct PL as (PL & P1). inversion P1 as [|x y P2 P3]. subst x y.
  destruct (run_ok parse false l PL ltac:(discriminate)) as (s0 & e0 & E0 & SI). rewrite E in E0. injection E0 as <- <-.
  cbn [run] in E'. destruct (step parse s (Receive net i (Data (f_req f) data))) as [[s1 e1]|] eqn:ST; [|discriminate E'].
  destruct (run parse s1 l') as [[s2 e2]|] eqn:RU; [|discriminate E']. injection E' as <- <-.
  destruct (step_ok parse false s e _ SI P2 ltac:(discriminate)) as (s1' & e1' & ST' & SI1). rewrite ST in ST'. injection ST' as <- <-.
  assert (HD : forall r, hd_pending q = Some r -> r_peer r <> i).
  { intros r HD. destruct (si_req _ _ _ _ SI q EQ) as (V & _ & _ & _ & _ & O). rewrite HD in O. cbn [olist] in O.
    assert (I1 : In r (outs (q_no q) (s_out s))) by (rewrite O; left; reflexivity). apply filter_In in I1. destruct I1 as [I1 I2]. apply Nat.eqb_eq in I2. apply OU; auto. }
  destruct (bad_shut parse s e net i data q p f s1 e1 SI EQ IP PI PF FS BD HD ST) as (SH & NB).
  pose proof (run_shut parse i (q_no q) l' s1 _ s2 e2 SI1 P3 NJ SH RU) as Q.
  intros x I1 RO. apply in_app_iff in I1. destruct I1 as [I1|I1]; [contradiction (NB x I1)|exact (Q x I1 RO)].
Qed.
Print Assumptions C70_bad_data.

(** Where no request fails to be sent and no block of a peer which is fetching
    is rejected, no height is forgotten: each from the next one to the first one
    never asked for is to be fetched, is being fetched, or is here. *)
Theorem C70_none_forgotten : forall parse l s e q h, Forall plain l -> mild_all parse start l -> run parse start l = Some (s, e) ->
  c_req (s_client s) = Some q -> q_offset q <= h < h_begin (q_hs q) -> wants q h.
Proof.
  intros parse l s e q h PL MI E EQ H. destruct (run_ok parse true l PL (fun _ => MI)) as (s1 & e1 & E' & SI). rewrite E in E'.
  injection E' as <- <-. exact (all_wanted parse s e q h SI EQ H).
Qed.
Print Assumptions C70_none_forgotten.

(** Then a request with peers, none of whose blocks is with the caller, waits for
    some peer whose time can run out; *)
Theorem C70_progress : forall parse l s e q, Forall plain l -> mild_all parse start l -> run parse start l = Some (s, e) ->
  c_req (s_client s) = Some q -> q_peers q <> [] -> (forall r, In r (s_out s) -> r_of r <> q_no q) ->
  exists i no, armed q i no.
Proof.
  intros parse l s e q PL MI E EQ NP NO. destruct (run_ok parse true l PL (fun _ => MI)) as (s1 & e1 & E' & SI). rewrite E in E'.
  injection E' as <- <-. apply (progress parse s e q SI EQ NP). unfold outs.
  clear - NO. induction (s_out s) as [|r l IH]; [reflexivity|]. cbn [filter]. destruct (Nat.eqb_spec (r_of r) (q_no q)) as [X|X].
  - contradiction (NO r (or_introl eq_refl) X).
  - apply IH. intros x I1. exact (NO x (or_intror I1)).
Qed.
Print Assumptions C70_progress.

(** and if no one answers, the timers alone end it. *)
Theorem C70_silence : forall parse l s e q, Forall plain l -> mild_all parse start l -> run parse start l = Some (s, e) ->
  c_req (s_client s) = Some q -> q_peers q <> [] -> (forall r, In r (s_out s) -> r_of r <> q_no q) ->
  exists l' s' e', Forall (fun o => exists i no, o = Timer (fun _ => Sent) i no) l' /\ run parse s l' = Some (s', e') /\ In (EEnd (q_no q) true) e'.
Proof.
  intros parse l s e q PL MI E EQ NP NO. destruct (run_ok parse true l PL (fun _ => MI)) as (s1 & e1 & E' & SI). rewrite E in E'.
  injection E' as <- <-. apply (silence_ends parse _ s e q SI EQ eq_refl NP). unfold outs.
  clear - NO. induction (s_out s) as [|r l IH]; [reflexivity|]. cbn [filter]. destruct (Nat.eqb_spec (r_of r) (q_no q)) as [X|X].
  - contradiction (NO r (or_introl eq_refl) X).
  - apply IH. intros x I1. exact (NO x (or_intror I1)).
Qed.
Print Assumptions C70_silence.

(** A timeout removes the peer, or ends the request. *)
Theorem C70_timeout : forall parse l s e q p f net, Forall plain l -> mild_all parse start l -> run parse start l = Some (s, e) ->
  c_req (s_client s) = Some q -> In p (q_peers q) -> p_f p = Some f -> f_timer f = Some ForResponse ->
  (forall j, j <> p_id p -> net j <> Failed) ->
  (exists s', step parse s (Timer net (p_id p) (f_no f)) = Some (s', [EEnd (q_no q) true]) /\ c_req (s_client s') = None)
  \/ exists s' q', step parse s (Timer net (p_id p) (f_no f)) = Some (s', []) /\ c_req (s_client s') = Some q' /\ s_out s' = s_out s
       /\ q_no q' = q_no q /\ length (q_peers q) = S (length (q_peers q')) /\ ~ In (p_id p) (map p_id (q_peers q'))
       /\ hd_pending q' = hd_pending q.
Proof.
  intros parse l s e q p f net PL MI E EQ I1 EF ET NF. destruct (run_ok parse true l PL (fun _ => MI)) as (s1 & e1 & E' & SI). rewrite E in E'.
  injection E' as <- <-. exact (fire parse s e q p f net SI EQ I1 EF ET NF).
Qed.
Print Assumptions C70_timeout.

(** ** Where it goes wrong *)

(** Blocks of height [h] are [h] bytes here. *)
Definition by_length (d : bytes) : option Z := Some (Z.of_nat (length d)).
Definition sent : peer_id -> outcome := fun _ => Sent.
Definition block (h : nat) : bytes := repeat 0 h.
Definition gives (i : peer_id) (req : Z) (h : nat) : list op :=
  [Receive sent i (Metadata req (Z.of_nat h) []); Receive sent i (Data req (block h))].

Arguments gives i%nat_scope req%Z_scope h%nat_scope.
Arguments Join net i%nat_scope.
Arguments Timer net i%nat_scope no%nat_scope.
Arguments waits i%nat_scope n%nat_scope s.

(** Peers 1 and 2 are asked for 1 and 2; peer 1 gives a block 1 and is asked for
    3; its block 1 is rejected; then peer 2 gives 2 and all the others. *)
Definition rejecting : list op :=
  [Fetch sent 1 5 [1%nat; 2%nat]] ++ gives 1 65536 1 ++ [Reject sent 0]
  ++ gives 2 65536 2 ++ gives 2 65537 1 ++ [Consume sent 0; Consume sent 0] ++ gives 2 65538 4 ++ gives 2 65539 5.

(** Block 3 is never asked for again: whatever happens later, as long as the
    caller does not cancel the request, it neither gives a block nor ends. *)
Theorem C70_violated_reject : exists s e, run by_length start rejecting = Some (s, e) /\ Forall plain rejecting
  /\ taken 0%nat e = [1; 2] /\ (exists q, c_req (s_client s) = Some q /\ q_no q = O /\ q_offset q = 3 /\ h_end (q_hs q) = 5
                              /\ map p_id (q_peers q) = [2%nat])
  /\ forall l, ~ In Cancel l -> exists s' e', run by_length s l = Some (s', e')
       /\ (forall b, ~ In (EEnd 0%nat b) e') /\ (forall r, r_of r = O -> ~ In (EBlock r) e').
Proof.
  destruct (run by_length start rejecting) as [[s e]|] eqn:E; [|vm_compute in E; discriminate E].
  exists s, e. split; [reflexivity|]. split.
  { repeat constructor; cbn; intuition discriminate. }
  vm_compute in E. injection E as <- <-. split; [reflexivity|]. split.
  { eexists. split; [reflexivity|]. repeat split. }
  intros l NC.
  match goal with |- exists s' e', run by_length ?x l = _ /\ _ => assert (ST : stuck 0%nat x) end.
  { split; [|reflexivity]. eexists. split; [reflexivity|]. split; [reflexivity|]. constructor.
    - intros p [<- |[]]. reflexivity.
    - reflexivity.
    - left. reflexivity. }
  destruct (stuck_forever by_length 0%nat l _ ST NC) as (s' & e' & R & _ & S1 & S2). exists s', e'. auto.
Qed.
Print Assumptions C70_violated_reject.

(** A request which cannot be sent to a peer (and not for the moment only) is
    taken for one which is under way: without the peer leaving, whatever happens
    later, the request of the caller neither gives a block nor ends. *)
Theorem C70_violated_send : exists s e, run by_length start [Fetch (fun _ => Failed) 1 5 [1%nat]] = Some (s, e)
  /\ forall l, Forall plain l -> ~ In Cancel l -> (forall net, ~ In (Leave net 1%nat) l) -> exists s' e', run by_length s l = Some (s', e')
       /\ (forall b, ~ In (EEnd 0%nat b) e') /\ (forall r, r_of r = O -> ~ In (EBlock r) e').
Proof.
  assert (PL : Forall plain [Fetch (fun _ => Failed) 1 5 [1%nat]]).
  { constructor; [|constructor]. cbn. constructor; [intros []|constructor]. }
  destruct (run_ok by_length false _ PL ltac:(discriminate)) as (s & e & E & SI). exists s, e. split; [exact E|].
  intros l PL' NC NL.
  assert (W : waits 1 0 s).
  { vm_compute in E. injection E as <- <-. eexists. split; [reflexivity|]. split; [reflexivity|]. split; [|reflexivity].
    eexists _, _. split; [left; reflexivity|]. repeat split. }
  destruct (waits_forever by_length 1%nat 0%nat l s e SI W PL' NC NL) as (s' & e' & R & _ & S1 & S2). exists s', e'. auto.
Qed.
Print Assumptions C70_violated_send.

(** A request for no blocks never ends. *)
Theorem C70_violated_nothing : exists s e, run by_length start [Fetch sent 5 4 [1%nat; 2%nat]] = Some (s, e)
  /\ forall l, ~ In Cancel l -> exists s' e', run by_length s l = Some (s', e')
       /\ (forall b, ~ In (EEnd 0%nat b) e') /\ (forall r, r_of r = O -> ~ In (EBlock r) e').
Proof.
  eexists _, _. split; [vm_compute; reflexivity|]. intros l NC.
  match goal with |- exists s' e', run by_length ?x l = _ /\ _ => assert (ST : stuck 0%nat x) end.
  { split; [|reflexivity]. eexists. split; [reflexivity|]. split; [reflexivity|]. constructor.
    - intros p [<- |[<- |[]]]; reflexivity.
    - reflexivity.
    - left. reflexivity. }
  destruct (stuck_forever by_length 0%nat l _ ST NC) as (s' & e' & R & _ & S1 & S2). exists s', e'. auto.
Qed.
Print Assumptions C70_violated_nothing.

(** It can end without an error with blocks missing: the only peer gave block 1
    and then nothing. *)
Definition deserted : list op :=
  [Fetch sent 1 5 [1%nat]] ++ gives 1 65536 1 ++ [Timer sent 1 1; Consume sent 0].
Theorem C70_violated_short : exists s e, run by_length start deserted = Some (s, e) /\ taken 0%nat e = [1]
  /\ In (EBegin 0%nat 1 5) e /\ In (EEnd 0%nat false) e.
Proof. eexists _, _. split; [vm_compute; reflexivity|]. cbn. auto 10. Qed.
Print Assumptions C70_violated_short.

(** ** Cases *)

(** Two blocks come in the wrong order and are given in the right one. *)
Definition usual : list op :=
  [Fetch sent 1 2 [1%nat; 2%nat]; Join sent 3] ++ gives 2 65536 2 ++ gives 1 65536 1 ++ [Consume sent 0; Consume sent 0].
Example C70_usual : Forall plain usual /\ mild_all by_length start usual
  /\ exists s e, run by_length start usual = Some (s, e) /\ taken 0%nat e = [1; 2] /\ In (EEnd 0%nat false) e /\ c_req (s_client s) = None.
Proof.
  split; [repeat constructor; cbn; intuition discriminate|]. split.
  - cbn [usual app gives]. repeat (split; [cbn; try split; try (intros ? ?; discriminate); try (intros ?; discriminate); try lia; auto|];
      let s := fresh "s" in let e := fresh "e" in let E := fresh "E" in intros s e E; vm_compute in E; injection E as <- <-). exact Logic.I.
  - eexists _, _. split; [vm_compute; reflexivity|]. cbn. auto 10.
Qed.

(** A state which [C70_progress], [C70_silence] and [C70_timeout] speak of. *)
Example C70_waiting : exists s e q p f, run by_length start [Fetch sent 1 2 [1%nat; 2%nat]; Join sent 3] = Some (s, e)
  /\ c_req (s_client s) = Some q /\ q_peers q <> [] /\ s_out s = [] /\ In p (q_peers q) /\ p_f p = Some f /\ f_timer f = Some ForResponse
  /\ q_offset q < h_begin (q_hs q).
Proof.
  eexists _, _, _, _, _. split; [vm_compute; reflexivity|]. split; [reflexivity|]. split; [discriminate|]. split; [reflexivity|].
  split; [left; reflexivity|]. split; [reflexivity|]. split; [reflexivity|]. reflexivity.
Qed.

(** The peer whose block is rejected had another one here. *)
Definition bad_peer : list op :=
  [Fetch sent 1 5 [1%nat]] ++ gives 1 65536 1 ++ gives 1 65537 2 ++ [Join sent 2].
Example C70_bad_peer : exists s e r s' e', run by_length start bad_peer = Some (s, e) /\ nth_error (s_out s) 0 = Some r /\ r_peer r = 1%nat
  /\ run by_length s (Reject sent 0 :: gives 2 65536 4 ++ gives 2 65537 1 ++ [Consume sent 0] ++ gives 2 65538 2) = Some (s', e')
  /\ (exists x, In (EBlock x) e' /\ r_height x = 2 /\ r_peer x = 2%nat).
Proof.
  eexists _, _, _, _, _. split; [vm_compute; reflexivity|]. split; [reflexivity|]. split; [reflexivity|]. split; [vm_compute; reflexivity|].
  eexists. split; [cbn; right; right; right; left; reflexivity|]. split; reflexivity.
Qed.
