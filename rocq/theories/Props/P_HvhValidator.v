(** C39, C40, C43: HAVAH validators. *)
From Verif Require Import Model.HvhState Model.HvhValidator Spec.HvhValSpec Proof.HvhValFacts Proof.HvhValTurn Proof.HvhValInv
  Proof.HvhValSeats Proof.HvhValBase Proof.HvhValVotes Proof.HvhValHist Proof.HvhValEffect Proof.HvhValMore Proof.HvhValMiss.
From Coq Require Import ZArith String List Bool Arith Lia Permutation.
Import ListNotations.
Open Scope nat_scope.

(** * A sample network *)
Definition acct (key : list Z) : option Z := hd_error key.
Definition key (k : Z) : list Z := k :: repeat 0%Z 32.
Definition ad (k : Z) : addr := mkAddr false k.
Definition gv : addr := mkAddr true 1.
Definition run (ops : list vop) (w : vworld) : vworld := fold_left (fun w op => snd (vexec acct op w)) ops w.
Definition every : addr -> bool := fun _ => true.
Definition idle (l : list seat) : list seat := l.
Definition sub_of (o k : Z) : vop := ORegister gv (ad o) (key k) "sub" "s" None None.
(** owner 1 with node 101 (main), owners 2 to 5 with nodes 102 to 105 (sub); three seats *)
Definition setup : list vop :=
  [ ORegister gv (ad 1) (key 101) "main" "m" None None; sub_of 2 102; sub_of 3 103; sub_of 4 104; sub_of 5 105;
    OSetCount gv 3; OVoteParams gv 1 1 ].
Definition w0 : vworld := start 4 gv [ad 101] every.
Definition w1 : vworld := run setup w0.
(** the first term, then blocks in which 102 misses *)
Definition w2 : vworld := run [OBase 0 [] idle] w1.
Definition miss : vop := OBase 1 [(ad 101, true); (ad 102, false); (ad 103, true)] idle.
Definition w3 : vworld := run [miss] w2.
Definition w4 : vworld := run [miss; miss] w2.

Lemma reached_run ops w : Forall fair ops -> reached acct w ops (run ops w).
Proof.
  unfold run. induction ops as [|op ops IH] using rev_ind; intros F; [constructor|].
  apply Forall_app in F as (F1 & F2). inversion F2; subst. rewrite fold_left_app. cbn. constructor; auto.
Qed.
Lemma fair_idle ix votes : (0 <= ix)%Z -> fair (OBase ix votes idle).
Proof. intros H. split; [auto|]. intros l. apply Permutation_refl. Qed.
Ltac fairs := repeat (constructor; [first [exact I | apply fair_idle; lia]|]); constructor.
Lemma reached_app acc w ops w1 ops' w2 : reached acc w ops w1 -> reached acc w1 ops' w2 -> reached acc w (ops ++ ops') w2.
Proof.
  intros A B. induction B as [|w1' ops1 w2 op B IH F]; [rewrite app_nil_r; auto|]. rewrite app_assoc. constructor; auto.
Qed.

Example sample_terms :
  v_active w2 = [ad 101; ad 102; ad 103] /\ v_index w2 = 2 /\ ns_decent (v_net w2) = true /\
  v_active w4 = [ad 101; ad 104; ad 103] /\ v_index w4 = 3 /\ disabled w4 (ad 2).
Proof. vm_compute. repeat split. eexists. split; reflexivity. Qed.

(** * C39 *)
Section C39.
Variable account_of : list Z -> option Z.
Notation reached := (reached account_of).
Notation exec := (vexec account_of).

(** The lists of validators hold each registered owner in exactly one place, once. *)
Theorem C39_registry rev gov act keyed ops w : NoDup act -> reached (start rev gov act keyed) ops w ->
  NoDup (v_main w) /\ NoDup (v_sub w) /\ NoDup (v_gone w) /\
  (forall o, In o (v_main w) <-> has_grade w o Main /\ ~ disqualified w o) /\
  (forall o, In o (v_sub w) <-> has_grade w o Sub /\ ~ disqualified w o) /\
  (forall o, In o (v_gone w) <-> disqualified w o) /\
  (forall o, registered w o <-> v_stat w o <> None) /\
  (forall o, has_grade w o Main -> ~ disabled w o).
Proof.
  intros nd H. pose proof (reached_inv account_of _ _ _ (start_inv rev gov act keyed nd) H) as [r _ _ _].
  assert (L : forall o g, live w o g <-> has_grade w o g /\ ~ disqualified w o).
  { intros o g. split.
    - intros (i & s & A & B & C & D). split; [exists i; auto|]. intros (t & E & F). congruence.
    - intros ((i & A & B) & N). destruct (v_stat w o) as [s|] eqn:S0.
      + exists i, s. repeat split; auto. destruct (vs_disq s) eqn:D; [|auto]. contradiction N. exists s. auto.
      + apply (r_both w r) in S0. congruence. }
  destruct (r_nd w r) as (A & B & C). split; [auto|]. split; [auto|]. split; [auto|].
  split; [intros o; rewrite (r_main w r); apply L|]. split; [intros o; rewrite (r_sub w r); apply L|].
  split; [apply (r_gone w r)|]. split; [intros o; unfold registered; rewrite (r_both w r); tauto|].
  intros o (i & I0 & G) (s & S0 & D). pose proof (r_on w r o i s I0 G S0). congruence.
Qed.

(** A node has one owner for ever; no two owners validate with the same node; grades and disqualification stay. *)
Theorem C39_nodes rev gov act keyed ops w : NoDup act -> reached (start rev gov act keyed) ops w ->
  (forall o p n, node w o = Some n -> node w p = Some n -> o = p) /\
  (forall o n, node w o = Some n -> v_nto w n = Some o) /\
  (forall ops' w', reached w ops' w' ->
     (forall n o, v_nto w n = Some o -> v_nto w' n = Some o) /\
     (forall o g, has_grade w o g -> has_grade w' o g) /\
     (forall o, disqualified w o -> disqualified w' o)).
Proof.
  intros nd H. pose proof (reached_inv account_of _ _ _ (start_inv rev gov act keyed nd) H) as iv.
  split; [intros; eapply node_inj; eauto; apply iv|]. split; [intros; eapply node_owner; eauto; apply iv|].
  intros ops' w' R. induction R as [|u ops1 w1 op R IH F]; [auto|].
  destruct (IH H iv) as (A & B & C). pose proof (reached_inv account_of _ _ _ iv R) as iv1.
  assert (E := vexec_effect account_of op w1 iv1 F). split; [|split].
  - intros n o X. eapply nto_kept; eauto.
  - intros o g X. destruct (B o g X) as (i & X1 & X2). destruct (grade_kept account_of _ _ _ o i iv1 E X1) as (j & Y1 & Y2). exists j. split; congruence.
  - intros o X. apply disq_kept; auto.
Qed.

(** Only governance registers an owner, only the owner changes its information, only they unregister it. *)
Theorem C39_authority rev gov act keyed ops w op o : NoDup act -> reached (start rev gov act keyed) ops w -> fair op ->
  let w' := snd (exec op w) in
  (v_info w' o <> v_info w o ->
     match op with
     | ORegister from p _ _ _ _ _ => from = v_gov w /\ p = o /\ ~ registered w o
     | OSetInfo from _ | OSetKey from _ _ => from = o /\ registered w o
     | _ => False
     end) /\
  (disqualified w' o -> disqualified w o \/ exists from, op = OUnregister from o /\ (from = v_gov w \/ from = o)).
Proof.
  intros nd H F w'. pose proof (reached_inv account_of _ _ _ (start_inv rev gov act keyed nd) H) as iv.
  assert (E := vexec_effect account_of op w iv F). fold w' in E. clearbody w'. split.
  - intros X. pose proof (info_changes account_of w op w' o iv E X) as Y. unfold registered. destruct op; auto. destruct Y as (A & B & C). rewrite C. auto.
  - intros (s' & A & B). destruct (v_stat w o) as [s|] eqn:S0.
    + destruct (stat_changes account_of w op w' o s iv E S0) as (t & T1 & T2 & T3 & _). assert (t = s') by congruence. subst t.
      destruct (vs_disq s) eqn:D; [left; exists s; auto|]. right. apply T3. congruence.
    + exfalso. assert (iv' := vinv_effect account_of _ _ _ iv E).
      assert (IN : v_info w' o <> v_info w o).
      { apply (r_both w (i_regs w iv)) in S0. rewrite S0. intros X. apply (r_both w' (i_regs w' iv')) in X. congruence. }
      pose proof (info_changes account_of w op w' o iv E IN) as Y. clear IN. destruct op; try contradiction; unfold registered in *.
      * inversion E; subst; vc; [congruence|].
        assert (owner = o) by tauto. subst o. unfold aupd in A. rewrite arefl in A. injection A as <-. discriminate B.
      * destruct Y as (_ & Y). apply (r_both w (i_regs w iv)) in S0. congruence.
      * destruct Y as (_ & Y). apply (r_both w (i_regs w iv)) in S0. congruence.
Qed.

(** The active set never lists a node twice. *)
Theorem C39_active_once rev gov act keyed ops w : NoDup act -> reached (start rev gov act keyed) ops w -> NoDup (v_active w).
Proof. intros nd H. apply (reached_inv account_of _ _ _ (start_inv rev gov act keyed nd) H). Qed.

(** From the first block of a term of the decentralised network on, as long as governance seats nobody by hand, each
    active node is the present node of a registered owner that is not disqualified. *)
Theorem C39_active_current rev gov act keyed ops w votes order ops' w' :
  NoDup act -> reached (start rev gov act keyed) ops w -> fair (OBase 0 votes order) ->
  fst (exec (OBase 0 votes order) w) = None -> ns_decent (v_net (snd (exec (OBase 0 votes order) w))) = true ->
  reached (snd (exec (OBase 0 votes order) w)) ops' w' -> (forall from a, ~ In (OGrant from a) ops') ->
  (forall n, In n (v_active w') -> exists o, node w' o = Some n /\ v_nto w' n = Some o /\ ~ disqualified w' o) /\
  (forall o n, v_nto w' n = Some o -> disqualified w' o -> ~ In n (v_active w')) /\
  (forall o n, v_nto w' n = Some o -> node w' o <> Some n -> ~ In n (v_active w')).
Proof.
  intros nd H F OK D R NG. pose proof (reached_inv account_of _ _ _ (start_inv rev gov act keyed nd) H) as iv.
  assert (CUR : vinv w' /\ current w').
  { remember (snd (exec (OBase 0 votes order) w)) as u eqn:U.
    assert (B : vinv u /\ current u).
    { unfold vexec in OK, U. cbn [vcall] in OK, U. destruct (base 0 votes order w) as [e|[[] w2']] eqn:E; [discriminate|]. cbn in U. subst u.
      destruct F as [F0 F1].
      assert (BE : base_effect 0 votes w w2').
      { apply (base_inv 0 votes order w w2'); auto; apply iv. }
      split; [eapply (vinv_effect acct); [exact iv | exact (E_base acct w 0%Z votes order w2' BE)] | eapply current_term; eauto]. }
    clear OK U D. induction R as [|u ops1 w1' op R IH F']; [auto|].
    destruct IH as (iv1 & c1); [intros from a Q; apply (NG from a); apply in_or_app; auto | auto |].
    assert (E := vexec_effect account_of op w1' iv1 F'). split; [eapply vinv_effect; eauto|]. eapply current_effect; eauto.
    destruct op; auto. exfalso. apply (NG from a). apply in_or_app. right. left. auto. }
  destruct CUR as (iv' & c).
  assert (P : forall n, In n (v_active w') -> exists o, node w' o = Some n /\ v_nto w' n = Some o /\ ~ disqualified w' o).
  { intros n Hn. destruct (c n Hn) as (o & i & s & A & B & C & E). exists o. unfold node. rewrite A. cbn. rewrite B. split; [auto|].
    split; [subst n; eapply r_node; [apply iv' | eauto]|]. intros (t & X & Y). congruence. }
  split; [exact P|]. split.
  - intros o n N Q Hn. destruct (P n Hn) as (p & X1 & X2 & X3). assert (p = o) by congruence. subst p. contradiction.
  - intros o n N Q Hn. destruct (P n Hn) as (p & X1 & X2 & X3). assert (p = o) by congruence. subst p. contradiction.
Qed.

(** The set a term starts with (before its votes are looked at): the main validators with keys, in order, then the next
    sub validators in turn that are enabled and have keys, up to the configured number. *)
Theorem C39_term rev gov act keyed ops w order : NoDup act -> reached (start rev gov act keyed) ops w -> fair (OBase 0 [] order) ->
  ns_decent (v_net w) = true \/ (4 <= v_rev w /\ 1 <= v_count w <= Z.of_nat (List.length (v_main w) + List.length (v_sub w)))%Z ->
  fst (exec (OBase 0 [] order) w) = None ->
  let w' := snd (exec (OBase 0 [] order) w) in
  let count := Z.to_nat (v_count w) in
  let mains := firstn count (filter (v_keyed w) (nodes w (v_main w))) in
  ns_decent (v_net w') = true /\
  exists subs, v_active w' = mains ++ subs /\
    (List.length mains = count -> subs = [] /\ v_index w' = v_index w) /\
    (List.length mains < count -> turn w [] (count - List.length mains) subs (v_index w')) /\
    List.length (v_active w') <= count.
Proof.
  intros nd H F CD OK w' count mains. pose proof (reached_inv account_of _ _ _ (start_inv rev gov act keyed nd) H) as iv.
  unfold w' in *. unfold vexec in *. cbn [vcall] in *. destruct (base 0 [] order w) as [e|[[] u]] eqn:E; [discriminate|]. cbn [snd]. destruct F as [_ F].
  destruct (base_inv 0 [] order w u (i_regs w iv) (i_nodup w iv) (i_count w iv) F E) as (m & T & V).
  assert (TR : term_result w m).
  { destruct T as [(_ & _ & T) | ([Q | (Q1 & Q2)] & _)]; [auto | contradiction|]. destruct CD as [CD | (C1 & C2 & C3)]; [congruence|].
    unfold can_decentralize, RevisionDecentralization in Q2. apply Z.leb_le in C1, C2, C3. rewrite C1, C2, C3 in Q2. discriminate. }
  assert (SAME : v_active u = v_active m /\ v_index u = v_index m /\ v_net u = v_net m).
  { destruct V as [(_ & _ & pen & adds & [_ v2 _ _ (w2' & C1 & C2 & _ & _ & C5) _ v7]) | (_ & ->)]; [|auto]. cbn in C1. injection C1 as <- <-.
    split; [auto|]. split; [|unfold but_votes in v2; tauto]. destruct C5 as [(_ & ->) | (k & K1 & _ & K2)]; [auto | cbn in K2; lia]. }
  destruct SAME as (A1 & A2 & A3). destruct TR as [_ _ _ _ _ _ t7 t8 _]. rewrite A1, A2, A3, t7. split; [auto|].
  destruct t8 as (subs & S1 & S2). exists subs. fold count in S1, S2. fold mains in S1, S2. rewrite S1. split; [auto|].
  assert (ML : List.length mains <= count) by (unfold mains; rewrite firstn_length; lia).
  destruct S2 as [(X1 & -> & X3) | (X1 & X2)].
  - split; [auto|]. split; [lia|]. rewrite app_nil_r. auto.
  - split; [lia|]. split; [auto|]. rewrite app_length. destruct X2 as (_ & _ & _ & _ & _ & _ & X & _). lia.
Qed.

(** Unregistering: done by governance or the owner itself; the owner is out for good and its node leaves the active
    set at once. *)
Theorem C39_unregister rev gov act keyed ops w from o : NoDup act -> reached (start rev gov act keyed) ops w ->
  fst (exec (OUnregister from o) w) = None ->
  let w' := snd (exec (OUnregister from o) w) in
  (from = v_gov w \/ from = o) /\ registered w o /\ disqualified w' o /\
  (disqualified w o -> w' = w) /\
  (~ disqualified w o -> forall n, node w o = Some n -> forall x, In x (v_active w') <-> In x (v_active w) /\ x <> n).
Proof.
  intros nd H OK w'. pose proof (reached_inv account_of _ _ _ (start_inv rev gov act keyed nd) H) as iv. unfold w' in *. clear w'.
  unfold vexec in *. cbn [vcall] in *. destruct ((since 4;;; ext_unregister from o) w) as [e|[[] u]] eqn:E; [discriminate|]. cbn [snd]. clear OK.
  assert (EF := vcall_effect account_of (OUnregister from o) w u iv I E). apply since_inv in E.
  unfold ext_unregister in E. apply when_inv in E as [A E]. apply get_inv in E. apply when_inv in E as [B E].
  assert (P : from = v_gov w \/ from = o).
  { destruct (addr_eqb from (v_gov w)) eqn:X; [apply aeq in X; auto|]. destruct (addr_eqb from o) eqn:Y; [apply aeq in Y; auto | discriminate]. }
  split; [auto|]. unfold vbind at 1 in E. destruct (unregister o w) as [|[q u1]] eqn:U; [discriminate|].
  apply unregister_inv in U as (_ & s & S0 & [(D & -> & ->) | (D & i & l & I0 & PS & -> & W1)]).
  - injection E as <-. assert (DQ : disqualified w o) by (exists s; auto). split; [intros X; apply (r_both w (i_regs w iv)) in X; congruence|].
    split; [auto|]. split; [auto|]. contradiction.
  - split; [unfold registered; congruence|].
    assert (ND : ~ disqualified w o) by (intros (t & X & Y); congruence).
    inversion EF; subst.
    + exfalso. assert (Q : disqualified u o); [|contradiction].
      apply get_inv in E. destruct (replace_active _ _ _) as [[ch l']|]; [|discriminate].
      assert (ST : v_stat u o = Some (mkStat (vs_disabled s) true (vs_misses s) (vs_used s))).
      { unfold vbind, vput, vret in E. destruct ch; injection E as <-; vc; rewrite aupd_same; auto. }
      eexists. split; [exact ST | auto].
    + match goal with X : (~ In _ _ /\ _) \/ _ |- _ => rename X into H11 end.
      assert (i0 = i) by congruence. subst i0. split.
      { destruct H11 as [(N & ->) | (act0 & T & ->)]; eexists; vc; rewrite aupd_same; (split; [reflexivity | auto]). }
      split; [contradiction|]. intros _ n Hn x. unfold node in Hn. rewrite I0 in Hn. injection Hn as <-.
      destruct H11 as [(N & ->) | (act0 & T & ->)]; vc.
      * split; [intros Hx; split; [auto | intros ->; contradiction] | tauto].
      * destruct (take_out_some _ _ _ (i_nodup w iv) T) as (_ & _ & Z & _). apply Z.
Qed.

(** FINDING. A node seated by genesis or by grantValidator whose address no owner has registered makes every first
    block of a term impossible: its base transaction fails. *)
Theorem C39_violated_stranger rev gov act keyed ops w n votes order : NoDup act -> reached (start rev gov act keyed) ops w ->
  fair (OBase 0 votes order) -> In n (v_active w) -> v_nto w n = None ->
  ns_decent (v_net w) = true \/ (4 <= v_rev w /\ 1 <= v_count w <= Z.of_nat (List.length (v_main w) + List.length (v_sub w)))%Z ->
  fst (exec (OBase 0 votes order) w) <> None.
Proof.
  intros nd H F Hn N0 CD. pose proof (reached_inv account_of _ _ _ (start_inv rev gov act keyed nd) H) as iv.
  unfold vexec. cbn [vcall]. destruct (base 0 votes order w) as [e|[[] u]] eqn:E; [discriminate|]. exfalso. destruct F as [_ F].
  destruct (base_inv 0 votes order w u (i_regs w iv) (i_nodup w iv) (i_count w iv) F E) as (m & T & _).
  assert (TR : term_result w m).
  { destruct T as [(_ & _ & T) | ([Q | (Q1 & Q2)] & _)]; [auto | contradiction|]. destruct CD as [CD | (C1 & C2 & C3)]; [congruence|].
    unfold can_decentralize, RevisionDecentralization in Q2. apply Z.leb_le in C1, C2, C3. rewrite C1, C2, C3 in Q2. discriminate. }
  destruct TR as [_ _ (_ & _ & t3 & _) _ _ _ _ t8 (evs & (T1 & T2 & T3) & _)].
  assert (OUT : ~ In n (v_active m)).
  { intros X. destruct (term_set_nodes w _ _ n (i_regs w iv) t8 X) as (_ & o & _ & _ & Y & _). apply (node_owner w o n (i_regs w iv)) in Y. congruence. }
  rewrite T2 in OUT.
  assert (REM : forall evs (Q : addr -> Prop), Q n -> ~ replay evs Q n -> exists o y, In (EvRemoved o n y) evs).
  { clear. induction evs as [|e r IH]; intros Q A B; [contradiction|]. destruct e; cbn in B;
      try (destruct (IH Q A B) as (o & y & X); exists o, y; right; exact X).
    - destruct (addr_eqb n node) eqn:X; [apply aeq in X; subst; eexists; eexists; left; reflexivity|]. apply ane in X.
      destruct (IH _ (conj A X : (fun x => Q x /\ x <> node) n) B) as (o & y & Y). exists o, y. right. exact Y.
    - destruct (IH _ (or_introl A : (fun x => Q x \/ x = node) n) B) as (o & y & Y). exists o, y. right. exact Y. }
  destruct (REM evs _ Hn OUT) as (o & y & X). specialize (T3 _ X). cbn in T3. rewrite t3 in T3. congruence.
Qed.

(** FINDING. An owner that is a contract can be registered, but neither unregistered nor enabled again, by anyone. *)
Theorem C39_contract_owner w o from : a_contract o = true ->
  fst (exec (OUnregister from o) w) <> None /\ fst (exec (OEnable from o) w) <> None.
Proof.
  intros C. unfold vexec. cbn [vcall]. unfold since, vbind, vget, vwhen. destruct (v_rev w <? 4)%Z; cbn; [split; discriminate|].
  unfold ext_unregister, ext_enable, vbind, vwhen. rewrite C. split; discriminate.
Qed.
End C39.

(** * C40 *)
Section C40.
Variable account_of : list Z -> option Z.
Notation reached := (reached account_of).
Notation exec := (vexec account_of).

(** A sub validator gets disabled exactly when a run of more misses than the allowance is heard about it, starting
    from what it had already missed; a vote interrupts the run.  (Nobody enables or unregisters it, and the allowance in
    force stays.)  Until then, what it is reported to have missed is the length of the present run. *)
Theorem C40_struck rev gov act keyed ops w o s allow bs w' : NoDup act -> reached (start rev gov act keyed) ops w ->
  has_grade w o Sub -> v_stat w o = Some s -> vs_disabled s = false -> watched account_of o allow w bs w' -> (0 <= allow)%Z -> ~ disqualified w' o ->
  (disabled w' o <-> struck allow (Z.to_nat (vs_misses s)) bs) /\
  (~ disabled w' o -> exists s' pre, v_stat w' o = Some s' /\
     repeat false (Z.to_nat (vs_misses s)) ++ bs = pre ++ repeat false (Z.to_nat (vs_misses s')) /\ (pre = [] \/ exists p, pre = p ++ [true])).
Proof.
  intros nd H (i & I0 & G) S0 D W pos ND. pose proof (reached_inv account_of _ _ _ (start_inv rev gov act keyed nd) H) as iv.
  destruct (watched_run account_of o allow w bs w' iv W i s I0 G S0 ND) as (j & s' & J1 & J2 & J3 & J4). rewrite D in J4.
  pose proof (r_stat w (i_regs w iv) o s S0) as [M _]. split.
  - rewrite <- (go_struck allow bs pos (vs_misses s) M), <- J4. cbn. split; [intros (t & A & B); congruence | intros E; exists s'; auto].
  - intros NE. exists s'. destruct (vs_disabled s') eqn:E; [contradiction NE; exists s'; auto|]. symmetry in J4.
    destruct (go_tail allow bs pos _ _ M J4) as (_ & pre & A & B). exists pre. auto.
Qed.

(** What voting does to a main validator: nothing. *)
Theorem C40_main rev gov act keyed ops w o : NoDup act -> reached (start rev gov act keyed) ops w -> has_grade w o Main -> ~ disabled w o.
Proof. intros nd H. apply (C39_registry account_of rev gov act keyed ops w nd H). Qed.

(** Who may enable a validator, and what happens then. *)
Theorem C40_enable from o w :
  (fst (exec (OEnable from o) w) = None <->
     (4 <= v_rev w)%Z /\ a_contract o = false /\ (from = v_gov w \/ from = o) /\
     exists s, v_stat w o = Some s /\ vs_disq s = false /\ (vs_disabled s = false \/ from = v_gov w \/ (vs_used s < 3)%Z)) /\
  (fst (exec (OEnable from o) w) = None -> exists s, v_stat w o = Some s /\
     let used := if vs_disabled s then if addr_eqb from (v_gov w) then 0%Z else (vs_used s + 1)%Z else vs_used s in
     snd (exec (OEnable from o) w) = w_stat o (mkStat false false 0 used) w).
Proof.
  unfold vexec. cbn [vcall]. unfold since, vbind, vget, vwhen. destruct (v_rev w <? 4)%Z eqn:R; cbn [vfail vret].
  { apply Z.ltb_lt in R. split; [split; [discriminate | intros (X & _); lia] | discriminate]. }
  apply Z.ltb_ge in R. unfold ext_enable, vbind, vwhen, vget, vret, vfail. destruct (a_contract o) eqn:C; cbn.
  { split; [split; [discriminate | intros (_ & X & _); discriminate] | discriminate]. }
  destruct (addr_eqb from (v_gov w)) eqn:G; cbn.
  - apply aeq in G. unfold enable_validator, vbind, get_status, vput. destruct (v_stat w o) as [s|] eqn:S0; cbn.
    2:{ split; [split; [discriminate | intros (_ & _ & _ & t & X & _); discriminate] | discriminate]. }
    unfold enable, enabled. destruct (vs_disq s) eqn:D; cbn.
    { split; [split; [discriminate | intros (_ & _ & _ & t & X & Y & _); congruence] | discriminate]. }
    rewrite andb_true_r. destruct (vs_disabled s) eqn:B; cbn; (split; [split; [intros _; split; [auto|]; split; [auto|]; split; [auto|]; exists s; auto | auto]|]);
      intros _; exists s; rewrite B; cbn; unfold reset_misses; rewrite ?D, ?B; cbn; auto.
  - destruct (addr_eqb from o) eqn:O; cbn.
    2:{ apply ane in G, O. split; [split; [discriminate | intros (_ & _ & [X|X] & _); contradiction] | discriminate]. }
    apply aeq in O. subst from. apply ane in G. unfold enable_validator, vbind, get_status, vput. destruct (v_stat w o) as [s|] eqn:S0; cbn.
    2:{ split; [split; [discriminate | intros (_ & _ & _ & t & X & _); discriminate] | discriminate]. }
    unfold enable, enabled, MaxEnableCount. destruct (vs_disq s) eqn:D; cbn.
    { split; [split; [discriminate | intros (_ & _ & _ & t & X & Y & _); congruence] | discriminate]. }
    rewrite andb_true_r. destruct (vs_disabled s) eqn:B; cbn.
    + destruct (3 <=? vs_used s)%Z eqn:U; cbn.
      * apply Z.leb_le in U. split; [split; [discriminate|] | discriminate]. intros (_ & _ & _ & t & X & Y & Z0). assert (t = s) by congruence. subst t.
        destruct Z0 as [Z0|[Z0|Z0]]; [congruence | contradiction | lia].
      * apply Z.leb_gt in U. split; [split; [intros _; split; [auto|]; split; [auto|]; split; [auto|]; exists s; auto | auto]|].
        intros _. exists s. rewrite B. unfold reset_misses. cbn. rewrite ?D. auto.
    + split; [split; [intros _; split; [auto|]; split; [auto|]; split; [auto|]; exists s; auto | auto]|].
      intros _. exists s. rewrite B. cbn. unfold reset_misses. rewrite ?B, ?D. auto.
Qed.

(** Unless governance enables it, a validator gets enabled again at most three times, whatever happens. *)
Theorem C40_limit rev gov act keyed ops w o k w' : NoDup act -> reached (start rev gov act keyed) ops w -> registered w o ->
  revived account_of o w k w' -> k <= 3.
Proof.
  intros nd H R V. pose proof (reached_inv account_of _ _ _ (start_inv rev gov act keyed nd) H) as iv.
  destruct (v_stat w o) as [s|] eqn:S0; [|apply (r_both w (i_regs w iv)) in S0; contradiction].
  destruct (revived_run account_of o w k w' iv V s S0) as (_ & s' & _ & B). pose proof (r_stat w (i_regs w iv) o s S0). lia.
Qed.

(** A block inside a term: the owners it disables, the seats they lose and who takes them. *)
Theorem C40_penalty rev gov act keyed ops w ix votes order : NoDup act -> reached (start rev gov act keyed) ops w ->
  fair (OBase ix votes order) -> (0 < ix)%Z -> fst (exec (OBase ix votes order) w) = None ->
  let w' := snd (exec (OBase ix votes order) w) in
  exists pen adds,
    (forall o, (exists n, In (o, n) pen) <-> ~ disabled w o /\ disabled w' o) /\
    (forall o n, In (o, n) pen -> v_nto w n = Some o /\ has_grade w o Sub /\ In n (map fst votes) /\ ~ In n (v_active w')) /\
    Permutation (v_active w') (adds ++ filter (fun x => negb (existsb (addr_eqb x) (map snd pen))) (v_active w)) /\
    let lost := List.length (filter (fun x => existsb (addr_eqb x) (map snd pen)) (v_active w)) in
    ((adds = [] /\ v_index w' = v_index w) \/ (1 <= lost /\ turn (w_index (v_index w) w') (v_active w) lost adds (v_index w'))) /\
    List.length (v_active w') + lost = List.length (v_active w) + List.length adds /\ List.length adds <= lost.
Proof.
  intros nd H F P OK w'. pose proof (reached_inv account_of _ _ _ (start_inv rev gov act keyed nd) H) as iv. unfold w' in *. clear w'.
  unfold vexec in *. cbn [vcall] in *. destruct (base ix votes order w) as [e|[[] u]] eqn:E; [discriminate|]. cbn [snd]. clear OK. destruct F as [_ F].
  destruct (base_inv ix votes order w u (i_regs w iv) (i_nodup w iv) (i_count w iv) F E) as (m & T & V).
  assert (m = w) by (destruct T as [(Q & _) | (_ & Q)]; [lia | auto]). subst m. clear T.
  assert (SPLIT : forall (f : addr -> bool) l, List.length (filter f l) + List.length (filter (fun x => negb (f x)) l) = List.length l).
  { intros f l. induction l as [|x r IH]; cbn; [auto|]. destruct (f x); cbn; lia. }
  destruct V as [(_ & _ & pen & adds & [_ v2 v3 _ (w1' & C1 & C2 & C3 & C4 & C5) v6 _]) | (_ & ->)].
  - destruct (check_votes_run votes w (i_regs w iv)) as (pen' & w2' & Y1 & Y2 & _ & _ & Y5 & Y6 & Y7 & Y8). rewrite C1 in Y1. injection Y1 as <- <-.
    assert (DS : forall o, disabled u o <-> disabled w1' o) by (intros o; unfold disabled; rewrite C2; tauto).
    exists pen, adds.
    assert (OUT : forall o n, In (o, n) pen -> ~ In n (v_active u)).
    { intros o n Hp Hn. apply v6 in Hn as [Hn | (_ & Hn)]; [|apply Hn; eauto].
      destruct C5 as [(-> & _) | (k & K1 & K2 & K3)]; [contradiction|].
      destruct (turn_nodes w1' _ _ _ _ n C3 K2 Hn) as ((p & N1 & L1 & R1) & N2 & _).
      destruct (Y6 o n Hp) as (Z1 & Z2 & Z3 & _). apply (node_owner w1' p n C3) in N1. unfold but_stat in C4.
      assert (p = o) by (destruct C4 as (_ & _ & _ & C4 & _); congruence). subst p.
      unfold ready in R1. destruct Z3 as (t & Z3 & Z4). rewrite Z3 in R1. destruct (v_info w1' o); [|discriminate]. rewrite Z4 in R1. cbn in R1.
      rewrite andb_false_r in R1. discriminate. }
    assert (PM : Permutation (v_active u) (adds ++ filter (fun x => negb (existsb (addr_eqb x) (map snd pen))) (v_active w))).
    { assert (AF : forall x, In x adds -> ~ In x (v_active w)).
      { intros x Hx. destruct C5 as [(-> & _) | (k & K1 & K2 & K3)]; [contradiction|].
        destruct (turn_nodes w1' _ _ _ _ x C3 K2 Hx) as (_ & N2 & _). auto. }
      apply NoDup_Permutation; [auto| |].
      - apply nodup_join; [|apply NoDup_filter; apply iv|].
        + destruct C5 as [(-> & _) | (k & K1 & K2 & K3)]; [constructor | eapply turn_nodup; eauto].
        + intros x Hx Hy. apply filter_In in Hy as (Hy & _). exact (AF x Hx Hy).
      - intros x. rewrite v6, in_app_iff, filter_In.
        assert (Q : negb (existsb (addr_eqb x) (map snd pen)) = true <-> ~ exists o, In (o, x) pen).
        { rewrite negb_true_iff. split.
          - intros X (o & Hp). assert (Y : existsb (addr_eqb x) (map snd pen) = true); [|congruence]. apply existsb_exists. exists x.
            split; [apply in_map_iff; exists (o, x); auto | apply arefl].
          - intros X. destruct (existsb (addr_eqb x) (map snd pen)) eqn:Y; [|auto]. contradiction X. apply existsb_exists in Y as (y & Y & Z).
            apply aeq in Z. subst y. apply in_map_iff in Y as ((o & n) & Z & Y). cbn in Z. subst n. eauto. }
        rewrite Q. tauto. }
    assert (SC : List.length (seats pen (v_active w)) = List.length (filter (fun x => existsb (addr_eqb x) (map snd pen)) (v_active w))).
    { apply seats_count; [apply iv|]. apply (map_snd_nodup w); [auto|]. intros o n Hp. apply (Y6 o n Hp). }
    split.
    { intros o. rewrite DS. split.
      - intros (n & Hp). destruct (Y6 o n Hp) as (_ & Z2 & Z3 & _). auto.
      - intros (Z1 & Z2). destruct (Y8 o Z2) as [X|X]; [contradiction | auto]. }
    split; [intros o n Hp; destruct (Y6 o n Hp) as (Z1 & Z2 & Z3 & Z4 & Z5); split; [auto|]; split; [auto|]; split; [auto | eauto]|].
    split; [auto|]. cbv zeta. rewrite <- SC. unfold but_stat in C4. unfold but_votes in v2.
    assert (CASES : (adds = [] /\ v_index u = v_index w) \/ (1 <= List.length (seats pen (v_active w)) /\ turn (w_index (v_index w) u) (v_active w) (List.length (seats pen (v_active w))) adds (v_index u))).
    { destruct C5 as [C5 | (k & K1 & K2 & K3)]; [left; auto|]. right. rewrite <- K3. split; [auto|]. eapply turn_same; [ | | | | |exact K2]; vc; intuition congruence. }
    split; [exact CASES|]. split.
    + rewrite (Permutation_length PM), app_length, SC. specialize (SPLIT (fun x => existsb (addr_eqb x) (map snd pen)) (v_active w)). cbv beta in SPLIT. lia.
    + destruct CASES as [(-> & _) | (_ & (_ & _ & _ & _ & _ & _ & X & _))]; [cbn; lia | auto].
  - exists [], []. cbn [map snd existsb app negb]. split; [intros o; split; [intros (n & []) | tauto]|]. split; [intros o n []|].
    assert (FT : forall l : list addr, filter (fun _ => true) l = l) by (induction l as [|x r IH]; cbn; [auto | rewrite IH; auto]).
    assert (FF : forall l : list addr, filter (fun _ => false) l = []) by (induction l as [|x r IH]; cbn; auto).
    rewrite FT, FF. split; [apply Permutation_refl|]. cbn. split; [left; auto|]. split; lia.
Qed.

(** FINDING. A validator that is about to be disabled can call enableValidator: it is enabled already, so the call
    succeeds, uses up none of its three chances and forgets what it missed.  With one such call in time it is never
    disabled. *)
Theorem C40_violated_forgiven w o s : (4 <= v_rev w)%Z -> a_contract o = false -> v_stat w o = Some s -> vs_disq s = false -> vs_disabled s = false ->
  exec (OEnable o o) w = (None, w_stat o (mkStat false false 0 (vs_used s)) w).
Proof.
  intros R C S0 D B. destruct (C40_enable o o w) as (A1 & A2).
  assert (OK : fst (exec (OEnable o o) w) = None) by (apply A1; split; [auto|]; split; [auto|]; split; [auto|]; exists s; auto).
  destruct (A2 OK) as (t & T & E). assert (t = s) by congruence. subst t. rewrite B in E. cbv zeta in E.
  destruct (exec (OEnable o o) w) as [f u]. cbn in *. congruence.
Qed.
End C40.

(** * C43 *)
Section C43.
Variable account_of : list Z -> option Z.
Notation reached := (reached account_of).
Notation exec := (vexec account_of).

(** Whoever follows the events of a history knows the active set and its size, as long as governance does not use
    grantValidator or revokeValidator; and each event names the owner of the node it is about. *)
Theorem C43_events rev gov act keyed ops w ops' w' : NoDup act -> reached (start rev gov act keyed) ops w -> reached w ops' w' ->
  (forall from a, ~ In (OGrant from a) ops' /\ ~ In (ORevoke from a) ops') ->
  exists evs, v_log w' = v_log w ++ evs /\
    (forall x, In x (v_active w') <-> replay evs (fun y => In y (v_active w)) x) /\
    recount evs (Z.of_nat (List.length (v_active w))) = Some (Z.of_nat (List.length (v_active w'))) /\
    (forall o n y, In (EvRemoved o n y) evs -> v_nto w' n = Some o) /\ (forall o n, In (EvAdded o n) evs -> v_nto w' n = Some o).
Proof.
  intros nd H R NG. pose proof (reached_inv account_of _ _ _ (start_inv rev gov act keyed nd) H) as iv. clear H.
  induction R as [w|w ops1 w1' op R IH F].
  - exists []. rewrite app_nil_r. split; [auto|]. split; [intros x; cbn; tauto|]. split; [auto|]. split; intros; contradiction.
  - destruct IH as (e1 & A1 & A2 & A3 & A4 & A5);
      [intros from a; destruct (NG from a) as (G1 & G2); split; intros X; [apply G1 | apply G2]; apply in_or_app; auto | auto|].
    pose proof (reached_inv account_of _ _ _ iv R) as iv1. assert (E := vexec_effect account_of op w1' iv1 F).
    assert (NS : is_set op = false).
    { destruct op; auto; exfalso; destruct (NG from a) as (G1 & G2); [apply G1 | apply G2]; apply in_or_app; right; left; reflexivity. }
    destruct (tells_effect account_of w1' op _ iv1 NS E) as (e2 & (B1 & B2 & B3) & B4). exists (e1 ++ e2).
    split; [rewrite B1, A1, app_assoc; auto|]. split; [intros x; rewrite B2, replay_app; apply replay_ext; auto|].
    split; [rewrite recount_app, A3; auto|]. split.
    + intros o n y X. apply in_app_or in X as [X|X]; [|exact (B3 _ X)]. eapply nto_kept; eauto.
    + intros o n X. apply in_app_or in X as [X|X]; [|exact (B3 _ X)]. eapply nto_kept; eauto.
Qed.
(** grantValidator and revokeValidator change the set without an event. *)
Theorem C43_violated_silent from a w : v_log (snd (exec (OGrant from a) w)) = v_log w /\ v_log (snd (exec (ORevoke from a) w)) = v_log w.
Proof.
  unfold vexec. cbn [vcall]. unfold grant, revoke, check_gov, vbind, vget, vwhen, vput, vret, vfail.
  destruct (negb (addr_eqb (v_gov w) from)); cbn; [auto|]. destruct (a_contract a); cbn; [auto|]. split.
  - destruct (has a (v_active w)); reflexivity.
  - destruct (take_out a (v_active w)) as [l|]; [|reflexivity]. destruct (Nat.eqb (List.length l) 0); reflexivity.
Qed.
End C43.

(** * Cases meeting the hypotheses *)
Lemma nodup_one : NoDup [ad 101].
Proof. repeat constructor. intros []. Qed.
Lemma nodup_none : NoDup (@nil addr).
Proof. constructor. Qed.
Example sample_reached1 : reached acct (start 4 gv [ad 101] every) setup w1.
Proof. apply (reached_run setup w0). unfold setup, sub_of. fairs. Qed.
Example sample_reached2 : reached acct (start 4 gv [ad 101] every) (setup ++ [OBase 0 [] idle]) w2.
Proof. eapply reached_app; [exact sample_reached1|]. apply (reached_run [OBase 0 [] idle] w1). fairs. Qed.
Example sample_registry : v_main w1 = [ad 1] /\ v_sub w1 = [ad 2; ad 3; ad 4; ad 5] /\ node w1 (ad 3) = Some (ad 103).
Proof. vm_compute. auto. Qed.
Example sample_current : fair (OBase 0 [] idle) /\ fst (vexec acct (OBase 0 [] idle) w1) = None /\
  ns_decent (v_net (snd (vexec acct (OBase 0 [] idle) w1))) = true /\ reached acct w2 [miss; miss] w4.
Proof. split; [apply fair_idle; lia|]. split; [vm_compute; reflexivity|]. split; [vm_compute; reflexivity|]. apply (reached_run [miss; miss] w2). fairs. Qed.
Example sample_unregister : fst (vexec acct (OUnregister (ad 3) (ad 3)) w2) = None /\ v_active (snd (vexec acct (OUnregister (ad 3) (ad 3)) w2)) = [ad 101; ad 102].
Proof. vm_compute. auto. Qed.
Example sample_watched : watched acct (ad 2) 1 w2 [false; false] w4 /\ disabled w4 (ad 2) /\ ~ disqualified w4 (ad 2) /\ struck 1 0 [false; false].
Proof.
  split.
  { assert (A : heard acct w2 miss (ad 2) = [false]) by (vm_compute; reflexivity). assert (B : heard acct w3 miss (ad 2) = [false]) by (vm_compute; reflexivity).
    change [false; false] with (([] ++ [false]) ++ [false]). rewrite <- A at 1. rewrite <- B.
    apply W_more with (w1 := w3) (op := miss); [apply W_more with (w1 := w2) (op := miss); [constructor | apply fair_idle; lia | intros f; discriminate | |] | apply fair_idle; lia | intros f; discriminate | |];
      vm_compute; reflexivity. }
  split; [apply sample_terms|]. split; [intros (s & A & B); vm_compute in A; injection A as <-; discriminate B|].
  exists [], 2, []. repeat split; cbn; lia.
Qed.
Example sample_not_yet : watched acct (ad 2) 1 w2 [false] w3 /\ ~ disabled w3 (ad 2) /\ v_active w3 = v_active w2.
Proof.
  split.
  { assert (A : heard acct w2 miss (ad 2) = [false]) by (vm_compute; reflexivity). change [false] with ([] ++ [false]). rewrite <- A.
    apply W_more with (w1 := w2) (op := miss); [constructor | apply fair_idle; lia | intros f; discriminate | |]; vm_compute; reflexivity. }
  split; [intros (s & A & B); vm_compute in A; injection A as <-; discriminate B | vm_compute; reflexivity].
Qed.
Definition w5 : vworld := run [OEnable (ad 2) (ad 2)] w4.
Example sample_revived : registered w4 (ad 2) /\ revived acct (ad 2) w4 1 w5.
Proof.
  split; [vm_compute; discriminate|]. change 1 with (0 + 1). eapply V_more with (op := OEnable (ad 2) (ad 2)); [constructor | exact I | vm_compute; discriminate | vm_compute; reflexivity | | auto].
  split; [|auto]. intros _. split; [apply sample_terms|]. intros (s & A & B). vm_compute in A. injection A as <-. discriminate B.
Qed.
Example sample_penalty : fst (vexec acct miss w3) = None /\ (0 < 1)%Z.
Proof. split; [vm_compute; reflexivity | lia]. Qed.
Example sample_stranger : let w := run setup (start 4 gv [ad 999] every) in
  In (ad 999) (v_active w) /\ v_nto w (ad 999) = None /\
  (4 <= v_rev w /\ 1 <= v_count w <= Z.of_nat (List.length (v_main w) + List.length (v_sub w)))%Z.
Proof. cbv zeta. split; [vm_compute; auto|]. split; [vm_compute; reflexivity|]. vm_compute. repeat split; discriminate. Qed.
Example sample_forgiven : (4 <= v_rev w3)%Z /\ exists s, v_stat w3 (ad 2) = Some s /\ vs_misses s = 1%Z /\ vs_disq s = false /\ vs_disabled s = false.
Proof. split; [vm_compute; discriminate|]. eexists. vm_compute. repeat split; reflexivity. Qed.

(** * More findings, each on a reachable network *)
(** The last sub validator has no BTP key.  When as many seats as validators are wanted, the leftover error of its key
    check is returned, the base transaction fails and no first block of a term can be made. *)
Definition keyless : addr -> bool := fun a => negb (addr_eqb a (ad 105)).
Theorem C39_violated_keyless : exists w, reached acct (start 4 gv [ad 101] keyless) (setup ++ [OSetCount gv 5]) w /\
  forall votes order, fst (vexec acct (OBase 0 votes order) w) <> None.
Proof.
  exists (run (setup ++ [OSetCount gv 5]) (start 4 gv [ad 101] keyless)). split; [apply (reached_run _ _); unfold setup, sub_of; cbn [app]; fairs|].
  intros votes order. vm_compute. discriminate.
Qed.
(** The same block gives different active lists, depending on the order in which Go visits a map. *)
Definition two_miss : list (addr * bool) := [(ad 101, true); (ad 102, false); (ad 103, false)].
Theorem C39_violated_order : exists ops w, reached acct w0 ops w /\ exists votes order1 order2,
  fair (OBase 1 votes order1) /\ fair (OBase 1 votes order2) /\
  fst (vexec acct (OBase 1 votes order1) w) = None /\ fst (vexec acct (OBase 1 votes order2) w) = None /\
  v_active (snd (vexec acct (OBase 1 votes order1) w)) <> v_active (snd (vexec acct (OBase 1 votes order2) w)).
Proof.
  exists ((setup ++ [OBase 0 [] idle]) ++ [OBase 1 two_miss idle]), (run [OBase 1 two_miss idle] w2).
  split; [eapply reached_app; [exact sample_reached2 | apply reached_run; fairs]|].
  exists two_miss, idle, (@List.rev seat). split; [apply fair_idle; lia|]. split; [split; [lia|]; intros l; apply Permutation_sym, Permutation_rev|].
  split; [vm_compute; reflexivity|]. split; [vm_compute; reflexivity|]. vm_compute. discriminate.
Qed.
(** Penalties can empty the active set. *)
Definition alone : list vop := [sub_of 2 102; OSetCount gv 1; OVoteParams gv 1 0; OBase 0 [] idle; OBase 1 [(ad 102, false)] idle].
Theorem C39_violated_empty : exists ops w, reached acct (start 4 gv [ad 102] every) ops w /\ v_active w = [].
Proof. exists alone, (run alone (start 4 gv [ad 102] every)). split; [apply reached_run; unfold alone, sub_of; fairs | vm_compute; reflexivity]. Qed.
(** A node seated by governance stays active although it is nobody's; and from revision 5 on an owner can take its
    address for itself while its old node keeps its seat, so that the owner holds two seats. *)
Definition two_seats : list vop := [ORevision 5; OGrant gv (ad 777); OSetKey (ad 3) (key 777) (Some every)].
Theorem C39_violated_two_seats : exists ops w, reached acct w0 ops w /\
  node w (ad 3) = Some (ad 777) /\ v_nto w (ad 103) = Some (ad 3) /\ In (ad 777) (v_active w) /\ In (ad 103) (v_active w).
Proof.
  exists ((setup ++ [OBase 0 [] idle]) ++ two_seats), (run two_seats w2).
  split; [eapply reached_app; [exact sample_reached2 | apply reached_run; unfold two_seats; fairs]|]. vm_compute. auto 10.
Qed.
(** Votes about a node an owner gave up still count against it: it is disabled while its new node stays active. *)
Definition moved : list vop := [OSetKey (ad 2) (key 202) None; miss; miss].
Theorem C40_violated_old_node : exists ops w, reached acct w0 ops w /\ disabled w (ad 2) /\ node w (ad 2) = Some (ad 202) /\ In (ad 202) (v_active w).
Proof.
  exists ((setup ++ [OBase 0 [] idle]) ++ moved), (run moved w2).
  split; [eapply reached_app; [exact sample_reached2 | apply reached_run; unfold moved; fairs]|]. vm_compute.
  split; [eexists; split; reflexivity|]. auto.
Qed.

Print Assumptions C39_registry.
Print Assumptions C39_nodes.
Print Assumptions C39_authority.
Print Assumptions C39_active_once.
Print Assumptions C39_active_current.
Print Assumptions C39_term.
Print Assumptions C39_unregister.
Print Assumptions C39_violated_stranger.
Print Assumptions C39_contract_owner.
Print Assumptions C39_violated_keyless.
Print Assumptions C39_violated_order.
Print Assumptions C39_violated_empty.
Print Assumptions C39_violated_two_seats.
Print Assumptions C40_struck.
Print Assumptions C40_main.
Print Assumptions C40_enable.
Print Assumptions C40_limit.
Print Assumptions C40_penalty.
Print Assumptions C40_violated_forgiven.
Print Assumptions C40_violated_old_node.
Print Assumptions C43_events.
Print Assumptions C43_violated_silent.
