(** The base transaction's validator work. *)
From Verif Require Import Model.HvhState Model.HvhValidator Spec.HvhValSpec Proof.HvhValFacts Proof.HvhValTurn Proof.HvhValInv Proof.HvhValSeats.
From Coq Require Import ZArith List Bool Arith Lia Permutation.
Import ListNotations.
Open Scope nat_scope.

Lemma main_loop_run w l : forall count, (forall o, In o l -> v_info w o <> None) -> 1 <= count ->
  main_loop l count w = Some (firstn count (filter (v_keyed w) (nodes w l))).
Proof.
  induction l as [|o r IH]; intros count kn c1; cbn [main_loop]; [rewrite firstn_nil; auto|].
  unfold nodes. cbn [flat_map]. fold (nodes w r). destruct (v_info w o) as [i|] eqn:E; [|exfalso; eapply kn; [left; reflexivity | auto]].
  cbn [app filter]. assert (K : forall q, In q r -> v_info w q <> None) by (intros; apply kn; right; auto).
  destruct (v_keyed w (vi_node i)) eqn:Ke; [|auto].
  destruct count as [|c]; [lia|]. cbn [firstn]. destruct (Nat.eqb_spec (S c) 1) as [H|H].
  - injection H as ->. reflexivity.
  - replace (S c - 1) with c by lia. rewrite IH by (auto; lia). reflexivity.
Qed.
Lemma main_validators_run w count : regs w -> main_validators count w = inr (firstn count (filter (v_keyed w) (nodes w (v_main w))), w).
Proof.
  intros r. unfold main_validators, vbind, vget. destruct count as [|c]; [reflexivity|]. cbn [Nat.eqb].
  rewrite main_loop_run; [reflexivity | | lia]. intros o Ho. apply (regs_known w r). auto.
Qed.

(** ** Reports *)
Definition ev_of (w : vworld) (old new : list addr) (n : addr) : list vevent :=
  if (mark old new n =? 0)%Z then []
  else match v_nto w n with
       | Some o => [if (mark old new n <? 0)%Z then EvRemoved o n WTerm else EvAdded o n]
       | None => []
       end.
Definition no_log (w : vworld) : vworld := mkVW (v_rev w) (v_gov w) (v_info w) (v_stat w) (v_nto w) (v_main w) (v_sub w) (v_gone w) (v_index w)
  (v_count w) (v_period w) (v_allow w) (v_net w) (v_active w) (v_keyed w) [].
Lemma report_changes_inv old new ns : forall w w', report_changes old new ns w = inr (tt, w') ->
  no_log w' = no_log w /\ v_log w' = v_log w ++ flat_map (ev_of w old new) ns /\
  (forall n, In n ns -> mark old new n <> 0%Z -> v_nto w n <> None).
Proof.
  induction ns as [|n r IH]; intros w w' H; cbn [report_changes] in H.
  - injection H as <-. rewrite app_nil_r. split; [auto|]. split; [auto|]. intros n [].
  - unfold vbind in H. cbn [flat_map]. unfold ev_of at 1. destruct (Z.eqb_spec (mark old new n) 0) as [M|M].
    + cbn [vret] in H. destruct (IH w w' H) as (A & B & C). cbn [app]. split; [auto|]. split; [auto|].
      intros m [<- | Hm] nm; [contradiction | auto].
    + unfold owner_of in H. destruct (v_nto w n) as [o|] eqn:N; [|discriminate]. cbn [vput] in H.
      set (e := if (mark old new n <? 0)%Z then EvRemoved o n WTerm else EvAdded o n) in *.
      destruct (IH (w_log e w) w' H) as (A & B & C). split; [rewrite A; reflexivity|]. split.
      * rewrite B. vc. rewrite <- app_assoc. f_equal.
      * intros m [<- | Hm] nm; [congruence | apply (C m Hm nm)].
Qed.
Lemma mark_old old new n : In n old -> mark old new n = (Z.of_nat (length (filter (addr_eqb n) new)) - 1)%Z.
Proof. intros H. apply has_in in H. unfold mark. rewrite H. lia. Qed.
Lemma filter_none n l : ~ In n l -> filter (addr_eqb n) l = [].
Proof.
  intros H. induction l as [|x r IH]; [auto|]. cbn. destruct (addr_eqb n x) eqn:E; [apply aeq in E; subst; exfalso; apply H; left; auto|].
  apply IH. intros K. apply H. right. auto.
Qed.
Lemma filter_one n l : NoDup l -> In n l -> length (filter (addr_eqb n) l) = 1.
Proof.
  intros nd H. induction l as [|x r IH]; [contradiction|]. inversion nd as [|a b nx nr]. subst. cbn. destruct (addr_eqb n x) eqn:E.
  - apply aeq in E. subst x. rewrite filter_none by auto. reflexivity.
  - apply ane in E. destruct H as [H|H]; [congruence | auto].
Qed.
Lemma replay_old w old new l : NoDup new -> (forall n, In n l -> In n old) ->
  (forall n, In n l -> mark old new n <> 0%Z -> v_nto w n <> None) ->
  forall P x, replay (flat_map (ev_of w old new) l) P x <-> P x /\ ~ (In x l /\ ~ In x new).
Proof.
  intros nd. induction l as [|n r IH]; intros sub ow P x; [cbn; tauto|]. cbn [flat_map]. rewrite replay_app, IH.
  2:{ intros m Hm. apply sub. right. auto. }
  2:{ intros m Hm. apply ow. right. auto. }
  unfold ev_of. rewrite mark_old by (apply sub; left; auto). cbn [In].
  destruct (in_dec adec n new) as [Hn|Hn].
  - rewrite filter_one by auto. cbn [Z.of_nat Z.sub Z.eqb Z.opp Z.add replay].
    change (Z.of_nat 1 - 1 =? 0)%Z with true. cbn. split.
    + intros [A B]. split; [auto|]. intros [[<- | H] K]; tauto.
    + intros [A B]. tauto.
  - assert (O : v_nto w n <> None).
    { apply ow; [left; auto|]. rewrite mark_old by (apply sub; left; auto). rewrite filter_none by auto. cbn. lia. }
    rewrite filter_none by auto. cbn. destruct (v_nto w n) as [o|]; [|contradiction]. cbn. split.
    + intros [[A B] C]. split; [auto|]. intros [[-> | H] K]; tauto.
    + intros [A B]. destruct (adec x n) as [-> | ne]; tauto.
Qed.
Lemma replay_new w old new l : NoDup new -> (forall n, In n l -> In n new /\ ~ In n old) ->
  (forall n, In n l -> mark old new n <> 0%Z -> v_nto w n <> None) ->
  forall P x, replay (flat_map (ev_of w old new) l) P x <-> P x \/ In x l.
Proof.
  intros nd. induction l as [|n r IH]; intros sub ow P x; [cbn; tauto|]. cbn [flat_map]. rewrite replay_app, IH.
  2:{ intros m Hm. apply sub. right. auto. }
  2:{ intros m Hm. apply ow. right. auto. }
  destruct (sub n (or_introl eq_refl)) as [S1 S2].
  assert (M : mark old new n = 1%Z) by (unfold mark; apply has_out in S2; rewrite S2, filter_one by auto; reflexivity).
  specialize (ow n (or_introl eq_refl)). unfold ev_of. rewrite M in *. cbn. destruct (v_nto w n) as [o|]; [|exfalso; apply ow; auto; discriminate].
  cbn. intuition congruence.
Qed.

Definition tells (w w' : vworld) (evs : list vevent) : Prop :=
  tells_set w w' evs /\ recount evs (Z.of_nat (length (v_active w))) = Some (Z.of_nat (length (v_active w'))).
Lemma tells_none w w' : v_log w' = v_log w -> v_active w' = v_active w -> tells w w' [].
Proof.
  intros A B. split; [split; [rewrite app_nil_r; auto|]; split; [intros x; cbn; rewrite B; tauto | intros e []]|]. cbn. rewrite B. auto.
Qed.
Lemma tells_trans a b c x y : v_nto c = v_nto b -> tells a b x -> tells b c y -> tells a c (x ++ y).
Proof.
  intros N ((A1 & A2 & A3) & A4) ((B1 & B2 & B3) & B4). split; [split; [|split]|].
  - rewrite B1, A1, app_assoc. auto.
  - intros z. rewrite B2, replay_app. apply replay_ext. auto.
  - intros e He. apply in_app_or in He as [He|He]; [|exact (B3 e He)]. specialize (A3 e He). rewrite N. exact A3.
  - rewrite recount_app, A4. auto.
Qed.
Lemma report_count_run w old new : exists evs, report_count old new w = inr (tt, mkVW (v_rev w) (v_gov w) (v_info w) (v_stat w) (v_nto w) (v_main w) (v_sub w) (v_gone w) (v_index w)
  (v_count w) (v_period w) (v_allow w) (v_net w) (v_active w) (v_keyed w) (v_log w ++ evs)) /\
  recount evs (Z.of_nat old) = Some (Z.of_nat new) /\ (evs = [] \/ exists a b, evs = [EvCount a b]).
Proof.
  unfold report_count. destruct (Nat.eqb_spec old new) as [-> | ne].
  - exists []. rewrite app_nil_r. split; [destruct w; reflexivity | auto].
  - exists [EvCount (Z.of_nat old) (Z.of_nat new)]. split; [reflexivity|]. split; [cbn; rewrite Z.eqb_refl; auto | eauto].
Qed.

Lemma nodup_left {A} (l k : list A) : NoDup (l ++ k) -> NoDup l.
Proof.
  induction l as [|x l IH]; [constructor|]. cbn. intros H. inversion H as [|a b nx nr]. subst. constructor; [|auto].
  intros K. apply nx. apply in_or_app. auto.
Qed.
Lemma nodup_join {A} (l k : list A) : NoDup l -> NoDup k -> (forall x, In x l -> ~ In x k) -> NoDup (l ++ k).
Proof.
  intros N1 N2 DJ. induction l as [|x q IH]; [auto|]. inversion N1 as [|a b nx nq]. subst. cbn. constructor.
  - rewrite in_app_iff. intros [K|K]; [auto|]. apply (DJ x); [left; auto | auto].
  - apply IH; auto. intros n Hn. apply DJ. right. auto.
Qed.
Definition valid_node (w : vworld) (n : addr) : Prop := exists o g, node w o = Some n /\ live w o g.
Lemma turn_nodes w seated count l j n : regs w -> turn w seated count l j -> In n l ->
  (exists o, node w o = Some n /\ live w o Sub /\ ready w seated o = true) /\ ~ In n seated /\ v_keyed w n = true.
Proof.
  intros r (v & rest & st & A & B & C & _) H. rewrite C in H. apply nodes_in in H as (o & H & N). apply filter_In in H as [H R].
  assert (In o (v_sub w)).
  { eapply Permutation_in; [apply rotation_perm|]. rewrite B. apply in_or_app. left. eauto. }
  split; [exists o; split; [auto|]; split; [apply (r_sub w r); auto | auto]|].
  unfold ready, node in *. destruct (v_info w o) as [i|]; [|discriminate]. injection N as <-. destruct (v_stat w o); [|discriminate].
  apply andb_true_iff in R as [R K]. apply andb_true_iff in R as [R _]. apply andb_true_iff in R as [R _]. apply negb_true_iff, has_out in R. auto.
Qed.
Lemma turn_nodup w seated count l j : regs w -> turn w seated count l j -> NoDup l.
Proof.
  intros r (v & rest & st & A & B & C & _). subst l. apply nodes_nodup.
  - apply NoDup_filter. assert (ND : NoDup (rotation (v_sub w) st)).
    { eapply Permutation_NoDup; [symmetry; apply rotation_perm | apply (r_nd w r)]. }
    rewrite B in ND. apply nodup_left in ND. auto.
  - intros o p n _ _ H1 H2. eapply node_inj; eauto.
Qed.

(** The active set a term starts with *)
Definition term_set (w : vworld) (l : list addr) (j : nat) : Prop :=
  let count := Z.to_nat (v_count w) in
  let mains := firstn count (filter (v_keyed w) (nodes w (v_main w))) in
  exists subs, l = mains ++ subs /\
    ((length mains = count /\ subs = [] /\ j = v_index w) \/ (length mains < count /\ turn w [] (count - length mains) subs j)).

Lemma in_firstn {A} (x : A) n l : In x (firstn n l) -> In x l.
Proof. intros H. rewrite <- (firstn_skipn n l). apply in_or_app. auto. Qed.
Lemma nodup_firstn {A} n (l : list A) : NoDup l -> NoDup (firstn n l).
Proof. intros H. rewrite <- (firstn_skipn n l) in H. apply nodup_left in H. auto. Qed.
Lemma term_set_nodes w l j n : regs w -> term_set w l j -> In n l ->
  v_keyed w n = true /\ exists o g s, node w o = Some n /\ live w o g /\ v_stat w o = Some s /\ vs_disabled s = false.
Proof.
  intros r (subs & -> & H) Hn. apply in_app_or in Hn as [Hn|Hn].
  - apply in_firstn in Hn. apply filter_In in Hn as [Hn K]. split; [auto|]. apply nodes_in in Hn as (o & Ho & N).
    apply (r_main w r) in Ho. assert (Ho' := Ho). destruct Ho' as (i & s & A & B & C & D). exists o, Main, s. repeat split; auto.
    eapply r_on; eauto.
  - destruct H as [(_ & -> & _) | (_ & T)]; [contradiction|].
    destruct (turn_nodes w [] _ subs j n r T Hn) as ((o & N & L & R) & _ & K). split; [auto|].
    unfold ready in R. destruct (v_info w o); [|discriminate]. destruct (v_stat w o) as [s|] eqn:E; [|discriminate].
    apply andb_true_iff in R as [R _]. apply andb_true_iff in R as [R _]. apply andb_true_iff in R as [_ R]. apply negb_true_iff in R.
    exists o, Sub, s. auto.
Qed.
Lemma term_set_nodup w l j : regs w -> term_set w l j -> NoDup l.
Proof.
  intros r T. assert (T' := T). destruct T' as (subs & -> & H).
  assert (NM : NoDup (firstn (Z.to_nat (v_count w)) (filter (v_keyed w) (nodes w (v_main w))))).
  { apply nodup_firstn, NoDup_filter, nodes_nodup; [apply (r_nd w r)|]. intros o p n _ _ H1 H2. eapply node_inj; eauto. }
  destruct H as [(_ & -> & _) | (_ & T2)]; [rewrite app_nil_r; auto|].
  pose proof (turn_nodup w [] _ subs j r T2) as NS. revert NM NS.
  assert (DJ : forall n, In n (firstn (Z.to_nat (v_count w)) (filter (v_keyed w) (nodes w (v_main w)))) -> ~ In n subs).
  { intros n H1 H2. apply in_firstn in H1. apply filter_In in H1 as [H1 _]. apply nodes_in in H1 as (o & Ho & N).
    destruct (turn_nodes w [] _ subs j n r T2 H2) as ((p & N2 & L & _) & _). assert (o = p) by (eapply node_inj; eauto). subst p.
    apply (r_main w r) in Ho. destruct Ho as (i & s & A & B & _), L as (i2 & s2 & A2 & B2 & _). congruence. }
  intros N1 N2. apply nodup_join; auto.
Qed.

Lemma init_active_inv w w' : regs w -> NoDup (v_active w) -> (1 <= v_count w)%Z -> init_active w = inr (tt, w') ->
  exists evs, term_set w (v_active w') (v_index w') /\ but_act w w' /\ tells w w' evs.
Proof.
  intros r nd c1 H. unfold init_active, vbind at 1, vget in H. unfold vbind at 1 in H. rewrite main_validators_run in H by auto.
  set (count := Z.to_nat (v_count w)) in *. assert (1 <= count) by (unfold count; lia).
  set (mains := firstn count (filter (v_keyed w) (nodes w (v_main w)))) in *.
  assert (X : exists subs j, term_set w (mains ++ subs) j /\
     (vdo _ <- report_changes (v_active w) (mains ++ subs) (v_active w ++ filter (fun n => negb (has n (v_active w))) (mains ++ subs));
      vdo _ <- report_count (length (v_active w)) (length (mains ++ subs));
      match set_list (mains ++ subs) (v_active w) with Some l => vput (w_active l) | None => vfail EGeneric end) (w_index j w) = inr (tt, w')).
  { unfold vbind at 1 in H. destruct (Nat.ltb_spec (length mains) count) as [L|L].
    - destruct (next_active_run w None (count - length mains) (regs_known w r) ltac:(lia)) as [(subs & j & E & T) | (E & _)]; rewrite E in H; [|discriminate].
      exists subs, j. split; [|exact H]. exists subs. split; [reflexivity|]. right. auto.
    - cbn [vret] in H. exists [], (v_index w). split.
      + exists []. split; [reflexivity|]. left. split; [|auto]. pose proof (firstn_le_length count (filter (v_keyed w) (nodes w (v_main w)))).
        assert (length mains <= count) by (unfold mains; apply firstn_le_length). fold count. fold mains. lia.
      + replace (w_index (v_index w) w) with w by (destruct w; reflexivity). exact H. }
  destruct X as (subs & j & T & X). clear H. set (new := mains ++ subs) in *. set (old := v_active w) in *.
  pose proof (term_set_nodup w new j r T) as ndn.
  unfold vbind at 1 in X. destruct (report_changes old new (old ++ filter (fun n => negb (has n old)) new) (w_index j w)) as [|[[] w1]] eqn:R; [discriminate|].
  destruct (report_changes_inv _ _ _ _ _ R) as (R1 & R2 & R3). vc.
  unfold vbind in X. destruct (report_count_run w1 (length old) (length new)) as (cs & CE & CR & CF). rewrite CE in X. clear CE.
  rewrite (set_list_ok new old ndn) in X. injection X as <-. vc.
  assert (F : forall {A} (f : vworld -> A), f (no_log w1) = f (no_log (w_index j w))) by (intros; congruence).
  exists (flat_map (ev_of (w_index j w) old new) (old ++ filter (fun n => negb (has n old)) new) ++ cs).
  split; [|split].
  - vc. rewrite (F _ v_index : v_index w1 = j). exact T.
  - repeat split; vc; [exact (F _ v_rev) | exact (F _ v_gov) | exact (F _ v_info) | exact (F _ v_stat) | exact (F _ v_nto) | exact (F _ v_main)
      | exact (F _ v_sub) | exact (F _ v_gone) | exact (F _ v_count) | exact (F _ v_period) | exact (F _ v_allow) | exact (F _ v_net) | exact (F _ v_keyed)].
  - split; [split; [|split]|].
    + vc. rewrite R2. symmetry. apply app_assoc.
    + intros x. vc. rewrite replay_app, flat_map_app, replay_app.
      assert (CN : forall P y, replay cs P y <-> P y) by (intros P y; destruct CF as [-> | (? & ? & ->)]; cbn; tauto).
      rewrite CN. rewrite (replay_new (w_index j w) old new); auto.
      2:{ intros n Hn. apply filter_In in Hn as [H1 H2]. apply negb_true_iff, has_out in H2. auto. }
      2:{ intros n Hn. apply R3. apply in_or_app. auto. }
      rewrite (replay_old (w_index j w) old new); auto.
      2:{ intros n Hn. apply R3. apply in_or_app. auto. }
      rewrite filter_In, negb_true_iff, has_out. fold old. destruct (in_dec adec x old), (in_dec adec x new); tauto.
    + intros e He. vc. rewrite (F _ v_nto : v_nto w1 = v_nto w). apply in_app_or in He as [He|He].
      * apply in_flat_map in He as (n & _ & He). unfold ev_of in He. destruct (_ =? 0)%Z; [contradiction|]. vc.
        destruct (v_nto w n) as [o|] eqn:N; [|contradiction]. destruct He as [<- | []]. destruct (_ <? 0)%Z; auto.
      * destruct CF as [-> | (? & ? & ->)]; [contradiction|]. destruct He as [<- | []]. exact I.
    + vc. fold old. rewrite recount_app, recount_none; [auto|]. intros e He. apply in_flat_map in He as (n & _ & He). unfold ev_of in He.
      destruct (_ =? 0)%Z; [contradiction|]. destruct (v_nto _ n); [|contradiction]. destruct He as [<- | []]. destruct (_ <? 0)%Z; auto.
Qed.
