(** Vote checks and the whole base transaction. *)
From Verif Require Import Model.HvhState Model.HvhValidator Spec.HvhValSpec Proof.HvhValFacts Proof.HvhValTurn Proof.HvhValInv
  Proof.HvhValSeats Proof.HvhValBase.
From Coq Require Import ZArith List Bool Arith Lia Permutation.
Import ListNotations.
Open Scope nat_scope.

(** Everything but status, index, active set and log *)
Definition but_votes (w w' : vworld) : Prop :=
  v_rev w' = v_rev w /\ v_gov w' = v_gov w /\ v_info w' = v_info w /\ v_nto w' = v_nto w /\ v_main w' = v_main w /\
  v_sub w' = v_sub w /\ v_gone w' = v_gone w /\ v_count w' = v_count w /\ v_period w' = v_period w /\
  v_allow w' = v_allow w /\ v_net w' = v_net w /\ v_keyed w' = v_keyed w.
Lemma but_votes_stat w w' : but_stat w w' -> but_votes w w'.
Proof. unfold but_stat, but_votes. intuition. Qed.
Lemma but_votes_act w w' : but_act w w' -> but_votes w w'.
Proof. unfold but_act, but_votes, same_regs. intuition. Qed.
Lemma but_votes_trans a b c : but_votes a b -> but_votes b c -> but_votes a c.
Proof. unfold but_votes. intuition congruence. Qed.
Lemma but_votes_refl w : but_votes w w.
Proof. repeat split. Qed.

Lemma map_snd_nodup (w : vworld) (pen : list (addr * addr)) : NoDup (map fst pen) -> (forall o n, In (o, n) pen -> v_nto w n = Some o) -> NoDup (map snd pen).
Proof.
  intros nd ow. induction pen as [|[o n] r IH]; [constructor|]. cbn in *. inversion nd as [|a b no nr]. subst. constructor; [|apply IH; auto].
  intros H. apply in_map_iff in H as ((o' & n') & E & H). cbn in E. subst n'. apply no. apply in_map_iff. exists (o', n). split; [|auto].
  cbn. specialize (ow o n (or_introl eq_refl)) as A. pose proof (ow o' n (or_intror H)) as B. congruence.
Qed.

(** The validators penalized by a list of votes leave the active set; standby validators take over their seats. *)
Record votes_result (w w' : vworld) (votes : list (addr * bool)) (pen : list (addr * addr)) (adds : list addr) : Prop := mkVR {
  vr_regs : regs w';
  vr_but : but_votes w w';
  vr_nodup : NoDup (v_active w');
  vr_tells : exists evs, tells w w' evs;
  vr_stat : exists w1, check_votes votes w = inr (pen, w1) /\ v_stat w' = v_stat w1 /\ regs w1 /\ but_stat w w1 /\
            (adds = [] /\ v_index w' = v_index w \/
             exists k, 1 <= k /\ turn w1 (v_active w) k adds (v_index w') /\ k = length (seats pen (v_active w)));
  vr_active : forall x, In x (v_active w') <-> In x adds \/ (In x (v_active w) /\ ~ exists o, In (o, x) pen);
  vr_same : pen = [] -> v_active w' = v_active w }.
Lemma handle_votes_inv w w' votes order : regs w -> NoDup (v_active w) -> (forall l, Permutation (order l) l) ->
  handle_votes votes order w = inr (tt, w') -> exists pen adds, votes_result w w' votes pen adds.
Proof.
  intros r nd po H. unfold handle_votes, vbind in H.
  destruct (check_votes_run votes w r) as (pen & w1 & C1 & C2 & C3 & C4 & C5 & C6 & C7 & C8). rewrite C1 in H.
  assert (ACT : v_active w1 = v_active w) by (unfold but_stat in C3; intuition).
  assert (NTO : v_nto w1 = v_nto w) by (unfold but_stat in C3; intuition).
  set (evp := map (fun p => EvPenalized (fst p) (snd p)) pen) in *.
  assert (T1 : tells w w1 evp).
  { assert (RP : forall P x, replay evp P x <-> P x).
    { unfold evp. clear. induction pen as [|p q IH]; intros P x; cbn; [tauto | apply IH]. }
    split; [split; [auto|split]|].
    - intros x. rewrite RP, ACT. tauto.
    - intros e He. unfold evp in He. apply in_map_iff in He as ((o & n) & <- & He). cbn. rewrite NTO. apply (C6 o n He).
    - rewrite recount_none; [rewrite ACT; auto|]. intros e He. unfold evp in He. apply in_map_iff in He as (? & <- & _). exact I. }
  destruct pen as [|p0 pr] eqn:PE.
  { injection H as <-. exists [], []. constructor; auto.
    - apply but_votes_stat; auto.
    - congruence.
    - eauto.
    - exists w1. repeat (split; [auto|]). left. split; [auto|]. unfold but_stat in C3. intuition.
    - intros x. rewrite ACT. cbn. split; [intros X; right; split; [auto|]; intros (? & []) | tauto]. }
  rewrite <- PE in *. rename H into H'. clearbody evp.
  exists pen. unfold replace_penalized, vbind at 1, vget in H'. rewrite ACT in H'.
  set (ss := seats pen (v_active w)) in *.
  assert (NS : NoDup (map snd pen)) by (apply (map_snd_nodup w); [auto | intros; apply (C6 o n); auto]).
  destruct (Nat.eqb_spec (length ss) 0) as [Z0 | nz].
  { injection H' as <-. exists []. constructor; auto.
    - apply but_votes_stat; auto.
    - congruence.
    - eauto.
    - exists w1. repeat (split; [auto|]). left. split; [auto|]. unfold but_stat in C3. intuition.
    - intros x. rewrite ACT. cbn. split; [|tauto]. intros X. right. split; [auto|]. intros (o & Ho).
      destruct (index_in x _ X) as (i & Hi). assert (In (i, (o, x)) ss) by (apply seats_in; auto). destruct ss; [contradiction | discriminate]. }
  unfold vbind at 1 in H'.
  destruct (next_active_run w1 (Some (v_active w)) (length ss) (regs_known w1 C2) ltac:(lia)) as [(adds & j & E & T) | (E & _)]; rewrite E in H'; [|discriminate].
  cbn [act_list] in T. assert (LA : length adds <= length ss) by (destruct T as (? & ? & ? & T); apply T).
  destruct (reseat_run (order ss) adds (w_index j w1)) as (evs & w2 & R1 & R2 & R3 & R4 & R5 & R6 & R7); vc.
  { congruence. }
  { intros i o n Hi. apply (Permutation_in _ (po ss)) in Hi. apply seats_in in Hi as [H1 H2]. rewrite ACT, NTO.
    split; [apply index_some; auto | apply (C6 o n H1)]. }
  { eapply Permutation_NoDup; [|apply (seats_nodup pen (v_active w) NS)]. apply Permutation_map. symmetry. apply po. }
  { eapply turn_nodup; eauto. }
  { intros a Ha. destruct (turn_nodes w1 _ _ adds j a C2 T Ha) as ((o & N & _) & A & _). rewrite ACT. split; [auto|].
    apply (node_owner w1 _ _ C2) in N. congruence. }
  { etransitivity; [exact LA|]. apply Nat.eq_le_incl. symmetry. exact (Permutation_length (po ss)). }
  unfold vbind in H'. rewrite R1 in H'.
  destruct (report_count_run w2 (length (v_active w)) (length (v_active w2))) as (cs & CE & CR & CF). unfold vget in H'. rewrite CE in H'. injection H' as <-.
  assert (O : forall x, out_of x (order ss) <-> In x (v_active w) /\ exists o, In (o, x) pen).
  { intros x. unfold out_of. split.
    - intros (i & o & Hi). apply (Permutation_in _ (po ss)) in Hi. apply seats_in in Hi as [H1 H2]. apply index_some, nth_error_In in H2. eauto.
    - intros (X & o & Ho). destruct (index_in x _ X) as (i & Hi). exists i, o. apply (Permutation_in _ (Permutation_sym (po ss))). apply seats_in. auto. }
  assert (BA : but_act w1 w2) by (eapply but_act_trans; [|exact R2]; repeat split).
  exists adds. constructor; vc.
  - eapply regs_same; [|exact C2]. unfold same_regs. vc. unfold but_act, same_regs in BA. intuition.
  - eapply but_votes_trans; [apply but_votes_stat; exact C3|]. eapply but_votes_trans; [apply but_votes_act; exact BA|]. repeat split.
  - auto.
  - exists (evp ++ evs ++ cs).
    assert (NT2 : v_nto w2 = v_nto w1) by (unfold but_act, same_regs in BA; intuition).
    eapply tells_trans; [| exact T1 |]; vc; [auto|].
    destruct R6 as (F1 & F2 & F3). vc. split; [split; [|split]|]; vc.
    + rewrite F1, <- app_assoc. auto.
    + intros x. rewrite replay_app. assert (CN : forall P y, replay cs P y <-> P y) by (intros P y; destruct CF as [-> | (? & ? & ->)]; cbn; tauto).
      rewrite CN. apply F2.
    + intros e He. apply in_app_or in He as [He|He]; [exact (F3 e He)|]. destruct CF as [-> | (? & ? & ->)]; [contradiction|]. destruct He as [<- | []]. exact I.
    + rewrite recount_app, recount_none by auto. rewrite ACT. auto.
  - exists w1. split; [auto|]. split; [unfold but_act, same_regs in BA; intuition|]. split; [auto|]. split; [auto|]. right. exists (length ss). split; [lia|].
    split; [|auto]. rewrite R3. exact T.
  - intros x. rewrite R5, O. rewrite ACT. split; [intros [A | [A B]]; [auto|]; right; split; [auto|]; intros X; apply B; auto | intros [A | [A B]]; [auto|]; right; split; [auto|]; intros [_ X]; auto].
  - intros ->. discriminate PE.
Qed.

(** ** The base transaction *)
Record term_result (w w1 : vworld) : Prop := mkTR {
  tr_rev : v_rev w1 = v_rev w; tr_gov : v_gov w1 = v_gov w; tr_regs : same_regs w w1;
  tr_count : v_count w1 = v_count w; tr_params : v_period w1 = v_period w /\ v_allow w1 = v_allow w;
  tr_keyed : v_keyed w1 = v_keyed w;
  tr_net : v_net w1 = mkNet true (vote_period w) (allowance w) (v_count w);
  tr_set : term_set w (v_active w1) (v_index w1);
  tr_tells : exists evs, tells w w1 evs }.
Lemma base_inv ix votes order w w' : regs w -> NoDup (v_active w) -> (ns_decent (v_net w) = true -> 1 <= v_count w)%Z ->
  (forall l, Permutation (order l) l) -> base ix votes order w = inr (tt, w') ->
  exists w1,
    ((ix = 0%Z /\ (ns_decent (v_net w) = true \/ can_decentralize w = true) /\ term_result w w1) \/
     ((ix <> 0%Z \/ (ns_decent (v_net w) = false /\ can_decentralize w = false)) /\ w1 = w)) /\
    ((ns_decent (v_net w1) = true /\ (0 < ns_period (v_net w) /\ ix mod ns_period (v_net w) = 0)%Z /\
      exists pen adds, votes_result w1 w' votes pen adds) \/
     (~ (ns_decent (v_net w1) = true /\ (0 < ns_period (v_net w) /\ ix mod ns_period (v_net w) = 0)%Z) /\ w' = w1)).
Proof.
  intros r nd dc po H. unfold base in H. unfold vbind at 1, vget in H. unfold vbind at 1 in H.
  match type of H with match ?x with _ => _ end = _ => destruct x as [|[[] w1]] eqn:P end; [discriminate|].
  exists w1.
  assert (P1 : (ix = 0%Z /\ (ns_decent (v_net w) = true \/ can_decentralize w = true) /\ term_result w w1) \/
     ((ix <> 0%Z \/ (ns_decent (v_net w) = false /\ can_decentralize w = false)) /\ w1 = w)).
  { clear H. destruct (Z.eqb_spec ix 0) as [I0|I0]; [|injection P as <-; auto]. unfold vbind at 1 in P.
    match type of P with match ?x with _ => _ end = _ => destruct x as [|[[] w0]] eqn:Q end; [discriminate|].
    assert (Q0 : (ns_decent (v_net w) = false /\ can_decentralize w = false /\ w0 = w) \/
      ((ns_decent (v_net w) = true \/ can_decentralize w = true) /\ ns_decent (v_net w0) = true /\ (1 <= v_count w)%Z /\
       exists n evs, w0 = mkVW (v_rev w) (v_gov w) (v_info w) (v_stat w) (v_nto w) (v_main w) (v_sub w) (v_gone w) (v_index w)
         (v_count w) (v_period w) (v_allow w) n (v_active w) (v_keyed w) (v_log w ++ evs) /\ (evs = [] \/ exists c, evs = [EvDecentralized c]))).
    { clear P. destruct (ns_decent (v_net w)) eqn:D; cbn [negb andb] in Q.
      - injection Q as <-. right. split; [auto|]. split; [auto|]. split; [auto|]. exists (v_net w), []. rewrite app_nil_r. split; [destruct w; reflexivity | auto].
      - destruct (can_decentralize w) eqn:C; [|injection Q as <-; auto]. right. injection Q as <-. split; [auto|]. split; [reflexivity|]. split.
        + unfold can_decentralize in C. apply andb_true_iff in C as [C _]. apply andb_true_iff in C as [_ C]. apply Z.leb_le in C. auto.
        + eexists _, _. split; [reflexivity|]. right. eauto. }
    clear Q. unfold vbind at 1, vget in P. destruct Q0 as [(D & C & ->) | (DC & D0 & c1 & n & evs & W0 & EV)].
    { rewrite D in P. injection P as <-. auto. }
    rewrite D0 in P. unfold vbind at 1 in P. left. split; [auto|]. split; [auto|].
    unfold renew in P. unfold vbind at 1, vget in P. rewrite D0 in P. cbn [negb] in P.
    match type of P with match ?x with _ => _ end = _ => destruct x as [|[[] w2]] eqn:RN end; [discriminate|].
    assert (W2 : w2 = w_net (mkNet true (vote_period w) (allowance w) (v_count w)) w0).
    { subst w0. vc. unfold vbind, vwhen in RN.
      repeat match type of RN with context [if ?b then _ else _] => destruct b; [discriminate RN|] end.
      injection RN as <-. reflexivity. }
    assert (R2 : regs w2) by (eapply regs_same; [|exact r]; subst w2 w0; repeat split).
    assert (N2 : NoDup (v_active w2)) by (subst w2 w0; exact nd).
    destruct (init_active_inv w2 w1 R2 N2) as (evs2 & T & B & TL); [subst w2 w0; exact c1 | exact P |].
    assert (TW : tells w w2 evs).
    { subst w2 w0. destruct EV as [-> | (c & ->)].
      - apply tells_none; [vc; apply app_nil_r | reflexivity].
      - split; [split; [reflexivity | split]|]; [intros x; vc; cbn; tauto | intros e [<- | []]; exact I | reflexivity]. }
    destruct B as (B1 & B2 & B3 & B4 & B5 & B6 & B7 & B8).
    constructor.
    - rewrite B1, W2, W0. reflexivity.
    - rewrite B2, W2, W0. reflexivity.
    - eapply same_trans; [|exact B3]. rewrite W2, W0. repeat split.
    - rewrite B4, W2, W0. reflexivity.
    - rewrite B5, B6, W2, W0. split; reflexivity.
    - rewrite B8, W2, W0. reflexivity.
    - rewrite B7, W2. reflexivity.
    - subst w2 w0. exact T.
    - exists (evs ++ evs2). eapply tells_trans; [|exact TW | exact TL]. apply B3. }
  split; [exact P1|]. clear P. unfold vbind, vget in H.
  assert (r1 : regs w1 /\ NoDup (v_active w1)).
  { destruct P1 as [(_ & _ & T) | (_ & ->)]; [|auto]. split; [eapply regs_same; [apply (tr_regs _ _ T) | auto]|].
    apply (term_set_nodup w _ (v_index w1)); [auto | apply (tr_set _ _ T)]. }
  destruct r1 as [r1 nd1].
  destruct (ns_decent (v_net w1)) eqn:D; cbn [andb] in H; [|right; split; [intros [? _]; discriminate | injection H as <-; auto]].
  destruct (Z.ltb_spec 0 (ns_period (v_net w))) as [L|L]; cbn [andb] in H; [|right; split; [lia | injection H as <-; auto]].
  destruct (Z.eqb_spec (ix mod ns_period (v_net w)) 0) as [M|M]; [|right; split; [tauto | injection H as <-; auto]].
  left. split; [auto|]. split; [auto|]. eapply handle_votes_inv; eauto.
Qed.
