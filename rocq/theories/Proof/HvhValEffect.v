(** What each operation does, and the invariant all histories keep. *)
From Verif Require Import Model.HvhState Model.HvhValidator Spec.HvhValSpec Proof.HvhValFacts Proof.HvhValTurn Proof.HvhValInv
  Proof.HvhValSeats Proof.HvhValBase Proof.HvhValVotes Proof.HvhValHist.
From Coq Require Import ZArith List Bool Arith Lia Permutation String.
Import ListNotations.
Open Scope nat_scope.

Record vinv (w : vworld) : Prop := mkVI {
  i_regs : regs w; i_nodup : NoDup (v_active w);
  i_count : (ns_decent (v_net w) = true -> 1 <= v_count w)%Z;
  i_params : (0 <= vote_period w /\ 0 <= allowance w /\ 0 <= ns_allow (v_net w))%Z }.

Definition base_effect (ix : Z) (votes : list (addr * bool)) (w w' : vworld) : Prop := exists w1,
    ((ix = 0%Z /\ (ns_decent (v_net w) = true \/ can_decentralize w = true) /\ term_result w w1) \/
     ((ix <> 0%Z \/ (ns_decent (v_net w) = false /\ can_decentralize w = false)) /\ w1 = w)) /\
    ((ns_decent (v_net w1) = true /\ (0 < ns_period (v_net w) /\ ix mod ns_period (v_net w) = 0)%Z /\
      exists pen adds, votes_result w1 w' votes pen adds) \/
     (~ (ns_decent (v_net w1) = true /\ (0 < ns_period (v_net w) /\ ix mod ns_period (v_net w) = 0)%Z) /\ w' = w1)).

Section Effects.
Variable account_of : list Z -> option Z.
Inductive effect (w : vworld) : vop -> vworld -> Prop :=
| E_same op : effect w op w
| E_rev r : effect w (ORevision r) (w_rev r w)
| E_keys k : effect w (OKeys k) (w_keyed k w)
| E_base ix votes order w' : base_effect ix votes w w' -> effect w (OBase ix votes order) w'
| E_params from p a : from = v_gov w -> (0 <= int64 p)%Z -> (0 <= int64 a)%Z -> effect w (OVoteParams from p a) (w_vote (int64 p) (int64 a) w)
| E_register from o key gn g name url btp n k : from = v_gov w -> v_info w o = None -> v_nto w n = None ->
    node_of account_of key = Some n -> to_grade gn = Some g ->
    effect w (ORegister from o key gn name url btp)
      (w_keyed k (w_list g (vlist g w ++ [o]) (w_nto n o (w_stat o new_status (w_info o (mkInfo n g name (match url with Some u => u | None => EmptyString end)) w)))))
| E_unregister from o s i l w1 w' : (from = v_gov w \/ from = o) -> a_contract o = false -> v_stat w o = Some s -> vs_disq s = false ->
    v_info w o = Some i -> pop_swap o (vlist (vi_grade i) w) = Some l ->
    w1 = w_gone (v_gone w ++ [o]) (w_list (vi_grade i) l (w_stat o (mkStat (vs_disabled s) true (vs_misses s) (vs_used s)) w)) ->
    ((~ In (vi_node i) (v_active w) /\ w' = w1) \/
     exists act, take_out (vi_node i) (v_active w) = Some act /\
       w' = w_log (EvCount (Z.of_nat (List.length act) + 1) (Z.of_nat (List.length act))) (w_log (EvRemoved o (vi_node i) WUnregistered) (w_active act w1))) ->
    effect w (OUnregister from o) w'
| E_set_info o values i j : v_info w o = Some i -> vi_node j = vi_node i -> vi_grade j = vi_grade i -> effect w (OSetInfo o values) (w_info o j w)
| E_set_key_same o key btp k i s : v_info w o = Some i -> v_stat w o = Some s -> vs_disq s = false -> node_of account_of key = Some (vi_node i) ->
    effect w (OSetKey o key btp) (w_keyed k w)
| E_set_key o key btp k i s n w1 w2 : v_info w o = Some i -> v_stat w o = Some s -> vs_disq s = false -> node_of account_of key = Some n ->
    vi_node i <> n -> v_nto w n = None ->
    w1 = w_info o (mkInfo n (vi_grade i) (vi_name i) (vi_url i)) (w_nto n o w) ->
    ((~ In (vi_node i) (v_active w) /\ w2 = w1) \/
     (In (vi_node i) (v_active w) /\ In n (v_active w) /\ (5 <= v_rev w)%Z /\ w2 = w1) \/
     exists act j, nth_error (v_active w) j = Some (vi_node i) /\ ~ In n (v_active w) /\ set_at j n (v_active w) = Some act /\
       w2 = w_log (EvAdded o n) (w_log (EvRemoved o (vi_node i) WKeyChange) (w_active act w1))) ->
    effect w (OSetKey o key btp) (w_keyed k w2)
| E_enable from o s s' : (from = v_gov w \/ from = o) -> v_stat w o = Some s -> enable (addr_eqb from (v_gov w)) s = Some s' ->
    effect w (OEnable from o) (w_stat o (reset_misses s') w)
| E_count from c : from = v_gov w -> (1 <= int64 c <= 1000)%Z -> effect w (OSetCount from c) (w_count (int64 c) w)
| E_grant from a : from = v_gov w -> ~ In a (v_active w) -> effect w (OGrant from a) (w_active (v_active w ++ [a]) w)
| E_revoke from a l : from = v_gov w -> take_out a (v_active w) = Some l -> l <> [] -> effect w (ORevoke from a) (w_active l w).

Lemma nodup_set_at i a l k : NoDup l -> set_at i a l = Some k -> k = l \/ ~ In a l.
Proof.
  intros nd H. unfold set_at in H. destruct (nth_error l i) as [o|]; [|discriminate]. destruct (addr_eqb o a); [injection H as <-; auto|].
  destruct (has a l) eqn:E; [discriminate|]. apply has_out in E. auto.
Qed.
Lemma gov_inv {A} from (m : vm A) w r : (vdo _ <- check_gov from; m) w = inr r -> from = v_gov w /\ m w = inr r.
Proof.
  unfold check_gov, vbind, vget, vwhen. destruct (addr_eqb (v_gov w) from) eqn:E; cbn; [|discriminate]. apply aeq in E. auto.
Qed.
Lemma since_inv {A} k (m : vm A) w r : (vdo _ <- since k; m) w = inr r -> m w = inr r.
Proof. unfold since, vbind, vget, vwhen. destruct (v_rev w <? k)%Z; [discriminate | auto]. Qed.
Lemma when_inv {A} b e (m : vm A) w r : (vdo _ <- vwhen b e; m) w = inr r -> b = false /\ m w = inr r.
Proof. unfold vbind, vwhen. destruct b; [discriminate | auto]. Qed.
Lemma get_inv {A} (f : vworld -> vm A) w r : (vdo w <- vget; f w) w = inr r -> f w w = inr r.
Proof. auto. Qed.

Lemma keyed_self w : w = w_keyed (v_keyed w) w.
Proof. destruct w; reflexivity. Qed.

Lemma vcall_effect op w w' : vinv w -> fair op -> vcall account_of op w = inr (tt, w') -> effect w op w'.
Proof.
  intros iv fr H. destruct op; cbn [vcall] in H; try (apply since_inv in H).
  - injection H as <-. constructor.
  - injection H as <-. constructor.
  - constructor. destruct iv. destruct fr as [_ po]. apply (base_inv ix votes order); auto.
  - apply gov_inv in H as [G H]. unfold set_vote_params in H. apply when_inv in H as [A H]. apply when_inv in H as [B H].
    injection H as <-. apply Z.ltb_ge in A, B. constructor; auto.
  - apply gov_inv in H as [G H]. unfold ext_register in H. destruct (node_of account_of key) as [n|] eqn:N; [|discriminate].
    destruct (to_grade grade) as [g|] eqn:T; [|discriminate]. apply when_inv in H as [_ H]. apply when_inv in H as [_ H].
    unfold vbind at 1 in H. destruct (register _ _ _ _ _ w) as [|[[] w1]] eqn:R; [discriminate|].
    apply register_inv in R as (A & B & C & ->). unfold vbind, vget in H.
    assert (K : exists k, w' = w_keyed k (w_list g (vlist g w ++ [owner]) (w_nto n owner (w_stat owner new_status
       (w_info owner (mkInfo n g name (match url with Some u => u | None => EmptyString end)) w))))).
    { destruct (RevisionFixMissingBTPPublicKey <=? _)%Z.
      - unfold set_btp in H. destruct btp as [k|]; [|discriminate]. injection H as <-. eauto.
      - injection H as <-. eexists. apply keyed_self. }
    destruct K as (k & ->). eapply E_register; eauto.
  - unfold ext_unregister in H. apply when_inv in H as [A H]. apply get_inv in H. apply when_inv in H as [B H].
    assert (P : from = v_gov w \/ from = owner).
    { destruct (addr_eqb from (v_gov w)) eqn:X; [apply aeq in X; auto|]. destruct (addr_eqb from owner) eqn:Y; [apply aeq in Y; auto | discriminate]. }
    unfold vbind at 1 in H. destruct (unregister owner w) as [|[r w1]] eqn:U; [discriminate|].
    apply unregister_inv in U as (_ & s & S0 & [(D & -> & ->) | (D & i & l & I0 & PS & -> & W1)]); [injection H as <-; constructor|].
    apply get_inv in H. assert (ACT : v_active w1 = v_active w) by (rewrite W1; reflexivity). unfold replace_active in H. rewrite ACT in H.
    eapply E_unregister; eauto. destruct (index_of (vi_node i) (v_active w)) as [x|] eqn:X.
    + right. assert (XN := index_some _ _ _ X). rewrite XN in H. unfold take_out at 1. rewrite X. cbn [option_map].
      unfold take_out in H. rewrite X in H. cbn [option_map] in H. exists (del_at x (v_active w)). split; [auto|]. injection H as <-. reflexivity.
    + left. split; [apply index_none; auto|]. injection H as <-. rewrite <- ACT. destruct w1; reflexivity.
  - unfold ext_set_info in H. apply when_inv in H as [_ H]. apply when_inv in H as [_ H]. destruct values as [|p q]; [injection H as <-; constructor|].
    apply set_info_inv in H as (i & j & A & B & C & ->). eapply E_set_info; eauto.
  - unfold ext_set_key in H. apply when_inv in H as [_ H]. destruct (node_of account_of key) as [n|] eqn:N; [|discriminate].
    unfold vbind at 1 in H. destruct (set_node from n w) as [|[p w1]] eqn:SN; [discriminate|]. apply get_inv in H.
    apply set_node_inv in SN as (i & s & I0 & S0 & D0 & -> & [(EN & ->) | (NN & N0 & W1)]).
    + cbn [fst snd] in H. unfold replace_active in H. rewrite EN, arefl in H. subst n.
      assert (K : exists k, w' = w_keyed k w).
      { unfold vbind, vput, vret in H. replace (w_active (v_active w) w) with w in H by (destruct w; reflexivity).
        destruct (RevisionBTP2 <=? v_rev w)%Z.
        - unfold set_btp in H. destruct btp as [k|]; [|discriminate]. injection H as <-. eauto.
        - injection H as <-. eexists. apply keyed_self. }
      destruct K as (k & ->). eapply E_set_key_same; eauto.
    + cbn [fst snd] in H. assert (ACT : v_active w1 = v_active w) by (rewrite W1; reflexivity). assert (RV : v_rev w1 = v_rev w) by (rewrite W1; reflexivity).
      unfold replace_active in H. rewrite ACT, RV in H. assert (NE := NN). apply ane in NE. rewrite NE in H.
      assert (FIN : forall b w2, (if (RevisionBTP2 <=? v_rev w)%Z then set_btp btp else vwhen b EGeneric) w2 = inr (tt, w') ->
         exists k, w' = w_keyed k w2).
      { intros b w2 X. destruct (RevisionBTP2 <=? v_rev w)%Z.
        - unfold set_btp in X. destruct btp as [k|]; [|discriminate]. injection X as <-. eauto.
        - unfold vwhen in X. destruct b; [discriminate|]. injection X as <-. eexists. apply keyed_self. }
      destruct (index_of (vi_node i) (v_active w)) as [x|] eqn:X.
      * apply index_some in X. destruct (set_at x n (v_active w)) as [act|] eqn:SA; cbn [option_map] in H.
        -- unfold vbind, vput, vret in H. apply FIN in H as (k & ->). eapply E_set_key; eauto. right. right. exists act, x.
           assert (NI : ~ In n (v_active w)).
           { destruct (nodup_set_at _ _ _ _ (i_nodup w iv) SA) as [Q|Q]; [|auto]. unfold set_at in SA. rewrite X in SA.
             assert (Y := NN). apply ane in Y. rewrite Y in SA. destruct (has n (v_active w)) eqn:Hn; [discriminate | apply has_out; auto]. }
           split; [auto|]. split; [auto|]. split; [auto|]. reflexivity.
        -- unfold vbind, vret in H. cbn [negb] in H.
           assert (R5 : (5 <= v_rev w)%Z).
           { destruct (RevisionBTP2 <=? v_rev w)%Z eqn:R5; [apply Z.leb_le in R5; exact R5 | discriminate]. }
           apply FIN in H as (k & ->). eapply E_set_key; eauto. right. left. split; [eapply nth_error_In; eauto|]. split; [|auto].
           unfold set_at in SA. rewrite X, NE in SA. destruct (has n (v_active w)) eqn:Hn; [apply has_in; auto | discriminate].
      * unfold vbind, vput, vret in H. replace (w_active (v_active w) w1) with w1 in H by (rewrite <- ACT; destruct w1; reflexivity).
        apply FIN in H as (k & ->). eapply E_set_key; eauto. left. split; [apply index_none; auto | auto].
  - unfold ext_enable in H. apply when_inv in H as [A H]. apply get_inv in H. cbv zeta in H. apply when_inv in H as [B H].
    apply enable_inv in H as (s & s' & S0 & E & ->). eapply E_enable; eauto.
    destruct (addr_eqb from (v_gov w)) eqn:X; [apply aeq in X; auto|]. destruct (addr_eqb from owner) eqn:Y; [apply aeq in Y; auto | discriminate].
  - apply gov_inv in H as [G H]. unfold ext_set_count in H. apply when_inv in H as [A H]. unfold set_active_count in H. apply when_inv in H as [B H].
    injection H as <-. apply negb_false_iff, andb_true_iff in A as [A1 A2]. apply Z.ltb_lt in A1. apply Z.leb_le in A2. unfold MaxValidatorCount in A2.
    constructor; [auto | lia].
  - unfold grant in H. apply gov_inv in H as [G H]. apply when_inv in H as [_ H]. injection H as <-. destruct (has a (v_active w)) eqn:X; [constructor|].
    apply has_out in X. constructor; auto.
  - unfold revoke in H. apply gov_inv in H as [G H]. apply when_inv in H as [_ H]. apply get_inv in H. destruct (take_out a (v_active w)) as [l|] eqn:T; [|discriminate].
    apply when_inv in H as [L H]. injection H as <-. eapply E_revoke; eauto. intros ->. discriminate.
Qed.
Lemma vexec_effect op w : vinv w -> fair op -> effect w op (snd (vexec account_of op w)).
Proof.
  intros iv fr. unfold vexec. destruct (vcall account_of op w) as [e|[[] w']] eqn:E; cbn; [constructor|]. eapply vcall_effect; eauto.
Qed.

(** ** The invariant *)
Lemma base_fields ix votes w w' : vinv w -> base_effect ix votes w w' ->
  regs w' /\ NoDup (v_active w') /\ v_rev w' = v_rev w /\ v_gov w' = v_gov w /\ v_info w' = v_info w /\ v_nto w' = v_nto w /\
  v_main w' = v_main w /\ v_sub w' = v_sub w /\ v_gone w' = v_gone w /\ v_count w' = v_count w /\ v_period w' = v_period w /\
  v_allow w' = v_allow w /\ v_keyed w' = v_keyed w /\
  (v_net w' = v_net w \/ ((ns_decent (v_net w) = true \/ can_decentralize w = true) /\ v_net w' = mkNet true (vote_period w) (allowance w) (v_count w))).
Proof.
  intros iv (w1 & T & V).
  assert (A : regs w1 /\ NoDup (v_active w1) /\ v_rev w1 = v_rev w /\ v_gov w1 = v_gov w /\ v_info w1 = v_info w /\ v_nto w1 = v_nto w /\
    v_main w1 = v_main w /\ v_sub w1 = v_sub w /\ v_gone w1 = v_gone w /\ v_count w1 = v_count w /\ v_period w1 = v_period w /\
    v_allow w1 = v_allow w /\ v_keyed w1 = v_keyed w /\
    (v_net w1 = v_net w \/ ((ns_decent (v_net w) = true \/ can_decentralize w = true) /\ v_net w1 = mkNet true (vote_period w) (allowance w) (v_count w)))).
  { destruct T as [(_ & D & T) | (_ & ->)].
    - destruct T as [t1 t2 t3 t4 [t5 t6] t7 t8 t9 _]. split; [eapply regs_same; [exact t3 | apply iv]|].
      split; [eapply term_set_nodup; [apply iv | exact t9]|]. destruct t3 as (A1 & A2 & A3 & A4 & A5 & A6). repeat (split; [auto|]). auto.
    - destruct iv. repeat (split; [auto|]). auto. }
  destruct V as [(_ & _ & pen & adds & [v1 v2 v3 _ _ _ _]) | (_ & ->)]; [|auto].
  unfold but_votes in v2. destruct v2 as (b1 & b2 & b3 & b4 & b5 & b6 & b7 & b8 & b9 & b10 & b11 & b12).
  destruct A as (_ & _ & a3 & a4 & a5 & a6 & a7 & a8 & a9 & a10 & a11 & a12 & a13 & a14).
  rewrite b1, b2, b3, b4, b5, b6, b7, b8, b9, b10, b11, b12. repeat (split; [auto; congruence|]). auto.
Qed.

Lemma vinv_effect w op w' : vinv w -> effect w op w' -> vinv w'.
Proof.
  intros iv H. assert (iv' := iv). destruct iv' as [r nd cn pr]. unfold vote_period, allowance in pr. destruct H.
  - auto.
  - constructor; auto. eapply regs_same; [|exact r]. repeat split.
  - constructor; auto. eapply regs_same; [|exact r]. repeat split.
  - destruct (base_fields _ _ _ _ iv H) as (a1 & a2 & a3 & a4 & a5 & a6 & a7 & a8 & a9 & a10 & a11 & a12 & a13 & a14).
    constructor; auto.
    + rewrite a10. destruct a14 as [-> | ([D|D] & _)]; auto. intros _. unfold can_decentralize in D.
      apply andb_true_iff in D as [D _]. apply andb_true_iff in D as [_ D]. apply Z.leb_le in D. auto.
    + unfold vote_period, allowance in *. rewrite a11, a12. destruct a14 as [-> | (_ & ->)]; cbn; intuition.
  - constructor; auto; [eapply regs_same; [|exact r]; repeat split|]. unfold vote_period, allowance. vc. tauto.
  - constructor; auto.
    eapply regs_same; [|apply (regs_register o n g name (match url with Some u => u | None => EmptyString end) w r H0)]; [repeat split | apply (r_both w r); auto | auto].
  - assert (R1 : regs w1) by (subst w1; apply regs_unregister; auto).
    destruct H6 as [(N & ->) | (act & T & ->)]; [subst w1; constructor; auto|].
    destruct (take_out_some _ _ _ nd T) as (_ & A & _). subst w1. constructor; auto. eapply regs_same; [|exact R1]. repeat split.
  - constructor; auto. eapply regs_info; eauto.
  - constructor; auto. eapply regs_same; [|exact r]. repeat split.
  - assert (R1 : regs w1) by (subst w1; apply regs_set_node; auto).
    destruct H6 as [(N & ->) | [(_ & _ & _ & ->) | (act & j & A & B & C & ->)]]; subst w1.
    + constructor; auto. eapply regs_same; [|exact R1]. repeat split.
    + constructor; auto. eapply regs_same; [|exact R1]. repeat split.
    + destruct (set_at_some _ _ _ _ _ nd A B C) as (E & _). constructor; auto. eapply regs_same; [|exact R1]. repeat split.
  - pose proof (r_stat w r o s H0) as B. destruct (enable_keeps _ _ _ H1 B) as (E1 & E2 & E3 & E4).
    constructor; auto. apply (regs_stat w o s); cbn; auto; try congruence; lia.
  - constructor; auto; [eapply regs_same; [|exact r]; repeat split|]. vc. lia.
  - constructor; auto; [eapply regs_same; [|exact r]; repeat split|]. vc. apply nodup_join; [auto | repeat constructor; auto|].
    intros x Hx [<- | []]. contradiction.
  - destruct (take_out_some _ _ _ nd H0) as (_ & A & _). constructor; auto. eapply regs_same; [|exact r]. repeat split.
Qed.

Lemma start_inv rev gov act keyed : NoDup act -> vinv (start rev gov act keyed).
Proof.
  intros nd. constructor; auto; [|discriminate | unfold vote_period, allowance, DefaultVotePeriod, DefaultAllowance; cbn; lia].
  constructor; cbn; unfold live, disqualified; cbn; try (split; [tauto | intros (? & ? & H & _); discriminate H]); try discriminate.
  - tauto.
  - intros o. split; [tauto|]. intros (? & H & _). discriminate H.
  - repeat split; constructor.
Qed.
Lemma reached_inv w ops w' : vinv w -> reached account_of w ops w' -> vinv w'.
Proof. intros iv H. induction H; [auto|]. eapply vinv_effect; [|apply vexec_effect]; auto. Qed.
End Effects.
