(** C49: who may change what on the HAVAH platform. *)
From Verif Require Import Model.HvhState Model.HvhExt Spec.HvhSpec Spec.HvhSample Proof.HvhFacts Proof.HvhSupply Proof.HvhTreasury
  Proof.HvhTerms Proof.HvhIssue Proof.HvhRewards Proof.HvhLive Proof.HvhClaims Proof.HvhClaims2 Proof.HvhRun Proof.HvhAdmin Props.P_HvhCoins Props.P_HvhRewards.
From Coq Require Import ZArith List Bool Lia ZifyBool Permutation.
Import ListNotations.
Open Scope Z_scope.

(** Managers: an address is one exactly if governance added it and has not removed it since, each at most once. *)
Theorem C49_managers t w : NoDup (managers w) ->
  NoDup (managers (apply_tx t w)) /\
  forall a, In a (managers (apply_tx t w)) <->
    t = Call (gov w) (AddPlanetManager a) \/ (In a (managers w) /\ t <> Call (gov w) (RemovePlanetManager a)).
Proof.
  intro Nd.
  assert (Same : managers (apply_tx t w) = managers w ->
    (forall a, t = Call (gov w) (AddPlanetManager a) -> In a (managers w)) ->
    (forall a, t = Call (gov w) (RemovePlanetManager a) -> ~ In a (managers w)) ->
    NoDup (managers (apply_tx t w)) /\
    forall a, In a (managers (apply_tx t w)) <->
      t = Call (gov w) (AddPlanetManager a) \/ (In a (managers w) /\ t <> Call (gov w) (RemovePlanetManager a))).
  { intros E A R. rewrite E. split; auto. intro a. split.
    - intro Hin. right. split; auto. intro X. eapply R; eauto.
    - intros [X|[X _]]; auto. }
  destruct t as [from c|from to amount].
  - destruct c as [price|h|a|a|id pr co ow us pri|id|id ow|id|ids|num den|to|v].
    3:{ rewrite add_tx in *. destruct (addr_eqb from (gov w)) eqn:G.
        - apply aeqb in G. subst from. destruct (state_is_manager w a) eqn:M.
          + apply is_manager_in in M. apply Same; [reflexivity| |discriminate]. intros b X. injection X as ->. exact M.
          + assert (~ In a (managers w)) by (intro X; apply is_manager_in in X; congruence).
            split; [rewrite <- Permutation_cons_append; now constructor|].
            intro b. rewrite in_app_iff. cbn. split.
            * intros [X|[->|[]]]; [right; split; auto; discriminate|now left].
            * intros [X|[X _]]; [right; left; congruence|now left].
        - assert (from <> gov w) by (intro X; apply aeqb in X; congruence). apply Same; [reflexivity| |]; intros b X; congruence. }
    3:{ rewrite remove_tx in *. destruct (addr_eqb from (gov w)) eqn:G.
        - apply aeqb in G. subst from. destruct (index_of a (managers w)) as [i|] eqn:Ei.
          + destruct (index_of_some _ _ _ Ei) as (l1 & l2 & El & <-). pose proof (swap_remove_perm a l1 l2) as Pm. rewrite <- El in Pm.
            pose proof (Permutation_NoDup (Permutation_sym Pm) Nd) as Nd2. inversion Nd2 as [|? ? Na Nd3]; subst. split; auto.
            intro b. split.
            * intro Hin. right. split; [eapply Permutation_in; [exact Pm|now right]|]. intro X. injection X as ->. contradiction.
            * intros [X|[X Ne]]; [discriminate|]. apply (Permutation_in _ (Permutation_sym Pm)) in X as [->|X]; [|exact X]. exfalso. now apply Ne.
          + apply index_of_none in Ei. apply Same; [reflexivity|discriminate|]. intros b X. injection X as ->. exact Ei.
        - assert (from <> gov w) by (intro X; apply aeqb in X; congruence). apply Same; [reflexivity| |]; intros b X; congruence. }
    all: apply Same; try discriminate; match goal with |- managers (apply_tx ?t ?v) = _ => destruct (apply_tx_cases t v) as [E|(u & E)]; [rewrite E; reflexivity|] end;
      match type of E with exec ?fr ?cc ?v = _ => assert (K : keeps (fun z => managers z = managers v) (exec fr cc)) by (kunf; kx) end;
      now apply K in E.
  - apply Same; try discriminate. destruct (apply_tx_cases (Coins from to amount) w) as [E|(u & E)]; [rewrite E; reflexivity|].
    assert (K : keeps (fun z => managers z = managers w) (transfer from to amount)) by (kunf; kx). now apply K in E.
Qed.
Print Assumptions C49_managers.

Theorem C49_managers_history w0 w : genesis w0 -> history w0 w -> NoDup (managers w).
Proof.
  intros G h. induction h as [|w w' rev claimed vc h IH B|w t h IH o].
  - destruct G as (_ & _ & _ & -> & _). constructor.
  - assert (E : managers w' = managers w); [|rewrite E; exact IH].
    apply begin_block_cases in B as [[_ ->]|[_ [u B]]]; [reflexivity|].
    assert (K : keeps (fun z => managers z = managers w) (on_base_tx claimed)) by base_keeps.
    apply K in B; [exact B|reflexivity].
  - now apply C49_managers.
Qed.
Print Assumptions C49_managers_history.

(** Settings change by a transaction only if the right party sent the right one. *)
Theorem C49_authority t w :
  let w' := apply_tx t w in
  (claim_rate w' = claim_rate w \/ exists n d, t = Call (gov w) (SetPrivateClaimableRate n d)) /\
  (issue_start w' = issue_start w \/ exists h, t = Call (gov w) (StartRewardIssue h)) /\
  (usdt_price w' = usdt_price w \/ exists from p, t = Call from (SetUSDTPrice p) /\ (3 <= revision w -> from = gov w)) /\
  (lost w <= lost w' \/ exists to, t = Call (gov w) (WithdrawLostTo to)) /\
  (forall id, planets w' id = planets w id \/ exists c, t = Call PlanetNFT c /\
      match c with
      | RegisterPlanet i private company owner usdt price =>
          int64 i = id /\ planets w id = None /\ planets w' id = Some (mkPlanet private company owner usdt price (height w))
      | UnregisterPlanet i => int64 i = id /\ planets w' id = None
      | SetPlanetOwner i owner => int64 i = id /\ option_map p_owner (planets w' id) = Some owner
      | _ => False
      end) /\
  height w' = height w /\ revision w' = revision w /\ gov w' = gov w /\ treasury w' = treasury w /\
  issue_amount w' = issue_amount w /\ issue_limit w' = issue_limit w /\ term_period w' = term_period w /\
  reduction_cycle w' = reduction_cycle w /\ hoover_budget w' = hoover_budget w /\ active_usdt_price w' = active_usdt_price w.
Proof.
  cbv zeta. destruct (apply_tx_cases t w) as [-> |(u & E)].
  { split; [now left|]. split; [now left|]. split; [now left|]. split; [left; lia|]. split; [intro; now left|]. repeat split; reflexivity. }
  set (w' := apply_tx t w) in *. clearbody w'.
  destruct t as [from c|from to amount].
  2:{ pose proof (transfer_all _ from to amount w u w' eq_refl E) as Q. clear E. rename Q into E. unfold conf in E. injection E as -> -> -> -> -> -> -> -> -> -> _ -> -> -> -> ->.
      split; [now left|]. split; [now left|]. split; [now left|]. split; [left; lia|]. split; [intro; now left|]. repeat split; reflexivity. }
  pose proof (fun X => governed from c w u w' X E) as G. pose proof (fun X => by_contract from c w u w' X E) as N.
  pose proof (exec_conf _ from c w u w' eq_refl E) as Cf. unfold conf in Cf. injection Cf as F1 F2 F3 F4 F5 F6 F7 F8 F9 F10.
  split; [|split; [|split; [|split; [|split]]]]; [| | | | |repeat split; assumption].
  - destruct c; try (left; match type of E with exec ?fr ?cc ?v = _ => assert (K : keeps (fun z => claim_rate z = claim_rate v) (exec fr cc)) by (kunf; kx) end; now apply K in E).
    right. rewrite (G eq_refl). eauto.
  - destruct c; try (left; match type of E with exec ?fr ?cc ?v = _ => assert (K : keeps (fun z => issue_start z = issue_start v) (exec fr cc)) by (kunf; kx) end; now apply K in E).
    right. rewrite (G eq_refl). eauto.
  - destruct c; try (left; match type of E with exec ?fr ?cc ?v = _ => assert (K : keeps (fun z => usdt_price z = usdt_price v) (exec fr cc)) by (kunf; kx) end; now apply K in E).
    right. exists from, price. split; auto. intro R. cbn [exec] in E. hbind E rv w1 H1. hstep H1. hbind E q w1 H1.
    destruct (Z.leb_spec RevisionFixAccessControl (revision w)) as [L|L]; [|unfold RevisionFixAccessControl in L; lia].
    cbn [when] in H1. apply check_gov_inv in H1 as [H1 _]. now apply aeqb in H1.
  - destruct c; try (left; match type of E with exec ?fr ?cc ?v = _ => assert (K : keeps (fun z => lost z = lost v) (exec fr cc)) by (kunf; kx) end; apply K in E; [lia|reflexivity]).
    + left. apply (unregister_grows (lost w) from id) in E; [exact E|lia].
    + right. rewrite (G eq_refl). eauto.
  - intro i. destruct c; try (left; match type of E with exec ?fr ?cc ?v = _ => assert (K : keeps (fun z => planets z = planets v) (exec fr cc)) by (kunf; kx) end; apply K in E; [now rewrite E|reflexivity]).
    + pose proof (N eq_refl) as ->. apply register_inv in E. cbv zeta in E. destruct E as (_ & P & _ & ->). cbn [planets set_planets set_all_planet]. unfold upd.
      destruct (Z.eqb_spec i (int64 id)) as [-> |]; [right|now left]. eexists. split; [reflexivity|]. cbn. auto.
    + pose proof (N eq_refl) as ->. apply unregister_inv in E. cbv zeta in E. destruct E as (p & _ & _ & _ & P & _). rewrite P. unfold upd.
      destruct (Z.eqb_spec i (int64 id)) as [-> |]; [right|now left]. eexists. split; [reflexivity|]. cbn. auto.
    + pose proof (N eq_refl) as ->. apply set_owner_inv in E. cbv zeta in E. destruct E as (p & p' & _ & O & _ & _ & _ & _ & _ & ->). cbn [planets set_planets]. unfold upd.
      destruct (Z.eqb_spec i (int64 id)) as [-> |]; [right|now left]. eexists. split; [reflexivity|]. cbn. rewrite O. auto.
Qed.
Print Assumptions C49_authority.

(** The start of a block changes none of them. *)
Theorem C49_blocks rev claimed vc w w' : begin_block rev claimed vc w = Some w' ->
  managers w' = managers w /\ claim_rate w' = claim_rate w /\ issue_start w' = issue_start w /\ usdt_price w' = usdt_price w /\
  lost w' = lost w /\ (forall id, planets w' id = planets w id) /\ (forall id, rewards w' id = rewards w id) /\ gov w' = gov w.
Proof.
  intro B. apply begin_block_cases in B as [[_ ->]|[_ [u B]]]; [repeat split; reflexivity|].
  assert (K : keeps (fun z => managers z = managers w /\ claim_rate z = claim_rate w /\ issue_start z = issue_start w /\ usdt_price z = usdt_price w /\
    lost z = lost w /\ planets z = planets w /\ rewards z = rewards w /\ gov z = gov w) (on_base_tx claimed)) by base_keeps.
  apply K in B; [|repeat split; reflexivity]. destruct B as (-> & -> & -> & -> & -> & -> & -> & ->). repeat split; reflexivity.
Qed.
Print Assumptions C49_blocks.

(** Lost rewards: governance sends all of them to a user account, which gets exactly that. *)
Theorem C49_withdraw w0 w from to : genesis w0 -> history w0 w ->
  ((exists w', exec from (WithdrawLostTo to) w = (Ok tt, w')) <-> from = gov w /\ a_contract to = false) /\
  forall w', exec from (WithdrawLostTo to) w = (Ok tt, w') ->
    lost w' = 0 /\ supply w' = supply w /\
    (a_id to <> a_id PublicTreasury ->
       balance w' to = balance w to + lost w /\ balance w' PublicTreasury = balance w PublicTreasury - lost w /\
       forall a, a <> a_id to -> a <> a_id PublicTreasury -> bal w' a = bal w a).
Proof.
  intros Gn Hi. destruct (C36_supply w0 w Gn Hi) as (B & _). destruct (C34_backed w0 w [] Gn Hi (NoDup_nil _)) as (L & L1 & L2 & L3 & _). cbn [sum_over] in L.
  set (act := when (0 <? lost w) (transfer PublicTreasury to (lost w) ;; emit (EvLostWithdrawn to (lost w)))).
  assert (X : forall u w', exec from (WithdrawLostTo to) w = (Ok u, w') -> from = gov w /\ a_contract to = false /\ act (set_lost 0 w) = (Ok u, w')).
  { intros u w' E. cbn [exec] in E. hbind E q w1 H1. apply check_gov_inv in H1 as [H1 ->]. apply aeqb in H1. unfold withdraw_lost_to in E.
    destruct (a_contract to); [hstep E|]. hbind E l w2 H2. unfold delete_lost in H2. hbind H2 l1 w3 H3. hstep H3. hbind H2 q3 w3 H3. hstep H3. hstep H2. auto. }
  split; [split|].
  - intros (w' & E). apply X in E. tauto.
  - intros [-> Ct]. cbn [exec]. unfold bind at 1, check_governance, bind at 1, get at 1. rewrite (proj2 (aeqb _ _) eq_refl).
    cbv beta iota delta [ret]. unfold withdraw_lost_to. rewrite Ct. unfold delete_lost, bind at 1 2 3, get at 1, put at 1. cbv beta iota delta [ret]. fold act.
    unfold act, when. destruct (Z.ltb_spec 0 (lost w)); [|eexists; reflexivity]. unfold bind.
    destruct (transfer PublicTreasury to (lost w) (set_lost 0 w)) as [[[]|e] w1] eqn:T; [eexists; reflexivity|].
    apply transfer_er in T; [|exact B]. unfold balance in L. cbn [bal set_lost] in T. lia.
  - intros w' E. apply X in E as (_ & Ct & E). unfold act in E. apply when_ok in E as [[P E]|[P ->]].
    2:{ cbn. split; auto. split; auto. intros _. unfold balance. cbn [bal set_lost]. assert (lost w = 0) by lia. repeat split; intros; try lia; auto; change (a_id PublicTreasury) with 274031556999544297163190906134303066185487351808; lia. }
    hbind E q w1 H1. hstep E. apply transfer_inv in H1 as [_ [[-> [Z0|Q]]|(le & _ & ->)]]; [lia| |].
    + apply addr_eqb_true in Q. subst to. cbn. split; auto. split; auto. intro Y. congruence.
    + unfold moved, balance. cbn [lost supply bal set_log set_bal set_lost]. split; auto. split; auto. intro Ne.
      cbn [bal set_lost]. rewrite upd_same. rewrite upd_other by auto. rewrite upd_other by congruence. rewrite upd_same. repeat split; try lia.
      intros a Na Nb. rewrite !upd_other by auto. reflexivity.
Qed.
Print Assumptions C49_withdraw.

(** The owner of a planet changes by a call of the planet contract and nothing else does. *)
Theorem C49_owner from id owner w :
  ((exists w', exec from (SetPlanetOwner id owner) w = (Ok tt, w')) <-> from = PlanetNFT /\ 0 <= int64 id /\ planets w (int64 id) <> None) /\
  forall w', exec from (SetPlanetOwner id owner) w = (Ok tt, w') -> exists p,
    planets w (int64 id) = Some p /\
    planets w' (int64 id) = Some (mkPlanet (p_private p) (p_company p) owner (p_usdt p) (p_price p) (p_height p)) /\
    (forall i, i <> int64 id -> planets w' i = planets w i) /\ (forall i, rewards w' i = rewards w i) /\ all_planet w' = all_planet w.
Proof.
  assert (X : forall u w', exec from (SetPlanetOwner id owner) w = (Ok u, w') -> 0 <= int64 id).
  { intros u w' E. cbn [exec] in E. hbind E q w1 H1. apply check_nft_inv in H1 as [_ ->]. unfold state_set_planet_owner in E. hbind E p w1 H1.
    unfold state_get_planet in H1. destruct (Z.ltb_spec (int64 id) 0); [hstep H1|auto]. }
  split; [split|].
  - intros (w' & E). split; [exact (by_contract from (SetPlanetOwner id owner) w tt w' eq_refl E)|]. split; [eapply X; eauto|].
    apply set_owner_inv in E. cbv zeta in E. destruct E as (p & p' & P & _). congruence.
  - intros (-> & I & P). destruct (planets w (int64 id)) as [p|] eqn:Ep; [|congruence].
    cbn [exec]. unfold bind, check_nft, state_set_planet_owner, bind, state_get_planet, bind, get. rewrite (proj2 (aeqb _ _) eq_refl). cbn [ret].
    cbv beta iota delta [ret]. replace (int64 id <? 0) with false by lia. rewrite Ep. eexists. reflexivity.
  - intros w' E. apply set_owner_inv in E. cbv zeta in E. destruct E as (p & [a1 a2 a3 a4 a5 a6] & P & O & E1 & E2 & E3 & E4 & E5 & ->). cbn in O, E1, E2, E3, E4, E5. subst.
    exists p. split; auto. cbn [planets set_planets rewards all_planet]. unfold upd. rewrite Z.eqb_refl. split; auto. split; auto.
    intros i Ne. destruct (Z.eqb_spec i (int64 id)); [contradiction|reflexivity].
Qed.
Print Assumptions C49_owner.

(** Before revision 3 anybody sets the price on which the subsidies depend. *)
Theorem C49_violated_price from p w : revision w < 3 -> 0 <= p ->
  exists w', exec from (SetUSDTPrice p) w = (Ok tt, w') /\ usdt_price w' = p.
Proof.
  intros R P. exists (set_usdt_price p w). split; [|reflexivity]. cbn [exec]. unfold bind, get, when.
  destruct (Z.leb_spec RevisionFixAccessControl (revision w)) as [L|L]; [unfold RevisionFixAccessControl in L; lia|]. cbn.
  destruct (Z.ltb_spec p 0); [lia|reflexivity].
Qed.
Print Assumptions C49_violated_price.

(** The sample chain: one manager, three planets; then governance dismisses the manager and a stranger tries. *)
Example C49_example : exists w, after 21 = Some w /\ genesis sample /\ history sample w /\ managers w = [reporter] /\ gov w = governor /\
  managers (apply_tx (Call governor (RemovePlanetManager reporter)) w) = [] /\
  managers (apply_tx (Call alice (RemovePlanetManager reporter)) w) = [reporter] /\
  option_map p_owner (planets (apply_tx (Call PlanetNFT (SetPlanetOwner 7 bob)) w) 7) = Some bob.
Proof.
  destruct (after 21) as [w|] eqn:E; [|vm_compute in E; discriminate E]. exists w. split; [reflexivity|].
  split; [apply sample_genesis|]. split; [eapply after_history; eauto|].
  vm_compute in E. injection E as <-. vm_compute. repeat split.
Qed.
