(** C36, C38: coins and the planet registry. *)
From Verif Require Import Model.HvhState Model.HvhExt Spec.HvhSpec Spec.HvhSample Proof.HvhFacts Proof.HvhSupply Proof.HvhTreasury
  Proof.HvhTerms Proof.HvhIssue Proof.HvhRewards Proof.HvhLive Proof.HvhClaims Proof.HvhClaims2 Proof.HvhRun.
From Coq Require Import ZArith List Bool Lia ZifyBool.
Import ListNotations.
Open Scope Z_scope.

(** * C36 *)
(** In every history: no balance is negative; the recorded supply is exactly the sum of all balances; and it is what
    the chain began with plus everything issued minus everything burned. *)
Theorem C36_supply w0 w : genesis w0 -> history w0 w ->
  (forall a, 0 <= bal w a) /\ supply_backed w /\
  supply w = supply w0 + sum_list (map snd (issued (log w))) - sum_list (burned (log w)).
Proof.
  intros g h. destruct (history_money w0 w g h) as (nn & (l & nd & out & sm) & E). split; [auto|]. split; [|lia].
  exists l. repeat split; auto. lia.
Qed.
Print Assumptions C36_supply.

(** A transfer moves exactly the amount and touches nothing else; it is refused exactly for a negative amount or one
    that the sender does not have. *)
Theorem C36_transfer from to amount w : (forall a, 0 <= bal w a) -> from <> to -> a_id from <> a_id to ->
  ((exists w', transfer from to amount w = (Ok tt, w')) <-> 0 <= amount <= balance w from) /\
  (forall w', transfer from to amount w = (Ok tt, w') ->
     balance w' from = balance w from - amount /\ balance w' to = balance w to + amount /\
     (forall a, a <> a_id from -> a <> a_id to -> bal w' a = bal w a) /\
     supply w' = supply w /\ (forall id, rewards w' id = rewards w id) /\ planets w' = planets w /\
     issued (log w') = issued (log w) /\ burned (log w') = burned (log w)).
Proof.
  intros nn ne ni. unfold balance. split.
  - split.
    + intros [w' H]. apply transfer_inv in H as [n [[-> [Z0|Q]] | (le & _ & _)]]; [pose proof (nn (a_id from)); lia | | lia].
      apply addr_eqb_true in Q. contradiction.
    + intros le. destruct (transfer from to amount w) as [[[]|e] w'] eqn:T; [eauto|].
      apply transfer_er in T; [|auto]. lia.
  - intros w' H. apply transfer_inv in H as [n [[-> [Z0|Q]] | (le & _ & ->)]].
    + rewrite Z0. repeat split; auto; lia.
    + apply addr_eqb_true in Q. contradiction.
    + unfold moved. cbn [bal supply rewards planets log set_log set_bal]. rewrite upd_same.
      rewrite upd_other by auto. rewrite upd_same. rewrite upd_other by auto.
      repeat split; auto; try lia. intros a na nb. rewrite !upd_other by auto. reflexivity.
Qed.
Print Assumptions C36_transfer.

(** Only sending coins to the chain itself burns, and nothing but a base transaction issues: every other call leaves
    the supply as it is. *)
Theorem C36_calls w0 w from c u w' : genesis w0 -> history w0 w -> a_id from <> a_id PublicTreasury ->
  exec from c w = (Ok u, w') ->
  match c with
  | Fallback value => supply w' = supply w - value /\ 0 <= value /\ balance w' from = balance w from - value
  | _ => supply w' = supply w
  end.
Proof.
  intros g h ne H. destruct c.
  12:{ cbn [exec] in H. hbind H q w1 H1. 
       destruct (history_money w0 w g h) as (nn & _).
       apply transfer_inv in H1 as [n H1]. unfold burn_coin in H. hbind H s w2 H2. hstep H.
       unfold burn in H2. destruct (value <? 0) eqn:V; [lia|]. cbn [supply set_log].
       assert (S1 : supply w1 = supply w) by (destruct H1 as [[-> _] | (_ & _ & ->)]; reflexivity).
       destruct (0 <? value) eqn:P.
       - hbind H2 ts w3 H3. unfold add_total_supply in H3. hbind H3 t w4 H4. hstep H4.
         destruct (supply w1 + - value <? 0); [hstep H3|]. hbind H3 q3 w4 H4. hstep H4. hstep H3.
         hbind H2 q4 w5 H5. hstep H2. unfold withdraw in H5. rewrite V in H5. destruct (value =? 0) eqn:V0; [lia|].
         apply add_balance_inv in H5 as [_ ->]. cbn [supply set_bal set_supply]. split; [lia|]. split; [lia|].
         unfold balance. cbn [bal set_bal set_supply set_log].
         destruct H1 as [[-> [Z0|Q]] | (le & nq & ->)]; [lia| |].
         + apply addr_eqb_true in Q. subst from. cbn [a_id SystemAddress]. rewrite upd_same. cbn. lia.
         + unfold moved. cbn [bal set_log set_bal]. unfold upd. cbn [a_id SystemAddress].
           destruct (Z.eqb_spec (a_id from) 0) as [F|F]; [rewrite F; cbn [Z.eqb]; lia|]. rewrite Z.eqb_refl. lia.
       - hstep H2. assert (value = 0) by lia. subst value. split; [lia|]. split; [lia|].
         destruct H1 as [[-> _] | (le & nq & ->)]; [|lia]. unfold balance. cbn [bal set_log]. lia. }
  all: match type of H with exec _ ?cc _ = _ =>
      assert (K : keeps (fun z => supply z = supply w) (exec from cc)) by (kunf; kx) end.
  all: apply K in H; [exact H | reflexivity].
Qed.
Print Assumptions C36_calls.

(** * C38 *)
(** In every history the recorded number of planets is the number of registered planets, and at most 50000. *)
Theorem C38_count w0 w : genesis w0 -> history w0 w ->
  exists ids, NoDup ids /\ (forall id, In id ids <-> planets w id <> None) /\
    Z.of_nat (length ids) = all_planet w /\ all_planet w <= 50000 /\ (forall id, In id ids -> 0 <= id < 2 ^ 63).
Proof.
  intros g h. destruct (history_rewards w0 w g h) as (_ & (m & ph & l & (nd & rg & len) & _) & _). exists l.
  repeat (split; [assumption|]). intros id Hi. apply rg in Hi. destruct (planets w id) as [p|] eqn:P; [|contradiction].
  apply (ph id p P).
Qed.
Print Assumptions C38_count.

(** Registering: accepted exactly from the planet NFT contract, for an identifier not taken and below the limit; it
    records the given data and adds one. *)
Theorem C38_register from id private company owner usdt price w :
  let i := int64 id in
  ((exists w', exec from (RegisterPlanet id private company owner usdt price) w = (Ok tt, w')) <->
   from = PlanetNFT /\ 0 <= i /\ planets w i = None /\ all_planet w < 50000) /\
  (forall w', exec from (RegisterPlanet id private company owner usdt price) w = (Ok tt, w') ->
     planets w' i = Some (mkPlanet private company owner usdt price (height w)) /\
     (forall j, j <> i -> planets w' j = planets w j) /\ all_planet w' = all_planet w + 1 /\
     (forall j, rewards w' j = rewards w j) /\ bal w' = bal w /\ log w' = log w).
Proof.
  intros i. split.
  - split.
    + intros [w' H]. assert (H0 := H). apply register_inv in H0. cbv zeta in H0. destruct H0 as (a & b & c & _).
      cbn [exec] in H. hbind H q w1 H1. apply check_nft_inv in H1 as [G _]. apply addr_eqb_true in G. repeat split; auto.
    + intros (-> & i0 & P & L). cbn [exec]. unfold check_nft. change (addr_eqb PlanetNFT PlanetNFT) with true.
      erewrite bind_eq by reflexivity. erewrite bind_eq by reflexivity. unfold state_register_planet. fold i.
      destruct (i <? 0) eqn:K; [lia|]. erewrite bind_eq by reflexivity. rewrite P. erewrite bind_eq by reflexivity.
      unfold MaxPlanetCount. destruct (50000 <=? all_planet w) eqn:K2; [lia|]. eexists. reflexivity.
  - intros w' H. apply register_inv in H. cbv zeta in H. destruct H as (_ & _ & _ & ->). fold i.
    cbn [planets all_planet rewards bal log set_all_planet set_planets]. rewrite upd_same. repeat split; auto.
    intros j nj. apply upd_other. auto.
Qed.
Print Assumptions C38_register.

(** Unregistering: accepted exactly from the planet NFT contract for a registered planet; it takes away that planet
    and one from the count.  From revision 2 the planet's unclaimed rewards become lost rewards and its record starts
    anew; before, the record stays. *)
Theorem C38_unregister w0 w from id : genesis w0 -> history w0 w ->
  let i := int64 id in
  ((exists w', exec from (UnregisterPlanet id) w = (Ok tt, w')) <-> from = PlanetNFT /\ planets w i <> None) /\
  (forall w', exec from (UnregisterPlanet id) w = (Ok tt, w') ->
     planets w' i = None /\ (forall j, j <> i -> planets w' j = planets w j) /\ all_planet w' = all_planet w - 1 /\
     (forall j, j <> i -> rewards w' j = rewards w j) /\ bal w' = bal w /\
     (if 2 <=? revision w then lost w' = lost w + pr_current (reward_of w i) /\ rewards w' i = None
      else lost w' = lost w /\ rewards w' i = rewards w i)).
Proof.
  intros g h i. destruct (history_cov w0 w g h) as (_ & _ & _ & _ & cc & _). specialize (cc i).
  destruct (C38_count w0 w g h) as (ids & nd & rg & len & _ & rng).
  assert (G : forall x, exec from (UnregisterPlanet id) w = x ->
    (from = PlanetNFT /\ planets w i <> None ->
      exists w', x = (Ok tt, w') /\ planets w' i = None /\ (forall j, j <> i -> planets w' j = planets w j) /\ all_planet w' = all_planet w - 1 /\
     (forall j, j <> i -> rewards w' j = rewards w j) /\ bal w' = bal w /\
     (if 2 <=? revision w then lost w' = lost w + pr_current (reward_of w i) /\ rewards w' i = None
      else lost w' = lost w /\ rewards w' i = rewards w i))).
  { intros x <- (-> & P). assert (R := proj2 (rg i) P). pose proof (rng i R) as i0.
    assert (N : 1 <= all_planet w). { rewrite <- len. destruct ids; [destruct R | cbn; lia]. }
    cbn [exec]. unfold check_nft. change (addr_eqb PlanetNFT PlanetNFT) with true. erewrite bind_eq by reflexivity.
    fold i. unfold unregister_planet. erewrite bind_eq by reflexivity.
    destruct (planets w i) as [p|] eqn:PI; [|contradiction].
    assert (N1 : all_planet w <? 1 = false) by lia.
    set (w1 := set_all_planet (all_planet w - 1) (set_planets (upd (planets w) i None) w)).
    assert (SU : state_unregister_planet (revision w) i w =
      if 2 <=? revision w then
        (pr <- get (fun w => reward_of w i) ;; add_lost (pr_current pr) ;;
         put (fun w => set_rewards (upd (rewards w) i None) w) ;; ret (pr_current pr)) w1 else (Ok 0, w1)).
    { unfold state_unregister_planet. destruct (i <? 0) eqn:K; [lia|]. erewrite bind_eq by reflexivity. rewrite PI.
      erewrite bind_eq by reflexivity. rewrite N1. unfold RevisionPlanetIDReuse. destruct (2 <=? revision w); reflexivity. }
    unfold RevisionLostCoin. destruct (2 <=? revision w) eqn:RV.
    - erewrite bind_eq in SU by reflexivity. change (reward_of w1 i) with (reward_of w i) in SU.
      unfold add_lost in SU. destruct (pr_current (reward_of w i) <? 0) eqn:C0; [lia|].
      destruct (pr_current (reward_of w i) =? 0) eqn:C1.
      + erewrite bind_eq in SU by reflexivity. erewrite bind_eq in SU by reflexivity.
        erewrite bind_eq by exact SU. assert (E : 0 <? pr_current (reward_of w i) = false) by lia. rewrite E. cbn [andb when].
        eexists. split; [reflexivity|].
        cbn [planets all_planet rewards bal lost set_rewards set_all_planet set_planets w1]. rewrite !upd_same.
        repeat split; auto; try lia; intros j nj; apply upd_other; auto.
      + erewrite bind_eq in SU by reflexivity. erewrite bind_eq in SU by reflexivity.
        erewrite bind_eq by exact SU. assert (E : 0 <? pr_current (reward_of w i) = true) by lia. rewrite E. cbn [andb when].
        eexists. split; [reflexivity|].
        cbn [planets all_planet rewards bal lost set_lost set_log set_rewards set_all_planet set_planets w1]. rewrite !upd_same.
        repeat split; auto; try lia; intros j nj; apply upd_other; auto.
    - erewrite bind_eq by exact SU. cbn [andb when]. eexists. split; [reflexivity|].
      cbn [planets all_planet rewards bal lost set_all_planet set_planets w1]. rewrite upd_same.
      repeat split; auto. intros j nj; apply upd_other; auto. }
  assert (F : (exists w', exec from (UnregisterPlanet id) w = (Ok tt, w')) -> from = PlanetNFT /\ planets w i <> None).
  { intros [w' H]. assert (H0 := H). apply unregister_inv in H0. cbv zeta in H0. destruct H0 as (p & _ & P & _).
    cbn [exec] in H. hbind H q w1 H1. apply check_nft_inv in H1 as [E _]. apply addr_eqb_true in E. split; [auto|]. fold i in P. congruence. }
  split.
  - split; [exact F|]. intros A. destruct (G _ eq_refl A) as (w' & E & _). eauto.
  - intros w' H. destruct (G _ eq_refl (F (ex_intro _ w' H))) as (w2 & E & R). assert (w2 = w') by congruence. subst w2. exact R.
Qed.
Print Assumptions C38_unregister.

(** Nothing else registers or removes a planet. *)
Theorem C38_others from c w u w' : exec from c w = (Ok u, w') ->
  match c with RegisterPlanet _ _ _ _ _ _ | UnregisterPlanet _ => True
  | _ => all_planet w' = all_planet w /\ forall id, planets w' id = None <-> planets w id = None end.
Proof.
  intros H. destruct c; auto.
  5:{ apply set_owner_inv in H. cbv zeta in H. destruct H as (p & p' & P & _ & _ & _ & _ & _ & _ & ->). split; [reflexivity|].
      intros j. cbn [planets set_planets]. unfold upd. destruct (Z.eqb_spec j (int64 id)) as [-> |]; [split; congruence | tauto]. }
  all: match type of H with exec _ ?cc _ = _ =>
      assert (K : keeps (fun z => planets z = planets w /\ all_planet z = all_planet w) (exec from cc)) by (kunf; kx) end.
  all: apply K in H; [destruct H as [H1 H2]; rewrite H1; split; [exact H2 | tauto] | split; reflexivity].
Qed.
Print Assumptions C38_others.

(** The identifier is cut to 64 bits: two different numbers can name the same planet, so a registration under a new
    number can be refused as taken. *)
Theorem C38_alias id : int64 (id + 2 ^ 64) = int64 id.
Proof.
  unfold int64. replace (id + 2 ^ 64 + 2 ^ 63) with (id + 2 ^ 63 + 1 * 2 ^ 64) by lia. rewrite Z.mod_add by lia. reflexivity.
Qed.
Print Assumptions C38_alias.

Example C36_C38_example : exists w, after 21 = Some w /\ genesis sample /\ history sample w /\
  all_planet w = 3 /\ supply w = 1500 + 2000 - 100 /\ burned (log w) = [100] /\ balance w bob = 400.
Proof.
  destruct (after 21) as [w|] eqn:E; [|vm_compute in E; discriminate E]. exists w. split; [reflexivity|].
  split; [apply sample_genesis|]. split; [eapply after_history; eauto|].
  vm_compute in E. injection E as <-. vm_compute. repeat split.
Qed.
