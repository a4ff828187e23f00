(** Who may change what on the HAVAH platform. *)
From Verif Require Import Model.HvhState Model.HvhExt Spec.HvhSpec Proof.HvhFacts Proof.HvhSupply Proof.HvhTreasury
  Proof.HvhTerms Proof.HvhIssue Proof.HvhRewards Proof.HvhClaims.
From Coq Require Import ZArith List Bool Lia ZifyBool Permutation.
Import ListNotations.
Open Scope Z_scope.

Lemma aeqb a b : addr_eqb a b = true <-> a = b.
Proof.
  split; [apply addr_eqb_true|]. intros ->. unfold addr_eqb. rewrite Bool.eqb_reflx, Z.eqb_refl. reflexivity.
Qed.

(** ** The list of managers *)
Lemma is_manager_in w a : state_is_manager w a = true <-> In a (managers w).
Proof.
  unfold state_is_manager. rewrite existsb_exists. split.
  - intros (x & Hx & E). apply aeqb in E. now subst.
  - intro Hx. exists a. split; auto. now apply aeqb.
Qed.
Lemma index_of_some a l : forall i, index_of a l = Some i -> exists l1 l2, l = l1 ++ a :: l2 /\ length l1 = i.
Proof.
  induction l as [|x l IH]; intros i E; cbn [index_of] in E; [discriminate|]. destruct (addr_eqb a x) eqn:B.
  - injection E as <-. apply aeqb in B. subst. exists [], l. auto.
  - destruct (index_of a l) as [j|] eqn:E1; [|discriminate]. injection E as <-. destruct (IH j eq_refl) as (l1 & l2 & -> & L). exists (x :: l1), l2. cbn. auto.
Qed.
Lemma index_of_none a l : index_of a l = None -> ~ In a l.
Proof.
  induction l as [|x l IH]; intros E; cbn [index_of] in E; [auto|]. destruct (addr_eqb a x) eqn:B; [discriminate|].
  destruct (index_of a l) eqn:E1; [discriminate|]. intros [->|Hin]; [|now apply IH]. rewrite (proj2 (aeqb a a) eq_refl) in B. discriminate.
Qed.
Lemma set_nth_app {A} (l1 l2 : list A) x y : set_nth (length l1) y (l1 ++ x :: l2) = l1 ++ y :: l2.
Proof. induction l1 as [|z l1 IH]; cbn; [reflexivity|]. now rewrite IH. Qed.

Lemma swap_remove_perm a l1 l2 : Permutation (a :: swap_remove (length l1) (l1 ++ a :: l2)) (l1 ++ a :: l2).
Proof.
  unfold swap_remove. destruct l2 as [|b l2] using rev_ind.
  - rewrite rev_app_distr. cbn [rev app]. rewrite app_length. cbn [length].
    replace (Nat.ltb (length l1) (length l1 + 1 - 1)) with false by (symmetry; apply Nat.ltb_ge; lia). rewrite rev_involutive. apply Permutation_cons_append.
  - clear IHl2. replace (l1 ++ a :: l2 ++ [b]) with ((l1 ++ a :: l2) ++ [b]) by (rewrite <- app_assoc; reflexivity).
    rewrite rev_app_distr. cbn [rev app]. rewrite app_length, app_length. cbn [length].
    replace (Nat.ltb (length l1) (length l1 + S (length l2) + 1 - 1)) with true by (symmetry; apply Nat.ltb_lt; lia). rewrite rev_involutive, set_nth_app.
    rewrite <- app_assoc. cbn [app].
    transitivity (a :: l1 ++ (l2 ++ [b])).
    + constructor. apply Permutation_app_head. apply Permutation_cons_append.
    + apply Permutation_middle.
Qed.
Lemma add_tx from a w : managers (apply_tx (Call from (AddPlanetManager a)) w)
  = if addr_eqb from (gov w) then if state_is_manager w a then managers w else managers w ++ [a] else managers w.
Proof.
  unfold apply_tx. cbn [exec]. unfold bind, check_governance, bind, get, state_add_manager, bind, get. destruct (addr_eqb from (gov w)); cbn; [|reflexivity].
  destruct (state_is_manager w a); reflexivity.
Qed.
Lemma remove_tx from a w : managers (apply_tx (Call from (RemovePlanetManager a)) w)
  = if addr_eqb from (gov w) then match index_of a (managers w) with None => managers w | Some i => swap_remove i (managers w) end else managers w.
Proof.
  unfold apply_tx. cbn [exec]. unfold bind, check_governance, bind, get, state_remove_manager, bind, get. destruct (addr_eqb from (gov w)); cbn; [|reflexivity].
  destruct (index_of a (managers w)); reflexivity.
Qed.
Ltac base_keeps :=
  unfold on_base_tx, on_term_end, on_term_start, transfer_eco_reward, distribute_tx_fee, distribute_service_fee, distribute_fee, transfer_missed_reward,
    refill_hoover_fund, state_on_term_end, state_on_term_start, issue_coin, issue, deposit, add_total_supply, claim_eco_reward, claim_missed_reward, increase_var; kunf; kx.
Definition conf (w : world) :=
  (height w, revision w, gov w, treasury w, (issue_amount w, issue_limit w, term_period w, reduction_cycle w, hoover_budget w), active_usdt_price w).
Lemma exec_conf v from c : keeps (fun w => conf w = v) (exec from c).
Proof. destruct c; kunf; kx. Qed.
Lemma transfer_all v from to x : keeps (fun w => (conf w, managers w, claim_rate w, issue_start w, usdt_price w, lost w, planets w) = v) (transfer from to x).
Proof. kunf; kx. Qed.

Definition by_governance (c : call) : bool :=
  match c with StartRewardIssue _ | AddPlanetManager _ | RemovePlanetManager _ | SetPrivateClaimableRate _ _ | WithdrawLostTo _ => true | _ => false end.
Lemma governed from c w u w' : by_governance c = true -> exec from c w = (Ok u, w') -> from = gov w.
Proof. intros G H. destruct c; try discriminate G; cbn [exec] in H; hbind H q w1 H1; apply check_gov_inv in H1 as [H1 _]; now apply aeqb in H1. Qed.
Definition by_nft (c : call) : bool := match c with RegisterPlanet _ _ _ _ _ _ | UnregisterPlanet _ | SetPlanetOwner _ _ => true | _ => false end.
Lemma by_contract from c w u w' : by_nft c = true -> exec from c w = (Ok u, w') -> from = PlanetNFT.
Proof. intros G H. destruct c; try discriminate G; cbn [exec] in H; hbind H q w1 H1; apply check_nft_inv in H1 as [H1 _]; apply aeqb in H1; auto. Qed.

Lemma add_lost_grows v x : keeps (fun w => v <= lost w) (add_lost x).
Proof.
  intros w u w' P H. unfold add_lost in H. destruct (Z.ltb_spec x 0); [hstep H|]. destruct (x =? 0); hstep H; auto. cbn. lia.
Qed.
Lemma unregister_grows v from id : keeps (fun w => v <= lost w) (exec from (UnregisterPlanet id)).
Proof.
  unfold exec, check_nft, unregister_planet, state_unregister_planet, emit.
  repeat (intros; first [ apply add_lost_grows | ks_leaf | apply keeps_when | apply keeps_if | apply keeps_bind
          | match goal with |- keeps _ (match ?x with _ => _ end) => destruct x end ]).
Qed.
