(* The locator of every finalized transaction is right (for C57). *)
From Coq Require Import ZArith List Bool Arith Lia Sorted.
From Verif Require Import Model.TxLocator Spec.TxOnceSpec Proof.TxOnceFacts Proof.TxOnceWorld Proof.TxOnceMain Proof.TxOnceLoc.
Import ListNotations.
Open Scope Z_scope.

Lemma NoDup_nth : forall (l : list Z) i j x, NoDup l -> nth_error l i = Some x -> nth_error l j = Some x -> i = j.
Proof.
  intros l i j x ND Hi Hj. apply (proj1 (NoDup_nth_error l)); [exact ND|apply nth_error_Some; congruence|congruence].
Qed.

Lemma once_unique : forall K a b ka kb id, once K -> In a K -> In b K ->
  nth_error (b_ids a) ka = Some id -> nth_error (b_ids b) kb = Some id -> b_height a = b_height b /\ ka = kb.
Proof.
  induction K as [|x K IH]; intros a b ka kb id O Ha Hb Na Nb; [destruct Ha|].
  assert (O' := once_tl _ _ O). unfold once in O. cbn [flat_map] in O.
  assert (Sep : forall y, In y K -> ~ (In id (b_ids x) /\ In id (b_ids y))).
  { intros y Hy (H1 & H2). clear - O Hy H1 H2. induction (b_ids x) as [|z l IHl]; [destruct H1|]. cbn in O. inversion O as [|? ? N1 N2].
    destruct H1 as [->|H1]; [|auto]. apply N1. apply in_or_app. right. apply in_flat_map. exists y. auto. }
  pose proof (nth_error_In _ _ Na) as Ia. pose proof (nth_error_In _ _ Nb) as Ib.
  destruct Ha as [<-|Ha], Hb as [<-|Hb].
  - split; [reflexivity|]. assert (ND : NoDup (b_ids x)).
    { clear - O. induction (b_ids x) as [|z l IHl]; [constructor|]. cbn in O. inversion O as [|? ? N1 N2]. constructor; [|auto].
      intros F. apply N1. apply in_or_app. left. exact F. }
    exact (NoDup_nth _ _ _ _ ND Na Nb).
  - exfalso. apply (Sep b Hb). auto.
  - exfalso. apply (Sep a Ha). auto.
  - exact (IH a b ka kb id O' Ha Hb Na Nb).
Qed.

Definition right_db (m : manager) (h : Z) (ids : list Z) : Prop :=
  forall k id, nth_error ids k = Some id -> find id (m_db m) = Some (h, k).

Record EI (w : world) : Prop := {
  e_cache : forall l, In l (m_cache (w_m w)) -> right_db (w_m w) (l_height l) (l_ids l);
  e_work : forall j n k id, m_work (w_m w) = Some (j, n) -> (k < n)%nat -> nth_error (l_ids j) k = Some id ->
    find id (m_db (w_m w)) = Some (l_height j, k);
  e_known : forall b, In b (committed w) -> (exists l, In l (lists (w_m w)) /\ matches l b) \/ right_db (w_m w) (b_height b) (b_ids b);
  e_db : forall b, In b (tl (w_chain w)) -> right_db (w_m w) (b_height b) (b_ids b)
}.

Lemma EI_worker : forall w m, WI w -> once (committed w) -> EI w -> worker (w_m w) = Some m ->
  EI (mkWorld m (w_t w) (w_path w) (w_chain w) (w_pend w) (w_lost w)).
Proof.
  intros w m W O H E. unfold worker in E. pose proof (wi_m w W) as M.
  destruct (m_work (w_m w)) as [(j, n)|] eqn:Ew.
  - destruct (nth_error (l_ids j) n) as [id0|] eqn:En; injection E as <-.
    + assert (Hj : In j (lists (w_m w))) by (unfold lists, working; rewrite Ew; apply in_or_app; right; left; reflexivity).
      assert (Nl : forall l k id, In l (lists (w_m w)) -> nth_error (l_ids l) k = Some id -> l_ts l <> 0).
      { intros l k id Hl Hk Z0. rewrite (mi_root _ _ M l Hl Z0) in Hk. destruct k; discriminate. }
      destruct (mi_match _ _ M j Hj (Nl j n id0 Hj En)) as (bj & Hbj & J1 & _ & _ & J4).
      assert (D : forall b k id, In b (committed w) -> nth_error (b_ids b) k = Some id ->
        find id (m_db (w_m w)) = Some (b_height b, k) -> find id (set id0 (l_height j, n) (m_db (w_m w))) = Some (b_height b, k)).
      { intros b k id Hb Hk F. rewrite find_set. destruct (Z.eqb_spec id id0) as [->|N]; [|exact F].
        rewrite J4 in En. destruct (once_unique _ _ _ _ _ _ O Hbj Hb En Hk) as (X & ->). rewrite J1, X. reflexivity. }
      assert (Dl : forall l k id, In l (lists (w_m w)) -> nth_error (l_ids l) k = Some id ->
        find id (m_db (w_m w)) = Some (l_height l, k) -> find id (set id0 (l_height j, n) (m_db (w_m w))) = Some (l_height l, k)).
      { intros l k id Hl Hk F. destruct (mi_match _ _ M l Hl (Nl l k id Hl Hk)) as (b & Hb & X1 & _ & _ & X4).
        rewrite X1 in *. rewrite X4 in Hk. apply D; auto. }
      constructor; cbn [w_m w_chain w_pend m_cache m_work m_db].
      * intros l Hl k id Hk. cbn [m_db]. apply Dl; [unfold lists; apply in_or_app; left; exact Hl|exact Hk|exact (e_cache w H l Hl k id Hk)].
      * intros j' n' k id E0 Lk Hk. injection E0 as <- <-. destruct (Nat.eq_dec k n) as [->|N].
        { rewrite Hk in En. injection En as ->. rewrite find_set, Z.eqb_refl. reflexivity. }
        apply Dl; auto. apply (e_work w H j n k id Ew); [lia|exact Hk].
      * intros b Hb. destruct (e_known w H b Hb) as [(l & Hl & Mt)|R].
        { left. exists l. split; [|exact Mt]. unfold lists, working in *. cbn [m_cache m_work m_queue]. rewrite Ew in Hl. exact Hl. }
        right. intros k id Hk. cbn [m_db]. apply D; auto.
      * intros b Hb k id Hk. cbn [m_db]. apply D; auto; [|exact (e_db w H b Hb k id Hk)].
        unfold committed. destruct (w_chain w) as [|a c]; [destruct Hb|]. cbn in Hb.
        destruct (w_pend w); [right; right; exact Hb|right; exact Hb].
    + unfold add_list. rewrite (mi_alive _ _ M).
      destruct (evict (l_ts j - l_th j) (m_cache (w_m w)) (m_loc (w_m w)) (m_max (w_m w))) as ((c', l'), mx') eqn:Ee.
      apply evict_spec in Ee. destruct Ee as (gone & E1 & _).
      assert (Rj : right_db (w_m w) (l_height j) (l_ids j)).
      { intros k id Hk. apply (e_work w H j n k id Ew); [|exact Hk]. apply nth_error_None in En.
        assert (k < length (l_ids j))%nat by (apply nth_error_Some; congruence). lia. }
      constructor; cbn [w_m w_chain w_pend m_cache m_work m_db].
      * intros l Hl k id Hk. cbn [m_db]. apply in_app_or in Hl. destruct Hl as [Hl|[<-|[]]].
        { apply (e_cache w H l); [rewrite E1; apply in_or_app; right; exact Hl|exact Hk]. }
        exact (Rj k id Hk).
      * discriminate.
      * intros b Hb. destruct (e_known w H b Hb) as [(l & Hl & Mt)|R]; [|right; exact R].
        unfold lists, working in Hl. rewrite Ew, E1, <- app_assoc in Hl. apply in_app_or in Hl. destruct Hl as [Hl|Hl].
        { right. destruct Mt as (X1 & _ & _ & X4). rewrite <- X1, <- X4. intros k id Hk. cbn [m_db].
          apply (e_cache w H l); [rewrite E1; apply in_or_app; left; exact Hl|exact Hk]. }
        left. exists l. split; [|exact Mt]. unfold lists, working. cbn [m_cache m_work m_queue app]. rewrite <- app_assoc. exact Hl.
      * exact (e_db w H).
  - destruct (m_queue (w_m w)) as [|j q] eqn:Eq; [discriminate|]. injection E as <-.
    constructor; cbn [w_m w_chain w_pend m_cache m_work m_db]; try apply H.
    + intros j' n' k id E0 Lk. injection E0 as <- <-. lia.
    + intros b Hb. destruct (e_known w H b Hb) as [(l & Hl & Mt)|R]; [|right; exact R].
      left. exists l. split; [|exact Mt]. unfold lists, working in *. cbn [m_cache m_work m_queue]. rewrite Ew, Eq in Hl. exact Hl.
Qed.

Lemma EI_height : forall w b, WI w -> EI w -> w_pend w = Some b -> m_queue (w_m w) = [] ->
  EI (mkWorld (w_m w) (w_t w) (w_path w) (b :: w_chain w) None (w_lost w)).
Proof.
  intros w b W H Ep Eq.
  assert (Ek : committed w = b :: w_chain w) by (unfold committed; rewrite Ep; reflexivity).
  constructor; cbn [w_m w_chain w_pend]; try apply H.
  - unfold committed at 1. cbn [w_pend w_chain]. rewrite <- Ek. exact (e_known w H).
  - cbn [tl]. intros a Ha.
    assert (Hk : In a (committed w)) by (rewrite Ek; right; exact Ha).
    destruct (e_known w H a Hk) as [(l & Hl & Mt)|D]; [|exact D].
    destruct (wi_last w W b (w_chain w) Ek) as (l0 & l1 & El & Mt1).
    pose proof (wi_sorted w W) as (SS & _). rewrite Ek in SS. apply StronglySorted_inv in SS. destruct SS as (_ & F).
    rewrite Forall_forall in F. destruct (F a Ha) as (Fa & _).
    destruct Mt as (M1 & M2 & _ & M4). destruct Mt1 as (_ & N2 & _).
    unfold lists in Hl, El. rewrite Eq, app_nil_r in Hl, El. apply in_app_or in Hl.
    destruct Hl as [Hl|Hl]; [rewrite <- M1, <- M4; exact (e_cache w H l Hl)|].
    exfalso. unfold working in Hl, El. destruct (m_work (w_m w)) as [(j, k)|]; [|destruct Hl].
    destruct Hl as [<-|[]]. apply app_inj_tail in El. destruct El as (_ & <-). lia.
Qed.

Lemma commit_list_same : forall h ts th ids m m', commit_list h ts th ids m = Some m' ->
  m_cache m' = m_cache m /\ m_work m' = m_work m /\ m_db m' = m_db m /\
  exists l, lists m' = lists m ++ [l] /\ l_height l = h /\ l_ts l = ts /\ l_th l = th /\ l_ids l = ids.
Proof.
  intros h ts th ids m m' E. unfold commit_list in E. destruct (m_alive m); [|discriminate]. injection E as <-. cbn.
  repeat split. eexists. split; [unfold lists, working; cbn [m_cache m_work m_queue]; rewrite !app_assoc; reflexivity|]. cbn. auto.
Qed.

Lemma commit_same : forall fuel m ts i m' ts', commit fuel m ts i = Some (m', ts') ->
  m_cache m' = m_cache m /\ m_work m' = m_work m /\ m_db m' = m_db m /\ exists r, lists m' = lists m ++ r /\
  forall t ids, nth_error ts i = Some t -> t_ids t = Some ids ->
    exists l, In l r /\ l_height l = t_height t /\ l_ts l = t_ts t /\ l_th l = t_th t /\ l_ids l = ids.
Proof.
  induction fuel as [|f IH]; intros m ts i m' ts' E; [discriminate|]. cbn [commit] in E.
  destruct (nth_error ts i) as [t|] eqn:Et; [|discriminate].
  assert (P : exists m1 ts1, (match t_parent t with Some j => commit f m ts j | None => Some (m, ts) end) = Some (m1, ts1) /\
     m_cache m1 = m_cache m /\ m_work m1 = m_work m /\ m_db m1 = m_db m /\ exists r, lists m1 = lists m ++ r).
  { destruct (t_parent t) as [j|].
    - destruct (commit f m ts j) as [(m1, ts1)|] eqn:Ej; [|discriminate]. exists m1, ts1. split; [reflexivity|].
      destruct (IH m ts j m1 ts1 Ej) as (A & B & C & r & D & _). repeat (split; [assumption|]). exists r. exact D.
    - exists m, ts. repeat split. exists []. rewrite app_nil_r. reflexivity. }
  destruct P as (m1 & ts1 & P & A & B & C & r & D). rewrite P in E. destruct (t_ids t) as [ids|] eqn:Eid.
  - destruct (commit_list (t_height t) (t_ts t) (t_th t) ids m1) as [m2|] eqn:E2; [|discriminate]. injection E as <- <-.
    apply commit_list_same in E2. destruct E2 as (A2 & B2 & C2 & l & D2 & L).
    split; [congruence|]. split; [congruence|]. split; [congruence|]. exists (r ++ [l]). split; [rewrite D2, D, app_assoc; reflexivity|].
    intros t0 ids0 E0 E1. injection E0 as <-. rewrite Eid in E1. injection E1 as <-. exists l. split; [apply in_or_app; right; left; reflexivity|exact L].
  - injection E as <- <-. repeat (split; [assumption|]). exists r. split; [exact D|]. intros t0 ids0 E0 E1. injection E0 as <-. congruence.
Qed.

Lemma EI_commit : forall w i t b m ts, WI w -> EI w -> w_pend w = None ->
  nth_error (w_path w) i = Some (b :: w_chain w) -> nth_error (w_t w) i = Some t -> t_ids t <> None ->
  commit (S i) (w_m w) (w_t w) i = Some (m, ts) ->
  EI (mkWorld m ts (w_path w) (w_chain w) (Some b) (w_lost w)).
Proof.
  intros w i t b m ts W H Ep Hp Ht Hn E. apply commit_same in E. destruct E as (A & B & C & r & D & L).
  pose proof (wi_trk w W i t _ Ht Hp) as T. unfold TI in T. destruct (t_ids t) as [ids|] eqn:Eid; [|congruence].
  destruct T as (-> & (T1 & T2 & T3) & _). destruct (L t (b_ids b) Ht Eid) as (l & Hl & L1 & L2 & L3 & L4).
  constructor; cbn [w_m w_chain w_pend]; unfold right_db; rewrite ?A, ?B, ?C.
  - exact (e_cache w H).
  - exact (e_work w H).
  - unfold committed. cbn. intros a [<-|Ha].
    + left. exists l. rewrite D. split; [apply in_or_app; right; exact Hl|]. repeat split; congruence.
    + assert (Ha' : In a (committed w)) by (unfold committed; rewrite Ep; exact Ha).
      destruct (e_known w H a Ha') as [(x & Hx & Mt)|R]; [left|right; exact R]. exists x. rewrite D. split; [apply in_or_app; left; exact Hx|exact Mt].
  - exact (e_db w H).
Qed.

Lemma EI_crash : forall tsof th0 w b c m ts lost, EI w -> w_chain w = b :: c ->
  restart tsof th0 (m_db (w_m w)) b = Some (m, ts) -> EI (mkWorld m ts [[]; b :: c] (b :: c) None lost).
Proof.
  intros tsof th0 w b c m ts lost H Ec E. unfold restart in E.
  destruct (record tsof (manager_new (m_db (w_m w))) [root th0] 0 b true) as (ok, ts0) eqn:Er.
  destruct ok; [|discriminate]. apply record_inv in Er. destruct Er as (-> & _ & _).
  apply commit_same in E. destruct E as (A & B & C & r & D & L).
  destruct (L _ _ eq_refl eq_refl) as (l & Hl & L1 & L2 & L3 & L4). cbn in L1, L2, L3, L4. cbn in A, B, C, D.
  assert (Rc : forall a, In a c -> right_db m (b_height a) (b_ids a)).
  { intros a Ha k id Hk. rewrite C. apply (e_db w H a); [rewrite Ec; exact Ha|exact Hk]. }
  constructor; cbn [w_m w_chain w_pend]; rewrite ?A, ?B.
  - intros x [].
  - discriminate.
  - unfold committed. cbn. intros a [<-|Ha]; [left; exists l; rewrite D; split; [exact Hl|repeat split; auto]|right; auto].
  - exact Rc.
Qed.

Section Reach.
Variable tsof : Z -> Z.
Variable th0 : Z.
Variable rule : list block -> block -> Prop.
Variable ahead : bool.
Hypothesis rule_ok : forall p b, rule p b -> later p b /\ match p with [] => True | a :: _ => Mx a <= Mx b end.
Hypothesis all_once : forall w, reach tsof th0 rule ahead false w -> once (committed w).

Lemma EI_root : forall db lost, EI (mkWorld (manager_new db) [root th0] [[]] [] None lost).
Proof. intros db lost. constructor; cbn; intros; try contradiction; discriminate. Qed.

Lemma reach_EI : forall w, reach tsof th0 rule ahead false w -> EI w.
Proof.
  intros w R. induction R.
  - apply EI_root.
  - exact (Build_EI (mkWorld _ _ _ _ _ _) (e_cache w IHR) (e_work w IHR) (e_known w IHR) (e_db w IHR)).
  - pose proof (reach_WI tsof th0 rule ahead rule_ok w R) as W. eapply EI_commit; eassumption.
  - pose proof (reach_WI tsof th0 rule ahead rule_ok w R) as W. apply EI_height; assumption.
  - pose proof (reach_WI tsof th0 rule ahead rule_ok w R) as W. apply EI_worker; auto.
  - discriminate.
  - apply EI_root.
  - eapply EI_crash; eassumption.
Qed.

Lemma locator_exact : forall w b k id, reach tsof th0 rule ahead false w -> In b (committed w) ->
  nth_error (b_ids b) k = Some id -> get_locator id (w_m w) = Some (b_height b, k).
Proof.
  intros w b k id R Hb Hk. pose proof (reach_WI tsof th0 rule ahead rule_ok w R) as W. pose proof (reach_EI w R) as H.
  unfold get_locator. rewrite (mi_alive _ _ (wi_m w W)). cbn [negb].
  destruct (find id (m_loc (w_m w))) as [lo|] eqn:El.
  - apply find_In in El. destruct (s_loc w (reach_SI tsof th0 rule ahead false w R) id lo El) as (a & Ha & A1 & A2).
    destruct (once_unique _ _ _ _ _ _ (all_once w R) Ha Hb A2 Hk) as (X & <-). congruence.
  - destruct (e_known w H b Hb) as [(l & Hl & Mt)|D]; [|exact (D k id Hk)]. exfalso.
    destruct Mt as (_ & _ & _ & X4). rewrite <- X4 in Hk. apply nth_error_In in Hk.
    destruct (mi_loc _ _ (wi_m w W) l id Hl Hk) as (lo & F & _). congruence.
Qed.
End Reach.
