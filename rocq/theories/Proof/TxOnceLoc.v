(* What the locators say (for C56, C57). *)
From Coq Require Import ZArith List Bool Arith Lia Sorted.
From Verif Require Import Model.TxLocator Spec.TxOnceSpec Proof.TxOnceFacts Proof.TxOnceWorld Proof.TxOnceMain.
Import ListNotations.
Open Scope Z_scope.

Definition at_ (b : block) (h : Z) (k : nat) (id : Z) : Prop := b_height b = h /\ nth_error (b_ids b) k = Some id.

Record SI (w : world) : Prop := {
  s_loc : forall id lo, In (id, lo) (m_loc (w_m w)) -> exists b, In b (committed w) /\ at_ b (lo_height lo) (lo_idx lo) id;
  s_db : forall id h k, find id (m_db (w_m w)) = Some (h, k) ->
    exists b, (In b (committed w) \/ In b (w_lost w)) /\ at_ b h k id;
  s_list : forall l k id, In l (working (w_m w) ++ m_queue (w_m w)) -> nth_error (l_ids l) k = Some id ->
    exists b, In b (committed w) /\ at_ b (l_height l) k id;
  s_len : length (w_t w) = length (w_path w);
  s_trk : forall i t p, nth_error (w_t w) i = Some t -> nth_error (w_path w) i = Some p ->
    (t_ids t = None -> t_parent t = None) /\
    (p = [] -> t_parent t = None) /\
    (forall ids, t_ids t = Some ids -> (p = [] /\ ids = []) \/ exists b p', p = b :: p' /\ ids = b_ids b /\ t_height t = b_height b) /\
    (forall j, t_parent t = Some j -> (j < i)%nat /\ exists q, nth_error (w_path w) j = Some q /\ incl q p)
}.

Lemma find_In : forall A id (x : A) m, find id m = Some x -> In (id, x) m.
Proof.
  intros A id x. induction m as [|(k, y) m IH]; intros H; cbn in H; [discriminate|].
  destruct (Z.eqb_spec id k) as [->|N]; [injection H as <-; left; reflexivity|right; auto].
Qed.

Lemma put_all_inv : forall ids tag h k l id lo, In (id, lo) (put_all tag h k ids l) ->
  In (id, lo) l \/ (lo_height lo = h /\ exists n, lo_idx lo = (k + n)%nat /\ nth_error ids n = Some id).
Proof.
  induction ids as [|a ids IH]; intros tag h k l id lo H; [left; exact H|]. cbn [put_all] in H.
  apply IH in H. destruct H as [H|(H1 & n & H2 & H3)].
  - unfold set in H. destruct H as [H|H]; [|left; apply filter_In in H; apply H]. injection H as <- <-. right. cbn.
    split; [reflexivity|]. exists 0%nat. split; [lia|reflexivity].
  - right. split; [exact H1|]. exists (S n). split; [lia|exact H3].
Qed.

Lemma evict_sub : forall min c l mx c' l' mx', evict min c l mx = (c', l', mx') -> incl l' l.
Proof.
  intros min. induction c as [|p c IH]; intros l mx c' l' mx' E; cbn [evict] in E.
  - injection E as _ <- _. apply incl_refl.
  - destruct (Z.ltb min (l_ts p + l_th p)); [injection E as _ <- _; apply incl_refl|].
    apply IH in E. intros x Hx. apply E in Hx. apply filter_In in Hx. apply Hx.
Qed.

Lemma SI_root : forall th0 db lost, 
  (forall id h k, find id db = Some (h, k) -> exists b, In b lost /\ at_ b h k id) ->
  SI (mkWorld (manager_new db) [root th0] [[]] [] None lost).
Proof.
  intros th0 db lost D. constructor; cbn [w_m w_t w_path w_chain w_pend w_lost].
  - intros id lo [].
  - intros id h k H. destruct (D id h k H) as (b & Hb & A). exists b. auto.
  - intros l k id [].
  - reflexivity.
  - intros [|[|i]] t p Ht Hp; cbn in Ht, Hp; try discriminate. injection Ht as <-. injection Hp as <-. cbn.
    split; [auto|]. split; [auto|]. split; [|intros j F; discriminate F]. intros ids E. injection E as <-. left. auto.
Qed.

Lemma SI_block : forall tsof w i p b force ts, SI w -> nth_error (w_path w) i = Some p ->
  record tsof (w_m w) (w_t w) i b force = (true, ts) ->
  SI (mkWorld (w_m w) ts (w_path w ++ [b :: p]) (w_chain w) (w_pend w) (w_lost w)).
Proof.
  intros tsof w i p b force ts H Hp Er. apply record_inv in Er. destruct Er as (-> & _).
  assert (Li : (i < length (w_path w))%nat) by (apply nth_error_Some; congruence).
  constructor; cbn [w_m w_t w_path w_chain w_pend w_lost]; try apply H.
  - rewrite !app_length, (s_len w H). reflexivity.
  - intros k t q Ht Hq. destruct (Nat.lt_ge_cases k (length (w_path w))) as [L|L].
    + rewrite nth_error_app1 in Hq by exact L. rewrite nth_error_app1 in Ht by (rewrite (s_len w H); exact L).
      destruct (s_trk w H k t q Ht Hq) as (A1 & A2 & A3 & A4). repeat (split; [assumption|]).
      intros j Hj. destruct (A4 j Hj) as (B1 & r & B2 & B3). split; [exact B1|]. exists r. split; [|exact B3].
      rewrite nth_error_app1; [exact B2|lia].
    + rewrite nth_error_app2 in Hq by exact L. rewrite nth_error_app2 in Ht by (rewrite (s_len w H); exact L).
      rewrite (s_len w H) in Ht. destruct (k - length (w_path w))%nat as [|n] eqn:En; cbn in Hq, Ht; [|destruct n; discriminate].
      injection Hq as <-. injection Ht as <-. cbn [t_ids t_parent t_height].
      split; [discriminate|]. split; [discriminate|]. split.
      * intros ids E. injection E as <-. right. exists b, p. auto.
      * intros j Hj. unfold new_parent in Hj. destruct (nth_error (w_t w) i) as [ti|]; [|discriminate].
        assert (E : Some i = Some j) by (destruct (t_ids ti), (t_parent ti); congruence). injection E as <-.
        split; [lia|]. exists p. split; [rewrite nth_error_app1; [exact Hp|exact Li]|apply incl_tl; apply incl_refl].
Qed.

Lemma SI_worker : forall w m, SI w -> worker (w_m w) = Some m ->
  SI (mkWorld m (w_t w) (w_path w) (w_chain w) (w_pend w) (w_lost w)).
Proof.
  intros w m H E. unfold worker in E.
  assert (Gen : (forall id lo, In (id, lo) (m_loc m) -> In (id, lo) (m_loc (w_m w))) ->
    (forall id h k, find id (m_db m) = Some (h, k) -> find id (m_db (w_m w)) = Some (h, k) \/
       exists l, In l (working (w_m w) ++ m_queue (w_m w)) /\ l_height l = h /\ nth_error (l_ids l) k = Some id) ->
    (forall l, In l (working m ++ m_queue m) -> In l (working (w_m w) ++ m_queue (w_m w))) ->
    SI (mkWorld m (w_t w) (w_path w) (w_chain w) (w_pend w) (w_lost w))).
  { intros G1 G2 G3. constructor; cbn [w_m w_t w_path w_chain w_pend w_lost]; try apply H.
    - intros id lo F. apply (s_loc w H). auto.
    - intros id h k F. destruct (G2 id h k F) as [X|(l & Hl & <- & Hk)]; [exact (s_db w H id h k X)|].
      destruct (s_list w H l k id Hl Hk) as (b & Hb & A). exists b. auto.
    - intros l k id Hl. apply (s_list w H). auto. }
  destruct (m_work (w_m w)) as [(j, n)|] eqn:Ew.
  - destruct (nth_error (l_ids j) n) as [id0|] eqn:En; injection E as <-.
    + apply Gen; unfold working; cbn [m_loc m_db m_queue m_work]; auto; try (rewrite Ew; auto; fail).
      * intros id h k F. rewrite find_set in F. destruct (Z.eqb_spec id id0) as [->|N]; [|left; exact F].
        injection F as <- <-. right. exists j. split; [|auto]. rewrite Ew. left. reflexivity.
    + unfold add_list in *. destruct (m_alive (w_m w)).
      * destruct (evict (l_ts j - l_th j) (m_cache (w_m w)) (m_loc (w_m w)) (m_max (w_m w))) as ((c', l'), mx') eqn:Ee.
        apply evict_sub in Ee. apply Gen; unfold working; cbn [m_loc m_db m_queue m_work]; auto; try (rewrite Ew; auto; fail). intros l Hl. apply in_or_app. auto.
      * apply Gen; unfold working; cbn [m_loc m_db m_queue m_work]; auto; try (rewrite Ew; auto; fail). intros l Hl. apply in_or_app. auto.
  - destruct (m_queue (w_m w)) as [|j q] eqn:Eq; [discriminate|]. injection E as <-.
    apply Gen; unfold working; cbn [m_loc m_db m_queue m_work]; auto; try (rewrite Ew; auto; fail).
Qed.

Definition SM (m : manager) (K lost : list block) : Prop :=
  (forall id lo, In (id, lo) (m_loc m) -> exists b, In b K /\ at_ b (lo_height lo) (lo_idx lo) id) /\
  (forall id h k, find id (m_db m) = Some (h, k) -> exists b, (In b K \/ In b lost) /\ at_ b h k id) /\
  (forall l k id, In l (working m ++ m_queue m) -> nth_error (l_ids l) k = Some id ->
    exists b, In b K /\ at_ b (l_height l) k id).

Lemma SM_more : forall m K K' lost, SM m K lost -> incl K K' -> SM m K' lost.
Proof.
  intros m K K' lost (A & B & C) I0. split; [|split].
  - intros id lo H. destruct (A id lo H) as (b & Hb & X). exists b. auto.
  - intros id h k H. destruct (B id h k H) as (b & [Hb|Hb] & X); exists b; auto.
  - intros l k id H1 H2. destruct (C l k id H1 H2) as (b & Hb & X). exists b. auto.
Qed.

Lemma SM_commit : forall m K lost h ts th ids m', SM m K lost -> commit_list h ts th ids m = Some m' ->
  (forall k id, nth_error ids k = Some id -> exists b, In b K /\ at_ b h k id) -> SM m' K lost.
Proof.
  intros m K lost h ts th ids m' (A & B & C) E N. unfold commit_list in E. destruct (m_alive m); [|discriminate].
  injection E as <-. split; [|split]; cbn [m_loc m_db m_queue].
  - intros id lo H. apply put_all_inv in H. destruct H as [H|(<- & n & -> & H)]; [exact (A id lo H)|]. exact (N n id H).
  - exact B.
  - unfold working. cbn [m_work]. intros l k id Hl Hk. rewrite app_assoc in Hl. apply in_app_or in Hl.
    destruct Hl as [Hl|[<-|[]]]; [exact (C l k id Hl Hk)|]. cbn in *. exact (N k id Hk).
Qed.

Lemma SI_commit : forall w i t b m ts, SI w -> w_pend w = None ->
  nth_error (w_path w) i = Some (b :: w_chain w) -> nth_error (w_t w) i = Some t ->
  (forall j, t_parent t = Some j -> settled w j) ->
  commit (S i) (w_m w) (w_t w) i = Some (m, ts) ->
  SI (mkWorld m ts (w_path w) (w_chain w) (Some b) (w_lost w)).
Proof.
  intros w i t b m ts H Ep Hp Ht Hs E.
  destruct (s_trk w H i t _ Ht Hp) as (_ & _ & A3 & A4).
  assert (K0 : SM (w_m w) (b :: w_chain w) (w_lost w)).
  { apply (SM_more _ (committed w)); [|unfold committed; rewrite Ep; apply incl_tl; apply incl_refl].
    split; [|split]; [exact (s_loc w H)|exact (s_db w H)|exact (s_list w H)]. }
  (* the parent's part changes nothing *)
  assert (Tr : forall k n tk0 tk q, nth_error (w_t w) k = Some tk0 -> nth_error (w_path w) k = Some q ->
     n = mkTrk (t_height tk0) (t_ts tk0) (t_th tk0) None None -> tk = n ->
     (t_ids tk = None -> t_parent tk = None) /\ (q = [] -> t_parent tk = None) /\
     (forall ids, t_ids tk = Some ids -> (q = [] /\ ids = []) \/ exists b p', q = b :: p' /\ ids = b_ids b /\ t_height tk = b_height b) /\
     (forall j, t_parent tk = Some j -> (j < k)%nat /\ exists r, nth_error (w_path w) j = Some r /\ incl r q)).
  { intros k n tk0 tk q _ _ -> ->. cbn. repeat split; auto; intros; discriminate. }
  assert (Core : exists m1 ts1, SM m1 (b :: w_chain w) (w_lost w) /\ length ts1 = length (w_t w) /\
     (forall k tk, nth_error ts1 k = Some tk -> nth_error (w_t w) k = Some tk \/
        exists tk0, nth_error (w_t w) k = Some tk0 /\ tk = mkTrk (t_height tk0) (t_ts tk0) (t_th tk0) None None) /\
     match t_ids t with
     | Some ids => match commit_list (t_height t) (t_ts t) (t_th t) ids m1 with
                   | Some m2 => Some (m2, replace ts1 i (mkTrk (t_height t) (t_ts t) (t_th t) None None))
                   | None => None end
     | None => Some (m1, replace ts1 i (mkTrk (t_height t) (t_ts t) (t_th t) None None))
     end = Some (m, ts)).
  { cbn [commit] in E. rewrite Ht in E. destruct (t_parent t) as [j|].
    - destruct (A4 j eq_refl) as (Lj & q & Pj & _). destruct i as [|i0]; [lia|]. cbn [commit] in E.
      destruct (nth_error (w_t w) j) as [tj|] eqn:Etj; [|discriminate].
      destruct (s_trk w H j tj q Etj Pj) as (B1 & B2 & B3 & _).
      assert (Rp : forall k tk, nth_error (replace (w_t w) j (mkTrk (t_height tj) (t_ts tj) (t_th tj) None None)) k = Some tk ->
        nth_error (w_t w) k = Some tk \/
        exists tk0, nth_error (w_t w) k = Some tk0 /\ tk = mkTrk (t_height tk0) (t_ts tk0) (t_th tk0) None None).
      { intros k tk X. destruct (Nat.eq_dec k j) as [->|N]; [|left; rewrite replace_other in X by exact N; exact X].
        rewrite replace_same in X by (apply nth_error_Some; congruence). injection X as <-. right. exists tj. auto. }
      assert (Pn : t_parent tj = None).
      { destruct (Hs j eq_refl) as [(x & Ex & Nx)|Hq]; [rewrite Etj in Ex; injection Ex as <-; auto|].
        apply B2. congruence. }
      rewrite Pn in E. destruct (t_ids tj) as [idsj|] eqn:Eid.
      + assert (idsj = []) as ->.
        { destruct (Hs j eq_refl) as [(x & Ex & Nx)|Hq]; [congruence|]. destruct (B3 idsj eq_refl) as [(_ & X)|(a & r & X & _)]; [exact X|congruence]. }
        destruct (commit_list (t_height tj) (t_ts tj) (t_th tj) [] (w_m w)) as [m1|] eqn:E1; [|discriminate].
        eexists m1, _. split; [|split; [|split; [|exact E]]]; [|apply replace_length|exact Rp].
        apply (SM_commit _ _ _ _ _ _ _ _ K0 E1). intros [|k] id F; discriminate F.
      + eexists (w_m w), _. split; [|split; [|split; [|exact E]]]; [exact K0|apply replace_length|exact Rp].
    - exists (w_m w), (w_t w). split; [exact K0|]. split; [reflexivity|]. split; [|exact E]. intros k tk X. left. exact X. }
  destruct Core as (m1 & ts1 & K1 & Ln & Old & Em).
  assert (Fin : SM m (b :: w_chain w) (w_lost w) /\ ts = replace ts1 i (mkTrk (t_height t) (t_ts t) (t_th t) None None)).
  { destruct (t_ids t) as [ids|].
    - destruct (commit_list (t_height t) (t_ts t) (t_th t) ids m1) as [m2|] eqn:E2; [|discriminate]. injection Em as <- <-.
      split; [|reflexivity]. apply (SM_commit _ _ _ _ _ _ _ _ K1 E2). intros k id Hk.
      destruct (A3 ids eq_refl) as [(X & _)|(a & r & X & -> & ->)]; [discriminate|]. injection X as <- <-.
      exists b. split; [left; reflexivity|split; auto].
    - injection Em as <- <-. auto. }
  destruct Fin as ((F1 & F2 & F3) & ->).
  assert (Li : (i < length ts1)%nat) by (rewrite Ln; apply nth_error_Some; congruence).
  constructor; cbn [w_m w_t w_path w_chain w_pend w_lost]; auto.
  - rewrite replace_length, Ln. exact (s_len w H).
  - intros k tk q Htk Hq. destruct (Nat.eq_dec k i) as [->|N].
    + rewrite replace_same in Htk by exact Li. injection Htk as <-. eapply Tr; eauto.
    + rewrite replace_other in Htk by exact N. destruct (Old k tk Htk) as [X|(tk0 & X & ->)]; [exact (s_trk w H k tk q X Hq)|].
      eapply Tr; eauto.
Qed.

Lemma SI_crash : forall tsof th0 w b c m ts, SI w -> w_chain w = b :: c ->
  restart tsof th0 (m_db (w_m w)) b = Some (m, ts) -> SI (mkWorld m ts [[]; b :: c] (b :: c) None (lost_now w)).
Proof.
  intros tsof th0 w b c m ts H Ec E. unfold restart in E.
  destruct (record tsof (manager_new (m_db (w_m w))) [root th0] 0 b true) as (ok, ts0) eqn:Er.
  destruct ok; [|discriminate]. apply record_inv in Er. destruct Er as (-> & _ & _).
  cbn [commit app nth_error new_parent root t_ids t_parent t_height t_ts t_th] in E.
  destruct (commit_list 0 0 th0 [] (manager_new (m_db (w_m w)))) as [m1|] eqn:E1; [|discriminate].
  destruct (commit_list (b_height b) (b_ts b) (b_th b) (b_ids b) m1) as [m2|] eqn:E2; [|discriminate].
  injection E as <- <-. cbn [replace].
  assert (K0 : SM (manager_new (m_db (w_m w))) (b :: c) (lost_now w)).
  { split; [intros id lo []|]. split; [|intros l k id []]. intros id h k F. cbn in F.
    destruct (s_db w H id h k F) as (a & Ha & A). exists a. split; [|exact A]. unfold committed in Ha. unfold lost_now.
    rewrite Ec in Ha. destruct (w_pend w) as [x|]; [|exact Ha]. cbn in *. tauto. }
  assert (K1 : SM m1 (b :: c) (lost_now w)).
  { apply (SM_commit _ _ _ _ _ _ _ _ K0 E1). intros [|k] id F; discriminate F. }
  assert (K2 : SM m2 (b :: c) (lost_now w)).
  { apply (SM_commit _ _ _ _ _ _ _ _ K1 E2). intros k id F. exists b. split; [left; reflexivity|split; auto]. }
  destruct K2 as (F1 & F2 & F3). constructor; cbn [w_m w_t w_path w_chain w_pend w_lost]; auto.
  intros [|[|[|i]]] t p Ht Hp; cbn in Ht, Hp; try discriminate; injection Ht as <-; injection Hp as <-; cbn;
    repeat split; auto; intros; discriminate.
Qed.

Section Reach.
Variable tsof : Z -> Z.
Variable th0 : Z.
Variable rule : list block -> block -> Prop.
Variables ahead df : bool.

Lemma reach_SI : forall w, reach tsof th0 rule ahead df w -> SI w.
Proof.
  intros w R. induction R.
  - apply SI_root. intros id h k F. discriminate F.
  - eapply SI_block; eassumption.
  - eapply SI_commit; eassumption.
  - constructor; try apply IHR; unfold committed; cbn [w_m w_t w_path w_chain w_pend w_lost];
      pose proof (s_loc w IHR) as X; pose proof (s_db w IHR) as Y; pose proof (s_list w IHR) as V;
      unfold committed in X, Y, V; rewrite H in X, Y, V; assumption.
  - apply SI_worker; assumption.
  - constructor; try apply IHR; cbn [w_m worker_fails m_loc m_work m_queue working]; intros; contradiction.
  - apply SI_root. intros id h k F. destruct (s_db w IHR id h k F) as (b & Hb & A). exists b. split; [|exact A].
    unfold committed in Hb. unfold lost_now. rewrite H in Hb. destruct (w_pend w); cbn in *; tauto.
  - eapply SI_crash; eassumption.
Qed.

Lemma m_has_sound : forall w id, SI w -> m_has tsof id (w_m w) = true -> on_chain id (committed w) \/ on_chain id (w_lost w).
Proof.
  intros w id H E. unfold m_has in E. destruct (negb (m_alive (w_m w))); [discriminate|].
  destruct (find id (m_loc (w_m w))) as [lo|] eqn:El.
  - apply find_In in El. destruct (s_loc w H id lo El) as (b & Hb & _ & A). left. exists b. split; [exact Hb|].
    exact (nth_error_In _ _ A).
  - destruct (negb (m_max (w_m w) =? 0) && (m_max (w_m w) <=? tsof id)); [discriminate|].
    destruct (find id (m_db (w_m w))) as [(h, k)|] eqn:Ed; [|discriminate].
    destruct (s_db w H id h k Ed) as (b & [Hb|Hb] & _ & A); [left|right]; exists b; (split; [exact Hb|exact (nth_error_In _ _ A)]).
Qed.

Lemma trk_has_sound : forall w id, SI w -> forall fuel i p, nth_error (w_path w) i = Some p ->
  trk_has tsof fuel (w_m w) (w_t w) i id = true -> on_chain id p \/ on_chain id (committed w) \/ on_chain id (w_lost w).
Proof.
  intros w id H. induction fuel as [|f IH]; intros i p Hp E; [discriminate|]. cbn [trk_has] in E.
  destruct (nth_error (w_t w) i) as [t|] eqn:Et; [|discriminate].
  destruct (Z.leb (t_ts t + t_th t) (tsof id)); [discriminate|].
  destruct (s_trk w H i t p Et Hp) as (_ & _ & A3 & A4).
  assert (Par : (match t_parent t with Some j => trk_has tsof f (w_m w) (w_t w) j id | None => m_has tsof id (w_m w) end) = true ->
    on_chain id p \/ on_chain id (committed w) \/ on_chain id (w_lost w)).
  { intros X. destruct (t_parent t) as [j|].
    - destruct (A4 j eq_refl) as (_ & q & Pj & Inc). destruct (IH j q Pj X) as [(b & Hb & Hi)|Y]; [|right; exact Y].
      left. exists b. split; [exact (Inc b Hb)|exact Hi].
    - right. apply m_has_sound; auto. }
  destruct (t_ids t) as [ids|]; [|auto]. destruct (mem id ids) eqn:Em; [|auto]. apply mem_In in Em.
  destruct (A3 ids eq_refl) as [(_ & ->)|(b & r & -> & -> & _)]; [destruct Em|]. left. exists b. split; [left; reflexivity|exact Em].
Qed.

Lemma refused_sound : forall w i p b, reach tsof th0 rule ahead df w -> nth_error (w_path w) i = Some p ->
  fst (record tsof (w_m w) (w_t w) i b false) = false ->
  ~ NoDup (b_ids b) \/ exists id, In id (b_ids b) /\ (on_chain id p \/ on_chain id (committed w) \/ on_chain id (w_lost w)).
Proof.
  intros w i p b R Hp E. apply reach_SI in R. unfold record in E.
  destruct (add_ids (parent_has tsof (w_m w) (w_t w) (new_parent (w_t w) i)) false [] (b_ids b)) as (ok, ids) eqn:Ea.
  cbn [fst] in E. subst ok. assert (E : fst (add_ids (parent_has tsof (w_m w) (w_t w) (new_parent (w_t w) i)) false [] (b_ids b)) = false) by (rewrite Ea; reflexivity).
  apply add_ids_refused in E. destruct E as [E|[(id & _ & [])|(_ & id & Hi & Hk)]]; [left; exact E|right]. exists id. split; [exact Hi|].
  unfold new_parent in Hk. destruct (nth_error (w_t w) i) as [t|]; [|right; apply m_has_sound; auto].
  assert (X : trk_has tsof (S i) (w_m w) (w_t w) i id = true \/ m_has tsof id (w_m w) = true).
  { destruct (t_ids t), (t_parent t); auto. }
  destruct X as [X|X]; [exact (trk_has_sound w id R _ _ p Hp X)|right; apply m_has_sound; auto].
Qed.

Lemma locator_sound : forall w id h k, reach tsof th0 rule ahead df w -> get_locator id (w_m w) = Some (h, k) ->
  exists b, (In b (committed w) \/ In b (w_lost w)) /\ b_height b = h /\ nth_error (b_ids b) k = Some id.
Proof.
  intros w id h k R E. apply reach_SI in R. unfold get_locator in E. destruct (negb (m_alive (w_m w))); [discriminate|].
  destruct (find id (m_loc (w_m w))) as [lo|] eqn:El.
  - injection E as <- <-. apply find_In in El. destruct (s_loc w R id lo El) as (b & Hb & A). exists b. auto.
  - exact (s_db w R id h k E).
Qed.
End Reach.
