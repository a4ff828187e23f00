(* The invariant of the whole node (for C56, C57). *)
From Coq Require Import ZArith List Bool Arith Lia Sorted.
From Verif Require Import Model.TxLocator Spec.TxOnceSpec Proof.TxOnceFacts.
Import ListNotations.
Open Scope Z_scope.

Lemma replace_length : forall A (l : list A) i x, length (replace l i x) = length l.
Proof. induction l as [|a l IH]; intros [|i] x; cbn; auto. Qed.
Lemma replace_same : forall A (l : list A) i x, (i < length l)%nat -> nth_error (replace l i x) i = Some x.
Proof. induction l as [|a l IH]; intros [|i] x H; cbn in *; try lia; try reflexivity. apply IH. lia. Qed.
Lemma replace_other : forall A (l : list A) i x k, k <> i -> nth_error (replace l i x) k = nth_error l k.
Proof.
  induction l as [|a l IH]; intros [|i] x [|k] H; cbn; auto; try congruence.
Qed.
Lemma replace_id : forall A (l : list A) i x, nth_error l i = Some x -> replace l i x = l.
Proof.
  induction l as [|a l IH]; intros [|i] x H; cbn in *; try congruence. rewrite IH by exact H. reflexivity.
Qed.

(* ---- Add ---- *)
Lemma add_ids_ok : forall known force ids acc acc', add_ids known force acc ids = (true, acc') ->
  acc' = acc ++ ids /\ NoDup ids /\ (forall id, In id ids -> ~ In id acc) /\
  (force = false -> forall id, In id ids -> known id = false).
Proof.
  intros known force. induction ids as [|a ids IH]; intros acc acc' H; cbn [add_ids] in H.
  - injection H as <-. rewrite app_nil_r. repeat split; try constructor; intros; contradiction.
  - destruct (mem a acc) eqn:Em; [discriminate|]. destruct (negb force && known a) eqn:Ek; [discriminate|].
    apply IH in H. destruct H as (H1 & H2 & H3 & H4). rewrite <- app_assoc in H1. split; [exact H1|].
    assert (Na : ~ In a acc) by (intros F; apply mem_In in F; congruence).
    split; [|split].
    + constructor; [|exact H2]. intros F. apply (H3 a F). apply in_or_app. right. left. reflexivity.
    + intros id [<-|Hi]; [exact Na|]. intros F. apply (H3 id Hi). apply in_or_app. left. exact F.
    + intros Ef id [<-|Hi]; [|auto]. subst force. cbn in Ek. exact Ek.
Qed.

Lemma add_ids_refused : forall known force ids acc, fst (add_ids known force acc ids) = false ->
  ~ NoDup ids \/ (exists id, In id ids /\ In id acc) \/ (force = false /\ exists id, In id ids /\ known id = true).
Proof.
  intros known force. induction ids as [|a ids IH]; intros acc H; cbn [add_ids] in H; [discriminate|].
  destruct (mem a acc) eqn:Em; [right; left; exists a; split; [left; reflexivity|apply mem_In; exact Em]|].
  destruct (negb force && known a) eqn:Ek.
  - right. right. apply andb_true_iff in Ek. destruct Ek as (E1 & E2). apply negb_true_iff in E1.
    split; [exact E1|]. exists a. split; [left; reflexivity|exact E2].
  - apply IH in H. destruct H as [H|[(id & Hi & Ha)|(E0 & id & Hi & Hk)]].
    + left. intros F. apply H. inversion F; assumption.
    + apply in_app_or in Ha. destruct Ha as [Ha|[<-|[]]].
      * right. left. exists id. split; [right; exact Hi|exact Ha].
      * left. intros F. inversion F. contradiction.
    + right. right. split; [exact E0|]. exists id. split; [right; exact Hi|exact Hk].
Qed.

Section World.
Variable tsof : Z -> Z.
Variable th0 : Z.
Variable rule : list block -> block -> Prop.
Variable ahead : bool.
Hypothesis rule_ok : forall p b, rule p b -> later p b /\ match p with [] => True | a :: _ => Mx a <= Mx b end.

Definition root_done (w : world) : Prop := exists t, nth_error (w_t w) 0 = Some t /\ t_ids t = None.
Definition hdr (t : tracker) (b : block) : Prop := t_height t = b_height b /\ t_ts t = b_ts b /\ t_th t = b_th b.

Definition TI (w : world) (i : nat) (t : tracker) (p : list block) : Prop :=
  match t_ids t with
  | None => t_parent t = None /\ incl p (committed w) /\ root_done w /\
            match p with b :: _ => hdr t b | [] => i = 0%nat end
  | Some ids =>
      match p with
      | [] => i = 0%nat /\ ids = [] /\ t_parent t = None /\ t_height t = 0 /\ t_ts t = 0 /\
              committed w = [] /\ lists (w_m w) = []
      | b :: p' =>
          ids = b_ids b /\ hdr t b /\
          match t_parent t with
          | None => incl p' (committed w) /\ root_done w
          | Some j => (j < i)%nat /\ nth_error (w_path w) j = Some p'
          end
      end
  end.

Record WI (w : world) : Prop := {
  wi_m : MI (w_m w) (committed w);
  wi_last : ML (w_m w) (committed w);
  wi_len : length (w_t w) = length (w_path w);
  wi_paths : forall i p, nth_error (w_path w) i = Some p -> SortedP p;
  wi_sorted : SortedP (committed w);
  wi_trk : forall i t p, nth_error (w_t w) i = Some t -> nth_error (w_path w) i = Some p -> TI w i t p;
  wi_db : forall b id, In b (tl (w_chain w)) -> In id (b_ids b) -> in_db (w_m w) id
}.

Lemma SortedP_nil : SortedP [].
Proof. split; constructor. Qed.

Lemma MI_new : forall db, MI (manager_new db) [].
Proof.
  intros db. constructor; cbn; auto; try (intros; contradiction); try (intros; discriminate). constructor.
Qed.

Lemma WI_root : forall db lost, WI (mkWorld (manager_new db) [root th0] [[]] [] None lost).
Proof.
  intros db lost. constructor; cbn [w_m w_t w_path w_chain w_pend committed].
  - apply MI_new.
  - intros b K' F. discriminate F.
  - reflexivity.
  - intros [|[|i]] p H; cbn in H; try discriminate. injection H as <-. apply SortedP_nil.
  - apply SortedP_nil.
  - intros [|[|i]] t p Ht Hp; cbn in Ht, Hp; try discriminate. injection Ht as <-. injection Hp as <-.
    cbn. repeat split; reflexivity.
  - intros b id [].
Qed.

Lemma record_inv : forall m ts i b force ts', record tsof m ts i b force = (true, ts') ->
  ts' = ts ++ [mkTrk (b_height b) (b_ts b) (b_th b) (Some (b_ids b)) (new_parent ts i)] /\ NoDup (b_ids b) /\
  (force = false -> forall id, In id (b_ids b) -> parent_has tsof m ts (new_parent ts i) id = false).
Proof.
  intros m ts i b force ts' H. unfold record in H.
  destruct (add_ids (parent_has tsof m ts (new_parent ts i)) force [] (b_ids b)) as (ok, ids) eqn:E.
  injection H as -> <-. apply add_ids_ok in E. destruct E as (E1 & E2 & _ & E4). cbn [app] in E1. subst ids. auto.
Qed.

Lemma SortedP_cons : forall b p, SortedP p -> rule p b -> SortedP (b :: p).
Proof.
  intros b p (A & B) R. apply rule_ok in R. destruct R as ((R1 & R2) & R3). split; [|constructor; auto].
  constructor; [exact A|]. apply Forall_forall. intros x Hx. destruct p as [|a p]; [destruct Hx|].
  apply StronglySorted_inv in A. destruct A as (A & F). rewrite Forall_forall in F.
  destruct Hx as [<-|Hx]; [split; [lia|exact R3]|]. destruct (F x Hx) as (F1 & F2). split; lia.
Qed.

Lemma WI_block : forall w i p b force ts, WI w -> nth_error (w_path w) i = Some p -> rule p b ->
  record tsof (w_m w) (w_t w) i b force = (true, ts) ->
  WI (mkWorld (w_m w) ts (w_path w ++ [b :: p]) (w_chain w) (w_pend w) (w_lost w)).
Proof.
  intros w i p b force ts H Hp R E. apply record_inv in E. destruct E as (E & _ & _). subst ts.
  set (t' := mkTrk _ _ _ _ _). set (w' := mkWorld _ _ _ _ _ _).
  assert (Ki : (i < length (w_path w))%nat) by (apply nth_error_Some; congruence).
  assert (Kc : committed w' = committed w) by reflexivity.
  assert (Rd : root_done w -> root_done w').
  { intros (t & Ht & X). exists t. split; [|exact X]. unfold w'. cbn [w_t]. rewrite nth_error_app1; [exact Ht|].
    apply nth_error_Some. congruence. }
  assert (Old : forall k t q, nth_error (w_t w) k = Some t -> nth_error (w_path w) k = Some q -> TI w' k t q).
  { intros k t q Ht Hq. pose proof (wi_trk w H k t q Ht Hq) as T. unfold TI in *. rewrite Kc.
    destruct (t_ids t) as [ids|].
    - destruct q as [|a q]; [exact T|]. destruct T as (T1 & T2 & T3). split; [exact T1|]. split; [exact T2|].
      destruct (t_parent t) as [j|].
      + destruct T3 as (T3 & T4). split; [exact T3|]. unfold w'. cbn [w_path].
        rewrite nth_error_app1; [exact T4|]. apply nth_error_Some. congruence.
      + destruct T3 as (T3 & T4). auto.
    - destruct T as (T1 & T2 & T3 & T4). auto. }
  constructor.
  - exact (wi_m w H).
  - exact (wi_last w H).
  - unfold w'. cbn [w_t w_path]. rewrite !app_length, (wi_len w H). reflexivity.
  - intros k q Hq. unfold w' in Hq. cbn [w_path] in Hq. destruct (Nat.lt_ge_cases k (length (w_path w))) as [L|L].
    + rewrite nth_error_app1 in Hq by exact L. exact (wi_paths w H k q Hq).
    + rewrite nth_error_app2 in Hq by exact L. destruct (k - length (w_path w))%nat as [|n]; cbn in Hq.
      * injection Hq as <-. apply SortedP_cons; [exact (wi_paths w H i p Hp)|exact R].
      * destruct n; discriminate.
  - exact (wi_sorted w H).
  - intros k t q Ht Hq. unfold w' in Ht, Hq. cbn [w_t w_path] in Ht, Hq.
    destruct (Nat.lt_ge_cases k (length (w_path w))) as [L|L].
    + rewrite nth_error_app1 in Hq by exact L. rewrite nth_error_app1 in Ht by (rewrite (wi_len w H); exact L).
      apply Old; auto.
    + rewrite nth_error_app2 in Hq by exact L. rewrite nth_error_app2 in Ht by (rewrite (wi_len w H); exact L).
      rewrite (wi_len w H) in Ht. destruct (k - length (w_path w))%nat as [|n] eqn:En; cbn in Hq, Ht; [|destruct n; discriminate].
      injection Hq as <-. injection Ht as <-. assert (k = length (w_path w)) by lia. subst k.
      unfold TI, t'. cbn [t_ids t_parent]. split; [reflexivity|]. split; [repeat split|].
      unfold new_parent. destruct (nth_error (w_t w) i) as [ti|] eqn:Eti.
      2:{ apply nth_error_None in Eti. rewrite (wi_len w H) in Eti. lia. }
      pose proof (wi_trk w H i ti p Eti Hp) as T. unfold TI in T. rewrite Kc.
      assert (SomeI : (i < length (w_path w))%nat /\ nth_error (w_path w') i = Some p).
      { split; [exact Ki|]. unfold w'. cbn [w_path]. rewrite nth_error_app1; auto. }
      destruct (t_ids ti) as [ids|]; [exact SomeI|]. destruct T as (T1 & T2 & T3 & _). rewrite T1. auto.
  - exact (wi_db w H).
Qed.

Lemma WI_worker : forall w m, WI w -> worker (w_m w) = Some m ->
  WI (mkWorld m (w_t w) (w_path w) (w_chain w) (w_pend w) (w_lost w)).
Proof.
  intros w m H E. pose proof (worker_MI _ _ _ (wi_m w H) (wi_sorted w H) E) as HM.
  assert (D : forall id, in_db (w_m w) id -> in_db m id).
  { intros id X. unfold worker in E. destruct (m_work (w_m w)) as [(j, k)|].
    - destruct (nth_error (l_ids j) k) as [id0|].
      + injection E as <-. unfold in_db in *. cbn [m_db]. rewrite find_set. destruct (Z.eqb id id0); [discriminate|exact X].
      + injection E as <-. unfold add_list. destruct (m_alive (w_m w)); [|exact X].
        destruct (evict _ _ _ _) as ((c', l'), mx'). exact X.
    - destruct (m_queue (w_m w)); [discriminate|]. injection E as <-. exact X. }
  pose proof (worker_ML _ _ _ (mi_alive _ _ (wi_m w H)) (wi_last w H) E) as HL.
  constructor; cbn [w_m w_t w_path w_chain w_pend]; try assumption; try apply H.
  - intros i t p Ht Hp. pose proof (wi_trk w H i t p Ht Hp) as T. unfold TI in *. cbn [w_m w_path].
    destruct (t_ids t) as [ids|]; [|exact T]. destruct p as [|b p]; [|exact T].
    destruct T as (T1 & T2 & T3 & T4 & T5 & T6 & T7). repeat (split; [assumption|]).
    (* with no lists the worker has nothing to do *)
    exfalso. unfold lists in T7. apply app_eq_nil in T7. destruct T7 as (_ & T7). apply app_eq_nil in T7.
    destruct T7 as (W0 & Q0). unfold working in W0. unfold worker in E.
    destruct (m_work (w_m w)) as [(j, k)|]; [discriminate|]. rewrite Q0 in E. discriminate.
  - intros b id Hb Hi. apply D. exact (wi_db w H b id Hb Hi).
Qed.

Lemma WI_height : forall w b, WI w -> w_pend w = Some b -> m_queue (w_m w) = [] ->
  WI (mkWorld (w_m w) (w_t w) (w_path w) (b :: w_chain w) None (w_lost w)).
Proof.
  intros w b H Ep Eq.
  assert (Ek : committed w = b :: w_chain w) by (unfold committed; rewrite Ep; reflexivity).
  constructor; try (exact (wi_len w H)); try (exact (wi_paths w H)).
  - unfold committed. cbn. rewrite <- Ek. exact (wi_m w H).
  - unfold committed. cbn. rewrite <- Ek. exact (wi_last w H).
  - unfold committed. cbn. rewrite <- Ek. exact (wi_sorted w H).
  - intros i t p Ht Hp. pose proof (wi_trk w H i t p Ht Hp) as T. unfold TI in *. cbn [w_m w_path].
    change (committed (mkWorld (w_m w) (w_t w) (w_path w) (b :: w_chain w) None (w_lost w))) with (b :: w_chain w).
    rewrite <- Ek. exact T.
  - cbn [w_chain tl w_m]. intros a id Ha Hi. pose proof (wi_m w H) as M.
    assert (Hk : In a (committed w)) by (rewrite Ek; right; exact Ha).
    destruct (mi_known _ _ M a Hk) as [(l & Hl & Mt)|(D & _)]; [|auto].
    destruct (wi_last w H b (w_chain w) Ek) as (l0 & l1 & El & Mt1).
    pose proof (wi_sorted w H) as (SS & _). rewrite Ek in SS. apply StronglySorted_inv in SS. destruct SS as (_ & F).
    rewrite Forall_forall in F. destruct (F a Ha) as (Fa & _).
    destruct Mt as (_ & M2 & _ & M4). destruct Mt1 as (_ & N2 & _).
    unfold lists in Hl, El. rewrite Eq, app_nil_r in Hl, El. apply in_app_or in Hl.
    destruct Hl as [Hl|Hl]; [rewrite <- M4 in Hi; exact (mi_cache _ _ M l id Hl Hi)|].
    exfalso. unfold working in Hl, El. destruct (m_work (w_m w)) as [(j, k)|]; [|destruct Hl].
    destruct Hl as [<-|[]]. apply app_inj_tail in El. destruct El as (_ & <-). lia.
Qed.

(* every reachable state *)
Lemma commit_settled : forall w i t b m ts, WI w -> w_pend w = None ->
  nth_error (w_path w) i = Some (b :: w_chain w) -> nth_error (w_t w) i = Some t -> t_ids t <> None ->
  (forall j, t_parent t = Some j -> settled w j) ->
  commit (S i) (w_m w) (w_t w) i = Some (m, ts) ->
  exists m1 ts1, MI m1 (w_chain w) /\ (forall id, in_db m1 id <-> in_db (w_m w) id) /\
    length ts1 = length (w_t w) /\ nth_error ts1 i = Some t /\
    (exists t0, nth_error ts1 0 = Some t0 /\ t_ids t0 = None) /\
    (forall k tk, k <> i -> nth_error ts1 k = Some tk ->
       nth_error (w_t w) k = Some tk \/ (k = 0%nat /\ t_ids tk = None /\ t_parent tk = None /\ nth_error (w_path w) 0 = Some [])) /\
    commit_list (b_height b) (b_ts b) (b_th b) (b_ids b) m1 = Some m /\
    ts = replace ts1 i (mkTrk (b_height b) (b_ts b) (b_th b) None None).
Proof.
  intros w i t b m ts H Ep Hp Ht Hn Hs E.
  assert (Ek : committed w = w_chain w) by (unfold committed; rewrite Ep; reflexivity).
  pose proof (wi_trk w H i t _ Ht Hp) as T. unfold TI in T. cbn [commit] in E. rewrite Ht in E.
  destruct (t_ids t) as [ids|]; [|congruence]. destruct T as (T1 & (D1 & D2 & D3) & T3). subst ids.
  rewrite D1, D2, D3 in E. rewrite Ek in T3.
  pose proof (wi_m w H) as M. rewrite Ek in M.
  destruct (t_parent t) as [j|] eqn:Epar.
  - destruct T3 as (Lj & Pj). specialize (Hs j eq_refl).
    destruct i as [|i0]; [lia|]. cbn [commit] in E.
    destruct (nth_error (w_t w) j) as [tj|] eqn:Etj.
    2:{ apply nth_error_None in Etj. rewrite (wi_len w H) in Etj. assert (nth_error (w_path w) j = None) by (apply nth_error_None; exact Etj). congruence. }
    pose proof (wi_trk w H j tj _ Etj Pj) as Tj. unfold TI in Tj. rewrite Ek in Tj.
    destruct (t_ids tj) as [idsj|] eqn:Eidj.
    + (* the root *)
      destruct Hs as [(x & Ex & Nx)|Hs]; [congruence|]. rewrite Pj in Hs. injection Hs as Hc. rewrite Hc in *.
      destruct Tj as (-> & -> & Pn & Dh & Ds & _ & L0). rewrite Pn in E. rewrite Dh, Ds in E.
      destruct (commit_list 0 0 (t_th tj) [] (w_m w)) as [m1|] eqn:E1; [|discriminate].
      destruct (commit_list (b_height b) (b_ts b) (b_th b) (b_ids b) m1) as [m2|] eqn:E2; [|discriminate].
      injection E as <- <-. exists m1, (replace (w_t w) 0 (mkTrk 0 0 (t_th tj) None None)).
      assert (Lt : (0 < length (w_t w))%nat) by (apply nth_error_Some; congruence).
      split; [exact (commit_root_MI _ _ _ M L0 E1)|].
      split; [unfold commit_list in E1; rewrite (mi_alive _ _ M) in E1; injection E1 as <-; intros id; reflexivity|].
      split; [apply replace_length|]. split; [rewrite replace_other by lia; exact Ht|].
      split; [eexists; split; [apply replace_same; exact Lt|reflexivity]|].
      split; [|split; [exact E2|reflexivity]].
      intros k tk Hk Etk. destruct (Nat.eq_dec k 0) as [->|N].
      * rewrite replace_same in Etk by exact Lt. injection Etk as <-. right. repeat split; auto.
      * rewrite replace_other in Etk by exact N. left. exact Etk.
    + destruct Tj as (Pn & _ & Rd & _). rewrite Pn in E.
      assert (Er : replace (w_t w) j (mkTrk (t_height tj) (t_ts tj) (t_th tj) None None) = w_t w).
      { apply replace_id. rewrite Etj. destruct tj. cbn in *. subst. reflexivity. }
      rewrite Er in E.
      destruct (commit_list (b_height b) (b_ts b) (b_th b) (b_ids b) (w_m w)) as [m2|] eqn:E2; [|discriminate].
      injection E as <- <-. exists (w_m w), (w_t w).
    split; [exact M|]. split; [intros id; reflexivity|]. split; [reflexivity|]. split; [exact Ht|]. split; [exact Rd|].
    split; [intros k tk _ X; left; exact X|]. split; [exact E2|reflexivity].
  - destruct T3 as (_ & Rd).
    destruct (commit_list (b_height b) (b_ts b) (b_th b) (b_ids b) (w_m w)) as [m2|] eqn:E2; [|discriminate].
    injection E as <- <-. exists (w_m w), (w_t w).
    split; [exact M|]. split; [intros id; reflexivity|]. split; [reflexivity|]. split; [exact Ht|]. split; [exact Rd|].
    split; [intros k tk _ X; left; exact X|]. split; [exact E2|reflexivity].
Qed.

Lemma WI_commit : forall w i t b m ts, WI w -> w_pend w = None ->
  nth_error (w_path w) i = Some (b :: w_chain w) -> nth_error (w_t w) i = Some t -> t_ids t <> None ->
  (forall j, t_parent t = Some j -> settled w j) ->
  commit (S i) (w_m w) (w_t w) i = Some (m, ts) ->
  WI (mkWorld m ts (w_path w) (w_chain w) (Some b) (w_lost w)).
Proof.
  intros w i t b m ts H Ep Hp Ht Hn Hs E.
  assert (Ek : committed w = w_chain w) by (unfold committed; rewrite Ep; reflexivity).
  destruct (commit_settled w i t b m ts H Ep Hp Ht Hn Hs E)
    as (m1 & ts1 & M1 & Dd & Ln & Hti & R0 & Oth & Ec & ->).
  assert (Lt : (i < length ts1)%nat) by (apply nth_error_Some; congruence).
  pose proof (wi_paths w H i _ Hp) as SP.
  assert (M2 : MI m (b :: w_chain w) /\ ML m (b :: w_chain w)) by (apply (commit_list_MI _ _ _ _ _ _ _ _ M1 SP Ec); repeat split).
  destruct M2 as (M2 & L2).
  set (done := mkTrk _ _ _ None None). set (w' := mkWorld _ _ _ _ _ _).
  assert (Kc : committed w' = b :: w_chain w) by reflexivity.
  assert (Rd : root_done w').
  { destruct R0 as (t0 & Ht0 & X). destruct (Nat.eq_dec i 0) as [->|N].
    - exists done. split; [apply replace_same; exact Lt|reflexivity].
    - exists t0. split; [unfold w'; cbn [w_t]; rewrite replace_other by auto; exact Ht0|exact X]. }
  assert (Hi0 : forall k q, nth_error (w_path w) k = Some q -> q = [] -> k = 0%nat).
  { intros k q Hq ->. destruct (nth_error (w_t w) k) as [tk|] eqn:Etk.
    - pose proof (wi_trk w H k tk [] Etk Hq) as T. unfold TI in T. destruct (t_ids tk); tauto.
    - apply nth_error_None in Etk. rewrite (wi_len w H) in Etk. apply nth_error_None in Etk. congruence. }
  constructor.
  - rewrite Kc. exact M2.
  - rewrite Kc. exact L2.
  - unfold w'. cbn [w_t w_path]. rewrite replace_length, Ln. exact (wi_len w H).
  - exact (wi_paths w H).
  - rewrite Kc. exact SP.
  - intros k tk q Htk Hq. unfold w' in Htk, Hq. cbn [w_t w_path] in Htk, Hq.
    destruct (Nat.eq_dec k i) as [->|N].
    + rewrite replace_same in Htk by exact Lt. injection Htk as <-. rewrite Hp in Hq. injection Hq as <-.
      unfold TI, done. cbn [t_ids t_parent]. rewrite Kc. repeat split; auto. apply incl_refl.
    + rewrite replace_other in Htk by exact N. destruct (Oth k tk N Htk) as [Old|(-> & X1 & X2 & X3)].
      * pose proof (wi_trk w H k tk q Old Hq) as T. unfold TI in *. rewrite Kc. rewrite Ek in T.
        destruct (t_ids tk) as [ids|] eqn:Eids.
        -- destruct q as [|a q].
           ++ (* the root is committed by now *)
              exfalso. assert (k = 0%nat) by (eapply Hi0; eauto). subst k.
              destruct R0 as (t0 & Ht0 & X). rewrite Ht0 in Htk. injection Htk as <-. congruence.
           ++ destruct T as (T1 & T2 & T3). split; [exact T1|]. split; [exact T2|].
              destruct (t_parent tk) as [j|]; [exact T3|]. destruct T3 as (T3 & _).
              split; [apply incl_tl; exact T3|exact Rd].
        -- destruct T as (T1 & T2 & _ & T4). split; [exact T1|]. split; [apply incl_tl; exact T2|]. split; [exact Rd|exact T4].
      * rewrite X3 in Hq. injection Hq as <-. unfold TI. rewrite X1. repeat split; auto. intros x [].
  - intros a id Ha Hi. unfold w' in *. cbn [w_chain w_m] in *.
    unfold commit_list in Ec. rewrite (mi_alive _ _ M1) in Ec. injection Ec as <-.
    change (in_db m1 id). apply Dd. exact (wi_db w H a id Ha Hi).
Qed.

Lemma WI_crash : forall w b c m ts, WI w -> w_chain w = b :: c -> restart tsof th0 (m_db (w_m w)) b = Some (m, ts) ->
  SortedP (b :: c) ->
  forall lost, WI (mkWorld m ts [[]; b :: c] (b :: c) None lost).
Proof.
  intros w b c m ts H Ec E SP lost. unfold restart in E.
  destruct (record tsof (manager_new (m_db (w_m w))) [root th0] 0 b true) as (ok, ts0) eqn:Er.
  destruct ok; [|discriminate]. apply record_inv in Er. destruct Er as (-> & _ & _).
  cbn [commit app nth_error new_parent root t_ids t_parent t_height t_ts t_th] in E.
  destruct (commit_list 0 0 th0 [] (manager_new (m_db (w_m w)))) as [m1|] eqn:E1; [|discriminate].
  destruct (commit_list (b_height b) (b_ts b) (b_th b) (b_ids b) m1) as [m2|] eqn:E2; [|discriminate].
  injection E as <- <-. cbn [replace].
  assert (L0 : lists (manager_new (m_db (w_m w))) = []) by reflexivity.
  pose proof (commit_root_MI _ _ _ (MI_new _) L0 E1) as M1.
  assert (E1' := E1). unfold commit_list in E1'. cbn [manager_new m_alive m_next m_loc m_db m_cache m_max m_work m_queue app put_all] in E1'.
  injection E1' as E1'.
  (* the older blocks are in the database *)
  assert (M1' : MI m1 c).
  { subst m1. assert (SC : SortedP c) by (destruct SP as (A & B); split; [apply StronglySorted_inv in A; tauto|inversion B; assumption]).
    constructor; try apply M1.
    - intros a Ha. right. split; [|split].
      + intros id Hi. apply (wi_db w H a id); [rewrite Ec; exact Ha|exact Hi].
      + left. reflexivity.
      + cbn. intros l [<-|[]] F. cbn in F. congruence.
    - cbn. intros l [<-|[]] F. cbn in F. congruence.
    - left. reflexivity. }
  assert (M2 : MI m2 (b :: c) /\ ML m2 (b :: c)) by (apply (commit_list_MI _ _ _ _ _ _ _ _ M1' SP E2); repeat split).
  destruct M2 as (M2 & L2).
  constructor; cbn [w_m w_t w_path w_chain w_pend committed]; auto.
  - intros [|[|[|i]]] p Hp; cbn in Hp; try discriminate; injection Hp as <-; [apply SortedP_nil|exact SP].
  - intros [|[|[|i]]] t p Ht Hp; cbn in Ht, Hp; try discriminate; injection Ht as <-; injection Hp as <-; unfold TI, committed; cbn.
    + repeat split; auto; [intros x []|]. eexists. split; reflexivity.
    + repeat split; auto; [apply incl_refl|]. eexists. split; reflexivity.
  - cbn [tl]. intros a id Ha Hi. unfold commit_list in E2. rewrite (mi_alive _ _ M1') in E2. injection E2 as <-.
    subst m1. apply (wi_db w H a id); [rewrite Ec; exact Ha|exact Hi].
Qed.

Lemma reach_WI : forall w, reach tsof th0 rule ahead false w -> WI w.
Proof.
  intros w R. induction R.
  - apply WI_root.
  - eapply WI_block; eassumption.
  - eapply WI_commit; eassumption.
  - apply WI_height; assumption.
  - apply WI_worker; assumption.
  - discriminate.
  - apply WI_root.
  - eapply WI_crash; try eassumption. pose proof (wi_sorted w IHR) as SP. unfold committed in SP. rewrite H in SP.
    destruct (w_pend w); [|exact SP]. destruct SP as (A & B). split; [apply StronglySorted_inv in A; tauto|inversion B; assumption].
Qed.
End World.
