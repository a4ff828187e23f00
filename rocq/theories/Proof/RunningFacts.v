(** Every state SCORE code runs in is related to a state of the eager machine; effects of the primitives. *)
From Verif Require Import Model.Bytes Model.Exn Model.Monad Model.Typed Model.EE Spec.EagerEE Spec.Running Proof.EESim Proof.EagerFacts.
From Coq Require Import ZifyBool.

Section WithHash.
Context (sha3 : bytes -> bytes).

Scheme idle_mut := Induction for idle Sort Prop
  with running_mut := Induction for running Sort Prop.
Combined Scheme idle_running_mut from idle_mut, running_mut.

Definition live (w : world) : Prop := exists v pend c s, Rp v [] pend c w s /\ (length pend <= 5)%nat.

Lemma agree_live {A} v (a : pyres A * world) b r w' : agree v a b -> a = (r, w') -> live w'.
Proof. intros (r0 & w0 & s0 & p & c & -> & _ & _ & R & L) [= <- <-]. exists v, p, c, s0. auto. Qed.

Lemma enter_eq z w s rq : R0 z w s -> enter rq w =
  set_ctxs (set_ro (set_rostack (push_frame rq w) (w_ro w :: w_rostack w)) (rq_query rq)) (new_ctx rq :: z_cs z).
Proof. intros Z. unfold enter. rewrite (z_ctxs _ _ _ Z). reflexivity. Qed.

Lemma idle_running_ok : (forall w, idle sha3 w -> exists z s, R0 z w s) /\ (forall w, running sha3 w -> live w).
Proof.
  apply (idle_running_mut sha3 (fun w _ => exists z s, R0 z w s) (fun w _ => live w)).
  - intros ns. exists z_init, (init_estate ns). apply r0_init.
  - intros w to amount data w' _ (v & pend & c & s & R & L) E.
    destruct (handle_set_values_ok _ _ _ _ _ _ R) as (w1 & E1 & R1 & _).
    set (d := drained c pend) in *. set (limit := cx_limit d - cx_used d).
    rewrite (bind_ok _ _ w limit w1) in E
      by (unfold step_remained; rewrite (bind_ok _ _ _ _ _ E1); unfold mbind, get_ctx; rewrite (r_ctxs _ _ _ _ _ _ R1); reflexivity).
    set (m := MCall to amount limit data) in E.
    assert (Nm : send sha3 m w1 = (Ok tt, log m w1)).
    { unfold send, node_recv, m. cbn [w_frames log set_trace]. rewrite (r_frames _ _ _ _ _ _ R1). reflexivity. }
    rewrite Nm in E. injection E as <-.
    set (s1 := mk_estate (es_ns s) (es_frames s) (es_ctxs s) (ACall to amount limit data :: es_acts s)).
    exists (env0_of v d), s1. apply rp_r0. apply note_ok; [exact R1|reflexivity|].
    unfold entry_of. rewrite (r_frames _ _ _ _ _ _ R1), (r_ctxs _ _ _ _ _ _ R1), (r_h _ _ _ _ _ _ R1).
    split; [split|split; [|split]]; cbn.
    + intros c0 [= <-]. apply (r_lim _ _ _ _ _ _ R1).
    + intros; discriminate.
    + exact I.
    + split; [exact (Nat.le_0_l 5)|reflexivity].
    + exists d. split; reflexivity.
  - intros f w _ (z & s & Z). exists z, (mk_estate (f (es_ns s)) (es_frames s) (es_ctxs s) (es_acts s)).
    destruct Z. constructor; cbn; auto. congruence.
  - intros rq init body out w w' _ (z & s & Z) G Gi Gb E.
    destruct (invoke_ok sha3 z w s rq _ _ _ _ (proj1 (run_sim_both sha3) init Gi) (proj1 (run_sim_both sha3) body Gb) G Z)
      as (x & w1 & s1 & E1 & _ & Z1).
    rewrite E in E1. injection E1 as _ <-. eauto.
  - intros rq w _ (z & s & Z) G. rewrite (enter_eq z w s rq Z).
    pose proof (pushed z w s rq Z G) as R. eexists _, [], _, _. split; [exact R|]. exact (Nat.le_0_l 5).
  - intros w _ (v & pend & c & s & R & L). unfold to_method.
    rewrite (r_frames _ _ _ _ _ _ R), (r_ctxs _ _ _ _ _ _ R).
    eexists _, pend, _, _. split; [apply rp_func; [exact R|reflexivity]|exact L].
  - intros key w r w' _ (v & pend & c & s & R & L) E. eapply agree_live; [apply (get_agree sha3 v pend c w s key R L)|exact E].
  - intros key value w r w' _ (v & pend & c & s & R & L) E. eapply agree_live; [apply (put_agree sha3 v pend c w s key value R L)|exact E].
  - intros key w r w' _ (v & pend & c & s & R & L) E. eapply agree_live; [apply (del_agree sha3 v pend c w s key R L)|exact E].
  - intros p x w r w' _ (v & pend & c & s & R & L) E. eapply agree_live; [apply (contains_agree sha3 v pend c w s p x R L)|exact E].
  - intros n i d w r w' _ (v & pend & c & s & R & L) E. eapply agree_live; [apply (event_agree sha3 v pend c w s n i d R L)|exact E].
  - intros a w r w' _ (v & pend & c & s & R & L) E. eapply agree_live; [apply (balance_agree sha3 v pend c w s a R L)|exact E].
  - intros ty n w r w' _ (v & pend & c & s & R & L) E.
    eapply (agree_live v ((consume_step ty n ;;; mret tt) w) _ (match r with Ok _ => Ok tt | Exc e => Exc e | Stuck => Stuck end));
      [apply (charge_agree v pend c w s ty n R L)|].
    unfold mbind. rewrite E. destruct r; reflexivity.
  - intros pct w r w' _ (v & pend & c & s & R & L) E. eapply agree_live; [apply (fee_agree v pend c w s pct R L)|exact E].
  - intros ca n w r w' _ (v & pend & c & s & R & L) G E.
    eapply agree_live; [|exact E].
    apply (call_agree sha3 v pend c w s ca (fun limit w => run_node sha3 (n limit (w_ns w)) w) (fun limit s => erun_node sha3 (n limit (es_ns s)) s)); auto.
    intros limit z w1 s1 H Z. rewrite <- (z_ns _ _ _ Z). apply (proj2 (run_sim_both sha3)); auto.
Qed.

Lemma running_live w : running sha3 w -> live w.
Proof. apply idle_running_ok. Qed.

(** ** What the specification's observations are in related states *)
Definition left_of (s : estate) : Z := match es_ctxs s with c :: _ => cx_limit c - cx_used c | [] => 0 end.

Lemma here_eq v ex pend c w s : Rp v ex pend c w s -> here w = e_here s.
Proof. intros R. unfold here, top_req, e_here. rewrite (r_frames _ _ _ _ _ _ R), (r_eframes _ _ _ _ _ _ R). reflexivity. Qed.
Lemma left_eq v pend c w s : Rp v [] pend c w s -> steps_left w = cx_limit c - cx_used (drained c pend).
Proof.
  intros R. destruct (handle_set_values_ok _ _ _ _ _ _ R) as (w1 & E1 & R1 & _).
  unfold steps_left, step_remained. rewrite (bind_ok _ _ _ _ _ E1). unfold mbind, get_ctx. rewrite (r_ctxs _ _ _ _ _ _ R1). reflexivity.
Qed.
Lemma left_of_eq v pend c w s : Rp v [] pend c w s -> steps_left w = left_of s.
Proof. intros R. rewrite (left_eq _ _ _ _ _ R). unfold left_of. rewrite (r_ectxs _ _ _ _ _ _ R). reflexivity. Qed.
Lemma left_nonneg w : live w -> 0 <= steps_left w.
Proof.
  intros (v & pend & c & s & R & L). rewrite (left_eq _ _ _ _ _ R). cbn.
  pose proof (r_lim _ _ _ _ _ _ R). pose proof (total_neg _ _ (r_ref _ _ _ _ _ _ R) (r_pok _ _ _ _ _ _ R)). lia.
Qed.
Lemma ro_eq v ex pend c w s : Rp v ex pend c w s -> readonly w = read_only c.
Proof. intros R. unfold readonly. rewrite (r_ctxs _ _ _ _ _ _ R). reflexivity. Qed.
Lemma ro_env v p1 p2 c1 c2 w1 w2 s1 s2 : Rp v [] p1 c1 w1 s1 -> Rp v [] p2 c2 w2 s2 -> readonly w1 = readonly w2.
Proof.
  intros R1 R2. rewrite (ro_eq _ _ _ _ _ _ R1), (ro_eq _ _ _ _ _ _ R2).
  pose proof (writable_env _ _ _ _ _ _ _ _ _ _ _ R1 R2) as E. rewrite !not_read_only in E.
  destruct (read_only c1), (read_only c2); auto; discriminate.
Qed.
Lemma costs_eq v ex pend c w s : Rp v ex pend c w s -> cost_table w = cx_costs c.
Proof.
  intros R. unfold cost_table, top_req. rewrite (r_frames _ _ _ _ _ _ R).
  destruct (r_frame _ _ _ _ _ _ R) as (_ & -> & _). reflexivity.
Qed.
Lemma cell_eq v ex pend c w s key : Rp v ex pend c w s -> ns_get (es_ns s) (e_here s) key = cell w key.
Proof. intros R. unfold cell. rewrite (here_eq _ _ _ _ _ _ R), (r_ns _ _ _ _ _ _ R). reflexivity. Qed.
Lemma refunding_live w : live w -> refunding (cost_table w).
Proof. intros (v & pend & c & s & R & L). rewrite (costs_eq _ _ _ _ _ _ R). apply (r_ref _ _ _ _ _ _ R). Qed.

Lemma e_pay_eq ty n s c cs : es_ctxs s = c :: cs -> cx_used c <= cx_limit c ->
  e_pay ty n s =
  if price (cx_costs c) ty n <=? cx_limit c - cx_used c
  then (Ok tt, e_set s (with_used c (cx_used c + price (cx_costs c) ty n) :: cs))
  else (Exc (EOutOfStep (cx_limit c) (cx_used c) (price (cx_costs c) ty n) ty), e_set s (with_used c (cx_limit c) :: cs)).
Proof.
  intros E L. destruct (price (cx_costs c) ty n <=? cx_limit c - cx_used c) eqn:X.
  - apply e_pay_ok; auto. lia.
  - unfold e_pay. rewrite (bind_ok _ _ s c s) by (unfold e_ctx; rewrite E; reflexivity).
    destruct (price (cx_costs c) ty n =? 0) eqn:Y; [lia|].
    rewrite (e_charge_eq _ _ _ _ _ E). destruct (_ <? _) eqn:W; [reflexivity|lia].
Qed.

(** The running context on the eager side. *)
Lemma eager_ctx v pend c w s : Rp v [] pend c w s ->
  exists d, es_ctxs s = d :: v_cs v /\ cx_costs d = cost_table w /\ cx_used d <= cx_limit d /\
            steps_left w = cx_limit d - cx_used d /\ read_only d = readonly w /\ refunding (cx_costs d).
Proof.
  intros R. exists (drained c pend). split; [exact (r_ectxs _ _ _ _ _ _ R)|].
  pose proof (r_lim _ _ _ _ _ _ R). pose proof (total_neg _ _ (r_ref _ _ _ _ _ _ R) (r_pok _ _ _ _ _ _ R)).
  split; [symmetry; exact (costs_eq _ _ _ _ _ _ R)|]. split; [cbn; lia|]. split; [apply (left_eq _ _ _ _ _ R)|].
  split; [symmetry; exact (ro_eq _ _ _ _ _ _ R)|apply (r_ref _ _ _ _ _ _ R)].
Qed.

Lemma get_effect w key : live w ->
  let v := cell w key in let p := price (cost_table w) GET (size_of v) in
  exists r w', db_get sha3 key w = (r, w') /\ live w' /\ same_but_steps w w' /\
    (if p <=? steps_left w then r = Ok v /\ steps_left w' = steps_left w - p
     else (exists l u, r = Exc (EOutOfStep l u p GET)) /\ steps_left w' = 0).
Proof.
  intros (v & pend & c & s & R & L) x p.
  destruct (get_agree sha3 v pend c w s key R L) as (r & w' & s' & pend' & c' & E1 & E2 & N & R' & L').
  exists r, w'. split; [exact E1|]. split; [exists v, pend', c', s'; auto|].
  destruct (eager_ctx _ _ _ _ _ R) as (d & D1 & D2 & D3 & D4 & D5 & D6).
  unfold e_get in E2. rewrite (bind_ok _ _ s x s) in E2 by (unfold e_read; rewrite (cell_eq _ _ _ _ _ _ key R); reflexivity).
  fold (size_of x) in E2. 
  assert (F : w_frames w' = w_frames w) by (rewrite (r_frames _ _ _ _ _ _ R), (r_frames _ _ _ _ _ _ R'); reflexivity).
  pose proof (ro_env _ _ _ _ _ _ _ _ _ R' R) as Ro.
  unfold mbind in E2. rewrite (e_pay_eq _ _ _ _ _ D1 D3) in E2. rewrite D2 in E2. fold p in E2. rewrite <- D4 in E2.
  destruct (p <=? steps_left w) eqn:X; injection E2 as <- <-.
  - split; [split; [|split; auto]; rewrite <- (r_ns _ _ _ _ _ _ R), <- (r_ns _ _ _ _ _ _ R'); reflexivity|].
    split; [reflexivity|]. rewrite (left_of_eq _ _ _ _ _ R'). cbn. lia.
  - split; [split; [|split; auto]; rewrite <- (r_ns _ _ _ _ _ _ R), <- (r_ns _ _ _ _ _ _ R'); reflexivity|].
    split; [eauto|]. rewrite (left_of_eq _ _ _ _ _ R'). cbn. lia.
Qed.

(** What a successful write of [value] over [old] costs. *)
Definition put_price (k : costs) (old : option bytes) (value : bytes) : Z :=
  price k SET (blen value) +
  match old with Some o => refund_amount k (if k SCHEMA =? 0 then blen value else blen o) | None => 0 end.
Definition delete_price (k : costs) (old : option bytes) : Z :=
  match old with Some o => price k DELETE (blen o) | None => 0 end.

Lemma e_put_exc s c cs key value : es_ctxs s = c :: cs -> read_only c = false -> value <> [] ->
  cx_used c <= cx_limit c -> refunding (cx_costs c) ->
  let old := ns_get (es_ns s) (e_here s) key in
  cx_limit c - cx_used c < put_price (cx_costs c) old value ->
  exists l u n t, e_put key value s = (Exc (EOutOfStep l u n t), e_set s (with_used c (cx_limit c) :: cs)).
Proof.
  intros E Ro Nv Lu Rf old Lt. unfold e_put. destruct value as [|b value]; [congruence|]. set (val := b :: value) in *.
  rewrite (bind_ok _ _ s c s) by (unfold e_ctx; rewrite E; reflexivity). rewrite Ro.
  rewrite (bind_ok _ _ s old s) by reflexivity. unfold put_price in Lt.
  destruct (cx_costs c SCHEMA =? 0) eqn:S0.
  - assert (Hp : price (cx_costs c) (match old with Some _ => REPLACE | None => SET end) (blen val) =
      price (cx_costs c) SET (blen val) + match old with Some o => refund_amount (cx_costs c) (blen val) | None => 0 end).
    { unfold price, refund_amount, base_step. rewrite S0. destruct old; lia. }
    unfold mbind. rewrite (e_pay_eq _ _ _ _ _ E Lu). rewrite Hp.
    destruct (_ <=? _) eqn:X; [lia|]. eauto 6.
  - destruct old as [o|] eqn:Eo.
    + assert (refund_amount (cx_costs c) (blen o) <= 0).
      { apply Rf. unfold old, ns_get in Eo. destruct (ns_store _ _ _); [discriminate|]. injection Eo as <-. unfold blen. cbn. lia. }
      set (s1 := e_set s (with_used c (cx_used c + refund_amount (cx_costs c) (blen o)) :: cs)).
      unfold mbind. replace (e_refund _ s) with (@Ok exn _ tt, s1) by (unfold e_refund, e_upd; rewrite E; reflexivity).
      rewrite (e_pay_eq SET (blen val) s1 (with_used c (cx_used c + refund_amount (cx_costs c) (blen o))) cs eq_refl) by (cbn; lia).
      cbn [cx_used cx_costs cx_limit with_used].
      destruct (_ <=? _) eqn:X; [lia|]. eexists _, _, _, _. reflexivity.
    + unfold mbind, mret. rewrite (e_pay_eq _ _ _ _ _ E Lu).
      destruct (_ <=? _) eqn:X; [lia|]. eauto 6.
Qed.

Lemma e_delete_eq s c cs key : es_ctxs s = c :: cs -> cx_used c <= cx_limit c -> refunding (cx_costs c) -> read_only c = false ->
  let old := ns_get (es_ns s) (e_here s) key in
  e_delete key s = (Ok tt, mk_estate (ns_set (es_ns s) (e_here s) key []) (es_frames s)
                       (with_used c (cx_used c + delete_price (cx_costs c) old) :: cs) (AWrite (e_here s) key [] :: es_acts s)).
Proof.
  intros E Lu Rf Ro old. unfold e_delete. rewrite (bind_ok _ _ s c s) by (unfold e_ctx; rewrite E; reflexivity). rewrite Ro.
  rewrite (bind_ok _ _ s old s) by reflexivity.
  rewrite (bind_ok (e_write key []) _ s tt (mk_estate (ns_set (es_ns s) (e_here s) key []) (es_frames s) (es_ctxs s) (AWrite (e_here s) key [] :: es_acts s))) by reflexivity.
  unfold delete_price. destruct old as [o|] eqn:Eo.
  - assert (price (cx_costs c) DELETE (blen o) <= 0).
    { apply Rf. unfold old, ns_get in Eo. destruct (ns_store _ _ _); [discriminate|]. injection Eo as <-. unfold blen. cbn. lia. }
    rewrite (e_pay_ok _ _ _ c cs) by (auto; lia). reflexivity.
  - rewrite Z.add_0_r, with_used_id, E. reflexivity.
Qed.

Lemma put_effect w key value : live w ->
  let p := match value with [] => delete_price (cost_table w) (cell w key) | _ => put_price (cost_table w) (cell w key) value end in
  exists r w', db_put sha3 key value w = (r, w') /\ live w' /\
    (if readonly w then r = Exc (EIcon Database) /\ same_but_steps w w' /\ steps_left w' = steps_left w
     else if p <=? steps_left w then r = Ok tt /\ wrote key value w w' /\ steps_left w' = steps_left w - p
     else (exists e, r = Exc e /\ out_of_step e) /\ same_but_steps w w' /\ steps_left w' = 0).
Proof.
  intros (v & pend & c & s & R & L) p.
  destruct (put_agree sha3 v pend c w s key value R L) as (r & w' & s' & pend' & c' & E1 & E2 & N & R' & L').
  exists r, w'. split; [exact E1|]. split; [exists v, pend', c', s'; auto|].
  destruct (eager_ctx _ _ _ _ _ R) as (d & D1 & D2 & D3 & D4 & D5 & D6).
  assert (F : w_frames w' = w_frames w) by (rewrite (r_frames _ _ _ _ _ _ R), (r_frames _ _ _ _ _ _ R'); reflexivity).
  pose proof (ro_env _ _ _ _ _ _ _ _ _ R' R) as Ro.
  rewrite <- D5. destruct (read_only d) eqn:Rd.
  { assert (X : e_put key value s = (Exc (EIcon Database), s)).
    { unfold e_put, e_delete. destruct value; rewrite (bind_ok _ _ s d s) by (unfold e_ctx; rewrite D1; reflexivity); rewrite Rd; reflexivity. }
    rewrite X in E2. injection E2 as <- <-. split; [reflexivity|]. split.
    - split; [|auto]. rewrite <- (r_ns _ _ _ _ _ _ R), <- (r_ns _ _ _ _ _ _ R'). reflexivity.
    - rewrite (left_of_eq _ _ _ _ _ R'), (left_of_eq _ _ _ _ _ R). reflexivity. }
  destruct value as [|b value].
  - assert (p <= 0).
    { unfold p, delete_price. destruct (cell w key) as [o|] eqn:Eo; [|lia]. rewrite <- D2. apply D6.
      unfold cell, ns_get in Eo. destruct (ns_store _ _ _); [discriminate|]. injection Eo as <-. unfold blen. cbn. lia. }
    destruct (p <=? steps_left w) eqn:X; [|lia].
    change (e_put key [] s) with (e_delete key s) in E2. rewrite (e_delete_eq s d (v_cs v) key D1 D3 D6 Rd) in E2.
    rewrite (cell_eq _ _ _ _ _ _ key R), D2 in E2. fold p in E2. injection E2 as <- <-.
    split; [reflexivity|]. split.
    + split; [|auto]. rewrite <- (r_ns _ _ _ _ _ _ R), <- (r_ns _ _ _ _ _ _ R'), (here_eq _ _ _ _ _ _ R). reflexivity.
    + rewrite (left_of_eq _ _ _ _ _ R'). cbn. lia.
  - set (val := b :: value) in *. assert (Nv : val <> []) by (unfold val; discriminate).
    destruct (p <=? steps_left w) eqn:X.
    + pose proof (e_put_ok sha3 s d (v_cs v) key val D1 Rd Nv) as K. cbv zeta in K.
      rewrite (cell_eq _ _ _ _ _ _ key R), D2 in K. unfold p, put_price in X. rewrite K in E2 by lia.
      injection E2 as <- <-. split; [reflexivity|]. split.
      * split; [|auto]. rewrite <- (r_ns _ _ _ _ _ _ R), <- (r_ns _ _ _ _ _ _ R'), (here_eq _ _ _ _ _ _ R). reflexivity.
      * rewrite (left_of_eq _ _ _ _ _ R'). unfold left_of; cbn [es_ctxs with_used cx_limit cx_used]; unfold p, put_price; lia.
    + pose proof (e_put_exc s d (v_cs v) key val D1 Rd Nv D3 D6) as K. cbv zeta in K.
      rewrite (cell_eq _ _ _ _ _ _ key R), D2 in K. destruct K as (l & u & n & t & K); [fold p; lia|].
      rewrite K in E2. injection E2 as <- <-. split; [eexists; split; [reflexivity|red; eauto]|]. split.
      * split; [|auto]. rewrite <- (r_ns _ _ _ _ _ _ R), <- (r_ns _ _ _ _ _ _ R'). reflexivity.
      * rewrite (left_of_eq _ _ _ _ _ R'). cbn. lia.
Qed.

Lemma delete_effect w key : live w ->
  exists r w', db_delete sha3 key w = (r, w') /\ live w' /\
    (if readonly w then r = Exc (EIcon Database) /\ same_but_steps w w' /\ steps_left w' = steps_left w
     else r = Ok tt /\ wrote key [] w w' /\ steps_left w' = steps_left w - delete_price (cost_table w) (cell w key)).
Proof.
  intros (v & pend & c & s & R & L).
  destruct (del_agree sha3 v pend c w s key R L) as (r & w' & s' & pend' & c' & E1 & E2 & N & R' & L').
  exists r, w'. split; [exact E1|]. split; [exists v, pend', c', s'; auto|].
  destruct (eager_ctx _ _ _ _ _ R) as (d & D1 & D2 & D3 & D4 & D5 & D6).
  assert (F : w_frames w' = w_frames w) by (rewrite (r_frames _ _ _ _ _ _ R), (r_frames _ _ _ _ _ _ R'); reflexivity).
  pose proof (ro_env _ _ _ _ _ _ _ _ _ R' R) as Ro.
  rewrite <- D5. destruct (read_only d) eqn:Rd.
  { assert (X : e_delete key s = (Exc (EIcon Database), s)).
    { unfold e_delete. rewrite (bind_ok _ _ s d s) by (unfold e_ctx; rewrite D1; reflexivity); rewrite Rd; reflexivity. }
    rewrite X in E2. injection E2 as <- <-. split; [reflexivity|]. split.
    - split; [|auto]. rewrite <- (r_ns _ _ _ _ _ _ R), <- (r_ns _ _ _ _ _ _ R'). reflexivity.
    - rewrite (left_of_eq _ _ _ _ _ R'), (left_of_eq _ _ _ _ _ R). reflexivity. }
  rewrite (e_delete_eq s d (v_cs v) key D1 D3 D6 Rd) in E2. rewrite (cell_eq _ _ _ _ _ _ key R), D2 in E2. injection E2 as <- <-.
  split; [reflexivity|]. split.
  + split; [|auto]. rewrite <- (r_ns _ _ _ _ _ _ R), <- (r_ns _ _ _ _ _ _ R'), (here_eq _ _ _ _ _ _ R). reflexivity.
  + rewrite (left_of_eq _ _ _ _ _ R'). cbn. lia.
Qed.

(** Contains: what the node scanned is charged. *)
Lemma contains_effect w prefix value : live w ->
  let '(yn, cnt, size) := go_contains sha3 (w_ns w) (here w) prefix value (cost_table w) (steps_left w) in
  let base := if 1 <? cnt then base_step (cost_table w) GET * (cnt - 1) else 0 in
  let p := price (cost_table w) GET size in
  exists r w', db_contains sha3 prefix value w = (r, w') /\ live w' /\ same_but_steps w w' /\
    (if (base <=? steps_left w) && (base + p <=? steps_left w) then r = Ok yn /\ steps_left w' = steps_left w - base - p
     else (exists e, r = Exc e /\ out_of_step e) /\ steps_left w' = 0).
Proof.
  intros (v & pend & c & s & R & L).
  destruct (contains_agree sha3 v pend c w s prefix value R L) as (r & w' & s' & pend' & c' & E1 & E2 & N & R' & L').
  destruct (eager_ctx _ _ _ _ _ R) as (d & D1 & D2 & D3 & D4 & D5 & D6).
  assert (F : w_frames w' = w_frames w) by (rewrite (r_frames _ _ _ _ _ _ R), (r_frames _ _ _ _ _ _ R'); reflexivity).
  pose proof (ro_env _ _ _ _ _ _ _ _ _ R' R) as Ro.
  unfold e_contains in E2. rewrite (bind_ok _ _ s d s) in E2 by (unfold e_ctx; rewrite D1; reflexivity).
  rewrite (bind_ok (fun s => (Ok (go_contains sha3 (es_ns s) (e_here s) prefix value (cx_costs d) (cx_limit d - cx_used d)), s)) _ s
             (go_contains sha3 (es_ns s) (e_here s) prefix value (cx_costs d) (cx_limit d - cx_used d)) s) in E2 by reflexivity.
  rewrite (r_ns _ _ _ _ _ _ R), <- (here_eq _ _ _ _ _ _ R), D2, <- D4 in E2.
  destruct (go_contains _ _ _ _ _ _ _) as [[yn cnt] size]. intros base p.
  exists r, w'. split; [exact E1|]. split; [exists v, pend', c', s'; auto|].
  assert (Hs : es_ns s' = es_ns s /\ ((base <=? steps_left w) && (base + p <=? steps_left w) = true /\ r = Ok yn /\ left_of s' = steps_left w - base - p \/
     (base <=? steps_left w) && (base + p <=? steps_left w) = false /\ (exists e, r = Exc e /\ out_of_step e) /\ left_of s' = 0)).
  { assert (St : forall s1 d1, es_ctxs s1 = d1 :: v_cs v -> es_ns s1 = es_ns s -> cx_costs d1 = cost_table w -> cx_used d1 <= cx_limit d1 ->
       cx_limit d1 - cx_used d1 = steps_left w - base -> (e_pay GET size ;;; mret yn) s1 = (r, s') ->
       es_ns s' = es_ns s /\ (base + p <=? steps_left w = true /\ r = Ok yn /\ left_of s' = steps_left w - base - p \/
     base + p <=? steps_left w = false /\ (exists e, r = Exc e /\ out_of_step e) /\ left_of s' = 0)).
    { intros s1 d1 F1 F2 F3 F4 F5 F6. unfold mbind in F6. rewrite (e_pay_eq _ _ _ _ _ F1 F4), F3, F5 in F6. fold p in F6.
      destruct (p <=? steps_left w - base) eqn:X; injection F6 as <- <-; (split; [exact F2|]); [left|right].
      - split; [lia|]. split; [reflexivity|]. cbn. lia.
      - split; [lia|]. split; [eexists; split; [reflexivity|red; eauto]|]. cbn. lia. }
    destruct (1 <? cnt) eqn:C1.
    - fold base in E2. unfold mbind at 1 in E2. rewrite (e_charge_eq _ _ _ _ _ D1) in E2.
      destruct (cx_limit d <? cx_used d + base) eqn:X.
      + injection E2 as <- <-. split; [reflexivity|]. right. split; [destruct (base <=? steps_left w) eqn:Y; [lia|reflexivity]|].
        split; [eexists; split; [reflexivity|red; eauto]|]. cbn. lia.
      + destruct (base <=? steps_left w) eqn:Y; [|lia]. cbn [andb]. revert E2.
        apply St with (d1 := with_used d (cx_used d + base)); auto; cbn; lia.
    - rewrite (bind_ok _ _ s tt s eq_refl) in E2. unfold base in *. destruct (0 <=? steps_left w) eqn:Y; [|lia]. cbn [andb].
      apply St with (s1 := s) (d1 := d); auto. lia. }
  destruct Hs as (Hn & Hs).
  split; [split; [|auto]; rewrite <- (r_ns _ _ _ _ _ _ R), <- (r_ns _ _ _ _ _ _ R'); exact Hn|].
  rewrite (left_of_eq _ _ _ _ _ R'). destruct Hs as [(-> & Hr & Hl)|(-> & Hr & Hl)]; auto.
Qed.

Lemma cell_wrote key v w w' k : wrote key v w w' -> cell w' k = if bytes_eqb k key then (match v with [] => None | _ => Some v end) else cell w k.
Proof.
  intros (H1 & H2 & _). unfold cell, here, top_req in *. rewrite H1, H2. unfold ns_get, ns_set. cbn.
  rewrite bytes_eqb_refl. destruct (bytes_eqb k key); [destruct v|]; reflexivity.
Qed.
Lemma cell_same w w' k : same_but_steps w w' -> cell w' k = cell w k.
Proof. intros (H1 & H2 & _). unfold cell, here, top_req. rewrite H1, H2. reflexivity. Qed.
Lemma here_frames w w' : w_frames w' = w_frames w -> here w' = here w /\ cost_table w' = cost_table w.
Proof. unfold here, cost_table, top_req. intros ->. auto. Qed.
Lemma same_refl w : same_but_steps w w.
Proof. repeat split. Qed.
Lemma same_trans a b c : same_but_steps a b -> same_but_steps b c -> same_but_steps a c.
Proof. intros (H1 & H2 & H3) (G1 & G2 & G3). repeat split; congruence. Qed.
Lemma same_wrote a b c k v : same_but_steps a b -> wrote k v b c -> wrote k v a c.
Proof. intros (H1 & H2 & H3) (G1 & G2 & G3). destruct (here_frames _ _ H2) as [Hh _]. rewrite H1, Hh in G1. repeat split; congruence. Qed.
Lemma wrote_same a b c k v : wrote k v a b -> same_but_steps b c -> wrote k v a c.
Proof. intros (H1 & H2 & H3) (G1 & G2 & G3). repeat split; congruence. Qed.
End WithHash.
