From Verif Require Import Model.Bytes Model.DbKey Model.Utf8 Model.Exn Model.Monad Model.Address Model.Typed Model.EE
  Spec.EagerEE Spec.EETrace Spec.Nesting Proof.Utf8Facts Proof.EESim Proof.EagerFacts.

(** Kept by every operation: limits, costs, stacks; no result is reported. *)
Definition kept (s s' : estate) (c c' : ctx) (cs : list ctx) : Prop :=
  es_ctxs s' = c' :: cs /\ es_frames s' = es_frames s /\ statuses (es_acts s') = statuses (es_acts s) /\
  cx_used c' <= cx_limit c' /\ cx_limit c' = cx_limit c /\ cx_costs c' = cx_costs c.
Definition keepE {A} (m : E A) : Prop :=
  forall s c cs, es_ctxs s = c :: cs -> cx_used c <= cx_limit c -> refunding (cx_costs c) ->
  exists r s' c', m s = (r, s') /\ r <> Stuck /\ kept s s' c c' cs.

Lemma kept_refl s c cs : es_ctxs s = c :: cs -> cx_used c <= cx_limit c -> kept s s c c cs.
Proof. intros. repeat split; auto. Qed.
Lemma kept_trans s1 s2 s3 c1 c2 c3 cs : kept s1 s2 c1 c2 cs -> kept s2 s3 c2 c3 cs -> kept s1 s3 c1 c3 cs.
Proof. intros (A1&A2&A3&A4&A5&A6) (B1&B2&B3&B4&B5&B6). repeat split; congruence. Qed.
Lemma keep_ret {A} (a : A) : keepE (mret a).
Proof. intros s c cs H1 H2 H3. exists (Ok a), s, c. split; [reflexivity|]. split; [discriminate|]. apply kept_refl; auto. Qed.
Lemma keep_raise {A} e : keepE (@mraise _ A e).
Proof. intros s c cs H1 H2 H3. exists (Exc e), s, c. split; [reflexivity|]. split; [discriminate|]. apply kept_refl; auto. Qed.
Lemma keep_pure {A} (f : estate -> A) : keepE (fun s => (Ok (f s), s)).
Proof. intros s c cs H1 H2 H3. exists (Ok (f s)), s, c. split; [reflexivity|]. split; [discriminate|]. apply kept_refl; auto. Qed.
Lemma keep_bind {A B} (m : E A) (f : A -> E B) : keepE m -> (forall a, keepE (f a)) -> keepE (mbind m f).
Proof.
  intros Hm Hf s c cs H1 H2 H3. destruct (Hm s c cs H1 H2 H3) as (r & s1 & c1 & E & N & K).
  unfold mbind. rewrite E. destruct r as [a|e|]; [|exists (Exc e), s1, c1; split; [reflexivity|split; [discriminate|exact K]]|congruence].
  pose proof K as (K1&K2&K3&K4&K5&K6). rewrite <- K6 in H3.
  destruct (Hf a s1 c1 cs K1 K4 H3) as (r2 & s2 & c2 & E2 & N2 & L). exists r2, s2, c2. split; [exact E2|]. split; [exact N2|].
  eapply kept_trans; eauto.
Qed.
Lemma keep_ctx {B} (f : ctx -> E B) : (forall c, cx_used c <= cx_limit c -> refunding (cx_costs c) -> 
  forall s cs, es_ctxs s = c :: cs -> exists r s' c', f c s = (r, s') /\ r <> Stuck /\ kept s s' c c' cs) -> keepE (mbind e_ctx f).
Proof.
  intros H s c cs H1 H2 H3. rewrite (bind_ok _ _ s c s) by (unfold e_ctx; rewrite H1; reflexivity). apply H; auto.
Qed.
Lemma keep_upd g : (forall c, cx_used c <= cx_limit c -> refunding (cx_costs c) ->
  cx_used (g c) <= cx_limit c /\ cx_limit (g c) = cx_limit c /\ cx_costs (g c) = cx_costs c) -> keepE (e_upd g).
Proof.
  intros H s c cs H1 H2 H3. destruct (H c H2 H3) as (A & B & C). unfold e_upd. rewrite H1. eexists (Ok tt), _, (g c).
  split; [reflexivity|]. split; [discriminate|]. repeat split; auto. rewrite B. exact A.
Qed.
Lemma keep_act a : statuses [a] = [] -> keepE (e_act a).
Proof.
  intros H s c cs H1 H2 H3. eexists (Ok tt), _, c. split; [reflexivity|]. split; [discriminate|]. repeat split; auto.
  cbn [es_acts]. change (a :: es_acts s) with ([a] ++ es_acts s). unfold statuses in *. rewrite flat_map_app, H. reflexivity.
Qed.
Lemma keep_write k v : keepE (e_write k v).
Proof. intros s c cs H1 H2 H3. eexists (Ok tt), _, c. split; [reflexivity|]. split; [discriminate|]. repeat split; auto. Qed.
Lemma keep_charge ty n : keepE (e_charge ty n).
Proof.
  apply keep_ctx. intros c H2 H3 s cs H1. destruct (Z.ltb_spec (cx_limit c) (cx_used c + n)) as [L|L].
  - unfold mbind, e_upd. rewrite H1. eexists _, _, (with_used c (cx_limit c)). split; [reflexivity|]. split; [discriminate|].
    repeat split; auto. cbn. lia.
  - unfold e_upd. rewrite H1. eexists _, _, (with_used c (cx_used c + n)). split; [reflexivity|]. split; [discriminate|].
    repeat split; auto.
Qed.
Lemma keep_pay ty n : keepE (e_pay ty n).
Proof.
  apply keep_ctx. intros c H2 H3 s cs H1. destruct (_ =? 0); [apply keep_ret; auto|apply keep_charge; auto].
Qed.
Lemma keep_get k : keepE (e_get k).
Proof. apply keep_bind; [apply keep_pure|]. intros v. apply keep_bind; [apply keep_pay|intros; apply keep_ret]. Qed.
Lemma keep_delete k : keepE (e_delete k).
Proof.
  apply keep_ctx. intros c H2 H3 s cs H1. destruct (read_only c); [apply keep_raise; auto|].
  refine (keep_bind _ _ _ _ s c cs H1 H2 H3); [apply keep_pure|]. intros o. apply keep_bind; [apply keep_write|]. intros _. destruct o; [apply keep_pay|apply keep_ret].
Qed.
Lemma bind_bind {A B C} (m : E A) (f : A -> E B) (g : B -> E C) s a s' : m s = (Ok a, s') ->
  mbind (mbind m f) g s = mbind (f a) g s'.
Proof. intros E. unfold mbind. rewrite E. reflexivity. Qed.
Lemma keep_put k v : keepE (e_put k v).
Proof.
  unfold e_put. destruct v as [|x v]; [apply keep_delete|].
  apply keep_ctx. intros c H2 H3 s cs H1. destruct (read_only c); [apply keep_raise; auto|].
  set (ns := es_ns s). remember (ns_get ns (e_here s) k) as old eqn:Eo.
  rewrite (bind_ok (e_read k) _ s old s) by (subst; reflexivity).
  destruct (cx_costs c SCHEMA =? 0).
  { refine (keep_bind _ _ _ _ s c cs H1 H2 H3); [apply keep_pay|intros; apply keep_write]. }
  assert (R : exists s' c', (match old with Some o => e_refund (refund_amount (cx_costs c) (blen o)) | None => mret tt end) s = (Ok tt, s') /\ kept s s' c c' cs).
  { destruct old as [o|].
    - symmetry in Eo. pose proof (ns_get_pos (fun b => b) _ _ _ _ Eo) as Hp. destruct (H3 _ Hp) as [_ Hr].
      unfold e_refund, e_upd. rewrite H1. eexists _, (with_used c _). split; [reflexivity|]. repeat split; auto. cbn [with_used cx_used cx_limit]. lia.
    - exists s, c. split; [reflexivity|]. apply kept_refl; auto. }
  destruct R as (s' & c' & E & K). pose proof K as (K1&K2&K3&K4&K5&K6).
  assert (H3' : refunding (cx_costs c')) by (rewrite K6; exact H3).
  destruct (keep_bind (e_pay SET (blen (x :: v))) (fun _ => e_write k (x :: v)) (keep_pay _ _) (fun _ => keep_write _ _) s' c' cs K1 K4 H3')
    as (r & s2 & c2 & E2 & N2 & L).
  exists r, s2, c2. split; [|split; [exact N2|eapply kept_trans; eauto]].
  rewrite (bind_bind _ _ _ _ _ _ E). exact E2.
Qed.
Lemma keep_event n i d : keepE (e_event n i d).
Proof.
  apply keep_ctx. intros c H2 H3 s cs H1. destruct (read_only c); [apply keep_raise; auto|].
  refine (keep_bind _ _ _ _ s c cs H1 H2 H3); [apply keep_pay|intros; apply keep_act; reflexivity].
Qed.
Lemma keep_fee n : keepE (e_fee n).
Proof.
  apply keep_ctx. intros c H2 H3 s cs H1. destruct (cx_query c); [apply keep_raise; auto|].
  destruct (_ || _); [apply keep_raise; auto|]. apply keep_upd; auto.
Qed.
Section S.
Context (sha3 : bytes -> bytes).
Lemma keep_contains p v : keepE (e_contains sha3 p v).
Proof.
  apply keep_ctx. intros c H2 H3 s cs H1.
  refine (keep_bind _ _ _ _ s c cs H1 H2 H3); [apply keep_pure|]. intros [[yn cnt] size].
  apply keep_bind; [destruct (_ <? _); [apply keep_charge|apply keep_ret]|]. intros _.
  apply keep_bind; [apply keep_pay|intros; apply keep_ret].
Qed.

Lemma doing_ok ops p : forall s c cs, es_ctxs s = c :: cs -> cx_used c <= cx_limit c -> refunding (cx_costs c) ->
  exists s' c', erun sha3 (doing ops p) s = erun sha3 p s' /\ kept s s' c c' cs.
Proof.
  assert (S1 : forall A (m : E A) ops', keepE m -> (forall s c cs, es_ctxs s = c :: cs -> cx_used c <= cx_limit c -> refunding (cx_costs c) ->
      exists s' c', erun sha3 (doing ops' p) s = erun sha3 p s' /\ kept s s' c c' cs) ->
    forall s c cs, es_ctxs s = c :: cs -> cx_used c <= cx_limit c -> refunding (cx_costs c) ->
    exists s' c', step_to m (fun _ => erun sha3 (doing ops' p)) s = erun sha3 p s' /\ kept s s' c c' cs).
  { intros A m ops' Hm IH s c cs H1 H2 H3. destruct (Hm s c cs H1 H2 H3) as (r & s1 & c1 & E & N & K).
    pose proof K as (K1&K2&K3&K4&K5&K6). assert (H3' : refunding (cx_costs c1)) by (rewrite K6; exact H3).
    destruct (IH s1 c1 cs K1 K4 H3') as (s2 & c2 & E2 & K'). exists s2, c2.
    split; [|eapply kept_trans; eauto]. unfold step_to. rewrite E. destruct r; [exact E2|exact E2|congruence]. }
  induction ops as [|o ops IH]; intros s c cs H1 H2 H3.
  - exists s, c. split; [reflexivity|apply kept_refl; auto].
  - destruct o; cbn [doing erun].
    + eapply S1; eauto. apply keep_get.
    + eapply S1; eauto. apply keep_put.
    + eapply S1; eauto. apply keep_delete.
    + eapply S1; eauto. apply keep_contains.
    + eapply S1; eauto. apply keep_event.
    + eapply (S1 _ (e_balance addr)); eauto. apply keep_pure.
    + eapply S1; eauto. apply keep_charge.
    + eapply S1; eauto. apply keep_fee.
Qed.

Lemma sent_message m : valid_str m -> exists bs, encode_any (VStr m) = Ok (TBin T_STRING bs) /\ decode_any (TBin T_STRING bs) = Ok (VStr m).
Proof.
  intros V. apply encode_valid in V. destruct V as (bs & E). exists bs.
  split; [cbn [encode_any]; rewrite E; reflexivity|]. cbn. rewrite (decode_encode _ _ E). reflexivity.
Qed.

(** A body that fails with status [st] after [n] failed results. *)
Definition fails (k : costs) (st : Z) (n : nat) (body : E fin) : Prop :=
  forall s c cs, cx_costs c = k -> es_ctxs s = c :: cs -> cx_used c <= cx_limit c ->
  exists e m s' c', body s = (Ok (FRaise e m), s') /\ status_of e = st /\ valid_str m /\ es_ctxs s' = c' :: cs /\
    es_frames s' = es_frames s /\ cx_used c' <= cx_limit c' /\ cx_limit c' = cx_limit c /\ cx_costs c' = cx_costs c /\
    statuses (es_acts s') = repeat st n ++ statuses (es_acts s).

(** A frame that ends by raising reports the status of the exception. *)
Lemma frame_raises rq ops body st n s : 0 <= rq_limit rq -> refunding (rq_costs rq) -> fails (rq_costs rq) st n body ->
  exists used t mm s', e_invoke rq (erun sha3 (doing ops (PRet VNone))) body s = (Ok (st, used, t), s') /\
    decode_any t = Ok (VStr mm) /\ used <= rq_limit rq /\ es_ctxs s' = es_ctxs s /\ es_frames s' = es_frames s /\
    statuses (es_acts s') = repeat st (S n) ++ statuses (es_acts s) /\ (st <> 0 -> es_ns s' = es_ns s).
Proof.
  intros HL HR HB. unfold e_invoke.
  set (s1 := mk_estate (es_ns s) (mk_frame rq (es_ns s) :: es_frames s) (new_ctx rq :: es_ctxs s) (AInvoke rq :: es_acts s)).
  rewrite (bind_ok _ _ s tt s1) by reflexivity.
  destruct (doing_ok ops (PRet VNone) s1 (new_ctx rq) (es_ctxs s) eq_refl HL HR) as (s2 & c2 & E2 & K).
  rewrite (bind_ok _ _ s1 (FRet VNone) s2) by (rewrite E2; reflexivity).
  destruct K as (K1&K2&K3&K4&K5&K6). cbn [new_ctx cx_limit cx_costs] in K5, K6.
  set (s3 := mk_estate (es_ns s2) (es_frames s2) (with_func c2 (Some (rq_readonly rq)) :: es_ctxs s) (es_acts s2)).
  destruct (HB s3 (with_func c2 (Some (rq_readonly rq))) (es_ctxs s) K6 eq_refl K4)
    as (e & m & s4 & c4 & E4 & St & V & C4 & F4 & U4 & L4 & G4 & A4).
  rewrite (bind_ok _ _ s2 (FRaise e m) s4).
  2: { rewrite (bind_ok _ _ s2 tt s3) by (unfold e_upd; rewrite K1; reflexivity). exact E4. }
  rewrite (bind_ok _ _ s4 c4 s4) by (unfold e_ctx; rewrite C4; reflexivity).
  assert (HF : exists s5, (if 0 <? cx_fee c4 then e_act (AFee (cx_fee c4)) else mret tt) s4 = (Ok tt, s5) /\
     es_ctxs s5 = es_ctxs s4 /\ es_frames s5 = es_frames s4 /\ statuses (es_acts s5) = statuses (es_acts s4)).
  { destruct (0 <? cx_fee c4); [eexists; split; [reflexivity|repeat split; reflexivity]|exists s4; auto]. }
  destruct HF as (s5 & E5 & C5 & F5 & A5). rewrite (bind_ok _ _ _ _ _ E5).
  set (s6 := mk_estate (es_ns s5) (es_frames s5) (tl (es_ctxs s5)) (es_acts s5)).
  rewrite (bind_ok _ _ s5 tt s6) by reflexivity.
  destruct (sent_message m V) as (bs & E6 & D6). rewrite E6. unfold e_result. cbn [es_frames s6].
  rewrite F5, F4. cbn [es_frames s3]. rewrite K2. cbn [es_frames s1].
  eexists _, _, m, _. split; [rewrite St; reflexivity|]. split; [exact D6|]. split; [cbn [with_func cx_limit] in L4; lia|].
  cbn [es_ctxs es_frames es_acts]. split; [cbn [s6 es_ctxs]; rewrite C5, C4; reflexivity|]. split; [reflexivity|].
  split; [|intros NZ; cbn [es_ns fr_snap]; destruct (Z.eqb_spec st OK); [contradiction|reflexivity]].
  cbn [repeat app]. unfold statuses at 1. cbn [flat_map app]. f_equal.
  change (flat_map _ (es_acts s6)) with (statuses (es_acts s5)). rewrite A5, A4. cbn [es_acts s3]. rewrite K3. reflexivity.
Qed.

Lemma node_invoke rq I B s out s' v : e_invoke rq (erun sha3 I) (erun sha3 B) s = (Ok (out, v), s') ->
  erun_node sha3 (NInvoke rq I B give_back) s = (Ok (out, v), s').
Proof.
  intros H. change (erun_node sha3 (NInvoke rq I B give_back) s) with
    (match e_invoke rq (erun sha3 I) (erun sha3 B) s with
     | (Ok out, s') => erun_node sha3 (give_back out (es_ns s')) s'
     | (Exc e, s') => (Exc e, s')
     | (Stuck, s') => (Stuck, s')
     end). rewrite H. destruct out. reflexivity.
Qed.

Lemma chain_fails k ls last e m : refunding k -> status_of e <> 0 -> valid_str m -> Forall sendable ls ->
  fails k (status_of e) (length ls) (erun sha3 (chain k ls last e m)).
Proof.
  intros HR HN HV. induction ls as [|l ls IH]; intros HS s c cs HC H1 H2.
  - cbn [chain]. destruct (doing_ok last (PRaise e m) s c cs H1 H2 ltac:(rewrite HC; exact HR)) as (s1 & c1 & E1 & K1&K2&K3&K4&K5&K6).
    exists e, m, s1, c1. rewrite E1. repeat split; auto.
  - cbn [chain]. apply Forall_cons_iff in HS. destruct HS as [[Sm (t & St)] HS']. rewrite <- HC in HR.
    match goal with |- context [doing (lv_before l) ?p] => destruct (doing_ok (lv_before l) p s c cs H1 H2 HR) as (s1 & c1 & E1 & K1&K2&K3&K4&K5&K6) end.
    rewrite E1. clear E1. rewrite HC in *.
    set (rq := mk_request (ca_to (lv_call l)) (lv_query l) (lv_readonly l) (cx_limit c1 - cx_used c1) k).
    set (s2 := mk_estate (es_ns s1) (es_frames s1) (es_ctxs s1) (ACall (ca_to (lv_call l)) (ca_amount (lv_call l)) (cx_limit c1 - cx_used c1) t :: es_acts s1)).
    destruct (frame_raises rq (lv_init l) (erun sha3 (chain k ls last e m)) (status_of e) (length ls) s2
                ltac:(cbn; lia) HR (IH HS')) as (used & tr & mm & s3 & E3 & D3 & U3 & C3 & F3 & A3 & N3).
    cbn [erun]. unfold step_to. unfold e_call at 1.
    rewrite (bind_ok _ _ s1 c1 s1) by (unfold e_ctx; rewrite K1; reflexivity).
    rewrite (bind_ok (mlift _) _ s1 t s1) by (unfold mlift; rewrite St; reflexivity).
    rewrite (bind_ok (e_act _) _ s1 tt s2) by reflexivity.
    rewrite (bind_ok _ _ s2 (status_of e, used, tr) s3).
    2: { exact (node_invoke _ _ _ _ _ _ _ E3). }
    rewrite (bind_ok (mlift _) _ s3 (VStr mm) s3) by (unfold mlift; rewrite D3; reflexivity).
    cbn [rq_limit rq] in U3. destruct (Z.ltb_spec (cx_limit c1 - cx_used c1) used) as [X|_]; [lia|].
    set (s4 := mk_estate (es_ns s3) (es_frames s3) (with_used c1 (cx_used c1 + used) :: cs) (es_acts s3)).
    rewrite (bind_ok (e_refund _) _ s3 tt s4) by (unfold e_refund, e_upd; rewrite C3; cbn [s2 es_ctxs]; rewrite K1; reflexivity).
    destruct (Z.eqb_spec (status_of e) OK) as [X|_]; [contradiction|]. cbn [mraise erun mret].
    exists (EIcon (create_exception (status_of e))), (lv_message l), s4, (with_used c1 (cx_used c1 + used)).
    split; [reflexivity|]. split; [apply create_code|]. split; [exact Sm|]. split; [reflexivity|].
    split; [cbn [s4 es_frames]; rewrite F3; exact K2|]. split; [cbn [with_used cx_used cx_limit]; lia|].
    split; [exact K5|]. split; [cbn [with_used cx_costs]; congruence|].
    cbn [s4 es_acts]. rewrite A3. cbn [s2 es_acts length]. unfold statuses at 1. cbn [flat_map app].
    change (flat_map _ (es_acts s1)) with (statuses (es_acts s1)). rewrite K3. reflexivity.
Qed.
End S.

Lemma doing_reqs P ops p : prog_reqs P p -> prog_reqs P (doing ops p).
Proof. intros H. induction ops as [|[] ops IH]; cbn; auto. Qed.
Lemma chain_reqs k ls last e m : refunding k -> prog_reqs good_request (chain k ls last e m).
Proof.
  intros R. induction ls as [|l ls IH]; cbn [chain]; apply doing_reqs; [exact I|]. cbn [prog_reqs]. split.
  - intros lim ns HL. cbn [node_reqs]. split; [split; [exact HL|exact R]|]. split; [apply doing_reqs; exact I|]. split; [exact IH|].
    intros; exact I.
  - intros [e'|v]; exact I.
Qed.

Lemma chain_top sha3 ns rq init ls last e m : 0 <= rq_limit rq -> refunding (rq_costs rq) -> status_of e <> 0 -> valid_str m -> Forall sendable ls ->
  exists used t w,
    run_node sha3 (NInvoke rq (doing init (PRet VNone)) (chain (rq_costs rq) ls last e m) give_back) (init_world ns) = (Ok (status_of e, used, t), w) /\
    statuses (observed w) = repeat (status_of e) (S (length ls)) /\ w_ns w = ns.
Proof.
  intros HL HR HN HV HS.
  assert (G : node_reqs good_request (NInvoke rq (doing init (PRet VNone)) (chain (rq_costs rq) ls last e m) give_back)).
  { cbn [node_reqs]. split; [split; auto|]. split; [apply doing_reqs; exact I|]. split; [apply chain_reqs; exact HR|intros; exact I]. }
  destruct (run_init sha3 ns _ G) as (out & w & s & E1 & E2 & Z).
  destruct (frame_raises sha3 rq init (erun sha3 (chain (rq_costs rq) ls last e m)) (status_of e) (length ls) (init_estate ns) HL HR
              (chain_fails sha3 (rq_costs rq) ls last e m HR HN HV HS)) as (used & t & mm & s' & E3 & D3 & U3 & C3 & F3 & A3 & N3).
  pose proof (node_invoke sha3 _ _ _ _ _ _ _ E3) as E4. rewrite E2 in E4. injection E4 as -> ->.
  exists used, t, w. split; [exact E1|]. split.
  - change (observed w) with (flat_map observe (w_trace w)). replace (flat_map observe (w_trace w)) with (es_acts s').
    + rewrite A3. cbn [init_estate es_acts statuses flat_map]. rewrite app_nil_r. reflexivity.
    + pose proof (z_obs _ _ _ Z) as O. exact O.
  - rewrite <- (z_ns _ _ _ Z).
    apply N3. exact HN.
Qed.
