(** The reference executor keeps its stacks and answers every invocation, for every cost table. *)
From Verif Require Import Model.Bytes Model.DbKey Model.Utf8 Model.Exn Model.Monad Model.Address Model.Typed Model.EE
  Spec.EagerEE Spec.EETrace Proof.EESim.

Lemma answered_app a b : answered a -> answered b -> answered (a ++ b).
Proof.
  intros A B. revert b B. induction A as [|x l P A IH|rq i st u t l A1 IH1 A2 IH2]; intros b B; cbn; [exact B|constructor; auto|].
  rewrite <- app_assoc. cbn. constructor; [exact A1|apply IH2; exact B].
Qed.

(** [s'] is [s] after some properly answered actions. *)
Definition later (s s' : estate) : Prop := exists l, es_acts s' = rev l ++ es_acts s /\ answered l.
Lemma later_refl s s' : es_acts s' = es_acts s -> later s s'.
Proof. intros E. exists []. split; [exact E|constructor]. Qed.
Lemma later_trans a b c : later a b -> later b c -> later a c.
Proof.
  intros (l & E & A) (m & F & B). exists (l ++ m). split; [rewrite F, E, rev_app_distr, app_assoc; reflexivity|apply answered_app; auto].
Qed.
Lemma later_plain s s' a : es_acts s' = a :: es_acts s -> plain a -> later s s'.
Proof. intros E P. exists [a]. split; [exact E|constructor; [exact P|constructor]]. Qed.

Definition okE {A} (m : E A) : Prop :=
  forall s c cs fr frs, es_ctxs s = c :: cs -> es_frames s = fr :: frs ->
  exists r s' c', m s = (r, s') /\ r <> Stuck /\ es_ctxs s' = c' :: cs /\ es_frames s' = fr :: frs /\ later s s'.

Lemma okE_ret {A} (a : A) : okE (mret a).
Proof. intros s c cs fr frs H1 H2. exists (Ok a), s, c. repeat (split; [try reflexivity; try discriminate; auto|]). apply later_refl; auto. Qed.
Lemma okE_raise {A} e : okE (@mraise _ A e).
Proof. intros s c cs fr frs H1 H2. exists (Exc e), s, c. repeat (split; [try reflexivity; try discriminate; auto|]). apply later_refl; auto. Qed.
Lemma okE_lift {A} (r : pyres A) : r <> Stuck -> okE (mlift r).
Proof. intros N s c cs fr frs H1 H2. exists r, s, c. repeat (split; [try reflexivity; auto|]). apply later_refl; auto. Qed.
Lemma okE_bind {A B} (m : E A) (f : A -> E B) : okE m -> (forall a, okE (f a)) -> okE (mbind m f).
Proof.
  intros Hm Hf s c cs fr frs H1 H2. destruct (Hm s c cs fr frs H1 H2) as (r & s1 & c1 & E & N & C & F & L).
  unfold mbind. rewrite E. destruct r as [a|e|]; [|exists (Exc e), s1, c1; split; [reflexivity|split; [discriminate|auto]]|congruence].
  destruct (Hf a s1 c1 cs fr frs C F) as (r2 & s2 & c2 & E2 & N2 & C2 & F2 & L2).
  exists r2, s2, c2. split; [exact E2|]. split; [exact N2|]. split; [exact C2|]. split; [exact F2|]. eapply later_trans; eauto.
Qed.
Lemma okE_step {A B} (m : E A) (f : outcome A -> E B) : okE m -> (forall a, okE (f a)) -> okE (step_to m f).
Proof.
  intros Hm Hf s c cs fr frs H1 H2. destruct (Hm s c cs fr frs H1 H2) as (r & s1 & c1 & E & N & C & F & L).
  unfold step_to. rewrite E. destruct r as [a|e|]; [| |congruence].
  - destruct (Hf (inr a) s1 c1 cs fr frs C F) as (r2 & s2 & c2 & E2 & N2 & C2 & F2 & L2).
    exists r2, s2, c2. split; [exact E2|]. split; [exact N2|]. split; [exact C2|]. split; [exact F2|]. eapply later_trans; eauto.
  - destruct (Hf (inl e) s1 c1 cs fr frs C F) as (r2 & s2 & c2 & E2 & N2 & C2 & F2 & L2).
    exists r2, s2, c2. split; [exact E2|]. split; [exact N2|]. split; [exact C2|]. split; [exact F2|]. eapply later_trans; eauto.
Qed.
Lemma okE_ctx : okE e_ctx.
Proof.
  intros s c cs fr frs H1 H2. unfold e_ctx. rewrite H1. exists (Ok c), s, c.
  split; [reflexivity|]. split; [discriminate|]. split; [auto|]. split; [auto|]. apply later_refl; auto.
Qed.
Lemma okE_upd f : okE (e_upd f).
Proof.
  intros s c cs fr frs H1 H2. unfold e_upd. rewrite H1. eexists (Ok tt), _, (f c).
  split; [reflexivity|]. split; [discriminate|]. split; [reflexivity|]. split; [exact H2|]. apply later_refl; auto.
Qed.
Lemma okE_act a : plain a -> okE (e_act a).
Proof.
  intros P s c cs fr frs H1 H2. eexists (Ok tt), _, c. split; [reflexivity|]. split; [discriminate|]. split; [exact H1|].
  split; [exact H2|]. eapply later_plain; [reflexivity|exact P].
Qed.
Lemma okE_pure {A} (f : estate -> A) : okE (fun s => (Ok (f s), s)).
Proof.
  intros s c cs fr frs H1 H2. exists (Ok (f s)), s, c. split; [reflexivity|]. split; [discriminate|]. split; [exact H1|].
  split; [exact H2|]. apply later_refl; auto.
Qed.
Lemma okE_write key v : okE (e_write key v).
Proof.
  intros s c cs fr frs H1 H2. eexists (Ok tt), _, c. split; [reflexivity|]. split; [discriminate|]. split; [exact H1|].
  split; [exact H2|]. eapply later_plain; [reflexivity|exact I].
Qed.
#[local] Hint Resolve okE_ret okE_raise okE_ctx okE_upd okE_write okE_pure : okE.
Lemma okE_charge ty n : okE (e_charge ty n).
Proof. unfold e_charge. apply okE_bind; auto with okE. intros c. destruct (_ <? _); auto with okE. apply okE_bind; auto with okE. Qed.
#[local] Hint Resolve okE_charge : okE.
Lemma okE_pay ty n : okE (e_pay ty n).
Proof. unfold e_pay. apply okE_bind; auto with okE. intros c. destruct (_ =? _); auto with okE. Qed.
#[local] Hint Resolve okE_pay : okE.
Lemma okE_refund n : okE (e_refund n).
Proof. unfold e_refund. auto with okE. Qed.
Lemma okE_read k : okE (e_read k).
Proof. exact (okE_pure (fun s => ns_get (es_ns s) (e_here s) k)). Qed.
#[local] Hint Resolve okE_refund okE_read : okE.
Ltac okb := apply okE_bind; [auto with okE|intros].
Lemma okE_get k : okE (e_get k).
Proof. unfold e_get. okb. okb. auto with okE. Qed.
Lemma okE_delete k : okE (e_delete k).
Proof. unfold e_delete. okb. destruct (read_only a); auto with okE. okb. okb. destruct a0; auto with okE. Qed.
#[local] Hint Resolve okE_get okE_delete : okE.
Lemma okE_put k v : okE (e_put k v).
Proof.
  unfold e_put. destruct v; auto with okE. okb. destruct (read_only a); auto with okE. okb. apply okE_bind; auto with okE.
  destruct (_ =? _); auto with okE. apply okE_bind; [destruct a0; auto with okE|auto with okE].
Qed.
Lemma okE_event n i d : okE (e_event n i d).
Proof. unfold e_event. okb. destruct (read_only a); auto with okE. okb. apply okE_act. exact I. Qed.
Lemma okE_fee p : okE (e_fee p).
Proof. unfold e_fee. okb. destruct (cx_query a); auto with okE. destruct (_ || _); auto with okE. Qed.
#[local] Hint Resolve okE_put okE_event okE_fee : okE.

Section WithHash.
Context (sha3 : bytes -> bytes).
Lemma okE_contains p v : okE (e_contains sha3 p v).
Proof.
  unfold e_contains. okb. apply okE_bind.
  - exact (okE_pure (fun s => go_contains sha3 (es_ns s) (e_here s) p v (cx_costs a) (cx_limit a - cx_used a))).
  - intros [[yn cnt] size]. apply okE_bind; [destruct (_ <? _); auto with okE|intros]. okb. auto with okE.
Qed.

Definition okN (m : E (Z * Z * typed)) : Prop :=
  forall s, exists x s', m s = (Ok x, s') /\ es_ctxs s' = es_ctxs s /\ es_frames s' = es_frames s /\ later s s'.

Lemma okN_E m : okN m -> okE m.
Proof.
  intros H s c cs fr frs H1 H2. destruct (H s) as (x & s' & E & C & F & L). exists (Ok x), s', c.
  split; [exact E|]. split; [discriminate|]. split; [congruence|]. split; [congruence|exact L].
Qed.

Lemma encode_ns v : encode_any v <> Stuck.
Proof. destruct (encode_any_total v) as [(t & ->)|(k & ->)]; discriminate. Qed.

Lemma okE_call ca na : (forall l, okN (na l)) -> okE (e_call ca na).
Proof.
  intros H. unfold e_call. okb. cbv zeta. apply okE_bind; [apply okE_lift, encode_ns|intros data].
  apply okE_bind; [apply okE_act; exact I|intros _]. apply okE_bind; [apply okN_E, H|intros [[st used] t]].
  apply okE_bind; [apply okE_lift, decode_any_ns|intros v]. destruct (_ <? _); apply okE_bind; auto with okE.
  intros. destruct (_ =? _); auto with okE.
Qed.

Definition okP (m : E fin) : Prop :=
  forall s c cs fr frs, es_ctxs s = c :: cs -> es_frames s = fr :: frs ->
  exists f s' c', m s = (Ok f, s') /\ es_ctxs s' = c' :: cs /\ es_frames s' = fr :: frs /\ later s s'.
Lemma okP_step {A} (m : E A) f : okE m -> (forall o, okP (f o)) -> okP (step_to m f).
Proof.
  intros Hm Hf s c cs fr frs H1 H2. destruct (Hm s c cs fr frs H1 H2) as (r & s1 & c1 & E & N & C & F & L).
  unfold step_to. rewrite E.
  assert (G : forall o, exists g s' c', f o s1 = (Ok g, s') /\ es_ctxs s' = c' :: cs /\ es_frames s' = fr :: frs /\ later s s').
  { intros o. destruct (Hf o s1 c1 cs fr frs C F) as (g & s2 & c2 & E2 & C2 & F2 & L2). exists g, s2, c2.
    split; [exact E2|]. split; [exact C2|]. split; [exact F2|]. eapply later_trans; eauto. }
  destruct r as [a|e|]; [apply G|apply G|congruence].
Qed.

Lemma okN_invoke rq I B : okP I -> okP B -> okN (e_invoke rq I B).
Proof.
  intros HI HB s. unfold e_invoke.
  set (s1 := mk_estate (es_ns s) (mk_frame rq (es_ns s) :: es_frames s) (new_ctx rq :: es_ctxs s) (AInvoke rq :: es_acts s)).
  rewrite (bind_ok _ _ s tt s1) by reflexivity.
  set (rest := fun r : fin => c <- e_ctx ;; _).
  assert (Hr : forall r s2 c2, es_ctxs s2 = c2 :: es_ctxs s -> es_frames s2 = mk_frame rq (es_ns s) :: es_frames s -> later s1 s2 ->
    exists x s', rest r s2 = (Ok x, s') /\ es_ctxs s' = es_ctxs s /\ es_frames s' = es_frames s /\ later s s').
  { intros r s2 c2 C F L. unfold rest.
    rewrite (bind_ok _ _ s2 c2 s2) by (unfold e_ctx; rewrite C; reflexivity).
    assert (HF : exists s3, (if 0 <? cx_fee c2 then e_act (AFee (cx_fee c2)) else mret tt) s2 = (Ok tt, s3) /\
       es_ctxs s3 = es_ctxs s2 /\ es_frames s3 = es_frames s2 /\ later s1 s3).
    { destruct (0 <? cx_fee c2).
      - eexists. split; [reflexivity|]. split; [reflexivity|]. split; [reflexivity|].
        eapply later_trans; [exact L|]. eapply later_plain; [reflexivity|exact Logic.I].
      - exists s2. auto. }
    destruct HF as (s3 & E3 & C3 & F3 & L3). rewrite (bind_ok _ _ _ _ _ E3).
    set (s4 := mk_estate (es_ns s3) (es_frames s3) (tl (es_ctxs s3)) (es_acts s3)).
    rewrite (bind_ok _ _ s3 tt s4) by reflexivity.
    assert (HR : forall st us t, exists x s', e_result st us t s4 = (Ok x, s') /\ es_ctxs s' = es_ctxs s /\ es_frames s' = es_frames s /\ later s s').
    { intros st us t. unfold e_result, s4. cbn [es_frames]. rewrite F3, F. eexists. eexists. split; [reflexivity|].
      split; [cbn [es_ctxs]; rewrite C3, C; reflexivity|]. split; [reflexivity|].
      destruct L3 as (l & El & Al). exists (AInvoke rq :: l ++ [AResult st us t]). split.
      - cbn [es_acts]. rewrite El. cbn [rev]. rewrite rev_app_distr. cbn. rewrite <- app_assoc. reflexivity.
      - constructor; [exact Al|constructor]. }
    destruct r as [rv|e m]; [destruct (encode_any rv)|destruct (encode_any (VStr m))]; apply HR. }
  destruct (HI s1 (new_ctx rq) (es_ctxs s) (mk_frame rq (es_ns s)) (es_frames s) eq_refl eq_refl) as (r & s2 & c2 & E2 & C2 & F2 & L2).
  rewrite (bind_ok _ _ _ _ _ E2). destruct r as [rv|e m].
  - set (s3 := mk_estate (es_ns s2) (es_frames s2) (with_func c2 (Some (rq_readonly rq)) :: es_ctxs s) (es_acts s2)).
    destruct (HB s3 _ _ _ _ eq_refl F2) as (r & s4 & c4 & E4 & C4 & F4 & L4).
    rewrite (bind_ok _ _ s2 r s4).
    2: { rewrite (bind_ok _ _ s2 tt s3) by (unfold e_upd; rewrite C2; reflexivity). exact E4. }
    eapply Hr; eauto. eapply later_trans; [exact L2|]. destruct L4 as (l & El & Al). exists l. auto.
  - rewrite (bind_ok _ _ s2 (FRaise e m) s2) by reflexivity. eapply Hr; eauto.
Qed.

Lemma erun_ok : (forall p, okP (erun sha3 p)) /\ (forall n, okN (erun_node sha3 n)).
Proof.
  apply prog_node_mut; intros.
  - intros s c cs fr frs H1 H2. exists (FRet v), s, c. split; [reflexivity|]. split; [auto|]. split; [auto|]. apply later_refl; auto.
  - intros s c cs fr frs H1 H2. exists (FRaise e message), s, c. split; [reflexivity|]. split; [auto|]. split; [auto|]. apply later_refl; auto.
  - cbn [erun]. apply okP_step; auto with okE.
  - cbn [erun]. apply okP_step; auto with okE.
  - cbn [erun]. apply okP_step; auto with okE.
  - cbn [erun]. apply okP_step; auto. apply okE_contains.
  - cbn [erun]. apply okP_step; auto with okE.
  - cbn [erun]. apply okP_step; auto with okE. exact (okE_pure (fun s => ns_balance (es_ns s) addr)).
  - cbn [erun]. apply okP_step; auto with okE.
  - cbn [erun]. apply okP_step; auto with okE.
  - cbn [erun]. apply okP_step; auto. apply okE_call. intros l s. apply H.
  - intros s. exists (status, used, result), s. split; [reflexivity|]. split; [auto|]. split; [auto|]. apply later_refl; auto.
  - intros s.
    change (erun_node sha3 (NInvoke rq init body k) s) with
      (match e_invoke rq (erun sha3 init) (erun sha3 body) s with
       | (Ok out, s') => erun_node sha3 (k out (es_ns s')) s' | (Exc e, s') => (Exc e, s') | (Stuck, s') => (Stuck, s') end).
    destruct (okN_invoke rq _ _ H H0 s) as (x & s1 & E & C & F & L). rewrite E.
    destruct (H1 x (es_ns s1) s1) as (y & s2 & E2 & C2 & F2 & L2). exists y, s2.
    split; [exact E2|]. split; [congruence|]. split; [congruence|]. eapply later_trans; eauto.
  - intros s. cbn [erun_node]. destruct (H (mk_estate (f (es_ns s)) (es_frames s) (es_ctxs s) (es_acts s))) as (y & s2 & E2 & C2 & F2 & L2).
    exists y, s2. auto.
  - exact H.
Qed.
End WithHash.

(** ** From a fresh executor *)
Definition z_init : env0 := mk_env0 [] false [] [].
Lemma r0_init ns : R0 z_init (init_world ns) (init_estate ns).
Proof. constructor; cbn; auto; constructor. Qed.

Lemma run_init sha3 ns n : node_reqs good_request n ->
  exists out w s, run_node sha3 n (init_world ns) = (Ok out, w) /\ erun_node sha3 n (init_estate ns) = (Ok out, s) /\ R0 z_init w s.
Proof. intros G. exact (proj2 (run_sim_both sha3) n G z_init _ _ (r0_init ns)). Qed.

Lemma run_answered sha3 ns n : node_reqs good_request n ->
  forall r w, run_node sha3 n (init_world ns) = (r, w) -> answered (rev (observed w)).
Proof.
  intros G r w E. destruct (run_init sha3 ns n G) as (out & w1 & s1 & E1 & E2 & Z).
  assert (w1 = w) as -> by congruence.
  destruct (proj2 (erun_ok sha3) n (init_estate ns)) as (x & s2 & E3 & _ & _ & l & El & Al).
  assert (s2 = s1) as -> by congruence.
  rewrite <- (z_obs _ _ _ Z), El. cbn. rewrite app_nil_r, rev_involutive. exact Al.
Qed.

Lemma run_trace sha3 ns n : node_reqs good_request n ->
  forall r w, run_node sha3 n (init_world ns) = (r, w) -> Forall entry_ok (w_trace w) /\ Forall (fun p => fst p = snd p) (w_match w).
Proof.
  intros G r w E. destruct (run_init sha3 ns n G) as (out & w1 & s1 & E1 & E2 & Z).
  assert (w1 = w) as -> by congruence. split; [apply (z_trace _ _ _ Z)|apply (z_match _ _ _ Z)].
Qed.

Lemma nested_frame sha3 rq init body w : good_request rq -> prog_reqs good_request init -> prog_reqs good_request body ->
  w_handlers w = [] -> w_inbox w = [] -> limits_ok (w_ctxs w) ->
  Forall entry_ok (w_trace w) -> Forall (fun p => fst p = snd p) (w_match w) ->
  exists out w', handle_invoke sha3 rq (run sha3 init) (run sha3 body) (push_frame rq w) = (Ok out, w') /\
    w_ctxs w' = w_ctxs w /\ w_frames w' = w_frames w /\ w_ro w' = w_ro w /\ w_rostack w' = w_rostack w /\
    w_handlers w' = [] /\ w_inbox w' = [].
Proof.
  intros G Gi Gb Hh Hi Hl Ht Hm.
  set (z := mk_env0 (w_rostack w) (w_ro w) (w_ctxs w) (w_frames w)).
  set (s := mk_estate (w_ns w) (w_frames w) (w_ctxs w) (observed w)).
  assert (Z : R0 z w s) by (constructor; cbn; auto).
  destruct (invoke_ok sha3 z w s rq _ _ _ _ (proj1 (run_sim_both sha3) init Gi) (proj1 (run_sim_both sha3) body Gb) G Z) as (x & w1 & s1 & E1 & _ & Z1).
  exists x, w1. split; [exact E1|]. destruct Z1. cbn in *. auto 10.
Qed.

(** ** A call, from a state without outstanding writes *)
Lemma handle_none w : w_handlers w = [] -> handle_set_values w = (Ok false, w).
Proof. intros H. unfold handle_set_values, handle_all. rewrite H. reflexivity. Qed.

Lemma call_charges sha3 ca na w c cs data status used result v w' fr frs :
  w_handlers w = [] -> w_ctxs w = c :: cs -> w_frames w = fr :: frs ->
  encode_any (VDict [(DKStr str_method, VStr (ca_method ca)); (DKStr str_params, ca_params ca)]) = Ok data ->
  let limit := cx_limit c - cx_used c in
  na limit (log (MCall (ca_to ca) (ca_amount ca) limit data) w) = (Ok (status, used, result), w') ->
  w_ctxs w' = c :: cs -> decode_any result = Ok v ->
  message_call sha3 ca na w =
    if limit <? used then (Exc (EPy KAssertion), set_ctxs w' (with_used c (cx_limit c) :: cs))
    else (if status =? 0 then Ok v else Exc (EIcon (create_exception status)), set_ctxs w' (with_used c (cx_used c + used) :: cs)).
Proof.
  intros Hh Hc Hf Hd limit Hn Hc' Hv. unfold message_call, step_remained, proxy_call.
  rewrite (bind_ok _ _ w (S (length cs)) w) by (unfold depth; rewrite Hc; reflexivity).
  rewrite (bind_ok _ _ w limit w).
  2: { rewrite (bind_ok _ _ w false w) by (apply handle_none; auto). unfold mbind, get_ctx. rewrite Hc. reflexivity. }
  rewrite (bind_ok _ _ w (status, used, v) w').
  2: { rewrite Hd. rewrite (bind_ok _ _ w data w) by reflexivity.
       rewrite (bind_ok _ _ w tt (log (MCall (ca_to ca) (ca_amount ca) limit data) w))
         by (unfold send, node_recv; cbn [w_frames log set_trace]; rewrite Hf; reflexivity).
       rewrite (bind_ok _ _ _ _ _ Hn). rewrite Hv. reflexivity. }
  assert (A : forall x, add_step_at (S (length cs)) x w' = (Ok tt, set_ctxs w' (with_used c (cx_used c + x) :: cs))).
  { intros x. unfold add_step_at, upd_ctx_at. rewrite Hc'. cbn [length]. replace (S (length cs) - S (length cs))%nat with 0%nat by lia. reflexivity. }
  destruct (limit <? used).
  - rewrite (bind_ok _ _ _ _ _ (A limit)). unfold mraise. replace (cx_used c + limit) with (cx_limit c) by (unfold limit; lia). reflexivity.
  - rewrite (bind_ok _ _ _ _ _ (A used)). unfold OK. destruct (status =? 0); reflexivity.
Qed.

Lemma create_code st : class_code (create_exception st) = st.
Proof.
  unfold create_exception, mk_IconScoreException, SCORE_ERROR, END, OK.
  repeat match goal with |- context [if ?b then _ else _] => destruct b eqn:? end; cbn [class_code]; lia.
Qed.

Lemma charge_exact ty step w c cs : w_handlers w = [] -> w_ctxs w = c :: cs ->
  consume_step ty step w =
  if cx_limit c <? cx_used c + step
  then (Exc (EOutOfStep (cx_limit c) (cx_used c) step ty), set_ctxs w (with_used c (cx_limit c) :: cs))
  else (Ok (cx_used c + step), set_ctxs w (with_used c (cx_used c + step) :: cs)).
Proof.
  intros Hh Hc. unfold consume_step, consume_with. destruct (_ <? _) eqn:X.
  - rewrite (consume_big _ _ _ _ _ c cs false w Hc) by (try lia; apply handle_none; auto). rewrite Hc. reflexivity.
  - apply consume_small; [exact Hc|lia].
Qed.
