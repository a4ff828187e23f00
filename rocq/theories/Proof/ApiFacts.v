From Verif Require Import Model.Bytes Model.Utf8 Model.Exn Model.Monad Model.Address Model.Typed Model.EE Model.Api
  Spec.EagerEE Spec.Running Spec.ApiSpec Proof.EESim Proof.RunningFacts Proof.BytesFacts.
Local Ltac Zify.zify_post_hook ::= Z.div_mod_to_equations.
Section S.
Context (sha3 : bytes -> bytes).

Lemma consume_effect w ty n : running sha3 w ->
  exists r w', consume_step ty n w = (r, w') /\ running sha3 w' /\ same_but_steps w w' /\
    (if n <=? steps_left w then (exists x, r = Ok x) /\ steps_left w' = steps_left w - n
     else (exists e, r = Exc e /\ out_of_step e) /\ steps_left w' = 0).
Proof.
  intros Rn. destruct (running_live sha3 w Rn) as (v & pend & c & s & R & L).
  destruct (consume_ok v s pend c w ty n R) as [(x & w' & pend' & c' & E & Le & R' & Ln & T & Ns & _)|(w1 & Gt & R1 & T & E)].
  - exists (Ok x), w'. split; [exact E|]. split; [eapply run_step; eauto|].
    split; [split; [exact Ns|]; split; [rewrite (r_frames _ _ _ _ _ _ R), (r_frames _ _ _ _ _ _ R'); reflexivity|exact (ro_env _ _ _ _ _ _ _ _ _ R' R)]|].
    rewrite (left_of_eq _ _ _ _ _ R'), (left_eq _ _ _ _ _ R). destruct (_ <=? _) eqn:X; [|lia].
    split; [eauto|]. cbn. lia.
  - eexists _, _. split; [exact E|]. split; [eapply run_step; eauto|].
    pose proof (rp_set_used v (drained c pend) w1 s (cx_limit c) R1 ltac:(cbn; lia)) as R'.
    change (with_used (drained c pend) (cx_limit c)) with (with_used c (cx_limit c)) in R'.
    assert (Ns : w_ns w1 = w_ns w) by (rewrite <- (r_ns _ _ _ _ _ _ R), <- (r_ns _ _ _ _ _ _ R1); reflexivity).
    split; [split; [exact Ns|]; split; [cbn; rewrite (r_frames _ _ _ _ _ _ R), (r_frames _ _ _ _ _ _ R1); reflexivity|exact (ro_env _ _ _ _ _ _ _ _ _ R' R)]|].
    rewrite (left_eq _ _ _ _ _ R). destruct (_ <=? _) eqn:X; [lia|].
    split; [eexists; split; [reflexivity|]; do 4 eexists; reflexivity|].
    rewrite (left_of_eq _ _ _ _ _ R'). cbn. lia.
Qed.

Lemma ctx_costs w : running sha3 w -> exists c, get_ctx w = (Ok c, w) /\ cx_costs c = cost_table w.
Proof.
  intros Rn. destruct (running_live sha3 w Rn) as (v & pend & c & s & R & L). exists c.
  unfold get_ctx. rewrite (r_ctxs _ _ _ _ _ _ R). split; [reflexivity|]. symmetry. exact (costs_eq _ _ _ _ _ _ R).
Qed.

Lemma charge_then {A} w p (a : pyres A) : running sha3 w -> a <> Stuck ->
  costs_exactly sha3 (consume_step API_CALL p ;;; mlift a) p a w.
Proof.
  intros Rn Na. destruct (consume_effect w API_CALL p Rn) as (r & w' & E & R' & S' & H).
  destruct (p <=? steps_left w) eqn:X.
  - destruct H as [[x ->] H]. exists a, w'. rewrite (bind_ok _ _ _ _ _ E). split; [reflexivity|]. split; [exact R'|].
    split; [exact S'|]. left. split; [lia|]. auto.
  - destruct H as [(e & -> & O) H]. exists (Exc e), w'. rewrite (bind_exc _ _ _ _ _ E). split; [reflexivity|]. split; [exact R'|].
    split; [exact S'|]. right. split; [lia|]. eauto.
Qed.
Lemma ret_lift {A} (m : M Z) (a : A) : (m ;;; mret a) = (m ;;; mlift (Ok a)).
Proof. reflexivity. Qed.
Lemma ctx_then {A} w (f : ctx -> M A) p r : running sha3 w ->
  (forall c, cx_costs c = cost_table w -> costs_exactly sha3 (f c) p r w) -> costs_exactly sha3 (c <- get_ctx ;; f c) p r w.
Proof.
  intros Rn H. destruct (ctx_costs w Rn) as (c & E & C). destruct (H c C) as (o & w' & E' & K).
  exists o, w'. rewrite (bind_ok _ _ _ _ _ E). auto.
Qed.

Lemma hash_cost sha2 w name bs : running sha3 w ->
  costs_exactly sha3 (api_hash sha3 sha2 name (VBytes bs)) (hash_price (cost_table w API_CALL) (blen bs))
    (Ok (match name with SHA3_256 => sha3 bs | SHA_256 => sha2 bs end)) w.
Proof.
  intros Rn. apply ctx_then; [exact Rn|]. intros c C. rewrite C. rewrite ret_lift.
  replace (blen bs / 32 + (if 0 <? blen bs mod 32 then 1 else 0)) with (blocks (blen bs)).
  - apply charge_then; [exact Rn|discriminate].
  - unfold blocks. destruct (0 <? blen bs mod 32) eqn:X; lia.
Qed.
Lemma api_times c k t : cx_costs c API_CALL = k -> api_call_step_cost c (t * 1000) = k * t.
Proof. intros <-. unfold api_call_step_cost, R_SHA3_256. rewrite Z.mul_assoc. apply Z.div_mul. lia. Qed.
Lemma dumps_cost dumps revision w obj text u : running sha3 w -> Z.land revision REVISION_COMPACT_JSON <> 0 -> dumps true obj = Ok text ->
  utf8_encode text = Some u ->
  costs_exactly sha3 (json_dumps dumps revision obj) (json_price (cost_table w API_CALL) 5 (blen u)) (Ok text) w.
Proof.
  intros Rn Rv D U. apply ctx_then; [exact Rn|]. intros c C. unfold compact_json.
  destruct (_ =? 0) eqn:X; [lia|]. cbn [negb].
  destruct (charge_then w (json_price (cost_table w API_CALL) 5 (blen u)) (Ok text) Rn ltac:(discriminate)) as (o & w' & E & K).
  exists o, w'. split; [|exact K]. unfold mbind at 1, mlift at 1. rewrite D. unfold mbind at 1, mlift at 1, encoded_size. rewrite U. cbn [lift_opt res_bind].
  rewrite ret_lift. change R_JSON_DUMPS with (5 * 1000). rewrite (api_times c (cost_table w API_CALL)) by (rewrite C; reflexivity). exact E.
Qed.
Lemma loads_cost loads revision w s u : running sha3 w -> Z.land revision REVISION_COMPACT_JSON <> 0 -> utf8_encode s = Some u -> loads s <> Stuck ->
  costs_exactly sha3 (json_loads loads revision (VStr s)) (json_price (cost_table w API_CALL) 4 (blen u)) (loads s) w.
Proof.
  intros Rn Rv U Nl. apply ctx_then; [exact Rn|]. intros c C. unfold compact_json.
  destruct (_ =? 0) eqn:X; [lia|]. cbn [negb].
  destruct (charge_then w (json_price (cost_table w API_CALL) 4 (blen u)) (loads s) Rn Nl) as (o & w' & E & K).
  exists o, w'. split; [|exact K]. unfold mbind at 1, mlift at 1, encoded_size. rewrite U. cbn [lift_opt res_bind].
  change R_JSON_LOADS with (4 * 1000). rewrite (api_times c (cost_table w API_CALL)) by (rewrite C; reflexivity). exact E.
Qed.
Lemma create_cost decompress w key : running sha3 w -> blen key = 33 \/ blen key = 65 ->
  exists a, costs_exactly sha3 (create_address_with_key sha3 decompress (VBytes key))
    (if blen key =? 33 then cost_table w API_CALL * 15 else cost_table w API_CALL * 1500 / 1000) (Ok a) w.
Proof.
  intros Rn H. eexists. cbn [create_address_with_key]. replace (negb _) with false by (destruct H as [-> | ->]; reflexivity). cbv iota.
  apply ctx_then; [exact Rn|]. intros c C. rewrite ret_lift.
  replace (api_call_step_cost c (if blen key =? 33 then R_COMPRESSED_KEY else R_UNCOMPRESSED_KEY)) with
    (if blen key =? 33 then cost_table w API_CALL * 15 else cost_table w API_CALL * 1500 / 1000).
  - apply charge_then; [exact Rn|discriminate].
  - destruct (blen key =? 33); [|unfold api_call_step_cost; rewrite C; reflexivity].
    change R_COMPRESSED_KEY with (15 * 1000). rewrite (api_times c (cost_table w API_CALL)) by (rewrite C; reflexivity). reflexivity.
Qed.
Lemma recover_cost recover w h s cm : running sha3 w ->
  exists k, costs_exactly sha3 (recover_key recover h s cm) (cost_table w API_CALL * 70) (Ok k) w.
Proof.
  intros Rn. eexists. apply ctx_then; [exact Rn|]. intros c C. rewrite ret_lift.
  change R_RECOVER_KEY with (70 * 1000). rewrite (api_times c (cost_table w API_CALL)) by (rewrite C; reflexivity).
  apply charge_then; [exact Rn|discriminate].
Qed.
End S.

Lemma blocks_mono a b : a <= b -> blocks a <= blocks b.
Proof. unfold blocks. intros. lia. Qed.
Lemma hash_price_mono k a b : 0 <= k -> a <= b -> hash_price k a <= hash_price k b.
Proof.
  intros K H. unfold hash_price. pose proof (blocks_mono a b H).
  assert (k * blocks a <= k * blocks b) by (apply Z.mul_le_mono_nonneg_l; lia).
  pose proof (Z.div_le_mono (k * blocks a) (k * blocks b) 10). lia.
Qed.
Lemma json_price_mono k t a b : 0 <= k -> 0 <= t -> a <= b -> json_price k t a <= json_price k t b.
Proof.
  intros K T H. unfold json_price. assert (0 <= k * t) by (apply Z.mul_nonneg_nonneg; lia).
  assert (k * t * a <= k * t * b) by (apply Z.mul_le_mono_nonneg_l; lia).
  pose proof (Z.div_le_mono (k * t * a) (k * t * b) 100). lia.
Qed.
