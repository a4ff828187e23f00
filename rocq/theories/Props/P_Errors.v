(** C18, C31: user errors and the fee sharing proportion. *)
From Verif Require Import Model.Bytes Model.Utf8 Model.Exn Model.Errors Model.Monad Model.Address Model.Typed Model.EE
  Spec.EagerEE Spec.EETrace Spec.Nesting Proof.EESim Proof.EagerFacts Proof.NestingFacts Props.P_EE.

(** The code of a user error: 32 + index, moved into 32..999. *)
Theorem C18_user_code : forall index,
  32 <= class_code (mk_IconScoreException index) <= 999 /\
  (0 <= index <= 967 -> class_code (mk_IconScoreException index) = 32 + index) /\
  (index < 0 -> class_code (mk_IconScoreException index) = 32) /\
  (967 < index -> class_code (mk_IconScoreException index) = 999).
Proof.
  intros index. unfold mk_IconScoreException, class_code, SCORE_ERROR, END. repeat split; intros;
    repeat match goal with |- context [?a <? ?b] => destruct (Z.ltb_spec a b) end; lia.
Qed.
Print Assumptions C18_user_code.

(** [revert(message, code)]: a user error with that code and message when both can be read, otherwise status 6. *)
Theorem C18_revert : forall message code,
  (forall z s, (code = CInt z \/ code = CConv (Some z)) -> (message = TStr s \/ message = TConv (Some s)) ->
     revert message code = (EIcon (mk_IconScoreException z), s)) /\
  (code = CConv None \/ message = TConv None -> status_of (fst (revert message code)) = 6) /\
  status_of (fst (revert message code)) <> 0 /\ status_of (fst (revert message code)) <> 1.
Proof.
  intros message code. split; [|split].
  - intros z s [->| ->] [->| ->]; reflexivity.
  - intros [->| ->]; [reflexivity|]. destruct code as [z|[z|]]; reflexivity.
  - assert (X : forall z s, status_of (fst (EIcon (mk_IconScoreException z), s : pystr)) <> 0 /\ status_of (fst (EIcon (mk_IconScoreException z), s : pystr)) <> 1).
    { intros z s. cbn [fst status_of]. pose proof (proj1 (C18_user_code z)). lia. }
    destruct code as [z|[z|]], message as [s|[s|]]; cbn [revert]; try apply X; split; cbn; discriminate.
Qed.
Print Assumptions C18_revert.

(** Through any number of nested calls, whatever every SCORE on the way does before and whatever message it
    re-raises with: every one of the results, up to the outermost, has the status of the original error, and
    the state is the one before. *)
Theorem C18_propagates : forall sha3 ns rq init ls last e m,
  0 <= rq_limit rq -> refunding (rq_costs rq) -> status_of e <> 0 -> valid_str m -> Forall sendable ls ->
  exists used t w,
    run_node sha3 (NInvoke rq (doing init (PRet VNone)) (chain (rq_costs rq) ls last e m) give_back) (init_world ns)
      = (Ok (status_of e, used, t), w) /\
    statuses (observed w) = repeat (status_of e) (S (length ls)) /\ w_ns w = ns.
Proof. exact chain_top. Qed.
Print Assumptions C18_propagates.

(** For errors raised by [revert]. *)
Theorem C18_revert_propagates : forall sha3 ns rq init ls last message code,
  0 <= rq_limit rq -> refunding (rq_costs rq) -> valid_str (snd (revert message code)) -> Forall sendable ls ->
  let '(e, m) := revert message code in
  exists used t w,
    run_node sha3 (NInvoke rq (doing init (PRet VNone)) (chain (rq_costs rq) ls last e m) give_back) (init_world ns)
      = (Ok (status_of e, used, t), w) /\
    statuses (observed w) = repeat (status_of e) (S (length ls)) /\ w_ns w = ns.
Proof.
  intros sha3 ns rq init ls last message code HL HR HV HS. pose proof (C18_revert message code) as (_ & _ & N & _).
  destruct (revert message code) as [e m]. cbn [fst snd] in *. apply C18_propagates; auto.
Qed.
Print Assumptions C18_revert_propagates.

(** What is not true: a user error whose message is no valid text (a lone surrogate) is reported as a system
    failure, at the full step limit. *)
Theorem C18_violated_message : forall sha3 ns rq e m, 0 <= rq_limit rq -> refunding (rq_costs rq) -> ~ valid_str m ->
  exists w, run_node sha3 (NInvoke rq (PRet VNone) (PRaise e m) give_back) (init_world ns)
            = (Ok (1, rq_limit rq, TBin T_STRING []), w).
Proof.
  intros sha3 ns rq e m HL HR HV.
  assert (G : node_reqs good_request (NInvoke rq (PRet VNone) (PRaise e m) give_back)).
  { cbn. split; [split; auto|auto]. }
  destruct (run_init sha3 ns _ G) as (out & w & s & E1 & E2 & Z). exists w. rewrite E1. f_equal.
  assert (N : utf8_encode m = None).
  { destruct (utf8_encode m) eqn:E; [|reflexivity]. exfalso. apply HV. apply Utf8Facts.encode_valid. eauto. }
  cbn in E2. unfold e_invoke, mbind in E2. cbn in E2. rewrite N in E2. cbn in E2. injection E2 as <- _. reflexivity.
Qed.
Print Assumptions C18_violated_message.

(** C31: no message sets the proportion outside 1..100, in any execution. *)
Theorem C31_fee_range : forall sha3 ns n, node_reqs good_request n ->
  forall r w, run_node sha3 n (init_world ns) = (r, w) ->
  forall e p, In e (w_trace w) -> e_msg e = MSetFeePct p -> 0 < p <= 100.
Proof.
  intros sha3 ns n G r w E e p Hin Hm. pose proof (C11_no_forbidden_write sha3 ns n G r w E) as T.
  rewrite Forall_forall in T. specialize (T e Hin). unfold no_forbidden_write in T. rewrite Hm in T.
  destruct T as (rq & _ & _ & H). exact H.
Qed.
Print Assumptions C31_fee_range.

(** The API call itself: accepted exactly outside queries and for 0..100, and then it is the new proportion. *)
Theorem C31_set_proportion : forall p w c cs, w_ctxs w = c :: cs ->
  set_fee_sharing p w =
  if negb (cx_query c) && (0 <=? p) && (p <=? 100)
  then (Ok tt, set_ctxs w (with_fee c p :: cs))
  else (Exc (EIcon InvalidRequest), w).
Proof.
  intros p w c cs H. unfold set_fee_sharing. rewrite (bind_ok get_ctx _ w c w) by (unfold get_ctx; rewrite H; reflexivity).
  destruct (cx_query c); [reflexivity|]. cbn [negb andb].
  destruct (Z.ltb_spec p 0), (Z.ltb_spec 100 p), (Z.leb_spec 0 p), (Z.leb_spec p 100); try lia; try reflexivity.
  cbn [orb andb]. unfold upd_ctx. rewrite H. reflexivity.
Qed.
Print Assumptions C31_set_proportion.

(** The last accepted proportion of a frame is what is sent when the frame ends, unless it is 0. *)
Theorem C31_sent : forall sha3 ns rq p, 0 <= rq_limit rq -> refunding (rq_costs rq) -> rq_query rq = false -> 0 < p <= 100 ->
  exists used t w, run_node sha3 (NInvoke rq (PRet VNone) (PFee p (fun _ => PRet VNone)) give_back) (init_world ns) = (Ok (0, used, t), w) /\
    observed w = [AResult 0 used t; AFee p; AInvoke rq].
Proof.
  intros sha3 ns rq p HL HR HQ HP.
  assert (G : node_reqs good_request (NInvoke rq (PRet VNone) (PFee p (fun _ => PRet VNone)) give_back)).
  { cbn. split; [split; auto|auto]. }
  destruct (run_init sha3 ns _ G) as (out & w & s & E1 & E2 & Z).
  assert (X : (p <? 0) || (100 <? p) = false) by (destruct (Z.ltb_spec p 0), (Z.ltb_spec 100 p); auto; lia).
  assert (Y : (0 <? p) = true) by (destruct (Z.ltb_spec 0 p); auto; lia).
  cbn in E2. unfold e_invoke, mbind, step_to, e_fee, mbind in E2. cbn in E2. rewrite HQ, X in E2. cbn in E2. rewrite Y in E2. cbn in E2.
  injection E2 as <- <-. eexists _, _, w. split; [exact E1|]. rewrite <- (z_obs _ _ _ Z). reflexivity.
Qed.
Print Assumptions C31_sent.

(** ** Concrete cases *)
Definition two_levels : list level :=
  [mk_level [OPut [1] [2; 3]; OGet [1]] (mk_call_args [2] 0 [109] VNone) [] false false [111; 107];
   mk_level [OEvent 10 [Some [1]] []] (mk_call_args [3] 7 [110] (VList [VInt 5])) [OGet [4]] true false []].
Example two_levels_ok : Forall sendable two_levels /\ valid_str [120] /\ status_of (fst (revert (TStr [120]) (CInt 5))) = 37.
Proof.
  split; [|split; [repeat constructor|reflexivity]].
  repeat constructor; cbn; eexists; reflexivity.
Qed.
Example two_levels_runs :
  let '(r, w) := run_node (fun x => x) (NInvoke (rq_of [1] false false 1000000) (PRet VNone)
     (chain havah_costs two_levels [] (fst (revert (TStr [120]) (CInt 5))) [120]) give_back) (init_world empty_ns) in
  r = Ok (37, 22690, TBin 4 [111; 107]) /\ statuses (observed w) = [37; 37; 37].
Proof. vm_compute. auto. Qed.
Example bad_message : ~ valid_str [55296].
Proof. intros H. inversion H. discriminate. Qed.
