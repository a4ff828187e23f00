(** C11-C17: the Python executor connected to the node. *)
From Verif Require Import Model.Bytes Model.Exn Model.Monad Model.Address Model.Typed Model.EE
  Spec.EagerEE Spec.EETrace Proof.EESim Proof.EagerFacts.

(** The executor's main loop, driven by any node behaviour [n] (a sequence of INVOKEs of arbitrary programs,
    with arbitrary nested calls), never blocks and never raises, and produces the same answer, the same final
    state and the same actions (writes, events, fees, calls and results with their used steps) as the reference
    executor that charges every operation at once. *)
Theorem C13_lazy_is_eager : forall sha3 ns n, node_reqs good_request n ->
  exists out w s, run_node sha3 n (init_world ns) = (Ok out, w) /\ erun_node sha3 n (init_estate ns) = (Ok out, s) /\
    w_ns w = es_ns s /\ observed w = es_acts s.
Proof.
  intros sha3 ns n G. destruct (run_init sha3 ns n G) as (out & w & s & E1 & E2 & Z).
  exists out, w, s. split; [exact E1|]. split; [exact E2|]. split; symmetry; [apply (z_ns _ _ _ Z)|apply (z_obs _ _ _ Z)].
Qed.
Print Assumptions C13_lazy_is_eager.

Theorem C12_within_limit : forall sha3 ns n, node_reqs good_request n ->
  forall r w, run_node sha3 n (init_world ns) = (r, w) -> Forall within_limit (w_trace w).
Proof. intros sha3 ns n G r w E. eapply Forall_impl; [|apply (run_trace sha3 ns n G r w E)]. intros e H. apply H. Qed.
Print Assumptions C12_within_limit.

(** A single charge, when no write reply is outstanding. *)
Theorem C12_charge : forall ty step w c cs, w_handlers w = [] -> w_ctxs w = c :: cs ->
  consume_step ty step w =
  if cx_limit c <? cx_used c + step
  then (Exc (EOutOfStep (cx_limit c) (cx_used c) step ty), set_ctxs w (with_used c (cx_limit c) :: cs))
  else (Ok (cx_used c + step), set_ctxs w (with_used c (cx_used c + step) :: cs)).
Proof. exact charge_exact. Qed.
Print Assumptions C12_charge.

Theorem C11_no_forbidden_write : forall sha3 ns n, node_reqs good_request n ->
  forall r w, run_node sha3 n (init_world ns) = (r, w) -> Forall no_forbidden_write (w_trace w).
Proof. intros sha3 ns n G r w E. eapply Forall_impl; [|apply (run_trace sha3 ns n G r w E)]. intros e H. apply H. Qed.
Print Assumptions C11_no_forbidden_write.

(** Every reply taken was the answer to the very request it was taken for. *)
Theorem C14_replies_paired : forall sha3 ns n, node_reqs good_request n ->
  forall r w, run_node sha3 n (init_world ns) = (r, w) -> Forall (fun p => fst p = snd p) (w_match w).
Proof. intros sha3 ns n G r w E. apply (run_trace sha3 ns n G r w E). Qed.
Print Assumptions C14_replies_paired.

Theorem C14_few_pending : forall sha3 ns n, node_reqs good_request n ->
  forall r w, run_node sha3 n (init_world ns) = (r, w) -> Forall few_pending (w_trace w).
Proof. intros sha3 ns n G r w E. eapply Forall_impl; [|apply (run_trace sha3 ns n G r w E)]. intros e H. apply H. Qed.
Print Assumptions C14_few_pending.

Theorem C15_answered : forall sha3 ns n, node_reqs good_request n ->
  forall r w, run_node sha3 n (init_world ns) = (r, w) -> answered (rev (observed w)).
Proof. exact run_answered. Qed.
Print Assumptions C15_answered.

(** One invocation, top-level or nested, from any state without outstanding writes. *)
Theorem C15_frame_restored : forall sha3 rq init body w,
  good_request rq -> prog_reqs good_request init -> prog_reqs good_request body ->
  w_handlers w = [] -> w_inbox w = [] -> limits_ok (w_ctxs w) ->
  Forall entry_ok (w_trace w) -> Forall (fun p => fst p = snd p) (w_match w) ->
  exists out w', handle_invoke sha3 rq (run sha3 init) (run sha3 body) (push_frame rq w) = (Ok out, w') /\
    w_ctxs w' = w_ctxs w /\ w_frames w' = w_frames w /\ w_ro w' = w_ro w /\ w_rostack w' = w_rostack w /\
    w_handlers w' = [] /\ w_inbox w' = [].
Proof. exact nested_frame. Qed.
Print Assumptions C15_frame_restored.

(** C17: the limit passed on, for every call message of every execution. *)
Theorem C17_limit_passed : forall sha3 ns n, node_reqs good_request n ->
  forall r w, run_node sha3 n (init_world ns) = (r, w) ->
  forall e to amount limit data, In e (w_trace w) -> e_msg e = MCall to amount limit data ->
  e_pending e = 0%nat /\ exists c, e_running e = Some c /\ limit = cx_limit c - cx_used c /\ 0 <= limit.
Proof.
  intros sha3 ns n G r w E e to amount limit data Hin Hm.
  pose proof (proj1 (run_trace sha3 ns n G r w E)) as T. rewrite Forall_forall in T. destruct (T e Hin) as ((Hl & _) & _ & Hp & Hc).
  unfold few_pending, call_limit in *. rewrite Hm in *. destruct Hc as (c & E1 & ->). split; [apply Hp|].
  exists c. split; [exact E1|]. split; [reflexivity|]. specialize (Hl c E1). lia.
Qed.
Print Assumptions C17_limit_passed.

(** C17: what the caller is charged and gets. *)
Theorem C17_caller_charged : forall sha3 ca na w c cs data status used result v w' fr frs,
  w_handlers w = [] -> w_ctxs w = c :: cs -> w_frames w = fr :: frs ->
  encode_any (VDict [(DKStr str_method, VStr (ca_method ca)); (DKStr str_params, ca_params ca)]) = Ok data ->
  let limit := cx_limit c - cx_used c in
  na limit (log (MCall (ca_to ca) (ca_amount ca) limit data) w) = (Ok (status, used, result), w') ->
  w_ctxs w' = c :: cs -> decode_any result = Ok v ->
  message_call sha3 ca na w =
    if limit <? used then (Exc (EPy KAssertion), set_ctxs w' (with_used c (cx_limit c) :: cs))
    else (if status =? 0 then Ok v else Exc (EIcon (create_exception status)), set_ctxs w' (with_used c (cx_used c + used) :: cs)).
Proof. exact call_charges. Qed.
Print Assumptions C17_caller_charged.

Theorem C17_status_kept : forall status, status_of (EIcon (create_exception status)) = status.
Proof. exact create_code. Qed.
Print Assumptions C17_status_kept.

(** ** Concrete cases *)

(** The cost table of HAVAH: havah/chainscore.go:785-796. *)
Definition havah_costs : costs := fun t =>
  match t with
  | SCHEMA => 1 | GET => 25 | SET => 320 | DELETE => -240 | API_CALL => 10000
  | GET_BASE => 3000 | SET_BASE => 10000 | DELETE_BASE => 200 | LOG_BASE => 5000 | LOG => 100
  | REPLACE => 0 | EVENT_LOG => 0
  end.
Example havah_refunding : refunding havah_costs.
Proof.
  intros n H. change (price havah_costs DELETE n) with (200 + -240 * n).
  change (refund_amount havah_costs n) with (-4900 + -240 * n). lia.
Qed.

(** Six writes, a failing read-only nested call that is caught, and a result. *)
Definition rq_of (to : bytes) (q ro : bool) (limit : Z) : request := mk_request to q ro limit havah_costs.
Fixpoint puts (n : nat) (p : prog) : prog :=
  match n with O => p | S n' => PPut [Z.of_nat n] [1; 2; 3] (fun _ => puts n' p) end.
Definition sample_node (k : Z * Z * typed -> nstate -> node) : node :=
  NInvoke (rq_of [1] false false 1000000) (PRet VNone)
    (puts 6 (PCall (mk_call_args [2] 0 [109] VNone)
       (fun limit _ => NInvoke (rq_of [2] false true limit) (PRet VNone)
                         (PPut [9] [9] (fun o => match o with inl e => PRaise e [120] | inr _ => PRet VNone end))
                         (fun r _ => NReply (fst (fst r)) (snd (fst r)) (snd r)))
       (fun o => match o with inl (EIcon c) => PRet (VInt (class_code c)) | _ => PRet VNone end))) k.
Definition sample : node := sample_node (fun r _ => NReply (fst (fst r)) (snd (fst r)) (snd r)).
Example sample_good : node_reqs good_request sample.
Proof.
  assert (G : forall to q ro l, 0 <= l -> good_request (rq_of to q ro l)) by (intros; split; [assumption|apply havah_refunding]).
  cbn. split; [apply G; lia|]. split; [exact I|]. split; [|auto].
  intros _ _ _ _ _ _. split.
  - intros l _ Hl. split; [apply G; exact Hl|]. split; [exact I|]. split; [|auto].
    intros [e|u]; exact I.
  - intros [e|v]; [destruct e|]; exact I.
Qed.
(** Five writes are outstanding when the sixth is sent, the nested write is refused (status 9), the caller goes
    on and is charged exactly: 6 * (10000 + 3 * 320) and nothing for the nested call. *)
Definition empty_ns : nstate := mk_nstate (fun _ _ => []) (fun _ => 0).
Example sample_runs :
  let '(r, w) := run_node (fun x => x) sample (init_world empty_ns) in
  r = Ok (0, 65760, TBin 11 [9]) /\ map e_pending (rev (w_trace w)) = [0; 0; 1; 2; 3; 4; 5; 0; 0; 0; 0]%nat /\
  length (w_match w) = 6%nat /\
  filter (fun a => match a with AWrite _ _ _ => false | AInvoke _ => false | _ => true end) (rev (observed w)) =
    [ACall [2] 0 934240 (TDict 1 [(WStr str_method, TBin 4 [109]); (WStr str_params, TNil 0)]);
     AResult 9 0 (TBin 4 [120]); AResult 0 65760 (TBin 11 [9])].
Proof. vm_compute. auto. Qed.

(** ** C16: with a positive delete cost an INVOKE can stay unanswered *)

(** One stored value, one delete, a limit below the delete cost: the charge is made while the result is being
    prepared, and out-of-step escapes from the executor's main loop without a RESULT message. *)
Definition deleting_costs : costs := fun t => match t with DELETE => 200 | _ => 0 end.
Definition deleting_request : request := mk_request [1] false false 100 deleting_costs.
Definition one_value : nstate := mk_nstate (fun a k => if bytes_eqb a [1] then if bytes_eqb k [7] then [5] else [] else []) (fun _ => 0).
Theorem C16_violated : forall sha3,
  exists w, run_node sha3 (NInvoke deleting_request (PRet VNone) (PDelete [7] (fun _ => PRet VNone))
                             (fun r _ => NReply (fst (fst r)) (snd (fst r)) (snd r))) (init_world one_value)
            = (Exc (EOutOfStep 100 0 200 DELETE), w) /\
    (forall e, In e (w_trace w) -> match e_msg e with MResult _ _ _ => False | _ => True end) /\
    observed w = [AWrite [1] [7] []; AInvoke deleting_request] /\ ~ answered (rev (observed w)).
Proof.
  intros sha3. eexists. split; [vm_compute; reflexivity|]. split.
  - cbn. intros e [<-|[<-|[]]]; exact I.
  - split; [reflexivity|]. cbn. intros A. inversion A as [|? ? P|? inner ? ? ? ? A1 A2 E]; [exact P|].
    match goal with H : _ ++ _ = _ |- _ => apply (f_equal (@length _)) in H as HL; rewrite app_length in HL; cbn in HL;
      destruct inner as [|x inner]; cbn in H, HL; [discriminate H|lia] end.
Qed.
Print Assumptions C16_violated.

(** All costs and the limit are non-negative there, so only [refunding] is missing. *)
Example C16_nonneg : (forall t, 0 <= deleting_costs t) /\ 0 <= rq_limit deleting_request.
Proof. split; [intros []; cbn; lia|cbn; lia]. Qed.
