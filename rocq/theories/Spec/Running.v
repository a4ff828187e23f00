(** The states SCORE code can find itself in, and what it can see of them.

    [idle]: the executor waits for the node, at the top or inside a call.  [running]: SCORE code is running
    and makes its next API call.  Everything an execution can do on the way is listed. *)
From Verif Require Import Model.Bytes Model.Exn Model.Monad Model.Typed Model.EE Spec.EagerEE.

(** An INVOKE arrived and the SCORE's [__init__] is about to run. *)
Definition enter (rq : request) (w : world) : world :=
  set_ctxs (set_ro (set_rostack (push_frame rq w) (w_ro w :: w_rostack w)) (rq_query rq)) (new_ctx rq :: w_ctxs w).
(** [__init__] returned and the method is about to run. *)
Definition to_method (w : world) : world :=
  match w_frames w, w_ctxs w with
  | fr :: _, c :: cs => set_ctxs w (with_func c (Some (rq_readonly (fr_req fr))) :: cs)
  | _, _ => w
  end.

Section WithHash.
Context (sha3 : bytes -> bytes).

Inductive idle : world -> Prop :=
| idle_fresh ns : idle (init_world ns)
| idle_called w to amount data w' : running w ->
    (limit <- step_remained ;; send sha3 (MCall to amount limit data)) w = (Ok tt, w') -> idle w'
| idle_foreign f w : idle w -> idle (set_ns w (f (w_ns w)))
| idle_returned rq init body out w w' : idle w -> good_request rq ->
    prog_reqs good_request init -> prog_reqs good_request body ->
    handle_invoke sha3 rq (run sha3 init) (run sha3 body) (push_frame rq w) = (Ok out, w') -> idle w'
with running : world -> Prop :=
| run_enter rq w : idle w -> good_request rq -> running (enter rq w)
| run_method w : running w -> running (to_method w)
| run_get key w r w' : running w -> db_get sha3 key w = (r, w') -> running w'
| run_put key value w r w' : running w -> db_put sha3 key value w = (r, w') -> running w'
| run_delete key w r w' : running w -> db_delete sha3 key w = (r, w') -> running w'
| run_contains prefix value w r w' : running w -> db_contains sha3 prefix value w = (r, w') -> running w'
| run_event size i d w r w' : running w -> emit_event sha3 size i d w = (r, w') -> running w'
| run_balance addr w r w' : running w -> get_balance sha3 addr w = (r, w') -> running w'
| run_step ty step w r w' : running w -> consume_step ty step w = (r, w') -> running w'
| run_fee pct w r w' : running w -> set_fee_sharing pct w = (r, w') -> running w'
| run_call ca n w r w' : running w -> (forall l ns, 0 <= l -> node_reqs good_request (n l ns)) ->
    message_call sha3 ca (fun limit w => run_node sha3 (n limit (w_ns w)) w) w = (r, w') -> running w'.
End WithHash.

(** The running request and contract. *)
Definition top_req (w : world) : option request := match w_frames w with fr :: _ => Some (fr_req fr) | [] => None end.
Definition here (w : world) : bytes := match top_req w with Some rq => rq_to rq | None => [] end.
Definition cost_table (w : world) : costs := match top_req w with Some rq => rq_costs rq | None => fun _ => 0 end.
(** The value the running contract's store has under a hashed key. *)
Definition cell (w : world) (key : bytes) : option bytes := ns_get (w_ns w) (here w) key.
Definition size_of (v : option bytes) : Z := match v with Some b => blen b | None => 0 end.
(** The steps the executor reports as remaining. *)
Definition steps_left (w : world) : Z := match step_remained w with (Ok z, _) => z | _ => 0 end.
(** Whether the running code may not write. *)
Definition readonly (w : world) : bool := match w_ctxs w with c :: _ => read_only c | [] => true end.

(** Only steps changed. *)
Definition same_but_steps (w w' : world) : Prop :=
  w_ns w' = w_ns w /\ w_frames w' = w_frames w /\ readonly w' = readonly w.
(** Only one value of the running contract, and steps, changed. *)
Definition wrote (key v : bytes) (w w' : world) : Prop :=
  w_ns w' = ns_set (w_ns w) (here w) key v /\ w_frames w' = w_frames w /\ readonly w' = readonly w.
Definition out_of_step (e : exn) : Prop := exists l u n t, e = EOutOfStep l u n t.
(** Running [m] in [w] gives one outcome (a value or an exception) and state satisfying [Q], from which the
    SCORE goes on. *)
Definition post (sha3 : bytes -> bytes) {A} (m : M A) (w : world) (Q : pyres A -> world -> Prop) : Prop :=
  exists r w', m w = (r, w') /\ running sha3 w' /\ Q r w'.
(** Nothing but steps and the running contract's values under keys satisfying [P] changed. *)
Definition changed_only (P : bytes -> Prop) (w w' : world) : Prop :=
  w_frames w' = w_frames w /\ readonly w' = readonly w /\
  ns_balance (w_ns w') = ns_balance (w_ns w) /\
  forall a k, (a <> here w \/ ~ P k) -> ns_store (w_ns w') a k = ns_store (w_ns w) a k.
