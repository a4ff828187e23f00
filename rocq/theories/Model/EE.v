(** The Python executor connected to the node: step counter, database access with lazily processed write
    replies, invocation frames and inter-SCORE calls.

    Sources: pyee/pyexec/ipc/proxy.py, database/db.py, iconscore/icon_score_step.py, service_engine.py,
    iconscore/internal_call.py, iconscore/icon_score_eventlog.py, iconscore/icon_score_base.py, pyexec.py;
    node side: service/eeproxy/proxy.go, service/contract/callhandler.go, service/state/account.go. *)
From Verif Require Import Model.Bytes Model.IntCodec Model.DbKey Model.Utf8 Model.Exn Model.Monad Model.Address Model.Typed.

(** ** Step costs: iconscore/icon_score_step.py:105-215 *)

(** Lines 118-125, 214-215 [get_step_cost]: a dictionary with default 0. *)
Definition costs := step_type -> Z.

(** Lines 130-144, 211-212 [get_base_step]. *)
Definition base_step (c : costs) (t : step_type) : Z :=
  if c SCHEMA =? 0 then 0
  else match t with
       | GET => c GET_BASE
       | SET => c SET_BASE
       | DELETE => c DELETE_BASE
       | LOG => c LOG_BASE
       | _ => 0
       end.

(** Line 180: the price of an operation. *)
Definition price (c : costs) (t : step_type) (count : Z) : Z := base_step c t + c t * count.

(** Lines 135-137, 146-147, 200-204: the amount [refund_step(count)] adds to the used steps. *)
Definition refund_amount (c : costs) (count : Z) : Z :=
  if c SCHEMA =? 0 then (c REPLACE - c SET) * count
  else ((base_step c SET + base_step c DELETE) / 2 - base_step c SET) + c DELETE * count.

(** ** Executor and node state *)

(** iconscore/icon_score_context.py:82-118.  [cx_func]: [Some true] is READONLY, [Some false] WRITABLE,
    [None] before line 113 ran.  The step counter is kept in the context. *)
Record ctx := mk_ctx {
  cx_query : bool;
  cx_func : option bool;
  cx_costs : costs;
  cx_limit : Z;
  cx_used : Z;
  cx_fee : Z
}.
Definition with_used (c : ctx) (u : Z) : ctx := mk_ctx (cx_query c) (cx_func c) (cx_costs c) (cx_limit c) u (cx_fee c).
Definition with_func (c : ctx) (f : option bool) : ctx := mk_ctx (cx_query c) f (cx_costs c) (cx_limit c) (cx_used c) (cx_fee c).
Definition with_fee (c : ctx) (f : Z) : ctx := mk_ctx (cx_query c) (cx_func c) (cx_costs c) (cx_limit c) (cx_used c) f.

(** An INVOKE message (ipc/proxy.py:361-378), reduced to what the executor's behaviour depends on besides
    the program: the contract, the READ_ONLY option, the step limit and the cost table.  [rq_readonly]:
    the invoked method is declared [@external(readonly=True)]. *)
Record request := mk_request {
  rq_to : bytes;
  rq_query : bool;
  rq_readonly : bool;
  rq_limit : Z;
  rq_costs : costs
}.

(** The node's world state: per contract address a key-value store and a balance.  The store never holds an
    empty value (service/state/account.go:788-791), so absent is []. *)
Record nstate := mk_nstate { ns_store : bytes -> bytes -> bytes; ns_balance : bytes -> Z }.
Definition ns_get (ns : nstate) (a key : bytes) : option bytes :=
  match ns_store ns a key with [] => None | v => Some v end.
Definition ns_set (ns : nstate) (a key v : bytes) : nstate :=
  mk_nstate (fun a' k' => if bytes_eqb a' a then if bytes_eqb k' key then v else ns_store ns a' k' else ns_store ns a' k')
            (ns_balance ns).

(** Messages from the executor. *)
Inductive msg :=
| MSetValue (key : bytes) (oldvalue delete : bool) (value : bytes)
| MGetValue (key : bytes)
| MContains (prefix value : bytes) (limit : Z)
| MEvent (indexed data : list (option bytes))
| MGetBalance (addr : bytes)
| MSetFeePct (pct : Z)
| MCall (to : bytes) (amount limit : Z) (data : typed)
| MResult (status used : Z) (result : typed)
| GInvoke (rq : request).  (* ghost: not a message, marks where an INVOKE was received *)

(** Replies the executor receives. *)
Inductive reply :=
| RSet (has_old : bool) (old_size : Z)
| RVal (v : option bytes)
| RContains (found : bool) (cnt size : Z)
| RBalance (b : Z).

(** ipc/proxy.py:119, database/db.py:225-243: the two write callbacks. *)
Inductive handler := HDelete | HRefund.

(** service/eeproxy/proxy.go:361-372 and callhandler: an execution frame on the node with the snapshot to
    restore when it fails. *)
Record frame := mk_frame { fr_req : request; fr_snap : nstate }.

(** Ghost: a sent message with the request it was sent for, the context running on the executor and the number
    of write replies outstanding when it was sent. *)
Record entry := mk_entry { e_req : option request; e_running : option ctx; e_pending : nat; e_msg : msg }.

Record world := mk_world {
  w_ns : nstate;                    (* node *)
  w_frames : list frame;            (* node *)
  w_inbox : list (nat * reply);     (* replies sent and not received yet, oldest first, with the (ghost) number
                                       of the message they answer *)
  w_handlers : list (nat * (handler * Z));  (* proxy.py:256 __set_handlers, oldest first, with the (ghost)
                                       number of the message they were registered for *)
  w_ro : bool;                      (* proxy.py:255 __readonly *)
  w_rostack : list bool;            (* proxy.py:254, top first *)
  w_ctxs : list ctx;                (* icon_score_context.py:37-70, top first *)
  w_trace : list entry;             (* newest first *)
  w_match : list (nat * nat)        (* ghost: every reply taken, as (message it was taken for, message it answers) *)
}.
Definition set_ns (w : world) x := mk_world x (w_frames w) (w_inbox w) (w_handlers w) (w_ro w) (w_rostack w) (w_ctxs w) (w_trace w) (w_match w).
Definition set_frames (w : world) x := mk_world (w_ns w) x (w_inbox w) (w_handlers w) (w_ro w) (w_rostack w) (w_ctxs w) (w_trace w) (w_match w).
Definition set_inbox (w : world) x := mk_world (w_ns w) (w_frames w) x (w_handlers w) (w_ro w) (w_rostack w) (w_ctxs w) (w_trace w) (w_match w).
Definition set_handlers (w : world) x := mk_world (w_ns w) (w_frames w) (w_inbox w) x (w_ro w) (w_rostack w) (w_ctxs w) (w_trace w) (w_match w).
Definition set_ro (w : world) x := mk_world (w_ns w) (w_frames w) (w_inbox w) (w_handlers w) x (w_rostack w) (w_ctxs w) (w_trace w) (w_match w).
Definition set_rostack (w : world) x := mk_world (w_ns w) (w_frames w) (w_inbox w) (w_handlers w) (w_ro w) x (w_ctxs w) (w_trace w) (w_match w).
Definition set_ctxs (w : world) x := mk_world (w_ns w) (w_frames w) (w_inbox w) (w_handlers w) (w_ro w) (w_rostack w) x (w_trace w) (w_match w).
Definition set_trace (w : world) x := mk_world (w_ns w) (w_frames w) (w_inbox w) (w_handlers w) (w_ro w) (w_rostack w) (w_ctxs w) x (w_match w).
Definition set_match (w : world) x := mk_world (w_ns w) (w_frames w) (w_inbox w) (w_handlers w) (w_ro w) (w_rostack w) (w_ctxs w) (w_trace w) x.

(** ** Python statements: state, exceptions, blocking *)
Definition M (A : Type) := SM world A.

(** The running context ([ContextContainer._get_context()]); without one, attribute access on [None] raises. *)
Definition get_ctx : M ctx :=
  fun w => match w_ctxs w with c :: _ => (Ok c, w) | [] => (Exc (EPy KTypeError), w) end.
Definition upd_ctx (f : ctx -> ctx) : M unit :=
  fun w => match w_ctxs w with c :: r => (Ok tt, set_ctxs w (f c :: r)) | [] => (Exc (EPy KTypeError), w) end.

(** A context object captured earlier, when the stack had depth [d] (it is then the [d]-th from the bottom). *)
Fixpoint upd_nth {A} (n : nat) (f : A -> A) (l : list A) : list A :=
  match l, n with
  | [], _ => []
  | x :: r, O => f x :: r
  | x :: r, S n' => x :: upd_nth n' f r
  end.
Definition depth : M nat := fun w => (Ok (length (w_ctxs w)), w).
Definition get_ctx_at (d : nat) : M ctx :=
  fun w => match nth_error (w_ctxs w) (length (w_ctxs w) - d) with
           | Some c => (Ok c, w)
           | None => (Exc (EPy KTypeError), w)
           end.
Definition upd_ctx_at (d : nat) (f : ctx -> ctx) : M unit :=
  fun w => (Ok tt, set_ctxs w (upd_nth (length (w_ctxs w) - d) f (w_ctxs w))).

(** ** Node: service/eeproxy/proxy.go:395-608 [HandleMessage] *)
Section WithHash.
Context (sha3 : bytes -> bytes).

(** service/contract/callhandler.go:486-523 [ArrayDBContains] over common/containerdb/arraydb.go:38-46; the
    loop runs over [n] remaining indices from [i].  Node integers are unbounded here. *)
Fixpoint go_contains_loop (ns : nstate) (a prefix value : bytes) (get getBase limit : Z)
  (n : nat) (i cost cnt size : Z) : bool * Z * Z :=
  match n with
  | O => (false, cnt, size)
  | S n' =>
      let cnt := cnt + 1 in
      let cost := cost + getBase in
      match ns_get ns a (sha3 (go_AppendKeys prefix [go_Int64ToBytes i])) with
      | Some bs =>
          let size := size + blen bs in
          let cost := cost + get * blen bs in
          if bytes_eqb bs value then (true, cnt, size)
          else if limit <? cost then (false, cnt, size)
          else go_contains_loop ns a prefix value get getBase limit n' (i + 1) cost cnt size
      | None =>
          if limit <? cost then (false, cnt, size)
          else go_contains_loop ns a prefix value get getBase limit n' (i + 1) cost cnt size
      end
  end.
Definition go_array_size (ns : nstate) (a prefix : bytes) : Z :=
  match ns_get ns a (sha3 prefix) with Some bs => go_BigIntSetBytes bs | None => 0 end.
(** The costs are the node's own (callhandler.go:492-493): the table that was sent with the request. *)
Definition go_contains (ns : nstate) (a prefix value : bytes) (c : costs) (limit : Z) : bool * Z * Z :=
  go_contains_loop ns a prefix value (c GET) (c GET_BASE) limit (Z.to_nat (go_array_size ns a prefix)) 0 0 0 0.

(** What the node does with a message, at once, in its current frame.  A write in a frame the node considers
    read-only makes the node close the connection (callhandler.go:441, 464); that case is not modelled. *)
Definition answer (w : world) (r : reply) : world := set_inbox w (w_inbox w ++ [(length (w_trace w), r)]).
Definition node_recv (m : msg) (w : world) : world :=
  match w_frames w with
  | [] => w
  | fr :: rest =>
      let a := rq_to (fr_req fr) in
      match m with
      | MSetValue key oldvalue delete value =>
          let old := ns_get (w_ns w) a key in
          let w := set_ns w (ns_set (w_ns w) a key (if delete then [] else value)) in
          if oldvalue
          then answer w (match old with Some v => RSet true (blen v) | None => RSet false 0 end)
          else w
      | MGetValue key => answer w (RVal (ns_get (w_ns w) a key))
      | MContains prefix value limit =>
          let '(yn, cnt, size) := go_contains (w_ns w) a prefix value (rq_costs (fr_req fr)) limit in
          answer w (RContains yn cnt size)
      | MGetBalance addr => answer w (RBalance (ns_balance (w_ns w) addr))
      | MResult status _ _ =>
          set_frames (if status =? OK then w else set_ns w (fr_snap fr)) rest
      | MEvent _ _ | MSetFeePct _ | MCall _ _ _ _ | GInvoke _ => w
      end
  end.

Definition log (m : msg) (w : world) : world :=
  set_trace w (mk_entry (match w_frames w with fr :: _ => Some (fr_req fr) | [] => None end)
                        (match w_ctxs w with c :: _ => Some c | [] => None end) (length (w_handlers w)) m :: w_trace w).

(** ipc/client.py:52-53 [send]. *)
Definition send (m : msg) : M unit := fun w => (Ok tt, node_recv m (log m w)).
(** ipc/client.py:59-60 [receive]. *)
Definition receive (for_msg : nat) : M reply :=
  fun w => match w_inbox w with
           | (n, r) :: rest => (Ok r, set_match (set_inbox w rest) ((for_msg, n) :: w_match w))
           | [] => (Stuck, w)
           end.

(** ** Step counter operations (icon_score_step.py), relative to the refund callback *)

(** Lines 185-198 [consume_step]; each successful refund empties the queue, so [n] rounds suffice. *)
Fixpoint consume_loop (n : nat) (refund : M bool) (ty : step_type) (step : Z) : M Z :=
  c <- get_ctx ;;
  (if cx_limit c <? cx_used c + step then
     match n with
     | O => fun w => (Stuck, w)
     | S n' =>
         b <- refund ;;
         (if b : bool then consume_loop n' refund ty step
          else
            c <- get_ctx ;;
            upd_ctx (fun c => with_used c (cx_limit c)) ;;;
            mraise (EOutOfStep (cx_limit c) (cx_used c) step ty))
     end
   else
     upd_ctx (fun c => with_used c (cx_used c + step)) ;;;
     mret (cx_used c + step)).
Definition consume_with (refund : M bool) (ty : step_type) (step : Z) : M Z :=
  fun w => consume_loop (S (S (length (w_handlers w)))) refund ty step w.
(** Lines 176-183 [apply_step]. *)
Definition apply_with (refund : M bool) (ty : step_type) (count : Z) : M Z :=
  c <- get_ctx ;;
  (if price (cx_costs c) ty count =? 0 then mret (cx_used c)
   else consume_with refund ty (price (cx_costs c) ty count)).
(** Lines 207-209 [add_step]. *)
Definition add_step (amount : Z) : M unit := upd_ctx (fun c => with_used c (cx_used c + amount)).

Definition add_step_at (d : nat) (amount : Z) : M unit := upd_ctx_at d (fun c => with_used c (cx_used c + amount)).

(** ** Write callbacks and their queue *)

(** database/db.py:225-243; [ContextContainer._get_context()] may be [None]. *)
Definition run_handler (refund : M bool) (h : handler) (has_old : bool) (old_size new_size : Z) : M unit :=
  fun w =>
    match w_ctxs w with
    | [] => (Ok tt, w)
    | c :: _ =>
        if cx_query c then (Ok tt, w)
        else if negb has_old then (Ok tt, w)
        else match h with
             | HDelete => (apply_with refund DELETE old_size ;;; mret tt) w
             | HRefund => add_step (refund_amount (cx_costs c) (if cx_costs c SCHEMA =? 0 then new_size else old_size)) w
             end
    end.

(** ipc/proxy.py:449-454 [handle_set_values], given [__handle_set_values]. *)
Definition handle_all (drain : nat -> M unit) : M bool :=
  fun w => match length (w_handlers w) with
           | O => (Ok false, w)
           | n => (drain n ;;; mret true) w
           end.

(** ipc/proxy.py:456-466 [__handle_set_values(cnt)].  A callback may re-enter through the step counter; every
    re-entry happens after a [pop], so [fuel] = length of the queue covers all of them. *)
Fixpoint drain (fuel : nat) : nat -> M unit :=
  fix loop (cnt : nat) : M unit :=
    match cnt with
    | O => mret tt
    | S cnt' =>
        fun w =>
          match w_handlers w with
          | [] => (Exc (EPy KIndexError), w)
          | (n, (h, size)) :: hs =>
              (r <- receive n ;;
               match r with
               | RSet has_old old_size =>
                   run_handler (match fuel with O => fun w => (Stuck, w) | S f => handle_all (drain f) end)
                     h has_old (if has_old then old_size else 0) (if has_old then size else 0) ;;;
                   loop cnt'
               | _ => mraise (EPy KInvalidMsg)
               end) (set_handlers w hs)
          end
    end.
Definition handle_set_values : M bool := fun w => handle_all (drain (length (w_handlers w))) w.

Definition consume_step : step_type -> Z -> M Z := consume_with handle_set_values.
Definition apply_step : step_type -> Z -> M Z := apply_with handle_set_values.
(** icon_score_step.py:169-174 [step_remained]. *)
Definition step_remained : M Z :=
  handle_set_values ;;; c <- get_ctx ;; mret (cx_limit c - cx_used c).
(** icon_score_step.py:200-205. *)
Definition refund_step (count : Z) : M unit := c <- get_ctx ;; add_step (refund_amount (cx_costs c) count).

(** ** Proxy requests *)

(** ipc/proxy.py:24 *)
Definition MAX_SET_VALUE_HANDLERS : nat := 5.

(** ipc/proxy.py:468-471 [send_and_receive]. *)
Definition send_and_receive (m : msg) : M reply :=
  send m ;;; fun w => (handle_set_values ;;; receive (length (w_trace w))) w.

(** ipc/proxy.py:473-480 [get_value]. *)
Definition get_value (key : bytes) : M (option bytes) :=
  r <- send_and_receive (MGetValue key) ;;
  match r with RVal v => mret v | _ => mraise (EPy KInvalidMsg) end.

(** ipc/proxy.py:482-496 [set_value]; [value = None] deletes. *)
Definition set_value (key : bytes) (value : option bytes) (cb : option handler) : M unit :=
  fun w =>
    if w_ro w then (Exc (EPy KNoPermission), w)
    else
      (send (MSetValue key (match cb with Some _ => true | None => false end)
                       (match value with None => true | Some _ => false end)
                       (match value with Some v => v | None => [] end)) ;;;
       match cb with
       | None => mret tt
       | Some h =>
           fun w =>
             let w := set_handlers w (w_handlers w ++ [(length (w_trace w), (h, match value with Some v => blen v | None => 0 end))]) in
             let n := length (w_handlers w) in
             if Nat.ltb MAX_SET_VALUE_HANDLERS n
             then drain n (n - MAX_SET_VALUE_HANDLERS) w
             else (Ok tt, w)
       end) w.

(** ipc/proxy.py:498-504 [set_fee_proportion]. *)
Definition set_fee_proportion (pct : Z) : M unit :=
  fun w =>
    if w_ro w then (Exc (EPy KNoPermission), w)
    else if (pct <? 0) || (100 <? pct) then (Exc (EPy KInvalidParameter), w)
    else send (MSetFeePct pct) w.

(** ipc/proxy.py:506-510 [contains]. *)
Definition proxy_contains (prefix value : bytes) (limit : Z) : M (bool * Z * Z) :=
  r <- send_and_receive (MContains prefix value limit) ;;
  match r with RContains yn cnt size => mret (yn, cnt, size) | _ => mraise (EPy KInvalidMsg) end.

(** ipc/proxy.py:518-522 [get_balance]. *)
Definition get_balance (addr : bytes) : M Z :=
  r <- send_and_receive (MGetBalance addr) ;;
  match r with RBalance b => mret b | _ => mraise (EPy KInvalidMsg) end.

(** ipc/proxy.py:524-530 [send_event], for arguments already encoded. *)
Definition send_event (indexed data : list (option bytes)) : M unit :=
  fun w => if w_ro w then (Ok tt, w) else send (MEvent indexed data) w.

(** ** database/db.py:132-259 [ContextDatabase] *)

(** database/db.py:53-66. *)
Definition writable (c : ctx) : bool :=
  negb (cx_query c) && negb (match cx_func c with Some true => true | _ => false end).

(** database/db.py:143-152, 245-250. *)
Definition db_get (key : bytes) : M (option bytes) :=
  value <- get_value key ;;
  apply_step GET (match value with Some v => blen v | None => 0 end) ;;;
  mret value.

(** database/db.py:154-188. *)
Definition db_put (key value : bytes) : M unit :=
  c <- get_ctx ;;
  (if negb (writable c) then mraise (EIcon Database)
   else match value with
   | [] => set_value key (Some []) (Some HDelete)
   | _ =>
       mtry
         ((if cx_query c then mret 0 else apply_step SET (blen value)) ;;;
          set_value key (Some value) (Some HRefund))
         (fun e =>
            match e with
            | EOutOfStep limit used _ _ =>
                add_step (used - limit) ;;;
                old_val <- get_value key ;;
                (if cx_costs c SCHEMA =? 0 then
                   match old_val with
                   | Some _ => apply_step REPLACE (blen value) ;;; mret tt
                   | None => apply_step SET (blen value) ;;; mret tt
                   end
                 else
                   (match old_val with
                    | Some old => run_handler handle_set_values HRefund true (blen old) 0
                    | None => mret tt
                    end) ;;;
                   apply_step SET (blen value) ;;; mret tt) ;;;
                set_value key (Some value) None
            | _ => mraise e
            end)
   end).

(** database/db.py:190-199. *)
Definition db_delete (key : bytes) : M unit :=
  c <- get_ctx ;;
  (if negb (writable c) then mraise (EIcon Database) else set_value key None (Some HDelete)).

(** database/db.py:201-214. *)
Definition db_contains (prefix value : bytes) : M bool :=
  limit <- step_remained ;;
  r <- proxy_contains prefix value limit ;;
  let '(yn, cnt, size) := r in
  c <- get_ctx ;;
  (if 1 <? cnt then consume_step GET (base_step (cx_costs c) GET * (cnt - 1)) else mret 0) ;;;
  apply_step GET size ;;;
  mret yn.

(** iconscore/icon_score_eventlog.py:93-122 after the arguments were resolved and sized. *)
Definition emit_event (size : Z) (indexed data : list (option bytes)) : M unit :=
  c <- get_ctx ;;
  (if cx_query c || match cx_func c with Some true => true | _ => false end
   then mraise (EIcon InvalidEventLog)
   else
     apply_step (if cx_costs c SCHEMA =? 0 then EVENT_LOG else LOG) size ;;;
     send_event indexed data).

(** iconscore/icon_score_base.py:628-634 [set_fee_sharing_proportion]. *)
Definition set_fee_sharing (proportion : Z) : M unit :=
  c <- get_ctx ;;
  (if cx_query c then mraise (EIcon InvalidRequest)
   else if (proportion <? 0) || (100 <? proportion) then mraise (EIcon InvalidRequest)
   else upd_ctx (fun c => with_fee c proportion)).

(** ** Calls and invocations *)

(** Arguments of [self.call(..)] or of an interface method; an address is its bytes. *)
Record call_args := mk_call_args { ca_to : bytes; ca_amount : Z; ca_method : pystr; ca_params : pyval }.
Definition str_method : pystr := [109; 101; 116; 104; 111; 100].
Definition str_params : pystr := [112; 97; 114; 97; 109; 115].

(** ipc/proxy.py:428-447 [call]: the CALL message, then the node's actions up to its RESULT. *)
Definition proxy_call (ca : call_args) (limit : Z) (node_acts : M (Z * Z * typed)) : M (Z * Z * pyval) :=
  data <- mlift (encode_any (VDict [(DKStr str_method, VStr (ca_method ca)); (DKStr str_params, ca_params ca)])) ;;
  send (MCall (ca_to ca) (ca_amount ca) limit data) ;;;
  r <- node_acts ;;
  let '(status, used, result) := r in
  v <- mlift (decode_any result) ;;
  mret (status, used, v).

(** iconscore/internal_call.py:42-76 [message_call]; its [context] argument is the one running at the call. *)
Definition message_call (ca : call_args) (node_acts : Z -> M (Z * Z * typed)) : M pyval :=
  d <- depth ;;
  new_limit <- step_remained ;;
  r <- proxy_call ca new_limit (node_acts new_limit) ;;
  let '(status, used, result) := r in
  (if new_limit <? used then add_step_at d new_limit ;;; mraise (EPy KAssertion)
   else
     add_step_at d used ;;;
     (if status =? OK then mret result else mraise (EIcon (create_exception status)))).

(** How a frame's program ended: a returned value, or an exception with its message. *)
Inductive fin := FRet (v : pyval) | FRaise (e : exn) (message : pystr).

(** service_engine.py:105-125 [_internal_call]: the SCORE is instantiated (its [__init__] is [init]), the
    function type is set from the method's flag, the method runs.  Lookup, parameter conversion and flag
    checks are part of [body]. *)
Definition internal_call (rq : request) (init body : M fin) : M fin :=
  d <- depth ;;
  r <- init ;;
  match r with
  | FRaise _ _ => mret r
  | FRet _ => upd_ctx_at d (fun c => with_func c (Some (rq_readonly rq))) ;;; body
  end.

(** service_engine.py:90-103 [_handle_invoke] and 61-70 [invoke], pyexec.py:133-147. *)
Definition new_ctx (rq : request) : ctx := mk_ctx (rq_query rq) None (rq_costs rq) (rq_limit rq) 0 0.
Definition push_ctx (c : ctx) : M unit := fun w => (Ok tt, set_ctxs w (c :: w_ctxs w)).
Definition pop_ctx : M unit :=
  fun w => match w_ctxs w with _ :: r => (Ok tt, set_ctxs w r) | [] => (Exc (EPy KAssertion), w) end.
Definition engine_invoke (rq : request) (init body : M fin) : M (Z * Z * pyval) :=
  push_ctx (new_ctx rq) ;;;
  d <- depth ;;
  r <- internal_call rq init body ;;
  let '(status, ret) := match r with
                        | FRet v => (OK, v)
                        | FRaise e m => (status_of e, VStr m)
                        end in
  handle_set_values ;;;
  c <- get_ctx_at d ;;
  (if 0 <? cx_fee c then set_fee_proportion (cx_fee c) else mret tt) ;;;
  c <- get_ctx_at d ;;
  pop_ctx ;;;
  mret (status, cx_used c, ret).

(** ipc/proxy.py:109-111. *)
Definition SYSTEM_FAILURE := 1.
Definition result_text : typed := TBin T_STRING [].

(** ipc/proxy.py:361-400 [__handle_invoke].  [except Exception] catches [EPy] only. The text of the failure
    message is not modelled. *)
Definition handle_invoke (rq : request) (init body : M fin) : M (Z * Z * typed) :=
  fun w =>
    let w1 := set_ro (set_rostack w (w_ro w :: w_rostack w)) (rq_query rq) in
    let '(r, w2) :=
      (mtry
         (x <- engine_invoke rq init body ;;
          let '(status, used, ret) := x in
          t <- mlift (encode_any ret) ;;
          send (MResult status used t) ;;; mret (status, used, t))
         (fun e =>
            match e with
            | EPy _ => send (MResult SYSTEM_FAILURE (rq_limit rq) result_text) ;;;
                       mret (SYSTEM_FAILURE, rq_limit rq, result_text)
            | _ => mraise e
            end)) w1 in
    match r, w_rostack w2 with
    | Stuck, _ => (Stuck, w2)
    | _, ro :: st => (r, set_rostack (set_ro w2 ro) st)
    | _, [] => (Exc (EPy KIndexError), w2)
    end.

(** ** Programs *)

(** SCORE code as seen through the API: each call's continuation receives the result or the exception.
    [node] is the node's behaviour between a CALL and its RESULT (or in the main loop): nested INVOKEs with
    their programs, changes made by other executors or the node itself, and finally the reply. *)
Inductive prog :=
| PRet (v : pyval)
| PRaise (e : exn) (message : pystr)
| PGet (key : bytes) (k : outcome (option bytes) -> prog)
| PPut (key value : bytes) (k : outcome unit -> prog)
| PDelete (key : bytes) (k : outcome unit -> prog)
| PContains (prefix value : bytes) (k : outcome bool -> prog)
| PEvent (size : Z) (indexed data : list (option bytes)) (k : outcome unit -> prog)
| PBalance (addr : bytes) (k : outcome Z -> prog)
| PStep (ty : step_type) (step : Z) (k : outcome unit -> prog)
| PFee (pct : Z) (k : outcome unit -> prog)
| PCall (ca : call_args) (n : Z -> nstate -> node) (k : outcome pyval -> prog)
with node :=
| NReply (status used : Z) (result : typed)
| NInvoke (rq : request) (init body : prog) (k : Z * Z * typed -> nstate -> node)
| NForeign (f : nstate -> nstate) (k : node)
| NOther (k : node).

(** A new frame on the node for an INVOKE (service/eeproxy/proxy.go:236-281). *)
Definition push_frame (rq : request) (w : world) : world :=
  log (GInvoke rq) (set_frames w (mk_frame rq (w_ns w) :: w_frames w)).

(** [run_node]: the loops of ipc/proxy.py:418-426 and 440-447.  Replies left unread in front of an INVOKE or
    RESULT message are read and dropped there. *)
Fixpoint run (p : prog) : M fin :=
  match p with
  | PRet v => mret (FRet v)
  | PRaise e m => mret (FRaise e m)
  | PGet key k => step_to (db_get key) (fun o => run (k o))
  | PPut key value k => step_to (db_put key value) (fun o => run (k o))
  | PDelete key k => step_to (db_delete key) (fun o => run (k o))
  | PContains prefix value k => step_to (db_contains prefix value) (fun o => run (k o))
  | PEvent size indexed data k => step_to (emit_event size indexed data) (fun o => run (k o))
  | PBalance addr k => step_to (get_balance addr) (fun o => run (k o))
  | PStep ty step k => step_to (consume_step ty step ;;; mret tt) (fun o => run (k o))
  | PFee pct k => step_to (set_fee_sharing pct) (fun o => run (k o))
  | PCall ca n k =>
      step_to (message_call ca (fun limit w => run_node (n limit (w_ns w)) w)) (fun o => run (k o))
  end
with run_node (n : node) : M (Z * Z * typed) :=
  match n with
  | NReply status used result => fun w => (Ok (status, used, result), set_inbox w [])
  | NInvoke rq init body k =>
      fun w => match handle_invoke rq (run init) (run body) (push_frame rq (set_inbox w [])) with
               | (Ok out, w') => run_node (k out (w_ns w')) w'
               | (Exc e, w') => (Exc e, w')
               | (Stuck, w') => (Stuck, w')
               end
  | NForeign f k => fun w => run_node k (set_ns w (f (w_ns w)))
  | NOther k => run_node k
  end.

(** A fresh executor (proxy.py:249-256). *)
Definition init_world (ns : nstate) : world := mk_world ns [] [] [] false [] [] [] [].
End WithHash.
