(** The reference executor: every operation is carried out and charged at once.  No reply queue, no
    callbacks, no read-only flag.  It runs the same programs as Model/EE.v and shares only the data types,
    the cost formulas ([price], [refund_amount]) and the node's ArrayDB scan with it. *)
From Verif Require Import Model.Bytes Model.DbKey Model.Utf8 Model.Exn Model.Monad Model.Address Model.Typed Model.EE.

(** What the outside sees of an execution. A deletion is a write of the empty value. *)
Inductive act :=
| AWrite (contract key value : bytes)
| AEvent (indexed data : list (option bytes))
| AFee (pct : Z)
| ACall (to : bytes) (amount limit : Z) (data : typed)
| AInvoke (rq : request)
| AResult (status used : Z) (result : typed).

Record estate := mk_estate {
  es_ns : nstate; es_frames : list frame; es_ctxs : list ctx; es_acts : list act (* newest first *)
}.
Definition E (A : Type) := SM estate A.

Definition e_ctx : E ctx :=
  fun s => match es_ctxs s with c :: _ => (Ok c, s) | [] => (Exc (EPy KTypeError), s) end.
Definition e_upd (f : ctx -> ctx) : E unit :=
  fun s => match es_ctxs s with
           | c :: r => (Ok tt, mk_estate (es_ns s) (es_frames s) (f c :: r) (es_acts s))
           | [] => (Exc (EPy KTypeError), s)
           end.
Definition e_act (a : act) : E unit :=
  fun s => (Ok tt, mk_estate (es_ns s) (es_frames s) (es_ctxs s) (a :: es_acts s)).
Definition e_here (s : estate) : bytes := match es_frames s with fr :: _ => rq_to (fr_req fr) | [] => [] end.

(** Charging: over the limit, all steps are taken and the operation fails. *)
Definition e_charge (ty : step_type) (step : Z) : E unit :=
  c <- e_ctx ;;
  (if cx_limit c <? cx_used c + step
   then e_upd (fun c => with_used c (cx_limit c)) ;;; mraise (EOutOfStep (cx_limit c) (cx_used c) step ty)
   else e_upd (fun c => with_used c (cx_used c + step))).
Definition e_pay (ty : step_type) (count : Z) : E unit :=
  c <- e_ctx ;; (if price (cx_costs c) ty count =? 0 then mret tt else e_charge ty (price (cx_costs c) ty count)).
Definition e_refund (amount : Z) : E unit := e_upd (fun c => with_used c (cx_used c + amount)).

Definition e_read (key : bytes) : E (option bytes) := fun s => (Ok (ns_get (es_ns s) (e_here s) key), s).
Definition e_write (key v : bytes) : E unit :=
  fun s => (Ok tt, mk_estate (ns_set (es_ns s) (e_here s) key v) (es_frames s) (es_ctxs s)
                             (AWrite (e_here s) key v :: es_acts s)).

Definition read_only (c : ctx) : bool := cx_query c || match cx_func c with Some true => true | _ => false end.

Definition e_get (key : bytes) : E (option bytes) :=
  v <- e_read key ;; e_pay GET (match v with Some b => blen b | None => 0 end) ;;; mret v.

Definition e_delete (key : bytes) : E unit :=
  c <- e_ctx ;;
  (if read_only c then mraise (EIcon Database)
   else
     old <- e_read key ;;
     e_write key [] ;;;
     match old with Some o => e_pay DELETE (blen o) | None => mret tt end).

(** A new value costs SET; replacing costs REPLACE (schema 0) or SET with a refund for the old value. *)
Definition e_put (key value : bytes) : E unit :=
  match value with
  | [] => e_delete key
  | _ =>
      c <- e_ctx ;;
      (if read_only c then mraise (EIcon Database)
       else
         old <- e_read key ;;
         (if cx_costs c SCHEMA =? 0
          then e_pay (match old with Some _ => REPLACE | None => SET end) (blen value)
          else
            match old with Some o => e_refund (refund_amount (cx_costs c) (blen o)) | None => mret tt end ;;;
            e_pay SET (blen value)) ;;;
         e_write key value)
  end.

Section WithHash.
Context (sha3 : bytes -> bytes).

Definition e_contains (prefix value : bytes) : E bool :=
  c <- e_ctx ;;
  r <- (fun s => (Ok (go_contains sha3 (es_ns s) (e_here s) prefix value (cx_costs c) (cx_limit c - cx_used c)), s)) ;;
  let '(yn, cnt, size) := r in
  (if 1 <? cnt then e_charge GET (base_step (cx_costs c) GET * (cnt - 1)) else mret tt) ;;;
  e_pay GET size ;;;
  mret yn.

Definition e_event (size : Z) (indexed data : list (option bytes)) : E unit :=
  c <- e_ctx ;;
  (if read_only c then mraise (EIcon InvalidEventLog)
   else e_pay (if cx_costs c SCHEMA =? 0 then EVENT_LOG else LOG) size ;;; e_act (AEvent indexed data)).

Definition e_balance (addr : bytes) : E Z := fun s => (Ok (ns_balance (es_ns s) addr), s).

Definition e_fee (pct : Z) : E unit :=
  c <- e_ctx ;;
  (if cx_query c then mraise (EIcon InvalidRequest)
   else if (pct <? 0) || (100 <? pct) then mraise (EIcon InvalidRequest)
   else e_upd (fun c => with_fee c pct)).

Definition e_call (ca : call_args) (node_acts : Z -> E (Z * Z * typed)) : E pyval :=
  c <- e_ctx ;;
  let limit := cx_limit c - cx_used c in
  data <- mlift (encode_any (VDict [(DKStr str_method, VStr (ca_method ca)); (DKStr str_params, ca_params ca)])) ;;
  e_act (ACall (ca_to ca) (ca_amount ca) limit data) ;;;
  r <- node_acts limit ;;
  let '(status, used, result) := r in
  v <- mlift (decode_any result) ;;
  (if limit <? used then e_refund limit ;;; mraise (EPy KAssertion)
   else e_refund used ;;;
        (if status =? OK then mret v else mraise (EIcon (create_exception status)))).

(** The answer to an invocation: the frame ends, and the state goes back if it failed. *)
Definition e_result (status used : Z) (t : typed) : E (Z * Z * typed) :=
  fun s => match es_frames s with
           | fr :: rest => (Ok (status, used, t),
                            mk_estate (if status =? OK then es_ns s else fr_snap fr) rest (es_ctxs s)
                                      (AResult status used t :: es_acts s))
           | [] => (Stuck, s)
           end.

Definition e_invoke (rq : request) (init body : E fin) : E (Z * Z * typed) :=
  (fun s => (Ok tt, mk_estate (es_ns s) (mk_frame rq (es_ns s) :: es_frames s) (new_ctx rq :: es_ctxs s) (AInvoke rq :: es_acts s))) ;;;
  r0 <- init ;;
  r <- match r0 with
       | FRaise _ _ => mret r0
       | FRet _ => e_upd (fun c => with_func c (Some (rq_readonly rq))) ;;; body
       end ;;
  c <- e_ctx ;;
  (if 0 <? cx_fee c then e_act (AFee (cx_fee c)) else mret tt) ;;;
  (fun s => (Ok tt, mk_estate (es_ns s) (es_frames s) (tl (es_ctxs s)) (es_acts s))) ;;;
  let '(status, ret) := match r with FRet v => (OK, v) | FRaise e m => (status_of e, VStr m) end in
  match encode_any ret with
  | Ok t => e_result status (cx_used c) t
  | _ => e_result SYSTEM_FAILURE (rq_limit rq) result_text
  end.

Fixpoint erun (p : prog) : E fin :=
  match p with
  | PRet v => mret (FRet v)
  | PRaise e m => mret (FRaise e m)
  | PGet key k => step_to (e_get key) (fun o => erun (k o))
  | PPut key value k => step_to (e_put key value) (fun o => erun (k o))
  | PDelete key k => step_to (e_delete key) (fun o => erun (k o))
  | PContains prefix value k => step_to (e_contains prefix value) (fun o => erun (k o))
  | PEvent size indexed data k => step_to (e_event size indexed data) (fun o => erun (k o))
  | PBalance addr k => step_to (e_balance addr) (fun o => erun (k o))
  | PStep ty step k => step_to (e_charge ty step) (fun o => erun (k o))
  | PFee pct k => step_to (e_fee pct) (fun o => erun (k o))
  | PCall ca n k => step_to (e_call ca (fun limit s => erun_node (n limit (es_ns s)) s)) (fun o => erun (k o))
  end
with erun_node (n : node) : E (Z * Z * typed) :=
  match n with
  | NReply status used result => mret (status, used, result)
  | NInvoke rq init body k =>
      fun s => match e_invoke rq (erun init) (erun body) s with
               | (Ok out, s') => erun_node (k out (es_ns s')) s'
               | (Exc e, s') => (Exc e, s')
               | (Stuck, s') => (Stuck, s')
               end
  | NForeign f k => fun s => erun_node k (mk_estate (f (es_ns s)) (es_frames s) (es_ctxs s) (es_acts s))
  | NOther k => erun_node k
  end.
End WithHash.

Definition init_estate (ns : nstate) : estate := mk_estate ns [] [] [].

(** The outside view of the executor's messages: reads are not shown, nor is whether a reply was asked for. *)
Definition observe (e : entry) : list act :=
  match e_msg e with
  | MSetValue key _ delete v =>
      [AWrite (match e_req e with Some r => rq_to r | None => [] end) key (if delete then [] else v)]
  | MEvent i d => [AEvent i d]
  | MSetFeePct p => [AFee p]
  | MCall to amount limit data => [ACall to amount limit data]
  | MResult st used t => [AResult st used t]
  | GInvoke rq => [AInvoke rq]
  | MGetValue _ | MContains _ _ _ | MGetBalance _ => []
  end.
Definition observed (w : world) : list act := flat_map observe (w_trace w).

(** Cost tables under which deferring is sound: neither deleting a stored value nor replacing a value by
    another ever costs extra.  Stored and replaced values have at least one byte. *)
Definition refunding (c : costs) : Prop :=
  forall n, 1 <= n -> price c DELETE n <= 0 /\ refund_amount c n <= 0.

(** A property of all INVOKE requests a program or node behaviour can issue.  A call never passes a negative
    step limit (that is part of C17). *)
Fixpoint prog_reqs (P : request -> Prop) (p : prog) : Prop :=
  match p with
  | PRet _ | PRaise _ _ => True
  | PGet _ k => forall o, prog_reqs P (k o)
  | PPut _ _ k => forall o, prog_reqs P (k o)
  | PDelete _ k => forall o, prog_reqs P (k o)
  | PContains _ _ k => forall o, prog_reqs P (k o)
  | PEvent _ _ _ k => forall o, prog_reqs P (k o)
  | PBalance _ k => forall o, prog_reqs P (k o)
  | PStep _ _ k => forall o, prog_reqs P (k o)
  | PFee _ k => forall o, prog_reqs P (k o)
  | PCall _ n k => (forall l ns, 0 <= l -> node_reqs P (n l ns)) /\ (forall o, prog_reqs P (k o))
  end
with node_reqs (P : request -> Prop) (n : node) : Prop :=
  match n with
  | NReply _ _ _ => True
  | NInvoke rq init body k => P rq /\ prog_reqs P init /\ prog_reqs P body /\ (forall o ns, node_reqs P (k o ns))
  | NForeign _ k => node_reqs P k
  | NOther k => node_reqs P k
  end.

(** What the node guarantees for its requests here: a step limit that is not negative and such a table. *)
Definition good_request (rq : request) : Prop := 0 <= rq_limit rq /\ refunding (rq_costs rq).
