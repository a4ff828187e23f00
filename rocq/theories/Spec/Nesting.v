(** Chains of nested calls in which the innermost SCORE fails and every caller lets the failure through. *)
From Verif Require Import Model.Bytes Model.Utf8 Model.Exn Model.Monad Model.Address Model.Typed Model.EE Spec.EagerEE.

(** Something a SCORE may do on the way, whatever comes of it. *)
Inductive op :=
| OGet (key : bytes) | OPut (key value : bytes) | ODelete (key : bytes) | OContains (prefix value : bytes)
| OEvent (size : Z) (indexed data : list (option bytes)) | OBalance (addr : bytes)
| OStep (ty : step_type) (step : Z) | OFee (pct : Z).
Fixpoint doing (l : list op) (p : prog) : prog :=
  match l with
  | [] => p
  | OGet k :: r => PGet k (fun _ => doing r p)
  | OPut k v :: r => PPut k v (fun _ => doing r p)
  | ODelete k :: r => PDelete k (fun _ => doing r p)
  | OContains a v :: r => PContains a v (fun _ => doing r p)
  | OEvent n i d :: r => PEvent n i d (fun _ => doing r p)
  | OBalance a :: r => PBalance a (fun _ => doing r p)
  | OStep t n :: r => PStep t n (fun _ => doing r p)
  | OFee n :: r => PFee n (fun _ => doing r p)
  end.

(** A caller: what it does first, whom it calls, what the callee does while being created, whether the called
    method is read-only or the call a query, and the message it re-raises with. *)
Record level := mk_level {
  lv_before : list op; lv_call : call_args; lv_init : list op; lv_readonly : bool; lv_query : bool; lv_message : pystr
}.

(** The node hands the callee's result back to the caller. *)
Definition give_back (r : Z * Z * typed) (_ : nstate) : node := NReply (fst (fst r)) (snd (fst r)) (snd r).

(** The body of the outermost SCORE; the innermost one does [last] and raises [e]. *)
Fixpoint chain (k : costs) (ls : list level) (last : list op) (e : exn) (m : pystr) : prog :=
  match ls with
  | [] => doing last (PRaise e m)
  | l :: r =>
      doing (lv_before l)
        (PCall (lv_call l)
           (fun limit _ => NInvoke (mk_request (ca_to (lv_call l)) (lv_query l) (lv_readonly l) limit k)
                             (doing (lv_init l) (PRet VNone)) (chain k r last e m) give_back)
           (fun o => match o with inl e' => PRaise e' (lv_message l) | inr v => PRet v end))
  end.

(** Its arguments and messages can be put on the wire. *)
Definition sendable (l : level) : Prop :=
  valid_str (lv_message l) /\
  exists t, encode_any (VDict [(DKStr str_method, VStr (ca_method (lv_call l))); (DKStr str_params, ca_params (lv_call l))]) = Ok t.

(** The statuses reported, newest first. *)
Definition statuses (l : list act) : list Z := flat_map (fun a => match a with AResult st _ _ => [st] | _ => [] end) l.
