(** What every message leaving the executor has to satisfy. *)
From Verif Require Import Model.Bytes Model.Exn Model.Monad Model.Typed Model.EE Spec.EagerEE.

(** C12: whichever SCORE is running, its used steps are within its limit; a RESULT reports no more than the
    limit of the INVOKE it answers. *)
Definition within_limit (e : entry) : Prop :=
  (forall c, e_running e = Some c -> cx_used c <= cx_limit c) /\
  (forall st used t, e_msg e = MResult st used t -> exists rq, e_req e = Some rq /\ used <= rq_limit rq).

(** C11: writes, events and fee settings leave only for requests that are no queries, and writes and events
    only from methods that are not read-only (or from the SCORE's constructor, before the method runs). *)
Definition no_forbidden_write (e : entry) : Prop :=
  match e_msg e with
  | MSetValue _ _ _ _ | MEvent _ _ =>
      exists rq c, e_req e = Some rq /\ e_running e = Some c /\ rq_query rq = false /\
        (cx_func c = None \/ rq_readonly rq = false)
  | MSetFeePct p => exists rq, e_req e = Some rq /\ rq_query rq = false /\ 0 < p <= 100
  | _ => True
  end.

(** C14: the number of outstanding write replies. *)
Definition few_pending (e : entry) : Prop :=
  (e_pending e <= 5)%nat /\
  match e_msg e with
  | MCall _ _ _ _ | MResult _ _ _ | MSetFeePct _ => e_pending e = 0%nat
  | _ => True
  end.

(** C17: a call passes on exactly the remaining steps. *)
Definition call_limit (e : entry) : Prop :=
  match e_msg e with
  | MCall _ _ limit _ => exists c, e_running e = Some c /\ limit = cx_limit c - cx_used c
  | _ => True
  end.

Definition entry_ok (e : entry) : Prop :=
  within_limit e /\ no_forbidden_write e /\ few_pending e /\ call_limit e.

(** C15: in the sequence of actions (oldest first) every INVOKE is closed by exactly one RESULT, properly
    nested. *)
Definition plain (a : act) : Prop := match a with AInvoke _ | AResult _ _ _ => False | _ => True end.
Inductive answered : list act -> Prop :=
| an_nil : answered []
| an_plain a l : plain a -> answered l -> answered (a :: l)
| an_invoke rq inner status used t l : answered inner -> answered l ->
    answered (AInvoke rq :: inner ++ AResult status used t :: l).
