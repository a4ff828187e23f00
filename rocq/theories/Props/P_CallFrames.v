(** C62, C63: the calls of a transaction. *)
Require Import ZArith List Bool Lia.
From Verif.Model Require Import CallFrames.
From Verif.Spec Require Import CallSpec.
From Verif.Proof Require Import CallFacts CallTrace.
Import ListNotations.
Open Scope Z_scope.

(** ** C62: a call which fails leaves no trace *)

(** Whatever the contracts and the engines do, a transaction whose calls have
    all ended is a tree of calls, and its world, its event logs and its
    messages are those of the calls which did not fail, whose callers did not
    fail, in the order in which they were made. *)
Theorem C62_transaction : forall W E M A (pol : policy) (w : W) (limit : Z)
    (l : list (action W E M A)) (c : cfg W E M A),
  run pol (new_context w limit false) l = Some c ->
  List.length (c_stack c) = 1%nat ->
  exists (t : list (node W E M A)) (base : frame W E M A),
    tree false t /\ flat_map actions t = l /\
    c_world c = apply_all (flat_map writes t) w /\
    c_stack c = [base] /\
    f_logs base = flat_map events t /\
    f_msgs base = flat_map messages t.
Proof.
  intros W E M A pol w limit l c H Hlen.
  assert (R0 : rel W E M A w false (c_stack (new_context (E:=E) (M:=M) (A:=A) w limit false))
                   (c_world (new_context (E:=E) (M:=M) (A:=A) w limit false)) []).
  { apply rel_start. }
  pose proof (rel_run W E M A w false pol l _ [] c R0 H) as R.
  destruct (c_stack c) as [|b [|x y]] eqn:Hst; try discriminate Hlen.
  inversion R as [f body Hs Hb Ha Hf Hw Ht|]; subst.
  exists body, b. destruct Ha as [A1 A2 A3 A4]. rewrite Hb in A2. cbn in A2. rewrite A2 in *.
  repeat (split; [solve [auto]|]). auto.
Qed.
Print Assumptions C62_transaction.

(** One call, at any depth: the world and all that the frames of its callers
    hold (logs, messages, steps, limits) are as before the call when it
    fails.  The agreement of the first call to share the fee is kept by the
    transaction itself and stays. *)
Theorem C62_failed_call : forall W E M A (pol : policy) (c c1 c2 c3 : cfg W E M A)
    (sync : bool) (limit : Z) (l : list (action W E M A)) (used code : Z),
  step pol c (ACall sync limit) = Some c1 ->
  stays pol (List.length (c_stack c)) c1 l ->
  run pol c1 l = Some c2 ->
  List.length (c_stack c2) = S (List.length (c_stack c)) ->
  step pol c2 (AReturn used (Some code)) = Some c3 ->
  c_world c3 = c_world c /\
  map without_payers (c_stack c3) = map without_payers (c_stack c).
Proof.
  intros W E M A pol c c1 c2 c3 sync limit l used code H1 H2 H3 H4 H5.
  apply (no_trace_return W E M A pol c sync limit c1 l c2 used (Some code) c3); auto.
  left. discriminate.
Qed.
Print Assumptions C62_failed_call.

(** The same for a call which is cut by a timeout or a critical failure, at
    any moment and with any number of calls running inside. *)
Theorem C62_cut_call : forall W E M A (pol : policy) (c c1 c2 c3 : cfg W E M A)
    (sync : bool) (limit : Z) (l : list (action W E M A)),
  step pol c (ACall sync limit) = Some c1 ->
  stays pol (List.length (c_stack c)) c1 l ->
  run pol c1 l = Some c2 ->
  step pol c2 AAbort = Some c3 ->
  List.length (c_stack c3) = List.length (c_stack c) ->
  c_world c3 = c_world c /\
  map without_payers (c_stack c3) = map without_payers (c_stack c).
Proof.
  intros W E M A pol c c1 c2 c3 sync limit l H1 H2 H3 H4 H5.
  apply (no_trace_abort W E M A pol c sync limit c1 l c2 c3); auto.
Qed.
Print Assumptions C62_cut_call.

(** Steps: no frame uses more than its limit, whatever the engines report,
    and the transaction no more than its own. *)
Theorem C62_steps : forall W E M A (pol : policy) (w : W) (limit : Z) (q : bool)
    (l : list (action W E M A)) (c : cfg W E M A),
  0 <= limit ->
  Forall (fun a => match a with
                   | ASpend n => 0 <= n
                   | ACall _ lim => 0 <= lim
                   | AReturn u _ => 0 <= u
                   | _ => True
                   end) l ->
  run pol (new_context w limit q) l = Some c ->
  Forall (fun f => 0 <= f_used f <= f_limit f) (c_stack c) /\
  (exists above base, c_stack c = above ++ [base] /\ 0 <= f_used base <= limit).
Proof.
  intros W E M A pol w limit q l c Hl Hf H.
  assert (B : Forall (bounded W E M A) (c_stack c)).
  { apply (bounded_run W E M A pol l (new_context w limit q) c); [|exact Hf|exact H].
    cbn. constructor; [|constructor]. unfold bounded. cbn. lia. }
  split; [exact B|].
  assert (Bs : based W E M A limit (c_stack c)).
  { apply (based_run W E M A limit pol l (new_context w limit q) c); [|exact H]. cbn. auto. }
  clear H. revert B Bs. generalize (c_stack c). induction l0 as [|f [|g l0] IH]; intros B Bs.
  - destruct Bs.
  - exists [], f. split; [reflexivity|]. cbn in Bs. destruct Bs as [Bs _].
    inversion B as [|? ? B1 _]; subst. unfold bounded in B1. lia.
  - inversion B as [|? ? B1 B2]; subst. destruct (IH B2 Bs) as (ab & ba & E1 & E2).
    exists (f :: ab), ba. rewrite E1. split; [reflexivity|exact E2].
Qed.
Print Assumptions C62_steps.

(** ** C63: read-only calls and queries change nothing *)

(** A call which has become read-only leaves no trace even if it succeeds,
    and whatever it did before. *)
Theorem C63_readonly_call : forall W E M A (pol : policy) (c c1 c2 c3 : cfg W E M A)
    (sync : bool) (limit : Z) (l : list (action W E M A)) (used : Z) (status : option Z)
    (f : frame W E M A) (rest : list (frame W E M A)),
  step pol c (ACall sync limit) = Some c1 ->
  stays pol (List.length (c_stack c)) c1 l ->
  run pol c1 l = Some c2 ->
  c_stack c2 = f :: rest ->
  List.length rest = List.length (c_stack c) ->
  f_readonly f = true ->
  step pol c2 (AReturn used status) = Some c3 ->
  c_world c3 = c_world c /\
  map without_payers (c_stack c3) = map without_payers (c_stack c).
Proof.
  intros W E M A pol c c1 c2 c3 sync limit l used status f rest H1 H2 H3 Hst Hlen Hro H5.
  apply (no_trace_return W E M A pol c sync limit c1 l c2 used status c3); auto.
  - rewrite Hst. cbn. congruence.
  - right. rewrite Hst. exact Hro.
Qed.
Print Assumptions C63_readonly_call.

(** A query changes nothing and logs nothing, at any time of its execution. *)
Theorem C63_query : forall W E M A (pol : policy) (w : W) (limit : Z)
    (l : list (action W E M A)) (c : cfg W E M A),
  run pol (new_context w limit true) l = Some c ->
  c_world c = w /\
  Forall (fun f => f_readonly f = true /\ f_logs f = [] /\ f_msgs f = []) (c_stack c).
Proof.
  intros W E M A pol w limit l c H.
  assert (R0 : rel W E M A w true (c_stack (new_context (E:=E) (M:=M) (A:=A) w limit true))
                   (c_world (new_context (E:=E) (M:=M) (A:=A) w limit true)) []).
  { apply rel_start. }
  pose proof (rel_run W E M A w true pol l _ [] c R0 H) as R. clear R0 H.
  induction R as [f body Hs Hb [A1 A2 A3 A4]|f body lim p rest w1 tr Hp IH [A1 A2 A3 A4] Hsn Hbase].
  - cbn in A2. rewrite A2 in *. split; [reflexivity|]. constructor; [|constructor]. auto.
  - destruct IH as [IH1 IH2]. inversion IH2 as [|? ? B1 B2]; subst.
    destruct B1 as [B1 _]. rewrite B1 in A2. cbn in A2. rewrite A2 in *.
    split; [reflexivity|]. constructor; [|exact IH2]. auto.
Qed.
Print Assumptions C63_query.

(** ** Cases which meet the hypotheses *)

(** A transaction with a failed call inside, a read-only call, and a call
    which is cut. *)
Definition C62_example : list (action (list Z) Z Z Z) :=
  [ACall true 100;
     AWrite (cons 1); AEvent 11;
     ACall false 50; AWrite (cons 2); AEvent 12; AMessage 22;
       ACall false 20; AWrite (cons 3); AEvent 13; AReturn 5 None;
     AReturn 10 (Some 32);
     ACall false 50; AWrite (cons 4); AReadOnly; AWrite (cons 5); AReturn 3 None;
     ACall false 50; AWrite (cons 6); AEvent 16; AReturn 4 None;
     AWrite (cons 7); AMessage 27;
     ACall true 30; AWrite (cons 8); ACall false 10; AWrite (cons 9); AAbort;
   AReturn 60 None; ASpend 60].

Example C62_runs :
  match run (mkPolicy true true) (new_context [0] 1000 false) C62_example with
  | Some c => (c_world c, map (@f_logs _ _ _ _) (c_stack c), map (@f_msgs _ _ _ _) (c_stack c),
               map (@f_used _ _ _ _) (c_stack c))
  | None => ([], [], [], [])
  end = ([7; 6; 1; 0], [[11; 16]], [[27]], [60]).
Proof. vm_compute. reflexivity. Qed.

(** A failing call inside a transaction. *)
Example C62_failed_meets :
  exists c c1 c2 c3 : cfg (list Z) Z Z Z,
    run (mkPolicy true true) (new_context [0] 1000 false) [ACall true 100; AWrite (cons 1); AEvent 11] = Some c /\
    step (mkPolicy true true) c (ACall false 50) = Some c1 /\
    stays (mkPolicy true true) (List.length (c_stack c)) c1 [AWrite (cons 2); AEvent 12; AMessage 3] /\
    run (mkPolicy true true) c1 [AWrite (cons 2); AEvent 12; AMessage 3] = Some c2 /\
    List.length (c_stack c2) = S (List.length (c_stack c)) /\
    step (mkPolicy true true) c2 (AReturn 10 (Some 32)) = Some c3 /\
    (c_world c, c_world c2, c_world c3) = ([1; 0], [2; 1; 0], [1; 0]).
Proof. repeat eexists; cbn; try reflexivity; lia. Qed.

(** A query. *)
Example C63_query_runs :
  match run (mkPolicy true true) (new_context (A:=Z) (M:=Z) [0] 1000 true)
        [ACall true 100; AWrite (cons 1); AEvent 11; ACall false 20; AReadOnly; AReturn 1 None; AReturn 7 None] with
  | Some c => (c_world c, List.length (c_stack c))
  | None => ([], 0%nat)
  end = ([0], 1%nat).
Proof. vm_compute. reflexivity. Qed.
