(** Call frames of a transaction.

    Models [service/contract/callcontext.go] and
    [service/contract/callframe.go]: the stack of frames which a transaction
    (or a query) builds while contracts call each other, with the world
    snapshot, the event logs, the BTP messages, the steps and the fee payers
    every frame carries.

    What runs inside a frame (an execution engine, a system contract, a
    transfer) is the environment: it produces the actions below, in any order
    and number.  Simplifications, everywhere in this file:
    - the world is an arbitrary type [W]; taking a snapshot copies it and
      [Reset] restores it (service/state/worldstate.go:112-180);
    - a handler's change of the world is an arbitrary function [W -> W];
    - execution IDs ([code2EID]), custom logs, trace logs, timers, the
      limit on the number of calls, and locks are not modelled: messages of
      the engines are already serialized by the channel [cc.waiter]. *)
Require Import ZArith List Bool.
Import ListNotations.
Open Scope Z_scope.

Section Frames.
  (** [W] the world, [E] an event log, [M] a BTP message, [A] an address. *)
  Variables W E M A : Type.

  (** service/contract/feepayerinfo.go:31-39, [FeePayer].  The pointer
      [parent] is the number of the payer it points to; [p_id] is the
      identity of the object, given when it is allocated.  [steps] and
      [baseSteps] are nil together. *)
  Record payer := mkPayer {
    p_id : nat;
    p_addr : A;
    p_portion : Z;
    p_steps : option Z;
    p_base : option Z;
    p_parent : option nat
  }.

  (** service/contract/callframe.go:21-37, [callFrame].  [f_sync] tells that
      the frame was pushed by [Call] (so it is the [target] of that call)
      and not by a message of an engine. [f_limit]: the step limit, never nil
      for a transaction. *)
  Record frame := mkFrame {
    f_fid : nat;
    f_sync : bool;
    f_readonly : bool;
    f_snap : option W;
    f_used : Z;
    f_limit : Z;
    f_logs : list E;
    f_msgs : list M;
    f_payers : list (option payer)
  }.

  (** service/contract/callcontext.go:93-111, [callContext]: the current
      frame is the head of the list and the base frame is its last member.
      [c_nextpid] numbers the payers which are allocated. *)
  Record cfg := mkCfg {
    c_world : W;
    c_stack : list frame;
    c_nextfid : nat;
    c_nextpid : nat
  }.

  (** Revision and fee policy: [FeeSharingEnabled] and the revision flag
      [MultipleFeePayers]. *)
  Record policy := mkPolicy { fee_sharing : bool; multiple_payers : bool }.

  (** What happens while a transaction runs. *)
  Inductive action :=
  | AWrite (g : W -> W)              (* the current frame changes the world *)
  | AEvent (e : E)                   (* OnEvent *)
  | AMessage (m : M)                 (* OnBTPMessage *)
  | ASpend (n : Z)                   (* ApplySteps, DeductSteps *)
  | APortion (a : A) (portion : Z)   (* SetFeeProportion *)
  | AReadOnly                        (* EnterReadOnlyMode *)
  | ACall (sync : bool) (limit : Z)  (* Call, or OnCall of an engine *)
  | AReturn (used : Z) (status : option Z) (* the current frame ends; None: no error *)
  | AAbort.                          (* timeout or critical failure *)

  (** callframe.go:53-65, [deductSteps] (the boolean result is used by the
      handlers only). *)
  Definition deduct (f : frame) (n : Z) : frame :=
    let u := f_used f + n in
    let u := if f_limit f <? u then f_limit f else u in
    mkFrame (f_fid f) (f_sync f) (f_readonly f) (f_snap f) u (f_limit f)
            (f_logs f) (f_msgs f) (f_payers f).

  (** callframe.go:53-65, the boolean result of [deductSteps]. *)
  Definition deduct_ok (f : frame) (n : Z) : bool :=
    negb (f_limit f <? f_used f + n).

  (** callframe.go:71-77, [getStepAvailable]. *)
  Definition available (f : frame) : Z := f_limit f - f_used f.

  (** callframe.go:79-88, [addLog]. *)
  Definition add_log (f : frame) (e : E) : frame :=
    if f_readonly f then f else
    mkFrame (f_fid f) (f_sync f) (f_readonly f) (f_snap f) (f_used f) (f_limit f)
            (f_logs f ++ [e]) (f_msgs f) (f_payers f).

  (** callframe.go:106-112, [addBTPMessage]. *)
  Definition add_msg (f : frame) (m : M) : frame :=
    if f_readonly f then f else
    mkFrame (f_fid f) (f_sync f) (f_readonly f) (f_snap f) (f_used f) (f_limit f)
            (f_logs f) (f_msgs f ++ [m]) (f_payers f).

  Definition set_payers (f : frame) (p : list (option payer)) : frame :=
    mkFrame (f_fid f) (f_sync f) (f_readonly f) (f_snap f) (f_used f) (f_limit f)
            (f_logs f) (f_msgs f) p.

  (** feepayerinfo.go:118-131, [FeePayerInfo.SetFeeProportion]: the last
      member of the list is the payer of the frame itself.  A nil payer
      address is not modelled. *)
  Definition set_portion (ps : list (option payer)) (id : nat) (a : A) (portion : Z)
    : list (option payer) :=
    if (portion <? 0) || (100 <? portion) then ps
    else
      let fp := if portion =? 0 then None
                else Some (mkPayer id a portion None None None) in
      removelast ps ++ [fp].

  (** feepayerinfo.go:82-85, [calcStepsToPay] (big.Int Div with a positive
      divisor rounds down). *)
  Definition calc_steps (p : payer) (s : Z) : Z := s * p_portion p / 100.

  (** feepayerinfo.go:87-93, [ensureStepsToPay]. *)
  Definition ensure_steps (p : payer) (s : Z) : payer :=
    match p_steps p with
    | Some _ => p
    | None => mkPayer (p_id p) (p_addr p) (p_portion p)
                      (Some (calc_steps p s)) (Some s) (p_parent p)
    end.

  Definition steps_of (p : payer) : Z :=
    match p_steps p with Some n => n | None => 0 end.

  (** feepayerinfo.go:109-116, [payers]: all but the last, and the last. *)
  Definition own_of (ps : list (option payer)) : option payer :=
    last ps None.

  (** feepayerinfo.go:133-142, [setParentOfSub]. *)
  Definition set_parent_of_sub (ps : list (option payer)) : list (option payer) :=
    match own_of ps with
    | None => ps
    | Some own =>
        map (fun o => match o with
                      | Some p =>
                          match p_parent p with
                          | None => Some (mkPayer (p_id p) (p_addr p) (p_portion p)
                                                  (p_steps p) (p_base p) (Some (p_id own)))
                          | Some _ => Some p
                          end
                      | None => None
                      end) (removelast ps) ++ [Some own]
    end.

  (** feepayerinfo.go:152-157, the loop of [Apply]: every payer of the frame
      which ends takes its part of the steps the frame has used. *)
  Fixpoint apply_steps (ps : list (option payer)) (steps : Z) : list (option payer) :=
    match ps with
    | [] => []
    | None :: rest => apply_steps rest steps
    | Some p :: rest =>
        let p' := ensure_steps p steps in
        Some p' :: apply_steps rest (steps - steps_of p')
    end.

  (** feepayerinfo.go:144-160, [Apply]. *)
  Definition apply_payers (ps ps2 : list (option payer)) (steps : Z)
    : list (option payer) :=
    removelast ps ++ apply_steps (set_parent_of_sub ps2) steps ++ [own_of ps].

  (** callcontext.go:141-155, [pushFrame] with callframe.go:39-51,
      [NewFrame]. *)
  Definition push (c : cfg) (parent : frame) (sync : bool) (limit : Z) : cfg :=
    let ro := f_readonly parent in
    let f := mkFrame (c_nextfid c) sync ro
                     (if ro then None else Some (c_world c)) 0 limit [] [] [] in
    mkCfg (c_world c) (f :: c_stack c) (S (c_nextfid c)) (c_nextpid c).

  (** The world after [cc.Reset(frame.snapshot)]; nothing is done for a frame
      which is read-only. *)
  Definition reset_to (f : frame) (w : W) : W :=
    if f_readonly f then w
    else match f_snap f with Some s => s | None => w end.

  (** callcontext.go:157-177, [popFrame], with callframe.go:90-97
      ([applyFrameLogsOf]), 114-118 ([applyBTPMessagesOf]) and 190-192
      ([applyFeePayerInfoOf]). *)
  Definition pop (c : cfg) (f parent : frame) (rest : list frame) (ok : bool) : cfg :=
    if f_readonly f then mkCfg (c_world c) (parent :: rest) (c_nextfid c) (c_nextpid c)
    else if ok then
      let parent' :=
        mkFrame (f_fid parent) (f_sync parent) (f_readonly parent) (f_snap parent)
                (f_used parent) (f_limit parent)
                (f_logs parent ++ f_logs f) (f_msgs parent ++ f_msgs f)
                (apply_payers (f_payers parent) (f_payers f) (f_used f)) in
      mkCfg (c_world c) (parent' :: rest) (c_nextfid c) (c_nextpid c)
    else mkCfg (reset_to f (c_world c)) (parent :: rest) (c_nextfid c) (c_nextpid c).

  (** callcontext.go:351-379, [cleanUpFrames]: drops the frames down to the
      target of the innermost [Call], included, and resets the world to the
      snapshot of the target.  [None]: there is no target. *)
  Fixpoint clean_up (stack : list frame) (w : W) : option (W * list frame) :=
    match stack with
    | [] => None
    | f :: rest => if f_sync f then Some (reset_to f w, rest) else clean_up rest w
    end.

  (** callframe.go:124-132, [enterReadOnlyMode]. *)
  Definition enter_readonly (c : cfg) (f : frame) (rest : list frame) : cfg :=
    if f_readonly f then c
    else mkCfg (reset_to f (c_world c))
               (mkFrame (f_fid f) (f_sync f) true None (f_used f) (f_limit f) [] []
                        (f_payers f) :: rest)
               (c_nextfid c) (c_nextpid c).

  (** callcontext.go:596-609, [SetFeeProportion]: the first frame (number 2)
      sets the payer of the base frame. *)
  Definition set_fee (pol : policy) (c : cfg) (f : frame) (rest : list frame)
      (a : A) (portion : Z) : cfg :=
    if negb (fee_sharing pol) then c
    else if Nat.eqb (f_fid f) 2 then
      match rest with
      | parent :: rest' =>
          mkCfg (c_world c)
                (f :: set_payers parent (set_portion (f_payers parent) (c_nextpid c) a portion)
                   :: rest')
                (c_nextfid c) (S (c_nextpid c))
      | [] => c
      end
    else if multiple_payers pol then
      mkCfg (c_world c)
            (set_payers f (set_portion (f_payers f) (c_nextpid c) a portion) :: rest)
            (c_nextfid c) (S (c_nextpid c))
    else c.

  (** One action.  [None]: the program cannot do it in this state.
      - A handler refuses to change the world in a read-only frame:
        callhandler.go:440-484 ([SetValue], [DeleteValue]),
        transferhandler.go:38, deposithandler.go:94, deployhandler.go:273,
        and callhandler.go:345-348 (a method which is not read-only cannot be
        called from a read-only frame).
      - The base frame has no handler: it calls with [Call] only
        (transactionhandler.go:149), it does not return and it does not enter
        read-only mode.
      - [AReturn]: [waitResult] and [handleResult], callcontext.go:316-349 and
        381-415: the steps the engine reports are deducted from the current
        frame, which is then popped. *)
  Definition step (pol : policy) (c : cfg) (a : action) : option cfg :=
    match c_stack c with
    | [] => None
    | f :: rest =>
        match a with
        | AWrite g =>
            if f_readonly f then Some c
            else Some (mkCfg (g (c_world c)) (c_stack c) (c_nextfid c) (c_nextpid c))
        | AEvent e => Some (mkCfg (c_world c) (add_log f e :: rest) (c_nextfid c) (c_nextpid c))
        | AMessage m => Some (mkCfg (c_world c) (add_msg f m :: rest) (c_nextfid c) (c_nextpid c))
        | ASpend n => Some (mkCfg (c_world c) (deduct f n :: rest) (c_nextfid c) (c_nextpid c))
        | APortion ad n =>
            match rest with
            | [] => None
            | _ => Some (set_fee pol c f rest ad n)
            end
        | AReadOnly =>
            match rest with
            | [] => None
            | _ => Some (enter_readonly c f rest)
            end
        | ACall sync limit =>
            match rest, sync with
            | [], false => None
            | _, _ => Some (push c f sync limit)
            end
        | AReturn used status =>
            match rest with
            | [] => None
            | parent :: rest' =>
                Some (pop c (deduct f used) parent rest'
                          (match status with None => true | Some _ => false end))
            end
        | AAbort =>
            match clean_up (c_stack c) (c_world c) with
            | None => None
            | Some (w, stack) => Some (mkCfg w stack (c_nextfid c) (c_nextpid c))
            end
        end
    end.

  Fixpoint run (pol : policy) (c : cfg) (l : list action) : option cfg :=
    match l with
    | [] => Some c
    | a :: rest => match step pol c a with
                   | None => None
                   | Some c' => run pol c' rest
                   end
    end.

  (** callcontext.go:117-129, [NewCallContext]: the base frame has number 1
      and is read-only for a query; its snapshot is nil. *)
  Definition new_context (w : W) (limit : Z) (is_query : bool) : cfg :=
    mkCfg w [mkFrame 1 false is_query None 0 limit [] [] []] 2 0.

End Frames.

Arguments mkPayer {A}. Arguments p_id {A}. Arguments p_addr {A}. Arguments p_portion {A}.
Arguments p_steps {A}. Arguments p_base {A}. Arguments p_parent {A}.
Arguments mkFrame {W E M A}. Arguments f_fid {W E M A}. Arguments f_sync {W E M A}.
Arguments f_readonly {W E M A}. Arguments f_snap {W E M A}. Arguments f_used {W E M A}.
Arguments f_limit {W E M A}. Arguments f_logs {W E M A}. Arguments f_msgs {W E M A}.
Arguments f_payers {W E M A}.
Arguments mkCfg {W E M A}. Arguments c_world {W E M A}. Arguments c_stack {W E M A}.
Arguments c_nextfid {W E M A}. Arguments c_nextpid {W E M A}.
Arguments AWrite {W E M A}. Arguments AEvent {W E M A}. Arguments AMessage {W E M A}.
Arguments ASpend {W E M A}. Arguments APortion {W E M A}. Arguments AReadOnly {W E M A}.
Arguments ACall {W E M A}. Arguments AReturn {W E M A}. Arguments AAbort {W E M A}.
Arguments deduct {W E M A}. Arguments deduct_ok {W E M A}. Arguments available {W E M A}.
Arguments add_log {W E M A}. Arguments add_msg {W E M A}. Arguments set_payers {W E M A}.
Arguments set_portion {A}. Arguments calc_steps {A}. Arguments ensure_steps {A}.
Arguments steps_of {A}. Arguments own_of {A}. Arguments set_parent_of_sub {A}.
Arguments apply_steps {A}. Arguments apply_payers {A}.
Arguments push {W E M A}. Arguments reset_to {W E M A}. Arguments pop {W E M A}.
Arguments clean_up {W E M A}. Arguments enter_readonly {W E M A}. Arguments set_fee {W E M A}.
Arguments step {W E M A}. Arguments run {W E M A}. Arguments new_context {W E M A}.
