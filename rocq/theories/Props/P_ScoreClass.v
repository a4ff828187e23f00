(** C19, C29, C30: what a SCORE class exposes. *)
From Verif Require Import Model.Bytes Model.Utf8 Model.Exn Model.Typed Model.ScoreClass Model.ScoreApi Spec.ClassSpec Proof.ScoreClassFacts Proof.ScoreApiFacts Proof.DispatchFacts.

(** ** C29 *)

(** A class is accepted only when each of its methods has one of the seven allowed decorator lists, and its hooks
    have none.  (A hook that is still abstract cannot be instantiated; names with two leading underscores are not
    looked at.) *)
Theorem C29_accepted cls els name f : elements_of cls = Ok els -> In (name, f) cls -> str_prefix STR_DUNDER name = false ->
  (is_hook name = true -> fn_abstract f = false) ->
  forall ds g, fn_flags g = 0 -> decorate_all ds g = Ok f ->
  allowed_decorators ds /\ (is_hook name = true -> ds = []).
Proof.
  intros H Hin D NA ds g G0 Hd. destruct (member_of _ _ _ _ H Hin) as (le & M). apply member_ok in M.
  assert (NIL : Z.land (fn_flags f) ALL = 0 -> ds = []).
  { intros Z0. destruct ds as [|d ds]; [reflexivity|exfalso]. apply decorate_all_cons in Hd. destruct Hd as (g1 & H1 & H2). apply decorate_spec in H1. destruct H1 as (_ & F & _).
    apply decorate_all_keeps in H2. destruct H2 as (_ & S). rewrite G0, Z.lor_0_r in F. rewrite F in S. unfold sub_flags in S.
    assert (A : Z.land (dec_bits (str_eqb (fn_name g) STR_FALLBACK) d) ALL = 0).
    { rewrite <- S, <- Z.land_assoc, Z0. apply Z.land_0_r. }
    destruct d as [[]| | | |]; cbn in A; try discriminate. destruct (str_eqb (fn_name g) STR_FALLBACK); discriminate. }
  destruct M as [(D' & _)|[(_ & Hh & A & _)|[(_ & Hh & A & F0 & _)|[(_ & Hh & U & _)|(_ & Hh & U & _)]]]]; try congruence.
  - specialize (NA Hh). congruence.
  - rewrite (NIL F0). split; [constructor|reflexivity].
  - split; [eapply allowed; eauto|congruence].
  - split; [eapply allowed; eauto|congruence].
Qed.
Print Assumptions C29_accepted.

(** So no method is both read-only and payable, [fallback] is never external, an event is neither external nor
    payable and has at most three indexed parameters, no more than it has parameters. *)
Theorem C29_exclusive cls els name f : own_names cls -> elements_of cls = Ok els -> In (name, f) cls -> str_prefix STR_DUNDER name = false -> is_hook name = false ->
  ~ (is_readonly f /\ is_payable f) /\ (name = STR_FALLBACK -> ~ is_external f) /\ (is_readonly f -> is_external f) /\
  (is_event f -> ~ is_external f /\ ~ is_payable f /\ exists n, fn_indexed f = Some n /\ n <= 3 /\ n <= Z.of_nat (length (own_params f))).
Proof.
  intros (_ & ON) H Hin D Hh. destruct (member_of _ _ _ _ H Hin) as (le & M). apply member_ok in M. rewrite Forall_forall in ON. destruct (ON _ Hin) as (Nm & Dc). cbn [fst snd] in *.
  assert (U : usable (fn_flags f)) by (destruct M as [(D' & _)|[(_ & Hh' & A & _)|[(_ & Hh' & A & F0 & _)|[(_ & _ & U & _)|(_ & _ & U & _)]]]]; congruence || exact U).
  destruct (declared_flags f Dc U) as (I8 & N12 & N4 & NE & I256). rewrite Nm in NE.
  split; [|split; [|split]].
  - unfold is_readonly, is_payable, READONLY, PAYABLE. cbn [In] in I8. intros (A & B). destruct I8 as [Q|[Q|[Q|[Q|[Q|[Q|[Q|[Q|[]]]]]]]]]; rewrite <- Q in *; cbn in A, B; congruence.
  - intros E X. exact (NE X E).
  - unfold is_readonly, is_external, READONLY, EXTERNAL. cbn [In] in I8. intros A. destruct I8 as [Q|[Q|[Q|[Q|[Q|[Q|[Q|[Q|[]]]]]]]]]; rewrite <- Q in *; cbn in *; congruence.
  - unfold is_event, is_external, is_payable, EVENTLOG, EXTERNAL, PAYABLE. intros A. assert (Q : fn_flags f = 256).
    { cbn [In] in I8. destruct I8 as [Q|[Q|[Q|[Q|[Q|[Q|[Q|[Q|[]]]]]]]]]; rewrite <- Q in *; cbn in *; congruence. }
    specialize (I256 Q). rewrite Q. cbn. split; [congruence|]. split; [congruence|exact I256].
Qed.
Print Assumptions C29_exclusive.

(** Conversely, a class whose members all have an allowed list and a signature that can be read is accepted. *)
Theorem C29_allowed cls :
  (forall name f, In (name, f) cls -> fn_name f = name /\ (exists sig, normalize_signature f = Ok sig /\ (name = STR_FALLBACK -> sig = [] /\ normalize_return f = None)) /\
     exists ds g, fn_flags g = 0 /\ fn_indexed g = None /\ decorate_all ds g = Ok f /\ allowed_decorators ds /\ (is_hook name = true -> ds = [])) ->
  exists els, elements_of cls = Ok els.
Proof.
  intros H.
  assert (M : forall m, In m cls -> exists le, member_element m = Ok le).
  { intros (name, f) Hin. destruct (H _ _ Hin) as (Nm & (sig & Hs & Hf) & ds & g & G0 & GI & Hd & A & Hk).
    assert (FM : (all_flag_on (fn_flags f) (Z.lor FALLBACK PAYABLE) = true -> name = STR_FALLBACK) -> exists e, function_metadata f = Ok e).
    { intros Q. unfold function_metadata. rewrite Hs. cbn [res_bind]. destruct (all_flag_on _ _); [|eauto]. destruct (Hf (Q eq_refl)) as (-> & ->). eauto. }
    assert (EM : exists e, event_metadata f = Ok e) by (unfold event_metadata; rewrite Hs; cbn; eauto).
    cbn [member_element]. destruct (str_prefix STR_DUNDER name); [eauto|].
    destruct (is_hook name) eqn:Hh.
    - destruct (fn_abstract f); [eauto|]. rewrite (Hk eq_refl) in Hd. injection Hd as <-. rewrite G0. cbn.
      destruct FM as (e & ->); [rewrite G0; discriminate|]. cbn. eauto.
    - assert (DC : declared f) by (exists ds, g; auto).
      assert (V : Z.land (fn_flags f) 511 = 0 \/ verify_score_flag (fn_flags f) = Ok tt).
      { destruct A; repeat (apply decorate_all_cons in Hd; let g' := fresh "g" in let D := fresh "D" in destruct Hd as (g' & D & Hd)); injection Hd as <-.
        - left. rewrite G0. reflexivity.
        - apply decorate_spec in D. destruct D as (_ & F & _). right. rewrite F, G0. destruct ro; reflexivity.
        - apply decorate_spec in D, D0. destruct D as ((S & _) & F & _ & X & _), D0 as (_ & F' & _). right. rewrite F', F, G0, S, X. reflexivity.
        - apply decorate_spec in D, D0. destruct D as ((S & _) & F & _ & _ & _), D0 as (_ & F' & _ & X & _). right. rewrite S in X. rewrite F', F, G0, X. reflexivity.
        - apply decorate_spec in D. destruct D as (_ & F & _). right. rewrite F, G0. cbn. destruct (str_eqb _ _); reflexivity.
        - apply decorate_spec in D. destruct D as (_ & F & _). right. rewrite F, G0. reflexivity.
        - apply decorate_spec in D. destruct D as (_ & F & _). left. rewrite F, G0. reflexivity. }
      change (Z.lor FUNC EVENTLOG) with 511. unfold any_flag_on at 1. destruct V as [->|V]; [cbn; eauto|]. destruct (negb _); [|eauto]. rewrite V. cbn [res_bind].
      destruct (any_flag_on (fn_flags f) EVENTLOG); [destruct EM as (e & ->); cbn; eauto|].
      destruct FM as (e & ->); [|cbn; eauto]. intros Q. rewrite <- Nm. apply declared_flags.
      + exact DC.
      + right. apply verify_ok, V.
      + apply verify_ok in V. cbn [In] in V. destruct V as [E|[E|[E|[E|[E|[E|[E|[]]]]]]]]; rewrite <- E in *; try discriminate; reflexivity. }
  unfold elements_of. enough (exists lle, map_res member_element cls = Ok lle) as (lle & ->) by (cbn; eauto). clear H.
  induction cls as [|m cls IH]; [cbn; eauto|]. destruct (M m (or_introl eq_refl)) as (le & E). destruct (IH (fun x Hx => M x (or_intror Hx))) as (lle & E').
  cbn. rewrite E. cbn. rewrite E'. cbn. eauto.
Qed.
Print Assumptions C29_allowed.

(** FINDING: [@isolated] is offered by the SDK, but no class that uses it is accepted. *)
Theorem C29_isolated_refused cls name f : In (name, f) cls -> str_prefix STR_DUNDER name = false -> (is_hook name = true -> fn_abstract f = false) ->
  (exists ds g, fn_flags g = 0 /\ decorate_all ds g = Ok f /\ In DIsolated ds) -> forall els, elements_of cls <> Ok els.
Proof.
  intros Hin D NA (ds & g & G0 & Hd & HI) els H. destruct (C29_accepted cls els name f H Hin D NA ds g G0 Hd) as (A & _).
  destruct A; cbn in HI; intuition discriminate.
Qed.
Print Assumptions C29_isolated_refused.

(** ** A token, as an example *)
Definition py (name : pystr) (params : list param) (ret : option hint) (ds : list decorator) : pystr * func :=
  (name, match decorate_all ds (plain_func name params ret) with Ok f => f | _ => plain_func name [] None end).
Definition arg (n : pystr) (h : hint) : param := mk_param n true (Some h) None.
Definition opt (n : pystr) (h : hint) (d : pyval) : param := mk_param n true (Some h) (Some d).
Definition self := mk_param STR_SELF true None None.
(** "balanceOf", "send", "move", "_helper", "_to", "_value", "_data" *)
Definition n_balance : pystr := [98; 97; 108; 97; 110; 99; 101; 79; 102].
Definition n_send : pystr := [115; 101; 110; 100].
Definition n_move : pystr := [109; 111; 118; 101].
Definition n_Move : pystr := [77; 111; 118; 101].
Definition n_helper : pystr := [95; 104; 101; 108; 112; 101; 114].
Definition a_to : pystr := [95; 116; 111]. Definition a_value : pystr := [95; 118]. Definition a_data : pystr := [95; 100].
Definition a_many : pystr := [95; 109].
Definition token : class_def :=
  [ py STR_ON_INSTALL [self; opt a_value (HBase BInt) (VInt 7)] None [];
    py n_balance [self; arg a_to (HBase BAddress)] (Some (HBase BInt)) [DExternal true];
    py n_send [self; arg a_to (HName STR_ADDRESS); arg a_value (HBase BInt); opt a_data (HBase BBytes) VNone] None [DExternal false; DPayable];
    py n_move [self; arg a_many (HList [HList [HStruct 1 [(a_to, HBase BAddress); (a_value, HList [HBase BInt])]]])] None [DExternal false];
    py n_Move [self; arg a_to (HBase BAddress); arg a_value (HBase BInt)] None [DEventlog 1];
    py STR_FALLBACK [self] None [DPayable];
    py n_helper [self] None [] ].
Lemma py_own name params ret ds f : decorate_all ds (plain_func name params ret) = Ok f -> fn_name (snd (py name params ret ds)) = fst (py name params ret ds) /\ declared (snd (py name params ret ds)).
Proof.
  intros H. unfold py. cbn [fst snd]. rewrite H. split.
  - apply decorate_all_keeps in H. destruct H as ((N & _) & _). exact N.
  - exists ds, (plain_func name params ret). auto.
Qed.
Example token_own : own_names token.
Proof.
  split.
  - repeat constructor; cbn; intuition discriminate.
  - repeat (constructor; [eapply py_own; reflexivity|]). constructor.
Qed.
Ltac dlast := cbn; repeat (apply dl_req; [reflexivity|]); apply dl_opt; repeat (apply Forall_cons; [discriminate|]); constructor.
Example token_defaults : Forall (fun m => defaults_last (own_params (snd m))) token.
Proof. unfold token. repeat (apply Forall_cons; [dlast|]). constructor. Qed.
Example token_accepted : exists els ms, elements_of token = Ok els /\ class_api false token = Ok ms /\
  map (fun m => (wm_name m, wm_type m, wm_flags m, wm_indexed m)) ms =
    [ (STR_ON_INSTALL, 0, 0, 0); (n_balance, 0, 3, 1); (n_send, 0, 6, 2); (n_move, 0, 2, 1); (n_Move, 2, 0, 1); (STR_FALLBACK, 1, 4, 0) ].
Proof. eexists _, _. split; [reflexivity|]. split; reflexivity. Qed.
Example token_refused : elements_of [py n_send [self] None [DExternal true; DPayable]] = Exc (EIcon IllegalFormat) /\
  elements_of [py n_send [self] None [DIsolated]] = Exc (EIcon IllegalFormat).
Proof. split; reflexivity. Qed.

(** ** C19 *)

(** In the executor: which function body [call_method] enters, for every name and value.  A call reaches an external
    method, with a positive value only a payable one; [fallback] only if payable; a hook only without value; and
    nothing else. *)
Theorem C19_executor cls els name value f : own_names cls -> elements_of cls = Ok els ->
  call_method cls els name value = Ok f <->
  lookup name cls = Some f /\
  ((is_hook name = true /\ value <= 0) \/
   (str_prefix STR_DUNDER name = false /\ is_hook name = false /\ name = STR_FALLBACK /\ is_payable f) \/
   (str_prefix STR_DUNDER name = false /\ is_hook name = false /\ name <> STR_FALLBACK /\ is_external f /\ (0 < value -> is_payable f))).
Proof. intros (ND & _). apply call_method_ok, ND. Qed.
Print Assumptions C19_executor.

(** From outside, through the node: a plain transfer, and a call without a name, reach only a payable [fallback]; a
    call with a name reaches only the external method of that name; with a positive value it is payable and not
    read-only; in a read-only execution it is read-only; and what is reached in the executor is that method.  The
    execution is read-only from there if it was or the method is. *)
Theorem C19_node py310 cls els ms msg value external ro m ro' :
  own_names cls -> Forall (fun m => defaults_last (own_params (snd m))) cls ->
  elements_of cls = Ok els -> class_api py310 cls = Ok ms ->
  go_dispatch ms msg value external ro = Ok (m, ro') ->
  exists f, lookup (wm_name m) cls = Some f /\ call_method cls els (wm_name m) value = Ok f /\ is_hook (wm_name m) = false /\
    match msg with
    | Transfer | Call [] => wm_name m = STR_FALLBACK /\ is_payable f
    | Call n => wm_name m = n /\ is_external f
    end /\
    (0 < value -> is_payable f /\ ~ is_readonly f) /\ (ro = true -> is_readonly f) /\ (ro' = true <-> ro = true \/ is_readonly f).
Proof. intros ON DL He Hm. exact (dispatch_reaches py310 cls els ms ON DL He Hm msg value external ro m ro'). Qed.
Print Assumptions C19_node.

(** And every external method is reached under its name (Python identifiers are not empty and have no parenthesis). *)
Theorem C19_reached py310 cls els ms name f value external ro :
  own_names cls -> Forall (fun m => defaults_last (own_params (snd m))) cls -> Forall (fun m => fst m <> [] /\ ~ In 40 (fst m)) cls ->
  elements_of cls = Ok els -> class_api py310 cls = Ok ms ->
  In (name, f) cls -> str_prefix STR_DUNDER name = false -> is_hook name = false -> is_external f ->
  (0 < value -> is_payable f) -> (ro = true -> is_readonly f) ->
  exists m ro', go_dispatch ms (Call name) value external ro = Ok (m, ro') /\ wm_name m = name /\ call_method cls els name value = Ok f.
Proof.
  intros ON DL ID He Hm Hin D Hh X P R. destruct (external_reached py310 cls els ms ON DL He Hm ID name f value external ro Hin D Hh X P R) as (m & G & W).
  exists m. eexists. split; [exact G|]. split; [exact W|]. pose proof ON as (ND & _). apply (C19_executor cls els name value f ON He).
  split; [exact (in_lookup _ _ _ ND Hin)|]. right. right. repeat split; auto. intros ->. 
  destruct (C29_exclusive cls els STR_FALLBACK f ON He Hin D Hh) as (_ & NX & _). exact (NX eq_refl X).
Qed.
Print Assumptions C19_reached.

Example token_calls : forall ms, class_api false token = Ok ms ->
  (exists m, go_dispatch ms Transfer 5 true false = Ok (m, false) /\ wm_name m = STR_FALLBACK) /\
  (exists m, go_dispatch ms (Call n_send) 5 true false = Ok (m, false) /\ wm_name m = n_send) /\
  go_dispatch ms (Call n_move) 5 true false = Exc METHOD_NOT_PAYABLE /\
  go_dispatch ms (Call n_helper) 0 true false = Exc METHOD_NOT_FOUND /\
  go_dispatch ms (Call STR_ON_INSTALL) 0 true false = Exc METHOD_NOT_FOUND /\
  go_dispatch ms (Call n_send) 0 true true = Exc ACCESS_DENIED /\
  (exists m, go_dispatch ms (Call n_balance) 0 true false = Ok (m, true) /\ wm_name m = n_balance).
Proof.
  destruct token_accepted as (els & ms' & _ & H & _). vm_compute in H. intros ms M. vm_compute in M. injection M as <-.
  repeat split; try reflexivity; eexists; split; reflexivity.
Qed.

(** ** C30 *)

(** The node gets one entry, in order, for each hook, external method, event and payable [fallback], and it describes
    the function as declared: kind, flags, number of mandatory parameters (for an event, of indexed ones), and for
    each parameter its name, type code, struct fields and default. *)
Theorem C30_described py310 cls ms : own_names cls -> Forall (fun m => defaults_last (own_params (snd m))) cls -> class_api py310 cls = Ok ms ->
  Forall2 (fun m w => describes (snd m) w) (filter exposed cls) ms.
Proof. apply api_described. Qed.
Print Assumptions C30_described.

(** How many lists a type has around its base type, and which base type it has. *)
Fixpoint depth (h : hint) : Z :=
  match h with
  | HList [a] => 1 + depth a
  | HUnion [a; HNoneType] => depth a
  | HUnion [HNoneType; a] => depth a
  | _ => 0
  end.
Inductive core : hint -> Z -> Prop :=
| co_base b : core (HBase b) (base_code b)
| co_name : core (HName STR_ADDRESS) 5
| co_struct id fs : core (HStruct id fs) 8
| co_list a c : core a c -> core (HList [a]) c
| co_opt a c : core a c -> core (HUnion [a; HNoneType]) c
| co_opt' a c : core a c -> core (HUnion [HNoneType; a]) c.

Lemma code_shape h code ws : described h code ws -> exists c, core h c /\ code = 16 * depth h + c /\ 0 <= depth h /\ 1 <= c <= 8.
Proof.
  induction 1 as [b| |id fs ws|a code ws D (c & C & E & P & Q)|a code ws D (c & C & E & P & Q)|a code ws D (c & C & E & P & Q)].
  - exists (base_code b). split; [constructor|]. destruct b; cbn; lia.
  - exists 5. split; [constructor|]. cbn; lia.
  - exists 8. split; [constructor|]. cbn; lia.
  - exists c. split; [constructor; exact C|]. cbn [depth]. lia.
  - exists c. split; [constructor; exact C|]. destruct a; try (cbn [depth] in *; lia).
  - exists c. split; [constructor; exact C|]. destruct a; try (cbn [depth] in *; lia).
Qed.

Lemma read_code d c : 1 <= c <= 8 -> go_tag (16 * d + c) = c /\ go_list_depth (16 * d + c) = d mod 16.
Proof.
  intros Q. unfold go_tag, go_list_depth. change 15 with (Z.ones 4). rewrite !Z.land_ones, Z.shiftr_div_pow2 by lia. change (2 ^ 4) with 16.
  split.
  - symmetry. apply Z.mod_unique_pos with d; lia.
  - f_equal. symmetry. apply Z.div_unique_pos with c; lia.
Qed.

(** The node reads the type code back exactly for up to 15 lists around the base type ... *)
Theorem C30_decoded h code ws : described h code ws -> depth h <= 15 -> core h (go_tag code) /\ go_list_depth code = depth h.
Proof.
  intros D L. destruct (code_shape _ _ _ D) as (c & C & -> & P & Q). destruct (read_code (depth h) c Q) as (-> & ->).
  split; [exact C|]. apply Z.mod_small. lia.
Qed.
Print Assumptions C30_decoded.

(** ... FINDING: and modulo 16 beyond: the code of a type with 16 lists is read as that of its base type. *)
Theorem C30_violated_depth h code ws : described h code ws -> core h (go_tag code) /\ go_list_depth code = depth h mod 16.
Proof.
  intros D. destruct (code_shape _ _ _ D) as (c & C & -> & P & Q). destruct (read_code (depth h) c Q) as (-> & ->). auto.
Qed.
Print Assumptions C30_violated_depth.
Definition deep (n : nat) : hint := Nat.iter n (fun h => HList [h]) (HBase BInt).
Example deep_class : exists ms, class_api false [py n_move [self; arg a_many (deep 16)] None [DExternal false]] = Ok ms /\
  Forall (fun m => map (fun w => (go_list_depth (wi_code w), go_tag (wi_code w))) (wm_inputs m) = [(0, 1)]) ms /\ ms <> [].
Proof. eexists. split; [reflexivity|]. split; [repeat constructor|discriminate]. Qed.

(** FINDING: a struct that uses the same struct twice is refused as circular. *)
Definition point := HStruct 1 [(a_to, HBase BInt)].
Theorem C30_violated_circular : 
  normalize_type_hint (HStruct 2 [(a_to, point)]) = Ok (HStruct 2 [(a_to, point)]) /\
  normalize_type_hint (HStruct 2 [(a_to, point); (a_value, point)]) = Exc (EIcon IllegalFormat).
Proof. split; reflexivity. Qed.
Print Assumptions C30_violated_circular.
