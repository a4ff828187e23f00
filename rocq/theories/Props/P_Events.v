(** C22: event logs. *)
From Verif Require Import Model.Bytes Model.Utf8 Model.Exn Model.Monad Model.Address Model.Typed Model.EE Model.ScoreClass Model.ScoreApi Model.Events
  Spec.TwosComplement Spec.ClassSpec Spec.EventSpec Proof.ScoreClassFacts Proof.ScoreApiFacts Proof.DispatchFacts Proof.EagerFacts Proof.EventFacts Proof.EventFacts2 Props.P_EE Props.P_Containers Props.P_ScoreClass.

Lemma own_event n g f : decorate (DEventlog n) g = Ok f ->
  (exists sig, event_signature f = Ok sig) /\ fn_indexed f = Some n /\ n <= 3 /\ n <= Z.of_nat (length (tl (fn_params f))).
Proof.
  intros H. pose proof (decorate_event _ _ _ H) as (L3 & L & _ & sig & S). apply decorate_spec in H. destruct H as ((N & P & _) & _ & _ & _ & I).
  split; [exists sig; unfold event_signature in *; rewrite N, P; exact S|]. rewrite P. auto.
Qed.

(** Calling an event, from any state and with any arguments: if it returns, exactly one event was sent (none, if the
    executor is serving a query), whose first item is "Name(type,...)" and whose others stand for the values of the
    parameters in order, the first [n] of them indexed; the values are those of a Python call, and fit the declared
    types.  If it raises, no event was sent. *)
Theorem C22_event sha3 n g f args kw w r w' : decorate (DEventlog n) g = Ok f -> event_call sha3 f args kw w = (r, w') ->
  match r with
  | Ok _ => exists sig sb vs os, signature_text f sig /\ utf8_encode sig = Some sb /\
      (length args <= length (tl (fn_params f)))%nat /\
      (forall i p, nth_error (tl (fn_params f)) i = Some p -> (i < length args)%nat -> lookup (pa_name p) kw = None) /\
      all_bound (tl (fn_params f)) args kw vs /\ Forall2 fits (tl (fn_params f)) vs /\ Forall2 item vs os /\
      if w_ro w then w_trace w' = w_trace w
      else exists e, w_trace w' = e :: w_trace w /\ e_msg e = MEvent (Some sb :: firstn (Z.to_nat n) os) (skipn (Z.to_nat n) os)
  | _ => w_trace w' = w_trace w
  end.
Proof.
  intros Hd H. destruct (own_event _ _ _ Hd) as ((sig & Hs) & I & _). apply event_call_ok in H. destruct r; try exact H.
  destruct H as (sig' & n' & vs & sb & os & V & LN & U & Fo & K). apply (values_ok _ _ _ _ _ Hs) in V. rewrite I in V.
  destruct V as (vs' & Q & NE & LL & B & D & F). injection Q as -> -> ->.
  exists sig, sb, vs', os. split; [apply signature_is, Hs|]. split; [exact U|]. split; [lia|]. split; [exact D|]. split; [exact B|]. split; [exact F|]. split; [|exact K].
  eapply F2_impl; [|exact Fo]. intros ? ? HH; exact (encode_item _ _ HH).
Qed.
Print Assumptions C22_event.

(** Conversely every Python call whose values fit the types is sent, for a price that depends only on the size of
    the items, if the step limit allows it. *)
Theorem C22_sent sha3 n g f args kw vs c cs w : decorate (DEventlog n) g = Ok f ->
  NoDup (map fst kw) -> python_call (tl (fn_params f)) args kw vs -> Forall2 fits (tl (fn_params f)) vs ->
  (forall s, In (VStr s) vs -> exists bs, utf8_encode s = Some bs) -> (exists sb, utf8_encode (fn_name f) = Some sb) -> ~ signature_text f ICX_TRANSFER ->
  w_handlers w = [] -> w_ctxs w = c :: cs -> cx_query c = false -> cx_func c <> Some true ->
  exists sig sb os, signature_text f sig /\ utf8_encode sig = Some sb /\ Forall2 item vs os /\
  let cost := log_price c (items_size (Some sb :: os)) in
  (cx_used c + cost <= cx_limit c -> exists w' c', event_call sha3 f args kw w = (Ok tt, w') /\
     w_ctxs w' = c' :: cs /\ cx_used c' = cx_used c + cost /\
     if w_ro w then w_trace w' = w_trace w
     else exists e, w_trace w' = e :: w_trace w /\ e_msg e = MEvent (Some sb :: firstn (Z.to_nat n) os) (skipn (Z.to_nat n) os)).
Proof.
  intros Hd ND PC F ES (nb & EN) NE Hh Hc Hq Hf. destruct (own_event _ _ _ Hd) as ((sig & Hs) & I & _ & L).
  assert (U : exists sb, utf8_encode sig = Some sb).
  { destruct (signature_types _ _ Hs) as (_ & tys & _ & ->). clear - EN.
    assert (A : forall s t a b, utf8_encode s = Some a -> utf8_encode t = Some b -> utf8_encode (s ++ t) = Some (a ++ b)).
    { induction s as [|x s IH]; intros t a b Ha Hb; cbn in *; [injection Ha as <-; exact Hb|].
      destruct (utf8_enc1 x) as [c|]; [|discriminate]. destruct (utf8_encode s) as [s'|]; [|discriminate]. injection Ha as <-. rewrite (IH t s' b eq_refl Hb). rewrite app_assoc. reflexivity. }
    assert (J : forall l, exists b, utf8_encode (join_comma (map base_name l)) = Some b).
    { intros l. rewrite comma_join. destruct l as [|t l]; [exists []; reflexivity|]. cbn [map comma].
      assert (B : exists a, utf8_encode (base_name t) = Some a) by (destruct t; eexists; reflexivity). destruct B as (a & Ha).
      assert (C : exists b, utf8_encode (flat_map (fun t => 44 :: t) (map base_name l)) = Some b).
      { induction l as [|u l (b & IH)]; [exists []; reflexivity|]. cbn [map flat_map].
        assert (B : exists a, utf8_encode (44 :: base_name u) = Some a) by (destruct u; eexists; reflexivity). destruct B as (a' & Ha'). eexists. apply A; eauto. }
      destruct C as (b & Hb). eexists. apply A; eauto. }
    destruct (J tys) as (b & Hb). exists (nb ++ ([40] ++ (b ++ [41]))). apply A; [exact EN|].
    apply (A [40] (join_comma (map base_name tys) ++ [41]) [40] (b ++ [41]) eq_refl). apply A; [exact Hb|reflexivity]. }
  destruct U as (sb & U).
  assert (EV : Forall encodable vs) by (apply Forall_forall; intros v Hv; destruct v; try exact Logic.I; apply ES, Hv).
  destruct (fits_sizes _ _ F EV) as (os & Fo & _).
  exists sig, sb, os. split; [apply signature_is, Hs|]. split; [exact U|]. split; [eapply F2_impl; [|exact Fo]; intros ? ? HH; exact (encode_item _ _ HH)|].
  intros cost HL. destruct PC as (CO & B). pose proof (call_room _ _ _ ND CO) as R. pose proof (F2_len _ _ _ F) as FL.
  assert (NE' : sig <> ICX_TRANSFER) by (intros ->; apply NE, signature_is, Hs).
  pose proof (event_emitted sha3 f sig args kw vs sb os c cs w Hs NE' R (conj CO B) F U Fo ltac:(rewrite I; lia) Hh Hc Hq Hf) as E. rewrite I in E. cbn zeta in E.
  fold cost in E. rewrite E. clear E. destruct (Z.ltb_spec (cx_limit c) (cx_used c + cost)); [lia|].
  assert (K : forall m x, w_ctxs (node_recv sha3 m (log m x)) = w_ctxs x /\ (forall a b, m = MEvent a b -> w_trace (node_recv sha3 m (log m x)) = w_trace (log m x))).
  { intros m x. split.
    - unfold node_recv. destruct m; repeat match goal with |- context [match ?y with _ => _ end] => destruct y end; reflexivity.
    - intros a b ->. unfold node_recv. destruct (w_frames (log _ x)); reflexivity. }
  set (m := MEvent _ _). destruct (Z.eqb_spec cost 0) as [C0|C0].
  - rewrite C0. eexists _, c. split; [reflexivity|]. split; [destruct (w_ro w); [exact Hc|destruct (K m w) as (K1 & _); rewrite K1; exact Hc]|]. split; [lia|].
    destruct (w_ro w); [reflexivity|]. destruct (K m w) as (_ & K2). rewrite (K2 _ _ eq_refl). eexists. split; reflexivity.
  - set (w1 := set_ctxs _ _). eexists _, (with_used c (cx_used c + cost)). split; [reflexivity|]. destruct (K m w1) as (K1 & K2).
    split; [destruct (w_ro w); [reflexivity|rewrite K1; reflexivity]|]. split; [reflexivity|].
    destruct (w_ro w); [reflexivity|]. rewrite (K2 _ _ eq_refl). eexists. split; reflexivity.
Qed.
Print Assumptions C22_sent.

(** The event of the node's own coin transfers, "ICXTransfer(Address,Address,int)", cannot be emitted. *)
Theorem C22_reserved sha3 n g f args kw w r w' : decorate (DEventlog n) g = Ok f -> signature_text f ICX_TRANSFER ->
  event_call sha3 f args kw w = (r, w') -> (exists e, r = Exc e) /\ w_trace w' = w_trace w.
Proof.
  intros Hd (tys & T & Q) H. destruct (own_event _ _ _ Hd) as ((sig & Hs) & _). destruct (signature_is _ _ Hs) as (tys' & T' & Q').
  assert (tys' = tys). { clear - T T'. revert tys' T'. induction T as [|p t ps ts Hp _ IH]; intros ts' T'; inversion T'; subst; [reflexivity|]. f_equal; [congruence|auto]. }
  subst tys'. rewrite <- Q in Q'. subst sig.
  pose proof H as H0. apply event_call_ok in H0. destruct r as [u|e|].
  - destruct H0 as (sig' & n' & vs & sb & os & V & _). apply (values_ok _ _ _ _ _ Hs) in V. destruct V as (vs' & _ & NE & _). congruence.
  - eauto.
  - exfalso. unfold event_call, mbind, mlift in H.
    assert (V : exists e, event_values f args kw = Exc e).
    { unfold event_values. rewrite Hs. cbn [res_bind]. rewrite str_eqb_refl.
      assert (NS : resolve_arguments (fn_params f) args kw <> Stuck).
      { unfold resolve_arguments. destruct (_ <? _); [discriminate|]. clear. generalize args. induction (tl (fn_params f)) as [|p ps IH]; intros a; cbn [resolve_from]; [discriminate|].
        destruct (pick a kw p) as [v|e|] eqn:P; cbn [res_bind]; try discriminate.
        - destruct (check_type p v) as [[]|e|] eqn:C; cbn [res_bind]; try discriminate.
          + specialize (IH (tl a)). destruct (resolve_from (tl a) kw ps); cbn; try discriminate. congruence.
          + unfold check_type, event_type in C. destruct (pa_hint p) as [[]|]; cbn in C; try discriminate.
            * destruct v; try discriminate; destruct (is_base _ _); discriminate.
            * destruct (str_eqb _ _); cbn in C; [|discriminate]. destruct v; discriminate.
        - unfold pick in P. destruct a, (lookup _ kw), (pa_default p); discriminate. }
      destruct (resolve_arguments _ _ _) as [vs|e|]; cbn; [eauto| |congruence]. destruct e as [c| | |]; cbn; eauto. destruct c; cbn; eauto. }
    destruct V as (e & V). rewrite V in H. discriminate.
Qed.
Print Assumptions C22_reserved.

(** An event a SCORE has sent is recorded by the node: it matches the description of the SCORE's own API.  [wf_value]
    asks only that addresses have twenty body bytes. *)
Theorem C22_recorded py310 cls els ms sha3 name f args kw w w' e ind dat :
  own_names cls -> Forall (fun m => defaults_last (own_params (snd m))) cls -> elements_of cls = Ok els -> class_api py310 cls = Ok ms ->
  Forall (fun m => fst m <> [] /\ ~ In 40 (fst m)) cls ->
  In (name, f) cls -> str_prefix STR_DUNDER name = false -> is_hook name = false -> is_event f ->
  (forall v, In v args -> wf_value v) -> (forall k v, In (k, v) kw -> wf_value v) -> (forall p v, In p (tl (fn_params f)) -> pa_default p = Some v -> wf_value v) ->
  (forall n, fn_indexed f = Some n -> 0 <= n) ->
  event_call sha3 f args kw w = (Ok tt, w') -> w_trace w' = e :: w_trace w -> e_msg e = MEvent ind dat ->
  go_check_event ms ind dat = true.
Proof. intros. eapply event_recorded; eauto. Qed.
Print Assumptions C22_recorded.

(** ** The token's event *)
Definition a_event := snd (py n_Move [self; arg a_to (HBase BAddress); arg a_value (HBase BInt)] None [DEventlog 1]).
Example a_event_own : decorate (DEventlog 1) (plain_func n_Move [self; arg a_to (HBase BAddress); arg a_value (HBase BInt)] None) = Ok a_event.
Proof. reflexivity. Qed.
Definition an_addr : address := mk_address CONTRACT (repeat 7 20).
Definition a_world := world_of two_ns havah_costs 1000000.
Example a_event_call : python_call (tl (fn_params a_event)) [VAddr an_addr] [(a_value, VInt 300)] [VAddr an_addr; VInt 300] /\
  Forall2 fits (tl (fn_params a_event)) [VAddr an_addr; VInt 300] /\ ~ signature_text a_event ICX_TRANSFER.
Proof.
  split; [|split].
  - split; [split; [cbn; lia|split]|split; [reflexivity|]].
    + intros [|[|i]] p H L; cbn in *; try lia. injection H as <-. reflexivity.
    + intros k v [[= <- <-]|[]]. exists (arg a_value (HBase BInt)). split; [right; left|]; reflexivity.
    + intros [|[|i]] p v H K; cbn in *; try (destruct i; discriminate); injection H as <-; injection K as <-; reflexivity.
  - repeat constructor.
  - intros (tys & T & Q). discriminate.
Qed.
Example a_event_sent : exists e w', event_call idh a_event [VAddr an_addr] [(a_value, VInt 300)] a_world = (Ok tt, w') /\ w_trace w' = e :: w_trace a_world /\
  exists sb, e_msg e = MEvent [Some sb; Some (1 :: repeat 7 20)] [Some [1; 44]] /\ blen sb = 17.
Proof. eexists _, _. split; [reflexivity|]. split; [reflexivity|]. eexists. split; reflexivity. Qed.
Example token_names : Forall (fun m => fst m <> [] /\ ~ In 40 (fst m)) token.
Proof. repeat constructor; try discriminate; cbn; intuition discriminate. Qed.
Example token_event : In (n_Move, a_event) token /\ is_event a_event.
Proof. split; [cbn; auto 8|discriminate]. Qed.

(** FINDING: a keyword argument that names no parameter is a [TypeError] in Python; here it is silently dropped as
    long as the number of arguments does not exceed the number of parameters. *)
Definition opt_event := snd (py n_Move [self; opt a_value (HBase BInt) (VInt 5)] None [DEventlog 0]).
Theorem C22_violated_keyword : exists f kw e w', decorate (DEventlog 0) (plain_func n_Move [self; opt a_value (HBase BInt) (VInt 5)] None) = Ok f /\
  ~ call_ok (tl (fn_params f)) [] kw /\ event_call idh f [] kw a_world = (Ok tt, w') /\ w_trace w' = e :: w_trace a_world /\ exists sb, e_msg e = MEvent [Some sb] [Some [5]].
Proof.
  exists opt_event, [(a_to, VInt 9)]. eexists _, _. split; [reflexivity|]. split.
  - intros (_ & _ & K). destruct (K a_to (VInt 9) (or_introl eq_refl)) as (p & [<-|[]] & Q). discriminate.
  - split; [reflexivity|]. split; [reflexivity|]. eexists. reflexivity.
Qed.
Print Assumptions C22_violated_keyword.

(** FINDING: [@eventlog(indexed=-1)] is accepted; the event is sent and paid for, but never recorded by the node. *)
Definition neg_class : class_def := [ py n_Move [self; arg a_value (HBase BInt)] None [DEventlog (-1)] ].
Theorem C22_violated_negative : exists f ms els e w' ind dat, In (n_Move, f) neg_class /\ elements_of neg_class = Ok els /\ class_api false neg_class = Ok ms /\
  event_call idh f [VInt 1] [] a_world = (Ok tt, w') /\ w_trace w' = e :: w_trace a_world /\ e_msg e = MEvent ind dat /\ go_check_event ms ind dat = false.
Proof. do 7 eexists. split; [left; reflexivity|]. do 5 (split; [reflexivity|]). reflexivity. Qed.
Print Assumptions C22_violated_negative.
