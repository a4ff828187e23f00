From Verif Require Import Model.Bytes Model.IntCodec Model.Utf8 Model.Exn Model.Monad Model.Address Model.Typed Model.EE Model.ScoreClass Model.ScoreApi Model.Events
  Spec.ClassSpec Spec.EventSpec Proof.BytesFacts Proof.IntCodecFacts Proof.Utf8Facts Proof.ScoreClassFacts Proof.ScoreApiFacts Proof.DispatchFacts.

(** ** Nothing is sent by a step charge *)
Definition quiet {A} (m : M A) : Prop := forall w, w_trace (snd (m w)) = w_trace w /\ w_ro (snd (m w)) = w_ro w.
Lemma quiet_ret {A} (a : A) : quiet (mret a).
Proof. split; reflexivity. Qed.
Lemma quiet_raise {A} e : quiet (mraise e : M A).
Proof. split; reflexivity. Qed.
Lemma quiet_bind {A B} (m : M A) (k : A -> M B) : quiet m -> (forall a, quiet (k a)) -> quiet (mbind m k).
Proof.
  intros H K w. unfold mbind. specialize (H w). destruct (m w) as [[a|e|] w']; cbn [snd] in *; try exact H.
  destruct (K a w') as (K1 & K2). destruct H as (H1 & H2). split; congruence.
Qed.
Lemma quiet_if {A} (b : bool) (m k : M A) : quiet m -> quiet k -> quiet (if b then m else k).
Proof. destruct b; auto. Qed.
Lemma quiet_ctx : quiet get_ctx.
Proof. intros w. unfold get_ctx. destruct (w_ctxs w); split; reflexivity. Qed.
Lemma quiet_upd f : quiet (upd_ctx f).
Proof. intros w. unfold upd_ctx. destruct (w_ctxs w); split; reflexivity. Qed.
Lemma quiet_receive n : quiet (receive n).
Proof. intros w. unfold receive. destruct (w_inbox w) as [|(k, r) l]; split; reflexivity. Qed.
Lemma quiet_lift {A} (r : pyres A) : quiet (mlift r).
Proof. split; reflexivity. Qed.

Section Quiet.
Context (sha3 : bytes -> bytes).
Lemma quiet_consume n refund ty step : quiet refund -> quiet (consume_loop n refund ty step).
Proof.
  intros H. induction n as [|n IH]; cbn [consume_loop]; apply quiet_bind; try apply quiet_ctx; intros c; apply quiet_if.
  - split; reflexivity.
  - apply quiet_bind; [apply quiet_upd|intros _; apply quiet_ret].
  - apply quiet_bind; [exact H|]. intros b. apply quiet_if; [exact IH|]. apply quiet_bind; [apply quiet_ctx|]. intros c'. apply quiet_bind; [apply quiet_upd|intros _; apply quiet_raise].
  - apply quiet_bind; [apply quiet_upd|intros _; apply quiet_ret].
Qed.
Lemma quiet_apply refund ty count : quiet refund -> quiet (apply_with refund ty count).
Proof.
  intros H. unfold apply_with. apply quiet_bind; [apply quiet_ctx|]. intros c. apply quiet_if; [apply quiet_ret|].
  intros w. apply quiet_consume, H.
Qed.
Lemma quiet_handler refund h b o n : quiet refund -> quiet (run_handler refund h b o n).
Proof.
  intros H w. unfold run_handler. destruct (w_ctxs w) as [|c l]; [split; reflexivity|]. destruct (cx_query c); [split; reflexivity|].
  destruct (negb b); [split; reflexivity|]. destruct h.
  - apply quiet_bind; [apply quiet_apply, H|intros _; apply quiet_ret].
  - apply quiet_upd.
Qed.
Lemma quiet_drain fuel : forall cnt, quiet (drain fuel cnt).
Proof.
  induction fuel as [|f IH]; induction cnt as [|cnt IHc]; try (intros w; split; reflexivity); intros w; cbn [drain];
    (destruct (w_handlers w) as [|(n, (h, size)) hs] eqn:E; [split; reflexivity|]).
  - match goal with |- w_trace (snd (?m ?x)) = _ /\ _ => change (w_trace w) with (w_trace x); change (w_ro w) with (w_ro x); enough (Q : quiet m) by apply Q end.
    apply quiet_bind; [apply quiet_receive|]. intros [| | |]; try apply quiet_raise. apply quiet_bind; [|intros _; exact IHc].
    apply quiet_handler. split; reflexivity.
  - match goal with |- w_trace (snd (?m ?x)) = _ /\ _ => change (w_trace w) with (w_trace x); change (w_ro w) with (w_ro x); enough (Q : quiet m) by apply Q end.
    apply quiet_bind; [apply quiet_receive|]. intros [| | |]; try apply quiet_raise. apply quiet_bind; [|intros _; exact IHc].
    apply quiet_handler. intros w'. unfold handle_all. destruct (length (w_handlers w')) eqn:L; [split; reflexivity|].
    apply quiet_bind; [apply IH|intros _; apply quiet_ret].
Qed.
Lemma quiet_apply_step ty count : quiet (apply_step ty count).
Proof.
  apply quiet_apply. intros w. unfold handle_set_values, handle_all. destruct (length (w_handlers w)); [split; reflexivity|].
  apply quiet_bind; [apply quiet_drain|intros _; apply quiet_ret].
Qed.

(** What an event adds to the messages. *)
Lemma emit_trace size ind dat w r w' : emit_event sha3 size ind dat w = (r, w') ->
  w_ro w' = w_ro w /\
  match r with
  | Ok _ => if w_ro w then w_trace w' = w_trace w else exists e, w_trace w' = e :: w_trace w /\ e_msg e = MEvent ind dat
  | _ => w_trace w' = w_trace w
  end.
Proof.
  unfold emit_event. intros H. unfold mbind in H at 1. destruct (quiet_ctx w) as (Q1 & Q2). destruct (get_ctx w) as [[c|e|] w1]; cbn [snd] in *.
  2,3: injection H as <- <-; split; auto.
  destruct (cx_query c || _). { injection H as <- <-. split; auto. }
  set (ty := if cx_costs c SCHEMA =? 0 then EVENT_LOG else LOG) in H. unfold mbind in H. destruct (quiet_apply_step ty size w1) as (Q3 & Q4).
  destruct (apply_step ty size w1) as [[u|e|] w2]; cbn [snd] in *.
  2,3: injection H as <- <-; split; congruence.
  unfold send_event in H. destruct (w_ro w2) eqn:RO.
  { injection H as <- <-. split; [congruence|]. replace (w_ro w) with true by congruence. congruence. }
  replace (w_ro w) with false by congruence. unfold send in H. injection H as <- <-.
  assert (K : forall x, w_ro (node_recv sha3 (MEvent ind dat) x) = w_ro x /\ w_trace (node_recv sha3 (MEvent ind dat) x) = w_trace x).
  { intros x. unfold node_recv. destruct (w_frames x); split; reflexivity. }
  destruct (K (log (MEvent ind dat) w2)) as (K1 & K2). rewrite K1, K2. split; [exact RO|]. eexists. split; [cbn; rewrite Q3, Q1; reflexivity|reflexivity].
Qed.
End Quiet.

(** ** Binding *)
Lemma event_type_ok p b : event_type p = Ok b -> pa_hint p = Some (HBase b) \/ (pa_hint p = Some (HName STR_ADDRESS) /\ b = BAddress).
Proof.
  unfold event_type. destruct (pa_hint p) as [[b'|s|id fs|args| |args| |]|]; try discriminate.
  - intros [= <-]. auto.
  - destruct (str_eqb s STR_ADDRESS) eqn:E; [|discriminate]. apply str_eqb_eq in E. intros [= <-]. subst. auto.
Qed.
Lemma check_type_ok p v : (exists b, event_type p = Ok b) -> check_type p v = Ok tt <-> fits p v.
Proof.
  intros (b & Hb). unfold check_type. rewrite Hb. cbn [res_bind]. apply event_type_ok in Hb.
  destruct Hb as [Hb|(Hb & ->)]; [|set (b := BAddress)]; unfold fits; rewrite Hb; destruct v; try (subst b); try destruct b; cbn; split; intros H;
    try discriminate; try reflexivity; try tauto; try (left; reflexivity); try (right; reflexivity); intuition discriminate.
Qed.
Lemma pick_cases args kw p v : pick args kw p = Ok v <->
  match args with a :: _ => lookup (pa_name p) kw = None /\ v = a | [] => match lookup (pa_name p) kw with Some k => v = k | None => pa_default p = Some v end end.
Proof.
  unfold pick. destruct args as [|a args], (lookup (pa_name p) kw), (pa_default p); split; try discriminate; intros; intuition congruence.
Qed.
Lemma resolve_ok ps : (forall p, In p ps -> exists b, event_type p = Ok b) -> forall args kw vs,
  resolve_from args kw ps = Ok vs <->
  all_bound ps args kw vs /\ (forall i p, nth_error ps i = Some p -> (i < length args)%nat -> lookup (pa_name p) kw = None) /\ Forall2 fits ps vs.
Proof.
  induction ps as [|p ps IH]; intros HT args kw vs; cbn [resolve_from].
  - split.
    + intros [= <-]. split; [split; [reflexivity|]|split; [|constructor]]; intros [|]; discriminate.
    + intros ((L & _) & _). destruct vs; [reflexivity|discriminate].
  - assert (HT' : forall q, In q ps -> exists b, event_type q = Ok b) by (intros; apply HT; right; auto).
    specialize (IH HT' (tl args) kw). pose proof (HT p (or_introl eq_refl)) as Hp.
    assert (TL : forall i, nth_error (tl args) i = nth_error args (S i)) by (intros i; destruct args; [destruct i|]; reflexivity).
    split.
    + intros H. apply res_bind_ok in H. destruct H as (v & Hv & H). apply res_bind_ok in H. destruct H as ([] & Hc & H).
      apply res_bind_ok in H. destruct H as (vs' & Hr & H). injection H as <-. apply IH in Hr. destruct Hr as ((L & B) & D & F).
      apply pick_cases in Hv. apply check_type_ok in Hc; [|exact Hp]. split; [split; [cbn; congruence|]|split; [|constructor; auto]].
      * intros [|i] q u Hq Hu; cbn in Hq, Hu.
        -- injection Hq as <-. injection Hu as <-. unfold bound. destruct args as [|a args]; cbn [nth_error]; [exact Hv|]. apply Hv.
        -- specialize (B i q u Hq Hu). unfold bound in *. rewrite <- TL. exact B.
      * intros [|i] q Hq Hi; cbn in Hq.
        -- injection Hq as <-. destruct args; [cbn in Hi; lia|]. apply Hv.
        -- apply (D i q Hq). destruct args; cbn in *; lia.
    + intros ((L & B) & D & F). inversion F as [|? v ? vs' Fv Fs]; subst.
      assert (Hv : pick args kw p = Ok v).
      { apply pick_cases. specialize (B 0%nat p v eq_refl eq_refl). unfold bound in B. destruct args as [|a args]; [exact B|]. cbn in B.
        split; [|exact B]. apply (D 0%nat p eq_refl). cbn. lia. }
      rewrite Hv. cbn [res_bind]. rewrite (proj2 (check_type_ok p v Hp) Fv). cbn [res_bind].
      rewrite (proj2 (IH vs')); [reflexivity|]. split; [split; [cbn in L; congruence|]|split; [|exact Fs]].
      * intros i q u Hq Hu. specialize (B (S i) q u Hq Hu). unfold bound in *. rewrite TL. exact B.
      * intros i q Hq Hi. apply (D (S i) q Hq). destruct args; cbn in *; lia.
Qed.

Lemma in_map_lookup {A} k (kw : list (pystr * A)) : In k (map fst kw) -> lookup k kw <> None.
Proof.
  induction kw as [|(n, v) kw IH]; cbn; [tauto|]. destruct (str_eqb n k) eqn:E; [discriminate|]. intros [->|Hin]; [rewrite str_eqb_refl in E; discriminate|auto].
Qed.
Lemma call_room ps args kw : NoDup (map fst kw) -> call_ok ps args kw -> (length args + length kw <= length ps)%nat.
Proof.
  intros ND (L & D & K).
  assert (I : incl (map fst kw) (map pa_name (skipn (length args) ps))).
  { intros k Hk. pose proof (in_map_lookup k kw Hk) as Hl. apply in_map_iff in Hk. destruct Hk as ((k', v) & <- & Hin). cbn [fst] in *.
    destruct (K _ _ Hin) as (p & Hp & <-). apply in_map. rewrite <- (firstn_skipn (length args) ps) in Hp. apply in_app_or in Hp. destruct Hp as [Hp|Hp]; [|exact Hp].
    exfalso. apply In_nth_error in Hp. destruct Hp as (i & Hi). assert (i < length args)%nat.
    { assert (i < length (firstn (length args) ps))%nat by (apply nth_error_Some; congruence). rewrite firstn_length in *. lia. }
    assert (nth_error ps i = Some p). { rewrite <- (firstn_skipn (length args) ps). rewrite nth_error_app1; [exact Hi|]. apply nth_error_Some. congruence. }
    apply Hl. exact (D i p H0 H). }
  apply (NoDup_incl_length ND) in I. rewrite !map_length, skipn_length in I. lia.
Qed.

Lemma resolve_arguments_ok ps args kw vs : (forall p, In p (tl ps) -> exists b, event_type p = Ok b) ->
  resolve_arguments ps args kw = Ok vs <->
  (length args + length kw <= length (tl ps))%nat /\ all_bound (tl ps) args kw vs /\
  (forall i p, nth_error (tl ps) i = Some p -> (i < length args)%nat -> lookup (pa_name p) kw = None) /\ Forall2 fits (tl ps) vs.
Proof.
  intros HT. unfold resolve_arguments. destruct (Z.ltb_spec (Z.of_nat (length (tl ps))) (Z.of_nat (length args) + Z.of_nat (length kw))).
  - split; [discriminate|]. intros (L & _). lia.
  - rewrite (resolve_ok _ HT). split; intros; [split; [lia|]|]; tauto.
Qed.
Lemma signature_types f sig : event_signature f = Ok sig -> (forall p, In p (tl (fn_params f)) -> exists b, event_type p = Ok b) /\
  exists tys, Forall2 (fun p b => event_type p = Ok b) (tl (fn_params f)) tys /\ sig = fn_name f ++ 40 :: join_comma (map base_name tys) ++ [41].
Proof.
  unfold event_signature. intros H. apply res_bind_ok in H. destruct H as (tys & M & H). injection H as <-. apply map_res_ok in M. split; [|eauto].
  intros p Hp. destruct (F2_In_r _ _ _ _ M Hp) as (b & _ & Hb). eauto.
Qed.
Lemma to_invalid_ok {A} (r : pyres A) a : to_invalid r = Ok a <-> r = Ok a.
Proof.
  destruct r as [x|e|]; cbn; try tauto. split; [|discriminate]. destruct e as [c| | |]; try discriminate. destruct c; discriminate.
Qed.

Lemma values_ok f sig args kw out : event_signature f = Ok sig ->
  event_values f args kw = Ok out <->
  exists vs, out = (sig, match fn_indexed f with Some n => n | None => 0 end, vs) /\ sig <> ICX_TRANSFER /\
  (length args + length kw <= length (tl (fn_params f)))%nat /\ all_bound (tl (fn_params f)) args kw vs /\
  (forall i p, nth_error (tl (fn_params f)) i = Some p -> (i < length args)%nat -> lookup (pa_name p) kw = None) /\ Forall2 fits (tl (fn_params f)) vs.
Proof.
  intros Hs. destruct (signature_types _ _ Hs) as (HT & _). unfold event_values. split.
  - intros H. apply res_bind_ok in H. destruct H as (vs & Hv & H). rewrite Hs in H. cbn [res_bind] in H. destruct (str_eqb sig ICX_TRANSFER) eqn:E; [discriminate|]. injection H as <-.
    exists vs. split; [reflexivity|]. split; [intros ->; rewrite str_eqb_refl in E; discriminate|]. apply (proj1 (to_invalid_ok _ _)) in Hv. apply (resolve_arguments_ok _ _ _ _ HT), Hv.
  - intros (vs & -> & NE & R). apply (resolve_arguments_ok _ _ _ _ HT) in R. rewrite R. cbn [to_invalid res_bind]. rewrite Hs. cbn [res_bind]. rewrite (str_eqb_neq _ _ NE). reflexivity.
Qed.

(** ** Sizes and encodings *)
Definition olen (o : option bytes) : Z := match o with Some bs => blen bs | None => 0 end.
Lemma size_encode v n : event_bytes_len v = Ok n -> exists o, proxy_encode v = Ok o /\ n = olen o.
Proof.
  assert (I : forall z, exists bs, int_to_bytes z = Some bs /\ byte_length_of_int z = blen bs).
  { intros z. rewrite int_to_bytes_ok. eexists. split; [reflexivity|]. rewrite blen_be_bytes. pose proof (byte_length_spec z) as B. cbn zeta in B. lia. }
  destruct v; cbn; try discriminate.
  - intros [= <-]. exists None. auto.
  - intros [= <-]. eexists. split; [reflexivity|]. destruct b; reflexivity.
  - intros [= <-]. destruct (I z) as (bs & -> & ->). cbn. eauto.
  - destruct (utf8_encode s); cbn; [|discriminate]. intros [= <-]. eauto.
  - intros [= <-]. eauto.
  - intros [= <-]. eauto.
Qed.
Lemma total_app l : forall a, fold_left Z.add l a = a + fold_left Z.add l 0.
Proof. induction l as [|x l IH]; intros a; cbn; [lia|]. rewrite IH, (IH x). lia. Qed.
Lemma sizes_encode vs sizes : map_res event_bytes_len vs = Ok sizes -> exists os, Forall2 (fun v o => proxy_encode v = Ok o) vs os /\ sizes = map olen os.
Proof.
  intros H. apply map_res_ok in H. induction H as [|v n vs ns Hv _ (os & F & ->)]; [exists []; split; constructor|].
  destruct (size_encode _ _ Hv) as (o & E & ->). exists (o :: os). split; [constructor; auto|reflexivity].
Qed.

Lemma F2_firstn {A B} (f : A -> B -> Prop) n : forall l m, Forall2 f l m -> Forall2 f (firstn n l) (firstn n m).
Proof. induction n; intros l m H; cbn; [constructor|]. inversion H; subst; constructor; auto. Qed.
Lemma F2_skipn {A B} (f : A -> B -> Prop) n : forall l m, Forall2 f l m -> Forall2 f (skipn n l) (skipn n m).
Proof. induction n; intros l m H; cbn; [exact H|]. inversion H; subst; auto. Qed.

Section Call.
Context (sha3 : bytes -> bytes).
Theorem event_call_ok f args kw w r w' : event_call sha3 f args kw w = (r, w') ->
  match r with
  | Ok _ => exists sig n vs sb os, event_values f args kw = Ok (sig, n, vs) /\ n <= Z.of_nat (length vs) /\
      utf8_encode sig = Some sb /\ Forall2 (fun v o => proxy_encode v = Ok o) vs os /\
      if w_ro w then w_trace w' = w_trace w
      else exists e, w_trace w' = e :: w_trace w /\ e_msg e = MEvent (Some sb :: firstn (Z.to_nat n) os) (skipn (Z.to_nat n) os)
  | _ => w_trace w' = w_trace w
  end.
Proof.
  unfold event_call. intros H. unfold mbind at 1, mlift at 1 in H. destruct (event_values f args kw) as [((sig & n) & vs)|e|] eqn:V.
  2,3: injection H as <- <-; reflexivity.
  unfold mbind at 1 in H. destruct (quiet_ctx w) as (Q1 & Q2). destruct (get_ctx w) as [[c|e|] w1]; cbn [snd] in *.
  2,3: injection H as <- <-; exact Q1.
  destruct (cx_query c || _). { injection H as <- <-. exact Q1. }
  unfold mbind at 1, mlift at 1 in H. destruct (event_sizes sig n vs) as [size|e|] eqn:S.
  2,3: injection H as <- <-; exact Q1.
  unfold event_sizes in S. destruct (Z.ltb_spec (Z.of_nat (length vs)) n) as [|LN]; [discriminate|]. apply res_bind_ok in S. destruct S as (sizes & M & S).
  destruct (sizes_encode _ _ M) as (os0 & F & _). inversion F as [|? o ? os Fo Fs]; subst.
  assert (Fo' := Fo). cbn in Fo'. destruct (utf8_encode sig) as [sb|] eqn:U; [|discriminate]. cbn in Fo'. injection Fo' as <-.
  unfold mbind at 1, mlift at 1 in H.
  rewrite (map_res_ok' proxy_encode (VStr sig :: fst (split_at n vs)) (Some sb :: firstn (Z.to_nat n) os)) in H by (constructor; [exact Fo|apply F2_firstn, Fs]).
  unfold mbind at 1, mlift at 1 in H.
  rewrite (map_res_ok' proxy_encode (snd (split_at n vs)) (skipn (Z.to_nat n) os)) in H by (apply F2_skipn, Fs).
  apply emit_trace in H. destruct H as (_ & H). rewrite Q2, Q1 in H. destruct r; try exact H.
  exists sig, n, vs, sb, os. auto.
Qed.
End Call.

(** ** The node records it *)
Definition wf_value (v : pyval) : Prop := match v with VAddr a => wf_address a | _ => True end.

Lemma code_base p b w : event_type p = Ok b -> described_param false p w -> wi_code w = base_code b.
Proof.
  intros Hb (code & d & fs & -> & D & _). cbn. apply event_type_ok in Hb. destruct Hb as [Hb|(Hb & ->)]; rewrite Hb in D; inversion D; reflexivity.
Qed.
Lemma base_text b : go_type_name (base_code b) = base_name b.
Proof. destruct b; reflexivity. Qed.
Lemma valid_base p b v o : event_type p = Ok b -> fits p v -> wf_value v -> proxy_encode v = Ok o -> go_valid_event (base_code b) o = true.
Proof.
  intros Hb F W E. apply event_type_ok in Hb.
  assert (LD : go_list_depth (base_code b) = 0 /\ go_tag (base_code b) = base_code b) by (destruct b; split; reflexivity). destruct LD as (L & T).
  unfold go_valid_event. rewrite L, T. cbn [Z.eqb negb].
  replace ((1 <=? base_code b) && (base_code b <=? 5)) with true by (destruct b; reflexivity). cbn [negb].
  assert (I : forall z bs, int_to_bytes z = Some bs -> negb (blen bs =? 0) = true).
  { intros z bs Hz. rewrite int_to_bytes_ok in Hz. injection Hz as <-. rewrite blen_be_bytes. pose proof (byte_length_spec z) as B. cbn zeta in B. apply negb_true_iff, Z.eqb_neq. lia. }
  destruct v; cbn in E, F; try contradiction.
  - injection E as <-. reflexivity.
  - injection E as <-. destruct F as [F|F]; destruct Hb as [Hb|(Hb & ->)]; rewrite F in Hb; try discriminate; injection Hb as <-; destruct b0; reflexivity.
  - destruct (int_to_bytes z) as [bs|] eqn:Z; [|discriminate]. injection E as <-. destruct Hb as [Hb|(Hb & ->)]; rewrite F in Hb; try discriminate. injection Hb as <-. cbn. eauto.
  - destruct (utf8_encode s) as [bs|] eqn:Z; [|discriminate]. injection E as <-. destruct Hb as [Hb|(Hb & ->)]; rewrite F in Hb; try discriminate. injection Hb as <-. cbn.
    rewrite (decode_encode _ _ Z). reflexivity.
  - injection E as <-. destruct Hb as [Hb|(Hb & ->)]; rewrite F in Hb; try discriminate. injection Hb as <-. reflexivity.
  - injection E as <-. assert (b = BAddress) by (destruct F as [F|F]; destruct Hb as [Hb|(Hb & Q)]; congruence). subst b. cbn [base_code Z.eqb].
    destruct W as (W & _). unfold address_to_bytes. unfold blen in *. cbn [length]. replace (Z.of_nat (S (length (a_body a)))) with 21 by lia. cbn. destruct (a_prefix a); reflexivity.
Qed.

Lemma split_paren a b s t : ~ In 40 a -> ~ In 40 b -> a ++ 40 :: s = b ++ 40 :: t -> a = b.
Proof.
  revert b. induction a as [|x a IH]; intros [|y b] Na Nb H; cbn in *; try reflexivity.
  - injection H as H1 H2. exfalso. auto.
  - injection H as H1 H2. exfalso. auto.
  - injection H as -> H. f_equal. apply IH; auto.
Qed.

Section Recorded.
Context (py310 : bool) (cls : class_def) (els : list (pystr * element)) (ms : list wmethod).
Context (ON : own_names cls) (DL : Forall (fun m => defaults_last (own_params (snd m))) cls).
Context (He : elements_of cls = Ok els) (Hm : class_api py310 cls = Ok ms).
Context (ID : Forall (fun m => fst m <> [] /\ ~ In 40 (fst m)) cls).

Lemma event_member name f : In (name, f) cls -> str_prefix STR_DUNDER name = false -> is_hook name = false -> is_event f ->
  fn_flags f = 256 /\ exposed (name, f) = true /\ own_params f = tl (fn_params f) /\ (exists n, fn_indexed f = Some n /\ n <= 3) /\ exists sig, event_signature f = Ok sig.
Proof.
  intros Hin D Hh E. pose proof ON as (_ & OF). rewrite Forall_forall in OF. destruct (OF _ Hin) as (Nm & Dc). cbn [fst snd] in *.
  destruct (member_of _ _ _ _ He Hin) as (le & M). apply member_ok in M.
  assert (U : usable (fn_flags f)) by (destruct M as [(D' & _)|[(_ & Hh' & A & _)|[(_ & Hh' & A & F0 & _)|[(_ & _ & U & _)|(_ & _ & U & _)]]]]; congruence || exact U).
  destruct Dc as (ds & g & G0 & GI & Hd). pose proof (allowed ds g f G0 Hd U) as A.
  assert (K : exists n, ds = [DEventlog n]).
  { unfold is_event, EVENTLOG in E. destruct A; repeat (apply decorate_all_cons in Hd; let g' := fresh "g" in let D := fresh "D" in destruct Hd as (g' & ?D & Hd)); injection Hd as <-; try (eexists; reflexivity); exfalso; apply E.
    - rewrite G0. reflexivity.
    - apply decorate_spec in D0. destruct D0 as (_ & F & _). rewrite F, G0. destruct ro; reflexivity.
    - apply decorate_spec in D0, D1. destruct D0 as (_ & F & _), D1 as (_ & F' & _). rewrite F', F, G0. cbn [dec_bits]. repeat destruct (str_eqb _ _); reflexivity.
    - apply decorate_spec in D0, D1. destruct D0 as (_ & F & _), D1 as (_ & F' & _). rewrite F', F, G0. cbn [dec_bits]. repeat destruct (str_eqb _ _); reflexivity.
    - apply decorate_spec in D0. destruct D0 as (_ & F & _). rewrite F, G0. cbn [dec_bits]. repeat destruct (str_eqb _ _); reflexivity.
    - apply decorate_spec in D0. destruct D0 as (_ & F & _). rewrite F, G0. reflexivity. }
  destruct K as (n & ->). apply decorate_all_cons in Hd. destruct Hd as (g' & Hd & Hx). injection Hx as ->.
  pose proof (decorate_event _ _ _ Hd) as (L1 & L2 & (p & ps & P & PS) & sig & Hs). apply decorate_spec in Hd. destruct Hd as ((S & SP & _ & _) & F & _ & _ & I).
  assert (F256 : fn_flags f = 256) by (rewrite F, G0; reflexivity).
  split; [exact F256|]. split; [unfold exposed; rewrite D, Hh, F256; reflexivity|]. split; [unfold own_params; rewrite SP, P, PS, str_eqb_refl; reflexivity|].
  split; [eauto|]. exists sig. unfold event_signature in *. rewrite S, SP. exact Hs.
Qed.

Theorem event_recorded name f sha3 args kw w w' e ind dat : In (name, f) cls -> str_prefix STR_DUNDER name = false -> is_hook name = false -> is_event f ->
  (forall v, In v args -> wf_value v) -> (forall k v, In (k, v) kw -> wf_value v) -> (forall p v, In p (tl (fn_params f)) -> pa_default p = Some v -> wf_value v) ->
  (forall n, fn_indexed f = Some n -> 0 <= n) ->
  event_call sha3 f args kw w = (Ok tt, w') -> w_trace w' = e :: w_trace w -> e_msg e = MEvent ind dat ->
  go_check_event ms ind dat = true.
Proof.
  intros Hin D Hh E WA WK WD NN H Tr Me. destruct (event_member _ _ Hin D Hh E) as (F256 & X & OP & (n0 & In0 & L3) & sig & Hs).
  apply event_call_ok in H. destruct H as (sig' & n & vs & sb & os & V & LN & U & Fo & K).
  apply (values_ok _ _ _ _ _ Hs) in V. destruct V as (vs' & Q & NE & LL & (LB & B) & DD & Ff). rewrite In0 in Q. injection Q as -> -> ->. rename vs' into vs. specialize (NN _ In0).
  destruct (w_ro w). { rewrite Tr in K. exfalso. apply (f_equal (@length _)) in K. cbn in K. lia. }
  destruct K as (e' & Tr' & Me'). rewrite Tr in Tr'. injection Tr' as <-. rewrite Me in Me'. injection Me' as -> ->.
  destruct (signature_types _ _ Hs) as (HT & tys & FT & Esig).
  pose proof (api_described py310 cls ms ON DL Hm) as F. assert (HFF : In (name, f) (filter exposed cls)) by (apply filter_In; auto).
  destruct (F2_In_r _ _ _ _ F HFF) as (m & Him & Dm). cbn [snd] in Dm.
  pose proof ON as (ND & OF). rewrite Forall_forall in OF. destruct (OF _ Hin) as (Nm & Dc). cbn [fst snd] in *.
  rewrite Forall_forall in ID.
  assert (KEY : forall m f', describes f' m -> Z.land (fn_flags f') EVENTLOG <> 0 -> go_key m = Some (go_Signature m)).
  { intros m0 f0 D0 E0. unfold describes in D0. apply Z.eqb_neq in E0. rewrite E0 in D0. cbn in D0. unfold go_key, go_IsEvent. destruct D0 as (_ & -> & _). reflexivity. }
  assert (SIG : forall m, describes f m -> go_Signature m = sig).
  { intros m0 D0. unfold describes in D0. rewrite F256 in D0. cbn in D0. destruct D0 as (W & _ & _ & _ & _ & I). rewrite OP in I. unfold go_Signature. rewrite W, Esig. do 4 f_equal.
    clear - FT I. revert I. generalize (wm_inputs m0). induction FT as [|p b ps tys Hb FT IH]; intros l I; inversion I; subst; [reflexivity|].
    cbn. f_equal; [|auto]. erewrite code_base by eauto. apply base_text. }
  assert (G : exists m', go_GetMethod ms sig = Some m' /\ describes f m').
  { destruct (get_method_some ms sig m Him) as (m' & G). { rewrite (KEY m f Dm); [f_equal; apply SIG, Dm|exact E]. }
    exists m'. split; [exact G|]. apply get_method_in in G. destruct G as (Him' & Km').
    destruct (entry py310 cls ms ON DL Hm m' Him') as (f' & HF' & X' & D' & Nm' & Dc').
    destruct (ID _ Hin) as (_ & I40). destruct (ID _ HF') as (NE' & I40'). cbn [fst] in *.
    destruct (describes_kind _ _ D') as [(T & B')|[(T & _)|(T & _)]].
    - rewrite (KEY m' f' D' B') in Km'. injection Km' as Km'. unfold go_Signature in Km'. rewrite Esig in Km'. apply split_paren in Km'; [|exact I40'|rewrite Nm; exact I40].
      assert (f' = f); [|subst; exact D']. rewrite Nm in Km'. rewrite Km' in HF'. pose proof (in_lookup _ _ _ ND Hin). pose proof (in_lookup _ _ _ ND HF'). congruence.
    - exfalso. unfold go_key, go_IsEvent, go_IsFallback in Km'. rewrite T in Km'. cbn in Km'. rewrite Esig in Km'. destruct (fn_name f); discriminate.
    - exfalso. unfold go_key, go_IsEvent, go_IsFallback in Km'. rewrite T in Km'. cbn in Km'. destruct (wm_name m') eqn:W; [discriminate|]. injection Km' as Km'. apply I40'. rewrite Km', Esig. apply in_or_app. right. left. reflexivity. }
  destruct G as (m' & G & D'). unfold go_check_event. rewrite (decode_encode _ _ U), G. unfold go_check_method.
  unfold describes in D'. rewrite F256 in D'. cbn in D'. destruct D' as (_ & _ & _ & IX & _ & I). rewrite In0 in IX. injection IX as IX. rewrite OP in I.
  pose proof (F2_len _ _ _ Fo) as L1. pose proof (F2_len _ _ _ Ff) as L2. pose proof (F2_len _ _ _ I) as L4.
  rewrite !andb_true_iff. split; [split|].
  - apply Nat.eqb_eq. cbn [length]. rewrite firstn_length, skipn_length. lia.
  - apply Z.eqb_eq. cbn [length]. rewrite firstn_length. lia.
  - cbn [tl]. rewrite firstn_skipn. apply forallb_forall. intros (wi, o) Hc. cbn [fst snd].
    assert (WV : Forall wf_value vs).
    { apply Forall_forall. intros v Hv. apply In_nth_error in Hv. destruct Hv as (i & Hi). assert (exists p, nth_error (tl (fn_params f)) i = Some p) as (p & Hp).
      { destruct (nth_error (tl (fn_params f)) i) eqn:Q; [eauto|]. apply nth_error_None in Q. assert (i < length vs)%nat by (apply nth_error_Some; congruence). lia. }
      specialize (B i p v Hp Hi). unfold bound in B. destruct (nth_error args i) as [a|] eqn:Ea; [subst; apply WA; eapply nth_error_In; eauto|].
      destruct (lookup (pa_name p) kw) as [k|] eqn:Ek; [subst; apply lookup_in in Ek; eauto|]. eapply WD; eauto. eapply nth_error_In; eauto. }
    clear - FT I Ff Fo WV Hc. revert tys vs os FT Ff Fo WV Hc. induction I as [|p w0 ps ws Dp I IH]; intros tys vs os FT Ff Fo WV Hc; [destruct Hc|].
    inversion FT as [|? b ? tys' Hb FT']; subst. inversion Ff as [|? v ? vs' Fv Fvs]; subst. inversion Fo as [|? o' ? os' Ho Hos]; subst. inversion WV as [|? ? Wv Wvs]; subst.
    cbn [combine In] in Hc. destruct Hc as [Q|Hc].
    + injection Q as <- <-. rewrite (code_base _ _ _ Hb Dp). eapply valid_base; eauto.
    + eapply IH; eauto.
Qed.
End Recorded.
