From Verif Require Import Model.Bytes Model.IntCodec Model.Utf8 Model.Exn Model.Monad Model.Address Model.Typed Model.EE Model.ScoreClass Model.ScoreApi Model.Events
  Spec.TwosComplement Spec.ClassSpec Spec.EventSpec Proof.BytesFacts Proof.IntCodecFacts Proof.Utf8Facts Proof.ScoreClassFacts Proof.ScoreApiFacts Proof.DispatchFacts Proof.EagerFacts Proof.EventFacts.

Lemma encode_item v o : proxy_encode v = Ok o -> item v o.
Proof.
  destruct v; cbn; try discriminate; try (intros [= <-]; reflexivity).
  - destruct (int_roundtrip z) as (bs & E & D & _). rewrite E. intros [= <-]. exists bs. split; [reflexivity|]. split; [exact D|]. intros bs' D'. eapply int_minimal; eauto.
  - destruct (utf8_encode s) as [bs|]; [|discriminate]. intros [= <-]. eauto.
Qed.
Lemma comma_join l : join_comma l = comma l.
Proof.
  induction l as [|s [|t r] IH]; [reflexivity|cbn; rewrite app_nil_r; reflexivity|].
  change (join_comma (s :: t :: r)) with (s ++ 44 :: join_comma (t :: r)). rewrite IH. reflexivity.
Qed.
Lemma signature_is f sig : event_signature f = Ok sig -> signature_text f sig.
Proof.
  intros H. destruct (signature_types _ _ H) as (_ & tys & F & ->). exists (map base_name tys). rewrite comma_join. split; [|reflexivity].
  clear H. induction F as [|p b ps bs Hb _ IH]; [constructor|]. constructor; [|exact IH]. apply event_type_ok in Hb. unfold type_text. destruct Hb as [->|(-> & ->)]; reflexivity.
Qed.

Definition encodable (v : pyval) : Prop := match v with VStr s => exists bs, utf8_encode s = Some bs | _ => True end.
Lemma fits_size p v : fits p v -> encodable v -> exists o, event_bytes_len v = Ok (item_size o) /\ proxy_encode v = Ok o.
Proof.
  intros F E.
  assert (X : (exists n, event_bytes_len v = Ok n) -> exists o, event_bytes_len v = Ok (item_size o) /\ proxy_encode v = Ok o).
  { intros (n & H). destruct (size_encode _ _ H) as (o & Ho & ->). exists o. auto. }
  apply X. destruct v; cbn in *; eauto; try contradiction. destruct E as (bs & ->). cbn. eauto.
Qed.
Lemma fits_sizes ps vs : Forall2 fits ps vs -> Forall encodable vs -> exists os, Forall2 (fun v o => proxy_encode v = Ok o) vs os /\ map_res event_bytes_len vs = Ok (map item_size os).
Proof.
  intros F E. induction F as [|p v ps vs Fv _ IH]; [exists []; split; constructor|]. inversion E as [|? ? Ev Evs]; subst.
  destruct (IH Evs) as (os & Fo & M). destruct (fits_size _ _ Fv Ev) as (o & L & P). exists (o :: os). split; [constructor; auto|]. cbn [map_res]. rewrite L, M. reflexivity.
Qed.
Lemma sum_fold l : total_size l = fold_right Z.add 0 l.
Proof. unfold total_size. induction l as [|x l IH]; [reflexivity|]. cbn. rewrite (total_app l x), IH. reflexivity. Qed.

Section Emit.
Context (sha3 : bytes -> bytes).
Definition log_price (c : ctx) (size : Z) : Z := price (cx_costs c) (if cx_costs c SCHEMA =? 0 then EVENT_LOG else LOG) size.
Theorem event_emitted f sig args kw vs sb os c cs w : event_signature f = Ok sig -> sig <> ICX_TRANSFER ->
  (length args + length kw <= length (tl (fn_params f)))%nat -> python_call (tl (fn_params f)) args kw vs -> Forall2 fits (tl (fn_params f)) vs ->
  utf8_encode sig = Some sb -> Forall2 (fun v o => proxy_encode v = Ok o) vs os ->
  match fn_indexed f with Some n => n | None => 0 end <= Z.of_nat (length vs) ->
  w_handlers w = [] -> w_ctxs w = c :: cs -> cx_query c = false -> cx_func c <> Some true ->
  let n := Z.to_nat (match fn_indexed f with Some n => n | None => 0 end) in
  let size := items_size (Some sb :: os) in
  let m := MEvent (Some sb :: firstn n os) (skipn n os) in
  let w1 := set_ctxs w (with_used c (cx_used c + log_price c size) :: cs) in
  event_call sha3 f args kw w =
    if log_price c size =? 0 then (Ok tt, if w_ro w then w else node_recv sha3 m (log m w))
    else if cx_limit c <? cx_used c + log_price c size
    then (Exc (EOutOfStep (cx_limit c) (cx_used c) (log_price c size) (if cx_costs c SCHEMA =? 0 then EVENT_LOG else LOG)), set_ctxs w (with_used c (cx_limit c) :: cs))
    else (Ok tt, if w_ro w then w1 else node_recv sha3 m (log m w1)).
Proof.
  intros Hs NE LL ((L & D & K) & B) F U Fo LN Hh Hc Hq Hf n size m w1.
  set (k := match fn_indexed f with Some n => n | None => 0 end) in *.
  assert (V : event_values f args kw = Ok (sig, k, vs)).
  { apply (values_ok _ _ _ _ _ Hs). exists vs. auto 8. }
  assert (S : event_sizes sig k vs = Ok size).
  { unfold event_sizes. destruct (Z.ltb_spec (Z.of_nat (length vs)) k); [lia|].
    assert (M : map_res event_bytes_len vs = Ok (map item_size os)).
    { clear - F Fo. revert os Fo. induction F as [|p v ps vs Fv _ IH]; intros os Fo; inversion Fo as [|? o ? os' Ho Hos]; subst; [reflexivity|]. cbn [map_res map].
      rewrite (IH _ Hos). destruct (fits_size p v Fv) as (o' & -> & P).
      - destruct v; cbn in Ho; try exact I. destruct (utf8_encode s) eqn:Q; [|discriminate]. exists b. exact Q.
      - rewrite P in Ho. injection Ho as ->. reflexivity. }
    cbn [map_res event_bytes_len]. rewrite U. cbn [lift_opt res_bind]. rewrite M. cbn [res_bind]. rewrite sum_fold. reflexivity. }
  unfold event_call. unfold mbind at 1, mlift at 1. rewrite V. unfold mbind at 1, get_ctx. rewrite Hc.
  assert (R : cx_query c || match cx_func c with Some true => true | _ => false end = false) by (rewrite Hq; destruct (cx_func c) as [[]|]; [exfalso; apply Hf; reflexivity|reflexivity|reflexivity]).
  rewrite R. unfold mbind at 1, mlift at 1. rewrite S. unfold mbind at 1, mlift at 1.
  rewrite (map_res_ok' proxy_encode (VStr sig :: fst (split_at k vs)) (Some sb :: firstn n os)).
  2:{ constructor; [cbn; rewrite U; reflexivity|]. apply F2_firstn, Fo. }
  unfold mbind at 1, mlift at 1. rewrite (map_res_ok' proxy_encode (snd (split_at k vs)) (skipn n os)) by (apply F2_skipn, Fo).
  unfold emit_event. unfold mbind at 1, get_ctx. rewrite Hc, R. unfold mbind, apply_step, apply_with, get_ctx. unfold mbind at 1. rewrite Hc.
  fold (log_price c size). destruct (log_price c size =? 0) eqn:P0.
  - cbn [mret]. unfold mret, send_event. destruct (w_ro w); reflexivity.
  - rewrite (charge_exact _ _ w c cs Hh Hc : consume_with _ _ _ _ = _). destruct (cx_limit c <? _); [reflexivity|].
    unfold send_event. change (w_ro (set_ctxs w (with_used c (cx_used c + log_price c size) :: cs))) with (w_ro w). fold w1. destruct (w_ro w); reflexivity.
Qed.
End Emit.
