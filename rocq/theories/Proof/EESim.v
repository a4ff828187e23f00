From Verif Require Import Model.Bytes Model.DbKey Model.Utf8 Model.Exn Model.Monad Model.Address Model.Typed Model.EE
  Spec.EagerEE Spec.EETrace Model.IntCodec Proof.BytesFacts Proof.TypedFacts.

(** ** Generic *)
Lemma bind_ok {S A B} (m : SM S A) (f : A -> SM S B) w a w' : m w = (Ok a, w') -> mbind m f w = f a w'.
Proof. unfold mbind. intros ->. reflexivity. Qed.
Lemma bind_exc {S A B} (m : SM S A) (f : A -> SM S B) w e w' : m w = (Exc e, w') -> mbind m f w = (Exc e, w').
Proof. unfold mbind. intros ->. reflexivity. Qed.
Lemma mtry_ok {S A} (m : SM S A) h w a w' : m w = (Ok a, w') -> mtry m h w = (Ok a, w').
Proof. unfold mtry. intros ->. reflexivity. Qed.
Lemma mtry_exc {S A} (m : SM S A) h w e w' : m w = (Exc e, w') -> mtry m h w = h e w'.
Proof. unfold mtry. intros ->. reflexivity. Qed.
Lemma with_used_id c : with_used c (cx_used c) = c.
Proof. destruct c; reflexivity. Qed.
Lemma with_used_used c a b : with_used (with_used c a) b = with_used c b.
Proof. reflexivity. Qed.

(** ** Outstanding writes *)
Record pw := mk_pw { p_id : nat; p_h : handler; p_size : Z; p_old : option Z }.
Definition p_handler (p : pw) := (p_id p, (p_h p, p_size p)).
Definition p_reply (p : pw) := (p_id p, match p_old p with Some n => RSet true n | None => RSet false 0 end).
Definition amt (k : costs) (p : pw) : Z :=
  match p_old p with
  | None => 0
  | Some n => match p_h p with
              | HDelete => price k DELETE n
              | HRefund => refund_amount k (if k SCHEMA =? 0 then p_size p else n)
              end
  end.
Definition total (k : costs) (l : list pw) : Z := fold_right (fun p a => amt k p + a) 0 l.
Definition p_ok (p : pw) : Prop :=
  match p_old p with Some n => 1 <= n /\ (p_h p = HRefund -> 1 <= p_size p) | None => True end.

Lemma amt_neg k p : refunding k -> p_ok p -> amt k p <= 0.
Proof.
  intros F H. unfold amt, p_ok in *. destruct (p_old p) as [n|]; [|lia]. destruct H as [H H']. destruct (p_h p).
  - exact (proj1 (F _ H)).
  - refine (proj2 (F _ _)). destruct (k SCHEMA =? 0); [apply H'; reflexivity|exact H].
Qed.
Lemma total_neg k l : refunding k -> Forall p_ok l -> total k l <= 0.
Proof. intros F; induction 1; cbn [total fold_right]; [lia|]. fold (total k l). pose proof (amt_neg k x F H). lia. Qed.
Lemma total_app k a b : total k (a ++ b) = total k a + total k b.
Proof. induction a as [|p a IH]; cbn [app]; [reflexivity|]. change (total k (p :: a ++ b)) with (amt k p + total k (a ++ b)). change (total k (p :: a)) with (amt k p + total k a). lia. Qed.
Lemma total_cons k p l : total k (p :: l) = amt k p + total k l.
Proof. reflexivity. Qed.
Global Opaque total.

(** ** The relation between the two executors while a SCORE runs *)
Definition frame_of (fr : frame) (c : ctx) : Prop :=
  cx_query c = rq_query (fr_req fr) /\ cx_costs c = rq_costs (fr_req fr) /\ cx_limit c = rq_limit (fr_req fr) /\
  (cx_func c = None \/ cx_func c = Some (rq_readonly (fr_req fr))) /\
  0 <= cx_fee c <= 100 /\ (cx_query c = true -> cx_fee c = 0).
Definition limits_ok (l : list ctx) : Prop := Forall (fun c => cx_used c <= cx_limit c) l.

Record env := mk_env { v_rs : list bool; v_cs : list ctx; v_fr : frame; v_frs : list frame; v_func : option bool }.

Record Rp (v : env) (ex : list (nat * reply)) (pend : list pw) (c : ctx) (w : world) (s : estate) : Prop := {
  r_ctxs : w_ctxs w = c :: v_cs v;
  r_ectxs : es_ctxs s = with_used c (cx_used c + total (cx_costs c) pend) :: v_cs v;
  r_h : w_handlers w = map p_handler pend;
  r_i : w_inbox w = map p_reply pend ++ ex;
  r_pok : Forall p_ok pend;
  r_lim : cx_used c <= cx_limit c;
  r_lims : limits_ok (v_cs v);
  r_ref : refunding (cx_costs c);
  r_ro : w_ro w = cx_query c;
  r_q : cx_query c = true -> pend = [];
  r_frames : w_frames w = v_fr v :: v_frs v;
  r_eframes : es_frames s = v_fr v :: v_frs v;
  r_frame : frame_of (v_fr v) c;
  r_ns : es_ns s = w_ns w;
  r_obs : es_acts s = observed w;
  r_trace : Forall entry_ok (w_trace w);
  r_match : Forall (fun p => fst p = snd p) (w_match w);
  r_rs : w_rostack w = v_rs v;
  r_func : cx_func c = v_func v
}.

Lemma exact_ectxs v ex c w s : Rp v ex [] c w s -> es_ctxs s = c :: v_cs v.
Proof. intros R. rewrite (r_ectxs _ _ _ _ _ _ R). cbn. rewrite Z.add_0_r, with_used_id. reflexivity. Qed.

Lemma frame_used fr c u : frame_of fr c -> frame_of fr (with_used c u).
Proof. intros H; exact H. Qed.

Ltac rp R := destruct R as [Rctxs Rectxs Rh Ri Rpok Rlim Rlims Rref Rro Rq Rframes Reframes Rframe Rns Robs Rtrace Rmatch Rrs Rfunc].

(** Same record with other steps; the eager side moves along. *)
Lemma rp_used v ex pend c w s d : Rp v ex pend c w s -> cx_used c + d <= cx_limit c ->
  Rp v ex pend (with_used c (cx_used c + d)) (set_ctxs w (with_used c (cx_used c + d) :: v_cs v))
    (mk_estate (es_ns s) (es_frames s) (with_used c (cx_used c + total (cx_costs c) pend + d) :: v_cs v) (es_acts s)).
Proof.
  intros R L. rp R. constructor; cbn; auto.
  f_equal. rewrite with_used_used. f_equal. lia.
Qed.

(** ** Draining *)
Lemma consume_small n refund ty step w c cs : w_ctxs w = c :: cs -> cx_used c + step <= cx_limit c ->
  consume_loop n refund ty step w = (Ok (cx_used c + step), set_ctxs w (with_used c (cx_used c + step) :: cs)).
Proof.
  intros E L. destruct n; cbn [consume_loop]; unfold mbind, get_ctx, upd_ctx; rewrite E;
    (destruct (cx_limit c <? cx_used c + step) eqn:X; [lia|]); rewrite ?E; reflexivity.
Qed.

Lemma set_ctxs_id w l : w_ctxs w = l -> set_ctxs w l = w.
Proof. intros <-. destruct w; reflexivity. Qed.

Lemma run_handler_ok refund w c cs id h size n :
  w_ctxs w = c :: cs -> cx_query c = false -> cx_used c <= cx_limit c -> refunding (cx_costs c) ->
  p_ok (mk_pw id h size n) ->
  run_handler refund h (match n with Some _ => true | None => false end) (match n with Some n => n | None => 0 end)
    (match n with Some _ => size | None => 0 end) w
  = (Ok tt, set_ctxs w (with_used c (cx_used c + amt (cx_costs c) (mk_pw id h size n)) :: cs)).
Proof.
  intros E Q L F P. unfold run_handler. rewrite E, Q.
  pose proof (amt_neg _ _ F P) as N.
  assert (I : forall z, z = 0 -> set_ctxs w (with_used c (cx_used c + z) :: cs) = w).
  { intros z ->. rewrite Z.add_0_r, with_used_id, <- E. apply set_ctxs_id; reflexivity. }
  destruct n as [n|]; cbn [negb].
  - unfold amt in *; cbn [p_old p_h p_size] in *. destruct h.
    + unfold apply_with. unfold mbind at 1 2. unfold get_ctx. rewrite E.
      destruct (price (cx_costs c) DELETE n =? 0) eqn:X.
      * cbn. rewrite I by lia. reflexivity.
      * unfold consume_with. rewrite (consume_small _ _ _ _ _ _ _ E) by lia. reflexivity.
    + unfold add_step, upd_ctx. rewrite E. reflexivity.
  - cbn [amt p_old]. rewrite I by reflexivity. reflexivity.
Qed.

Lemma drain_step v s fuel cnt p pend ex c w : Rp v ex (p :: pend) c w s ->
  exists w', drain fuel (S cnt) w = drain fuel cnt w' /\
    Rp v ex pend (with_used c (cx_used c + amt (cx_costs c) p)) w' s /\ w_trace w' = w_trace w.
Proof.
  intros R.
  assert (Q : cx_query c = false).
  { destruct (cx_query c) eqn:Q; [|reflexivity]. apply (r_q _ _ _ _ _ _ R) in Q. discriminate Q. }
  rp R. cbn in Rh, Ri.
  assert (Pp : p_ok p) by (inversion Rpok; auto).
  pose proof (amt_neg _ _ Rref Pp) as Np.
  destruct p as [id h size old].
  set (w1 := set_match (set_inbox (set_handlers w (map p_handler pend)) (map p_reply pend ++ ex)) ((id, id) :: w_match w)).
  set (c2 := with_used c (cx_used c + amt (cx_costs c) (mk_pw id h size old))).
  set (w2 := set_ctxs w1 (c2 :: v_cs v)).
  exists w2. split; [|split; [|reflexivity]].
  - destruct fuel as [|fuel]; cbn [drain]; rewrite Rh; cbn [p_handler p_id p_h p_size];
      unfold mbind at 1, receive; cbn [w_inbox set_handlers]; rewrite Ri; cbn [p_reply p_id p_old];
      change (w_match (set_handlers w (map p_handler pend))) with (w_match w); fold w1;
      (destruct old as [old|]; unfold mbind at 1;
        [ match goal with |- context [run_handler ?f _ _ _ _] =>
            pose proof (run_handler_ok f w1 c (v_cs v) id h size (Some old) Rctxs Q Rlim Rref Pp) as RH end
        | match goal with |- context [run_handler ?f _ _ _ _] =>
            pose proof (run_handler_ok f w1 c (v_cs v) id h size None Rctxs Q Rlim Rref Pp) as RH end ]);
      cbv iota beta in RH |- *; rewrite RH; reflexivity.
  - constructor; cbn; auto; try congruence.
    + rewrite Rectxs, total_cons. f_equal. unfold c2. rewrite with_used_used. f_equal. cbn. lia.
    + inversion Rpok; auto.
    + lia.
Qed.

Lemma drain_ok v s : forall p1 p2 ex c w fuel, Rp v ex (p1 ++ p2) c w s ->
  exists w', drain fuel (length p1) w = (Ok tt, w') /\
    Rp v ex p2 (with_used c (cx_used c + total (cx_costs c) p1)) w' s /\ w_trace w' = w_trace w.
Proof.
  induction p1 as [|p p1 IH]; intros p2 ex c w fuel R.
  - exists w. change (total (cx_costs c) []) with 0. rewrite Z.add_0_r, with_used_id.
    split; [destruct fuel; reflexivity|auto].
  - destruct (drain_step v s fuel (length p1) p (p1 ++ p2) ex c w R) as (w1 & E1 & R1 & T1).
    destruct (IH p2 ex _ w1 fuel R1) as (w' & E & R' & T).
    exists w'. split; [|split; [|congruence]].
    + cbn [length]. rewrite E1. exact E.
    + rewrite total_cons. rewrite with_used_used in R'. cbn in R'.
      replace (cx_used c + (amt (cx_costs c) p + total (cx_costs c) p1))
        with (cx_used c + amt (cx_costs c) p + total (cx_costs c) p1) by lia. exact R'.
Qed.

Definition drained (c : ctx) (pend : list pw) : ctx := with_used c (cx_used c + total (cx_costs c) pend).
Lemma drained_nil c : drained c [] = c.
Proof. unfold drained. change (total (cx_costs c) []) with 0. rewrite Z.add_0_r. apply with_used_id. Qed.

Lemma handle_set_values_ok v s ex pend c w : Rp v ex pend c w s ->
  exists w', handle_set_values w = (Ok (match pend with [] => false | _ => true end), w') /\
    Rp v ex [] (drained c pend) w' s /\ w_trace w' = w_trace w /\ (pend = [] -> w' = w).
Proof.
  intros R. unfold handle_set_values, handle_all.
  rewrite (r_h _ _ _ _ _ _ R), map_length. destruct pend as [|p pend].
  - exists w. rewrite drained_nil. cbn. auto.
  - rewrite <- (app_nil_r (p :: pend)) in R.
    destruct (drain_ok v s (p :: pend) [] ex c w (length (p :: pend)) R) as (w' & E & R' & T).
    exists w'. split; [|split; [exact R'|split; [exact T|discriminate]]].
    cbn [length] in *. unfold mbind. rewrite E. reflexivity.
Qed.

(** ** Charging *)
Definition e_set (s : estate) (l : list ctx) : estate := mk_estate (es_ns s) (es_frames s) l (es_acts s).

Lemma e_charge_eq ty step s c cs : es_ctxs s = c :: cs ->
  e_charge ty step s =
  if cx_limit c <? cx_used c + step
  then (Exc (EOutOfStep (cx_limit c) (cx_used c) step ty), e_set s (with_used c (cx_limit c) :: cs))
  else (Ok tt, e_set s (with_used c (cx_used c + step) :: cs)).
Proof.
  intros E. unfold e_charge, mbind, e_ctx, e_upd. rewrite E.
  destruct (cx_limit c <? cx_used c + step); rewrite E; reflexivity.
Qed.

Lemma consume_big n refund ty step w c cs b w1 : w_ctxs w = c :: cs -> cx_limit c < cx_used c + step ->
  refund w = (Ok b, w1) ->
  consume_loop (S n) refund ty step w =
  if b : bool then consume_loop n refund ty step w1
  else match w_ctxs w1 with
       | c1 :: cs1 => (Exc (EOutOfStep (cx_limit c1) (cx_used c1) step ty), set_ctxs w1 (with_used c1 (cx_limit c1) :: cs1))
       | [] => (Exc (EPy KTypeError), w1)
       end.
Proof.
  intros C L E. cbn [consume_loop].
  rewrite (bind_ok _ _ w c w) by (unfold get_ctx; rewrite C; reflexivity).
  destruct (cx_limit c <? cx_used c + step) eqn:X; [|lia].
  rewrite (bind_ok _ _ _ _ _ E). destruct b; [reflexivity|].
  destruct (w_ctxs w1) as [|c1 cs1] eqn:C1.
  - unfold mbind, get_ctx. rewrite C1. reflexivity.
  - rewrite (bind_ok _ _ w1 c1 w1) by (unfold get_ctx; rewrite C1; reflexivity).
    unfold mbind, upd_ctx, mraise. rewrite C1. reflexivity.
Qed.

(** The exact counter of the record: what the eager side has. *)
Lemma consume_ok v s pend c w ty step : Rp v [] pend c w s ->
  (exists x w' pend' c', consume_step ty step w = (Ok x, w') /\
     cx_used (drained c pend) + step <= cx_limit c /\
     Rp v [] pend' c' w' (e_set s (with_used c (cx_used (drained c pend) + step) :: v_cs v)) /\
     (length pend' <= length pend)%nat /\ w_trace w' = w_trace w /\ w_ns w' = w_ns w /\
     c' = with_used c (cx_used c') /\ (pend' = pend /\ cx_used c' = cx_used c + step \/ pend' = []))
  \/
  (exists w1, cx_limit c < cx_used (drained c pend) + step /\
     Rp v [] [] (drained c pend) w1 s /\ w_trace w1 = w_trace w /\
     consume_step ty step w = (Exc (EOutOfStep (cx_limit c) (cx_used (drained c pend)) step ty),
                               set_ctxs w1 (with_used c (cx_limit c) :: v_cs v))).
Proof.
  intros R. unfold consume_step, consume_with.
  pose proof (r_ctxs _ _ _ _ _ _ R) as C.
  pose proof (total_neg _ _ (r_ref _ _ _ _ _ _ R) (r_pok _ _ _ _ _ _ R)) as N.
  destruct (Z.le_gt_cases (cx_used c + step) (cx_limit c)) as [X|X].
  - rewrite (consume_small _ _ _ _ _ _ _ C X).
    left. exists (cx_used c + step), (set_ctxs w (with_used c (cx_used c + step) :: v_cs v)), pend, (with_used c (cx_used c + step)).
    split; [reflexivity|].
    split; [cbn; lia|]. split; [apply (rp_used v [] pend c w s step R); lia|].
    split; [lia|]. split; [reflexivity|]. split; [reflexivity|]. split; [reflexivity|left; auto].
  - destruct (handle_set_values_ok v s [] pend c w R) as (w1 & E1 & R1 & T1 & I1).
    rewrite (consume_big _ _ _ _ _ _ _ _ _ C X E1).
    pose proof (r_ctxs _ _ _ _ _ _ R1) as C1.
    destruct pend as [|p pend].
    + right. rewrite drained_nil in *. specialize (I1 eq_refl). subst w1.
      exists w. split; [lia|]. split; [exact R1|]. split; [reflexivity|]. rewrite C. reflexivity.
    + set (pp := p :: pend) in *.
      destruct (Z.le_gt_cases (cx_used (drained c pp) + step) (cx_limit c)) as [X1|X1].
      * rewrite (consume_small _ _ _ _ _ _ _ C1 X1).
        left. exists (cx_used (drained c pp) + step), (set_ctxs w1 (with_used (drained c pp) (cx_used (drained c pp) + step) :: v_cs v)), [],
          (with_used (drained c pp) (cx_used (drained c pp) + step)).
        split; [reflexivity|].
        split; [lia|]. split.
        { assert (X2 : cx_used (drained c pp) + step <= cx_limit (drained c pp)) by exact X1.
          pose proof (rp_used v [] [] (drained c pp) w1 s step R1 X2) as R2. cbv [e_set].
          change (total (cx_costs (drained c pp)) []) with 0 in R2. rewrite Z.add_0_r in R2. exact R2. }
        split; [cbn; lia|]. split; [exact T1|]. split; [|split; [reflexivity|right; reflexivity]].
        cbn. rewrite <- (r_ns _ _ _ _ _ _ R1). apply (r_ns _ _ _ _ _ _ R).
      * destruct (handle_set_values_ok v s [] [] _ w1 R1) as (w2 & E2 & _ & _ & I2). rewrite (I2 eq_refl) in E2.
        rewrite (consume_big _ _ _ _ _ _ _ _ _ C1 X1 E2). rewrite C1.
        right. exists w1. split; [lia|]. split; [exact R1|]. split; [exact T1|]. reflexivity.
Qed.

(** ** Agreement of results *)
Definition agree {A} (v : env) (a : pyres A * world) (b : pyres A * estate) : Prop :=
  exists r w' s' pend' c', a = (r, w') /\ b = (r, s') /\ r <> Stuck /\ Rp v [] pend' c' w' s' /\ (length pend' <= 5)%nat.

Lemma agree_ret {A} v (a : A) pend c w s : Rp v [] pend c w s -> (length pend <= 5)%nat -> agree v (Ok a, w) (Ok a, s).
Proof. intros R L. exists (Ok a), w, s, pend, c. split; [reflexivity|split; [reflexivity|split; [discriminate|auto]]]. Qed.
Lemma agree_exc {A} v (e : exn) pend c w s : Rp v [] pend c w s -> (length pend <= 5)%nat -> @agree A v (Exc e, w) (Exc e, s).
Proof. intros R L. exists (Exc e), w, s, pend, c. split; [reflexivity|split; [reflexivity|split; [discriminate|auto]]]. Qed.
Lemma agree_bind {A B} v (m : M A) (e : E A) (f : A -> M B) (g : A -> E B) w s :
  agree v (m w) (e s) ->
  (forall a pend c w' s', Rp v [] pend c w' s' -> (length pend <= 5)%nat -> agree v (f a w') (g a s')) ->
  agree v (mbind m f w) (mbind e g s).
Proof.
  intros (r & w' & s' & pend & c & E1 & E2 & N & R & L) K. unfold mbind. rewrite E1, E2.
  destruct r as [a|x|]; [eapply K; eauto|eapply agree_exc; eauto|congruence].
Qed.
Lemma agree_bind_unit {A B C} v (m : M A) (e : E C) (f : M B) (g : E B) w s :
  agree v ((m ;;; mret tt) w) ((e ;;; mret tt) s) ->
  (forall pend c w' s', Rp v [] pend c w' s' -> (length pend <= 5)%nat -> agree v (f w') (g s')) ->
  agree v ((m ;;; f) w) ((e ;;; g) s).
Proof.
  intros (r & w' & s' & pend & c & E1 & E2 & N & R & L) K. unfold mbind, mret in *.
  destruct (m w) as [[a|x|] w1], (e s) as [[b|y|] s1]; apply pair_equal_spec in E1, E2; destruct E1 as [E1 <-], E2 as [E2 <-];
    subst r; try discriminate E2; try congruence.
  - eapply K; eauto.
  - assert (y = x) as -> by (injection E2; auto). eapply agree_exc; eauto.
Qed.

Lemma unit_bind {S A} (m : SM S unit) (f : SM S A) w : (m ;;; f) w = mbind m (fun _ => f) w.
Proof. reflexivity. Qed.
Lemma ret_tt {S} (m : SM S unit) w : (m ;;; mret tt) w = m w.
Proof. unfold mbind, mret. destruct (m w) as [[[]|x|] ?]; reflexivity. Qed.

(** Exact records: the running context is known. *)
Lemma rp_set_used v c w s u : Rp v [] [] c w s -> u <= cx_limit c ->
  Rp v [] [] (with_used c u) (set_ctxs w (with_used c u :: v_cs v)) (e_set s (with_used c u :: v_cs v)).
Proof.
  intros R L. rp R. constructor; cbn; auto. change (total _ []) with 0. rewrite Z.add_0_r. reflexivity.
Qed.

Lemma charge_agree v pend c w s ty step : Rp v [] pend c w s -> (length pend <= 5)%nat ->
  agree v ((consume_step ty step ;;; mret tt) w) (e_charge ty step s).
Proof.
  intros R L. rewrite (e_charge_eq ty step s _ _ (r_ectxs _ _ _ _ _ _ R)). cbn [cx_used cx_limit with_used].
  destruct (consume_ok v s pend c w ty step R) as [(x & w' & pend' & c' & E & Le & R' & Ln & _)|(w1 & Gt & R1 & T & E)].
  - destruct (_ <? _) eqn:X; [cbn in Le; lia|]. rewrite (bind_ok _ _ _ _ _ E).
    eapply agree_ret; [exact R'|lia].
  - destruct (_ <? _) eqn:X; [|cbn in Gt; lia]. rewrite (bind_exc _ _ _ _ _ E).
    eapply agree_exc; [|shelve]. rewrite with_used_used. apply (rp_set_used v (drained c pend)); [exact R1|cbn; lia].
    Unshelve. cbn; lia.
Qed.

Lemma pay_agree v pend c w s ty n : Rp v [] pend c w s -> (length pend <= 5)%nat ->
  agree v ((apply_step ty n ;;; mret tt) w) ((e_pay ty n ;;; mret tt) s).
Proof.
  intros R L. rewrite ret_tt.
  unfold apply_step, apply_with, e_pay.
  rewrite (bind_ok _ _ s _ s) by (unfold e_ctx; rewrite (r_ectxs _ _ _ _ _ _ R); reflexivity).
  cbn [cx_costs with_used].
  assert (E : forall (f : ctx -> M Z), (mbind (mbind get_ctx f) (fun _ => mret tt)) w = (f c ;;; mret tt) w).
  { intros f. unfold mbind, get_ctx. rewrite (r_ctxs _ _ _ _ _ _ R). reflexivity. }
  rewrite E. destruct (price (cx_costs c) ty n =? 0).
  - eapply agree_ret; eauto.
  - exact (charge_agree v pend c w s ty _ R L).
Qed.

(** ** Requests that read *)
Section WithHash.
Context (sha3 : bytes -> bytes).

Definition entry_of (m : msg) (w : world) : entry :=
  mk_entry (match w_frames w with fr :: _ => Some (fr_req fr) | [] => None end)
    (match w_ctxs w with c :: _ => Some c | [] => None end) (length (w_handlers w)) m.
Lemma log_eq m w : log m w = set_trace w (entry_of m w :: w_trace w).
Proof. reflexivity. Qed.

Lemma obs_log m w l : observe (entry_of m w) = [] -> flat_map observe (entry_of m w :: l) = flat_map observe l.
Proof. intros E. cbn [flat_map]. rewrite E. reflexivity. Qed.

(** Reading: the reply to the last request, after all outstanding write replies. *)
Lemma read_ok v pend c w s m r : Rp v [] pend c w s -> (length pend <= 5)%nat ->
  (match m with MGetValue _ | MContains _ _ _ | MGetBalance _ => True | _ => False end) ->
  node_recv sha3 m (log m w) = answer (log m w) r ->
  exists w', send_and_receive sha3 m w = (Ok r, w') /\ Rp v [] [] (drained c pend) w' s.
Proof.
  intros R L K N. unfold send_and_receive.
  rewrite (bind_ok _ _ w tt (answer (log m w) r)) by (unfold send; rewrite N; reflexivity).
  assert (R1 : Rp v [(length (w_trace (log m w)), r)] pend c (answer (log m w) r) s).
  { rp R. constructor; cbn; auto.
    - rewrite Ri, app_nil_r. reflexivity.
    - change (es_acts s = flat_map observe (entry_of m w :: w_trace w)).
      rewrite obs_log; [exact Robs|destruct m; try contradiction; reflexivity].
    - constructor; [|exact Rtrace]. rewrite Rctxs, Rh, map_length.
      split; [split|split; [|split]]; cbn; intros.
      + assert (c0 = c) as -> by congruence. exact Rlim.
      + subst m. contradiction.
      + destruct m; try contradiction; exact I.
      + split; [exact L|]. destruct m; try contradiction; exact I.
      + destruct m; try contradiction; exact I. }
  destruct (handle_set_values_ok _ _ _ _ _ _ R1) as (w2 & E2 & R2 & T2 & _).
  rewrite (bind_ok _ _ _ _ _ E2). unfold receive. rewrite (r_i _ _ _ _ _ _ R2). cbn [map app].
  eexists. split; [reflexivity|]. rp R2. constructor; cbn; auto.
Qed.

Lemma read_value v pend c w s key : Rp v [] pend c w s -> (length pend <= 5)%nat ->
  exists w', get_value sha3 key w = (Ok (ns_get (es_ns s) (e_here s) key), w') /\ Rp v [] [] (drained c pend) w' s.
Proof.
  intros R L. pose proof (r_frames _ _ _ _ _ _ R) as F.
  destruct (read_ok v pend c w s (MGetValue key) (RVal (ns_get (w_ns w) (rq_to (fr_req (v_fr v))) key)) R L I) as (w' & E & R').
  { unfold node_recv. cbn [w_frames log set_trace]. rewrite F. reflexivity. }
  exists w'. split; [|exact R']. unfold get_value. rewrite (bind_ok _ _ _ _ _ E).
  unfold e_here. rewrite (r_eframes _ _ _ _ _ _ R), (r_ns _ _ _ _ _ _ R). reflexivity.
Qed.

Lemma get_agree v pend c w s key : Rp v [] pend c w s -> (length pend <= 5)%nat ->
  agree v (db_get sha3 key w) (e_get key s).
Proof.
  intros R L. destruct (read_value v pend c w s key R L) as (w1 & E & R1).
  unfold db_get, e_get. rewrite (bind_ok _ _ _ _ _ E). 
  rewrite (bind_ok _ _ s (ns_get (es_ns s) (e_here s) key) s) by reflexivity.
  apply agree_bind_unit; [eapply pay_agree; [exact R1|cbn; lia]|].
  intros. eapply agree_ret; eauto.
Qed.

Lemma balance_agree v pend c w s addr : Rp v [] pend c w s -> (length pend <= 5)%nat ->
  agree v (get_balance sha3 addr w) (e_balance addr s).
Proof.
  intros R L. pose proof (r_frames _ _ _ _ _ _ R) as F.
  destruct (read_ok v pend c w s (MGetBalance addr) (RBalance (ns_balance (w_ns w) addr)) R L I) as (w' & E & R').
  { unfold node_recv. cbn [w_frames log set_trace]. rewrite F. reflexivity. }
  unfold get_balance, e_balance. rewrite (bind_ok _ _ _ _ _ E), (r_ns _ _ _ _ _ _ R).
  eapply agree_ret; [exact R'|cbn; lia].
Qed.

Lemma contains_agree v pend c w s prefix value : Rp v [] pend c w s -> (length pend <= 5)%nat ->
  agree v (db_contains sha3 prefix value w) (e_contains sha3 prefix value s).
Proof.
  intros R L. unfold db_contains, step_remained, e_contains.
  destruct (handle_set_values_ok _ _ _ _ _ _ R) as (w1 & E1 & R1 & _).
  rewrite (bind_ok _ _ w (cx_limit c - cx_used (drained c pend)) w1)
    by (rewrite (bind_ok _ _ _ _ _ E1); unfold mbind, get_ctx; rewrite (r_ctxs _ _ _ _ _ _ R1); reflexivity).
  rewrite (bind_ok _ _ s (drained c pend) s) by (unfold e_ctx; rewrite (r_ectxs _ _ _ _ _ _ R); reflexivity).
  set (res := go_contains sha3 (es_ns s) (e_here s) prefix value (cx_costs c) (cx_limit c - cx_used (drained c pend))).
  rewrite (bind_ok _ _ s res s) by reflexivity.
  pose proof (r_frames _ _ _ _ _ _ R1) as F. pose proof (r_frame _ _ _ _ _ _ R1) as (_ & Fc & _).
  destruct (read_ok v [] _ w1 s (MContains prefix value (cx_limit c - cx_used (drained c pend)))
     (let '(yn, cnt, size) := res in RContains yn cnt size) R1) as (w2 & E2 & R2); [cbn; lia|exact I| |].
  { unfold node_recv. cbn [w_frames log set_trace]. rewrite F. unfold res, e_here.
    rewrite (r_eframes _ _ _ _ _ _ R1), (r_ns _ _ _ _ _ _ R1). rewrite <- Fc. cbn [cx_costs with_used drained w_ns].
    match goal with |- context [w_ns (log ?m w1)] => change (w_ns (log m w1)) with (w_ns w1) end.
    destruct (go_contains sha3 (w_ns w1) _ _ _ _ _) as [[yn cnt] size]. reflexivity. }
  rewrite drained_nil in R2.
  rewrite (bind_ok _ _ w1 res w2).
  2: { unfold proxy_contains. rewrite (bind_ok _ _ _ _ _ E2). destruct res as [[yn cnt] size]. reflexivity. }
  destruct res as [[yn cnt] size].
  rewrite (bind_ok _ _ w2 (drained c pend) w2) by (unfold get_ctx; rewrite (r_ctxs _ _ _ _ _ _ R2); reflexivity).
  apply agree_bind_unit.
  - destruct (1 <? cnt).
    + rewrite ret_tt. eapply charge_agree; [exact R2|cbn; lia].
    + eapply agree_ret; [exact R2|cbn; lia].
  - intros. apply agree_bind_unit; [eapply pay_agree; eauto|]. intros. eapply agree_ret; eauto.
Qed.

(** ** Writes *)
Lemma blen_pos (b : bytes) : b <> [] -> 1 <= blen b.
Proof. destruct b; [congruence|]. intros _. unfold blen. cbn [length]. lia. Qed.
Lemma ns_get_pos ns a k b : ns_get ns a k = Some b -> 1 <= blen b.
Proof. unfold ns_get. destruct (ns_store ns a k) eqn:E; [discriminate|]. intros H. apply blen_pos. congruence. Qed.

Definition pw_for (w : world) (h : handler) (new : bytes) (old : option bytes) : pw :=
  mk_pw (S (length (w_trace w))) h (blen new) (option_map blen old).

Lemma write_sent v pend c w s key del value oldv :
  Rp v [] pend c w s -> (length pend <= 5)%nat -> writable c = true ->
  let new := if del : bool then [] else value in
  let m := MSetValue key oldv del value in
  let w1 := set_ns (log m w) (ns_set (w_ns w) (rq_to (fr_req (v_fr v))) key new) in
  node_recv sha3 m (log m w) =
    (if oldv : bool then answer w1 (match ns_get (w_ns w) (rq_to (fr_req (v_fr v))) key with
                           | Some o => RSet true (blen o) | None => RSet false 0 end) else w1) /\
  Rp v [] pend c w1
    (mk_estate (ns_set (es_ns s) (e_here s) key new) (es_frames s) (es_ctxs s) (AWrite (e_here s) key new :: es_acts s)).
Proof.
  intros R L W new m w1. pose proof R as R0. rp R. split.
  - unfold node_recv, m. cbn [w_frames log set_trace]. rewrite Rframes. reflexivity.
  - assert (H : e_here s = rq_to (fr_req (v_fr v))) by (unfold e_here; rewrite Reframes; reflexivity).
    constructor; cbn; auto.
    + rewrite Rns, H. reflexivity.
    + rewrite Robs, H. unfold observed. cbn [w1 w_trace set_ns log set_trace flat_map].
      unfold observe at 2. cbn [e_msg m e_req]. rewrite Rframes. cbn [app]. reflexivity.
    + constructor; [|exact Rtrace]. rewrite Rctxs, Rframes, Rh, map_length.
      split; [split|split; [|split]]; cbn.
      * intros c0 [= <-]. exact Rlim.
      * intros; discriminate.
      * exists (fr_req (v_fr v)), c. split; [reflexivity|]. split; [reflexivity|].
        destruct Rframe as (Fq & _ & _ & Ff & _). unfold writable in W. apply andb_prop in W. destruct W as [W1 W2].
        split; [rewrite <- Fq; now destruct (cx_query c)|].
        destruct Ff as [->|Ff]; [left; reflexivity|right]. rewrite Ff in W2.
        now destruct (rq_readonly (fr_req (v_fr v))).
      * split; [exact L|exact I].
      * exact I.
Qed.

Lemma writable_query c : writable c = true -> cx_query c = false.
Proof. unfold writable. destruct (cx_query c); [discriminate|reflexivity]. Qed.

Lemma write_ok v pend c w s key value h :
  Rp v [] pend c w s -> (length pend <= 5)%nat -> writable c = true ->
  (h = HRefund -> match value with Some x => x <> [] | None => False end) ->
  let new := match value with Some x => x | None => [] end in
  let p := pw_for w h new (ns_get (es_ns s) (e_here s) key) in
  exists w' pend' c', set_value sha3 key value (Some h) w = (Ok tt, w') /\ (length pend' <= 5)%nat /\
    Rp v [] pend' c' w' (mk_estate (ns_set (es_ns s) (e_here s) key new) (es_frames s)
      (with_used c (cx_used (drained c pend) + amt (cx_costs c) p) :: v_cs v) (AWrite (e_here s) key new :: es_acts s)).
Proof.
  intros R L W Hr new p.
  set (del := match value with None => true | Some _ => false end).
  set (m := MSetValue key true del new).
  assert (Hs : set_value sha3 key value (Some h) w =
    (send sha3 m ;;; fun w =>
             let w := set_handlers w (w_handlers w ++ [(length (w_trace w), (h, blen new))]) in
             let n := length (w_handlers w) in
             if Nat.ltb MAX_SET_VALUE_HANDLERS n
             then drain n (n - MAX_SET_VALUE_HANDLERS) w
             else (Ok tt, w)) w).
  { unfold set_value. rewrite (r_ro _ _ _ _ _ _ R), (writable_query _ W).
    unfold m, del, new. destruct value; reflexivity. }
  rewrite Hs. clear Hs.
  assert (Hnew : (if del then [] else new) = new) by (unfold del, new; destruct value; reflexivity).
  destruct (write_sent v pend c w s key del new true R L W) as [N R1]. cbv zeta in N, R1. fold m in N, R1. rewrite Hnew in N, R1.
  set (w1 := set_ns (log m w) _) in N, R1.
  assert (H : e_here s = rq_to (fr_req (v_fr v))) by (unfold e_here; rewrite (r_eframes _ _ _ _ _ _ R); reflexivity).
  rewrite <- H, <- (r_ns _ _ _ _ _ _ R) in N.
  unfold send. unfold mbind at 1. rewrite N. cbv beta iota.
  set (rep := match ns_get (es_ns s) (e_here s) key with Some o => RSet true (blen o) | None => RSet false 0 end).
  set (w2 := set_handlers (answer w1 rep) (w_handlers (answer w1 rep) ++ [(length (w_trace (answer w1 rep)), (h, blen new))])).
  cbv zeta. fold w2.
  set (s2 := mk_estate (ns_set (es_ns s) (e_here s) key new) (es_frames s)
      (with_used c (cx_used (drained c pend) + amt (cx_costs c) p) :: v_cs v) (AWrite (e_here s) key new :: es_acts s)).
  assert (P : p_ok p).
  { unfold p, p_ok, pw_for. cbn [p_old p_h p_size]. destruct (ns_get (es_ns s) (e_here s) key) as [o|] eqn:G; [|exact I].
    cbn [option_map]. split; [eapply ns_get_pos; eauto|]. intros ->. specialize (Hr eq_refl).
    unfold new. destruct value; [|contradiction]. apply blen_pos. exact Hr. }
  assert (R2 : Rp v [] (pend ++ [p]) c w2 s2).
  { rp R1. constructor; cbn; auto.
    - unfold drained. cbn [cx_used with_used]. rewrite total_app, total_cons. change (total _ []) with 0. rewrite Z.add_0_r, Z.add_assoc. reflexivity.
    - rewrite map_app. change (w_handlers w) with (w_handlers w1). rewrite Rh. reflexivity.
    - rewrite map_app. change (w_inbox w) with (w_inbox w1). rewrite Ri, !app_nil_r. f_equal. cbn [map]. f_equal.
      unfold p_reply, p, rep. cbn [p_id p_old pw_for]. destruct (ns_get (es_ns s) (e_here s) key); reflexivity.
    - apply Forall_app. split; [exact Rpok|constructor; [exact P|constructor]].
    - intros Q. pose proof (writable_query _ W). congruence. }
  assert (Len : length (w_handlers w2) = S (length pend)).
  { rewrite (r_h _ _ _ _ _ _ R2), map_length, app_length. cbn. lia. }
  rewrite Len. unfold MAX_SET_VALUE_HANDLERS. destruct (Nat.ltb 5 (S (length pend))) eqn:X.
  - assert (length pend = 5)%nat by (apply Nat.ltb_lt in X; lia).
    destruct pend as [|p0 pend]; [discriminate|].
    replace (S (length (p0 :: pend)) - 5)%nat with (length [p0]) by (cbn in *; lia).
    destruct (drain_ok v s2 [p0] (pend ++ [p]) [] c w2 (S (length (p0 :: pend))) R2) as (w3 & E3 & R3 & _).
    exists w3, (pend ++ [p]). eexists. split; [exact E3|]. split; [|exact R3].
    rewrite app_length. cbn in *. lia.
  - exists w2, (pend ++ [p]), c. split; [reflexivity|]. split; [|exact R2].
    apply Nat.ltb_ge in X. rewrite app_length. cbn. lia.
Qed.

Lemma writable_env v ex1 ex2 p1 p2 c1 c2 w1 w2 s1 s2 : Rp v ex1 p1 c1 w1 s1 -> Rp v ex2 p2 c2 w2 s2 -> writable c1 = writable c2.
Proof.
  intros R1 R2. unfold writable. rewrite (r_func _ _ _ _ _ _ R1), (r_func _ _ _ _ _ _ R2).
  destruct (r_frame _ _ _ _ _ _ R1) as (-> & _), (r_frame _ _ _ _ _ _ R2) as (-> & _). reflexivity.
Qed.

Lemma write_plain_ok v pend c w s key value :
  Rp v [] pend c w s -> (length pend <= 5)%nat -> writable c = true ->
  agree v (set_value sha3 key (Some value) None w) (e_write key value s).
Proof.
  intros R L W. unfold set_value. rewrite (r_ro _ _ _ _ _ _ R), (writable_query _ W).
  destruct (write_sent v pend c w s key false value false R L W) as [N R1]. cbv zeta in N, R1.
  unfold send, mbind at 1. rewrite N. unfold e_write. eapply agree_ret; eauto.
Qed.

Lemma not_read_only c : writable c = negb (read_only c).
Proof. unfold writable, read_only. destruct (cx_query c), (cx_func c) as [[]|]; reflexivity. Qed.

Lemma e_pay_ok ty n s c cs : es_ctxs s = c :: cs -> cx_used c + price (cx_costs c) ty n <= cx_limit c ->
  e_pay ty n s = (Ok tt, e_set s (with_used c (cx_used c + price (cx_costs c) ty n) :: cs)).
Proof.
  intros E L. unfold e_pay. rewrite (bind_ok _ _ s c s) by (unfold e_ctx; rewrite E; reflexivity).
  destruct (price (cx_costs c) ty n =? 0) eqn:X.
  - replace (price (cx_costs c) ty n) with 0 by lia. rewrite Z.add_0_r, with_used_id, <- E.
    unfold e_set. destruct s; reflexivity.
  - rewrite (e_charge_eq _ _ _ _ _ E). destruct (_ <? _) eqn:Y; [lia|reflexivity].
Qed.

Lemma delete_agree v pend c w s key value h : Rp v [] pend c w s -> (length pend <= 5)%nat -> writable c = true ->
  h = HDelete -> (value = None \/ value = Some []) ->
  agree v (set_value sha3 key value (Some h) w) (e_delete key s).
Proof.
  intros R L W -> V. 
  destruct (write_ok v pend c w s key value HDelete R L W) as (w' & pend' & c' & E & L' & R'); [discriminate|].
  cbv zeta in R'. rewrite E. unfold e_delete.
  rewrite (bind_ok _ _ s (drained c pend) s) by (unfold e_ctx; rewrite (r_ectxs _ _ _ _ _ _ R); reflexivity).
  assert (Ro : read_only (drained c pend) = false).
  { change (read_only (drained c pend)) with (read_only c). rewrite not_read_only in W. now destruct (read_only c). }
  rewrite Ro.
  rewrite (bind_ok _ _ s (ns_get (es_ns s) (e_here s) key) s) by reflexivity.
  assert (Hn : match value with Some x => x | None => [] end = []) by (destruct V; subst; reflexivity).
  rewrite Hn in R'.
  unfold mbind at 1. unfold e_write at 1.
  pose proof (total_neg _ _ (r_ref _ _ _ _ _ _ R) (r_pok _ _ _ _ _ _ R)) as N. pose proof (r_lim _ _ _ _ _ _ R) as Lm.
  destruct (ns_get (es_ns s) (e_here s) key) as [o|] eqn:G.
  - assert (Np : price (cx_costs c) DELETE (blen o) <= 0).
    { apply (r_ref _ _ _ _ _ _ R). eapply ns_get_pos; eauto. }
    rewrite (e_pay_ok DELETE (blen o) _ (drained c pend) (v_cs v)).
    + unfold amt in R'. cbn [pw_for p_old p_h option_map] in R'. eapply agree_ret; [exact R'|exact L'].
    + cbn. exact (r_ectxs _ _ _ _ _ _ R).
    + cbn [drained cx_used cx_limit cx_costs with_used]. lia.
  - unfold amt in R'. cbn [pw_for p_old p_h option_map] in R'. rewrite Z.add_0_r in R'.
    unfold mret. rewrite (r_ectxs _ _ _ _ _ _ R). eapply agree_ret; [exact R'|exact L'].
Qed.

Lemma e_put_ok s c cs key value : es_ctxs s = c :: cs -> read_only c = false -> value <> [] ->
  let old := ns_get (es_ns s) (e_here s) key in
  let total := cx_used c + price (cx_costs c) SET (blen value) +
      match old with
      | Some o => refund_amount (cx_costs c) (if cx_costs c SCHEMA =? 0 then blen value else blen o)
      | None => 0
      end in
  total <= cx_limit c ->
  e_put key value s = (Ok tt, mk_estate (ns_set (es_ns s) (e_here s) key value) (es_frames s)
                               (with_used c total :: cs) (AWrite (e_here s) key value :: es_acts s)).
Proof.
  intros E Ro Nv old tot Le. unfold e_put. destruct value as [|b value]; [congruence|]. set (val := b :: value) in *.
  rewrite (bind_ok _ _ s c s) by (unfold e_ctx; rewrite E; reflexivity). rewrite Ro.
  rewrite (bind_ok _ _ s old s) by reflexivity.
  destruct (cx_costs c SCHEMA =? 0) eqn:S0.
  - assert (Hp : price (cx_costs c) (match old with Some _ => REPLACE | None => SET end) (blen val) =
      price (cx_costs c) SET (blen val) + match old with Some o => refund_amount (cx_costs c) (blen val) | None => 0 end).
    { unfold price, refund_amount, base_step. rewrite S0. destruct old; lia. }
    rewrite (bind_ok _ _ s tt (e_set s (with_used c tot :: cs))).
    + reflexivity.
    + rewrite (e_pay_ok _ _ _ _ _ E).
      * rewrite Hp. unfold tot. rewrite Z.add_assoc. reflexivity.
      * rewrite Hp. unfold tot in Le. lia.
  - destruct old as [o|].
    + rewrite (bind_ok _ _ s tt (e_set s (with_used c tot :: cs))); [reflexivity|].
      rewrite (bind_ok _ _ s tt (e_set s (with_used c (cx_used c + refund_amount (cx_costs c) (blen o)) :: cs)))
        by (unfold e_refund, e_upd; rewrite E; reflexivity).
      rewrite (e_pay_ok _ _ (e_set s (with_used c (cx_used c + refund_amount (cx_costs c) (blen o)) :: cs)) (with_used c (cx_used c + refund_amount (cx_costs c) (blen o))) cs eq_refl).
      * cbn [cx_used cx_costs with_used]. rewrite with_used_used. unfold tot.
        replace (cx_used c + refund_amount (cx_costs c) (blen o) + price (cx_costs c) SET (blen val))
          with (cx_used c + price (cx_costs c) SET (blen val) + refund_amount (cx_costs c) (blen o)) by lia. reflexivity.
      * unfold tot in Le. cbn [cx_used cx_costs cx_limit with_used]. lia.
    + rewrite (bind_ok _ _ s tt (e_set s (with_used c tot :: cs))); [reflexivity|].
      rewrite (bind_ok _ _ s tt s) by reflexivity.
      rewrite (e_pay_ok _ _ _ _ _ E); unfold tot in *; rewrite Z.add_0_r in *; [reflexivity|lia].
Qed.

Lemma put_agree v pend c w s key value : Rp v [] pend c w s -> (length pend <= 5)%nat ->
  agree v (db_put sha3 key value w) (e_put key value s).
Proof.
  intros R L. unfold db_put.
  rewrite (bind_ok _ _ w c w) by (unfold get_ctx; rewrite (r_ctxs _ _ _ _ _ _ R); reflexivity).
  pose proof (r_ectxs _ _ _ _ _ _ R) as Ec. fold (drained c pend) in Ec.
  destruct (writable c) eqn:W; cbn [negb].
  2: { assert (Ro : read_only (drained c pend) = true).
       { change (read_only (drained c pend)) with (read_only c). rewrite not_read_only in W. now destruct (read_only c). }
       assert (Ep : e_put key value s = (Exc (EIcon Database), s)).
       { destruct value; unfold e_put, e_delete; rewrite (bind_ok _ _ s (drained c pend) s)
           by (unfold e_ctx; rewrite Ec; reflexivity); rewrite Ro; reflexivity. }
       rewrite Ep. eapply agree_exc; eauto. }
  destruct value as [|b value]; [apply (delete_agree v pend c); auto|]. set (val := b :: value).
  assert (Nv : val <> []) by discriminate.
  rewrite (writable_query _ W).
  pose proof (total_neg _ _ (r_ref _ _ _ _ _ _ R) (r_pok _ _ _ _ _ _ R)) as N. pose proof (r_lim _ _ _ _ _ _ R) as Lm.
  assert (Ro : read_only (drained c pend) = false).
  { change (read_only (drained c pend)) with (read_only c). rewrite not_read_only in W. now destruct (read_only c). }
  set (k := cx_costs c). set (pr := price k SET (blen val)).
  assert (HA : (exists x w1 pend1 c1, apply_step SET (blen val) w = (Ok x, w1) /\
                  cx_used (drained c pend) + pr <= cx_limit c /\
                  Rp v [] pend1 c1 w1 (e_set s (with_used c (cx_used (drained c pend) + pr) :: v_cs v)) /\
                  (length pend1 <= 5)%nat /\ c1 = with_used c (cx_used c1)) \/
               (exists w1, cx_limit c < cx_used (drained c pend) + pr /\ pr <> 0 /\
                  Rp v [] [] (drained c pend) w1 s /\
                  apply_step SET (blen val) w = (Exc (EOutOfStep (cx_limit c) (cx_used (drained c pend)) pr SET),
                               set_ctxs w1 (with_used c (cx_limit c) :: v_cs v)))).
  { unfold apply_step, apply_with.
    rewrite (bind_ok _ _ w c w) by (unfold get_ctx; rewrite (r_ctxs _ _ _ _ _ _ R); reflexivity).
    fold k. fold pr. destruct (pr =? 0) eqn:P0.
    - left. exists (cx_used c), w, pend, c. split; [reflexivity|]. split; [unfold drained; cbn [cx_used with_used]; lia|].
      split; [|split; [exact L|symmetry; apply with_used_id]].
      replace pr with 0 by lia. rewrite Z.add_0_r. fold (drained c pend).
      replace (e_set s _) with s; [exact R|]. unfold drained at 1. cbn [cx_used with_used].
      fold (drained c pend). rewrite <- Ec. unfold e_set. destruct s; reflexivity.
    - destruct (consume_ok v s pend c w SET pr R) as [(x & w' & pend' & c' & E & Le & R' & Ln & _ & _ & Hc & _)|(w1 & Gt & R1 & T & E)].
      + left. exists x, w', pend', c'. split; [exact E|]. split; [exact Le|]. split; [exact R'|]. split; [lia|exact Hc].
      + right. exists w1. split; [exact Gt|]. split; [lia|]. split; [exact R1|exact E]. }
  destruct HA as [(x & w1 & pend1 & c1 & E1 & Le & R1 & L1 & Hc1)|(w1 & Gt & Pn & R1 & E1)].
  - set (s1 := e_set s _) in R1.
    assert (W1 : writable c1 = true) by (rewrite Hc1; exact W).
    destruct (write_ok v pend1 c1 w1 s1 key (Some val) HRefund R1 L1 W1 (fun _ => Nv)) as (w2 & pend2 & c2 & E2 & L2 & R2).
    cbv zeta in R2. change (e_here s1) with (e_here s) in R2. change (es_ns s1) with (es_ns s) in R2.
    rewrite (mtry_ok _ _ w tt w2) by (rewrite (bind_ok _ _ _ _ _ E1); exact E2).
    set (old := ns_get (es_ns s) (e_here s) key) in *.
    pose proof (r_ectxs _ _ _ _ _ _ R1) as Ec1.
    assert (U1 : cx_used (drained c1 pend1) = cx_used (drained c pend) + pr).
    { unfold s1 in Ec1. cbn [es_ctxs e_set] in Ec1. injection Ec1 as _ _ _ _ U _ . cbn [drained with_used cx_used]. lia. }
    assert (Ha : amt (cx_costs c1) (pw_for w1 HRefund val old) =
                 match old with Some o => refund_amount k (if k SCHEMA =? 0 then blen val else blen o) | None => 0 end).
    { rewrite Hc1. unfold amt, pw_for. cbn [p_old p_h p_size cx_costs with_used]. fold k. destruct old; reflexivity. }
    assert (Pk : p_ok (pw_for w1 HRefund val old)).
    { unfold p_ok, pw_for. cbn [p_old p_h p_size]. unfold old. destruct (ns_get _ _ _) eqn:G; [|exact I]. cbn [option_map].
      split; [eapply ns_get_pos; eauto|intros _; apply blen_pos; exact Nv]. }
    pose proof (amt_neg k _ (r_ref _ _ _ _ _ _ R) Pk) as Na.
    assert (Hk1 : cx_costs c1 = k) by (rewrite Hc1; reflexivity). rewrite Hk1 in Ha. rewrite Ha in Na.
    rewrite U1, Hk1, Ha in R2. rewrite Hc1 in R2. 
    rewrite (e_put_ok s (drained c pend) (v_cs v) key val Ec Ro Nv).
    + eapply agree_ret; [|exact L2]. exact R2.
    + change (cx_limit (drained c pend)) with (cx_limit c). change (cx_costs (drained c pend)) with k.
      fold old. fold pr. lia.
  - rewrite (mtry_exc _ _ w _ _ (bind_exc _ _ _ _ _ E1)). cbv iota beta.
    set (d := drained c pend) in *.
    assert (Ea : add_step (cx_used d - cx_limit c) (set_ctxs w1 (with_used c (cx_limit c) :: v_cs v)) = (Ok tt, w1)).
    { unfold add_step, upd_ctx. cbn [w_ctxs set_ctxs]. f_equal.
      transitivity (set_ctxs w1 (d :: v_cs v)).
      - unfold set_ctxs. cbn. f_equal. f_equal. unfold d, drained. rewrite !with_used_used. f_equal.
        cbn [with_used cx_used]. lia.
      - apply set_ctxs_id. apply (r_ctxs _ _ _ _ _ _ R1). }
    rewrite (bind_ok _ _ _ _ _ Ea).
    destruct (read_value v [] d w1 s key R1) as (w2 & E2 & R2); [cbn; lia|]. rewrite drained_nil in R2.
    rewrite (bind_ok _ _ _ _ _ E2).
    set (old := ns_get (es_ns s) (e_here s) key) in *.
    assert (Ep : e_put key val s =
      ((if k SCHEMA =? 0 then e_pay (match old with Some _ => REPLACE | None => SET end) (blen val)
        else match old with Some o => e_refund (refund_amount k (blen o)) | None => mret tt end ;;; e_pay SET (blen val)) ;;;
       e_write key val) s).
    { unfold e_put, val.
      rewrite (bind_ok _ _ s d s) by (unfold e_ctx; rewrite Ec; reflexivity). rewrite Ro.
      rewrite (bind_ok _ _ s old s) by reflexivity. reflexivity. }
    change (agree v ((((if k SCHEMA =? 0 then
                   match old with
                   | Some _ => apply_step REPLACE (blen val) ;;; mret tt
                   | None => apply_step SET (blen val) ;;; mret tt
                   end
                 else
                   (match old with
                    | Some old => run_handler handle_set_values HRefund true (blen old) 0
                    | None => mret tt
                    end) ;;;
                   apply_step SET (blen val) ;;; mret tt)) ;;;
                set_value sha3 key (Some val) None) w2) (e_put key val s)).
    rewrite Ep.
    apply agree_bind.
    + destruct (k SCHEMA =? 0) eqn:S0.
      * assert (PA : forall ty, agree v ((apply_step ty (blen val) ;;; mret tt) w2) (e_pay ty (blen val) s)).
        { intros ty. rewrite <- (ret_tt (e_pay _ _)). eapply pay_agree; [exact R2|cbn; lia]. }
        destruct old; apply PA.
      * destruct old as [o|] eqn:Go.
        -- assert (RA : agree v (run_handler handle_set_values HRefund true (blen o) 0 w2) (e_refund (refund_amount k (blen o)) s)).
           { unfold run_handler. rewrite (r_ctxs _ _ _ _ _ _ R2). change (cx_query d) with (cx_query c).
             rewrite (writable_query _ W). cbn [negb]. change (cx_costs d) with k. rewrite S0.
             unfold add_step, upd_ctx, e_refund, e_upd. rewrite (r_ctxs _ _ _ _ _ _ R2), Ec.
             assert (Nr : refund_amount k (blen o) <= 0).
             { apply (r_ref _ _ _ _ _ _ R). unfold old in Go. eapply ns_get_pos; eauto. }
             eapply agree_ret; [apply (rp_set_used v d w2 s (cx_used d + refund_amount k (blen o))); [exact R2|]|cbn; lia].
             pose proof (r_lim _ _ _ _ _ _ R2). lia. }
           apply agree_bind; [exact RA|]. intros _ pend2 c2 w3 s3 R3 L3.
           rewrite <- (ret_tt (e_pay _ _)). eapply pay_agree; eauto.
        -- apply agree_bind; [eapply agree_ret; [exact R2|cbn; lia]|]. intros _ pend2 c2 w3 s3 R3 L3.
           rewrite <- (ret_tt (e_pay _ _)). eapply pay_agree; eauto.
    + intros _ pend3 c3 w3 s3 R3 L3. eapply write_plain_ok; eauto.
      rewrite <- (writable_env v _ _ _ _ _ _ _ _ _ _ R R3). exact W.
Qed.

Lemma del_agree v pend c w s key : Rp v [] pend c w s -> (length pend <= 5)%nat ->
  agree v (db_delete sha3 key w) (e_delete key s).
Proof.
  intros R L. unfold db_delete.
  rewrite (bind_ok _ _ w c w) by (unfold get_ctx; rewrite (r_ctxs _ _ _ _ _ _ R); reflexivity).
  destruct (writable c) eqn:W; cbn [negb]; [apply (delete_agree v pend c); auto|].
  unfold e_delete. rewrite (bind_ok _ _ s (drained c pend) s) by (unfold e_ctx; rewrite (r_ectxs _ _ _ _ _ _ R); reflexivity).
  change (read_only (drained c pend)) with (read_only c). rewrite not_read_only in W. destruct (read_only c); [|discriminate W].
  eapply agree_exc; eauto.
Qed.

(** A message without reply and without effect on the state. *)
Lemma note_ok v ex pend c w s m a : Rp v ex pend c w s -> observe (entry_of m w) = [a] -> entry_ok (entry_of m w) ->
  Rp v ex pend c (log m w) (mk_estate (es_ns s) (es_frames s) (es_ctxs s) (a :: es_acts s)).
Proof.
  intros R O K. rp R. constructor; cbn; auto.
  change (a :: es_acts s = flat_map observe (entry_of m w :: w_trace w)). cbn [flat_map]. rewrite O, Robs. reflexivity.
Qed.

Lemma rp_writable v ex pend c w s : Rp v ex pend c w s -> writable c = true ->
  rq_query (fr_req (v_fr v)) = false /\ (cx_func c = None \/ rq_readonly (fr_req (v_fr v)) = false).
Proof.
  intros R W. destruct (r_frame _ _ _ _ _ _ R) as (Fq & _ & _ & Ff & _).
  unfold writable in W. apply andb_prop in W. destruct W as [W1 W2].
  split; [rewrite <- Fq; now destruct (cx_query c)|].
  destruct Ff as [->|Ff]; [left; reflexivity|right]. rewrite Ff in W2. now destruct (rq_readonly (fr_req (v_fr v))).
Qed.

Lemma event_agree v pend c w s size i d : Rp v [] pend c w s -> (length pend <= 5)%nat ->
  agree v (emit_event sha3 size i d w) (e_event size i d s).
Proof.
  intros R L. unfold emit_event, e_event.
  rewrite (bind_ok _ _ w c w) by (unfold get_ctx; rewrite (r_ctxs _ _ _ _ _ _ R); reflexivity).
  rewrite (bind_ok _ _ s (drained c pend) s) by (unfold e_ctx; rewrite (r_ectxs _ _ _ _ _ _ R); reflexivity).
  change (read_only (drained c pend)) with (read_only c). change (cx_costs (drained c pend)) with (cx_costs c).
  fold (read_only c). destruct (read_only c) eqn:Ro; [eapply agree_exc; eauto|].
  apply agree_bind_unit; [eapply pay_agree; eauto|].
  intros pend2 c2 w2 s2 R2 L2.
  assert (W : writable c2 = true).
  { rewrite <- (writable_env v _ _ _ _ _ _ _ _ _ _ R R2), not_read_only, Ro. reflexivity. }
  unfold send_event. rewrite (r_ro _ _ _ _ _ _ R2), (writable_query _ W).
  unfold send, e_act.
  assert (N : node_recv sha3 (MEvent i d) (log (MEvent i d) w2) = log (MEvent i d) w2).
  { unfold node_recv. cbn [w_frames log set_trace]. rewrite (r_frames _ _ _ _ _ _ R2). reflexivity. }
  rewrite N. eapply agree_ret; [|exact L2]. apply note_ok; [exact R2|reflexivity|].
  unfold entry_of. rewrite (r_frames _ _ _ _ _ _ R2), (r_ctxs _ _ _ _ _ _ R2), (r_h _ _ _ _ _ _ R2), map_length.
  destruct (rp_writable _ _ _ _ _ _ R2 W) as [Hq Hf].
  split; [split|split; [|split]]; cbn.
  - intros c0 [= <-]. apply (r_lim _ _ _ _ _ _ R2).
  - intros; discriminate.
  - exists (fr_req (v_fr v)), c2. auto.
  - split; [exact L2|exact I].
  - exact I.
Qed.

Lemma fee_agree v pend c w s pct : Rp v [] pend c w s -> (length pend <= 5)%nat ->
  agree v (set_fee_sharing pct w) (e_fee pct s).
Proof.
  intros R L. unfold set_fee_sharing, e_fee.
  rewrite (bind_ok _ _ w c w) by (unfold get_ctx; rewrite (r_ctxs _ _ _ _ _ _ R); reflexivity).
  rewrite (bind_ok _ _ s (drained c pend) s) by (unfold e_ctx; rewrite (r_ectxs _ _ _ _ _ _ R); reflexivity).
  change (cx_query (drained c pend)) with (cx_query c). destruct (cx_query c) eqn:Q; [eapply agree_exc; eauto|].
  destruct ((pct <? 0) || (100 <? pct)) eqn:B; [eapply agree_exc; eauto|].
  unfold upd_ctx, e_upd. rewrite (r_ctxs _ _ _ _ _ _ R), (r_ectxs _ _ _ _ _ _ R).
  eapply (agree_ret v tt pend (with_fee c pct)); [|exact L].
  apply orb_false_elim in B. destruct B as [B1 B2].
  rp R. constructor; cbn; auto.
  - destruct Rframe as (F1 & F2 & F3 & F4 & F5 & F6). split; [exact F1|]. split; [exact F2|]. split; [exact F3|]. split; [exact F4|].
    cbn. split; [lia|congruence].
Qed.

(** ** Between a CALL and its RESULT, and in the main loop *)
Record env0 := mk_env0 { z_rs : list bool; z_ro : bool; z_cs : list ctx; z_frs : list frame }.
Record R0 (z : env0) (w : world) (s : estate) : Prop := {
  z_ctxs : w_ctxs w = z_cs z;
  z_ectxs : es_ctxs s = z_cs z;
  z_h : w_handlers w = [];
  z_i : w_inbox w = [];
  z_lims : limits_ok (z_cs z);
  z_roeq : w_ro w = z_ro z;
  z_frames : w_frames w = z_frs z;
  z_eframes : es_frames s = z_frs z;
  z_ns : es_ns s = w_ns w;
  z_obs : es_acts s = observed w;
  z_trace : Forall entry_ok (w_trace w);
  z_match : Forall (fun p => fst p = snd p) (w_match w);
  z_rseq : w_rostack w = z_rs z
}.
Definition env0_of (v : env) (c : ctx) : env0 :=
  mk_env0 (v_rs v) (cx_query c) (c :: v_cs v) (v_fr v :: v_frs v).

Lemma rp_r0 v c w s : Rp v [] [] c w s -> R0 (env0_of v c) w s.
Proof.
  intros R. pose proof (exact_ectxs _ _ _ _ _ R). rp R. constructor; cbn; auto. constructor; auto.
Qed.
Lemma r0_rp v c w s w0 s0 : Rp v [] [] c w0 s0 -> R0 (env0_of v c) w s -> Rp v [] [] c w s.
Proof.
  intros R Z. rp R. destruct Z. cbn in *. constructor; cbn; auto.
  rewrite z_ectxs0. change (total _ []) with 0. rewrite Z.add_0_r, with_used_id. reflexivity.
Qed.

Definition agree0 {A} (z : env0) (a : pyres A * world) (b : pyres A * estate) : Prop :=
  exists x w' s', a = (Ok x, w') /\ b = (Ok x, s') /\ R0 z w' s'.

Lemma encode_any_total (v : pyval) : (exists t, encode_any v = Ok t) \/ (exists k, encode_any v = Exc (EPy k)).
Proof.
  assert (ML : forall {X Y} (f : X -> pyres Y) l, Forall (fun x => (exists t, f x = Ok t) \/ (exists k, f x = Exc (EPy k))) l ->
    (exists ts, map_res f l = Ok ts) \/ (exists k, map_res f l = Exc (EPy k))).
  { intros X Y f l. induction 1 as [|x l [(t & E)|(k & E)] _ IH]; [left; exists []; reflexivity| |].
    - cbn [map_res]. rewrite E. cbn [res_bind]. fold (map_res f). destruct IH as [(ts & ->)|(k & ->)]; [left|right]; eexists; reflexivity.
    - right. exists k. cbn [map_res]. rewrite E. reflexivity. }
  assert (MD : forall d, Forall (fun kv => (exists t, encode_any (snd kv) = Ok t) \/ (exists k, encode_any (snd kv) = Exc (EPy k))) d ->
    (exists ts, map_res (fun kv : dkey * pyval => match kv with
                                   | (DKOther, _) => Exc (EPy KInvalidKey)
                                   | (DKStr k, v) => res_bind (encode_any v) (fun t => Ok (WStr k, t))
                                   end) d = Ok ts) \/
    (exists k, map_res (fun kv : dkey * pyval => match kv with
                                   | (DKOther, _) => Exc (EPy KInvalidKey)
                                   | (DKStr k, v) => res_bind (encode_any v) (fun t => Ok (WStr k, t))
                                   end) d = Exc (EPy k))).
  { intros d F. apply ML. induction F as [|[dk x] d H _ IH]; constructor; [|exact IH].
    destruct dk as [k|]; [|right; exists KInvalidKey; reflexivity].
    cbn [snd] in H. destruct H as [(t & ->)|(k' & ->)]; [left|right]; eexists; reflexivity. }
  induction v using pyval_ind2; cbn [encode_any]; try (left; eexists; reflexivity).
  - destruct (int_to_bytes z); [left|right]; eexists; reflexivity.
  - destruct (utf8_encode s); [left|right]; eexists; reflexivity.
  - destruct (ML _ _ _ l H) as [(ts & ->)|(k & ->)]; [left|right]; eexists; reflexivity.
  - destruct (ML _ _ _ l H) as [(ts & ->)|(k & ->)]; [left|right]; eexists; reflexivity.
  - destruct (MD d H) as [(ts & ->)|(k & ->)]; [left|right]; eexists; reflexivity.
  - right; eexists; reflexivity.
Qed.


Fixpoint typed_ind2 (P : typed -> Prop) (H1 : forall t, P (TNil t)) (H2 : forall t b, P (TBin t b))
  (H3 : forall t l, Forall P l -> P (TList t l)) (H4 : forall t d, Forall (fun kv => P (snd kv)) d -> P (TDict t d)) (t : typed) : P t :=
  match t with
  | TNil t => H1 t
  | TBin t b => H2 t b
  | TList t l => H3 t l ((fix go l : Forall P l := match l with [] => Forall_nil _ | x :: r => Forall_cons _ (typed_ind2 P H1 H2 H3 H4 x) (go r) end) l)
  | TDict t d => H4 t d ((fix go d : Forall (fun kv => P (snd kv)) d :=
        match d with [] => Forall_nil _ | x :: r => Forall_cons x (typed_ind2 P H1 H2 H3 H4 (snd x)) (go r) end) d)
  end.

Lemma map_res_ns {X Y} (f : X -> pyres Y) l : Forall (fun x => f x <> Stuck) l -> map_res f l <> Stuck.
Proof.
  induction 1 as [|x l H _ IH]; [discriminate|]. cbn [map_res]. destruct (f x); cbn [res_bind]; [|discriminate|congruence].
  fold (map_res f). destruct (map_res f l); cbn [res_bind]; congruence.
Qed.
Lemma address_from_bytes_ns b : address_from_bytes b <> Stuck.
Proof.
  assert (N : forall p b (f : address -> pyres (option address)), (forall a, f a <> Stuck) -> res_bind (new_address p b) f <> Stuck).
  { intros p x f Hf. unfold new_address. destruct (_ =? _); cbn; [apply Hf|discriminate]. }
  unfold address_from_bytes. destruct (negb _); [discriminate|]. destruct (_ =? _).
  - apply N. discriminate.
  - destruct b as [|[|[]|] b]; try discriminate; apply N; discriminate.
Qed.
Lemma decode_any_ns t : decode_any t <> Stuck.
Proof.
  induction t using typed_ind2; cbn [decode_any];
    repeat match goal with |- context [if ?b then _ else _] => destruct b end; try discriminate.
  - unfold decode. repeat match goal with |- context [if ?b then _ else _] => destruct b end; try discriminate.
    + destruct (utf8_decode b); discriminate.
    + pose proof (address_from_bytes_ns b). destruct (address_from_bytes b) as [[]| |]; cbn; congruence.
  - pose proof (map_res_ns decode_any l H). destruct (map_res decode_any l); cbn; congruence.
  - set (f := fun kv : wkey * typed => _).
    assert (F : map_res f d <> Stuck).
    { apply map_res_ns. induction H as [|[k x] d H _ IH]; constructor; [|exact IH].
      cbn [snd] in H. unfold f. unfold decode_key. destruct k as [s|bs].
      - cbn. destruct (decode_any x); cbn; congruence.
      - destruct (utf8_decode bs); cbn; [|discriminate]. destruct (decode_any x); cbn; congruence. }
    destruct (map_res f d); cbn; congruence.
Qed.

(** ** Calls *)
Lemma call_agree v pend c w s ca (na : Z -> M (Z * Z * typed)) (ena : Z -> E (Z * Z * typed)) :
  (forall limit z w s, 0 <= limit -> R0 z w s -> agree0 z (na limit w) (ena limit s)) ->
  Rp v [] pend c w s -> (length pend <= 5)%nat ->
  agree v (message_call sha3 ca na w) (e_call ca ena s).
Proof.
  intros HN R L. unfold message_call, e_call, step_remained.
  rewrite (bind_ok _ _ w (S (length (v_cs v))) w) by (unfold depth; rewrite (r_ctxs _ _ _ _ _ _ R); reflexivity).
  destruct (handle_set_values_ok _ _ _ _ _ _ R) as (w1 & E1 & R1 & _).
  set (d := drained c pend) in *. set (limit := cx_limit d - cx_used d).
  rewrite (bind_ok _ _ w limit w1)
    by (rewrite (bind_ok _ _ _ _ _ E1); unfold mbind, get_ctx; rewrite (r_ctxs _ _ _ _ _ _ R1); reflexivity).
  rewrite (bind_ok _ _ s d s) by (unfold e_ctx; rewrite (exact_ectxs _ _ _ _ _ R1); reflexivity).
  cbv zeta. fold limit. unfold proxy_call.
  set (arg := VDict _).
  destruct (encode_any_total arg) as [(data & Ed)|(k & Ed)]; rewrite Ed.
  2: { unfold mbind, mlift. eapply agree_exc; [exact R1|cbn; lia]. }
  set (m := MCall (ca_to ca) (ca_amount ca) limit data).
  assert (Nm : send sha3 m w1 = (Ok tt, log m w1)).
  { unfold send, node_recv, m. cbn [w_frames log set_trace]. rewrite (r_frames _ _ _ _ _ _ R1). reflexivity. }
  set (s1 := mk_estate (es_ns s) (es_frames s) (es_ctxs s) (ACall (ca_to ca) (ca_amount ca) limit data :: es_acts s)).
  assert (R2 : Rp v [] [] d (log m w1) s1).
  { apply note_ok; [exact R1|reflexivity|].
    unfold entry_of. rewrite (r_frames _ _ _ _ _ _ R1), (r_ctxs _ _ _ _ _ _ R1), (r_h _ _ _ _ _ _ R1).
    split; [split|split; [|split]]; cbn.
    - intros c0 [= <-]. apply (r_lim _ _ _ _ _ _ R1).
    - intros; discriminate.
    - exact I.
    - split; [exact (Nat.le_0_l 5)|reflexivity].
    - exists d. split; reflexivity. }
  assert (Lnn : 0 <= limit) by (pose proof (r_lim _ _ _ _ _ _ R1); unfold limit; lia).
  destruct (HN limit (env0_of v d) _ _ Lnn (rp_r0 _ _ _ _ R2)) as ([[status used] result] & w3 & s3 & E3 & E3' & Z3).
  pose proof (r0_rp _ _ _ _ _ _ R2 Z3) as R3.
  rewrite (bind_ok _ _ s data s) by reflexivity.
  rewrite (bind_ok (e_act _) _ s tt s1) by reflexivity.
  rewrite (bind_ok _ _ s1 (status, used, result) s3) by exact E3'.
  assert (El : forall (A : Type) (f : Z * Z * pyval -> M A),
    (mbind (data0 <- mlift (Ok data) ;; (send sha3 (MCall (ca_to ca) (ca_amount ca) limit data0) ;;;
       r <- na limit ;; (let '(status, used, result) := r in v0 <- mlift (decode_any result) ;; mret (status, used, v0)))) f) w1
    = (mbind (v0 <- mlift (decode_any result) ;; mret (status, used, v0)) f) w3).
  { intros A f. unfold mbind at 1 2. unfold mlift at 1. fold m. unfold mbind at 1. rewrite Nm. unfold mbind at 1. rewrite E3. reflexivity. }
  rewrite El. clear El.
  pose proof (decode_any_ns result) as Nd.
  destruct (decode_any result) as [pv|e|] eqn:Dr; [| |congruence].
  2: { unfold mbind, mlift. eapply agree_exc; [exact R3|cbn; lia]. }
  rewrite (bind_ok _ _ w3 (status, used, pv) w3) by reflexivity.
  rewrite (bind_ok _ _ s3 pv s3) by reflexivity.
  assert (Hadd : forall x, cx_used d + x <= cx_limit d -> exists w4 s4 c4, add_step_at (S (length (v_cs v))) x w3 = (Ok tt, w4) /\
     e_refund x s3 = (Ok tt, s4) /\ Rp v [] [] c4 w4 s4).
  { intros x Hx. exists (set_ctxs w3 (with_used d (cx_used d + x) :: v_cs v)), (e_set s3 (with_used d (cx_used d + x) :: v_cs v)),
      (with_used d (cx_used d + x)). split; [|split].
    - unfold add_step_at, upd_ctx_at. rewrite (r_ctxs _ _ _ _ _ _ R3). cbn [length].
      replace (S (length (v_cs v)) - S (length (v_cs v)))%nat with 0%nat by lia. reflexivity.
    - unfold e_refund, e_upd. rewrite (exact_ectxs _ _ _ _ _ R3). reflexivity.
    - apply rp_set_used; [exact R3|exact Hx]. }
  destruct (limit <? used) eqn:Lu.
  - destruct (Hadd limit) as (w4 & s4 & c4 & A1 & A2 & R4); [unfold limit; lia|].
    rewrite (bind_ok _ _ _ _ _ A1), (bind_ok _ _ _ _ _ A2). eapply agree_exc; [exact R4|cbn; lia].
  - destruct (Hadd used) as (w4 & s4 & c4 & A1 & A2 & R4); [unfold limit in Lu; lia|].
    rewrite (bind_ok _ _ _ _ _ A1), (bind_ok _ _ _ _ _ A2).
    destruct (status =? OK); [eapply agree_ret; [exact R4|cbn; lia]|eapply agree_exc; [exact R4|cbn; lia]].
Qed.


(** ** Invocations *)
Definition simp (m : M fin) (e : E fin) : Prop :=
  forall v pend c w s, Rp v [] pend c w s -> (length pend <= 5)%nat ->
  exists f w' s' pend' c', m w = (Ok f, w') /\ e s = (Ok f, s') /\ Rp v [] pend' c' w' s' /\ (length pend' <= 5)%nat.

Definition set_vfunc (v : env) (f : option bool) : env := mk_env (v_rs v) (v_cs v) (v_fr v) (v_frs v) f.
Lemma rp_func v pend c w s f : Rp v [] pend c w s -> f = Some (rq_readonly (fr_req (v_fr v))) ->
  Rp (set_vfunc v f) [] pend (with_func c f) (set_ctxs w (with_func c f :: v_cs v))
     (e_set s (with_func (drained c pend) f :: v_cs v)).
Proof.
  intros R E. rp R. constructor; cbn; auto.
  destruct Rframe as (F1 & F2 & F3 & F4 & F5). split; [exact F1|]. split; [exact F2|]. split; [exact F3|].
  split; [right; exact E|exact F5].
Qed.

Lemma pushed z w s rq : R0 z w s -> good_request rq ->
  Rp (mk_env (z_ro z :: z_rs z) (z_cs z) (mk_frame rq (w_ns w)) (z_frs z) None) [] [] (new_ctx rq)
     (set_ctxs (set_ro (set_rostack (push_frame rq w) (w_ro w :: w_rostack w)) (rq_query rq)) (new_ctx rq :: z_cs z))
     (mk_estate (es_ns s) (mk_frame rq (es_ns s) :: es_frames s) (new_ctx rq :: es_ctxs s) (AInvoke rq :: es_acts s)).
Proof.
  intros Z (G1 & G2). destruct Z. constructor; cbn; auto; try congruence.
  - rewrite z_ectxs0. reflexivity.
  - split; [reflexivity|]. split; [reflexivity|]. split; [reflexivity|]. split; [left; reflexivity|]. cbn. split; [lia|auto].
  - rewrite z_obs0. unfold observed. reflexivity.
  - constructor; [|exact z_trace0]. rewrite z_h0, z_ctxs0. split; [split|split; [|split]]; cbn; intros; try discriminate; auto.
    + destruct (z_cs z) as [|c0 l]; [discriminate|]. injection H as <-. inversion z_lims0; auto.
    + split; [exact (Nat.le_0_l 5)|exact I].
Qed.

Lemma internal_ok v c w s rq I B EI EB : simp I EI -> simp B EB ->
  Rp v [] [] c w s -> fr_req (v_fr v) = rq ->
  exists f w' s' f0 pend' c', internal_call rq I B w = (Ok f, w') /\
    (r0 <- EI ;; match r0 with
                 | FRaise _ _ => mret r0
                 | FRet _ => e_upd (fun c => with_func c (Some (rq_readonly rq))) ;;; EB
                 end) s = (Ok f, s') /\
    Rp (set_vfunc v f0) [] pend' c' w' s' /\ (length pend' <= 5)%nat.
Proof.
  intros HI HB R Erq. unfold internal_call.
  rewrite (bind_ok _ _ w (S (length (v_cs v))) w) by (unfold depth; rewrite (r_ctxs _ _ _ _ _ _ R); reflexivity).
  destruct (HI v [] c w s R) as (f & w1 & s1 & pend1 & c1 & E1 & E1' & R1 & L1); [cbn; lia|].
  rewrite (bind_ok _ _ _ _ _ E1), (bind_ok _ _ _ _ _ E1').
  destruct f as [rv|e m].
  - set (fn := Some (rq_readonly rq)).
    assert (Hf : fn = Some (rq_readonly (fr_req (v_fr v)))) by (rewrite Erq; reflexivity).
    pose proof (rp_func v pend1 c1 w1 s1 fn R1 Hf) as R2.
    assert (U1 : upd_ctx_at (S (length (v_cs v))) (fun c => with_func c fn) w1 = (Ok tt, set_ctxs w1 (with_func c1 fn :: v_cs v))).
    { unfold upd_ctx_at. rewrite (r_ctxs _ _ _ _ _ _ R1). cbn [length].
      replace (S (length (v_cs v)) - S (length (v_cs v)))%nat with 0%nat by lia. reflexivity. }
    assert (U2 : e_upd (fun c => with_func c fn) s1 = (Ok tt, e_set s1 (with_func (drained c1 pend1) fn :: v_cs v))).
    { unfold e_upd. rewrite (r_ectxs _ _ _ _ _ _ R1). reflexivity. }
    rewrite (bind_ok _ _ _ _ _ U1), (bind_ok _ _ _ _ _ U2).
    destruct (HB _ _ _ _ _ R2 L1) as (g & w2 & s2 & pend2 & c2 & E2 & E2' & R3 & L3).
    exists g, w2, s2, fn, pend2, c2. auto.
  - exists (FRaise e m), w1, s1, (v_func v), pend1, c1. split; [reflexivity|]. split; [reflexivity|].
    split; [destruct v; exact R1|exact L1].
Qed.

(** The end of an invocation: the frame's context is already gone. *)
Lemma result_ok z fr w s status used t :
  R0 (mk_env0 (z_ro z :: z_rs z) (rq_query (fr_req fr)) (z_cs z) (fr :: z_frs z)) w s ->
  used <= rq_limit (fr_req fr) ->
  exists w' s', (send sha3 (MResult status used t) ;;; mret (status, used, t)) w = (Ok (status, used, t), w') /\
    e_result status used t s = (Ok (status, used, t), s') /\
    w_rostack w' = z_ro z :: z_rs z /\ R0 z (set_rostack (set_ro w' (z_ro z)) (z_rs z)) s'.
Proof.
  intros Z U. destruct Z. cbn [z_ro z_rs z_cs z_frs] in *.
  set (m := MResult status used t).
  set (w' := set_frames (if status =? OK then log m w else set_ns (log m w) (fr_snap fr)) (z_frs z)).
  exists w'. eexists.
  assert (E : send sha3 m w = (Ok tt, w')).
  { unfold send, node_recv, m. cbn [w_frames log set_trace]. rewrite z_frames0. reflexivity. }
  rewrite (bind_ok _ _ _ _ _ E). split; [reflexivity|].
  split; [unfold e_result; rewrite z_eframes0; reflexivity|].
  split; [unfold w'; destruct (status =? OK); exact z_rseq0|].
  assert (T : w_trace w' = entry_of m w :: w_trace w) by (unfold w'; destruct (status =? OK); reflexivity).
  constructor; cbn; auto.
  - unfold w'; destruct (status =? OK); exact z_ctxs0.
  - unfold w'; destruct (status =? OK); exact z_h0.
  - unfold w'; destruct (status =? OK); exact z_i0.
  - unfold w'; destruct (status =? OK); [exact z_ns0|reflexivity].
  - change (AResult status used t :: es_acts s = flat_map observe (w_trace w')). rewrite T. cbn [flat_map]. rewrite z_obs0. reflexivity.
  - change (Forall entry_ok (w_trace w')). rewrite T. constructor; [|exact z_trace0]. unfold entry_of. rewrite z_h0, z_ctxs0, z_frames0.
    split; [split|split; [|split]]; cbn.
    + intros c0 H. destruct (z_cs z) as [|c1 l]; [discriminate|]. injection H as <-. inversion z_lims0; auto.
    + intros st us tt' H. injection H as <- <- <-. exists (fr_req fr). auto.
    + exact I.
    + split; [exact (Nat.le_0_l 5)|reflexivity].
    + exact I.
  - unfold w'; destruct (status =? OK); exact z_match0.
Qed.

Lemma invoke_ok z w s rq I B EI EB : simp I EI -> simp B EB -> good_request rq -> R0 z w s ->
  agree0 z (handle_invoke sha3 rq I B (push_frame rq w)) (e_invoke rq EI EB s).
Proof.
  intros HI HB G Z. pose proof (pushed z w s rq Z G) as R.
  set (v := mk_env _ _ _ _ _) in R. set (wp := push_frame rq w) in *.
  set (w1 := set_ro (set_rostack wp (w_ro w :: w_rostack w)) (rq_query rq)) in R.
  set (w2 := set_ctxs w1 _) in R. set (s1 := mk_estate _ _ _ _) in R.
  destruct (internal_ok v _ w2 s1 rq I B EI EB HI HB R eq_refl) as (f & w3 & s3 & f0 & pend & c & E3 & E3' & R3 & L3).
  destruct (handle_set_values_ok _ _ _ _ _ _ R3) as (w4 & E4 & R4 & _). set (d := drained c pend) in *.
  set (dep := S (length (z_cs z))).
  assert (GA : forall w' s', Rp (set_vfunc v f0) [] [] d w' s' -> get_ctx_at dep w' = (Ok d, w')).
  { intros w' s' R'. unfold get_ctx_at. rewrite (r_ctxs _ _ _ _ _ _ R'). cbn [length].
    replace (S (length (v_cs (set_vfunc v f0))) - dep)%nat with 0%nat by (unfold dep; cbn; lia). reflexivity. }
  destruct (r_frame _ _ _ _ _ _ R4) as (F1 & _ & F3 & _ & F5 & F6).
  (* fee *)
  assert (HF : exists w5 s5, (if 0 <? cx_fee d then set_fee_proportion sha3 (cx_fee d) else mret tt) w4 = (Ok tt, w5) /\
     (if 0 <? cx_fee d then e_act (AFee (cx_fee d)) else mret tt) s3 = (Ok tt, s5) /\ Rp (set_vfunc v f0) [] [] d w5 s5).
  { destruct (0 <? cx_fee d) eqn:P; [|exists w4, s3; split; [reflexivity|split; [reflexivity|exact R4]]].
    assert (Q : cx_query d = false) by (destruct (cx_query d); [specialize (F6 eq_refl); lia|reflexivity]).
    set (m := MSetFeePct (cx_fee d)). exists (log m w4). eexists. split; [|split; [reflexivity|]].
    - unfold set_fee_proportion. rewrite (r_ro _ _ _ _ _ _ R4), Q.
      destruct ((cx_fee d <? 0) || (100 <? cx_fee d)) eqn:Bd; [lia|].
      unfold send, node_recv. cbn [w_frames log set_trace]. rewrite (r_frames _ _ _ _ _ _ R4). reflexivity.
    - apply note_ok; [exact R4|reflexivity|].
      unfold entry_of. rewrite (r_frames _ _ _ _ _ _ R4), (r_ctxs _ _ _ _ _ _ R4), (r_h _ _ _ _ _ _ R4).
      split; [split|split; [|split]]; cbn.
      + intros c0 [= <-]. apply (r_lim _ _ _ _ _ _ R4).
      + intros; discriminate.
      + exists rq. split; [reflexivity|]. split; [rewrite <- Q; symmetry; exact F1|]. clear - P F5. cbn in *. lia.
      + split; [exact (Nat.le_0_l 5)|reflexivity].
      + exact Logic.I. }
  destruct HF as (w5 & s5 & E5 & E5' & R5).
  set (out := match f with FRet v => (OK, v) | FRaise e m => (status_of e, VStr m) end).
  set (w6 := set_ctxs w5 (z_cs z)). set (s6 := mk_estate (es_ns s5) (es_frames s5) (z_cs z) (es_acts s5)).
  assert (Z6 : R0 (mk_env0 (z_ro z :: z_rs z) (rq_query rq) (z_cs z) (mk_frame rq (w_ns w) :: z_frs z)) w6 s6).
  { rp R5. constructor; cbn; auto. rewrite Rro. exact F1. }
  assert (EE : engine_invoke sha3 rq I B w1 = (Ok (fst out, cx_used d, snd out), w6)).
  { unfold engine_invoke. rewrite (bind_ok _ _ w1 tt w2).
    2: { unfold push_ctx, w2. f_equal. f_equal. f_equal. apply (z_ctxs _ _ _ Z). }
    rewrite (bind_ok _ _ w2 dep w2) by reflexivity.
    rewrite (bind_ok _ _ _ _ _ E3). fold out. destruct out as [st rv].
    rewrite (bind_ok _ _ _ _ _ E4). rewrite (bind_ok _ _ _ _ _ (GA _ _ R4)).
    rewrite (bind_ok _ _ _ _ _ E5). rewrite (bind_ok _ _ _ _ _ (GA _ _ R5)).
    rewrite (bind_ok _ _ w5 tt w6) by (unfold pop_ctx; rewrite (r_ctxs _ _ _ _ _ _ R5); reflexivity).
    reflexivity. }
  assert (ES : e_invoke rq EI EB s = match encode_any (snd out) with
                                     | Ok t => e_result (fst out) (cx_used d) t s6
                                     | _ => e_result SYSTEM_FAILURE (rq_limit rq) result_text s6
                                     end).
  { unfold e_invoke. rewrite (bind_ok _ _ s tt s1) by reflexivity.
    destruct (EI s1) as [[r0|e|] sx] eqn:Ei;
      [rewrite (bind_ok _ _ _ _ _ Ei) in E3'|unfold mbind in E3'; rewrite Ei in E3'; discriminate E3'|unfold mbind in E3'; rewrite Ei in E3'; discriminate E3'].
    rewrite (bind_ok _ _ _ _ _ Ei). rewrite (bind_ok _ _ _ _ _ E3').
    rewrite (bind_ok _ _ s3 d s3) by (unfold e_ctx; rewrite (exact_ectxs _ _ _ _ _ R4); reflexivity).
    rewrite (bind_ok _ _ _ _ _ E5').
    rewrite (bind_ok _ _ s5 tt s6) by (unfold s6; rewrite (exact_ectxs _ _ _ _ _ R5); reflexivity).
    fold out. destruct out as [st rv]. cbn [fst snd]. destruct (encode_any rv); reflexivity. }
  assert (Ud : cx_used d <= rq_limit rq) by (pose proof (r_lim _ _ _ _ _ _ R4) as X; rewrite F3 in X; exact X).
  unfold handle_invoke. fold wp. 
  change (w_ro wp) with (w_ro w). change (w_rostack wp) with (w_rostack w). cbv zeta. fold w1. rewrite ES.
  destruct (encode_any_total (snd out)) as [(t & Et)|(k & Et)]; rewrite Et.
  - destruct (result_ok z (mk_frame rq (w_ns w)) w6 s6 (fst out) (cx_used d) t Z6 Ud) as (w7 & s7 & E7 & E7' & S7 & Z7).
    rewrite (mtry_ok _ _ w1 (fst out, cx_used d, t) w7).
    + rewrite S7. exists (fst out, cx_used d, t). eexists. exists s7. split; [reflexivity|]. split; [exact E7'|exact Z7].
    + rewrite (bind_ok _ _ _ _ _ EE). rewrite (bind_ok _ _ w6 t w6) by (unfold mlift; rewrite Et; reflexivity). exact E7.
  - destruct (result_ok z (mk_frame rq (w_ns w)) w6 s6 SYSTEM_FAILURE (rq_limit rq) result_text Z6 (Z.le_refl _)) as (w7 & s7 & E7 & E7' & S7 & Z7).
    erewrite (mtry_exc _ _ w1 (EPy k) w6).
    + cbv beta iota. rewrite E7. rewrite S7. exists (SYSTEM_FAILURE, rq_limit rq, result_text). eexists. exists s7.
      split; [reflexivity|]. split; [exact E7'|exact Z7].
    + rewrite (bind_ok _ _ _ _ _ EE). rewrite (bind_exc _ _ w6 (EPy k) w6) by (unfold mlift; rewrite Et; reflexivity). reflexivity.
Qed.

(** ** Programs *)
Scheme prog_mut := Induction for prog Sort Prop with node_mut := Induction for node Sort Prop.
Combined Scheme prog_node_mut from prog_mut, node_mut.

Lemma step_agree {A} (m : M A) (e : E A) (k : outcome A -> M fin) (ek : outcome A -> E fin) v w s :
  agree v (m w) (e s) -> (forall o, simp (k o) (ek o)) ->
  exists f w' s' pend' c', step_to m k w = (Ok f, w') /\ step_to e ek s = (Ok f, s') /\ Rp v [] pend' c' w' s' /\ (length pend' <= 5)%nat.
Proof.
  intros (r & w1 & s1 & pend & c & E1 & E2 & N & R & L) K. unfold step_to. rewrite E1, E2.
  destruct r as [a|x|]; [|(destruct (K (inl x) _ _ _ _ _ R L) as (f & w' & s' & p' & c' & H); exists f, w', s', p', c'; exact H)|congruence].
  destruct (K (inr a) _ _ _ _ _ R L) as (f & w' & s' & p' & c' & H). exists f, w', s', p', c'. exact H.
Qed.

Lemma set_inbox_nil z w s : R0 z w s -> set_inbox w [] = w.
Proof. intros Z. rewrite <- (z_i _ _ _ Z). destruct w; reflexivity. Qed.

Lemma run_sim_both :
  (forall p, prog_reqs good_request p -> simp (run sha3 p) (erun sha3 p)) /\
  (forall n, node_reqs good_request n -> forall z w s, R0 z w s -> agree0 z (run_node sha3 n w) (erun_node sha3 n s)).
Proof.
  apply prog_node_mut.
  - intros rv _ v pend c w s R L. exists (FRet rv), w, s, pend, c. cbn. auto.
  - intros e m _ v pend c w s R L. exists (FRaise e m), w, s, pend, c. cbn. auto.
  - intros key k IH P v pend c w s R L. cbn [run erun]. apply step_agree; [apply (get_agree v pend c); auto|intros o; apply IH; apply P].
  - intros key val k IH P v pend c w s R L. cbn [run erun]. apply step_agree; [apply (put_agree v pend c); auto|intros o; apply IH; apply P].
  - intros key k IH P v pend c w s R L. cbn [run erun]. apply step_agree; [apply (del_agree v pend c); auto|intros o; apply IH; apply P].
  - intros pre val k IH P v pend c w s R L. cbn [run erun]. apply step_agree; [apply (contains_agree v pend c); auto|intros o; apply IH; apply P].
  - intros size i d k IH P v pend c w s R L. cbn [run erun]. apply step_agree; [apply (event_agree v pend c); auto|intros o; apply IH; apply P].
  - intros addr k IH P v pend c w s R L. cbn [run erun]. apply step_agree; [apply (balance_agree v pend c); auto|intros o; apply IH; apply P].
  - intros ty st k IH P v pend c w s R L. cbn [run erun]. apply step_agree; [apply (charge_agree v pend c); auto|intros o; apply IH; apply P].
  - intros pct k IH P v pend c w s R L. cbn [run erun]. apply step_agree; [apply (fee_agree v pend c); auto|intros o; apply IH; apply P].
  - intros ca n IHn k IH [Pn P] v pend c w s R L. cbn [run erun]. apply step_agree; [|intros o; apply IH; apply P].
    apply (call_agree v pend c); auto. intros limit z w1 s1 Ln Z. rewrite (z_ns _ _ _ Z). apply IHn; [apply Pn; exact Ln|exact Z].
  - intros status used result _ z w s Z. cbn [run_node erun_node]. rewrite (set_inbox_nil _ _ _ Z).
    exists (status, used, result), w, s. auto.
  - intros rq init IHi body IHb k IHk (G & Pi & Pb & Pk) z w s Z.
    change (run_node sha3 (NInvoke rq init body k) w) with
      (match handle_invoke sha3 rq (run sha3 init) (run sha3 body) (push_frame rq (set_inbox w [])) with
       | (Ok out, w') => run_node sha3 (k out (w_ns w')) w' | (Exc e, w') => (Exc e, w') | (Stuck, w') => (Stuck, w') end).
    change (erun_node sha3 (NInvoke rq init body k) s) with
      (match e_invoke rq (erun sha3 init) (erun sha3 body) s with
       | (Ok out, s') => erun_node sha3 (k out (es_ns s')) s' | (Exc e, s') => (Exc e, s') | (Stuck, s') => (Stuck, s') end).
    rewrite (set_inbox_nil _ _ _ Z).
    destruct (invoke_ok z w s rq _ _ _ _ (IHi Pi) (IHb Pb) G Z) as (x & w1 & s1 & E1 & E2 & Z1).
    rewrite E1, E2. rewrite (z_ns _ _ _ Z1). apply IHk; [apply Pk|exact Z1].
  - intros f k IHk P z w s Z. cbn [run_node erun_node]. apply IHk; [exact P|]. destruct Z. constructor; cbn; auto. congruence.
  - intros k IHk P z w s Z. cbn [run_node erun_node]. apply IHk; auto.
Qed.
End WithHash.
