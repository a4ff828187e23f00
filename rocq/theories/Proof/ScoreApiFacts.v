From Verif Require Import Model.Bytes Model.Utf8 Model.Exn Model.Typed Model.ScoreClass Model.ScoreApi Spec.ClassSpec Proof.ScoreClassFacts.

Lemma res_bind_ok {E A B} (r : res E A) (k : A -> res E B) b : res_bind r k = Ok b -> exists a, r = Ok a /\ k a = Ok b.
Proof. destruct r; cbn; try discriminate. eauto. Qed.
Lemma map_res_ok {A B} (f : A -> pyres B) l r : map_res f l = Ok r -> Forall2 (fun a b => f a = Ok b) l r.
Proof.
  revert r. induction l as [|a l IH]; cbn; intros r H.
  - injection H as <-. constructor.
  - apply res_bind_ok in H. destruct H as (b & Hb & H). apply res_bind_ok in H. destruct H as (bs & Hbs & H). injection H as <-. constructor; auto.
Qed.
Lemma map_res_ok' {A B} (f : A -> pyres B) l r : Forall2 (fun a b => f a = Ok b) l r -> map_res f l = Ok r.
Proof. induction 1; cbn; [reflexivity|]. rewrite H. cbn. rewrite IHForall2. reflexivity. Qed.
Lemma F2_concat {A B} (f : A -> B -> Prop) ls : forall r, Forall2 f (concat ls) r -> exists rs, r = concat rs /\ Forall2 (Forall2 f) ls rs.
Proof.
  induction ls as [|l ls IH]; cbn; intros r H.
  - inversion H. exists []. auto.
  - apply Forall2_app_inv_l in H. destruct H as (r1 & r2 & H1 & H2 & ->). apply IH in H2. destruct H2 as (rs & -> & H2).
    exists (r1 :: rs). split; [reflexivity|]. constructor; auto.
Qed.
Lemma F2_comp {A B C} (f : A -> B -> Prop) (g : B -> C -> Prop) l m r : Forall2 f l m -> Forall2 g m r -> Forall2 (fun a c => exists b, f a b /\ g b c) l r.
Proof. intros H. revert r. induction H; intros r K; inversion K; subst; constructor; eauto. Qed.
Lemma F2_len {A B} (f : A -> B -> Prop) l m : Forall2 f l m -> length l = length m.
Proof. induction 1; cbn; congruence. Qed.
Lemma F2_impl {A B} (f g : A -> B -> Prop) l m : (forall a b, f a b -> g a b) -> Forall2 f l m -> Forall2 g l m.
Proof. intros H. induction 1; constructor; auto. Qed.
Lemma F2_in {A B} (f g : A -> B -> Prop) l m : (forall a b, In a l -> f a b -> g a b) -> Forall2 f l m -> Forall2 g l m.
Proof. intros H F. induction F; constructor; cbn in *; auto. Qed.
Lemma F2_In_l {A B} (f : A -> B -> Prop) l m b : Forall2 f l m -> In b m -> exists a, In a l /\ f a b.
Proof. induction 1; cbn; [tauto|]. intros [<-|Hin]; eauto. destruct (IHForall2 Hin) as (a & ? & ?). eauto. Qed.
Lemma F2_In_r {A B} (f : A -> B -> Prop) l m a : Forall2 f l m -> In a l -> exists b, In b m /\ f a b.
Proof. induction 1; cbn; [tauto|]. intros [<-|Hin]; eauto. destruct (IHForall2 Hin) as (b & ? & ?). eauto. Qed.
Lemma F2_map_l {A B C} (f : A -> B) (g : B -> C -> Prop) l m : Forall2 g (map f l) m <-> Forall2 (fun a c => g (f a) c) l m.
Proof. split; revert m; induction l; intros m H; inversion H; subst; constructor; auto. Qed.

(** ** Type codes *)
Section HintInd.
Context (P : hint -> Prop)
  (Pbase : forall b, P (HBase b)) (Pname : forall s, P (HName s))
  (Pstruct : forall id fs, Forall (fun nf => P (snd nf)) fs -> P (HStruct id fs))
  (Plist : forall args, Forall P args -> P (HList args)) (Pdict : P HDict)
  (Punion : forall args, Forall P args -> P (HUnion args)) (Pnone : P HNoneType) (Pother : P HOther).
Fixpoint hint_ind' (h : hint) : P h :=
  match h with
  | HBase b => Pbase b
  | HName s => Pname s
  | HStruct id fs => Pstruct id fs ((fix go l : Forall (fun nf => P (snd nf)) l :=
                       match l with [] => Forall_nil _ | nf :: r => Forall_cons nf (hint_ind' (snd nf)) (go r) end) fs)
  | HList args => Plist args ((fix go l : Forall P l := match l with [] => Forall_nil _ | a :: r => Forall_cons a (hint_ind' a) (go r) end) args)
  | HDict => Pdict
  | HUnion args => Punion args ((fix go l : Forall P l := match l with [] => Forall_nil _ | a :: r => Forall_cons a (hint_ind' a) (go r) end) args)
  | HNoneType => Pnone
  | HOther => Pother
  end.
End HintInd.

Definition conv_fields (fo : option (list input)) (ws : list winput) : Prop :=
  match fo with
  | Some fs => exists cs, map_res convert_input fs = Ok cs /\ ws = map wire_field cs
  | None => ws = []
  end.

Lemma convert_list n : forall c, convert_data_type (91 :: 93 :: n) = Ok c -> exists c', convert_data_type n = Ok c' /\ c = 16 + c'.
Proof.
  intros c H. change (convert_data_type (91 :: 93 :: n)) with (res_bind (convert_data_type n) (fun k => @Ok exn Z (16 + k))) in H.
  apply res_bind_ok in H. destruct H as (k & K & H). injection H as <-. eauto.
Qed.
Lemma convert_empty c : convert_data_type [] = Ok c -> False.
Proof. discriminate. Qed.
Lemma convert_base b : convert_data_type (base_name b) = Ok (base_code b).
Proof. destruct b; reflexivity. Qed.

Lemma type_described : forall h t l fo code ws,
  type_name h = Some (t, l) -> hint_fields h = Some fo -> convert_data_type t = Ok code -> conv_fields fo ws -> described h code ws.
Proof.
  induction h as [b|s|id fs IH|args IH| |args IH| |] using hint_ind'; intros t l fo code ws T F C V.
  - injection T as <- <-. injection F as <-. rewrite convert_base in C. injection C as <-. cbn in V. subst ws. constructor.
  - cbn in T, F. injection F as <-. cbn in V. subst ws. destruct (str_eqb s STR_ADDRESS) eqn:E.
    + injection T as <- <-. apply str_eqb_eq in E. subst s. cbn in C. injection C as <-. constructor.
    + injection T as <- <-. discriminate.
  - injection T as <- <-. cbn in C. injection C as <-.
    assert (exists is, fo = Some is /\ Forall2 (fun nf i => exists t l f, type_name (snd nf) = Some (t, l) /\ hint_fields (snd nf) = Some f /\ i = mk_input (fst nf) t None f) fs is) as (is & -> & K).
    { cbn [hint_fields] in F. clear - F. revert fo F.
      set (loop := fix loop (fs : list (pystr * hint)) : option (list input) := _). intros fo F.
      destruct (loop fs) as [is|] eqn:L; [|discriminate]. injection F as <-. exists is. split; [reflexivity|].
      revert is L. induction fs as [|(n, fh) fs IH]; intros is L.
      - injection L as <-. constructor.
      - cbn in L. fold loop in L. destruct (type_name fh) as [(t & l)|] eqn:Tn; [|discriminate]. destruct (hint_fields fh) as [f|] eqn:Fn; [|discriminate].
        destruct (loop fs) as [is'|] eqn:Ln; [|discriminate]. injection L as <-. constructor; [|auto]. cbn. eauto 8. }
    destruct V as (cs & M & ->). apply map_res_ok in M. constructor. clear F.
    revert cs M. induction K as [|nf i fs is (t & l & f & Tn & Fn & ->) K IHK]; intros cs M; inversion M as [|? c ? cs' Mc Ms]; subst; cbn; constructor.
    + cbn [convert_input] in Mc. apply res_bind_ok in Mc. destruct Mc as (code & Cc & Mc). inversion IH as [|? ? IHh _]; subst.
      destruct f as [fs'|].
      * apply res_bind_ok in Mc. destruct Mc as (cs0 & M0 & Mc). injection Mc as <-. cbn. eexists _, _. split; [reflexivity|].
        eapply IHh; eauto. cbn. eauto.
      * injection Mc as <-. cbn. eexists _, _. split; [reflexivity|]. eapply IHh; eauto. reflexivity.
    + inversion IH; auto.
  - destruct args as [|a [|]]; try discriminate. cbn in T, F. destruct (type_name a) as [(n & l')|] eqn:E; [|discriminate]. injection T as <- <-.
    apply convert_list in C. destruct C as (c' & C & ->). constructor. inversion IH; subst. eauto.
  - injection T as <- <-. discriminate.
  - destruct args as [|a [|[] [|]]]; try discriminate. inversion IH; subst. constructor. eauto.
  - injection T as <- <-. discriminate.
  - injection T as <- <-. discriminate.
Qed.

Lemma norm_described : forall h field seen h' seen' code ws, norm field seen h = Some (h', seen') -> described h' code ws -> described h code ws.
Proof.
  induction h as [b|s|id fs _|args IH| |args IH| |] using hint_ind'; intros field seen h' seen' code ws N D; try discriminate.
  - injection N as <- <-. exact D.
  - cbn in N. destruct (str_eqb s STR_ADDRESS) eqn:E; [|discriminate]. injection N as <- <-. apply str_eqb_eq in E. subst s. inversion D. constructor.
  - cbn [norm] in N. destruct (field && _); [discriminate|]. destruct (16 <? _); [discriminate|].
    match type of N with match ?x with _ => _ end = _ => destruct x; [|discriminate] end. injection N as <- <-. exact D.
  - destruct args as [|a [|]]; try discriminate. cbn in N. destruct (norm false [] a) as [(a' & s')|] eqn:E; [|discriminate]. injection N as <- <-.
    inversion D; subst. constructor. inversion IH; subst. eauto.
  - assert (U : forall a, (forall field seen h' seen' code ws, norm field seen a = Some (h', seen') -> described h' code ws -> described a code ws) ->
        match norm false [] a with Some (a', _) => Some (HUnion [a'; HNoneType], seen) | None => None end = Some (h', seen') -> described a code ws).
    { intros a IHa H. destruct (norm false [] a) as [(a' & s')|] eqn:E; [|discriminate]. injection H as <- <-.
      inversion D; subst; [eauto|]. match goal with H : described HNoneType _ _ |- _ => inversion H end. }
    destruct args as [|a [|b [|]]]; try (destruct a; discriminate); try discriminate.
    + inversion IH as [|? ? I1 I2]; subst. inversion I2 as [|? ? I3 I4]; subst.
      destruct b; try (destruct a; try discriminate; apply de_optional'; apply (U _ I3); exact N).
      destruct a; try (apply de_optional; apply (U _ I1); exact N).
    + destruct a; destruct b; try discriminate.
Qed.

(** ** Parameters *)
Definition hint_of (p : param) : hint := match pa_hint p with Some h => h | None => HBase BStr end.

Lemma normalized p q : normalize_parameter p = Ok q ->
  pa_name q = pa_name p /\ pa_default q = pa_default p /\
  forall code ws, described (hint_of q) code ws -> described (hint_of p) code ws.
Proof.
  unfold normalize_parameter. destruct (negb (pa_plain p)); [discriminate|]. intros H.
  apply res_bind_ok in H. destruct H as (h & Hh & H). cbn zeta in H. apply res_bind_ok in H. destruct H as (u & _ & H).
  injection H as <-. cbn. split; [reflexivity|]. split; [reflexivity|]. intros code ws D.
  assert (K : described h code ws).
  { assert (X : described (HUnion [h; HNoneType]) code ws -> described h code ws).
    { intros X. inversion X; subst; [assumption|]. match goal with H : described HNoneType _ _ |- _ => inversion H end. }
    destruct (pa_default p) as [[]|]; try exact D. destruct h; auto. }
  unfold hint_of. destruct (pa_hint p) as [h0|]; [|injection Hh as <-; exact K].
  unfold normalize_type_hint in Hh. destruct (norm false [] h0) as [(h1 & s1)|] eqn:E; [|discriminate]. injection Hh as <-.
  eapply norm_described; eauto.
Qed.

Definition ci_default (c : cinput) : pyval := match c with mk_cinput _ _ d _ => d end.
Definition dval (d : option pyval) : pyval := match d with Some v => v | None => VNone end.
Definition pd (p : param) : option pyval := pa_default p.

Lemma one_input py310 p q i c : normalize_parameter p = Ok q -> get_input py310 q = Ok i -> convert_input i = Ok c ->
  exists code fo, c = mk_cinput (pa_name p) code (dval (pa_default p)) fo /\ has_default i = (match pa_default p with Some _ => true | None => false end) /\
    described (hint_of p) code (match fo with Some fs => map wire_field fs | None => [] end).
Proof.
  intros N G C. apply normalized in N. destruct N as (Nn & Nd & Nh). unfold get_input in G. cbn zeta in G.
  apply res_bind_ok in G. destruct G as (u & _ & G). change (match pa_hint q with Some h => h | None => HBase BStr end) with (hint_of q) in G.
  destruct (type_name (hint_of q)) as [(t & l)|] eqn:T; [|discriminate]. destruct (hint_fields (hint_of q)) as [f|] eqn:F; [|discriminate].
  injection G as <-. cbn [convert_input] in C. apply res_bind_ok in C. destruct C as (code & Cc & C). rewrite Nn, Nd in C.
  destruct f as [fs|].
  - apply res_bind_ok in C. destruct C as (cs & M & C). injection C as <-. exists code, (Some cs). split; [reflexivity|]. split; [cbn; rewrite Nd; reflexivity|].
    apply Nh. eapply type_described; eauto. cbn. eauto.
  - injection C as <-. exists code, None. split; [reflexivity|]. split; [cbn; rewrite Nd; reflexivity|].
    apply Nh. eapply type_described; eauto. reflexivity.
Qed.

(** The converted inputs of a parameter list. *)
Definition cin (p : param) (c : cinput) : Prop :=
  exists code fo, c = mk_cinput (pa_name p) code (dval (pa_default p)) fo /\
    described (hint_of p) code (match fo with Some fs => map wire_field fs | None => [] end).
Lemma all_inputs py310 ps sig is cs : map_res normalize_parameter ps = Ok sig -> map_res (get_input py310) sig = Ok is -> map_res convert_input is = Ok cs ->
  Forall2 cin ps cs /\ optional_count is = Z.of_nat (length ps) - required ps.
Proof.
  intros N G C. apply map_res_ok in N, G, C. revert is cs G C. induction N as [|p q ps sig N NS IH]; intros is cs G C.
  - inversion G; subst. inversion C; subst. split; [constructor|reflexivity].
  - inversion G as [|? i ? is' Gi Gs]; subst. inversion C as [|? c ? cs' Ci Cs]; subst.
    destruct (IH _ _ Gs Cs) as (I1 & I2). destruct (one_input _ _ _ _ _ N Gi Ci) as (code & fo & E & Hd & D). split.
    + constructor; [|exact I1]. exists code, fo. auto.
    + unfold optional_count in *. unfold required in *. cbn [filter]. rewrite Hd. destruct (pa_default p); cbn [length]; lia.
Qed.

Lemma required_bounds ps : 0 <= required ps <= Z.of_nat (length ps).
Proof. unfold required. induction ps as [|p ps IH]; cbn [filter length]; [lia|]. destruct (pa_default p); cbn [length]; lia. Qed.
Lemma required_opt ps : Forall (fun p => pa_default p <> None) ps -> required ps = 0.
Proof. unfold required. induction 1 as [|p ps H _ IH]; [reflexivity|]. cbn [filter]. destruct (pa_default p); [exact IH|congruence]. Qed.

Lemma encode_optional ps cs : Forall2 cin ps cs -> forall man i ws, defaults_last ps -> i + required ps = man \/ (i >= man /\ required ps = 0) ->
  encode_inputs_from man i cs = Ok ws -> Forall2 (described_param true) ps ws.
Proof.
  induction 1 as [|p c ps cs (code & fo & -> & D) F IH]; intros man i ws DL I E; cbn in E.
  - injection E as <-. constructor.
  - apply res_bind_ok in E. destruct E as (w & Ew & E). apply res_bind_ok in E. destruct E as (ws' & Ews & E). injection E as <-.
    apply res_bind_ok in Ew. destruct Ew as (d & Ed & Ew). injection Ew as <-.
    assert (DL' : defaults_last ps) by (inversion DL; subst; [constructor; inversion H; auto|auto]).
    assert (R : required (p :: ps) = (match pa_default p with None => 1 | Some _ => 0 end) + required ps).
    { unfold required. cbn [filter]. destruct (pa_default p); cbn [length]; lia. }
    pose proof (required_bounds ps) as RB.
    assert (RZ : pa_default p <> None -> required ps = 0).
    { intros Hp. inversion DL as [? HF|? ? HN _]; subst; [|contradiction]. apply required_opt. inversion HF; auto. }
    constructor.
    + exists code, d, (match fo with Some fs => map wire_field fs | None => [] end). split; [reflexivity|]. split; [exact D|].
      destruct (pa_default p) as [v|] eqn:P; cbn [dval] in Ed.
      * specialize (RZ ltac:(congruence)). destruct (Z.ltb_spec i man); [lia|]. exact Ed.
      * destruct (i <? man); cbn in Ed; injection Ed as <-; reflexivity.
    + apply (IH man (i + 1)); auto. destruct (pa_default p) as [v|]; [specialize (RZ ltac:(congruence))|]; lia.
Qed.
Lemma encode_mandatory ps cs : Forall2 cin ps cs -> forall man i ws, i + Z.of_nat (length ps) <= man ->
  encode_inputs_from man i cs = Ok ws -> Forall2 (described_param false) ps ws.
Proof.
  induction 1 as [|p c ps cs (code & fo & -> & D) F IH]; intros man i ws I E; cbn in E.
  - injection E as <-. constructor.
  - apply res_bind_ok in E. destruct E as (w & Ew & E). apply res_bind_ok in E. destruct E as (ws' & Ews & E). injection E as <-.
    apply res_bind_ok in Ew. destruct Ew as (d & Ed & Ew). injection Ew as <-. cbn [length] in I.
    destruct (Z.ltb_spec i man); [|lia]. injection Ed as <-. constructor.
    + exists code, None, (match fo with Some fs => map wire_field fs | None => [] end). split; [reflexivity|]. split; [exact D|]. destruct (pa_default p); reflexivity.
    + apply (IH man (i + 1)); auto. lia.
Qed.

(** ** One member *)
Lemma member_ok name f l : member_element (name, f) = Ok l ->
  (str_prefix STR_DUNDER name = true /\ l = []) \/
  (str_prefix STR_DUNDER name = false /\ is_hook name = true /\ fn_abstract f = true /\ l = []) \/
  (str_prefix STR_DUNDER name = false /\ is_hook name = true /\ fn_abstract f = false /\ Z.land (fn_flags f) ALL = 0 /\ exists e, function_metadata f = Ok e /\ l = [(name, e)]) \/
  (str_prefix STR_DUNDER name = false /\ is_hook name = false /\ usable (fn_flags f) /\ Z.land (fn_flags f) 511 = 0 /\ l = []) \/
  (str_prefix STR_DUNDER name = false /\ is_hook name = false /\ usable (fn_flags f) /\ Z.land (fn_flags f) 511 <> 0 /\ exists e, l = [(name, e)] /\
     (if any_flag_on (fn_flags f) EVENTLOG then event_metadata f else function_metadata f) = Ok e).
Proof.
  cbn [member_element]. destruct (str_prefix STR_DUNDER name); [intros [= <-]; auto|].
  destruct (is_hook name); [destruct (fn_abstract f); [intros [= <-]; auto 6|]|].
  - destruct (any_flag_on (fn_flags f) ALL) eqn:A; [discriminate|]. intros H. apply res_bind_ok in H. destruct H as (e & He & H). injection H as <-.
    right. right. left. repeat split; auto. { unfold any_flag_on in A. apply negb_false_iff, Z.eqb_eq in A. exact A. } eauto.
  - change (Z.lor FUNC EVENTLOG) with 511. unfold any_flag_on at 1. destruct (Z.eqb_spec (Z.land (fn_flags f) 511) 0) as [Z0|Z0]; cbn [negb].
    + intros [= <-]. right. right. right. left. repeat split; auto. left; exact Z0.
    + intros H. apply res_bind_ok in H. destruct H as ([] & V & H). apply res_bind_ok in H. destruct H as (e & He & H). injection H as <-.
      apply verify_ok in V. right. right. right. right. repeat split; auto. right; exact V. eauto.
Qed.
Lemma metadata_function f e : function_metadata f = Ok e -> el_kind e = KFunction /\ el_func e = f /\ normalize_signature f = Ok (el_sig e) /\
  (all_flag_on (fn_flags f) (Z.lor FALLBACK PAYABLE) = true -> el_sig e = [] /\ normalize_return f = None).
Proof.
  unfold function_metadata. intros H. apply res_bind_ok in H. destruct H as (sig & S & H). destruct (all_flag_on _ _).
  - destruct sig; [|discriminate]. destruct (normalize_return f) eqn:R; [discriminate|]. injection H as <-. auto.
  - injection H as <-. repeat split; auto; discriminate.
Qed.
Lemma metadata_event f e : event_metadata f = Ok e -> el_kind e = KEvent /\ el_func e = f /\ normalize_signature f = Ok (el_sig e).
Proof. unfold event_metadata. intros H. apply res_bind_ok in H. destruct H as (sig & S & H). injection H as <-. auto. Qed.

Lemma outputs_ok f outs : map_res convert_output_data_type (if any_flag_on (fn_flags f) READONLY then get_outputs (normalize_return f) else []) = Ok outs ->
  outs = output_codes f.
Proof.
  unfold output_codes, any_flag_on, READONLY, normalize_return. destruct (Z.land (fn_flags f) 1 =? 0); cbn [negb].
  - intros [= <-]. reflexivity.
  - destruct (fn_ret f) as [[b|s|id fs|args| |args| |]|]; cbn [get_outputs].
    + destruct b; intros [= <-]; reflexivity.
    + destruct (str_eqb s STR_ADDRESS); intros [= <-]; reflexivity.
    + intros [= <-]; reflexivity.
    + intros [= <-]; reflexivity.
    + intros [= <-]; reflexivity.
    + intros [= <-]; reflexivity.
    + intros [= <-]; reflexivity.
    + intros [= <-]; reflexivity.
    + intros [= <-]; reflexivity.
Qed.

Lemma norm_own f : normalize_signature f = map_res normalize_parameter (own_params f).
Proof. reflexivity. Qed.

Section Member.
Context (py310 : bool).
Definition member_wire (le : list (pystr * element)) (llm : list (list (list wmethod))) : Prop :=
  exists lla, Forall2 (fun ne la => element_api py310 (snd ne) = Ok la) le lla /\ Forall2 (Forall2 (fun a lm => add_api a = Ok lm)) lla llm.

Lemma function_wire f e a lm : el_func e = f -> normalize_signature f = Ok (el_sig e) -> defaults_last (own_params f) ->
  (str_eqb (fn_name f) STR_FALLBACK && any_flag_on (fn_flags f) PAYABLE = false) ->
  Z.land (fn_flags f) EVENTLOG = 0 -> Z.land (fn_flags f) FALLBACK = 0 -> Z.land (fn_flags f) ISOLATED = 0 ->
  get_function py310 e = Ok a -> add_api a = Ok lm -> exists w, lm = [w] /\ describes f w.
Proof.
  intros Ef Hs DL NF FE FF FI G A. rewrite norm_own in Hs. unfold get_function in G. rewrite Ef, NF in G. cbn [res_bind] in G. apply res_bind_ok in G. destruct G as (is & Gi & G). injection G as <-.
  unfold add_api in A. cbn [ap_inputs ap_type ap_flags ap_name ap_outputs] in A. apply res_bind_ok in A. destruct A as (cs & C & A).
  destruct (all_inputs _ _ _ _ _ Hs Gi C) as (K & O). cbn in A. apply res_bind_ok in A. destruct A as (outs & Ho & A).
  apply res_bind_ok in A. destruct A as (ws & W & A). injection A as <-. eexists. split; [reflexivity|].
  assert (L : length cs = length (own_params f)) by (symmetry; eapply F2_len; eauto).
  unfold describes. rewrite FE, FF. cbn. split; [reflexivity|]. split; [reflexivity|]. split.
  { unfold proxy_flag, any_flag_on. rewrite FI. reflexivity. }
  split; [rewrite O, L; lia|]. split; [apply outputs_ok, Ho|].
  unfold encode_inputs in W. refine (encode_optional _ _ K _ 0 _ DL _ W). left. rewrite O, L. lia.
Qed.

Lemma member_described name f le llm : fn_name f = name -> declared f -> defaults_last (own_params f) ->
  member_element (name, f) = Ok le -> member_wire le llm ->
  if exposed (name, f) then exists w, concat (concat llm) = [w] /\ describes f w else concat (concat llm) = [].
Proof.
  intros Nm Dc DL M (lla & W1 & W2). apply member_ok in M.
  assert (NIL : le = [] -> concat (concat llm) = []).
  { intros ->. inversion W1; subst. inversion W2; subst. reflexivity. }
  unfold exposed. destruct M as [(D & ->)|[(D & H & A & ->)|[(D & H & A & F0 & e & He & ->)|[(D & H & U & F0 & ->)|(D & H & U & F0 & e & -> & He)]]]].
  - rewrite D. apply NIL. reflexivity.
  - rewrite D, H, A. apply NIL. reflexivity.
  - rewrite D, H, A. cbn [negb]. inversion W1 as [|? la ? lx Wa Wx]; subst. inversion Wx; subst. inversion W2 as [|? lm ? lx Wm Wx']; subst. inversion Wx'; subst.
    cbn [snd] in Wa. cbn. rewrite app_nil_r. apply metadata_function in He. destruct He as (Ek & Ef & Es & _).
    assert (FZ : forall k, Z.land ALL k = k -> Z.land (fn_flags f) k = 0).
    { intros k Hk. rewrite <- Hk, Z.land_assoc, F0. apply Z.land_0_l. }
    unfold element_api in Wa. rewrite Ek in Wa. unfold el_flags in Wa. rewrite Ef in Wa.
    destruct (Z.eqb_spec (fn_flags f) PAYABLE) as [P|_]; [rewrite P in F0; discriminate|].
    apply res_bind_ok in Wa. destruct Wa as (a & G & Wa). injection Wa as <-. inversion Wm as [|? l1 ? lx Ha Hx]; subst. inversion Hx; subst. cbn. rewrite app_nil_r.
    eapply function_wire; eauto; try (apply FZ; reflexivity).
    unfold any_flag_on. rewrite (FZ PAYABLE eq_refl), andb_false_r. reflexivity.
  - rewrite D, H. destruct (Z.eqb_spec (Z.land (fn_flags f) (Z.lor EXTERNAL (Z.lor EVENTLOG FALLBACK))) 0) as [_|X]; [apply NIL; reflexivity|]. exfalso. apply X.
    change (Z.lor EXTERNAL (Z.lor EVENTLOG FALLBACK)) with (Z.land 511 266). rewrite Z.land_assoc, F0. reflexivity.
  - rewrite D, H. inversion W1 as [|? la ? lx Wa Wx]; subst. inversion Wx; subst. inversion W2 as [|? lm ? lx Wm Wx']; subst. inversion Wx'; subst.
    cbn [snd] in Wa. cbn [concat]. rewrite app_nil_r.
    destruct (declared_flags f Dc U) as (In8 & N12 & N4 & NE & I256).
    cbn [In] in In8. destruct In8 as [Q|[Q|[Q|[Q|[Q|[Q|[Q|[Q|[]]]]]]]]]; rewrite <- Q in *; try (exfalso; apply F0; reflexivity).
    1,2,3: cbn; cbn in He; apply metadata_function in He; destruct He as (Ek & Ef & Es & _); unfold element_api in Wa; rewrite Ek in Wa; unfold el_flags in Wa; rewrite Ef, <- Q in Wa; cbn in Wa;
      apply res_bind_ok in Wa; destruct Wa as (a & G & Wa); injection Wa as <-; inversion Wm as [|? l1 ? lx Ha Hx]; subst; inversion Hx; subst; cbn; rewrite app_nil_r;
      eapply function_wire; eauto; rewrite <- Q; try reflexivity; rewrite (str_eqb_neq _ _ (NE ltac:(discriminate))); reflexivity.
    + cbn. cbn in He. apply metadata_function in He. destruct He as (Ek & Ef & Es & Fb). rewrite <- Q in Fb. destruct (Fb eq_refl) as (Sn & Rn).
      unfold element_api in Wa. rewrite Ek in Wa. unfold el_flags in Wa. rewrite Ef, <- Q in Wa. cbn in Wa.
      apply res_bind_ok in Wa. destruct Wa as (a & G & Wa). injection Wa as <-. inversion Wm as [|? l1 ? lx Ha Hx]; subst. inversion Hx; subst. cbn. rewrite app_nil_r.
      unfold get_function in G. rewrite <- Q, Sn, Rn, (N12 eq_refl) in G. cbn in G. injection G as <-. cbn in Ha. injection Ha as <-.
      eexists. split; [reflexivity|]. unfold describes. rewrite <- Q, (N12 eq_refl). cbn. repeat split; auto.
      rewrite norm_own, Sn in Es. apply map_res_ok in Es. inversion Es. reflexivity.
    + cbn. cbn in He. apply metadata_event in He. destruct He as (Ek & Ef & Es). unfold element_api in Wa. rewrite Ek in Wa.
      apply res_bind_ok in Wa. destruct Wa as (a & G & Wa). injection Wa as <-. inversion Wm as [|? l1 ? lx Ha Hx]; subst. inversion Hx; subst. cbn. rewrite app_nil_r.
      unfold get_eventlog in G. apply res_bind_ok in G. destruct G as (is & Gi & G). injection G as <-.
      unfold add_api in Ha. cbn [ap_inputs ap_type ap_flags ap_name ap_outputs] in Ha. apply res_bind_ok in Ha. destruct Ha as (cs & C & Ha). cbn [Z.eqb A_EVENT A_FUNCTION A_FALLBACK] in Ha.
      rewrite norm_own in Es. destruct (all_inputs _ _ _ _ _ Es Gi C) as (K & O). assert (L : length cs = length (own_params (el_func e))) by (symmetry; eapply F2_len; eauto).
      destruct (I256 eq_refl) as (n & Hn & _). rewrite Hn in Ha. destruct (_ <? n); [discriminate|].
      apply res_bind_ok in Ha. destruct Ha as (ws & W & Ha). injection Ha as <-. eexists. split; [reflexivity|].
      unfold describes. rewrite <- Q. cbn. rewrite Hn. repeat split; auto. unfold encode_inputs in W. refine (encode_mandatory _ _ K _ 0 _ _ W). rewrite L. lia.
    + cbn. cbn in He. apply metadata_function in He. destruct He as (Ek & Ef & Es & Fb). unfold element_api in Wa. rewrite Ek in Wa. unfold el_flags in Wa. rewrite Ef, <- Q in Wa. cbn in Wa.
      injection Wa as <-. inversion Wm; subst. reflexivity.
Qed.

Lemma class_members cls ms : class_api py310 cls = Ok ms -> exists lle lllm,
  Forall2 (fun m le => member_element m = Ok le) cls lle /\ Forall2 member_wire lle lllm /\ elements_of cls = Ok (concat lle) /\
  ms = concat (map (fun llm => concat (concat llm)) lllm).
Proof.
  unfold class_api, elements_of, get_score_api. intros H. apply res_bind_ok in H. destruct H as (els & He & H).
  pose proof He as He0. apply res_bind_ok in He. destruct He as (lle & Hl & He). injection He as <-.
  apply res_bind_ok in H. destruct H as (apis & Ha & H). apply res_bind_ok in Ha. destruct Ha as (lla & Hla & Ha). injection Ha as <-.
  apply res_bind_ok in H. destruct H as (lm & Hm & H). injection H as <-.
  apply map_res_ok in Hl, Hla, Hm. apply F2_concat in Hla. destruct Hla as (llla & -> & Hla).
  assert (CC : forall A (x : list (list (list A))), concat (concat x) = concat (map (@concat A) x)).
  { intros A x. induction x; cbn; [reflexivity|]. rewrite concat_app, IHx. reflexivity. }
  rewrite CC in Hm. apply F2_concat in Hm. destruct Hm as (llm & -> & Hm). rewrite F2_map_l in Hm.
  assert (X : exists lllm, llm = map (@concat _) lllm /\ Forall2 (fun la llm => Forall2 (Forall2 (fun a lm => add_api a = Ok lm)) la llm) llla lllm).
  { clear - Hm. induction Hm as [|la lm llla llm H _ (lllm & -> & IH)].
    - exists []. split; constructor.
    - apply F2_concat in H. destruct H as (l & -> & H). exists (l :: lllm). split; [reflexivity|]. constructor; auto. }
  destruct X as (lllm & -> & X). exists lle, lllm. split; [exact Hl|]. split.
  { clear - Hla X. revert lllm X. induction Hla; intros lllm X; inversion X; subst; constructor; auto. eexists. split; eauto. }
  split; [exact He0|]. clear. induction lllm as [|a l IH]; cbn; [reflexivity|]. rewrite concat_app, IH. reflexivity.
Qed.

Theorem api_described cls ms : own_names cls -> Forall (fun m => defaults_last (own_params (snd m))) cls -> class_api py310 cls = Ok ms ->
  Forall2 (fun m w => describes (snd m) w) (filter exposed cls) ms.
Proof.
  intros (_ & ON) DL H. apply class_members in H. destruct H as (lle & lllm & H1 & H2 & _ & ->).
  revert lllm H2. induction H1 as [|(name, f) le cls lle M H1 IH]; intros lllm H2; inversion H2 as [|? llm ? lllm' W H2']; subst.
  - constructor.
  - inversion ON as [|? ? (Nm & Dc) ON']; subst. inversion DL as [|? ? D DL']; subst. cbn [fst snd] in *.
    pose proof (member_described _ _ _ _ Nm Dc D M W) as K. cbn [filter map concat].
    destruct (exposed (name, f)).
    + destruct K as (w & -> & K). cbn. constructor; auto.
    + rewrite K. cbn. auto.
Qed.
End Member.
