From Verif Require Import Model.Bytes Model.Utf8 Model.Exn Model.Typed Model.ScoreClass Model.ScoreApi Spec.ClassSpec Proof.ScoreClassFacts Proof.ScoreApiFacts.

Lemma lookup_in {A} name (l : list (pystr * A)) a : lookup name l = Some a -> In (name, a) l.
Proof.
  induction l as [|(n, x) l IH]; cbn; [discriminate|]. destruct (str_eqb n name) eqn:E; [|auto]. intros [= <-]. apply str_eqb_eq in E. subst. auto.
Qed.
Lemma in_lookup {A} name (l : list (pystr * A)) a : NoDup (map fst l) -> In (name, a) l -> lookup name l = Some a.
Proof.
  induction l as [|(n, x) l IH]; cbn; [tauto|]. intros ND [E|Hin].
  - injection E as -> ->. rewrite str_eqb_refl. reflexivity.
  - inversion ND as [|? ? NI ND']; subst. destruct (str_eqb n name) eqn:E; [|auto]. exfalso. apply NI. apply str_eqb_eq in E. subst.
    apply in_map_iff. exists (name, a). auto.
Qed.
Lemma lookup_none {A} name (l : list (pystr * A)) : lookup name l = None -> forall a, ~ In (name, a) l.
Proof.
  induction l as [|(n, x) l IH]; cbn; [tauto|]. destruct (str_eqb n name) eqn:E; [discriminate|]. intros H a [Q|Q]; [injection Q as -> ->; rewrite str_eqb_refl in E; discriminate|].
  exact (IH H a Q).
Qed.

(** The element of a name. *)
Lemma element_of cls els name : NoDup (map fst cls) -> elements_of cls = Ok els ->
  match lookup name cls with
  | None => lookup name els = None
  | Some f => exists le, member_element (name, f) = Ok le /\ lookup name els = lookup name le
  end.
Proof.
  intros ND H. unfold elements_of in H. apply res_bind_ok in H. destruct H as (lle & Hl & H). injection H as <-. apply map_res_ok in Hl.
  assert (SN : forall n f le, member_element (n, f) = Ok le -> forall x, In x le -> fst x = n).
  { intros n f le M x Hx. apply member_ok in M. destruct M as [(_ & ->)|[(_ & _ & _ & ->)|[(_ & _ & _ & _ & e & _ & ->)|[(_ & _ & _ & _ & ->)|(_ & _ & _ & _ & e & -> & _)]]]]; cbn in Hx; try tauto; destruct Hx as [<-|[]]; reflexivity. }
  assert (LA : forall (a b : list (pystr * element)), lookup name (a ++ b) = match lookup name a with Some e => Some e | None => lookup name b end).
  { induction a as [|(n, x) a IH]; intros b; cbn; [reflexivity|]. destruct (str_eqb n name); auto. }
  assert (LO : forall n f le, member_element (n, f) = Ok le -> n <> name -> lookup name le = None).
  { intros n f le M Hn. destruct (lookup name le) eqn:E; [|reflexivity]. apply lookup_in in E. apply (SN _ _ _ M) in E. cbn in E. congruence. }
  induction Hl as [|(n, f) le cls lle M Hl IH]; cbn [lookup concat]; [reflexivity|]. cbn in ND. inversion ND as [|? ? NI ND']; subst.
  destruct (str_eqb n name) eqn:E.
  - apply str_eqb_eq in E. subst n. exists le. split; [exact M|]. rewrite LA. destruct (lookup name le); [reflexivity|].
    specialize (IH ND'). destruct (lookup name cls) as [f'|] eqn:L; [|exact IH]. exfalso. apply NI. apply lookup_in in L. apply in_map_iff. exists (name, f'). auto.
  - rewrite LA. rewrite (LO _ _ _ M); [|intros ->; rewrite str_eqb_refl in E; discriminate]. exact (IH ND').
Qed.

Lemma land_le fl k m : Z.land m k = k -> Z.land fl m = 0 -> Z.land fl k = 0.
Proof. intros <-. intros H. rewrite Z.land_assoc, H. reflexivity. Qed.

(** Which flags of a name the class knows. *)
Lemma flagged_ok cls els name k : NoDup (map fst cls) -> elements_of cls = Ok els -> Z.land 255 k = k ->
  flagged els name k = true <-> exists f, lookup name cls = Some f /\ str_prefix STR_DUNDER name = false /\ is_hook name = false /\ Z.land (fn_flags f) k <> 0.
Proof.
  intros ND H Hk. pose proof (element_of cls els name ND H) as E. unfold flagged.
  destruct (lookup name cls) as [f|] eqn:L.
  - destruct E as (le & M & ->). apply member_ok in M.
    assert (K511 : Z.land 511 k = k) by (rewrite <- Hk, Z.land_assoc; reflexivity).
    assert (KALL : Z.land ALL k = k) by (rewrite <- Hk, Z.land_assoc; reflexivity).
    destruct M as [(D & ->)|[(D & Hh & A & ->)|[(D & Hh & A & F0 & e & He & ->)|[(D & Hh & U & F0 & ->)|(D & Hh & U & F0 & e & -> & He)]]]]; cbn [lookup].
    + split; [discriminate|]. intros (f' & _ & D' & _). congruence.
    + split; [discriminate|]. intros (f' & _ & _ & H' & _). congruence.
    + rewrite str_eqb_refl. apply metadata_function in He. destruct He as (-> & Ef & _). unfold el_flags. rewrite Ef. unfold any_flag_on. rewrite (land_le _ _ _ KALL F0).
      split; [discriminate|]. intros (f' & _ & _ & H' & _). congruence.
    + split; [discriminate|]. intros (f' & Lf & _ & _ & N). injection Lf as <-. exfalso. apply N. exact (land_le _ _ _ K511 F0).
    + rewrite str_eqb_refl. unfold any_flag_on in He. destruct (Z.eqb_spec (Z.land (fn_flags f) EVENTLOG) 0) as [E0|E0]; cbn [negb] in He.
      * apply metadata_function in He. destruct He as (-> & Ef & _). unfold el_flags. rewrite Ef. unfold any_flag_on. rewrite negb_true_iff, Z.eqb_neq.
        split; [intros N; exists f; auto|]. intros (f' & Lf & _ & _ & N). injection Lf as <-. exact N.
      * apply metadata_event in He. destruct He as (-> & _). split; [discriminate|]. intros (f' & Lf & _ & _ & N). injection Lf as <-. exfalso.
        destruct U as [U|U]; [exact (F0 U)|]. cbn [In] in U.
        destruct U as [Q|[Q|[Q|[Q|[Q|[Q|[Q|[]]]]]]]]; rewrite <- Q in *; try (apply E0; reflexivity). apply N. rewrite <- Hk, Z.land_assoc. reflexivity.
  - rewrite E. split; [discriminate|]. intros (f & F & _). discriminate.
Qed.

Definition callable (name : pystr) (f : func) : Prop :=
  str_prefix STR_DUNDER name = false /\ is_hook name = false /\ (if str_eqb name STR_FALLBACK then is_payable f else is_external f).

Lemma call_method_ok cls els name value f : NoDup (map fst cls) -> elements_of cls = Ok els ->
  call_method cls els name value = Ok f <->
  lookup name cls = Some f /\
  ((is_hook name = true /\ value <= 0) \/
   (str_prefix STR_DUNDER name = false /\ is_hook name = false /\ name = STR_FALLBACK /\ is_payable f) \/
   (str_prefix STR_DUNDER name = false /\ is_hook name = false /\ name <> STR_FALLBACK /\ is_external f /\ (0 < value -> is_payable f))).
Proof.
  intros ND H. unfold call_method. pose proof (flagged_ok cls els name EXTERNAL ND H eq_refl) as FE. pose proof (flagged_ok cls els name PAYABLE ND H eq_refl) as FP.
  assert (GA : get_attr cls name = Ok f <-> lookup name cls = Some f) by (unfold get_attr; destruct (lookup name cls); split; congruence).
  destruct (str_eqb name STR_FALLBACK) eqn:F; cbn [negb andb].
  - apply str_eqb_eq in F. assert (Hh : is_hook name = false) by (subst name; reflexivity). destruct (flagged els name PAYABLE).
    + rewrite GA. destruct (proj1 FP eq_refl) as (f' & L & D & _ & P). split.
      * intros L'. rewrite L in L'. injection L' as <-. split; [exact L|]. right. left. auto.
      * intros (L' & _). exact L'.
    + split; [discriminate|]. intros (L & [(X & _)|[(D & _ & _ & P)|(_ & _ & N & _)]]); [congruence| |congruence].
      assert (false = true) by (apply FP; exists f; auto). discriminate.
  - assert (NF : name <> STR_FALLBACK) by (intros ->; rewrite str_eqb_refl in F; discriminate).
    destruct (is_hook name) eqn:Hh; cbn [negb andb].
    + assert (NP : flagged els name PAYABLE = false). { destruct (flagged els name PAYABLE); [|reflexivity]. destruct (proj1 FP eq_refl) as (? & _ & _ & X & _). congruence. }
      rewrite NP. cbn [negb]. rewrite andb_true_r. destruct (Z.ltb_spec 0 value).
      * split; [discriminate|]. intros (_ & [(_ & V)|[(_ & X & _)|(_ & X & _)]]); [lia|congruence|congruence].
      * rewrite GA. split; [intros L; split; [exact L|]; left; auto|]. intros (L & _). exact L.
    + destruct (flagged els name EXTERNAL) eqn:E; cbn [negb].
      * destruct (proj1 FE eq_refl) as (f' & L & D & _ & X).
        destruct (Z.ltb_spec 0 value) as [V|V]; cbn [andb].
        -- destruct (flagged els name PAYABLE); cbn [negb].
           ++ destruct (proj1 FP eq_refl) as (f2 & L2 & _ & _ & P). rewrite L in L2. injection L2 as <-. rewrite GA. split.
              ** intros L'. split; [exact L'|]. right. right. rewrite L in L'. injection L' as <-. auto 8.
              ** intros (L' & _). exact L'.
           ++ split; [discriminate|]. intros (L' & [(X1 & _)|[(_ & _ & N & _)|(_ & _ & _ & _ & P)]]); try congruence; try contradiction.
              assert (false = true) by (apply FP; exists f; repeat split; auto; exact (P V)). discriminate.
        -- rewrite GA. split; [|intros (L' & _); exact L']. intros L'. split; [exact L'|]. right. right. rewrite L in L'. injection L' as <-. repeat split; auto. lia.
      * split; [discriminate|]. intros (L' & [(X1 & _)|[(_ & _ & N & _)|(D & _ & _ & X & P)]]); try congruence; try contradiction.
        assert (false = true) by (apply FE; exists f; split; [exact L'|]; auto). discriminate.
Qed.

(** ** The node *)
Lemma get_method_in ms name m : go_GetMethod ms name = Some m -> In m ms /\ go_key m = Some name.
Proof.
  induction ms as [|x ms IH]; cbn; [discriminate|]. destruct (go_GetMethod ms name) as [y|].
  - intros [= <-]. destruct (IH eq_refl). auto.
  - destruct (go_key x) as [k|] eqn:K; [|discriminate]. destruct (str_eqb k name) eqn:E; [|discriminate]. intros [= <-]. apply str_eqb_eq in E. subst. auto.
Qed.

Definition wname (m : message) : pystr := match m with Transfer => [] | Call n => n end.

Lemma dispatch_ok ms msg value ext ro m ro' : go_dispatch ms msg value ext ro = Ok (m, ro') ->
  go_GetMethod ms (wname msg) = Some m /\ go_IsCallable m = true /\
  (go_IsFallback m = true \/ (is_hook (wname msg) = false /\ go_IsExternal m = true)) /\
  ((0 < value \/ msg = Transfer) -> go_IsPayable m = true) /\ (0 < value -> wname msg <> [] -> go_IsReadOnly m = false) /\
  (ro = true -> go_IsReadOnly m = true) /\ ro' = (ro || go_IsReadOnly m).
Proof.
  assert (E : forall name ext, go_ensure_method ms name false ext ro = Ok (m, ro') ->
    go_GetMethod ms name = Some m /\ go_IsCallable m = true /\ (go_IsFallback m = true \/ (is_hook name = false /\ go_IsExternal m = true)) /\
    (ro = true -> go_IsReadOnly m = true) /\ ro' = (ro || go_IsReadOnly m)).
  { intros name ext' H. unfold go_ensure_method in H. destruct (go_GetMethod ms name) as [x|] eqn:G; [|discriminate].
    destruct (go_IsCallable x) eqn:C; [|discriminate]. cbn [negb] in H. destruct (go_IsFallback x && ext'); [discriminate|].
    destruct (go_IsFallback x) eqn:F; cbn [negb andb] in H.
    - destruct (go_IsReadOnly x) eqn:R, ro; cbn in H; try discriminate; injection H as <- <-; rewrite R; repeat split; auto.
    - destruct (is_hook name); [discriminate|]. destruct (go_IsExternal x) eqn:X; [|discriminate]. cbn [negb] in H.
      destruct (go_IsReadOnly x) eqn:R, ro; cbn in H; try discriminate; injection H as <- <-; rewrite R; repeat split; auto. }
  assert (T : forall name ext, go_transfer_and_call ms name ext ro = Ok (m, ro') ->
    go_ensure_method ms name false ext ro = Ok (m, ro') /\ go_IsPayable m = true /\ (name <> [] -> go_IsReadOnly m = false)).
  { intros name ext' H. unfold go_transfer_and_call in H. cbn zeta in H. destruct name as [|c name].
    - destruct (go_GetMethod ms []) as [x|] eqn:G; cbn [negb] in H; [|discriminate]. destruct (go_IsPayable x) eqn:P; [|discriminate]. cbn [negb] in H.
      pose proof (E _ _ H) as (G' & _). rewrite G in G'. injection G' as ->. repeat split; auto. congruence.
    - destruct (go_GetMethod ms (c :: name)) as [x|] eqn:G; [|discriminate]. destruct (go_IsPayable x) eqn:P; [|discriminate]. cbn [negb] in H.
      destruct (go_IsReadOnly x) eqn:R; [discriminate|]. pose proof (E _ _ H) as (G' & _). rewrite G in G'. injection G' as ->. repeat split; auto. }
  unfold go_dispatch. destruct msg as [|name]; cbn [wname].
  - intros H. apply T in H. destruct H as (H & P & R). apply E in H. destruct H as (A & B & C & D & F). repeat split; auto.
  - destruct (Z.ltb_spec 0 value); intros H0.
    + apply T in H0. destruct H0 as (H0 & P & R). apply E in H0. destruct H0 as (A & B & C & D & F). repeat split; auto.
    + apply E in H0. destruct H0 as (A & B & C & D & F). repeat split; auto. intros [?|?]; [lia|discriminate]. intros; lia.
Qed.

Lemma member_of cls els name f : elements_of cls = Ok els -> In (name, f) cls -> exists le, member_element (name, f) = Ok le.
Proof.
  unfold elements_of. intros H Hin. apply res_bind_ok in H. destruct H as (lle & Hl & _). apply map_res_ok in Hl.
  destruct (F2_In_r _ _ _ _ Hl Hin) as (le & _ & M). eauto.
Qed.
Lemma exposed_flags cls els name f : elements_of cls = Ok els -> In (name, f) cls -> fn_name f = name -> declared f -> exposed (name, f) = true ->
  str_prefix STR_DUNDER name = false /\
  ((is_hook name = true /\ Z.land (fn_flags f) ALL = 0) \/
   (is_hook name = false /\ In (fn_flags f) [2; 6; 3; 12; 256] /\ (fn_flags f = 12 -> name = STR_FALLBACK) /\ (is_external f -> name <> STR_FALLBACK))).
Proof.
  intros H Hin Nm Dc X. destruct (member_of _ _ _ _ H Hin) as (le & M). apply member_ok in M. unfold exposed in X.
  destruct M as [(D & ->)|[(D & Hh & A & ->)|[(D & Hh & A & F0 & e & He & ->)|[(D & Hh & U & F0 & ->)|(D & Hh & U & F0 & e & -> & He)]]]]; rewrite D in X; try discriminate; rewrite Hh in X.
  - rewrite A in X. discriminate.
  - split; auto.
  - split; [exact D|]. right. split; [exact Hh|]. exfalso. apply negb_true_iff, Z.eqb_neq in X. apply X.
    change (Z.lor EXTERNAL (Z.lor EVENTLOG FALLBACK)) with (Z.land 511 266). rewrite Z.land_assoc, F0. reflexivity.
  - split; [exact D|]. right. split; [exact Hh|]. destruct (declared_flags f Dc U) as (I8 & N12 & N4 & NE & _). rewrite Nm in *.
    split; [|split; [exact N12|exact NE]]. cbn [In] in *.
    destruct I8 as [Q|[Q|[Q|[Q|[Q|[Q|[Q|[Q|[]]]]]]]]]; rewrite <- Q in *; try tauto; discriminate.
Qed.

Section EndToEnd.
Context (py310 : bool) (cls : class_def) (els : list (pystr * element)) (ms : list wmethod).
Context (ON : own_names cls) (DL : Forall (fun m => defaults_last (own_params (snd m))) cls).
Context (He : elements_of cls = Ok els) (Hm : class_api py310 cls = Ok ms).

Lemma entry m : In m ms -> exists f, In (wm_name m, f) cls /\ exposed (wm_name m, f) = true /\ describes f m /\ fn_name f = wm_name m /\ declared f.
Proof.
  intros Hin. pose proof (api_described py310 cls ms ON DL Hm) as F. destruct (F2_In_l _ _ _ _ F Hin) as ((n, f) & HF & D).
  apply filter_In in HF. destruct HF as (HF & X). cbn [snd] in D. destruct ON as (_ & OF). rewrite Forall_forall in OF. destruct (OF _ HF) as (Nm & Dc). cbn [fst snd] in *.
  exists f. pose proof D as D'. unfold describes in D'. destruct D' as (W & _). rewrite W, Nm. auto.
Qed.

Lemma describes_kind f m : describes f m ->
  (wm_type m = 2 /\ Z.land (fn_flags f) EVENTLOG <> 0) \/
  (wm_type m = 1 /\ wm_flags m = 4 /\ Z.land (fn_flags f) EVENTLOG = 0 /\ Z.land (fn_flags f) FALLBACK <> 0) \/
  (wm_type m = 0 /\ wm_flags m = Z.land (fn_flags f) 7 /\ Z.land (fn_flags f) EVENTLOG = 0 /\ Z.land (fn_flags f) FALLBACK = 0).
Proof.
  unfold describes. intros (_ & H). destruct (Z.eqb_spec (Z.land (fn_flags f) EVENTLOG) 0); cbn [negb] in H.
  - destruct (Z.eqb_spec (Z.land (fn_flags f) FALLBACK) 0); cbn [negb] in H; intuition.
  - intuition.
Qed.

Theorem dispatch_reaches msg value ext ro m ro' : go_dispatch ms msg value ext ro = Ok (m, ro') ->
  exists f, lookup (wm_name m) cls = Some f /\ call_method cls els (wm_name m) value = Ok f /\ is_hook (wm_name m) = false /\
    match msg with
    | Transfer | Call [] => wm_name m = STR_FALLBACK /\ is_payable f
    | Call n => wm_name m = n /\ is_external f
    end /\
    (0 < value -> is_payable f /\ ~ is_readonly f) /\ (ro = true -> is_readonly f) /\ (ro' = true <-> ro = true \/ is_readonly f).
Proof.
  intros H. apply dispatch_ok in H. destruct H as (G & C & K & P & R & RO & ->). apply get_method_in in G. destruct G as (Hin & Key).
  destruct (entry m Hin) as (f & HF & X & D & Nm & Dc). destruct ON as (ND & _). pose proof (in_lookup _ _ _ ND HF) as L. exists f. split; [exact L|].
  destruct (exposed_flags _ _ _ _ He HF Nm Dc X) as (DU & EF).
  destruct (describes_kind _ _ D) as [(T & _)|[(T & FL & NE & NF)|(T & FL & NE & NF)]].
  - unfold go_IsCallable in C. rewrite T in C. discriminate.
  - (* fallback *)
    unfold go_key, go_IsEvent, go_IsFallback in Key. rewrite T in Key. cbn in Key. injection Key as Key. 
    unfold go_IsReadOnly, A_FUNCTION in *. rewrite T in *. cbn in RO. rewrite orb_false_r.
    destruct EF as [(_ & F0)|(Hh & I5 & N12 & NX)].
    { exfalso. apply NF. eapply land_le; [|exact F0]. reflexivity. }
    cbn [In] in I5. destruct I5 as [Q|[Q|[Q|[Q|[Q|[]]]]]]; rewrite <- Q in *; try (exfalso; apply NF; reflexivity); try (exfalso; apply NF; discriminate).
    specialize (N12 eq_refl). assert (PF : is_payable f) by (unfold is_payable; rewrite <- Q; discriminate).
    split. { apply (call_method_ok cls els _ value f ND He). split; [exact L|]. right. left. auto. }
    split; [exact Hh|]. assert (NR : ~ is_readonly f) by (unfold is_readonly; rewrite <- Q; intros B; apply B; reflexivity).
    split. { destruct msg as [|[|]]; cbn [wname] in Key; auto; discriminate. }
    split; [auto|]. split; [intros Y; specialize (RO Y); discriminate|]. tauto.
  - (* function *)
    unfold go_key, go_IsEvent, go_IsFallback in Key. rewrite T in Key. cbn in Key.
    destruct (wm_name m) as [|c0 nm] eqn:W; [discriminate|]. injection Key as Key. 
    unfold go_IsFallback in K. rewrite T in K. cbn in K. destruct K as [K|(Hh & K)]; [discriminate|].
    unfold go_IsExternal in K. rewrite T, FL in K. cbn in K. rewrite <- Key in Hh.
    destruct EF as [(B & _)|(_ & I5 & N12 & NX)]; [congruence|].
    assert (XF : is_external f).
    { unfold is_external. cbn [In] in I5. destruct I5 as [Q|[Q|[Q|[Q|[Q|[]]]]]]; rewrite <- Q in *; try discriminate. }
    assert (PE : go_IsPayable m = true <-> is_payable f).
    { unfold go_IsPayable, is_payable. rewrite T, FL. cbn. rewrite <- Z.land_assoc. change (Z.land 7 4) with PAYABLE. rewrite negb_true_iff, Z.eqb_neq. tauto. }
    assert (RE : go_IsReadOnly m = true <-> is_readonly f).
    { unfold go_IsReadOnly, is_readonly. rewrite T, FL. cbn. rewrite <- Z.land_assoc. change (Z.land 7 1) with READONLY. rewrite negb_true_iff, Z.eqb_neq. tauto. }
    assert (NN : wname msg <> []) by (rewrite <- Key; discriminate).
    split. { apply (call_method_ok cls els _ value f ND He). split; [exact L|]. right. right. repeat split; auto. intros V. apply PE. auto. }
    split; [exact Hh|]. split. { destruct msg as [|[|]]; cbn [wname] in *; try congruence. split; [congruence|exact XF]. }
    split. { intros V. split; [apply PE; auto|]. rewrite <- RE. rewrite (R V NN). discriminate. }
    split; [intros Y; apply RE; auto|]. rewrite orb_true_iff, RE. tauto.
Qed.

(** Method names as Python writes them. *)
Context (ID : Forall (fun m => fst m <> [] /\ ~ In 40 (fst m)) cls).

Lemma key_unique m m' k : In m ms -> In m' ms -> go_key m = Some k -> go_key m' = Some k -> ~ In 40 k -> wm_name m = wm_name m'.
Proof.
  intros H H' K K' N. destruct (entry m H) as (f & HF & X & D & Nm & Dc). destruct (entry m' H') as (f' & HF' & X' & D' & Nm' & Dc').
  assert (S : forall n s, In 40 (n ++ 40 :: s)) by (intros; apply in_or_app; right; left; reflexivity).
  assert (FB : forall m f, In (wm_name m, f) cls -> exposed (wm_name m, f) = true -> fn_name f = wm_name m -> declared f -> describes f m -> wm_type m = 1 -> wm_name m = STR_FALLBACK).
  { intros m0 f0 A1 A2 A3 A4 A5 A6. destruct (exposed_flags _ _ _ _ He A1 A3 A4 A2) as (_ & EF). destruct (describes_kind _ _ A5) as [(T & _)|[(T & FL & NE & NF)|(T & _)]]; try congruence.
    destruct EF as [(_ & F0)|(Hh & I5 & N12 & NX)].
    { exfalso. apply NF. eapply land_le; [|exact F0]. reflexivity. }
    cbn [In] in I5. destruct I5 as [Q|[Q|[Q|[Q|[Q|[]]]]]]; rewrite <- Q in *; try (exfalso; apply NF; reflexivity); auto. }
  assert (NE : forall m, In m ms -> wm_name m <> []).
  { intros m0 H0. destruct (entry m0 H0) as (f0 & HF0 & _). rewrite Forall_forall in ID. apply ID in HF0. tauto. }
  unfold go_key, go_IsEvent, go_IsFallback in K, K'.
  destruct (describes_kind _ _ D) as [(T & _)|[(T & _)|(T & _)]], (describes_kind _ _ D') as [(T' & _)|[(T' & _)|(T' & _)]]; rewrite T in K; rewrite T' in K'; cbn in K, K';
    try (injection K as <-; exfalso; apply N; apply S); try (injection K' as <-; exfalso; apply N; apply S).
  - rewrite (FB m f HF X Nm Dc D T), (FB m' f' HF' X' Nm' Dc' D' T'). reflexivity.
  - injection K as <-. destruct (wm_name m') eqn:W; [|discriminate]. exfalso. exact (NE m' H' W).
  - injection K' as <-. destruct (wm_name m) eqn:W; [|discriminate]. exfalso. exact (NE m H W).
  - destruct (wm_name m); [discriminate|]. destruct (wm_name m'); [discriminate|]. congruence.
Qed.
Lemma get_method_some l name m : In m l -> go_key m = Some name -> exists m', go_GetMethod l name = Some m'.
Proof.
  induction l as [|x l IH]; cbn; [tauto|]. intros [->|Hin] K.
  - destruct (go_GetMethod l name); [eauto|]. rewrite K, str_eqb_refl. eauto.
  - destruct (IH Hin K) as (m' & ->). eauto.
Qed.

Theorem external_reached name f value ext ro : In (name, f) cls -> str_prefix STR_DUNDER name = false -> is_hook name = false -> is_external f ->
  (0 < value -> is_payable f) -> (ro = true -> is_readonly f) ->
  exists m, go_dispatch ms (Call name) value ext ro = Ok (m, ro || negb (Z.land (fn_flags f) READONLY =? 0)) /\ wm_name m = name.
Proof.
  intros HF DU Hh XF PV RV. pose proof ON as (ND & OF). rewrite Forall_forall in OF. destruct (OF _ HF) as (Nm & Dc). cbn [fst snd] in Nm, Dc.
  assert (X : exposed (name, f) = true).
  { unfold exposed. rewrite DU, Hh. apply negb_true_iff, Z.eqb_neq. intros Z0. apply XF. eapply land_le; [|exact Z0]. reflexivity. }
  destruct (exposed_flags _ _ _ _ He HF Nm Dc X) as (_ & [(B & _)|(_ & I5 & N12 & NX)]); [congruence|].
  pose proof (api_described py310 cls ms ON DL Hm) as F. assert (HFF : In (name, f) (filter exposed cls)) by (apply filter_In; auto).
  destruct (F2_In_r _ _ _ _ F HFF) as (m & Hin & D). cbn [snd] in D.
  assert (IDn : name <> [] /\ ~ In 40 name) by (rewrite Forall_forall in ID; exact (ID _ HF)). destruct IDn as (N0 & N40).
  assert (Wn : wm_name m = name) by (destruct D as (W & _); congruence).
  destruct (describes_kind _ _ D) as [(T & B)|[(T & FL & NE & NF)|(T & FL & NE & NF)]].
  { exfalso. unfold is_external in XF. cbn [In] in I5. destruct I5 as [Q|[Q|[Q|[Q|[Q|[]]]]]]; rewrite <- Q in *; try (apply B; reflexivity); apply XF; reflexivity. }
  { exfalso. unfold is_external in XF. cbn [In] in I5. destruct I5 as [Q|[Q|[Q|[Q|[Q|[]]]]]]; rewrite <- Q in *; try (apply NF; reflexivity); apply XF; reflexivity. }
  assert (Km : go_key m = Some name).
  { unfold go_key, go_IsEvent, go_IsFallback. rewrite T, Wn. cbn. destruct name; [congruence|reflexivity]. }
  destruct (get_method_some ms name m Hin Km) as (m' & G). pose proof (get_method_in _ _ _ G) as (Hin' & Km').
  assert (Wn' : wm_name m' = name) by (rewrite <- Wn; symmetry; eapply key_unique; eauto).
  destruct (entry m' Hin') as (f' & HF' & X' & D' & Nm' & Dc'). rewrite Wn' in HF'.
  assert (f' = f) by (pose proof (in_lookup _ _ _ ND HF); pose proof (in_lookup _ _ _ ND HF'); congruence). subst f'.
  destruct (describes_kind _ _ D') as [(T' & B)|[(T' & FL' & NE' & NF')|(T' & FL' & _ & _)]]; [congruence|congruence|].
  exists m'. split; [|exact Wn'].
  assert (XE : go_IsExternal m' = true).
  { unfold go_IsExternal. rewrite T', FL'. cbn. apply negb_true_iff, Z.eqb_neq. rewrite <- Z.land_assoc. change (Z.land 7 3) with 3. intros Z0. apply XF. eapply land_le; [|exact Z0]. reflexivity. }
  assert (RE : go_IsReadOnly m' = negb (Z.land (fn_flags f) READONLY =? 0)).
  { unfold go_IsReadOnly. rewrite T', FL'. cbn. rewrite <- Z.land_assoc. reflexivity. }
  assert (PE : go_IsPayable m' = negb (Z.land (fn_flags f) PAYABLE =? 0)).
  { unfold go_IsPayable. rewrite T', FL'. cbn. rewrite <- Z.land_assoc. reflexivity. }
  assert (EN : go_ensure_method ms name false ext ro = Ok (m', ro || negb (Z.land (fn_flags f) READONLY =? 0))).
  { unfold go_ensure_method. rewrite G. unfold go_IsCallable, go_IsFallback. rewrite T'. cbn [negb Z.eqb A_EVENT A_FALLBACK andb]. rewrite Hh, XE. cbn [negb]. rewrite RE.
    destruct (Z.eqb_spec (Z.land (fn_flags f) READONLY) 0) as [Z0|Z0]; cbn [negb].
    - destruct ro; [exfalso; exact (RV eq_refl Z0)|]. reflexivity.
    - destruct ro; reflexivity. }
  unfold go_dispatch. destruct (Z.ltb_spec 0 value) as [V|V]; [|exact EN].
  unfold go_transfer_and_call. destruct name as [|c0 nm]; [congruence|]. cbn zeta. rewrite G, PE, RE.
  specialize (PV V). unfold is_payable in PV. destruct (Z.eqb_spec (Z.land (fn_flags f) PAYABLE) 0); [contradiction|]. cbn [negb].
  assert (R0 : Z.land (fn_flags f) READONLY = 0).
  { cbn [In] in I5. destruct I5 as [Q|[Q|[Q|[Q|[Q|[]]]]]]; rewrite <- Q in *; try reflexivity; exfalso; apply PV; reflexivity. }
  rewrite R0 in *. cbn [negb Z.eqb]. exact EN.
Qed.
End EndToEnd.
