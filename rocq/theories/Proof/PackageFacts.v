From Verif Require Import Model.Bytes Model.Utf8 Model.Exn Model.Monad Model.PackageValidator Spec.PackageSpec.
From Coq Require Import String List Lia ZArith Bool Arith.
Import ListNotations.
Open Scope list_scope.
Open Scope nat_scope.

Lemma pystr_eqb_eq : forall a b, pystr_eqb a b = true <-> a = b.
Proof.
  induction a as [|x a IH]; destruct b as [|y b]; cbn; split; intro H; try congruence; auto.
  - apply andb_true_iff in H as [H1 H2]. apply Z.eqb_eq in H1. apply IH in H2. congruence.
  - inversion H; subst. rewrite Z.eqb_refl. cbn. now apply IH.
Qed.

Lemma pystr_in_In : forall s l, pystr_in s l = true <-> In s l.
Proof.
  intros. unfold pystr_in. rewrite existsb_exists. split.
  - intros (x & H & E). apply pystr_eqb_eq in E. now subst.
  - intro H. exists s. split; auto. now apply pystr_eqb_eq.
Qed.

(** Bytes and instructions. *)
Lemma listing_op : forall bs i ext op a,
  nth_error (listing bs ext) i = Some (op, a) -> nth_error bs (2 * i) = Some op.
Proof.
  intros bs. induction bs as [bs IH] using (well_founded_induction (well_founded_ltof _ (@List.length Z))).
  intros i ext op a H. destruct bs as [|x [|y r]]; cbn in H; try (destruct i; discriminate).
  destruct i as [|i]; cbn in H.
  - now inversion H.
  - replace (2 * S i) with (S (S (2 * i))) by lia. cbn [nth_error]. eapply IH; [|exact H]. unfold ltof. cbn. lia.
Qed.

Lemma listing_arg : forall bs i ext op a,
  nth_error (listing bs ext) i = Some (op, a) ->
  exists e b, nth_error bs (2 * i + 1) = Some b /\ a = (e * 256 + b)%Z
    /\ (i = 0 -> e = ext)
    /\ (forall k, i = S k -> e = 0%Z \/ nth_error bs (2 * k) = Some 144%Z).
Proof.
  intros bs. induction bs as [bs IH] using (well_founded_induction (well_founded_ltof _ (@List.length Z))).
  intros i ext op a H. destruct bs as [|x [|y r]]; cbn in H; try (destruct i; discriminate).
  destruct i as [|i]; cbn in H.
  - inversion H; subst. exists ext, y. repeat split; auto. intros k E; discriminate.
  - replace (2 * S i + 1) with (S (S (2 * i + 1))) by lia. cbn [nth_error].
    assert (L : ltof _ (@List.length Z) r (x :: y :: r)) by (unfold ltof; cbn; lia).
    destruct (IH r L _ _ _ _ H) as (e & b & H1 & H2 & H3 & H4).
    exists e, b. repeat split; auto; [intro E; discriminate|].
    intros k E. inversion E; subst k. destruct i as [|i].
    + specialize (H3 eq_refl). cbn. destruct (Z.eqb_spec x 144).
      * subst x. now right.
      * now left.
    + destruct (H4 i eq_refl) as [E0|E0]; [now left|right].
      replace (2 * S i) with (S (S (2 * i))) by lia. cbn [nth_error]. exact E0.
Qed.

Definition byte_code (bs : list Z) : Prop := Forall (fun b => (0 <= b < 256)%Z) bs.

Lemma listing_nonneg : forall bs i ext op a, byte_code bs -> (0 <= ext)%Z ->
  nth_error (listing bs ext) i = Some (op, a) -> (0 <= a)%Z.
Proof.
  intros bs. induction bs as [bs IH] using (well_founded_induction (well_founded_ltof _ (@List.length Z))).
  intros i ext op a B He H. destruct bs as [|x [|y r]]; cbn in H; try (destruct i; discriminate).
  inversion B as [|? ? Bx B']; subst. inversion B' as [|? ? By Br]; subst.
  destruct i as [|i]; cbn in H.
  - inversion H; subst. lia.
  - eapply (IH r); [unfold ltof; cbn; lia|exact Br| |exact H]. destruct (x =? 144)%Z; lia.
Qed.

Lemma nth_error_skipn : forall A (l : list A) i x, nth_error l i = Some x -> skipn i l = x :: skipn (S i) l.
Proof.
  induction l as [|y l IH]; intros [|i] x H; cbn in *; try discriminate.
  - now inversion H.
  - rewrite (IH _ _ H). reflexivity.
Qed.

(** The checks. *)
Ltac rb H :=
  match type of H with
  | rbind ?r _ = Ok _ =>
      let E := fresh "E" in destruct r eqn:E; cbn [rbind] in H; try discriminate H
  end.

Lemma at_ok : forall A (l : list A) i x, at_ l i = Ok x -> nth_error l i = Some x.
Proof. unfold at_; intros. destruct (nth_error l i); congruence. Qed.

Section V.
Context (wl : list pystr).

Lemma check_from_list_ok : forall l, check_from_list wl [] l = Ok tt -> l = [].
Proof. destruct l; cbn; intros; [reflexivity|discriminate]. Qed.

Lemma whitelist_only : forall n v, whitelist_get n WHITELIST_IMPORT = Some v -> n = lit "iconservice" /\ v = [].
Proof.
  intros n v H. unfold WHITELIST_IMPORT, whitelist_get in H. destruct (pystr_eqb (lit "iconservice") n) eqn:E; [|discriminate].
  apply pystr_eqb_eq in E. inversion H. auto.
Qed.

Lemma validate_import_ok : forall k bs names consts, validate_import wl k bs names consts = Ok tt ->
  nth_error bs (k - 2) = Some 100%Z /\ nth_error bs (k - 4) = Some 100%Z /\
  exists ni fi li name fl lv,
    nth_error bs (k + 1) = Some ni /\ nth_error bs (k - 1) = Some fi /\ nth_error bs (k - 3) = Some li /\
    nth_error names (Z.to_nat ni) = Some name /\ nth_error consts (Z.to_nat fi) = Some fl /\
    nth_error consts (Z.to_nat li) = Some lv /\ permitted name fl lv.
Proof.
  intros k bs names consts H. unfold validate_import in H.
  rb H. rb H. apply at_ok in E, E0. rename a into fop, a0 into lop.
  destruct (negb (LOAD_CONST =? fop)%Z || negb (LOAD_CONST =? lop)%Z) eqn:Eop; [discriminate|].
  apply orb_false_iff in Eop as [O1 O2]. apply negb_false_iff in O1, O2. apply Z.eqb_eq in O1, O2. unfold LOAD_CONST in *. subst fop lop.
  repeat (rb H). repeat match goal with X : at_ _ _ = Ok _ |- _ => apply at_ok in X end.
  split; auto. split; auto. do 6 eexists. split; [eassumption|]. split; [eassumption|]. split; [eassumption|].
  split; [eassumption|]. split; [eassumption|]. split; [eassumption|].
  match goal with X : const_gt0 _ = Ok ?b |- _ => rename X into G; destruct b end.
  - left. match type of G with const_gt0 ?l = _ => destruct l as [| | | | |[|]] end; cbn in *; try discriminate.
    + inversion G as [G']. now apply Z.ltb_lt in G'.
    + now inversion G.
  - right. match type of H with match ?x with _ => _ end = _ => destruct x eqn:W; [|discriminate] end.
    apply whitelist_only in W as [-> ->]. split; [reflexivity|].
    match type of H with match ?x with _ => _ end = _ => destruct x; cbn; auto end;
      (rb H); (match type of H with context [Z.eqb IMPORT_STAR ?x] => destruct (Z.eqb IMPORT_STAR x); [|destruct (Z.eqb IMPORT_FROM x); [|discriminate H]] end); cbn [const_first const_items rbind] in H; try discriminate H.
    + destruct s as [|x s]; cbn [at_ nth_error rbind] in H; [discriminate|]. destruct (pystr_eqb _ _) eqn:Eq in H; [|discriminate].
      apply pystr_eqb_eq in Eq. right. exact Eq.
    + apply check_from_list_ok in H. destruct s; [now left|discriminate].
    + destruct items as [|x items]; cbn [at_ nth_error rbind] in H; [discriminate|]. destruct (pystr_eqb _ _) eqn:Eq in H; [|discriminate].
      apply pystr_eqb_eq in Eq. right. exact Eq.
    + apply check_from_list_ok in H. now left.
Qed.

Lemma validate_from_ok : forall n k bs names consts, validate_from wl n k bs names consts = Ok tt ->
  forall m, m < n -> nth_error bs (k + 2 * m) = Some 108%Z -> validate_import wl (k + 2 * m) bs names consts = Ok tt.
Proof.
  induction n as [|n IH]; intros k bs names consts H m Hm Hn; [lia|].
  cbn [validate_from] in H. rb H. apply at_ok in E. rb H. destruct m as [|m].
  - replace (k + 2 * 0) with k in * by lia. rewrite E in Hn. inversion Hn; subst. cbn in E0. destruct a0. exact E0.
  - replace (k + 2 * S m) with (k + 2 + 2 * m) in * by lia. eapply IH; eauto. lia.
Qed.

Lemma code_ok_import : forall c, validate_import_from_code wl c = Ok tt ->
  forall i, 2 <= i -> nth_error (co_code c) (2 * i) = Some 108%Z ->
  validate_import wl (2 * i) (co_code c) (co_names c) (co_consts c) = Ok tt.
Proof.
  intros c H i Hi Hn. unfold validate_import_from_code in H. unfold OPCODE_HEADER_END_INDEX in H.
  replace (2 * i) with (4 + 2 * (i - 2)) in * by lia.
  eapply validate_from_ok; eauto.
  assert (4 + 2 * (i - 2) < List.length (co_code c)) by (apply nth_error_Some; congruence).
  apply Nat.div_le_lower_bound; lia.
Qed.

Lemma run_step : forall c i st op a, nth_error (instrs c) i = Some (op, a) ->
  inside (skipn (S i) (instrs c)) = true -> runs c (S i) st -> op = 100%Z ->
  exists v st', st = v :: st' /\ runs c i st' /\ nth_error (co_consts c) (Z.to_nat a) = Some v.
Proof.
  intros c i st op a Hn Hin Hr Ho. subst op. inversion Hr; subst.
  - rewrite Hn in H1. inversion H1; subst. eauto 6.
  - congruence.
  - destruct H3 as [E|E].
    + inversion E; subst i0. congruence.
    + congruence.
Qed.

Lemma imports_ok : forall c name fl lv, validate_import_from_code wl c = Ok tt ->
  byte_code (co_code c) -> List.length (co_consts c) <= 256 -> imports c name fl lv -> permitted name fl lv.
Proof.
  intros c name fl lv H Hb Hc (i & st & a & Hi & Hr & Hn & Hname).
  pose proof (listing_op _ _ _ _ _ Hn) as Hop.
  pose proof (code_ok_import _ H _ Hi Hop) as V. apply validate_import_ok in V.
  destruct V as (O1 & O2 & ni & fi & li & name' & fl' & lv' & V1 & V2 & V3 & V4 & V5 & V6 & P).
  destruct i as [|[|i]]; try lia.
  replace (2 * S (S i) - 2) with (2 * S i) in * by lia. replace (2 * S (S i) - 4) with (2 * i) in * by lia.
  replace (2 * S (S i) - 1) with (2 * S i + 1) in * by lia. replace (2 * S (S i) - 3) with (2 * i + 1) in * by lia.
  assert (L2 : S (S i) < List.length (instrs c)) by (apply nth_error_Some; congruence).
  destruct (nth_error (instrs c) (S i)) as [[o1 a1]|] eqn:I1; [|apply nth_error_None in I1; lia].
  destruct (nth_error (instrs c) i) as [[o0 a0]|] eqn:I0; [|apply nth_error_None in I0; lia].
  pose proof (listing_op _ _ _ _ _ I1) as B1. rewrite O1 in B1. inversion B1; subst o1.
  pose proof (listing_op _ _ _ _ _ I0) as B0. rewrite O2 in B0. inversion B0; subst o0.
  assert (N2 : inside (skipn (S (S i)) (instrs c)) = true).
  { rewrite (nth_error_skipn _ _ _ _ Hn). reflexivity. }
  assert (N1 : inside (skipn (S i) (instrs c)) = true).
  { rewrite (nth_error_skipn _ _ _ _ I1). cbn [inside Z.eqb Pos.eqb]. rewrite (nth_error_skipn _ _ _ _ Hn). reflexivity. }
  destruct (run_step _ _ _ _ _ I1 N2 Hr eq_refl) as (v1 & st1 & E1 & R1 & C1).
  inversion E1; subst v1 st1.
  destruct (run_step _ _ _ _ _ I0 N1 R1 eq_refl) as (v0 & st0 & E0 & R0 & C0).
  inversion E0; subst v0 st0.
  destruct (listing_arg _ _ _ _ _ Hn) as (e2 & b2 & X2 & Y2 & _ & Z2).
  destruct (Z2 _ eq_refl) as [->|Bad]; [|congruence]. cbn in Y2. rewrite V1 in X2. inversion X2; subst b2. subst a.
  rewrite V4 in Hname. inversion Hname; subst name'.
  destruct (listing_arg _ _ _ _ _ I1) as (e1 & b1 & X1 & Y1 & _ & Z1).
  destruct (Z1 _ eq_refl) as [->|Bad]; [|congruence]. cbn in Y1. rewrite V2 in X1. inversion X1; subst b1. subst a1.
  rewrite V5 in C1. inversion C1; subst fl'.
  destruct (listing_arg _ _ _ _ _ I0) as (e0 & b0 & X0 & Y0 & F0 & Z0).
  rewrite V3 in X0. inversion X0; subst b0.
  pose proof (listing_nonneg _ _ _ _ _ Hb (Z.le_refl 0) I0) as P0.
  assert (Bl : (0 <= li < 256)%Z).
  { apply nth_error_In in V3. unfold byte_code in Hb. rewrite Forall_forall in Hb. now apply Hb. }
  assert (Z.to_nat a0 < 256).
  { eapply Nat.lt_le_trans; [|exact Hc]. apply nth_error_Some. congruence. }
  assert (e0 = 0%Z) by lia. subst e0. cbn in Y0. subst a0. rewrite V6 in C0. inversion C0; subst lv'. exact P.
Qed.

Lemma blacklist_ok : forall names, validate_blacklist names = Ok tt ->
  forall n, In n names -> ~ In n [lit "exec"; lit "eval"; lit "compile"; lit "__import__"].
Proof.
  induction names as [|m names IH]; cbn [validate_blacklist]; intros H n Hn; [contradiction|].
  destruct (pystr_in m BLACKLIST_RESERVED_KEYWORD) eqn:E; [discriminate|].
  destruct Hn as [->|Hn]; [|now apply IH].
  intro X. assert (pystr_in n BLACKLIST_RESERVED_KEYWORD = true) by (apply pystr_in_In; exact X). congruence.
Qed.

Definition checked (c : code) : Prop := validate_import_from_code wl c = Ok tt /\ validate_blacklist (co_names c) = Ok tt.

Lemma consts_ok : forall l, validate_import_from_const wl l = Ok tt -> forall k, In k l -> validate_const wl k = Ok tt.
Proof.
  induction l as [|x l IH]; cbn [validate_import_from_const]; intros H k Hk; [contradiction|].
  rb H. destruct a. destruct Hk as [->|Hk]; auto.
Qed.

Lemma const_loop : forall l,
  (fix loop (l : list const) : pyres unit :=
     match l with [] => Ok tt | x :: r => rbind (validate_const wl x) (fun w => loop r) end) l
  = validate_import_from_const wl l.
Proof. induction l as [|x l IH]; cbn; auto. Qed.

Lemma const_code : forall c, validate_const wl (KCode c) = Ok tt ->
  checked c /\ validate_import_from_const wl (co_consts c) = Ok tt.
Proof.
  intros [b n k] H. cbn [validate_const] in H. rb H. rb H. destruct a, a0.
  rewrite const_loop in E0. unfold checked. cbn in *. auto.
Qed.

Lemma module_within : forall c, validate_module wl c = Ok tt -> forall d, within c d ->
  checked d /\ validate_import_from_const wl (co_consts d) = Ok tt.
Proof.
  intros c H d W. unfold validate_module in H. rb H. rb H. destruct a, a0.
  induction W as [|d e W IH I].
  - unfold checked; auto.
  - destruct IH as [_ IH]. apply const_code. eapply consts_ok; eauto.
Qed.

(** A module whose code, at any depth, has no import and no forbidden name is accepted. *)
Definition harmless (c : code) : Prop :=
  forall d, within c d -> (forall i, nth_error (co_code d) (2 * i) <> Some 108%Z)
    /\ (forall n, In n (co_names d) -> ~ In n [lit "exec"; lit "eval"; lit "compile"; lit "__import__"]).

Lemma validate_from_none : forall bs names consts, (forall i, nth_error bs (2 * i) <> Some 108%Z) ->
  forall n m, 2 * m + 2 * n <= S (List.length bs) -> validate_from wl n (2 * m) bs names consts = Ok tt.
Proof.
  intros bs names consts H. induction n as [|n IH]; intros m L; cbn [validate_from]; auto.
  unfold at_. destruct (nth_error bs (2 * m)) as [k|] eqn:E; [|apply nth_error_None in E; lia].
  cbn [rbind]. destruct (Z.eqb_spec IMPORT_NAME k).
  - exfalso. apply (H m). rewrite E. unfold IMPORT_NAME in *. congruence.
  - cbn [rbind]. replace (2 * m + 2) with (2 * S m) by lia. apply IH. lia.
Qed.

Lemma code_none : forall c, (forall i, nth_error (co_code c) (2 * i) <> Some 108%Z) -> validate_import_from_code wl c = Ok tt.
Proof.
  intros c H. unfold validate_import_from_code, OPCODE_HEADER_END_INDEX.
  destruct (le_lt_dec 4 (List.length (co_code c))).
  - change 4 with (2 * 2) at 2. apply validate_from_none; auto.
    pose proof (Nat.mul_div_le (List.length (co_code c) - 4 + 1) 2). lia.
  - destruct (List.length (co_code c) - 4 + 1) as [|[|k]] eqn:E; try lia; reflexivity.
Qed.

Lemma blacklist_none : forall names, (forall n, In n names -> ~ In n [lit "exec"; lit "eval"; lit "compile"; lit "__import__"]) ->
  validate_blacklist names = Ok tt.
Proof.
  induction names as [|m names IH]; intros H; cbn [validate_blacklist]; auto.
  destruct (pystr_in m BLACKLIST_RESERVED_KEYWORD) eqn:E.
  - apply pystr_in_In in E. exfalso. apply (H m (or_introl eq_refl)). exact E.
  - apply IH. intros n Hn. apply H. now right.
Qed.

Lemma within_trans : forall c d e, within c d -> within d e -> within c e.
Proof. intros c d e H1 H2. induction H2; auto. eapply within_const; eauto. Qed.

Fixpoint code_size (c : code) : nat :=
  let (_, _, consts) := c in
  S ((fix sum (l : list const) : nat :=
        match l with [] => 0 | k :: r => match k with KCode d => code_size d | _ => 0 end + sum r end) consts).
Lemma code_size_in : forall c d, In (KCode d) (co_consts c) -> code_size d < code_size c.
Proof.
  intros [b n l] d H. cbn in *. apply Nat.lt_succ_r. induction l as [|k l IH]; [contradiction|].
  destruct H as [->|H]; [|specialize (IH H); destruct k; lia]. lia.
Qed.

Lemma harmless_const : forall n c, code_size c < n -> harmless c -> validate_const wl (KCode c) = Ok tt
  /\ validate_import_from_const wl (co_consts c) = Ok tt.
Proof.
  induction n as [|n IH]; intros c L H; [lia|].
  assert (K : validate_import_from_const wl (co_consts c) = Ok tt).
  { assert (Q : forall d, In (KCode d) (co_consts c) -> validate_const wl (KCode d) = Ok tt).
    { intros d Hd. apply IH.
      - pose proof (code_size_in _ _ Hd). lia.
      - intros e We. apply H. eapply within_trans; [|exact We]. eapply within_const; [constructor|exact Hd]. }
    revert Q. generalize (co_consts c). induction l as [|k l IHl]; intros Q; cbn [validate_import_from_const]; auto.
    assert (Hk : validate_const wl k = Ok tt) by (destruct k; auto; apply Q; now left).
    rewrite Hk. cbn [rbind]. apply IHl. intros d Hd. apply Q. now right. }
  split; auto. destruct (H c (within_self c)) as [H1 H2].
  destruct c as [b nm l]. cbn [validate_const]. rewrite (code_none _ H1). cbn [rbind]. rewrite const_loop. cbn in K. rewrite K. cbn [rbind].
  apply blacklist_none. exact H2.
Qed.

Lemma harmless_ok : forall c, harmless c -> validate_module wl c = Ok tt.
Proof.
  intros c H. destruct (H c (within_self c)) as [H1 H2]. unfold validate_module. rewrite (code_none _ H1). cbn [rbind].
  destruct (harmless_const (S (code_size c)) c (Nat.lt_succ_diag_r _) H) as [_ K]. rewrite K. cbn [rbind].
  apply blacklist_none. exact H2.
Qed.

Context (code_of : pystr -> option code) (run_of : pystr -> pyres unit).

Lemma execute_checked : forall package imports w w', check_modules wl code_of run_of package imports w = (Ok tt, w') ->
  forall imp, In imp imports -> exists c, code_of (package ++ DOT :: imp) = Some c /\ validate_module wl c = Ok tt.
Proof.
  induction imports as [|x imports IH]; intros w w' H imp Hi; [contradiction|].
  cbn [check_modules] in H. unfold find_code, mbind, mlift, emit, mret, mraise in H.
  destruct (import_each code_of run_of (parents (package ++ DOT :: x) []) w) as [[[]|?|] w1]; try discriminate.
  destruct (code_of (package ++ DOT :: x)) as [c|] eqn:E; [|discriminate].
  destruct (validate_module wl c) as [[]|?|] eqn:V; try discriminate.
  destruct Hi as [<-|Hi]; eauto.
Qed.

Lemma last_dot_app : forall s i seen t, last_dot (s ++ t) i seen = last_dot t (i + List.length s) (last_dot s i seen).
Proof.
  induction s as [|c s IH]; intros; cbn [app last_dot List.length].
  - now rewrite Nat.add_0_r.
  - rewrite IH. f_equal. lia.
Qed.

Lemma splitext_py : forall stem, forallb (fun c => (c =? 46)%Z) stem = false -> splitext (stem ++ lit ".py") = (stem, lit ".py").
Proof.
  intros stem H. unfold splitext. rewrite last_dot_app.
  change (last_dot (lit ".py") (0 + List.length stem) (last_dot stem 0 None)) with (Some (List.length stem)).
  cbv iota beta.
  rewrite firstn_app, Nat.sub_diag, firstn_all. cbn [firstn]. rewrite app_nil_r. unfold DOT. rewrite H.
  rewrite skipn_app, skipn_all, Nat.sub_diag. reflexivity.
Qed.

Lemma dotted_dirs : forall dirs stem,
  match dirs with [] => stem | _ => dotted dirs ++ DOT :: stem end = concat (map (fun d => d ++ [46%Z]) dirs) ++ stem.
Proof.
  intros dirs stem. destruct dirs as [|d dirs]; [reflexivity|].
  revert d. induction dirs as [|e dirs IH]; intro d; cbn [dotted map concat].
  - rewrite app_nil_r, <- app_assoc. reflexivity.
  - specialize (IH e). cbn [map concat] in IH. rewrite <- !app_assoc in *. cbn [app] in *. f_equal. unfold DOT at 1.
    f_equal. exact IH.
Qed.

Lemma custom_in : forall files f stem, In f files -> f_name f = stem ++ lit ".py" -> forallb (fun c => (c =? 46)%Z) stem = false ->
  In (concat (map (fun d => d ++ [46%Z]) (f_dirs f)) ++ stem) (custom_import_list files).
Proof.
  induction files as [|g files IH]; intros f stem Hi Hn Hd; [contradiction|].
  cbn [custom_import_list]. destruct Hi as [->|Hi].
  - rewrite Hn, (splitext_py _ Hd). rewrite (proj2 (pystr_eqb_eq _ _) eq_refl). cbn [negb]. left. apply dotted_dirs.
  - destruct (splitext (f_name g)) as [a b]. destruct (negb (pystr_eqb b (lit ".py"))); [|right]; eauto.
Qed.

(** Events only grow. *)
Lemma import_one_grows : forall m w r w', import_one code_of run_of m w = (r, w') -> exists l, events w' = events w ++ l.
Proof.
  intros m w r w' H. unfold import_one, mbind, mlift, emit, set_loaded in H.
  destruct (pystr_in m (loaded w)); [inversion H; subst; exists []; now rewrite app_nil_r|].
  destruct (code_of m); [|inversion H; subst; exists []; now rewrite app_nil_r].
  cbn in H. destruct (run_of m); inversion H; subst; cbn; eauto.
Qed.
Lemma import_each_grows : forall l w r w', import_each code_of run_of l w = (r, w') -> exists l, events w' = events w ++ l.
Proof.
  induction l as [|m l IH]; intros w r w' H; cbn [import_each] in H.
  - inversion H; subst. exists []. now rewrite app_nil_r.
  - unfold mbind in H. destruct (import_one code_of run_of m w) as [[?|?|] w1] eqn:E;
      destruct (import_one_grows _ _ _ _ E) as [l1 H1].
    + destruct (IH _ _ _ H) as [l2 H2]. exists (l1 ++ l2). rewrite H2, H1. now rewrite app_assoc.
    + inversion H; subst. eauto.
    + inversion H; subst. eauto.
Qed.
Lemma check_modules_grows : forall p l w r w', check_modules wl code_of run_of p l w = (r, w') -> exists l, events w' = events w ++ l.
Proof.
  induction l as [|m l IH]; intros w r w' H; cbn [check_modules] in H.
  - inversion H; subst. exists []. now rewrite app_nil_r.
  - unfold find_code, mbind, mlift, emit, mret, mraise in H.
    destruct (import_each code_of run_of (parents (p ++ DOT :: m) []) w) as [[?|?|] w1] eqn:E;
      destruct (import_each_grows _ _ _ _ E) as [l1 H1]; try (inversion H; subst; eauto; fail).
    destruct (code_of (p ++ DOT :: m)) as [c|]; [|inversion H; subst; eauto].
    destruct (validate_module wl c) as [?|?|]; try (inversion H; subst; eauto; fail).
    destruct (IH _ _ _ H) as [l2 H2]. cbn in H2. exists (l1 ++ [Checked (p ++ DOT :: m)] ++ l2). rewrite H2, H1. now rewrite !app_assoc.
Qed.

Lemma parents_first : forall p d t, ~ In DOT p -> parents (p ++ DOT :: t) d = (d ++ p) :: parents t (d ++ p ++ [DOT]).
Proof.
  induction p as [|c p IH]; intros d t H; cbn [app parents].
  - rewrite Z.eqb_refl. now rewrite app_nil_r.
  - destruct (Z.eqb_spec c DOT) as [->|N]; [exfalso; apply H; now left|].
    rewrite IH by (intro X; apply H; now right). rewrite <- !app_assoc. reflexivity.
Qed.

Lemma first_event : forall package files w r w' c, execute wl code_of run_of package files w = (r, w') ->
  custom_import_list files <> [] -> ~ In DOT package -> ~ In package (loaded w) -> code_of package = Some c ->
  exists l, events w' = events w ++ Ran package :: l.
Proof.
  intros package files w r w' c H Hne Hd Hl Hc. unfold execute in H.
  destruct (custom_import_list files) as [|m l]; [congruence|]. cbn [check_modules] in H.
  unfold find_code in H. rewrite (parents_first _ _ _ Hd) in H. cbn [import_each app] in H.
  assert (E : exists r1 w1, import_one code_of run_of package w = (r1, w1) /\ events w1 = events w ++ [Ran package]).
  { unfold import_one. destruct (pystr_in package (loaded w)) eqn:P; [apply pystr_in_In in P; contradiction|].
    rewrite Hc. unfold mbind, mlift, emit, set_loaded. cbn. destruct (run_of package); do 2 eexists; split; try reflexivity. }
  destruct E as (r1 & w1 & E1 & E2).
  enough (X : exists l, events w' = events w1 ++ l).
  { destruct X as [l' X]. exists l'. rewrite X, E2, <- app_assoc. reflexivity. }
  unfold mbind, mlift, emit, mret, mraise in H. rewrite E1 in H.
  destruct r1 as [?|?|]; try (inversion H; subst; exists []; now rewrite app_nil_r).
  match type of H with context [import_each code_of run_of ?x w1] => destruct (import_each code_of run_of x w1) as [[?|?|] w2] eqn:E end;
    destruct (import_each_grows _ _ _ _ E) as [l1 H1]; try (inversion H; subst; eauto; fail).
  destruct (code_of (package ++ DOT :: m)) as [d|]; [|inversion H; subst; eauto].
  destruct (validate_module wl d) as [?|?|]; try (inversion H; subst; eauto; fail).
  destruct (check_modules_grows _ _ _ _ _ H) as [l2 H2]. cbn in H2. exists (l1 ++ [Checked (package ++ DOT :: m)] ++ l2).
  rewrite H2, H1. now rewrite !app_assoc.
Qed.

End V.
