From Verif Require Import Model.Bytes Model.Utf8 Model.Exn Model.Typed Model.ScoreClass Model.ScoreApi Spec.ClassSpec.

Lemma str_eqb_eq a b : str_eqb a b = true <-> a = b.
Proof.
  revert b. induction a as [|x a IH]; intros [|y b]; cbn; try (split; congruence).
  rewrite andb_true_iff, Z.eqb_eq, IH. split; [intros [-> ->]; reflexivity|intros [= -> ->]; auto].
Qed.
Lemma str_eqb_refl a : str_eqb a a = true.
Proof. apply str_eqb_eq. reflexivity. Qed.
Lemma str_eqb_neq a b : a <> b -> str_eqb a b = false.
Proof. intros H. destruct (str_eqb a b) eqn:E; [|reflexivity]. apply str_eqb_eq in E. contradiction. Qed.

Definition sub_flags (a b : Z) : Prop := Z.land a b = a.
Lemma sub_refl a : sub_flags a a.
Proof. apply Z.land_diag. Qed.
Lemma sub_trans a b c : sub_flags a b -> sub_flags b c -> sub_flags a c.
Proof. unfold sub_flags. intros H K. rewrite <- H at 1. rewrite <- Z.land_assoc, K. exact H. Qed.
Lemma sub_lor a b : sub_flags a (Z.lor b a).
Proof. unfold sub_flags. apply Z.bits_inj'. intros n _. rewrite Z.land_spec, Z.lor_spec. destruct (Z.testbit a n), (Z.testbit b n); reflexivity. Qed.

Definition same_code (f f' : func) : Prop :=
  fn_name f' = fn_name f /\ fn_params f' = fn_params f /\ fn_ret f' = fn_ret f /\ fn_abstract f' = fn_abstract f.

(** The flags a decorator adds. *)
Definition dec_bits (fallback : bool) (d : decorator) : Z :=
  match d with
  | DExternal ro => if ro then 3 else 2
  | DPayable => if fallback then 12 else 4
  | DIsolated => 16
  | DInterface => 512
  | DEventlog _ => 256
  end.
Definition dec_key (d : decorator) : Z :=
  match d with DExternal _ => EXTERNAL | DPayable => PAYABLE | DIsolated => ISOLATED | DInterface => INTERFACE | DEventlog _ => EVENTLOG end.
Lemma decorate_spec d f f' : decorate d f = Ok f' ->
  same_code f f' /\ fn_flags f' = Z.lor (dec_bits (str_eqb (fn_name f) STR_FALLBACK) d) (fn_flags f) /\
  any_flag_on (fn_flags f) (dec_key d) = false /\
  (match d with DExternal _ => str_eqb (fn_name f) STR_FALLBACK = false | _ => True end) /\
  fn_indexed f' = match d with DEventlog n => Some n | _ => fn_indexed f end.
Proof.
  destruct d as [ro| | | |n]; cbn [decorate dec_bits dec_key].
  - destruct (str_eqb (fn_name f) STR_FALLBACK); [discriminate|]. destruct (any_flag_on _ _); [discriminate|].
    intros [= <-]. destruct ro; repeat split; reflexivity.
  - destruct (any_flag_on _ _); [discriminate|]. intros [= <-]. destruct (str_eqb _ _); repeat split; reflexivity.
  - destruct (any_flag_on _ _); [discriminate|]. intros [= <-]. repeat split; reflexivity.
  - destruct (any_flag_on _ _); [discriminate|]. intros [= <-]. repeat split; reflexivity.
  - destruct (fn_params f) as [|p ps]; [discriminate|]. destruct (negb _); [discriminate|]. destruct (3 <? n); [discriminate|].
    destruct (_ <? n); [discriminate|]. destruct (any_flag_on _ _); [discriminate|].
    destruct (event_signature f); cbn; try discriminate. intros [= <-]. repeat split; reflexivity.
Qed.
Lemma decorate_event n f f' : decorate (DEventlog n) f = Ok f' -> n <= 3 /\ n <= Z.of_nat (length (tl (fn_params f))) /\
  (exists p ps, fn_params f = p :: ps /\ pa_name p = STR_SELF) /\ exists sig, event_signature f = Ok sig.
Proof.
  cbn [decorate]. destruct (fn_params f) as [|p ps] eqn:P; [discriminate|].
  destruct (str_eqb (pa_name p) STR_SELF) eqn:S; [|discriminate]. cbn [negb]. destruct (Z.ltb_spec 3 n); [discriminate|].
  destruct (Z.ltb_spec (Z.of_nat (length ps)) n); [discriminate|]. destruct (any_flag_on _ _); [discriminate|].
  destruct (event_signature f) as [sig| |]; cbn; try discriminate. intros _. apply str_eqb_eq in S.
  split; [lia|]. split; [cbn [tl]; lia|]. split; eauto.
Qed.

Lemma fold_exc ds (e : exn) : fold_left (fun r d => res_bind r (decorate d)) ds (Exc e) = Exc e.
Proof. induction ds; cbn; auto. Qed.
Lemma fold_stuck ds : fold_left (fun r d => res_bind r (decorate d)) ds (@Stuck exn func) = Stuck.
Proof. induction ds; cbn; auto. Qed.
Lemma decorate_all_cons d ds f f' : decorate_all (d :: ds) f = Ok f' -> exists g, decorate d f = Ok g /\ decorate_all ds g = Ok f'.
Proof.
  unfold decorate_all. cbn. destruct (decorate d f) as [g|e|]; [eauto| |]; intros H; exfalso.
  - rewrite fold_exc in H. discriminate.
  - rewrite fold_stuck in H. discriminate.
Qed.
Lemma decorate_all_keeps ds : forall f f', decorate_all ds f = Ok f' -> same_code f f' /\ sub_flags (fn_flags f) (fn_flags f').
Proof.
  induction ds as [|d ds IH]; intros f f' H.
  - injection H as <-. split; [repeat split|apply sub_refl].
  - apply decorate_all_cons in H. destruct H as (g & Hd & H). apply decorate_spec in Hd. destruct Hd as ((N & P & R & A) & F & _).
    apply IH in H. destruct H as ((N' & P' & R' & A') & S). split; [repeat split; congruence|].
    eapply sub_trans; [|exact S]. rewrite F. apply sub_lor.
Qed.

(** Accepted flags. *)
Lemma verify_ok fl : verify_score_flag fl = Ok tt -> In fl [2; 6; 3; 12; 256; 512; 4].
Proof.
  unfold verify_score_flag. destruct (existsb _ _) eqn:E.
  - intros _. apply existsb_exists in E. destruct E as (x & Hin & Hx). apply Z.eqb_eq in Hx. subst x. cbn in Hin. cbn. intuition.
  - destruct (fl =? PAYABLE) eqn:P; [|discriminate]. apply Z.eqb_eq in P. intros _. rewrite P. cbn. intuition.
Qed.
Definition usable (fl : Z) : Prop := Z.land fl 511 = 0 \/ In fl [2; 6; 3; 12; 256; 512; 4].

Lemma three_kinds v fl : sub_flags v fl -> usable fl -> Z.land v 511 <> 0 ->
  (forall x, In x [2; 6; 3; 12; 256; 512; 4] -> Z.land v x <> v) -> False.
Proof.
  intros S [U|U] N H.
  - apply N. unfold sub_flags in S. rewrite <- S, <- Z.land_assoc, U. apply Z.land_0_r.
  - eapply H; eauto.
Qed.

Ltac spec_dec H := apply decorate_spec in H; let S := fresh "S" in let F := fresh "F" in let A := fresh "A" in let X := fresh "X" in
  destruct H as ((S & _ & _ & _) & F & A & X & _).
Lemma allowed ds g f : fn_flags g = 0 -> decorate_all ds g = Ok f -> usable (fn_flags f) -> allowed_decorators ds.
Proof.
  intros G0 H U. destruct ds as [|d1 ds]; [constructor|].
  apply decorate_all_cons in H. destruct H as (f1 & H1 & H). spec_dec H1. rewrite G0, Z.lor_0_r in F.
  destruct ds as [|d2 ds].
  { injection H as <-. destruct d1 as [ro| | | |n]; try constructor. exfalso.
    rewrite F in U. destruct U as [U|U]; cbn in U; [discriminate|intuition lia]. }
  apply decorate_all_cons in H. destruct H as (f2 & H2 & H). spec_dec H2. rewrite S in F0, X0.
  destruct ds as [|d3 ds].
  { injection H as <-. rewrite F in A0, F0. rewrite F0 in U. clear F F0.
    destruct (str_eqb (fn_name g) STR_FALLBACK); destruct d1 as [[]| | | |], d2 as [[]| | | |]; try discriminate; try constructor; exfalso;
      destruct U as [U|U]; cbn in U; try discriminate; intuition lia. }
  apply decorate_all_cons in H. destruct H as (f3 & H3 & H). spec_dec H3. rewrite S0, S in F1, X1.
  apply decorate_all_keeps in H. destruct H as [_ H]. exfalso. rewrite F in A0, F0. rewrite F0 in A1, F1. rewrite F1 in H. clear - A0 A1 X X0 X1 H U.
  apply (three_kinds _ _ H U); clear H U.
  - destruct (str_eqb (fn_name g) STR_FALLBACK); destruct d1 as [[]| | | |], d2 as [[]| | | |], d3 as [[]| | | |]; try discriminate.
  - destruct (str_eqb (fn_name g) STR_FALLBACK); destruct d1 as [[]| | | |], d2 as [[]| | | |], d3 as [[]| | | |]; try discriminate;
      cbn [In]; intros x Hx; intuition (subst; discriminate).
Qed.

(** Flags of a declared, usable function. *)
Lemma declared_flags f : declared f -> usable (fn_flags f) ->
  In (fn_flags f) [0; 2; 6; 3; 12; 256; 512; 4] /\
  (fn_flags f = 12 -> fn_name f = STR_FALLBACK) /\ (fn_flags f = 4 -> fn_name f <> STR_FALLBACK) /\
  (Z.land (fn_flags f) EXTERNAL <> 0 -> fn_name f <> STR_FALLBACK) /\
  (fn_flags f = 256 -> exists n, fn_indexed f = Some n /\ n <= 3 /\ n <= Z.of_nat (length (own_params f))).
Proof.
  intros (ds & g & G0 & GI & H) U. pose proof (allowed ds g f G0 H U) as A.
  assert (NF : forall s, str_eqb (fn_name g) s = false -> fn_name g <> s) by (intros s E Q; rewrite Q, str_eqb_refl in E; discriminate).
  destruct A; repeat (apply decorate_all_cons in H; let g' := fresh "g" in let D := fresh "D" in destruct H as (g' & D & H)); injection H as <-.
  - rewrite G0. repeat split; cbn; intuition (try discriminate).
  - spec_dec D. assert (E : fn_flags g0 = if ro then 3 else 2) by (rewrite F, G0; destruct ro; reflexivity). rewrite E, S.
    split; [destruct ro; cbn; intuition|]. split; [destruct ro; discriminate|]. split; [destruct ro; discriminate|].
    split; [auto|destruct ro; discriminate].
  - spec_dec D. spec_dec D0. assert (E : fn_flags g1 = 6) by (rewrite F0, F, S, X, G0; reflexivity).
    rewrite E, S0, S. cbn. repeat split; auto; intuition (try discriminate).
  - spec_dec D. spec_dec D0. assert (E : fn_flags g1 = 6) by (rewrite S in X0; rewrite F0, F, X0, G0; reflexivity).
    rewrite S in X0. rewrite E, S0, S. cbn. repeat split; auto; intuition (try discriminate).
  - spec_dec D. rewrite F, G0, Z.lor_0_r, S. cbn [dec_bits]. destruct (str_eqb (fn_name g) STR_FALLBACK) eqn:E; cbn; repeat split; auto; try discriminate; try tauto.
    intros _. apply str_eqb_eq; auto.
  - pose proof (decorate_event _ _ _ D) as (L1 & L2 & (p & ps & P & PS) & _). apply decorate_spec in D. destruct D as ((S & SP & _ & _) & F & _ & _ & I).
    assert (E : fn_flags g0 = 256) by (rewrite F, G0; reflexivity). rewrite E. cbn.
    repeat split; auto; try discriminate; try tauto.
    intros _. exists n. split; [exact I|]. split; [exact L1|]. unfold own_params. rewrite SP, P, PS, str_eqb_refl. rewrite P in L2. exact L2.
  - spec_dec D. assert (E : fn_flags g0 = 512) by (rewrite F, G0; reflexivity). rewrite E. cbn. repeat split; auto; try discriminate; try tauto.
Qed.
