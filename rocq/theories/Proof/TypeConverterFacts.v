From Verif Require Import Model.Bytes Model.Utf8 Model.Exn Model.Address Model.Typed Model.ScoreClass Model.TypeConverter
  Proof.BytesFacts Proof.AddressFacts Proof.TypedFacts.
From Verif Require Import Spec.ParamSpec.
Local Ltac Zify.zify_post_hook ::= Z.div_mod_to_equations.

Definition lower_hex (c : Z) : Prop := 48 <= c <= 57 \/ 97 <= c <= 102.
Lemma hex_digit_lower d : 0 <= d < 16 -> lower_hex (hex_digit d).
Proof. unfold lower_hex, hex_digit. intros. destruct (d <? 10) eqn:E; lia. Qed.
Lemma hex_digits_lower k : forall n, Forall lower_hex (hex_digits k n).
Proof.
  induction k as [|k IH]; intros n; cbn [hex_digits]; [constructor|]. apply Forall_app. split; [apply IH|].
  constructor; [|constructor]. apply hex_digit_lower. apply Z.mod_pos_bound. lia.
Qed.
Lemma digit_value_hex d : 0 <= d < 16 -> digit_value (hex_digit d) = Some d.
Proof.
  intros H. unfold digit_value, hex_digit. destruct (d <? 10) eqn:E.
  - replace ((48 <=? 48 + d) && (48 + d <=? 57)) with true by lia. f_equal; lia.
  - replace ((48 <=? 87 + d) && (87 + d <=? 57)) with false by lia.
    replace ((97 <=? 87 + d) && (87 + d <=? 122)) with true by lia. f_equal; lia.
Qed.
Lemma parse_hex k : forall n acc aft t,
  parse_digits 16 acc aft (hex_digits k n ++ t) =
  parse_digits 16 (acc * 16 ^ Z.of_nat k + n mod 16 ^ Z.of_nat k) (aft || negb (Nat.eqb k 0)) t.
Proof.
  induction k as [|k IH]; intros n acc aft t.
  - cbn [hex_digits app]. change (16 ^ Z.of_nat 0) with 1. rewrite Z.mod_1_r, Z.mul_1_r, Z.add_0_r. cbn. rewrite orb_false_r. reflexivity.
  - cbn [hex_digits]. rewrite <- app_assoc. rewrite IH. cbn [app parse_digits].
    pose proof (Z.mod_pos_bound n 16 ltac:(lia)) as B.
    assert (hex_digit (n mod 16) <> 95) by (destruct (hex_digit_lower _ B); lia).
    replace (hex_digit (n mod 16) =? 95) with false by lia.
    rewrite (digit_value_hex _ B). replace (n mod 16 <? 16) with true by lia.
    cbn [Nat.eqb negb]. rewrite orb_true_r. f_equal.
    replace (Z.of_nat (S k)) with (Z.of_nat k + 1) by lia. rewrite Z.pow_add_r by lia. change (16 ^ 1) with 16.
    set (p := 16 ^ Z.of_nat k). assert (0 < p) by (unfold p; apply Z.pow_pos_nonneg; lia).
    rewrite (Z.mul_comm p 16). rewrite (Z.rem_mul_r n 16 p) by lia. ring.
Qed.
Lemma hex_count_bound n : 0 <= n -> n < 16 ^ Z.of_nat (hex_count n) /\ (0 < hex_count n)%nat.
Proof.
  intros H. unfold hex_count. pose proof (Z.log2_nonneg n). split; [|lia].
  rewrite Z2Nat.id by lia. change 16 with (2 ^ 4). rewrite <- Z.pow_mul_r by lia.
  destruct (Z.eq_dec n 0) as [->|N]; [cbn; lia|].
  destruct (Z.log2_spec n ltac:(lia)) as [_ L]. eapply Z.lt_le_trans; [exact L|]. apply Z.pow_le_mono_r; lia.
Qed.

(** Text without white space at its ends. *)
Lemma space_lower c : lower_hex c -> is_ascii_space c = false.
Proof. unfold lower_hex, is_ascii_space. lia. Qed.
Lemma strip_left_id c s : is_ascii_space c = false -> strip_left (c :: s) = c :: s.
Proof. cbn. intros ->. reflexivity. Qed.
Lemma strip_id c s d : is_ascii_space c = false -> is_ascii_space d = false -> strip (c :: s ++ [d]) = c :: s ++ [d].
Proof.
  intros H1 H2. unfold strip. rewrite strip_left_id by exact H1. rewrite app_comm_cons, rev_app_distr. cbn [rev app].
  rewrite strip_left_id by exact H2.
  change (d :: rev s ++ [c]) with ([d] ++ (rev s ++ [c])). rewrite rev_app_distr. rewrite rev_app_distr, rev_involutive. reflexivity.
Qed.

Section WithUnicode.
Context (uni : Z -> Z).

Lemma to_ascii_id s : Forall (fun c => c < 127) s -> to_ascii uni s = s.
Proof. unfold to_ascii. induction 1 as [|c s H _ IH]; cbn; [reflexivity|]. rewrite IH. replace (c <? 127) with true by lia. reflexivity. Qed.

Lemma hexint_shape n : exists c s d, py_hex_int n = c :: s ++ [d] /\ is_ascii_space c = false /\ is_ascii_space d = false.
Proof.
  unfold py_hex_int. destruct (hex_count_bound (Z.abs n) ltac:(lia)) as [_ K].
  destruct (hex_count (Z.abs n)) as [|k]; [lia|]. cbn [hex_digits].
  set (x := hex_digit _). assert (is_ascii_space x = false) by (apply space_lower, hex_digit_lower, Z.mod_pos_bound; lia).
  destruct (n <? 0); cbn [app].
  - exists 45, (48 :: 120 :: hex_digits k (Z.abs n / 16)), x. auto.
  - exists 48, (120 :: hex_digits k (Z.abs n / 16)), x. auto.
Qed.
Lemma lower_head k n : (0 < k)%nat -> exists c r, hex_digits k n = c :: r /\ lower_hex c.
Proof.
  intros K. pose proof (hex_digits_lower k n) as F. destruct (hex_digits k n) as [|c r] eqn:E.
  - destruct k; [lia|]. cbn in E. destruct (hex_digits k (n / 16)); discriminate.
  - inversion F; subst. eauto.
Qed.

Lemma int_of_hexint n : py_int_of uni 16 (py_hex_int n) = Some n.
Proof.
  unfold py_int_of. rewrite to_ascii_id.
  2:{ unfold py_hex_int. apply Forall_app. split; [destruct (n <? 0); repeat constructor; lia|].
      apply Forall_app. split; [repeat constructor; lia|]. eapply Forall_impl; [|apply hex_digits_lower]. intros c [?|?]; lia. }
  destruct (hexint_shape n) as (c & s & d & E & H1 & H2). assert (St : strip (py_hex_int n) = py_hex_int n) by (rewrite E; apply strip_id; assumption).
  rewrite St. clear E St. unfold py_hex_int. destruct (hex_count_bound (Z.abs n) ltac:(lia)) as [B K].
  assert (P : parse_digits 16 0 false (after_prefix 16 ([48; 120] ++ hex_digits (hex_count (Z.abs n)) (Z.abs n))) = Some (Z.abs n)).
  { destruct (lower_head _ (Z.abs n) K) as (x & r & E & L). unfold after_prefix. cbn [app]. change (16 =? 16) with true.
    change ((120 =? 120) || (120 =? 88)) with true. cbv iota.
    assert (Hx : (match hex_digits (hex_count (Z.abs n)) (Z.abs n) with 95 :: r' => r' | _ => hex_digits (hex_count (Z.abs n)) (Z.abs n) end) = hex_digits (hex_count (Z.abs n)) (Z.abs n)).
    { rewrite E. destruct (Z.eq_dec x 95) as [->|N]; [destruct L; lia|].
      destruct x as [|p|p]; [reflexivity| |reflexivity]. repeat (destruct p as [p|p|]; try reflexivity; try (exfalso; apply N; reflexivity)). }
    rewrite Hx. rewrite <- (app_nil_r (hex_digits _ _)). rewrite parse_hex.
    destruct (hex_count (Z.abs n)) as [|k]; [lia|]. cbn [Nat.eqb negb orb parse_digits].
    rewrite Z.mod_small by lia. reflexivity. }
  destruct (n <? 0) eqn:Sg; cbn [app].
  - change (48 :: 120 :: hex_digits (hex_count (Z.abs n)) (Z.abs n)) with ([48; 120] ++ hex_digits (hex_count (Z.abs n)) (Z.abs n)).
    rewrite P. cbn. f_equal. lia.
  - change (48 :: 120 :: hex_digits (hex_count (Z.abs n)) (Z.abs n)) with ([48; 120] ++ hex_digits (hex_count (Z.abs n)) (Z.abs n)).
    rewrite P. f_equal. lia.
Qed.
Lemma hexint_prefix n : starts_with (py_hex_int n) s_0x || starts_with (py_hex_int n) s_m0x = true.
Proof. unfold py_hex_int. destruct (n <? 0); reflexivity. Qed.
Lemma convert_int n : convert_value_int uni (VStr (py_hex_int n)) = Ok n.
Proof. unfold convert_value_int. rewrite hexint_prefix, int_of_hexint. reflexivity. Qed.
Lemma convert_bool (b : bool) : convert_value_bool uni (VStr (py_hex_int (if b then 1 else 0))) = Ok b.
Proof. unfold convert_value_bool. rewrite convert_int. destruct b; reflexivity. Qed.

Lemma hex_no_prefix bs : wf_bytes bs -> starts_with (py_hex bs) s_0x = false.
Proof.
  intros W. unfold starts_with. destruct bs as [|b r]; [reflexivity|]. inversion W as [|? ? W1 _]; subst. red in W1.
  cbn [py_hex length s_0x firstn]. set (x := hex_digit (b / 16)). set (y := hex_digit (b mod 16)).
  assert (lower_hex y) by (apply hex_digit_lower, Z.mod_pos_bound; lia).
  destruct (bytes_eqb [x; y] [48; 120]) eqn:E; [|exact E]. apply bytes_eqb_eq in E. injection E as _ E. destruct H; lia.
Qed.
Lemma convert_bytes bs h : wf_bytes bs -> convert_value_bytes (VStr (convert_bytes_reverse bs h)) = Ok bs.
Proof.
  intros W. unfold convert_value_bytes, convert_bytes_reverse. destruct h.
  - rewrite hex_no_prefix by exact W. rewrite fromhex_hex by exact W. reflexivity.
  - change (starts_with (s_0x ++ py_hex bs) s_0x) with true. cbv iota. change (skipn 2 (s_0x ++ py_hex bs)) with (py_hex bs).
    rewrite fromhex_hex by exact W. reflexivity.
Qed.

(** ** Parameters *)
Definition rev_entry (kv : dkey * pyval) : dkey * pyval :=
  match kv with
  | (k, VBytes bs) => (k, VStr (convert_bytes_reverse bs (is_hash_key k)))
  | (k, x) => (k, convert_type_reverse x)
  end.
Lemma reverse_dict d : convert_type_reverse (VDict d) = VDict (map rev_entry d).
Proof. reflexivity. Qed.

Lemma rev_fits k b v : fits b v -> exists s, rev_entry (k, v) = (k, VStr s) /\ convert_data_value uni (Some b) (VStr s) = Ok v.
Proof.
  destruct b, v; cbn [fits]; intros F; try contradiction; cbn [rev_entry convert_type_reverse]; eexists; (split; [reflexivity|]); cbn [convert_data_value].
  - rewrite convert_bool. reflexivity.
  - rewrite convert_int. reflexivity.
  - reflexivity.
  - rewrite convert_bytes by exact F. reflexivity.
  - cbn [convert_value_address]. rewrite address_str_roundtrip by exact F. reflexivity.
Qed.
Lemma scalar_roundtrip b v : fits b v -> convert_data_value uni (Some b) (convert_type_reverse v) = Ok v.
Proof.
  destruct b, v; cbn [fits]; intros F; try contradiction; cbn [convert_type_reverse convert_data_value].
  - rewrite convert_bool. reflexivity.
  - rewrite convert_int. reflexivity.
  - reflexivity.
  - rewrite convert_bytes by exact F. reflexivity.
  - cbn [convert_value_address]. rewrite address_str_roundtrip by exact F. reflexivity.
Qed.

(** Between the two forms: the keys of the annotations still to come have the text form, the others the value. *)
Definition mixed (ann : list (pystr * hint)) (kv kv' : dkey * pyval) : Prop :=
  fst kv' = fst kv /\
  ((exists k, fst kv = DKStr k /\ In k (map fst ann) /\ snd kv <> VNone /\ kv' = rev_entry kv) \/
   ((forall k, fst kv = DKStr k -> In k (map fst ann) -> snd kv = VNone) /\ kv' = kv)).
Lemma mixed_get ann kw kw' key : Forall2 (mixed ann) kw kw' ->
  (dict_get key kw' = VNone /\ forall v, In (DKStr key, v) kw -> NoDup (map fst kw) -> v = VNone \/ ~ In key (map fst ann)) \/
  (exists v, In (DKStr key, v) kw /\ dict_get key kw' = snd (rev_entry (DKStr key, v)) /\ v <> VNone) \/
  ~ In key (map fst ann).
Proof.
  induction 1 as [|[k v] [k' v'] kw kw' (E & M) _ IH]; cbn [dict_get].
  - left. split; [reflexivity|]. intros v [].
  - cbn [fst snd] in *. subst k'. destruct k as [k|].
    + destruct (bytes_eqb key k) eqn:Ek.
      * apply bytes_eqb_eq in Ek. subst k. destruct M as [(k & Ek & Hin & N & X)|[M X]].
        { right. left. exists v. split; [left; reflexivity|]. rewrite <- X. split; [reflexivity|exact N]. }
        { injection X as ->. destruct (in_dec (list_eq_dec Z.eq_dec) key (map fst ann)) as [J|J]; [|auto].
          rewrite (M key eq_refl J) in *. left. split; [reflexivity|]. intros v0 [Y|Y] Nd; [injection Y as ->; auto|].
          exfalso. inversion Nd as [|? ? Nd1 _]; subst. apply Nd1. apply (in_map fst) in Y. exact Y. }
      * assert (key <> k) by (intros ->; rewrite bytes_eqb_refl in Ek; discriminate).
        destruct IH as [(G & IH)|[(v0 & I0 & G & N)|J]]; [left|right; left|right; right; exact J].
        { split; [exact G|]. intros v0 [Y|Y] Nd; [injection Y as Y _; congruence|]. inversion Nd; subst. auto. }
        { exists v0. split; [right; exact I0|auto]. }
    + destruct IH as [(G & IH)|[(v0 & I0 & G & N)|J]]; [left|right; left|right; right; exact J].
      { split; [exact G|]. intros v0 [Y|Y] Nd; [discriminate|]. inversion Nd; subst. auto. }
      { exists v0. split; [right; exact I0|auto]. }
Qed.
Lemma mixed_set ann key h v kw kw' : ~ In key (map fst ann) -> NoDup (map fst kw) -> Forall2 (mixed ((key, h) :: ann)) kw kw' ->
  In (DKStr key, v) kw -> Forall2 (mixed ann) kw (dict_set key v kw').
Proof.
  intros Hk Nd F. induction F as [|[k u] [k' u'] kw kw' (E & M) F IH]; intros J; [destruct J|].
  cbn [fst snd] in *. subst k'. inversion Nd as [|? ? Nd1 Nd2]; subst.
  assert (Rest : ~ In (DKStr key) (map fst kw) -> Forall2 (mixed ann) kw kw').
  { intros Nk. clear -F Nk Hk. induction F as [|[k u] [k' u'] kw kw' (E & M) F IH]; constructor.
    - cbn [fst snd map In] in *. split; [exact E|]. destruct M as [(q & Q1 & Q2 & Q3 & Q4)|[M X]]; [left; exists q|right].
      + cbn [map fst In] in Q2. destruct Q2 as [<-|Q2]; [exfalso; apply Nk; left; exact Q1|auto].
      + cbn [fst snd] in *. split; [|exact X]. intros q Q1 Q2. apply (M q Q1). right. exact Q2.
    - apply IH. cbn in Nk. tauto. }
  destruct k as [k|]; cbn [dict_set].
  - destruct (bytes_eqb key k) eqn:Ek.
    + apply bytes_eqb_eq in Ek. subst k. destruct J as [J|J].
      * injection J as ->. constructor; [|apply Rest; exact Nd1]. split; [reflexivity|]. right. cbn [fst snd]. split; [|reflexivity].
        intros k X Y. injection X as <-. contradiction.
      * exfalso. apply Nd1. apply (in_map fst) in J. exact J.
    + assert (key <> k) by (intros ->; rewrite bytes_eqb_refl in Ek; discriminate).
      destruct J as [J|J]; [injection J as J _; congruence|]. constructor; [|auto].
      split; [reflexivity|]. cbn [fst snd]. destruct M as [(q & Q1 & Q2 & Q3 & Q4)|[M X]]; [left; exists q|right].
      * cbn [map fst In] in Q2. destruct Q2 as [<-|Q2]; [congruence|auto].
      * split; [|exact X]. intros q Q1 Q2. apply (M q Q1). right. exact Q2.
  - destruct J as [J|J]; [discriminate|]. constructor; [|auto]. split; [reflexivity|]. cbn [fst snd].
    destruct M as [(q & Q1 & _)|[M X]]; [discriminate|]. right. split; [|exact X]. intros q Q1. discriminate.
Qed.
Lemma mixed_skip ann key h kw kw' : Forall2 (mixed ((key, h) :: ann)) kw kw' ->
  (forall v, In (DKStr key, v) kw -> v = VNone) -> Forall2 (mixed ann) kw kw'.
Proof.
  induction 1 as [|[k u] [k' u'] kw kw' (E & M) F IH]; intros J; constructor.
  - split; [exact E|]. cbn [fst snd] in *. destruct M as [(q & Q1 & Q2 & Q3 & Q4)|[M X]]; [left; exists q|right].
    + cbn [map fst In] in Q2. destruct Q2 as [<-|Q2]; [|auto]. exfalso. apply Q3. apply J. left. rewrite Q1. reflexivity.
    + split; [|exact X]. intros q Q1 Q2. apply (M q Q1). right. exact Q2.
  - apply IH. intros v I1. apply J. right. exact I1.
Qed.
Lemma params_roundtrip_mixed ann : forall kw kw', NoDup (map fst ann) -> NoDup (map fst kw) ->
  Forall (fun k => k <> s_self /\ k <> s_cls) (map fst ann) ->
  (forall k v h, In (DKStr k, v) kw -> In (k, h) ann -> v = VNone \/ exists b, main_type h = Some b /\ fits b v) ->
  Forall2 (mixed ann) kw kw' -> convert_data_params uni ann kw' = Ok kw.
Proof.
  induction ann as [|[key h] ann IH]; intros kw kw' Na Nd Ns Ty F; cbn [convert_data_params].
  - f_equal. clear -F. induction F as [|[k u] [k' u'] kw kw' (E & M) F IH]; [reflexivity|].
    destruct M as [(q & _ & [] & _)|[_ X]]. congruence.
  - cbn [map fst] in Na, Ns. inversion Na as [|? ? Na1 Na2]; subst. inversion Ns as [|? ? [Ns1 Ns2] Ns3]; subst.
    destruct (bytes_eqb key s_self) eqn:E1; [apply bytes_eqb_eq in E1; contradiction|].
    destruct (bytes_eqb key s_cls) eqn:E2; [apply bytes_eqb_eq in E2; contradiction|]. cbn [orb].
    assert (Ty' : forall k v h0, In (DKStr k, v) kw -> In (k, h0) ann -> v = VNone \/ exists b, main_type h0 = Some b /\ fits b v).
    { intros k v h0 I1 I2. apply (Ty k v h0 I1). right. exact I2. }
    destruct (mixed_get _ _ _ key F) as [(G & X)|[(v & I1 & G & N)|J]].
    + rewrite G. apply IH; auto. eapply mixed_skip; [exact F|]. intros v I1. destruct (X v I1 Nd) as [V|V]; [exact V|].
      exfalso. apply V. left. reflexivity.
    + destruct (Ty key v h I1 (or_introl eq_refl)) as [V|(b & B & Fb)]; [contradiction|].
      destruct (rev_fits (DKStr key) b v Fb) as (s & R & C). rewrite G, R, B. cbn [snd]. rewrite C. cbn [res_bind].
      apply IH; auto. eapply mixed_set; eauto.
    + exfalso. apply J. left. reflexivity.
Qed.
Lemma params_roundtrip ann kw : NoDup (map fst ann) -> NoDup (map fst kw) ->
  Forall (fun k => k <> s_self /\ k <> s_cls) (map fst ann) ->
  (forall k v, In (k, v) kw -> v = VNone \/
     exists key, k = DKStr key /\
      ((exists h b, In (key, h) ann /\ main_type h = Some b /\ fits b v) \/ (~ In key (map fst ann) /\ exists s, v = VStr s))) ->
  exists d, convert_type_reverse (VDict kw) = VDict d /\ convert_data_params uni ann d = Ok kw.
Proof.
  intros Na Nd Ns Ty. exists (map rev_entry kw). split; [apply reverse_dict|]. apply params_roundtrip_mixed; auto.
  - intros k v h I1 I2. destruct (Ty _ _ I1) as [V|(key & K & [(h' & b & I3 & B & Fb)|(J & _)])]; [auto| |].
    + injection K as <-. right. exists b. split; [|exact Fb].
      assert (h' = h); [|congruence]. clear -Na I2 I3. induction ann as [|[q g] ann IH]; [destruct I2|].
      cbn [map fst] in Na. inversion Na as [|? ? N1 N2]; subst. destruct I2 as [X|X], I3 as [Y|Y].
      * congruence.
      * injection X as -> _. exfalso. apply N1. apply (in_map fst) in Y. exact Y.
      * injection Y as -> _. exfalso. apply N1. apply (in_map fst) in X. exact X.
      * auto.
    + injection K as <-. exfalso. apply J. apply (in_map fst) in I2. exact I2.
  - clear Nd. induction kw as [|[k v] kw IH]; constructor.
    + split; [destruct v; reflexivity|]. destruct (Ty k v (or_introl eq_refl)) as [V|(key & K & [(h & b & I3 & B & Fb)|(J & s & V)])].
      * right. subst v. split; [auto|reflexivity].
      * left. exists key. split; [exact K|]. split; [apply (in_map fst) in I3; exact I3|]. split; [|reflexivity].
        cbn [snd]. intros ->. destruct b; exact Fb.
      * right. subst. cbn [fst snd rev_entry convert_type_reverse]. split; [|reflexivity]. intros q X Y. injection X as <-. contradiction.
    + apply IH. intros. apply Ty. right. assumption.
Qed.
End WithUnicode.
