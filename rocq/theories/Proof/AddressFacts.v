From Verif Require Import Model.Bytes Model.IntCodec Model.Exn Model.Utf8 Model.Address
  Proof.BytesFacts Proof.IntCodecFacts Proof.Int64Facts.
From Coq Require Import ZifyBool.
Ltac Zify.zify_post_hook ::= Z.div_mod_to_equations.

Lemma hex_value_digit d : 0 <= d < 16 -> hex_value (hex_digit d) = Some d.
Proof.
  intros H. unfold hex_digit, hex_value. destruct (Z.ltb_spec d 10).
  - destruct (Z.leb_spec 48 (48 + d)), (Z.leb_spec (48 + d) 57); try lia. cbn [andb]. f_equal; lia.
  - destruct (Z.leb_spec 48 (87 + d)), (Z.leb_spec (87 + d) 57), (Z.leb_spec 97 (87 + d)),
      (Z.leb_spec (87 + d) 102); try lia. cbn [andb]. f_equal; lia.
Qed.

Lemma hex_digit_lower d : 0 <= d < 16 -> is_lower_hex (hex_digit d) = true.
Proof. intros H. unfold hex_digit, is_lower_hex. destruct (Z.ltb_spec d 10); lia. Qed.

Lemma hex_digit_not_space d : 0 <= d < 16 -> is_ascii_space (hex_digit d) = false.
Proof. intros H. unfold hex_digit, is_ascii_space. destruct (Z.ltb_spec d 10); lia. Qed.

Lemma fromhex_hex bs : wf_bytes bs -> py_fromhex (py_hex bs) = Some bs.
Proof.
  induction 1 as [|b bs Hb _ IH]; [reflexivity|]. red in Hb. cbn [py_hex py_fromhex].
  rewrite hex_digit_not_space, !hex_value_digit, IH by lia. f_equal. f_equal. lia.
Qed.

Lemma hex_lower bs : wf_bytes bs -> forallb is_lower_hex (py_hex bs) = true.
Proof.
  induction 1 as [|b bs Hb _ IH]; [reflexivity|]. red in Hb. cbn [py_hex forallb].
  now rewrite !hex_digit_lower, IH by lia.
Qed.

Lemma hex_length bs : blen (py_hex bs) = 2 * blen bs.
Proof. induction bs as [|b bs IH]; [reflexivity|]. cbn [py_hex]. rewrite !blen_cons, IH. lia. Qed.

Lemma lower_hex_value c : is_lower_hex c = true -> exists d, hex_value c = Some d /\ 0 <= d < 16 /\ hex_digit d = c
   /\ is_ascii_space c = false.
Proof.
  unfold is_lower_hex, hex_value, hex_digit, is_ascii_space. intros H.
  destruct (Z.leb_spec 48 c), (Z.leb_spec c 57); cbn [andb] in *.
  - exists (c - 48). destruct (Z.ltb_spec (c - 48) 10); repeat split; lia.
  - exists (c - 87). destruct (Z.leb_spec 97 c), (Z.leb_spec c 102); try (cbn in H; lia). cbn [andb].
    destruct (Z.ltb_spec (c - 87) 10); repeat split; lia.
  - exists (c - 87). lia.
  - lia.
Qed.

Lemma hex_fromhex_aux n : forall s, (length s <= n)%nat -> forallb is_lower_hex s = true -> Z.even (blen s) = true ->
  exists bs, py_fromhex s = Some bs /\ py_hex bs = s /\ wf_bytes bs.
Proof.
  induction n as [|n IH]; intros s Hn Hl He.
  - destruct s; [|simpl in Hn; lia]. exists []. repeat split. constructor.
  - destruct s as [|c [|d s]].
    + exists []. repeat split. constructor.
    + discriminate He.
    + cbn [forallb] in Hl. apply andb_true_iff in Hl as [Hc Hl]. apply andb_true_iff in Hl as [Hd Hl].
      apply lower_hex_value in Hc as (h & Eh & Rh & Dh & Sh), Hd as (l & El & Rl & Dl & _).
      destruct (IH s) as (bs & E & Eh' & W); auto.
      { simpl in Hn; lia. }
      { rewrite !blen_cons in He. rewrite Z.add_assoc in He. change (1 + 1) with 2 in He.
        rewrite Z.even_add in He. cbn in He. now destruct (Z.even (blen s)). }
      exists (16 * h + l :: bs). cbn [py_fromhex]. rewrite Sh, Eh, El, E. repeat split.
      * cbn [py_hex]. replace ((16 * h + l) / 16) with h by lia. replace ((16 * h + l) mod 16) with l by lia.
        now rewrite Dh, Dl, Eh'.
      * constructor; auto. red; lia.
Qed.

Lemma valid_address_str s : is_icon_address_valid s = true <->
  exists a, wf_address a /\ address_str a = s.
Proof.
  split.
  - unfold is_icon_address_valid. destruct (Z.eqb_spec (blen s) 42) as [L|]; [|discriminate].
    destruct (bytes_eqb (firstn 2 s) str_hx || bytes_eqb (firstn 2 s) str_cx) eqn:P; [|discriminate].
    intros H. pose proof (firstn_skipn 2 s) as FS.
    assert (LB : blen (skipn 2 s) = 40) by (unfold blen in *; rewrite skipn_length; lia).
    assert (HL : forallb is_lower_hex (skipn 2 s) = true).
    { unfold is_lowercase_hex_string in H. destruct (skipn 2 s); auto. }
    destruct (hex_fromhex_aux (length (skipn 2 s)) (skipn 2 s)) as (bs & E & Eh & W); auto.
    { now rewrite LB. }
    assert (B20 : blen bs = 20) by (pose proof (hex_length bs) as HH; rewrite Eh, LB in HH; lia).
    apply orb_true_iff in P. destruct P as [P|P]; apply bytes_eqb_eq in P.
    + exists (mk_address EOA bs). split; [split; auto|]. unfold address_str. cbn [a_prefix a_body].
      now rewrite Eh, <- P.
    + exists (mk_address CONTRACT bs). split; [split; auto|]. unfold address_str. cbn [a_prefix a_body].
      now rewrite Eh, <- P.
  - intros (a & [L W] & <-). unfold address_str, is_icon_address_valid.
    assert (LH : blen (py_hex (a_body a)) = 40) by (rewrite hex_length; lia).
    assert (HS : is_lowercase_hex_string (py_hex (a_body a)) = true).
    { unfold is_lowercase_hex_string. pose proof (hex_lower _ W) as HW.
      destruct (py_hex (a_body a)); auto. discriminate LH. }
    destruct (a_prefix a); unfold str_hx, str_cx; cbn [app]; rewrite !blen_cons, LH; cbn [firstn skipn];
      rewrite HS; reflexivity.
Qed.

Lemma new_address_ok p body : blen body = 20 -> new_address p body = Ok (mk_address p body).
Proof. intros L. unfold new_address, ADDRESS_BODY_SIZE. now rewrite L. Qed.

Lemma address_str_roundtrip a : wf_address a -> address_from_string (address_str a) = Ok a.
Proof.
  intros H. assert (V : is_icon_address_valid (address_str a) = true) by (apply valid_address_str; eauto).
  destruct H as [L W]. unfold address_from_string. rewrite V. unfold address_str.
  destruct a as [p body]; cbn [a_prefix a_body] in *.
  destruct p; unfold str_hx, str_cx; cbn [app firstn skipn];
    [change (prefix_from_string _) with (@Ok exn address_prefix EOA)
    |change (prefix_from_string _) with (@Ok exn address_prefix CONTRACT)];
    cbn [res_bind]; rewrite fromhex_hex by auto; now apply new_address_ok.
Qed.

Lemma address_from_string_ok s a : address_from_string s = Ok a <-> wf_address a /\ address_str a = s.
Proof.
  split.
  - intros H. assert (V : is_icon_address_valid s = true).
    { unfold address_from_string in H. destruct (is_icon_address_valid s); auto. discriminate. }
    apply valid_address_str in V as (a' & W & <-). rewrite address_str_roundtrip in H by auto.
    inversion H; subst; auto.
  - intros (W & <-). now apply address_str_roundtrip.
Qed.

Lemma address_from_string_err s : is_icon_address_valid s = false ->
  address_from_string s = Exc (EIcon InvalidParams).
Proof. unfold address_from_string. now intros ->. Qed.

Lemma address_from_string_rejects s : (forall a, wf_address a -> address_str a <> s) ->
  address_from_string s = Exc (EIcon InvalidParams).
Proof.
  intros H. apply address_from_string_err. destruct (is_icon_address_valid s) eqn:V; auto.
  apply valid_address_str in V as (a & W & E). exfalso. exact (H a W E).
Qed.

Lemma address_bytes_roundtrip a : wf_address a -> address_from_bytes (address_to_bytes a) = Ok (Some a).
Proof.
  intros [L W]. destruct a as [p body]; cbn [a_body] in *. unfold address_from_bytes, address_to_bytes.
  cbn [a_prefix a_body]. rewrite blen_cons, L. change (1 + 20 =? 20) with false. change (1 + 20 =? 21) with true.
  cbn [orb negb]. destruct p; cbn [prefix_byte]; rewrite new_address_ok by auto; reflexivity.
Qed.

Lemma address_to_bytes_inj a b : address_to_bytes a = address_to_bytes b -> a = b.
Proof.
  destruct a as [[] x], b as [[] y]; unfold address_to_bytes; cbn; intros E; inversion E; congruence.
Qed.

Lemma address_str_inj a b : wf_address a -> wf_address b -> address_str a = address_str b -> a = b.
Proof.
  intros Ha Hb E. apply address_str_roundtrip in Ha, Hb. rewrite E in Ha. congruence.
Qed.

Lemma address_from_bytes_spec buf : wf_bytes buf ->
  match address_from_bytes buf with
  | Ok (Some a) => wf_address a /\ (address_to_bytes a = buf \/ (a_prefix a = EOA /\ a_body a = buf))
  | Ok None => blen buf <> 20 /\ blen buf <> 21
  | Exc e => e = EPy KValueError /\ blen buf = 21 /\ (forall a, address_to_bytes a <> buf)
  | Stuck => False
  end.
Proof.
  intros W. unfold address_from_bytes. destruct (Z.eqb_spec (blen buf) 20) as [L|L].
  - cbn [orb negb]. rewrite new_address_ok by auto. cbn [res_bind].
    split; [split; auto|]. right; auto.
  - destruct (Z.eqb_spec (blen buf) 21) as [L1|L1]; cbn [orb negb]; [|auto].
    destruct buf as [|b r]; [cbn in L1; lia|]. rewrite blen_cons in L1.
    apply wf_bytes_cons in W as [Wb W]. assert (L2 : blen r = 20) by lia.
    assert (forall a, address_to_bytes a = b :: r -> b = 0 \/ b = 1).
    { intros [[] x]; unfold address_to_bytes; cbn; intros E; inversion E; auto. }
    rewrite !new_address_ok by auto. unfold wf_byte in Wb.
    destruct b as [|p|p]; [|destruct p|]; cbn [res_bind];
     try (split; [split; auto|left; reflexivity]);
     try (split; [reflexivity|split; [now rewrite blen_cons; lia|intros a Ha; apply H in Ha; lia]]).
Qed.

Lemma from_prefix_and_int_spec p num :
  match address_from_prefix_and_int p num with
  | Ok a => a_prefix a = p /\ wf_address a /\
            (0 <= num -> be_val (a_body a) = num)
  | Exc e => e = EIcon InvalidParams /\ (num < - 2 ^ 159 \/ 2 ^ 159 <= num)
  | Stuck => False
  end.
Proof.
  unfold address_from_prefix_and_int. rewrite int_to_bytes_ok.
  pose proof (byte_length_spec num) as (H1 & H2 & H3). set (n := byte_length_of_int num) in *.
  rewrite blen_be_bytes, Z2Nat.id by lia. destruct (Z.ltb_spec (20 - n) 0).
  - split; auto. assert (2 ^ 159 <= 2 ^ (8 * (n - 1) - 1)) by (apply Z.pow_le_mono_r; lia). destruct H3; lia.
  - assert (L : blen (repeat 0 (Z.to_nat (20 - n)) ++ be_bytes (Z.to_nat n) num) = 20).
    { rewrite blen_app, blen_be_bytes. unfold blen. rewrite repeat_length. lia. }
    rewrite new_address_ok by auto. cbn [a_prefix a_body]. split; [auto|].
    split.
    + split; auto. cbn [a_body]. apply wf_bytes_app; split; [|apply be_bytes_wf].
      apply Forall_forall. intros x Hx. apply repeat_spec in Hx; subst; red; lia.
    + intros Hp. assert (B : 0 <= num < 256 ^ Z.of_nat (Z.to_nat n)).
      { split; auto. rewrite Z2Nat.id, pow256_2 by lia.
        apply Z.lt_trans with (2 ^ (8 * n - 1)); [lia|]. apply Z.pow_lt_mono_r; lia. }
      rewrite be_bytes_pad, be_val_be_bytes by auto. rewrite Z.mod_small; auto. split; auto.
      apply Z.lt_le_trans with (1 := proj2 B). apply Z.pow_le_mono_r; lia.
Qed.
