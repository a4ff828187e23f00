From Verif Require Import Model.Bytes Model.Utf8 Proof.BytesFacts.
From Coq Require Import ZifyBool.
Ltac Zify.zify_post_hook ::= Z.div_mod_to_equations.

Lemma enc1_some c : scalar c = true <-> exists b, utf8_enc1 c = Some b.
Proof.
  unfold utf8_enc1. destruct (scalar c); cbn [negb].
  - split; auto. intros _. destruct (c <? 128), (c <? 2048), (c <? 65536); eauto.
  - split; [discriminate|]. intros [b H]; discriminate.
Qed.

Lemma dec1_enc1 c b r : utf8_enc1 c = Some b -> utf8_dec1 (b ++ r) = Some (c, r).
Proof.
  unfold utf8_enc1. destruct (scalar c) eqn:S; cbn [negb]; [|discriminate].
  unfold scalar in S.
  destruct (Z.ltb_spec c 128); [|destruct (Z.ltb_spec c 2048); [|destruct (Z.ltb_spec c 65536)]];
    intros E; apply some_inj in E; subst b; cbn [app utf8_dec1].
  - repeat match goal with |- context [?a <? ?b] => destruct (Z.ltb_spec a b); try lia end. reflexivity.
  - unfold is_cont.
    repeat match goal with |- context [?a <? ?b] => destruct (Z.ltb_spec a b); try lia
     | |- context [?a <=? ?b] => destruct (Z.leb_spec a b); try lia end. cbn [andb]. f_equal. f_equal. lia.
  - unfold is_cont.
    destruct (Z.ltb_spec (224 + c / 4096) 0); [lia|].
    destruct (Z.ltb_spec (224 + c / 4096) 128); [lia|].
    destruct (Z.ltb_spec (224 + c / 4096) 194); [lia|].
    destruct (Z.ltb_spec (224 + c / 4096) 224); [lia|].
    destruct (Z.ltb_spec (224 + c / 4096) 240); [|lia].
    match goal with |- (if ?b then _ else _) = _ => assert (Hb : b = true) end.
    { destruct (Z.eqb_spec (224 + c / 4096) 224), (Z.eqb_spec (224 + c / 4096) 237); lia. }
    rewrite Hb. f_equal. f_equal. lia.
  - unfold is_cont.
    destruct (Z.ltb_spec (240 + c / 262144) 0); [lia|].
    destruct (Z.ltb_spec (240 + c / 262144) 128); [lia|].
    destruct (Z.ltb_spec (240 + c / 262144) 194); [lia|].
    destruct (Z.ltb_spec (240 + c / 262144) 224); [lia|].
    destruct (Z.ltb_spec (240 + c / 262144) 240); [lia|].
    destruct (Z.ltb_spec (240 + c / 262144) 245); [|lia].
    match goal with |- (if ?b then _ else _) = _ => assert (Hb : b = true) end.
    { destruct (Z.eqb_spec (240 + c / 262144) 240), (Z.eqb_spec (240 + c / 262144) 244); lia. }
    rewrite Hb. f_equal. f_equal. lia.
Qed.

Ltac ifs H := repeat match type of H with
  | (if ?b then _ else _) = _ => destruct b eqn:?; try discriminate
  | match ?l with [] => _ | _ => _ end = _ => destruct l; try discriminate
  end.

Lemma enc1_dec1 bs c r : utf8_dec1 bs = Some (c, r) -> exists b, utf8_enc1 c = Some b /\ bs = b ++ r.
Proof.
  unfold utf8_dec1. intros H. ifs H; apply some_inj in H; apply pair_equal_spec in H; destruct H as [<- <-].
  - exists [z]. split; auto. unfold utf8_enc1, scalar.
    destruct (negb _) eqn:E; [lia|]. now rewrite Heqb0.
  - unfold is_cont in *.
    exists [z; z0]. split; auto. unfold utf8_enc1, scalar.
    destruct (negb _) eqn:E; [lia|].
    repeat match goal with |- context [?a <? ?b] => destruct (Z.ltb_spec a b); try lia end.
    do 3 f_equal; [lia|f_equal; lia].
  - unfold is_cont in *. exists [z; z0; z1]. split; auto. unfold utf8_enc1, scalar.
    assert (B : 2048 <= (z - 224) * 4096 + (z0 - 128) * 64 + (z1 - 128) < 65536
        /\ ~ (55296 <= (z - 224) * 4096 + (z0 - 128) * 64 + (z1 - 128) < 57344)).
    { destruct (Z.eqb_spec z 224), (Z.eqb_spec z 237); lia. }
    assert (B0 : 128 <= z0 < 192) by (destruct (Z.eqb_spec z 224), (Z.eqb_spec z 237); lia).
    destruct (negb _) eqn:E; [lia|].
    repeat match goal with |- context [?a <? ?b] => destruct (Z.ltb_spec a b); try lia end.
    do 2 f_equal; [lia|]. f_equal; [lia|]. f_equal; lia.
  - unfold is_cont in *. exists [z; z0; z1; z2]. split; auto. unfold utf8_enc1, scalar.
    assert (B : 65536 <= (z - 240) * 262144 + (z0 - 128) * 4096 + (z1 - 128) * 64 + (z2 - 128) < 1114112).
    { destruct (Z.eqb_spec z 240), (Z.eqb_spec z 244); lia. }
    assert (B0 : 128 <= z0 < 192) by (destruct (Z.eqb_spec z 240), (Z.eqb_spec z 244); lia).
    destruct (negb _) eqn:E; [lia|].
    repeat match goal with |- context [?a <? ?b] => destruct (Z.ltb_spec a b); try lia end.
    do 2 f_equal; [lia|]. f_equal; [lia|]. f_equal; [lia|]. f_equal; lia.
Qed.

Lemma enc1_len c b : utf8_enc1 c = Some b -> b <> [] /\ wf_bytes b.
Proof.
  unfold utf8_enc1. destruct (scalar c) eqn:S; cbn [negb]; [|discriminate]. unfold scalar in S.
  destruct (Z.ltb_spec c 128); [|destruct (Z.ltb_spec c 2048); [|destruct (Z.ltb_spec c 65536)]];
    intros E; apply some_inj in E; subst b; (split; [discriminate|]);
    repeat constructor; unfold wf_byte; lia.
Qed.

Lemma decode_f_encode s : forall bs fuel, utf8_encode s = Some bs -> (length bs <= fuel)%nat ->
  utf8_decode_f fuel bs = Some s.
Proof.
  induction s as [|c s IH]; intros bs fuel H Hf; cbn [utf8_encode] in H.
  - inversion H; subst. destruct fuel; reflexivity.
  - destruct (utf8_enc1 c) as [a|] eqn:Ea; [|discriminate].
    destruct (utf8_encode s) as [b|] eqn:Eb; [|discriminate]. inversion H; subst bs; clear H.
    destruct (enc1_len _ _ Ea) as [Hne _]. destruct a as [|x a]; [congruence|].
    rewrite app_length in Hf. simpl in Hf. destruct fuel as [|fuel]; [lia|].
    cbn [app utf8_decode_f]. change (x :: a ++ b) with ((x :: a) ++ b). rewrite (dec1_enc1 _ _ _ Ea).
    rewrite (IH b fuel eq_refl) by lia. reflexivity.
Qed.

Lemma decode_encode s bs : utf8_encode s = Some bs -> utf8_decode bs = Some s.
Proof. intros H. eapply decode_f_encode; eauto. Qed.

Lemma encode_decode_f fuel : forall bs s, utf8_decode_f fuel bs = Some s -> utf8_encode s = Some bs.
Proof.
  induction fuel as [|f IH]; intros bs s H; destruct bs as [|x bs]; cbn [utf8_decode_f] in H;
    try discriminate; try (inversion H; subst; reflexivity).
  destruct (utf8_dec1 (x :: bs)) as [[c r]|] eqn:E; [|discriminate].
  destruct (utf8_decode_f f r) as [s'|] eqn:E'; [|discriminate]. inversion H; subst s; clear H.
  destruct (enc1_dec1 _ _ _ E) as (b & Eb & Hb). cbn [utf8_encode]. rewrite Eb, (IH _ _ E'). now rewrite Hb.
Qed.

Lemma encode_decode bs s : utf8_decode bs = Some s -> utf8_encode s = Some bs.
Proof. apply encode_decode_f. Qed.

Lemma encode_valid s : valid_str s <-> exists bs, utf8_encode s = Some bs.
Proof.
  induction s as [|c s IH]; cbn [utf8_encode].
  - split; [eauto|intros; constructor].
  - split.
    + intros H; inversion H; subst. apply enc1_some in H2 as [a ->]. apply IH in H3 as [b ->]. eauto.
    + intros [bs H]. destruct (utf8_enc1 c) eqn:Ec; [|discriminate].
      destruct (utf8_encode s) eqn:Es; [|discriminate]. constructor; [apply enc1_some; eauto|apply IH; eauto].
Qed.

Lemma encode_wf s bs : utf8_encode s = Some bs -> wf_bytes bs.
Proof.
  revert bs; induction s as [|c s IH]; intros bs H; cbn [utf8_encode] in H.
  - inversion H; constructor.
  - destruct (utf8_enc1 c) eqn:Ec; [|discriminate]. destruct (utf8_encode s) eqn:Es; [|discriminate].
    inversion H; subst. apply wf_bytes_app. split; [eapply enc1_len; eauto | auto].
Qed.

Lemma encode_inj s t bs : utf8_encode s = Some bs -> utf8_encode t = Some bs -> s = t.
Proof. intros H1 H2. apply decode_encode in H1, H2. congruence. Qed.

Lemma encode_nil s : utf8_encode s = Some [] -> s = [].
Proof.
  destruct s as [|c s]; auto. cbn [utf8_encode].
  destruct (utf8_enc1 c) eqn:Ec; [|discriminate]. destruct (utf8_encode s) eqn:Es; [|discriminate].
  intros H; inversion H. destruct (enc1_len _ _ Ec) as [Hne _]. apply app_eq_nil in H1 as [? _]; contradiction.
Qed.
