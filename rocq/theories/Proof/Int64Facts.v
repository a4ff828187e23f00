From Verif Require Import Model.Bytes Model.IntCodec Spec.TwosComplement Proof.BytesFacts Proof.IntCodecFacts.
From Coq Require Import ZifyBool.
Ltac Zify.zify_post_hook ::= Z.div_mod_to_equations.

Lemma byte_length_unique v n : 1 <= n -> - 2 ^ (8 * n - 1) <= v < 2 ^ (8 * n - 1) ->
  (2 <= n -> v < - 2 ^ (8 * (n - 1) - 1) \/ 2 ^ (8 * (n - 1) - 1) <= v) -> n = byte_length_of_int v.
Proof.
  intros H1 H2 H3. pose proof (byte_length_spec v) as (K1 & K2 & K3).
  set (m := byte_length_of_int v) in *. clearbody m.
  destruct (Z.lt_trichotomy n m) as [L|[L|L]]; auto; exfalso.
  - assert (2 ^ (8 * n - 1) <= 2 ^ (8 * (m - 1) - 1)) by (apply Z.pow_le_mono_r; lia).
    destruct K3; lia.
  - assert (2 ^ (8 * m - 1) <= 2 ^ (8 * (n - 1) - 1)) by (apply Z.pow_le_mono_r; lia).
    destruct H3; lia.
Qed.

Lemma byte_length_small v : -128 <= v < 128 -> byte_length_of_int v = 1.
Proof. intros H. symmetry. apply byte_length_unique; try lia; change (2 ^ (8 * 1 - 1)) with 128; lia. Qed.

Lemma byte_length_step v : ~ (-128 <= v < 128) ->
  byte_length_of_int v = 1 + byte_length_of_int (v / 256).
Proof.
  intros H. symmetry. pose proof (byte_length_spec (v / 256)) as (K1 & K2 & K3).
  set (m := byte_length_of_int (v / 256)) in *. clearbody m.
  assert (E : 2 ^ (8 * (1 + m) - 1) = 256 * 2 ^ (8 * m - 1)).
  { change 256 with (2 ^ 8). rewrite <- Z.pow_add_r by lia. f_equal; lia. }
  apply byte_length_unique; [lia|rewrite E; lia|]. intros _.
  replace (8 * (1 + m - 1) - 1) with (8 * m - 1) by lia.
  destruct (Z.eq_dec m 1) as [->|Hm]; [change (2 ^ (8 * 1 - 1)) with 128; lia|].
  assert (E' : 2 ^ (8 * m - 1) = 256 * 2 ^ (8 * (m - 1) - 1)).
  { change 256 with (2 ^ 8). rewrite <- Z.pow_add_r by lia. f_equal; lia. }
  rewrite E'. destruct K3; lia.
Qed.

Definition enc (v : Z) : bytes := be_bytes (Z.to_nat (byte_length_of_int v)) v.

Lemma enc_small v : -128 <= v < 128 -> enc v = [v mod 256].
Proof. intros H. unfold enc. rewrite byte_length_small by auto. reflexivity. Qed.

Lemma enc_step v : ~ (-128 <= v < 128) -> enc v = enc (v / 256) ++ [v mod 256].
Proof.
  intros H. unfold enc. rewrite byte_length_step by auto.
  pose proof (byte_length_spec (v / 256)) as (K1 & _).
  rewrite Z2Nat.inj_add by lia. reflexivity.
Qed.

Lemma land255 v : Z.land v 255 = v mod 256.
Proof. change 255 with (Z.ones 8). now rewrite Z.land_ones by lia. Qed.

Lemma land_m128 v : Z.land v (-128) = 128 * (v / 128).
Proof.
  replace (-128) with (Z.lnot (Z.ones 7)) by reflexivity.
  rewrite <- Z.ldiff_land, Z.ldiff_ones_r by lia. rewrite Z.shiftl_mul_pow2, Z.shiftr_div_pow2 by lia.
  change (2 ^ 7) with 128. lia.
Qed.

Lemma i64_loop_ok f : forall v acc, - 2 ^ (8 * Z.of_nat f - 1) <= v < 2 ^ (8 * Z.of_nat f - 1) -> (1 <= f)%nat ->
  go_i64_loop f v (if v <? 0 then -128 else 0) acc = enc v ++ acc.
Proof.
  induction f as [|f IH]; intros v acc Hv Hf; [lia|]. cbn [go_i64_loop].
  rewrite land255, land_m128, Z.shiftr_div_pow2 by lia. change (2 ^ 8) with 256.
  destruct (Z.eqb_spec (128 * (v / 128)) (if v <? 0 then -128 else 0)) as [E|E].
  - assert (-128 <= v < 128) by (destruct (Z.ltb_spec v 0); lia).
    rewrite enc_small by auto. reflexivity.
  - assert (N : ~ (-128 <= v < 128)) by (destruct (Z.ltb_spec v 0); lia).
    rewrite (enc_step v) by auto. rewrite <- app_assoc. cbn [app].
    replace (if v <? 0 then -128 else 0) with (if v / 256 <? 0 then -128 else 0)
      by (destruct (Z.ltb_spec v 0), (Z.ltb_spec (v / 256) 0); lia).
    destruct f as [|f'].
    { exfalso. apply N. change (2 ^ (8 * Z.of_nat 1 - 1)) with 128 in Hv. lia. }
    apply IH; [|lia].
    assert (P : 2 ^ (8 * Z.of_nat (S (S f')) - 1) = 256 * 2 ^ (8 * Z.of_nat (S f') - 1)).
    { change 256 with (2 ^ 8). rewrite <- Z.pow_add_r by lia. f_equal; lia. }
    rewrite P in Hv. lia.
Qed.

Lemma Int64ToBytes_ok v : - 2 ^ 63 <= v < 2 ^ 63 -> int_to_bytes v = Some (go_Int64ToBytes v).
Proof.
  intros H. rewrite int_to_bytes_ok. f_equal. unfold go_Int64ToBytes.
  destruct (Z.eqb_spec v 0) as [->|_]; [reflexivity|].
  rewrite i64_loop_ok by (try lia; exact H). now rewrite app_nil_r.
Qed.

Lemma land128_mod v : (Z.land (v mod 256) 128 =? 0) = (v mod 256 <? 128).
Proof.
  assert (W : wf_byte (v mod 256)) by (red; lia).
  pose proof (land128 _ W). destruct (Z.land (v mod 256) 128 =? 0); cbn in H; lia.
Qed.

Lemma u64_loop_ok f : forall v acc, 0 <= v < 2 ^ (8 * Z.of_nat f - 8) -> (1 <= f)%nat ->
  go_u64_loop f v acc = enc v ++ acc.
Proof.
  induction f as [|f IH]; intros v acc Hv Hf; [lia|]. cbn [go_u64_loop].
  rewrite land255, land128_mod, Z.shiftr_div_pow2 by lia. change (2 ^ 8) with 256.
  destruct (Z.eqb_spec (v / 256) 0), (Z.ltb_spec (v mod 256) 128); cbn [andb].
  - rewrite enc_small by lia. reflexivity.
  - rewrite (enc_step v) by lia. rewrite <- app_assoc. cbn [app].
    destruct f as [|f'].
    { exfalso. change (2 ^ (8 * Z.of_nat 1 - 8)) with 1 in Hv. lia. }
    apply IH; [|lia]. assert (0 < 2 ^ (8 * Z.of_nat (S f') - 8)) by (apply Z.pow_pos_nonneg; lia). lia.
  - rewrite (enc_step v) by lia. rewrite <- app_assoc. cbn [app].
    destruct f as [|f'].
    { exfalso. change (2 ^ (8 * Z.of_nat 1 - 8)) with 1 in Hv. lia. }
    apply IH; [|lia].
    assert (P : 2 ^ (8 * Z.of_nat (S (S f')) - 8) = 256 * 2 ^ (8 * Z.of_nat (S f') - 8)).
    { change 256 with (2 ^ 8). rewrite <- Z.pow_add_r by lia. f_equal; lia. }
    rewrite P in Hv. lia.
  - rewrite (enc_step v) by lia. rewrite <- app_assoc. cbn [app].
    destruct f as [|f'].
    { exfalso. change (2 ^ (8 * Z.of_nat 1 - 8)) with 1 in Hv. lia. }
    apply IH; [|lia].
    assert (P : 2 ^ (8 * Z.of_nat (S (S f')) - 8) = 256 * 2 ^ (8 * Z.of_nat (S f') - 8)).
    { change 256 with (2 ^ 8). rewrite <- Z.pow_add_r by lia. f_equal; lia. }
    rewrite P in Hv. lia.
Qed.

Lemma Uint64ToBytes_ok v : 0 <= v < 2 ^ 64 -> int_to_bytes v = Some (go_Uint64ToBytes v).
Proof.
  intros H. rewrite int_to_bytes_ok. f_equal. unfold go_Uint64ToBytes.
  destruct (Z.eqb_spec v 0) as [->|_]; [reflexivity|].
  rewrite u64_loop_ok by (try lia; exact H). now rewrite app_nil_r.
Qed.

(** Decoders. *)
Lemma lor_shift v b : wf_byte b -> Z.lor (Z.shiftl v 8) b = v * 256 + b.
Proof.
  intros Hb. red in Hb. rewrite Z.shiftl_mul_pow2 by lia. change (2 ^ 8) with 256.
  rewrite Z.lor_comm, (Z.add_comm (v * 256)).
  rewrite Z.add_nocarry_lxor; [symmetry; apply Z.lxor_lor|].
  all: apply Z.bits_inj'; intros n Hn; rewrite Z.land_spec, Z.bits_0;
    change 256 with (2 ^ 8); rewrite Z.mul_pow2_bits by lia;
    destruct (Z.ltb_spec n 8);
    [rewrite (Z.testbit_neg_r v) by lia; apply andb_false_r
    |replace (Z.testbit b n) with false; [reflexivity|]; symmetry;
     apply Z.bits_above_log2; [lia|]; destruct (Z.eq_dec b 0) as [->|];
      [simpl; lia|apply Z.lt_le_trans with 8; [apply Z.log2_lt_pow2; simpl; lia|lia]]].
Qed.

Lemma lxor255 b : wf_byte b -> Z.lxor b 255 = 255 - b.
Proof.
  intros Hb. red in Hb.
  assert (F : forallb (fun b => Z.lxor b 255 =? 255 - b) (map Z.of_nat (seq 0 256)) = true)
    by (vm_compute; reflexivity).
  rewrite forallb_forall in F. apply Z.eqb_eq, F. apply in_map_iff. exists (Z.to_nat b).
  split; [lia|]. apply in_seq. lia.
Qed.

Lemma wrap64_id v : - 2 ^ 63 <= v < 2 ^ 63 -> wrap64 v = v.
Proof. intros. unfold wrap64. rewrite Z.mod_small; lia. Qed.
Lemma wrapu64_id v : 0 <= v < 2 ^ 64 -> wrapu64 v = v.
Proof. intros. unfold wrapu64. rewrite Z.mod_small; lia. Qed.

Lemma fold_pos_gen M (wrap : Z -> Z) (g : Z -> Z) bs : (forall v, 0 <= v < M -> wrap v = v) ->
  Forall (fun b => wf_byte (g b)) bs ->
  forall a, 0 <= a -> a * 256 ^ blen bs + be_val (map g bs) < M ->
  fold_left (fun v b => wrap (Z.lor (Z.shiftl v 8) (g b))) bs a = a * 256 ^ blen bs + be_val (map g bs).
Proof.
  intros Hw. induction bs as [|b bs IH]; intros Hf a Ha Hl.
  - cbn. lia.
  - inversion Hf as [|? ? Hb Hf']; subst. cbn [fold_left map].
    cbn [map] in Hl. rewrite be_val_cons in Hl |- *.
    assert (EL : blen (map g bs) = blen bs) by (unfold blen; now rewrite map_length).
    rewrite EL in *. rewrite blen_cons in *.
    pose proof (blen_nonneg bs) as H0. rewrite Z.pow_add_r in * by lia. change (256 ^ 1) with 256 in *.
    pose proof (pow256_pos (blen bs) H0) as Hp.
    assert (Hv : 0 <= be_val (map g bs)).
    { apply be_val_bound. apply Forall_map. exact Hf'. }
    rewrite lor_shift by auto. red in Hb. rewrite Hw; [|nia].
    rewrite IH; [ring| |nia|nia]. exact Hf'.
Qed.

Lemma map_id_bytes (bs : bytes) : map (fun b => b) bs = bs.
Proof. apply map_id. Qed.

Lemma be_val_compl bs : be_val (map (fun b => 255 - b) bs) = 256 ^ blen bs - 1 - be_val bs.
Proof.
  induction bs as [|b bs IH]; [reflexivity|]. cbn [map]. rewrite !be_val_cons, IH.
  replace (blen (map (fun b0 => 255 - b0) bs)) with (blen bs) by (unfold blen; now rewrite map_length).
  rewrite blen_cons, Z.pow_add_r by (pose proof (blen_nonneg bs); lia). change (256 ^ 1) with 256. ring.
Qed.

Lemma SafeBytesToInt64_ok bs : wf_bytes bs -> blen bs <= 8 -> go_SafeBytesToInt64 bs = Some (bytes_to_int bs).
Proof.
  intros H Hl. destruct bs as [|b bs']; [reflexivity|].
  unfold go_SafeBytesToInt64. rewrite (proj2 (Z.ltb_ge 8 _)) by lia.
  pose proof H as H'. apply wf_bytes_cons in H' as [Hb _]. rewrite land128 by auto.
  pose proof (bytes_to_int_range (b :: bs') H ltac:(congruence)) as R.
  unfold bytes_to_int, py_from_bytes_signed in *. pose proof (be_val_bound _ H) as Hv.
  pose proof (blen_nonneg (b :: bs')) as H0.
  set (l := b :: bs') in *.
  assert (P : 2 ^ (8 * blen l - 1) <= 2 ^ 63) by (apply Z.pow_le_mono_r; lia).
  destruct (Z.leb_spec 128 b).
  - f_equal. assert (EX : forall v, 0 <= v < 2 ^ 63 -> wrap64 v = v) by (intros; apply wrap64_id; lia).
    erewrite (fold_pos_gen (2 ^ 63) wrap64 (fun b => Z.lxor b 255)); auto.
    + assert (EM : map (fun b0 => Z.lxor b0 255) l = map (fun b0 => 255 - b0) l).
      { apply map_ext_in. intros x Hx. apply lxor255. red in H. rewrite Forall_forall in H. auto. }
      rewrite EM, be_val_compl. rewrite wrap64_id by lia. lia.
    + eapply Forall_impl; [|exact H]. intros x Hx. rewrite lxor255 by auto. unfold wf_byte in *; lia.
    + lia.
    + assert (EM : map (fun b0 => Z.lxor b0 255) l = map (fun b0 => 255 - b0) l).
      { apply map_ext_in. intros x Hx. apply lxor255. red in H. rewrite Forall_forall in H. auto. }
      rewrite EM, be_val_compl. lia.
  - f_equal. assert (EX : forall v, 0 <= v < 2 ^ 63 -> wrap64 v = v) by (intros; apply wrap64_id; lia).
    pose proof (fold_pos_gen (2 ^ 63) wrap64 (fun b => b) l EX) as F. rewrite map_id_bytes in F.
    rewrite F; auto; lia.
Qed.

Lemma SafeBytesToInt64_long bs : 8 < blen bs -> go_SafeBytesToInt64 bs = None.
Proof.
  intros H. destruct bs as [|b bs']; [cbn in H; lia|]. unfold go_SafeBytesToInt64.
  now rewrite (proj2 (Z.ltb_lt 8 _)) by lia.
Qed.

Lemma SafeBytesToUint64_ok bs : wf_bytes bs ->
  match go_SafeBytesToUint64 bs with
  | Some v => v = bytes_to_int bs /\ 0 <= v < 2 ^ 64
  | None => bs <> [] /\ (bytes_to_int bs < 0 \/ 8 < blen bs)
  end.
Proof.
  intros H. destruct bs as [|b bs']; [cbn; lia|].
  pose proof H as H'. apply wf_bytes_cons in H' as [Hb Hr].
  pose proof (be_val_bound _ H) as Hv. pose proof (be_val_bound _ Hr) as Hv'.
  pose proof (blen_nonneg bs') as H0.
  assert (EX : forall v, 0 <= v < 2 ^ 64 -> wrapu64 v = v) by (intros; apply wrapu64_id; lia).
  unfold go_SafeBytesToUint64, bytes_to_int, py_from_bytes_signed. rewrite land128 by auto.
  destruct (Z.eqb_spec b 0) as [->|Hbz].
  - cbn [Z.leb Z.compare]. assert (E0 : be_val (0 :: bs') = be_val bs') by (rewrite be_val_cons; lia).
    rewrite E0. destruct (Z.ltb_spec 8 (blen bs')).
    + split; [congruence|]. right. rewrite blen_cons; lia.
    + pose proof (fold_pos_gen (2 ^ 64) wrapu64 (fun b => b) bs' EX) as F. rewrite map_id_bytes in F.
      assert (256 ^ blen bs' <= 2 ^ 64) by (rewrite pow256_2 by lia; apply Z.pow_le_mono_r; lia).
      rewrite F; auto; lia.
  - destruct (Z.leb_spec 128 b).
    + split; [congruence|]. left. lia.
    + destruct (Z.ltb_spec 8 (blen (b :: bs'))); [split; [congruence|right; lia]|].
      pose proof (fold_pos_gen (2 ^ 64) wrapu64 (fun b => b) (b :: bs') EX) as F. rewrite map_id_bytes in F.
      assert (256 ^ blen (b :: bs') <= 2 ^ 64).
      { rewrite pow256_2 by (rewrite blen_cons; lia). apply Z.pow_le_mono_r; lia. }
      rewrite F; auto; lia.
Qed.
