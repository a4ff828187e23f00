From Verif Require Import Model.Bytes Model.IntCodec Model.DbKey Spec.Slots Proof.BytesFacts Proof.IntCodecFacts Proof.Int64Facts.
From Coq Require Import ZifyBool.
Ltac Zify.zify_post_hook ::= Z.div_mod_to_equations.

Lemma py_int_div256_exact x : 0 <= x < 2 ^ 53 -> py_int_div256 x = x / 256.
Proof.
  intros H. unfold py_int_div256, float_round.
  assert (Z.log2 x <= 52).
  { destruct (Z.eq_dec x 0) as [->|]; [simpl; lia|]. apply Z.lt_succ_r, Z.log2_lt_pow2; simpl; lia. }
  destruct (Z.leb_spec (Z.log2 x - 52) 0); [reflexivity|lia].
Qed.

Lemma rlp_get_bytes_spec fuel : forall x k, 0 <= x < 2 ^ 53 -> x < 256 ^ Z.of_nat k -> (k <= fuel)%nat ->
  let r := rlp_get_bytes_f fuel x in
  wf_bytes r /\ be_val r = x /\ (length r <= k)%nat /\ (x <> 0 -> nth 0 r 0 <> 0 /\ 256 ^ (blen r - 1) <= x).
Proof.
  induction fuel as [|f IH]; intros x k Hx Hk Hf.
  - assert (k = 0%nat) by lia. subst k. simpl (256 ^ _) in Hk. assert (x = 0) by lia. subst.
    cbn. repeat split; try lia. constructor.
  - cbn [rlp_get_bytes_f]. destruct (Z.eqb_spec x 0) as [->|Hn].
    + cbn. repeat split; try lia. constructor.
    + rewrite py_int_div256_exact by lia.
      destruct k as [|k]; [simpl (256 ^ _) in Hk; lia|].
      assert (P : 256 ^ Z.of_nat (S k) = 256 * 256 ^ Z.of_nat k).
      { rewrite Nat2Z.inj_succ, Z.pow_succ_r by lia. reflexivity. }
      destruct (IH (x / 256) k) as (H1 & H2 & H3 & H4); try lia.
      set (r := rlp_get_bytes_f f (x / 256)) in *. cbn zeta in *.
      repeat split.
      * apply wf_bytes_app; split; auto. constructor; [red; lia|constructor].
      * rewrite be_val_snoc, H2. lia.
      * rewrite app_length; simpl; lia.
      * destruct (Z.eq_dec (x / 256) 0) as [E|E].
        -- assert (r = []) by (unfold r; rewrite E; destruct f; reflexivity).
           rewrite H0. simpl. lia.
        -- destruct r as [|y r']; [rewrite be_val_nil in H2; lia|]. simpl. apply H4; auto.
      * blens. destruct (Z.eq_dec (x / 256) 0) as [E|E].
        -- assert (r = []) by (unfold r; rewrite E; destruct f; reflexivity).
           rewrite H0. cbn. lia.
        -- destruct (H4 E) as [_ H5]. 
           assert (1 <= blen r) by (destruct r; [rewrite be_val_nil in H2; lia | blens; pose proof (blen_nonneg r); lia]).
           replace (blen r + (1 + 0) - 1) with (1 + (blen r - 1)) by lia.
           rewrite Z.pow_add_r by lia. change (256 ^ 1) with 256. lia.
Qed.

Lemma len_bytes_spec n : 56 <= n < 2 ^ 53 -> let r := rlp_get_bytes n in
  wf_bytes r /\ be_val r = n /\ 1 <= blen r <= 7 /\ nth 0 r 0 <> 0 /\ 256 ^ (blen r - 1) <= n < 256 ^ blen r.
Proof.
  intros H r. destruct (rlp_get_bytes_spec 128 n 7) as (H1 & H2 & H3 & H4); try lia.
  fold (rlp_get_bytes n) in *. fold r in H1, H2, H3, H4. destruct H4 as [H4 H5]; [lia|].
  pose proof (be_val_bound _ H1). repeat split; auto; try lia.
  - destruct r; [rewrite be_val_nil in H2; lia|]. blens. pose proof (blen_nonneg r); lia.
  - unfold blen; lia.
Qed.

Lemma firstn_app_blen {A} (a b : list A) : firstn (Z.to_nat (blen a)) (a ++ b) = a.
Proof. unfold blen. rewrite Nat2Z.id, firstn_app, Nat.sub_diag, firstn_all, firstn_O, app_nil_r. reflexivity. Qed.
Lemma skipn_app_blen {A} (a b : list A) : skipn (Z.to_nat (blen a)) (a ++ b) = b.
Proof. unfold blen. rewrite Nat2Z.id, skipn_app, Nat.sub_diag, skipn_all, skipn_O. reflexivity. Qed.

(** Case view of the encoder. *)
Lemma rlp_encode_cases b :
  (exists x, b = [x] /\ x < 128 /\ rlp_encode_bytes b = [x]) \/
  (blen b <= 55 /\ (forall x, b = [x] -> 128 <= x) /\ rlp_encode_bytes b = (blen b + 128) :: b) \/
  (56 <= blen b /\ rlp_encode_bytes b = (blen (rlp_get_bytes (blen b)) + 183) :: rlp_get_bytes (blen b) ++ b).
Proof.
  unfold rlp_encode_bytes. destruct b as [|x [|y b]].
  - right; left. cbn. split; [lia|]. split; [discriminate|reflexivity].
  - destruct (Z.ltb_spec x 128).
    + left. eauto.
    + right; left. cbn. split; [lia|]. split; [|reflexivity]. intros ? E; inversion E; subst; auto.
  - destruct (Z.leb_spec (blen (x :: y :: b)) 55).
    + right; left. split; [auto|]. split; [discriminate|reflexivity].
    + right; right. split; [lia|]. f_equal. lia.
Qed.

Lemma parse_encode b rest : part_ok b -> go_rlpParseBytes (rlp_encode_bytes b ++ rest) = Some (b, rest).
Proof.
  intros [Hw Hl]. pose proof (blen_nonneg b) as H0.
  destruct (rlp_encode_cases b) as [(x & -> & Hx & ->)|[(H1 & H2 & ->)|(H1 & ->)]].
  - cbn. rewrite (proj2 (Z.ltb_lt x 128)) by lia. reflexivity.
  - cbn [app go_rlpParseBytes].
    rewrite (proj2 (Z.ltb_ge _ 128)), (proj2 (Z.ltb_lt _ 184)) by lia.
    replace (blen b + 128 - 128) with (blen b) by lia.
    rewrite (proj2 (Z.ltb_ge _ (blen b))) by (rewrite blen_app; pose proof (blen_nonneg rest); lia).
    now rewrite firstn_app_blen, skipn_app_blen.
  - destruct (len_bytes_spec (blen b)) as (K1 & K2 & K3 & K4 & _); [lia|].
    set (r := rlp_get_bytes (blen b)) in *. cbn [app go_rlpParseBytes].
    rewrite (proj2 (Z.ltb_ge _ 128)), (proj2 (Z.ltb_ge _ 184)), (proj2 (Z.ltb_lt _ 192)) by lia.
    replace (blen r + 183 - 183) with (blen r) by lia. rewrite <- app_assoc.
    unfold go_rlpReadSize.
    rewrite (proj2 (Z.ltb_ge _ (blen r))) by (rewrite blen_app; pose proof (blen_nonneg (b ++ rest)); lia).
    rewrite firstn_app_blen, skipn_app_blen, K2.
    assert (N : nth 0 (r ++ b ++ rest) 0 = nth 0 r 0).
    { apply app_nth1. unfold blen in K3. lia. }
    rewrite N. destruct (Z.ltb_spec (blen b) 56); [lia|].
    destruct (Z.eqb_spec (nth 0 r 0) 0); [lia|]. destruct (Z.ltb_spec (2 ^ 63 - 1) (blen b)); [lia|].
    cbn [orb]. rewrite (proj2 (Z.ltb_ge _ (blen b))) by (rewrite blen_app; pose proof (blen_nonneg rest); lia).
    now rewrite firstn_app_blen, skipn_app_blen.
Qed.

Lemma encode_nonempty b : rlp_encode_bytes b <> [].
Proof. destruct (rlp_encode_cases b) as [(x & _ & _ & ->)|[(_ & _ & ->)|(_ & ->)]]; discriminate. Qed.

Lemma encode_wf b : part_ok b -> wf_bytes (rlp_encode_bytes b).
Proof.
  intros [Hw Hl]. pose proof (blen_nonneg b) as H0.
  destruct (rlp_encode_cases b) as [(x & -> & Hx & ->)|[(H1 & H2 & ->)|(H1 & ->)]]; auto.
  - constructor; auto. red; lia.
  - destruct (len_bytes_spec (blen b)) as (K1 & K2 & K3 & K4 & _); [lia|].
    constructor; [red; lia|]. apply wf_bytes_app; auto.
Qed.

Lemma split_encode_f parts : Forall part_ok parts -> forall fuel,
  (length (concat (map rlp_encode_bytes parts)) <= fuel)%nat ->
  go_SplitKeys_f fuel (concat (map rlp_encode_bytes parts)) = Some parts.
Proof.
  induction 1 as [|b parts Hb _ IH]; intros fuel Hf.
  - destruct fuel; reflexivity.
  - cbn [map concat] in *. pose proof (encode_nonempty b) as Hne.
    destruct (rlp_encode_bytes b ++ concat (map rlp_encode_bytes parts)) as [|z l] eqn:E.
    { apply app_eq_nil in E as [E _]; contradiction. }
    destruct fuel as [|fuel]; [simpl in Hf; lia|]. cbn [go_SplitKeys_f]. rewrite <- E.
    rewrite parse_encode by auto. rewrite IH; [reflexivity|].
    apply (f_equal (@length Z)) in E. rewrite app_length in E. simpl in E, Hf.
    destruct (rlp_encode_bytes b); [contradiction|]. simpl in E. lia.
Qed.

Lemma split_encode parts : Forall part_ok parts ->
  go_SplitKeys (concat (map rlp_encode_bytes parts)) = Some parts.
Proof. intros H. apply split_encode_f; auto. Qed.

Lemma encode_parts_inj a b : Forall part_ok a -> Forall part_ok b ->
  concat (map rlp_encode_bytes a) = concat (map rlp_encode_bytes b) -> a = b.
Proof.
  intros Ha Hb E. pose proof (split_encode a Ha) as Sa. rewrite E, split_encode in Sa by auto. congruence.
Qed.

(** Prefix freedom of a single part. *)
Lemma encode_prefix_free a b x y : part_ok a -> part_ok b ->
  rlp_encode_bytes a ++ x = rlp_encode_bytes b ++ y -> a = b /\ x = y.
Proof.
  intros Ha Hb E. pose proof (parse_encode a x Ha) as P. rewrite E, parse_encode in P by auto.
  inversion P; auto.
Qed.

(** Go encoder. *)
Lemma go_count_spec f : forall b c, 0 <= b < 256 ^ Z.of_nat f ->
  exists k, 0 <= k /\ go_count_loop f b c = c + k /\ (b = 0 -> k = 0) /\ (b <> 0 -> 256 ^ (k - 1) <= b /\ 1 <= k) /\ b < 256 ^ k.
Proof.
  induction f as [|f IH]; intros b c Hb.
  - simpl (256 ^ _) in Hb. assert (b = 0) by lia. subst. exists 0. cbn. repeat split; lia.
  - cbn [go_count_loop]. destruct (Z.ltb_spec 0 b).
    + rewrite Z.shiftr_div_pow2 by lia. change (2 ^ 8) with 256.
      rewrite Nat2Z.inj_succ, Z.pow_succ_r in Hb by lia.
      destruct (IH (b / 256) (c + 1)) as (k & K0 & K1 & K2 & K3 & K4); [lia|].
      exists (k + 1). split; [lia|]. split; [lia|]. split; [lia|].
      rewrite Z.pow_add_r by lia. change (256 ^ 1) with 256. split; [|lia].
      intros _. replace (k + 1 - 1) with k by lia. split; [|lia].
      destruct (Z.eq_dec (b / 256) 0) as [E|E].
      * rewrite (K2 E). simpl; lia.
      * destruct (K3 E) as [K5 K6]. replace k with (1 + (k - 1)) by lia. rewrite Z.pow_add_r by lia.
        change (256 ^ 1) with 256. lia.
    + exists 0. repeat split; lia.
Qed.

Lemma go_fill_spec n : forall v acc, go_fill n v acc = be_bytes n v ++ acc.
Proof.
  induction n as [|n IH]; intros v acc; [reflexivity|]. cbn [go_fill be_bytes].
  rewrite IH, land255, Z.shiftr_div_pow2, <- app_assoc by lia. reflexivity.
Qed.

Lemma go_encode_agrees b : blen b < 2 ^ 53 -> go_rlpEncodeBytes b = rlp_encode_bytes b.
Proof.
  intros Hl. pose proof (blen_nonneg b) as H0. unfold go_rlpEncodeBytes, rlp_encode_bytes.
  assert (A : 56 <= blen b ->
     (128 + 55 + go_rlpCountBytesForSize (blen b)) mod 256
       :: go_fill (Z.to_nat (go_rlpCountBytesForSize (blen b))) (blen b) [] ++ b
     = (blen (rlp_get_bytes (blen b)) + 128 + 55) :: rlp_get_bytes (blen b) ++ b).
  { intros H1. destruct (len_bytes_spec (blen b)) as (K1 & K2 & K3 & K4 & K5); [lia|].
    set (r := rlp_get_bytes (blen b)) in *.
    assert (C : go_rlpCountBytesForSize (blen b) = blen r).
    { unfold go_rlpCountBytesForSize. rewrite Z.shiftr_div_pow2 by lia. change (2 ^ 8) with 256.
      destruct (go_count_spec 64 (blen b / 256) 1) as (k & J0 & J1 & J2 & J3 & J4).
      { split; [lia|]. apply Z.lt_trans with (2 ^ 53); [lia|reflexivity]. }
      rewrite J1. set (n := blen b) in *. clearbody n r. 
      assert (E : n < 256 ^ (1 + k) /\ 256 ^ k <= n).
      { rewrite Z.pow_add_r by lia. change (256 ^ 1) with 256. split; [lia|].
        destruct (Z.eq_dec (n / 256) 0) as [E|E]; [rewrite (J2 E); simpl; lia|].
        destruct (J3 E) as [J5 J6]. replace k with (1 + (k - 1)) by lia. rewrite Z.pow_add_r by lia.
        change (256 ^ 1) with 256. lia. }
      destruct E as [E1 E2]. destruct (Z.lt_trichotomy (1 + k) (blen r)) as [L|[L|L]]; auto; exfalso.
      - assert (256 ^ (1 + k) <= 256 ^ (blen r - 1)) by (apply Z.pow_le_mono_r; lia). lia.
      - assert (256 ^ blen r <= 256 ^ k) by (apply Z.pow_le_mono_r; lia). lia. }
    rewrite C, go_fill_spec, app_nil_r. f_equal; [rewrite Z.mod_small; lia|]. f_equal.
    rewrite <- K2. unfold blen. rewrite Nat2Z.id. apply be_bytes_be_val; auto. }
  destruct b as [|x [|y b]].
  - reflexivity.
  - destruct (x <? 128); reflexivity.
  - destruct (Z.leb_spec (blen (x :: y :: b)) 55).
    + f_equal. rewrite Z.mod_small by lia. lia.
    + apply A; lia.
Qed.

Lemma go_append_agrees key parts : Forall (fun b => blen b < 2 ^ 53) parts ->
  go_AppendKeys key parts = key ++ concat (map rlp_encode_bytes parts).
Proof.
  intros H. unfold go_AppendKeys. f_equal. f_equal. apply map_ext_in. intros b Hb.
  apply go_encode_agrees. rewrite Forall_forall in H; auto.
Qed.

(** Composition of slots. *)
Definition encs (l : list bytes) : bytes := concat (map rlp_encode_bytes l).

Lemma encs_app a b : encs (a ++ b) = encs a ++ encs b.
Proof. unfold encs. now rewrite map_app, concat_app. Qed.

Definition opt_bytes (o : option bytes) : bytes := match o with Some b => b | None => [] end.

Lemma concat_encoded_3 a b c : concat_encoded [a; b; c] = opt_bytes a ++ opt_bytes b ++ opt_bytes c.
Proof. unfold concat_encoded. cbn. now rewrite app_nil_r. Qed.

Lemma sub_dbs_gen ps : forall db, db_tag db = None ->
  let d := fold_left (fun db p => get_sub_db db p None) ps db in
  db_tag d = None /\ opt_bytes (db_prefix d) = opt_bytes (db_prefix db) ++ encs ps.
Proof.
  induction ps as [|p ps IH]; intros db Ht; cbn [fold_left].
  - split; auto. unfold encs; cbn. now rewrite app_nil_r.
  - destruct (IH (get_sub_db db p None)) as [H1 H2].
    { unfold get_sub_db. cbn. exact Ht. }
    split; auto. rewrite H2. unfold get_sub_db. cbn [db_prefix].
    change (encs (p :: ps)) with (rlp_encode_bytes p ++ encs ps). rewrite app_assoc. f_equal.
    destruct (db_prefix db); unfold concat_encoded, get_encoded_key; cbn; now rewrite ?app_nil_r.
Qed.

Lemma levels_gen tag ps : forall db t, db_tag db = Some t ->
  let d := fold_left (fun db p => get_sub_db db p (Some tag)) ps db in
  db_tag d = Some t /\ opt_bytes (db_prefix d) = opt_bytes (db_prefix db) ++ encs ps.
Proof.
  induction ps as [|p ps IH]; intros db t Ht; cbn [fold_left].
  - split; auto. unfold encs; cbn. now rewrite app_nil_r.
  - destruct (IH (get_sub_db db p (Some tag)) t) as [H1 H2].
    { unfold get_sub_db. now rewrite Ht. }
    split; auto. rewrite H2. unfold get_sub_db. rewrite Ht. cbn [db_prefix].
    change (encs (p :: ps)) with (rlp_encode_bytes p ++ encs ps). rewrite app_assoc. f_equal.
    destruct (db_prefix db); unfold concat_encoded, get_encoded_key; cbn; now rewrite ?app_nil_r.
Qed.

Lemma slot_preimage_eq k ps name lv e :
  slot_preimage k ps name lv e = encs (kind_tag k :: name :: ps ++ lv ++ opt_list e).
Proof.
  unfold slot_preimage, container_db, raw_key.
  destruct (sub_dbs_gen ps root_db eq_refl) as [T P]. fold (sub_dbs ps) in T, P.
  set (d0 := get_sub_db (sub_dbs ps) name (Some (kind_tag k))).
  assert (T0 : db_tag d0 = Some (kind_tag k ++ rlp_encode_bytes name)).
  { unfold d0, get_sub_db. rewrite T. cbn [db_tag]. unfold concat_encoded, get_encoded_key. cbn.
    now rewrite app_nil_r. }
  assert (P0 : opt_bytes (db_prefix d0) = encs ps).
  { unfold d0, get_sub_db. rewrite T. cbn [db_prefix].
    change (opt_bytes (db_prefix root_db)) with (@nil Z) in P. cbn [app] in P. rewrite <- P.
    destruct (db_prefix (sub_dbs ps)); cbn; auto. unfold concat_encoded; cbn. now rewrite !app_nil_r. }
  destruct (levels_gen (kind_tag k) lv d0 _ T0) as [T1 P1]. rewrite T1, concat_encoded_3, P1, P0.
  cbn [opt_bytes].
  change (encs (kind_tag k :: name :: ps ++ lv ++ opt_list e))
    with (rlp_encode_bytes (kind_tag k) ++ rlp_encode_bytes name ++ encs (ps ++ lv ++ opt_list e)).
  rewrite !encs_app.
  replace (rlp_encode_bytes (kind_tag k)) with (kind_tag k) by (destruct k; reflexivity).
  rewrite <- !app_assoc. do 4 f_equal. destruct e; unfold encs; cbn; now rewrite ?app_nil_r.
Qed.

Lemma kind_tag_inj a b : kind_tag a = kind_tag b -> a = b.
Proof. destruct a, b; cbn; intros H; auto; discriminate. Qed.
Lemma kind_tag_ok k : part_ok (kind_tag k).
Proof. destruct k; split; try (repeat constructor; lia); reflexivity. Qed.

Lemma slot_preimage_inj k1 ps1 n1 lv1 e1 k2 ps2 n2 lv2 e2 :
  Forall part_ok (n1 :: ps1 ++ lv1 ++ opt_list e1) -> Forall part_ok (n2 :: ps2 ++ lv2 ++ opt_list e2) ->
  slot_preimage k1 ps1 n1 lv1 e1 = slot_preimage k2 ps2 n2 lv2 e2 ->
  k1 = k2 /\ n1 = n2 /\ ps1 ++ lv1 ++ opt_list e1 = ps2 ++ lv2 ++ opt_list e2.
Proof.
  intros H1 H2 E. rewrite !slot_preimage_eq in E. apply encode_parts_inj in E;
    try (constructor; auto; apply kind_tag_ok).
  inversion E as [[E1 E2 E3]]. apply kind_tag_inj in E1. auto.
Qed.
