(** Round trips of the trie's RLP coding. *)
From Verif Require Import Model.Bytes Model.DbKey Model.Mpt Proof.BytesFacts Proof.DbKeyFacts.
Open Scope Z_scope.

Lemma count_spec n : 56 <= n < 2 ^ 53 ->
  let ts := go_rlpCountBytesForSize n in 1 <= ts <= 7 /\ 256 ^ (ts - 1) <= n < 256 ^ ts.
Proof.
  intros H. unfold go_rlpCountBytesForSize. rewrite Z.shiftr_div_pow2 by lia. change (2 ^ 8) with 256.
  destruct (go_count_spec 64 (n / 256) 1) as (k & J0 & J1 & J2 & J3 & J4).
  { split; [apply Z.div_pos; lia|]. apply Z.div_lt_upper_bound; [lia|]. eapply Z.lt_trans; [apply H|reflexivity]. }
  cbv zeta. rewrite J1.
  assert (Q : n < 256 ^ (1 + k) /\ 256 ^ k <= n).
  { pose proof (Z.div_mod n 256 ltac:(lia)). pose proof (Z.mod_pos_bound n 256 ltac:(lia)).
    rewrite Z.pow_add_r by lia. change (256 ^ 1) with 256. split; [lia|].
    destruct (Z.eq_dec (n / 256) 0) as [E|E]; [rewrite (J2 E); change (256 ^ 0) with 1; lia|].
    destruct (J3 E) as [J5 J6]. replace k with (1 + (k - 1)) by lia. rewrite Z.pow_add_r by lia.
    change (256 ^ 1) with 256. lia. }
  replace (1 + k - 1) with k by lia. split; [|lia]. split; [lia|].
  destruct (Z.le_gt_cases k 6); [lia|]. exfalso.
  assert (256 ^ 7 <= 256 ^ k) by (apply Z.pow_le_mono_r; lia). change (256 ^ 7) with (2 ^ 56) in *.
  assert (2 ^ 53 < 2 ^ 56) by reflexivity. lia.
Qed.

Lemma fill_spec n : 56 <= n < 2 ^ 53 ->
  let ts := go_rlpCountBytesForSize n in
  exists b r, go_fill (Z.to_nat ts) n [] = b :: r /\ blen (b :: r) = ts /\ be_val (b :: r) = n /\ b <> 0 /\ wf_bytes (b :: r).
Proof.
  intros H. destruct (count_spec n H) as [T1 T2]. cbv zeta. set (ts := go_rlpCountBytesForSize n) in *. clearbody ts.
  rewrite go_fill_spec, app_nil_r.
  pose proof (be_val_be_bytes (Z.to_nat ts) n) as V. rewrite Z2Nat.id in V by lia. rewrite Z.mod_small in V by lia.
  pose proof (blen_be_bytes (Z.to_nat ts) n) as L. rewrite Z2Nat.id in L by lia.
  pose proof (be_bytes_wf (Z.to_nat ts) n) as W.
  destruct (be_bytes (Z.to_nat ts) n) as [|b r]; [rewrite blen_nil in L; lia|].
  exists b, r. repeat split; auto. intro E. subst b. rewrite be_val_cons in V. rewrite blen_cons in L.
  apply wf_bytes_cons in W as [_ W]. pose proof (be_val_bound r W). replace (blen r) with (ts - 1) in * by lia. lia.
Qed.

Definition small (b : bytes) : Prop := blen b < 2 ^ 53.

(** Parsing a header in front of anything. *)
Lemma header_sized tag0 content rest (Hs : small content) (L : 56 <= blen content) :
  tag0 = 183 \/ tag0 = 247 ->
  let ts := go_rlpCountBytesForSize (blen content) in
  let e := (tag0 + ts) mod 256 :: go_fill (Z.to_nat ts) (blen content) [] ++ content in
  rlpParseHeader (e ++ rest) = Some (tag0 =? 247, ts + 1, blen content)
  /\ firstn (Z.to_nat (blen content)) (skipn (Z.to_nat (ts + 1)) (e ++ rest)) = content
  /\ blen e = ts + 1 + blen content.
Proof.
  intros T. destruct (count_spec _ (conj L Hs)) as [T1 T2]. destruct (fill_spec _ (conj L Hs)) as (b & r & F1 & F2 & F3 & F4 & F5).
  cbv zeta. set (ts := go_rlpCountBytesForSize (blen content)) in *. rewrite F1.
  assert (E : (tag0 + ts) mod 256 = tag0 + ts) by (apply Z.mod_small; lia). rewrite E.
  assert (B : blen (((tag0 + ts) :: (b :: r) ++ content) ++ rest) = 1 + ts + blen content + blen rest).
  { rewrite blen_app, blen_cons, blen_app, F2. lia. }
  assert (R : mpt_rlpReadSize (((b :: r) ++ content) ++ rest) ts = Some (blen content)).
  { unfold mpt_rlpReadSize. pose proof (blen_nonneg rest). pose proof (blen_nonneg content).
    destruct (Z.ltb_spec (blen (((b :: r) ++ content) ++ rest)) ts) as [X|_].
    { rewrite !blen_app, F2 in X. lia. }
    rewrite <- app_assoc. replace (Z.to_nat ts) with (Z.to_nat (blen (b :: r))) by (rewrite F2; reflexivity).
    rewrite firstn_app_blen, F3. cbn [nth app].
    destruct (Z.ltb_spec (blen content) 56); [lia|]. destruct (Z.eqb_spec b 0); [contradiction|]. reflexivity. }
  split; [|split].
  - cbn [app] in *. unfold rlpParseHeader.
    destruct (Z.ltb_spec (tag0 + ts) 128); [lia|]. destruct (Z.ltb_spec (tag0 + ts) 184); [lia|].
    pose proof B as Bn.
    pose proof (blen_nonneg rest).
    destruct T as [-> | ->].
    + destruct (Z.ltb_spec (183 + ts) 192); [|lia]. replace (183 + ts - 183) with ts by lia. rewrite R, Bn.
      destruct (Z.ltb_spec (1 + ts + blen content + blen rest - (ts + 1)) (blen content)); [lia|]. reflexivity.
    + destruct (Z.ltb_spec (247 + ts) 192); [lia|]. destruct (Z.ltb_spec (247 + ts) 248); [lia|].
      replace (247 + ts - 247) with ts by lia. rewrite R, Bn.
      destruct (Z.ltb_spec (1 + ts + blen content + blen rest - (ts + 1)) (blen content)); [lia|]. reflexivity.
  - cbn [app]. replace (Z.to_nat (ts + 1)) with (S (Z.to_nat ts)) by lia. cbn [skipn].
    rewrite !app_comm_cons, <- app_assoc.
    replace (Z.to_nat ts) with (Z.to_nat (blen (b :: r))) by (rewrite F2; reflexivity).
    rewrite skipn_app_blen, firstn_app_blen. reflexivity.
  - rewrite blen_cons, blen_app, F2. lia.
Qed.

Lemma header_short tag0 content rest : blen content <= 55 -> tag0 = 128 \/ tag0 = 192 ->
  (tag0 = 128 -> forall x, content = [x] -> 128 <= x) ->
  let e := (tag0 + blen content) mod 256 :: content in
  rlpParseHeader (e ++ rest) = Some (tag0 =? 192, 1, blen content)
  /\ firstn (Z.to_nat (blen content)) (skipn (Z.to_nat 1) (e ++ rest)) = content
  /\ blen e = 1 + blen content.
Proof.
  intros L T S1. pose proof (blen_nonneg content). pose proof (blen_nonneg rest). cbv zeta.
  assert (E : (tag0 + blen content) mod 256 = tag0 + blen content) by (apply Z.mod_small; lia). rewrite E.
  split; [|split].
  - cbn [app]. unfold rlpParseHeader.
    assert (B : blen (tag0 + blen content :: content ++ rest) = 1 + blen content + blen rest) by (rewrite blen_cons, blen_app; lia).
    destruct (Z.ltb_spec (tag0 + blen content) 128); [lia|]. destruct T as [-> | ->].
    + destruct (Z.ltb_spec (128 + blen content) 184); [|lia]. replace (128 + blen content - 128) with (blen content) by lia.
      destruct ((blen content =? 1) && (1 <? blen (128 + blen content :: content ++ rest)) && (nth 0 (content ++ rest) 0 <? 128)) eqn:X.
      * exfalso. apply andb_true_iff in X as [X X3]. apply andb_true_iff in X as [X1 _]. apply Z.eqb_eq in X1. apply Z.ltb_lt in X3.
        destruct content as [|x [|y c]]; try (rewrite ?blen_cons, ?blen_nil in X1; pose proof (blen_nonneg c); lia).
        { rewrite blen_nil in X1. lia. }
        cbn in X3. specialize (S1 eq_refl x eq_refl). lia.
      * rewrite B. destruct (Z.ltb_spec (1 + blen content + blen rest - 1) (blen content)); [lia|]. reflexivity.
    + destruct (Z.ltb_spec (192 + blen content) 184); [lia|]. destruct (Z.ltb_spec (192 + blen content) 192); [lia|].
      destruct (Z.ltb_spec (192 + blen content) 248); [|lia]. replace (192 + blen content - 192) with (blen content) by lia.
      rewrite B. destruct (Z.ltb_spec (1 + blen content + blen rest - 1) (blen content)); [lia|]. reflexivity.
  - cbn [app]. change (Z.to_nat 1) with 1%nat. cbn [skipn]. apply firstn_app_blen.
  - rewrite blen_cons. lia.
Qed.

(** A string or a list, encoded. *)
Definition parses (islist : bool) (e content : bytes) : Prop :=
  exists t, 0 <= t /\ blen e = t + blen content /\ 0 < blen e /\ forall rest,
    rlpParseHeader (e ++ rest) = Some (islist, t, blen content)
    /\ firstn (Z.to_nat (blen content)) (skipn (Z.to_nat t) (e ++ rest)) = content.

Lemma parses_bytes b : small b -> wf_bytes b -> parses false (go_rlpEncodeBytes b) b.
Proof.
  intros Hs W. pose proof (blen_nonneg b) as N. unfold go_rlpEncodeBytes.
  assert (Long : 56 <= blen b -> parses false ((128 + 55 + go_rlpCountBytesForSize (blen b)) mod 256
      :: go_fill (Z.to_nat (go_rlpCountBytesForSize (blen b))) (blen b) [] ++ b) b).
  { intros L. destruct (count_spec _ (conj L Hs)) as [T1 _].
    exists (go_rlpCountBytesForSize (blen b) + 1). change (128 + 55) with 183.
    destruct (header_sized 183 b [] Hs L (or_introl eq_refl)) as (_ & _ & H3). cbv zeta in H3.
    split; [lia|]. split; [exact H3|]. split; [lia|]. intro rest.
    destruct (header_sized 183 b rest Hs L (or_introl eq_refl)) as (H1 & H2 & _). exact (conj H1 H2). }
  assert (Short : blen b <= 55 -> (forall x, b = [x] -> 128 <= x) -> parses false ((128 + blen b) mod 256 :: b) b).
  { intros L S1. exists 1. destruct (header_short 128 b [] L (or_introl eq_refl) (fun _ => S1)) as (_ & _ & H3). cbv zeta in H3.
    split; [lia|]. split; [exact H3|]. split; [lia|]. intro rest.
    destruct (header_short 128 b rest L (or_introl eq_refl) (fun _ => S1)) as (H1 & H2 & _). exact (conj H1 H2). }
  destruct b as [|x [|y b]].
  - change (blen [] <=? 55) with true. cbv iota. apply Short; [rewrite blen_nil; lia|discriminate].
  - destruct (Z.ltb_spec x 128).
    + unfold parses. exists 0. change (blen [x]) with 1. split; [lia|]. split; [lia|]. split; [lia|]. intro rest. split; [|reflexivity].
      apply wf_bytes_cons in W as [[W0 W1] _]. cbn [app]. unfold rlpParseHeader. destruct (Z.ltb_spec x 128); [|lia].
      pose proof (blen_nonneg rest). rewrite blen_cons. destruct (Z.ltb_spec (1 + blen rest - 0) 1); [lia|]. reflexivity.
    + apply Short; [rewrite blen_cons, blen_nil; lia|]. intros z E. inversion E; subst. lia.
  - destruct (Z.leb_spec (blen (x :: y :: b)) 55); [apply Short; auto; discriminate|apply Long; lia].
Qed.

Lemma parses_list items : small (concat items) -> parses true (rlpEncodeList items) (concat items).
Proof.
  intros Hs. pose proof (blen_nonneg (concat items)) as N. unfold rlpEncodeList. cbv zeta.
  destruct (Z.leb_spec (blen (concat items)) 55) as [L|L].
  - assert (S1 : 192 = 128 -> forall x, concat items = [x] -> 128 <= x) by discriminate.
    exists 1. destruct (header_short 192 (concat items) [] L (or_intror eq_refl) S1) as (_ & _ & H3). cbv zeta in H3.
    split; [lia|]. split; [exact H3|]. split; [lia|]. intro rest.
    destruct (header_short 192 (concat items) rest L (or_intror eq_refl) S1) as (H1 & H2 & _). exact (conj H1 H2).
  - assert (L' : 56 <= blen (concat items)) by lia. destruct (count_spec _ (conj L' Hs)) as [T1 _].
    exists (go_rlpCountBytesForSize (blen (concat items)) + 1). change (192 + 55) with 247.
    destruct (header_sized 247 (concat items) [] Hs L' (or_intror eq_refl)) as (_ & _ & H3). cbv zeta in H3.
    split; [lia|]. split; [exact H3|]. split; [lia|]. intro rest.
    destruct (header_sized 247 (concat items) rest Hs L' (or_intror eq_refl)) as (H1 & H2 & _). exact (conj H1 H2).
Qed.

Lemma parse_bytes_enc b : small b -> wf_bytes b -> rlpParseBytes (go_rlpEncodeBytes b) = Some b.
Proof.
  intros Hs W. destruct (parses_bytes b Hs W) as (t & T0 & T1 & T2 & T3). destruct (T3 []) as [H1 H2].
  rewrite app_nil_r in H1, H2. unfold rlpParseBytes. rewrite H1, H2. destruct (Z.ltb_spec (blen (go_rlpEncodeBytes b)) (t + blen b)); [lia|reflexivity].
Qed.

Definition item (e : bytes) : Prop := exists il c, parses il e c.

Lemma parse_items_concat items : Forall item items -> forall fuel, (length (concat items) <= fuel)%nat ->
  parse_items fuel (concat items) = Some items.
Proof.
  intros F. induction F as [|e items (il & c & t & T0 & T1 & T2 & T3) F IH]; intros fuel Hf; [destruct fuel; reflexivity|].
  cbn [concat] in *. destruct (T3 (concat items)) as [H1 H2].
  destruct e as [|x e]; [cbn in T2; lia|]. destruct fuel as [|fuel]; [cbn in Hf; lia|].
  unfold parse_items; fold parse_items. cbn [app]. cbn [app] in H1. rewrite H1.
  pose proof (blen_nonneg (concat items)). pose proof (blen_nonneg c).
  change (x :: e ++ concat items) with ((x :: e) ++ concat items).
  destruct (Z.ltb_spec (blen ((x :: e) ++ concat items)) (t + blen c)) as [X|_]; [rewrite blen_app in X; lia|].
  rewrite <- T1, skipn_app_blen, firstn_app_blen. rewrite IH; [reflexivity|].
  rewrite app_length in Hf. cbn in Hf. lia.
Qed.

Lemma parse_list_enc items : Forall item items -> small (concat items) -> rlpParseList (rlpEncodeList items) = Some items.
Proof.
  intros F Hs. destruct (parses_list items Hs) as (t & T0 & T1 & T2 & T3). destruct (T3 []) as [H1 H2].
  rewrite app_nil_r in H1, H2. unfold rlpParseList. rewrite H1.
  destruct (Z.ltb_spec (blen (rlpEncodeList items)) (t + blen (concat items))); [lia|]. rewrite H2. now apply parse_items_concat.
Qed.

Lemma item_bytes b : small b -> wf_bytes b -> item (go_rlpEncodeBytes b).
Proof. intros. exists false, b. now apply parses_bytes. Qed.
Lemma item_list l : small (concat l) -> item (rlpEncodeList l).
Proof. intros. exists true, (concat l). now apply parses_list. Qed.

(** First bytes tell lists from strings. *)
Lemma list_tag items : small (concat items) -> 192 <=? nth 0 (rlpEncodeList items) 0 = true.
Proof.
  intros Hs. pose proof (blen_nonneg (concat items)). unfold rlpEncodeList. cbv zeta.
  destruct (Z.leb_spec (blen (concat items)) 55) as [L|L]; cbn [nth].
  - rewrite Z.mod_small by lia. apply Z.leb_le. lia.
  - destruct (count_spec (blen (concat items))) as [T1 _]; [split; [lia|exact Hs]|]. rewrite Z.mod_small by lia. apply Z.leb_le. lia.
Qed.
Lemma bytes_tag b : small b -> wf_bytes b -> 192 <=? nth 0 (go_rlpEncodeBytes b) 0 = false.
Proof.
  intros Hs W. pose proof (blen_nonneg b). unfold go_rlpEncodeBytes. apply Z.leb_gt.
  assert (Sh : blen b <= 55 -> nth 0 ((128 + blen b) mod 256 :: b) 0 < 192).
  { intro L. cbn [nth]. rewrite Z.mod_small; lia. }
  destruct b as [|x [|y b]].
  - reflexivity.
  - destruct (Z.ltb_spec x 128); [cbn; lia|]. apply Sh. rewrite blen_cons, blen_nil. lia.
  - destruct (Z.leb_spec (blen (x :: y :: b)) 55) as [L|L]; [auto|]. cbn [nth].
    destruct (count_spec (blen (x :: y :: b))) as [T1 _]; [split; [lia|exact Hs]|]. rewrite Z.mod_small; lia.
Qed.

(** Sizes. *)
Lemma enc_len b : small b -> wf_bytes b -> blen b <= blen (go_rlpEncodeBytes b) <= blen b + 8.
Proof.
  intros Hs W. pose proof (blen_nonneg b). unfold go_rlpEncodeBytes.
  assert (Lg : 56 <= blen b -> blen ((128 + 55 + go_rlpCountBytesForSize (blen b)) mod 256
      :: go_fill (Z.to_nat (go_rlpCountBytesForSize (blen b))) (blen b) [] ++ b) <= blen b + 8
      /\ blen b <= blen ((128 + 55 + go_rlpCountBytesForSize (blen b)) mod 256
      :: go_fill (Z.to_nat (go_rlpCountBytesForSize (blen b))) (blen b) [] ++ b)).
  { intros L. destruct (count_spec _ (conj L Hs)) as [T1 _]. rewrite go_fill_spec, app_nil_r, blen_cons, blen_app, blen_be_bytes. lia. }
  destruct b as [|x [|y b]].
  - cbn. lia.
  - destruct (x <? 128); rewrite ?blen_cons, ?blen_nil; lia.
  - destruct (Z.leb_spec (blen (x :: y :: b)) 55) as [L|L]; [rewrite (blen_cons ((128 + _) mod 256)); lia|]. destruct Lg; lia.
Qed.
Lemma list_len items : small (concat items) -> blen (concat items) < blen (rlpEncodeList items) <= blen (concat items) + 8.
Proof.
  intros Hs. pose proof (blen_nonneg (concat items)). unfold rlpEncodeList. cbv zeta.
  destruct (Z.leb_spec (blen (concat items)) 55) as [L|L]; [rewrite blen_cons; lia|].
  destruct (count_spec (blen (concat items))) as [T1 _]; [split; [lia|exact Hs]|].
  rewrite go_fill_spec, app_nil_r, blen_cons, blen_app, blen_be_bytes. lia.
Qed.

Lemma wf_enc b : small b -> wf_bytes b -> wf_bytes (go_rlpEncodeBytes b).
Proof.
  intros Hs W. unfold go_rlpEncodeBytes. assert (M : forall z, wf_byte (z mod 256)) by (intro z; apply Z.mod_pos_bound; lia).
  assert (Lg : wf_bytes ((128 + 55 + go_rlpCountBytesForSize (blen b)) mod 256
      :: go_fill (Z.to_nat (go_rlpCountBytesForSize (blen b))) (blen b) [] ++ b)).
  { apply wf_bytes_cons. split; auto. rewrite go_fill_spec, app_nil_r. apply wf_bytes_app. split; auto. apply be_bytes_wf. }
  assert (Sh : wf_bytes ((128 + blen b) mod 256 :: b)) by (apply wf_bytes_cons; auto).
  destruct b as [|x [|y b]]; [destruct (_ <=? _); assumption|destruct (x <? 128); assumption|destruct (_ <=? _); assumption].
Qed.
Lemma wf_list items : Forall wf_bytes items -> wf_bytes (rlpEncodeList items).
Proof.
  intros F. unfold rlpEncodeList. assert (M : forall z, wf_byte (z mod 256)) by (intro z; apply Z.mod_pos_bound; lia).
  assert (C : wf_bytes (concat items)).
  { induction F; cbn; [constructor|]. apply wf_bytes_app. auto. }
  destruct (_ <=? _); apply wf_bytes_cons; split; auto. rewrite go_fill_spec, app_nil_r. apply wf_bytes_app. split; auto. apply be_bytes_wf.
Qed.

(** Nibbles. *)
Definition nibble (x : Z) : Prop := 0 <= x < 16.
Definition nibbles (k : list Z) : Prop := Forall nibble k.

Lemma unpack_pack k : nibbles k -> Nat.even (length k) = true -> unpack (pack k) = k.
Proof.
  assert (G : forall n k, (length k < n)%nat -> nibbles k -> Nat.even (length k) = true -> unpack (pack k) = k).
  { induction n as [|n IH]; intros l L F E; [lia|]. destruct l as [|a [|b l]]; [reflexivity|discriminate|].
    inversion F as [|? ? Fa F']; subst. inversion F' as [|? ? Fb Fl]; subst. unfold nibble in *.
    cbn [pack unpack]. rewrite Z.mod_small by lia. rewrite Z.shiftr_div_pow2 by lia. change (2 ^ 4) with 16.
    rewrite Z.div_add_l, Z.div_small, Z.add_0_r by lia.
    change 15 with (Z.ones 4). rewrite Z.land_ones by lia. change (2 ^ 4) with 16. rewrite Z.add_comm, Z.mod_add, Z.mod_small by lia.
    rewrite IH; auto. cbn in L. lia. }
  intros. eapply G; eauto.
Qed.

Lemma land16 t a : (t = 0 \/ t = 32) -> nibble a ->
  Z.land (t + 16 + a) 16 = 16 /\ Z.land (t + 16 + a) 15 = a /\ Z.land (t + 16 + a) 32 = t.
Proof.
  intros T A. unfold nibble in A. assert (In a [0;1;2;3;4;5;6;7;8;9;10;11;12;13;14;15]) as I.
  { assert (a = 0 \/ a = 1 \/ a = 2 \/ a = 3 \/ a = 4 \/ a = 5 \/ a = 6 \/ a = 7 \/ a = 8 \/ a = 9 \/ a = 10 \/ a = 11 \/ a = 12 \/ a = 13 \/ a = 14 \/ a = 15) by lia.
    cbn. intuition. }
  cbn in I. destruct T as [-> | ->]; repeat (destruct I as [<-|I]; [vm_compute; auto|]); contradiction.
Qed.

Lemma decode_encode tag k : tag = 0 \/ tag = 32 -> nibbles k ->
  decodeKeys (encodeKeys tag k) = k /\ exists x r, encodeKeys tag k = x :: r /\ (Z.land x 32 =? 0) = (tag =? 0).
Proof.
  intros T F. unfold encodeKeys. destruct (Nat.odd (length k)) eqn:O.
  - destruct k as [|a r]; [discriminate|]. inversion F; subst. destruct (land16 tag a T H1) as (L1 & L2 & L3).
    split.
    + cbn [decodeKeys]. rewrite L1, L2. change (negb (16 =? 0)) with true. cbv iota. f_equal. apply unpack_pack; auto.
      cbn [length] in O. rewrite Nat.odd_succ in O. exact O.
    + exists (tag + 16 + a), (pack r). split; auto. rewrite L3. reflexivity.
  - assert (E : Nat.even (length k) = true) by (rewrite <- Nat.negb_odd, O; reflexivity).
    split.
    + cbn [decodeKeys]. destruct T as [-> | ->]; cbn [Z.land Pos.land Z.eqb negb]; apply unpack_pack; auto.
    + exists tag, (pack k). split; auto. destruct T as [-> | ->]; reflexivity.
Qed.

Lemma wf_pack k : wf_bytes (pack k).
Proof.
  assert (G : forall n k, (length k < n)%nat -> wf_bytes (pack k)).
  { induction n as [|n IH]; intros l L; [lia|]. destruct l as [|a [|b l]]; try constructor.
    - apply Z.mod_pos_bound. lia.
    - apply IH. cbn in L. lia. }
  eapply G; eauto.
Qed.
Lemma wf_encode tag k : tag = 0 \/ tag = 32 -> nibbles k -> wf_bytes (encodeKeys tag k).
Proof.
  intros T F. unfold encodeKeys. destruct (Nat.odd (length k)).
  - destruct k as [|a r]; [constructor; [|constructor]|]; [unfold wf_byte; lia|]. inversion F; subst. unfold nibble in *.
    constructor; [unfold wf_byte; lia|apply wf_pack].
  - constructor; [unfold wf_byte; lia|apply wf_pack].
Qed.
Lemma len_pack k : blen (pack k) <= blen k.
Proof.
  assert (G : forall n k, (length k < n)%nat -> blen (pack k) <= blen k).
  { induction n as [|n IH]; intros l L; [lia|]. destruct l as [|a [|b l]]; cbn [pack]; rewrite ?blen_cons, ?blen_nil; try lia.
    assert (blen (pack l) <= blen l) by (apply IH; cbn in L; lia). lia. }
  eapply G; eauto.
Qed.
Lemma len_encode tag k : blen (encodeKeys tag k) <= blen k + 1.
Proof.
  unfold encodeKeys. destruct (Nat.odd (length k)).
  - destruct k as [|a r]; rewrite ?blen_cons, ?blen_nil; [lia|]. pose proof (len_pack r). lia.
  - rewrite blen_cons. pose proof (len_pack k). lia.
Qed.

Lemma unpack_nibbles b : wf_bytes b -> nibbles (unpack b).
Proof.
  induction 1 as [|x b Hx H IH]; cbn [unpack]; [constructor|]. unfold wf_byte in Hx.
  constructor; [|constructor; auto].
  - rewrite Z.shiftr_div_pow2 by lia. change (2 ^ 4) with 16. unfold nibble. split; [apply Z.div_pos; lia|apply Z.div_lt_upper_bound; lia].
  - change 15 with (Z.ones 4). rewrite Z.land_ones by lia. apply Z.mod_pos_bound. lia.
Qed.
Lemma unpack_inj a b : wf_bytes a -> wf_bytes b -> unpack a = unpack b -> a = b.
Proof.
  intros Ha. revert b. induction Ha as [|x a Hx Ha IH]; intros b Hb E; inversion Hb as [|y b' Hy Hb']; subst; try discriminate; auto.
  cbn [unpack] in E. injection E as E1 E2 E3. f_equal; [|auto].
  rewrite !Z.shiftr_div_pow2 in E1 by lia. change 15 with (Z.ones 4) in E2. rewrite !Z.land_ones in E2 by lia.
  pose proof (Z.div_mod x (2 ^ 4) ltac:(lia)). pose proof (Z.div_mod y (2 ^ 4) ltac:(lia)). lia.
Qed.
Lemma len_unpack b : length (unpack b) = (2 * length b)%nat.
Proof. induction b; cbn [unpack length]; lia. Qed.
