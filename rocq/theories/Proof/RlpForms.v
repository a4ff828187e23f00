(** Structs with fields more or fewer, and bytes which nobody writes. *)
From Coq Require Import ZArith List Lia Bool.
From Verif Require Import Model.Bytes Model.IntCodec Proof.BytesFacts Model.Rlp Spec.RlpSpec Proof.RlpFacts.
Import ListNotations.
Open Scope Z_scope.

Lemma skipn_blen {A} (a b : list A) : skipn (Z.to_nat (blen a)) (a ++ b) = b.
Proof. unfold blen. rewrite Nat2Z.id, skipn_app, Nat.sub_diag, skipn_all. reflexivity. Qed.

(** A list whose inside is read up to somewhere. *)
Lemma listed_part inside body junk l rest L C : blen (write_list (body ++ junk)) <= L ->
  blen (write_list (body ++ junk)) < 2 ^ 63 ->
  (forall tail, let D := Z.min C (blen (body ++ junk)) in
     inside (mkR (body ++ tail) (blen (body ++ junk)) D) = (Got l, mkR tail (blen junk) D)) ->
  listed inside (mkR (write_list (body ++ junk) ++ rest) L C) =
  (Got (VList (Some l)), mkR rest (L - blen (write_list (body ++ junk))) C).
Proof.
  intros HL H63 Hin. cbv zeta in Hin. unfold listed.
  rewrite read_list_ok by assumption. cbv beta iota zeta.
  set (all := body ++ junk) in *.
  pose proof (head_len_pos all) as Hh. assert (EB : blen (write_list all) = head_len all + blen all) by (unfold head_len; lia).
  pose proof (blen_nonneg all) as Hb0. pose proof (blen_nonneg body) as Hb1. pose proof (blen_nonneg junk) as Hb2.
  assert (EA : blen all = blen body + blen junk) by apply blen_app.
  unfold child. cbn [src lim cap].
  assert (EF : firstn (Z.to_nat (L - head_len all)) (all ++ rest)
               = body ++ junk ++ firstn (Z.to_nat (L - head_len all) - length all) rest).
  { rewrite app_assoc. fold all. rewrite firstn_app. f_equal. apply firstn_all2. unfold blen in *. lia. }
  rewrite EF. set (tail := firstn _ rest). rewrite Hin. unfold close. cbn [src lim cap].
  pose proof (blen_nonneg tail). destruct (Z.leb_spec (blen junk) (blen (junk ++ tail))) as [Hc|Hc].
  2:{ exfalso. rewrite blen_app in Hc. lia. }
  rewrite skipn_blen. unfold behind. cbn [src lim cap]. rewrite !blen_app.
  replace (blen body + (blen junk + blen tail) - blen tail) with (blen all) by lia.
  rewrite skipn_blen. f_equal. f_equal. lia.
Qed.

Lemma fields_part fs l : Forall2 has fs l -> forall lim0 tail D,
  Forall (within D) l -> blen (enc_fields fs l) < 2 ^ 63 -> blen (enc_fields fs l) <= lim0 ->
  dec_fields fs (mkR (enc_fields fs l ++ tail) lim0 D) = (Got l, mkR tail (lim0 - blen (enc_fields fs l)) D).
Proof.
  intros H. induction H as [|f v fr lr Hv Hl IH]; intros lim0 tail D HD H63 HL.
  - cbn [enc_fields dec_fields app]. rewrite blen_nil, Z.sub_0_r. reflexivity.
  - cbn [enc_fields] in *. rewrite blen_app in *. inversion HD; subst.
    pose proof (blen_nonneg (enc_fields fr lr)). pose proof (blen_nonneg (enc f v)).
    cbn [dec_fields]. rewrite <- app_assoc. rewrite (reads_all f v Hv) by (assumption || lia).
    rewrite IH by (assumption || lia).
    f_equal. f_equal. lia.
Qed.

Lemma fields_zero gs s D : dec_fields gs (mkR s 0 D) = (Got (map zero gs), mkR s 0 D).
Proof.
  induction gs as [|g gs IH]; [reflexivity|]. cbn [dec_fields map]. rewrite dec_end'. now rewrite IH.
Qed.

Lemma fields_app_dec fs gs c : dec_fields (fs ++ gs) c =
  match dec_fields fs c with
  | (Got l, c1) => match dec_fields gs c1 with (Got m, c2) => (Got (l ++ m), c2) | x => x end
  | x => x
  end.
Proof.
  revert c. induction fs as [|f fs IH]; intros c; cbn [app dec_fields].
  - destruct (dec_fields gs c) as [o c2]. destruct o; reflexivity.
  - destruct (dec f c) as [o c1]. destruct o; try reflexivity; rewrite IH;
      destruct (dec_fields fs c1) as [o2 c2]; destruct o2; try reflexivity;
      destruct (dec_fields gs c2) as [o3 c3]; destruct o3; reflexivity.
Qed.

Lemma enc_fields_app fs gs l m : length fs = length l ->
  enc_fields (fs ++ gs) (l ++ m) = enc_fields fs l ++ enc_fields gs m.
Proof.
  revert l. induction fs as [|f fs IH]; intros l H; destruct l as [|x l]; try discriminate H; [reflexivity|].
  cbn [app enc_fields]. rewrite IH by (cbn in H; congruence). now rewrite app_assoc.
Qed.

Lemma forall2_len fs l : Forall2 has fs l -> length fs = length l.
Proof. intros H. induction H; cbn; congruence. Qed.

Lemma within_own fs l : Forall2 has fs l -> Forall (within (blen (enc_fields fs l))) l.
Proof.
  intros Hl. induction Hl as [|f x fr l Hx Hl IHl]; [constructor|].
  cbn [enc_fields]. rewrite blen_app. pose proof (blen_nonneg (enc_fields fr l)). pose proof (blen_nonneg (enc f x)). constructor.
  - eapply within_le; [|apply (within_enc f); exact Hx]. lia.
  - eapply Forall_impl; [|exact IHl]. intros y. apply within_le. lia.
Qed.

Theorem older fs more l rest : Forall2 has fs l ->
  blen (enc (TStruct fs) (VList (Some l))) < 2 ^ 63 ->
  unmarshal (TStruct (fs ++ more)) (enc (TStruct fs) (VList (Some l)) ++ rest)
  = Some (VList (Some (l ++ map zero more)), rest).
Proof.
  intros H H63. unfold unmarshal, reader_of. rewrite dec_struct, enc_struct in *.
  pose proof (blen_nonneg rest). pose proof (write_list_len (enc_fields fs l)).
  rewrite (listed_ok _ _ (l ++ map zero more)); [reflexivity|rewrite blen_app; lia|exact H63|].
  intros tail. rewrite blen_app. rewrite fields_app_dec, fields_part; [|exact H| |lia|lia].
  - rewrite Z.sub_diag, fields_zero. reflexivity.
  - eapply Forall_impl; [|apply within_own; exact H]. intros y. apply within_le. lia.
Qed.

Theorem newer fs l junk rest : Forall2 has fs l ->
  blen (write_list (enc_fields fs l ++ junk)) < 2 ^ 63 ->
  unmarshal (TStruct fs) (write_list (enc_fields fs l ++ junk) ++ rest) = Some (VList (Some l), rest).
Proof.
  intros H H63. unfold unmarshal, reader_of. rewrite dec_struct.
  pose proof (blen_nonneg rest). pose proof (write_list_len (enc_fields fs l ++ junk)) as K.
  pose proof (blen_nonneg junk).
  rewrite (listed_part _ _ _ l); [reflexivity|rewrite blen_app; lia|exact H63|].
  intros tail. cbv zeta. rewrite !blen_app in *. rewrite fields_part; [|exact H| |lia|lia].
  - f_equal. f_equal. lia.
  - eapply Forall_impl; [|apply within_own; exact H]. intros y. apply within_le. lia.
Qed.

Theorem newer_fields fs gs l m rest : Forall2 has fs l ->
  blen (enc (TStruct (fs ++ gs)) (VList (Some (l ++ m)))) < 2 ^ 63 ->
  unmarshal (TStruct fs) (enc (TStruct (fs ++ gs)) (VList (Some (l ++ m))) ++ rest) = Some (VList (Some l), rest).
Proof.
  intros H. rewrite enc_struct, enc_fields_app by (now apply forall2_len). now apply newer.
Qed.

(** ** Bytes which nobody writes *)

Lemma size_one n : 0 <= n < 256 -> go_SafeBytesToSize64 [n] = Some n.
Proof.
  intros H. unfold go_SafeBytesToSize64. change (8 <? blen [n]) with false. cbn [fold_left].
  change (Z.shiftl 0 8) with 0. rewrite Z.lor_0_l. unfold wrapu64. rewrite Z.mod_small by lia. reflexivity.
Qed.

Theorem long_form b rest : blen b < 256 ->
  unmarshal TBytes (184 :: blen b :: b ++ rest) = Some (VBytes (Some b), rest).
Proof.
  intros H. pose proof (blen_nonneg b). pose proof (blen_nonneg rest).
  unfold unmarshal, reader_of. rewrite !blen_cons, blen_app. cbn [dec]. unfold read_bytes.
  rewrite read_tag_cons by lia. change (184 <? 128) with false. change (184 <=? 183) with false.
  change (184 <? 192) with true. cbv beta iota. change (184 - 183) with 1. unfold read_size.
  pose proof (read_all_app [blen b] (b ++ rest) (1 + (1 + (blen b + blen rest)) - 1) (1 + (1 + (blen b + blen rest)))) as K.
  change (blen [blen b]) with 1 in K. cbn [app] in K. rewrite K by lia. rewrite size_one by lia.
  destruct (Z.leb_spec (blen b) (2 ^ 63 - 1)); [|lia]. cbn [cap].
  destruct (Z.ltb_spec (1 + (1 + (blen b + blen rest))) (blen b)); [lia|]. rewrite read_all_app by lia. reflexivity.
Qed.

Lemma over_cap b rest L C : 55 < blen b < 2 ^ 63 -> C < blen b -> 1 <= L ->
  exists r, dec TBytes (mkR (write_bytes b ++ rest) L C) = (Bad, r).
Proof.
  intros H HC HL. unfold write_bytes. cbv zeta.
  destruct (Z.eqb_spec (blen b) 0); [lia|]. destruct (Z.eqb_spec (blen b) 1); [lia|]. cbn [andb].
  destruct (Z.leb_spec (blen b) 55); [lia|]. destruct (size_ok (blen b)) as (_ & S1 & S2); [lia|].
  set (sz := go_SizeToBytes (blen b)) in *. rewrite Z.mod_small by lia. cbn [app]. rewrite <- app_assoc.
  cbn [dec]. unfold read_bytes. rewrite read_tag_cons by lia. cbn [cap].
  destruct (Z.ltb_spec (128 + 55 + blen sz) 128); [lia|].
  destruct (Z.leb_spec (128 + 55 + blen sz) 183); [lia|].
  destruct (Z.ltb_spec (128 + 55 + blen sz) 192); [|lia].
  replace (128 + 55 + blen sz - 183) with (blen sz) by lia.
  destruct (Z_le_gt_dec (blen sz) (L - 1)) as [Hs|Hs].
  - unfold sz at 1 2. rewrite read_size_app by (fold sz; lia). fold sz.
    destruct (Z.ltb_spec C (blen b)); [|lia]. eexists. reflexivity.
  - unfold read_size, read_all. cbn [lim src]. destruct (Z.leb_spec (blen sz) 0); [lia|].
    destruct (Z.leb_spec (blen sz) (L - 1)); [lia|]. cbn [andb]. eexists. reflexivity.
Qed.

(** A list of byte strings one of which is longer than what can be read. *)
Definition huge (v : val) : Prop := exists b, v = VBytes (Some b) /\ 1000000 < blen b.

Lemma over_elements l : forall fuel tail n D, Forall (has TBytes) l ->
  Exists huge l -> Forall (fun v => within D v \/ huge v) l -> D <= 1000000 ->
  blen (flat_map (enc TBytes) l) <= n -> blen (flat_map (enc TBytes) l) < 2 ^ 63 ->
  exists r, elements fuel (nullable TBytes (dec TBytes)) (mkR (flat_map (enc TBytes) l ++ tail) n D) = (Bad, r).
Proof.
  induction l as [|v l IH]; intros fuel tail n D Hl He Hw HD Hn H63; [inversion He|].
  inversion Hl as [|? ? Hv Hl']; subst. inversion Hw as [|? ? Hv' Hw']; subst.
  cbn [flat_map] in *. rewrite blen_app in *.
  pose proof (blen_nonneg (flat_map (enc TBytes) l)). pose proof (enc_len _ _ Hv).
  destruct fuel as [|fuel]; [eexists; reflexivity|]. cbn [elements]. unfold nullable at 1.
  rewrite <- app_assoc.
  destruct Hv' as [W|(b & -> & Hb)].
  - assert (Hb : huge v \/ ~ huge v).
    { destruct v as [[b|]| | | |]; try (right; intros (b0 & E & _); discriminate E).
      destruct (Z_lt_le_dec 1000000 (blen b)); [left; eexists; split; [reflexivity|assumption]|].
      right. intros (b0 & E & K). injection E as <-. lia. }
    destruct Hb as [(b & -> & Hb)|Hb]; [exfalso; cbn [within] in W; lia|].
    assert (Hex : Exists huge l) by (inversion He; subst; [contradiction|assumption]).
    rewrite (reads_all TBytes v Hv) by (assumption || lia).
    destruct (IH fuel tail (n - blen (enc TBytes v)) D) as (r & E); try assumption; try lia. rewrite E. eexists. reflexivity.
  - change (enc TBytes (VBytes (Some b))) with (write_bytes b) in *. pose proof (write_bytes_ge b).
    destruct (over_cap b (flat_map (enc TBytes) l ++ tail) n D) as (r & E); try lia.
    rewrite E. eexists. reflexivity.
Qed.

(** The same in a list, when what is around it lets it be read. *)
Lemma over_list l rest L C : Forall (has TBytes) l -> Exists huge l -> C <= 1000000 ->
  (forall v, In v l -> within C v \/ huge v) ->
  blen (enc (TSlice TBytes) (VList (Some l))) <= L -> blen (enc (TSlice TBytes) (VList (Some l))) < 2 ^ 63 ->
  exists r, dec (TSlice TBytes) (mkR (enc (TSlice TBytes) (VList (Some l)) ++ rest) L C) = (Bad, r).
Proof.
  intros Hl He HC Hw HL H63. change (enc (TSlice TBytes) (VList (Some l))) with (write_list (flat_map (enc TBytes) l)) in *.
  set (body := flat_map (enc TBytes) l) in *. pose proof (write_list_len body). pose proof (blen_nonneg body).
  change (dec (TSlice TBytes) (mkR (write_list body ++ rest) L C)) with
    (match listed (fun c => elements (S (length (src c))) (nullable TBytes (dec TBytes)) c) (mkR (write_list body ++ rest) L C) with
     | (IsNil, r') => (Got (VList None), r')
     | x => x
     end).
  unfold listed. rewrite read_list_ok by assumption. cbv beta iota zeta.
  set (r1 := mkR (body ++ rest) (L - head_len body) C).
  assert (EC : exists tail, child r1 (blen body) = mkR (body ++ tail) (blen body) (Z.min C (blen body))).
  { exists (firstn (Z.to_nat (L - head_len body) - length body) rest). unfold child, r1. cbn [src lim cap]. f_equal.
    rewrite firstn_app. f_equal. apply firstn_all2. unfold head_len, blen in *. lia. }
  destruct EC as (tail & EC). rewrite EC. cbn [src].
  destruct (over_elements l (S (length (body ++ tail))) tail (blen body) (Z.min C (blen body))) as (r & E);
    try assumption; fold body; try lia.
  - apply Forall_forall. intros v Hv. destruct (Hw v Hv) as [W|W]; [|right; exact W]. left.
    apply within_min; [exact W|]. assert (HH : has TBytes v) by (rewrite Forall_forall in Hl; auto).
    eapply within_le; [|apply (within_enc TBytes); exact HH].
    apply in_split in Hv. destruct Hv as (l1 & l2 & ->). unfold body. rewrite flat_map_app, blen_app. cbn [flat_map].
    rewrite blen_app. pose proof (blen_nonneg (flat_map (enc TBytes) l1)). pose proof (blen_nonneg (flat_map (enc TBytes) l2)). lia.
  - fold body in E. rewrite E. eexists. reflexivity.
Qed.

(** The body of a block (block/blockv2.go:96-101), read from the network or
    from a file. *)
Theorem over_body patches txs votes digest rest :
  let body := TStruct [TSlice TBytes; TSlice TBytes; TBytes; TBytes] in
  let v := VList (Some [VList (Some patches); VList (Some txs); VBytes votes; VBytes digest]) in
  has body v -> Exists huge txs -> Forall (within 1000000) patches ->
  blen (enc body v) < 2 ^ 63 -> unmarshal_stream body (enc body v ++ rest) = None.
Proof.
  cbv zeta. intros Hv He Hp. inversion Hv as [| | | | | | | | | | | | |fs0 l0 Hf]; subst. clear Hv.
  set (fs := [TSlice TBytes; TSlice TBytes; TBytes; TBytes]) in *.
  set (l := [VList (Some patches); VList (Some txs); VBytes votes; VBytes digest]) in *.
  rewrite enc_struct. intros H63. unfold unmarshal_stream. rewrite dec_struct. set (body := enc_fields fs l) in *.
  pose proof (write_list_len body). pose proof (blen_nonneg body). pose proof (blen_nonneg rest) as Hr0.
  unfold listed. rewrite read_list_ok by (rewrite ?blen_app; lia). cbv beta iota zeta.
  set (L := blen (write_list body ++ rest)). assert (HL : L = blen (write_list body) + blen rest) by apply blen_app.
  set (r1 := mkR (body ++ rest) (L - head_len body) 1000000).
  assert (EC : exists tail, child r1 (blen body) = mkR (body ++ tail) (blen body) (Z.min 1000000 (blen body))).
  { exists (firstn (Z.to_nat (L - head_len body) - length body) rest). unfold child, r1. cbn [src lim cap]. f_equal.
    rewrite firstn_app. f_equal. apply firstn_all2. unfold head_len, blen in *. lia. }
  destruct EC as (tail & EC). rewrite EC.
  inversion Hf as [|f1 v1 fr1 lr1 G1 Hf1]; subst. inversion Hf1 as [|f2 v2 fr2 lr2 G2 Hf2]; subst.
  set (e3 := enc_fields [TBytes; TBytes] [VBytes votes; VBytes digest]).
  set (e1 := enc (TSlice TBytes) (VList (Some patches))). set (e2 := enc (TSlice TBytes) (VList (Some txs))).
  assert (EB : body = e1 ++ e2 ++ e3) by reflexivity.
  assert (LB : blen body = blen e1 + (blen e2 + blen e3)) by (rewrite EB, !blen_app; reflexivity).
  pose proof (blen_nonneg e1). pose proof (blen_nonneg e2). pose proof (blen_nonneg e3).
  assert (E : exists r, dec_fields fs (mkR (body ++ tail) (blen body) (Z.min 1000000 (blen body))) = (Bad, r)).
  { replace (body ++ tail) with (e1 ++ e2 ++ e3 ++ tail) by (rewrite EB, <- !app_assoc; reflexivity).
    change (dec_fields fs) with (dec_fields (TSlice TBytes :: TSlice TBytes :: [TBytes; TBytes])).
    cbn [dec_fields]. unfold e1 at 1.
    assert (Hw1 : within (Z.min 1000000 (blen body)) (VList (Some patches))).
    { apply within_min; [apply within_all; exact Hp|]. eapply within_le; [|apply (within_enc _ _ G1)]. fold e1. lia. }
    rewrite (reads_all _ _ G1) by (try exact Hw1; fold e1; lia). fold e1.
    destruct (over_list txs (e3 ++ tail) (blen body - blen e1) (Z.min 1000000 (blen body))) as (r & E).
    - inversion G2; assumption.
    - exact He.
    - lia.
    - intros v Hv. assert (HH : has TBytes v) by (inversion G2 as [| | | | | | | | | | |t0 l0 Hl0| |]; subst; rewrite Forall_forall in Hl0; auto).
      destruct v as [[b|]| | | |]; try (inversion HH; fail).
      + destruct (Z_le_gt_dec (blen b) 1000000) as [Hb|Hb]; [left|right; exists b; split; [reflexivity|lia]].
        apply within_min; [exact Hb|]. pose proof (within_enc _ _ G2) as W. cbn [within] in W. apply (proj1 (within_all _ _)) in W.
        rewrite Forall_forall in W. eapply within_le; [|apply W; exact Hv]. fold e2. lia.
      + left. exact Logic.I.
    - fold e2. lia.
    - fold e2. lia.
    - fold e2 in E. rewrite E. eexists. reflexivity. }
  destruct E as (r & E). rewrite E. reflexivity.
Qed.

Lemma dec_ptr t r : dec (TPtr t) r =
  match dec t r with
  | (Got v, r') => (Got (VPtr (Some v)), r')
  | (IsNil, r') => (Got (VPtr None), r')
  | x => x
  end.
Proof. reflexivity. Qed.

(** A null in a field which has none: the elements of the struct become those
    of the list around it. *)
Lemma inside_struct f fs x l : has_nil f = false -> proper (TStruct (f :: fs)) -> has (TPtr (TStruct (f :: fs))) x ->
  Forall (has (TPtr (TStruct (f :: fs)))) l ->
  let t := TPtr (TStruct (f :: fs)) in
  let bs := write_list (write_list (write_null ++ enc t x ++ flat_map (enc t) l)) in
  blen bs < 2 ^ 63 ->
  forall rest, unmarshal (TSlice t) (bs ++ rest) = Some (VList (Some (VPtr None :: x :: l)), rest).
Proof.
  intros Hf Hp Hx Hl t bs H63 rest. pose proof (blen_nonneg rest) as Hr0.
  set (inn := flat_map (enc t) (x :: l)). set (body := write_null ++ inn).
  assert (Eb : bs = write_list (write_list body)) by reflexivity.
  assert (Hxl : Forall (has t) (x :: l)) by (constructor; assumption).
  pose proof (write_list_len body) as B1. pose proof (write_list_len (write_list body)) as B2.
  assert (LB : blen body = 2 + blen inn) by (unfold body; now rewrite blen_app, write_null_len).
  pose proof (blen_nonneg inn) as HI.
  assert (K : listed (fun c => elements (S (length (src c))) (nullable t (dec t)) c)
                (mkR (bs ++ rest) (blen (bs ++ rest)) (blen (bs ++ rest))) =
              (Got (VList (Some (VPtr None :: x :: l))), mkR rest (blen (bs ++ rest) - blen bs) (blen (bs ++ rest)))).
  { rewrite Eb in *. apply listed_ok; [rewrite blen_app; lia|exact H63|].
    intros tail. cbn [src]. set (D := Z.min _ _). assert (HD : blen (write_list body) <= D) by (unfold D; rewrite blen_app; lia).
    remember (length (write_list body ++ tail)) as fuel eqn:EF. cbn [elements]. unfold nullable at 1.
    assert (ED : dec t (mkR (write_list body ++ tail) (blen (write_list body)) D)
                 = (Got (VPtr None), mkR (inn ++ tail) (blen inn) D)).
    { unfold t at 1. rewrite dec_ptr, dec_struct. unfold listed.
      rewrite read_list_ok by lia. cbv beta iota zeta.
      set (r1 := mkR (body ++ tail) (blen (write_list body) - head_len body) D).
      assert (EH : blen (write_list body) - head_len body = blen body) by (unfold head_len; lia).
      assert (EC : child r1 (blen body) = mkR (write_null ++ inn) (blen body) (Z.min D (blen body))).
      { unfold child, r1. cbn [src lim cap]. rewrite EH. f_equal. unfold blen. rewrite Nat2Z.id, firstn_app, Nat.sub_diag, firstn_all.
        cbn [firstn]. now rewrite app_nil_r. }
      rewrite EC. cbn [dec_fields]. rewrite dec_null by (assumption || lia). f_equal.
      unfold behind. cbn [src lim cap r1]. rewrite EH, blen_app, write_null_len.
      replace (2 + blen inn - blen inn) with 2 by lia. replace (blen body - 2) with (blen inn) by lia. f_equal. }
    rewrite ED. unfold inn. rewrite elements_ok; [reflexivity|apply reads_all|exact Hxl| | |fold inn; lia].
    - fold inn. rewrite EF, app_length. unfold blen in *. lia.
    - eapply Forall_impl with (P := within (Z.min (blen inn) (blen inn))).
      + intros y. apply within_le. lia.
      + apply within_body; [exact Hxl|]. apply Forall_forall. intros y Hy.
        assert (HH : has t y) by (rewrite Forall_forall in Hxl; auto).
        eapply within_le; [|apply (within_enc t); exact HH].
        apply in_split in Hy. destruct Hy as (l1 & l2 & El). unfold inn. rewrite El, flat_map_app, blen_app. cbn [flat_map].
        rewrite blen_app. pose proof (blen_nonneg (flat_map (enc t) l1)). pose proof (blen_nonneg (flat_map (enc t) l2)). lia. }
  unfold unmarshal, reader_of. cbn [dec]. fold t. rewrite K. reflexivity.
Qed.
