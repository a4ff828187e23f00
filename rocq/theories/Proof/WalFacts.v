(** The files of the write-ahead log: facts about the disk and the reader. *)
Require Import ZArith List Bool Lia.
From Verif Require Import Model.Wal Spec.WalSpec.
Import ListNotations.
Open Scope Z_scope.

(** ** A disk with consecutive files *)

Definition mk (h : nat) (fs : list bytes) : disk := combine (seq h (length fs)) fs.

Lemma mk_cons : forall h f fs, mk h (f :: fs) = (h, f) :: mk (S h) fs.
Proof. reflexivity. Qed.

Lemma mk_app : forall fs h gs, mk h (fs ++ gs) = mk h fs ++ mk (h + length fs) gs.
Proof.
  induction fs as [|f fs IH]; intros h gs.
  - cbn. now rewrite Nat.add_0_r.
  - cbn [app length]. rewrite !mk_cons, IH. cbn [app].
    do 2 f_equal. f_equal. lia.
Qed.

Lemma get_mk_low : forall fs h i, (i < h)%nat -> get (mk h fs) i = None.
Proof.
  induction fs as [|f fs IH]; intros h i Hi; [reflexivity|].
  rewrite mk_cons. cbn [get]. destruct (Nat.eqb_spec i h); [lia|].
  apply IH. lia.
Qed.

Lemma get_mk : forall fs h i, get (mk h fs) (h + i) = nth_error fs i.
Proof.
  induction fs as [|f fs IH]; intros h i.
  - now destruct i.
  - rewrite mk_cons. cbn [get]. destruct (Nat.eqb_spec (h + i) h) as [E|E].
    + replace i with O by lia. reflexivity.
    + destruct i; [lia|]. replace (h + S i)%nat with (S h + i)%nat by lia. apply IH.
Qed.

Lemma get_tail : forall fs h t, get (mk h (fs ++ [t])) (h + length fs) = Some t.
Proof.
  intros. rewrite get_mk, nth_error_app2 by lia. now rewrite Nat.sub_diag.
Qed.

Lemma put_tail : forall fs h t u,
  put (mk h (fs ++ [t])) (h + length fs) u = mk h (fs ++ [u]).
Proof.
  induction fs as [|f fs IH]; intros h t u.
  - cbn. rewrite Nat.add_0_r, Nat.eqb_refl. reflexivity.
  - cbn [app length]. rewrite !mk_cons. cbn [put].
    destruct (Nat.eqb_spec (h + S (length fs)) h); [lia|].
    f_equal. replace (h + S (length fs))%nat with (S h + length fs)%nat by lia. apply IH.
Qed.

Lemma put_new : forall fs h u, put (mk h fs) (h + length fs) u = mk h (fs ++ [u]).
Proof.
  induction fs as [|f fs IH]; intros h u.
  - cbn. now rewrite Nat.add_0_r.
  - cbn [app length]. rewrite !mk_cons. cbn [put].
    destruct (Nat.eqb_spec (h + S (length fs)) h); [lia|].
    f_equal. replace (h + S (length fs))%nat with (S h + length fs)%nat by lia. apply IH.
Qed.

Lemma create_new : forall fs h, create (mk h fs) (h + length fs) = mk h (fs ++ [[]]).
Proof.
  intros. unfold create. rewrite get_mk.
  replace (nth_error fs (length fs)) with (@None bytes)
    by (symmetry; apply nth_error_None; lia).
  apply put_new.
Qed.

Lemma create_tail : forall fs h t,
  create (mk h (fs ++ [t])) (h + length fs) = mk h (fs ++ [t]).
Proof. intros. unfold create. now rewrite get_tail. Qed.

Lemma del_low : forall fs h i, (i < h)%nat -> del (mk h fs) i = mk h fs.
Proof.
  induction fs as [|f fs IH]; intros h i Hi; [reflexivity|].
  rewrite mk_cons. unfold del in *. cbn [filter fst].
  destruct (Nat.eqb_spec i h); [lia|]. cbn [negb]. rewrite IH by lia. reflexivity.
Qed.

Lemma del_head : forall fs h f, del (mk h (f :: fs)) h = mk (S h) fs.
Proof.
  intros. rewrite mk_cons.
  unfold del. cbn [filter fst]. rewrite Nat.eqb_refl. cbn [negb].
  apply (del_low fs (S h) h). lia.
Qed.

Lemma indexes_fold : forall fs h a b, (a < h)%nat -> (b < h)%nat ->
  fold_left Nat.min (map fst (mk h fs)) a = a /\
  fold_left Nat.max (map fst (mk h fs)) b = match fs with [] => b | _ => (h + length fs - 1)%nat end.
Proof.
  induction fs as [|f fs IH]; intros h a b Ha Hb; [now split|].
  rewrite mk_cons. cbn [map fst fold_left].
  replace (Nat.min a h) with a by lia. replace (Nat.max b h) with h by lia.
  destruct (IH (S h) a h) as [E1 E2]; [lia|lia|]. rewrite E1, E2. split; [reflexivity|].
  destruct fs; cbn [length]; lia.
Qed.

Lemma indexes_mk : forall fs h t, indexes (mk h (fs ++ [t])) = Some (h, (h + length fs)%nat).
Proof.
  intros fs h t. destruct fs as [|f fs].
  - cbn. now rewrite Nat.add_0_r.
  - cbn [app]. rewrite mk_cons. unfold indexes.
    destruct (indexes_fold (fs ++ [t]) (S h) h h) as [E1 E2]; [lia|lia|].
    rewrite E1, E2. do 2 f_equal.
    assert (length (fs ++ [t]) = S (length fs)) by (rewrite app_length; cbn [length]; lia).
    destruct (fs ++ [t]); cbn [length] in *; lia.
Qed.

Lemma contents_mk : forall fs h gs,
  contents (mk h (gs ++ fs)) (seq (h + length gs) (length fs)) = Some (concat fs).
Proof.
  induction fs as [|f fs IH]; intros h gs; [reflexivity|].
  cbn [length seq contents].
  rewrite get_mk, nth_error_app2 by lia. rewrite Nat.sub_diag. cbn [nth_error].
  specialize (IH h (gs ++ [f])). rewrite <- app_assoc in IH. cbn [app] in IH.
  rewrite app_length in IH. cbn [length] in IH.
  replace (h + (length gs + 1))%nat with (S (h + length gs)) in IH by lia.
  rewrite IH. reflexivity.
Qed.

Lemma sizes_mk : forall fs h gs,
  map (fun i => match get (mk h (gs ++ fs)) i with Some b => size b | None => 0 end)
      (seq (h + length gs) (length fs)) = map size fs.
Proof.
  induction fs as [|f fs IH]; intros h gs; [reflexivity|].
  cbn [length seq map].
  rewrite get_mk, nth_error_app2 by lia. rewrite Nat.sub_diag. cbn [nth_error].
  specialize (IH h (gs ++ [f])). rewrite <- app_assoc in IH. cbn [app] in IH.
  rewrite app_length in IH. cbn [length] in IH.
  replace (h + (length gs + 1))%nat with (S (h + length gs)) in IH by lia.
  rewrite IH. reflexivity.
Qed.

Lemma contents_all : forall fs h, contents (mk h fs) (seq h (length fs)) = Some (concat fs).
Proof.
  intros fs h. pose proof (contents_mk fs h []) as E. cbn [app length] in E.
  now rewrite Nat.add_0_r in E.
Qed.

Lemma sizes_all : forall fs h t,
  file_sizes (mk h (fs ++ [t])) h (h + length fs) = map size (fs ++ [t]).
Proof.
  intros. unfold file_sizes. pose proof (sizes_mk (fs ++ [t]) h []) as E.
  cbn [app length] in E. rewrite Nat.add_0_r in E.
  replace (S (h + length fs) - h)%nat with (length (fs ++ [t])) by (rewrite app_length; cbn [length]; lia).
  exact E.
Qed.

Definition sum (l : list Z) : Z := fold_right Z.add 0 l.

Lemma size_nonneg : forall b, 0 <= size b.
Proof. intros. unfold size. lia. Qed.

Lemma size_app : forall a b, size (a ++ b) = size a + size b.
Proof. intros. unfold size. rewrite app_length. lia. Qed.

Lemma total_mk : forall fs h, total_size (mk h fs) = size (concat fs).
Proof.
  induction fs as [|f fs IH]; intros h; [reflexivity|].
  rewrite mk_cons. unfold total_size in *. cbn [fold_right snd concat].
  rewrite IH, size_app. reflexivity.
Qed.

Lemma sum_sizes : forall fs, sum (map size fs) = size (concat fs).
Proof.
  induction fs as [|f fs IH]; [reflexivity|].
  cbn [map concat]. unfold sum in *. cbn [fold_right]. rewrite IH, size_app. reflexivity.
Qed.

(** ** The repair *)

Lemma repair_skip : forall d tail pre s idx lft,
  sum (map size pre) < lft ->
  repair d (map size pre ++ [s]) idx tail lft =
  repair d [s] (idx + length pre) tail (lft - sum (map size pre)).
Proof.
  induction pre as [|f pre IH]; intros s idx lft H.
  - cbn [map app length]. unfold sum. cbn [fold_right].
    rewrite Nat.add_0_r, Z.sub_0_r. reflexivity.
  - cbn [map app]. cbn [map] in H. unfold sum in H. cbn [fold_right] in H. fold (sum (map size pre)) in H.
    pose proof (size_nonneg f).
    assert (0 <= sum (map size pre)) by (rewrite sum_sizes; apply size_nonneg).
    cbn [repair]. destruct (Z.leb_spec lft (size f)); [lia|].
    rewrite IH by lia. cbn [length].
    change (sum (size f :: map size pre)) with (size f + sum (map size pre)).
    replace (idx + S (length pre))%nat with (S idx + length pre)%nat by lia.
    replace (lft - size f - sum (map size pre)) with (lft - (size f + sum (map size pre))) by lia.
    reflexivity.
Qed.

Lemma repair_tail : forall fs h t lft,
  (fs = [] \/ size (concat fs) < lft) ->
  size (concat fs) <= lft < size (concat fs) + size t ->
  repair (mk h (fs ++ [t])) (map size (fs ++ [t])) h (h + length fs) lft =
  (mk h (fs ++ [firstn (Z.to_nat (lft - size (concat fs))) t]), true).
Proof.
  intros fs h t lft Hp Hb. rewrite map_app. cbn [map].
  assert (E : repair (mk h (fs ++ [t])) (map size fs ++ [size t]) h (h + length fs) lft =
              repair (mk h (fs ++ [t])) [size t] (h + length fs) (h + length fs)
                     (lft - size (concat fs))).
  { destruct Hp as [-> | Hp].
    - cbn [app map length concat]. rewrite Nat.add_0_r. f_equal. unfold size. cbn. lia.
    - rewrite repair_skip by (rewrite sum_sizes; lia). now rewrite sum_sizes. }
  refine (eq_trans E _). cbn [repair].
  destruct (Z.leb_spec (lft - size (concat fs)) (size t)); [|lia].
  destruct (Z.ltb_spec (lft - size (concat fs)) (size t)); [|lia].
  rewrite get_tail, put_tail. rewrite Nat.sub_diag. reflexivity.
Qed.

(** ** The reader *)

Lemma be32_len : forall n, length (be32 n) = 4%nat.
Proof. reflexivity. Qed.

Lemma of_be32_be32 : forall n, 0 <= n < 2 ^ 32 -> of_be32 (be32 n) = n.
Proof.
  intros n H. unfold be32. cbv zeta. rewrite (Z.mod_small n) by lia. unfold of_be32.
  pose proof (Z.div_mod n 256 ltac:(lia)) as E0.
  pose proof (Z.div_mod (n / 256) 256 ltac:(lia)) as E1.
  pose proof (Z.div_mod (n / 256 / 256) 256 ltac:(lia)) as E2.
  rewrite !Z.div_div in E1, E2 by lia. rewrite !Z.div_div in E2 by lia.
  change (2 ^ 24) with 16777216. change (2 ^ 16) with 65536. change (2 ^ 8) with 256.
  change (256 * 256) with 65536 in *. change (65536 * 256) with 16777216 in *.
  lia.
Qed.

Section Reader.
  Variable crc : bytes -> Z.
  Hypothesis crc_32 : forall p, 0 <= crc p < 2 ^ 32.

  Definition frames (rs : list bytes) : bytes := concat (map (frame crc) rs).

  Lemma frame_size : forall p, size (frame crc p) = 8 + size p.
  Proof.
    intros. unfold frame. rewrite !size_app. unfold size at 1 2. rewrite !be32_len. lia.
  Qed.

  Lemma frames_app : forall a b, frames (a ++ b) = frames a ++ frames b.
  Proof. intros. unfold frames. now rewrite map_app, concat_app. Qed.

  Lemma frames_size : forall rs, size (frames rs) = space rs.
  Proof.
    induction rs as [|p rs IH]; [reflexivity|].
    change (frames (p :: rs)) with (frame crc p ++ frames rs).
    rewrite size_app, IH, frame_size. reflexivity.
  Qed.

  Lemma frames_concat : forall fs, concat (map frames fs) = frames (concat fs).
  Proof.
    induction fs as [|f fs IH]; [reflexivity|].
    cbn [map concat]. now rewrite frames_app, IH.
  Qed.

  Definition fit (p : bytes) : Prop := 8 + size p < 2 ^ 32.

  Lemma read_frame : forall p s, fit p -> read_one crc (frame crc p ++ s) = inl (p, s).
  Proof.
    intros p s Hf. unfold fit in Hf. pose proof (size_nonneg p) as Hp. pose proof (size_nonneg s) as Hs.
    unfold read_one. rewrite size_app, frame_size.
    destruct (Z.eqb_spec (8 + size p + size s) 0); [lia|].
    destruct (Z.ltb_spec (8 + size p + size s) 8); [lia|].
    assert (E1 : firstn 4 (frame crc p ++ s) = be32 (crc p)) by reflexivity.
    assert (E2 : firstn 4 (skipn 4 (frame crc p ++ s)) = be32 (size p)) by reflexivity.
    assert (E3 : skipn 8 (frame crc p ++ s) = p ++ s) by reflexivity.
    cbv zeta. rewrite E1, E2, E3. rewrite !of_be32_be32 by (auto; lia).
    destruct (Z.leb_spec (size p) 0).
    - destruct p; [|unfold size in *; cbn in *; lia]. now rewrite Z.eqb_refl.
    - rewrite size_app.
      destruct (Z.eqb_spec (size p + size s) 0); [lia|].
      destruct (Z.ltb_spec (size p + size s) (size p)); [lia|].
      unfold size. rewrite Nat2Z.id. rewrite firstn_app, Nat.sub_diag, firstn_all.
      cbn [firstn]. rewrite app_nil_r, Z.eqb_refl.
      rewrite skipn_app, Nat.sub_diag, skipn_all. reflexivity.
  Qed.

  Lemma read_junk : forall p k, fit p -> 0 < k < size (frame crc p) -> k <> 8 ->
    read_one crc (firstn (Z.to_nat k) (frame crc p)) = inr UnexpectedEOF.
  Proof.
    intros p k Hf Hk H8. rewrite frame_size in Hk. unfold fit in Hf.
    assert (Hlen : size (firstn (Z.to_nat k) (frame crc p)) = k).
    { unfold size. rewrite firstn_length.
      pose proof (frame_size p) as E. unfold size in E. unfold size in Hk. lia. }
    unfold read_one. rewrite Hlen.
    destruct (Z.eqb_spec k 0); [lia|].
    destruct (Z.ltb_spec k 8); [reflexivity|].
    assert (Ek : Z.to_nat k = (8 + Z.to_nat (k - 8))%nat) by lia.
    assert (E : firstn (Z.to_nat k) (frame crc p) =
                be32 (crc p) ++ be32 (size p) ++ firstn (Z.to_nat (k - 8)) p).
    { rewrite Ek. reflexivity. }
    rewrite E. cbv zeta.
    assert (E2 : firstn 4 (skipn 4 (be32 (crc p) ++ be32 (size p) ++ firstn (Z.to_nat (k - 8)) p)) = be32 (size p)) by reflexivity.
    assert (E3 : skipn 8 (be32 (crc p) ++ be32 (size p) ++ firstn (Z.to_nat (k - 8)) p) = firstn (Z.to_nat (k - 8)) p) by reflexivity.
    rewrite E2, E3. pose proof (size_nonneg p). rewrite of_be32_be32 by lia.
    assert (Hs : size (firstn (Z.to_nat (k - 8)) p) = k - 8).
    { unfold size. rewrite firstn_length. unfold size in Hk. lia. }
    rewrite Hs.
    destruct (Z.leb_spec (size p) 0); [lia|].
    destruct (Z.eqb_spec (k - 8) 0); [lia|].
    destruct (Z.ltb_spec (k - 8) (size p)); [reflexivity|lia].
  Qed.

  Lemma read_header : forall p, fit p -> p <> [] ->
    read_one crc (firstn 8 (frame crc p)) = inr EOF.
  Proof.
    intros p Hf Hp. unfold fit in Hf.
    change (firstn 8 (frame crc p)) with (be32 (crc p) ++ be32 (size p) ++ []).
    unfold read_one. rewrite !size_app. cbv zeta.
    change (size (be32 (crc p)) + (size (be32 (size p)) + size [])) with 8.
    cbv beta iota. change (8 =? 0) with false. change (8 <? 8) with false. cbv iota.
    change (firstn 4 (skipn 4 (be32 (crc p) ++ be32 (size p) ++ []))) with (be32 (size p)).
    change (skipn 8 (be32 (crc p) ++ be32 (size p) ++ [])) with (@nil byte).
    pose proof (size_nonneg p). rewrite of_be32_be32 by lia.
    destruct (Z.leb_spec (size p) 0); [|reflexivity].
    destruct p; [congruence|]. unfold size in *. cbn in *. lia.
  Qed.

  Lemma read_all_frames : forall rs fuel junk e,
    Forall fit rs -> (length (frames rs ++ junk) < fuel)%nat ->
    read_one crc junk = inr e ->
    read_all crc fuel (frames rs ++ junk) = (rs, e, space rs).
  Proof.
    induction rs as [|p rs IH]; intros fuel junk e Hf Hl Hj.
    - destruct fuel; [lia|]. cbn [frames map concat app read_all]. rewrite Hj. reflexivity.
    - destruct fuel; [lia|].
      inversion Hf as [|p0 rs0 Hfp Hfr]; subst p0 rs0.
      change (frames (p :: rs)) with (frame crc p ++ frames rs) in *.
      rewrite <- app_assoc in *.
      cbn [read_all]. rewrite read_frame by assumption.
      pose proof (frame_size p) as E. unfold size in E.
      rewrite app_length in Hl.
      rewrite (IH fuel junk e); [|assumption|lia|assumption].
      unfold fit, size in Hfp. pose proof (size_nonneg p). unfold size in *.
      rewrite Z.mod_small by lia. reflexivity.
  Qed.

  (** ** Where a crash cuts *)

  Lemma whole_le : forall rs n, (whole rs n <= length rs)%nat.
  Proof.
    induction rs as [|p rs IH]; intros n; cbn [whole length]; [lia|].
    destruct (_ <=? _); [|lia]. specialize (IH (n - (8 + Z.of_nat (length p)))). lia.
  Qed.

  Lemma space_nonneg : forall rs, 0 <= space rs.
  Proof. intros. rewrite <- frames_size. apply size_nonneg. Qed.

  Lemma space_app : forall a b, space (a ++ b) = space a + space b.
  Proof. intros. rewrite <- !frames_size, frames_app. apply size_app. Qed.

  (** The bytes before the cut: whole records, and a piece of the next one. *)
  Lemma cut : forall rs n, 0 <= n <= space rs ->
    let m := whole rs n in
    space (firstn m rs) <= n /\
    firstn (Z.to_nat n) (frames rs) =
      frames (firstn m rs) ++
      match nth_error rs m with
      | None => []
      | Some p => firstn (Z.to_nat (piece rs n)) (frame crc p)
      end /\
    match nth_error rs m with
    | None => piece rs n = 0
    | Some p => 0 <= piece rs n < 8 + size p
    end.
  Proof.
    induction rs as [|p rs IH]; intros n Hn m.
    - subst m. cbn [whole firstn nth_error]. unfold piece. cbn [whole firstn].
      change (space []) with 0 in *. replace n with 0 by lia. repeat split; reflexivity.
    - subst m. unfold piece. cbn [whole].
      change (space (p :: rs)) with (8 + Z.of_nat (length p) + space rs) in Hn.
      destruct (Z.leb_spec (8 + Z.of_nat (length p)) n) as [H|H].
      + cbv beta iota. set (n1 := n - (8 + Z.of_nat (length p))) in *.
        destruct (IH n1) as [H1 [H2 H3]]; [lia|].
        cbn [firstn nth_error]. unfold piece in *. set (m := whole rs n1) in *.
        change (space (p :: firstn m rs)) with (8 + Z.of_nat (length p) + space (firstn m rs)).
        replace (n - (8 + Z.of_nat (length p) + space (firstn m rs))) with (n1 - space (firstn m rs)) by lia.
        split; [lia|]. split; [|exact H3].
        change (frames (p :: rs)) with (frame crc p ++ frames rs).
        change (frames (p :: firstn m rs)) with (frame crc p ++ frames (firstn m rs)).
        rewrite <- app_assoc, <- H2, firstn_app.
        pose proof (frame_size p) as E. unfold size in E.
        rewrite firstn_all2 by lia. do 2 f_equal. lia.
      + cbv beta iota. cbn [firstn nth_error]. change (space []) with 0.
        rewrite Z.sub_0_r. split; [lia|]. split; [|unfold size; lia].
        change (frames (p :: rs)) with (frame crc p ++ frames rs).
        change (frames []) with (@nil byte). cbn [app].
        rewrite firstn_app. pose proof (frame_size p) as E. unfold size in E.
        replace (Z.to_nat n - length (frame crc p))%nat with O by lia.
        cbn [firstn]. apply app_nil_r.
  Qed.

  Lemma whole_mono : forall rs k n, (k <= length rs)%nat -> space (firstn k rs) <= n ->
    (k <= whole rs n)%nat.
  Proof.
    induction rs as [|p rs IH]; intros k n Hk Hs; cbn [length] in Hk; [lia|].
    destruct k; [lia|]. cbn [firstn] in Hs.
    change (space (p :: firstn k rs)) with (8 + Z.of_nat (length p) + space (firstn k rs)) in Hs.
    pose proof (space_nonneg (firstn k rs)). cbn [whole].
    destruct (Z.leb_spec (8 + Z.of_nat (length p)) n); [|lia].
    specialize (IH k (n - (8 + Z.of_nat (length p)))). lia.
  Qed.
End Reader.
