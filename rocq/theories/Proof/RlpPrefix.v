(** What is read depends only on the bytes which are taken away. *)
From Coq Require Import ZArith List Lia Bool.
From Verif Require Import Model.Bytes Model.IntCodec Proof.BytesFacts Model.Rlp Spec.RlpSpec Proof.RlpFacts.
Import ListNotations.
Open Scope Z_scope.

(** [f] takes one byte or more away and gives the same whatever is behind them;
    the end is only where nothing is left. *)
Definition steady {A} (f : reader -> outcome A * reader) : Prop :=
  forall r o r', f r = (o, r') ->
  match o with
  | Bad => True
  | AtEnd => lim r <= 0 /\ r' = r
  | _ => exists p, src r = p ++ src r' /\ lim r' = lim r - blen p /\ cap r' = cap r /\ 1 <= blen p <= lim r /\
           forall s L C, blen p <= L -> blen p <= C -> f (mkR (p ++ s) L C) = (o, mkR s (L - blen p) C)
  end /\ forall r0, lim r0 <= 0 -> f r0 = (AtEnd, r0).

Lemma read_all_takes n r bs r' : read_all n r = (Got bs, r') ->
  (n <= 0 /\ bs = [] /\ r' = r) \/
  (0 < n /\ n = blen bs /\ src r = bs ++ src r' /\ lim r' = lim r - n /\ cap r' = cap r /\ n <= lim r).
Proof.
  unfold read_all. destruct (Z.leb_spec n 0) as [H0|H0]; intros H.
  - left. injection H as <- <-. repeat split. exact H0.
  - right. destruct (Z.leb_spec n (lim r)) as [H1|H1]; [|discriminate H].
    destruct (Z.leb_spec n (blen (src r))) as [H2|H2]; [|discriminate H]. cbn [andb] in H.
    injection H as <- <-. cbn [src lim cap]. unfold blen in *. rewrite firstn_length.
    split; [lia|]. split; [lia|]. rewrite firstn_skipn. repeat split. lia.
Qed.

Lemma read_all_other n r o r' : read_all n r = (o, r') -> match o with Got _ | Bad => True | _ => False end.
Proof. unfold read_all. destruct (n <=? 0), ((n <=? lim r) && (n <=? blen (src r))); intros H; injection H as <- <-; exact Logic.I. Qed.

Lemma read_size_takes n r v r' : 1 <= n -> read_size n r = (Got v, r') ->
  exists bs, blen bs = n /\ src r = bs ++ src r' /\ lim r' = lim r - n /\ cap r' = cap r /\ n <= lim r /\
    0 <= v <= 2 ^ 63 - 1 /\
    forall s L C, n <= L -> read_size n (mkR (bs ++ s) L C) = (Got v, mkR s (L - n) C).
Proof.
  intros Hn. unfold read_size at 1. destruct (read_all n r) as [o r1] eqn:E.
  pose proof (read_all_other _ _ _ _ E). destruct o as [bs| | |]; try contradiction; [|discriminate].
  apply read_all_takes in E. destruct E as [E|(_ & E1 & E2 & E3 & E4 & E5)]; [lia|].
  destruct (go_SafeBytesToSize64 bs) as [z|] eqn:Ez; [|discriminate].
  destruct (Z.leb_spec z (2 ^ 63 - 1)) as [Hz|Hz]; [|discriminate].
  intros H1. injection H1 as <- <-. exists bs. split; [lia|]. split; [exact E2|]. split; [exact E3|].
  split; [exact E4|]. split; [exact E5|]. split.
  - split; [|exact Hz]. unfold go_SafeBytesToSize64 in Ez. destruct bs as [|b bs]; [injection Ez as <-; lia|].
    destruct (8 <? blen (b :: bs)); [discriminate Ez|]. injection Ez as <-.
    destruct bs as [|b2 bs] using rev_ind; [cbn; unfold wrapu64; apply Z.mod_pos_bound; lia|].
    change (b :: bs ++ [b2]) with ((b :: bs) ++ [b2]). rewrite fold_left_app. cbn [fold_left].
    unfold wrapu64. apply Z.mod_pos_bound. lia.
  - intros s L C HL. unfold read_size. rewrite E1. rewrite read_all_app by lia. rewrite Ez.
    destruct (Z.leb_spec z (2 ^ 63 - 1)); [reflexivity|lia].
Qed.

Lemma read_tag_takes r v r' : read_tag r = (Got v, r') ->
  src r = v :: src r' /\ lim r' = lim r - 1 /\ cap r' = cap r /\ 1 <= lim r.
Proof.
  unfold read_tag. destruct (Z.leb_spec (lim r) 0); [discriminate|].
  destruct (src r) as [|b s] eqn:E; [discriminate|]. intros H1. injection H1 as <- <-. cbn. repeat split. lia.
Qed.

Lemma read_tag_end r r' : read_tag r = (AtEnd, r') -> lim r <= 0 /\ r' = r.
Proof.
  unfold read_tag. destruct (Z.leb_spec (lim r) 0); [intros H1; injection H1 as <-; auto|].
  destruct (src r); discriminate.
Qed.

Lemma read_tag_nil r r' : read_tag r <> (IsNil, r').
Proof. unfold read_tag. destruct (lim r <=? 0), (src r); discriminate. Qed.

Lemma read_tag_at_end r : lim r <= 0 -> read_tag r = (AtEnd, r).
Proof. intros H. unfold read_tag. destruct (Z.leb_spec (lim r) 0); [reflexivity|lia]. Qed.

Lemma read_bytes_steady : steady read_bytes.
Proof.
  intros r o r' H. split; [|intros r0 H0; unfold read_bytes; now rewrite read_tag_at_end].
  unfold read_bytes in H. destruct (read_tag r) as [ot r1] eqn:Et. destruct ot as [tag| | |].
  2:{ injection H as <- <-. now apply read_tag_end in Et. }
  2:{ now apply read_tag_nil in Et. }
  2:{ injection H as <- <-. exact Logic.I. }
  apply read_tag_takes in Et. destruct Et as (T1 & T2 & T3 & T4).
  destruct (Z.ltb_spec tag 128) as [H1|H1].
  { injection H as <- <-. exists [tag]. change (blen [tag]) with 1. split; [exact T1|]. split; [exact T2|].
    split; [exact T3|]. split; [lia|]. intros s L C HL HC. cbn [app]. unfold read_bytes.
    rewrite read_tag_cons by lia. destruct (Z.ltb_spec tag 128); [reflexivity|lia]. }
  destruct (Z.leb_spec tag 183) as [H2|H2].
  { destruct o as [bs| | |].
    2:{ now apply read_all_other in H. } 2:{ now apply read_all_other in H. } 2:{ exact Logic.I. }
    apply read_all_takes in H. exists (tag :: bs). rewrite blen_cons.
    destruct H as [(K1 & -> & ->)|(K1 & K2 & K3 & K4 & K5 & K6)].
    - rewrite blen_nil. split; [exact T1|]. split; [lia|]. split; [exact T3|]. split; [lia|].
      intros s L C HL HC. cbn [app]. unfold read_bytes.
      rewrite read_tag_cons by lia. destruct (Z.ltb_spec tag 128); [lia|]. destruct (Z.leb_spec tag 183); [|lia].
      unfold read_all. destruct (Z.leb_spec (tag - 128) 0); [|lia]. f_equal. 
    - split; [rewrite T1; cbn [app]; now rewrite K3|]. split; [lia|]. split; [congruence|]. split; [lia|].
      intros s L C HL HC. cbn [app]. unfold read_bytes.
      rewrite read_tag_cons by lia. destruct (Z.ltb_spec tag 128); [lia|]. destruct (Z.leb_spec tag 183); [|lia].
      rewrite K2, read_all_app by lia. f_equal. f_equal. lia. }
  destruct (Z.ltb_spec tag 192) as [H3|H3].
  { destruct (read_size (tag - 183) r1) as [oz r2] eqn:Ez.
    destruct oz as [n| | |]; [|injection H as <- <-; exact Logic.I..].
    apply read_size_takes in Ez; [|lia]. destruct Ez as (zs & Z1 & Z2 & Z3 & Z4 & Z5 & Z6 & Z7).
    destruct (Z.ltb_spec (cap r) n) as [Hc|Hc]; [injection H as <- <-; exact Logic.I|].
    destruct o as [bs| | |].
    2:{ now apply read_all_other in H. } 2:{ now apply read_all_other in H. } 2:{ exact Logic.I. }
    apply read_all_takes in H. exists (tag :: zs ++ bs). rewrite blen_cons, blen_app.
    assert (Hn : n = blen bs /\ src r2 = bs ++ src r' /\ lim r' = lim r2 - n /\ cap r' = cap r2 /\ n <= lim r2).
    { destruct H as [(K1 & -> & ->)|(K1 & K2 & K3 & K4 & K5 & K6)].
      - assert (n = 0) by lia. subst n. repeat split; [lia|lia].
      - repeat split; assumption. }
    destruct Hn as (N1 & N2 & N3 & N4 & N5).
    pose proof (blen_nonneg bs). split; [rewrite T1; cbn [app]; now rewrite Z2, N2, app_assoc|].
    split; [lia|]. split; [congruence|]. split; [lia|].
    intros s L C HL HC. cbn [app]. unfold read_bytes.
    rewrite read_tag_cons by lia. destruct (Z.ltb_spec tag 128); [lia|]. destruct (Z.leb_spec tag 183); [lia|].
    destruct (Z.ltb_spec tag 192); [|lia]. rewrite <- app_assoc, Z7 by lia. cbn [cap].
    destruct (Z.ltb_spec C n); [lia|]. rewrite N1, read_all_app by lia. f_equal. f_equal. lia. }
  destruct (Z.eqb_spec tag 248) as [H4|H4]; [|injection H as <- <-; exact Logic.I].
  destruct (read_size 1 r1) as [oz r2] eqn:Ez. destruct oz as [n| | |]; [|injection H as <- <-; exact Logic.I..].
  apply read_size_takes in Ez; [|lia]. destruct Ez as (zs & Z1 & Z2 & Z3 & Z4 & Z5 & Z6 & Z7).
  destruct (Z.eqb_spec n 0) as [Hn|Hn]; [|injection H as <- <-; exact Logic.I]. injection H as <- <-.
  exists (tag :: zs). rewrite blen_cons. split; [rewrite T1; cbn [app]; now rewrite Z2|]. split; [lia|].
  split; [congruence|]. split; [lia|].
  intros s L C HL HC. cbn [app]. unfold read_bytes.
  rewrite read_tag_cons by lia. destruct (Z.ltb_spec tag 128); [lia|]. destruct (Z.leb_spec tag 183); [lia|].
  destruct (Z.ltb_spec tag 192); [lia|]. destruct (Z.eqb_spec tag 248); [|lia]. rewrite Z7 by lia.
  destruct (Z.eqb_spec n 0); [|lia]. f_equal. f_equal. lia.
Qed.

Lemma read_list_takes r o r1 : read_list r = (o, r1) ->
  match o with
  | Bad => True
  | AtEnd => lim r <= 0 /\ r1 = r
  | IsNil => exists h, src r = h ++ src r1 /\ lim r1 = lim r - blen h /\ cap r1 = cap r /\ 1 <= blen h <= lim r /\
      forall s L C, blen h <= L -> read_list (mkR (h ++ s) L C) = (IsNil, mkR s (L - blen h) C)
  | Got c => exists h n, src r = h ++ src r1 /\ lim r1 = lim r - blen h /\ cap r1 = cap r /\
      1 <= blen h <= lim r /\ 0 <= n /\ c = child r1 n /\
      forall s L C, blen h <= L ->
        read_list (mkR (h ++ s) L C) = (Got (child (mkR s (L - blen h) C) n), mkR s (L - blen h) C)
  end.
Proof.
  intros H. unfold read_list in H. destruct (read_tag r) as [ot r0] eqn:Et. destruct ot as [tag| | |].
  2:{ injection H as <- <-. now apply read_tag_end in Et. }
  2:{ now apply read_tag_nil in Et. }
  2:{ injection H as <- <-. exact Logic.I. }
  apply read_tag_takes in Et. destruct Et as (T1 & T2 & T3 & T4).
  destruct (Z.ltb_spec tag 192) as [H1|H1]; [injection H as <- <-; exact Logic.I|].
  destruct (Z.leb_spec tag 247) as [H2|H2].
  { injection H as <- <-. exists [tag], (tag - 192). change (blen [tag]) with 1. split; [exact T1|].
    split; [exact T2|]. split; [exact T3|]. split; [lia|]. split; [lia|]. split; [reflexivity|].
    intros s L C HL. cbn [app]. unfold read_list. rewrite read_tag_cons by lia.
    destruct (Z.ltb_spec tag 192); [lia|]. destruct (Z.leb_spec tag 247); [reflexivity|lia]. }
  destruct (read_size (tag - 247) r0) as [oz r2] eqn:Ez.
  destruct oz as [n| | |]; [|injection H as <- <-; exact Logic.I..].
  apply read_size_takes in Ez; [|lia]. destruct Ez as (zs & Z1 & Z2 & Z3 & Z4 & Z5 & Z6 & Z7).
  destruct ((tag - 247 =? 1) && (n =? 0)) eqn:En; injection H as <- <-.
  - exists (tag :: zs). rewrite blen_cons. split; [rewrite T1; cbn [app]; now rewrite Z2|]. split; [lia|].
    split; [congruence|]. split; [lia|]. intros s L C HL. cbn [app]. unfold read_list.
    rewrite read_tag_cons by lia. destruct (Z.ltb_spec tag 192); [lia|]. destruct (Z.leb_spec tag 247); [lia|].
    rewrite Z7 by lia. rewrite En. f_equal. f_equal. lia.
  - exists (tag :: zs), n. rewrite blen_cons. split; [rewrite T1; cbn [app]; now rewrite Z2|]. split; [lia|].
    split; [congruence|]. split; [lia|]. split; [lia|]. split; [reflexivity|].
    intros s L C HL. cbn [app]. unfold read_list.
    rewrite read_tag_cons by lia. destruct (Z.ltb_spec tag 192); [lia|]. destruct (Z.leb_spec tag 247); [lia|].
    rewrite Z7 by lia. rewrite En. replace (L - 1 - (tag - 247)) with (L - (1 + blen zs)) by lia. reflexivity.
Qed.

(** What is done inside a list. *)
Definition inner (f : reader -> outcome (list val) * reader) : Prop :=
  forall c o c1, 0 <= lim c -> f c = (o, c1) ->
  match o with
  | Bad => True
  | AtEnd => False
  | _ => exists p, src c = p ++ src c1 /\ lim c1 = lim c - blen p /\ blen p <= lim c /\
           forall s C, blen p <= C -> f (mkR (p ++ s) (lim c) C) = (o, mkR s (lim c - blen p) C)
  end.

Lemma behind_ok r1 n w rest : 
  src (child r1 n) = w ++ rest ->
  exists x, src r1 = w ++ x /\ blen w <= Z.max 0 (lim r1) /\
    forall c2, src c2 = rest -> behind r1 (child r1 n) c2 = mkR x (lim r1 - blen w) (cap r1).
Proof.
  intros H. cbn [src child] in H. exists (rest ++ skipn (Z.to_nat (lim r1)) (src r1)).
  assert (E : src r1 = w ++ rest ++ skipn (Z.to_nat (lim r1)) (src r1)).
  { rewrite app_assoc, <- H. symmetry. apply firstn_skipn. }
  split; [exact E|]. split.
  - assert (K : (length (w ++ rest) <= Z.to_nat (lim r1))%nat) by (rewrite <- H; apply firstn_le_length).
    rewrite app_length in K. unfold blen. lia.
  - intros c2 E2. unfold behind. cbn [src child]. rewrite H, E2, blen_app.
    replace (blen w + blen rest - blen rest) with (blen w) by lia. f_equal.
    rewrite E at 1. unfold blen. rewrite Nat2Z.id, skipn_app, Nat.sub_diag, skipn_all. reflexivity.
Qed.

Lemma child_src w s L C n : blen w <= L ->
  src (child (mkR (w ++ s) L C) n) = w ++ firstn (Z.to_nat L - length w) s.
Proof.
  intros H. cbn [src child lim]. rewrite firstn_app. f_equal. apply firstn_all2. unfold blen in H. lia.
Qed.

Lemma child_eq r n : child r n = mkR (src (child r n)) n (Z.min (cap r) n).
Proof. reflexivity. Qed.

Lemma listed_steady inside : inner inside -> steady (listed inside).
Proof.
  intros Hin r o r' H. split.
  2:{ intros r0 H0. unfold listed, read_list. now rewrite read_tag_at_end. }
  unfold listed in H. destruct (read_list r) as [ol r1] eqn:El. pose proof (read_list_takes _ _ _ El) as Hl.
  destruct ol as [c| | |].
  2:{ injection H as <- <-. exact Hl. }
  2:{ injection H as <- <-. destruct Hl as (h & K1 & K2 & K3 & K4 & K5). exists h. split; [exact K1|].
      split; [exact K2|]. split; [exact K3|]. split; [lia|]. intros s L C HL HC. unfold listed. now rewrite K5. }
  2:{ injection H as <- <-. exact Logic.I. }
  destruct Hl as (h & n & K1 & K2 & K3 & K4 & K5 & -> & K6).
  destruct (inside (child r1 n)) as [oi c1] eqn:Ei.
  assert (H0 : 0 <= lim (child r1 n)) by exact K5.
  pose proof (Hin _ _ _ H0 Ei) as Hi. change (lim (child r1 n)) with n in Hi.
  destruct oi as [l| | |].
  - destruct Hi as (p & P1 & P2 & P3 & P4). unfold close in H. rewrite P2 in H.
    destruct (Z.leb_spec (n - blen p) (blen (src c1))) as [Hc|Hc]; [|injection H as <- <-; exact Logic.I].
    injection H as <- <-. set (q := firstn (Z.to_nat (n - blen p)) (src c1)).
    set (z := skipn (Z.to_nat (n - blen p)) (src c1)).
    assert (Eq : src c1 = q ++ z) by (symmetry; apply firstn_skipn).
    assert (Lq : blen q = n - blen p).
    { unfold q, blen. rewrite firstn_length. unfold blen in *. lia. }
    rewrite Eq, app_assoc in P1. destruct (behind_ok r1 n (p ++ q) z P1) as (x & X1 & X2 & X3).
    rewrite X3 by reflexivity. cbn [src lim cap]. rewrite blen_app in *.
    pose proof (blen_nonneg p). pose proof (blen_nonneg q).
    exists (h ++ p ++ q). rewrite !blen_app. split; [now rewrite K1, X1, !app_assoc|]. split; [lia|].
    split; [exact K3|]. split; [lia|]. intros s L C HL HC. unfold listed. rewrite <- app_assoc, K6 by lia.
    set (r2 := mkR ((p ++ q) ++ s) (L - blen h) C).
    assert (E2 : src (child r2 n) = p ++ (q ++ firstn (Z.to_nat (L - blen h) - length (p ++ q)) s)).
    { rewrite app_assoc. apply child_src. rewrite blen_app. lia. }
    rewrite (child_eq r2), E2. set (t := firstn _ s) in *.
    rewrite P4 by (cbn [cap r2]; lia). unfold close. cbn [src lim cap].
    destruct (Z.leb_spec (n - blen p) (blen (q ++ t))) as [Hd|Hd].
    2:{ exfalso. rewrite blen_app in Hd. pose proof (blen_nonneg t). lia. }
    f_equal. rewrite <- E2, <- child_eq. rewrite app_assoc in E2.
    destruct (behind_ok r2 n (p ++ q) t E2) as (y & Y1 & Y2 & Y3). rewrite Y3.
    + cbn [src r2] in Y1. apply app_inv_head in Y1. subst y. cbn [lim cap r2]. rewrite blen_app. f_equal. lia.
    + cbn [src]. rewrite <- Lq. unfold blen. rewrite Nat2Z.id, skipn_app, Nat.sub_diag, skipn_all. reflexivity.
  - contradiction.
  - injection H as <- <-. destruct Hi as (p & P1 & P2 & P3 & P4).
    destruct (behind_ok r1 n p _ P1) as (x & X1 & X2 & X3). rewrite X3 by reflexivity. cbn [src lim cap].
    pose proof (blen_nonneg p).
    exists (h ++ p). rewrite !blen_app. split; [now rewrite K1, X1, !app_assoc|]. split; [lia|].
    split; [exact K3|]. split; [lia|]. intros s L C HL HC. unfold listed. rewrite <- app_assoc, K6 by lia.
    set (r2 := mkR (p ++ s) (L - blen h) C).
    assert (E2 : src (child r2 n) = p ++ firstn (Z.to_nat (L - blen h) - length p) s) by (apply child_src; lia).
    rewrite (child_eq r2), E2. set (t := firstn _ s) in *. rewrite P4 by (cbn [cap r2]; lia).
    f_equal. rewrite <- E2, <- child_eq. destruct (behind_ok r2 n p t E2) as (y & Y1 & Y2 & Y3).
    rewrite Y3 by reflexivity. cbn [src r2] in Y1. apply app_inv_head in Y1. subst y. cbn [lim cap r2]. f_equal. lia.
  - injection H as <- <-. exact Logic.I.
Qed.

Lemma nullable_steady t d : steady d -> steady (nullable t d).
Proof.
  intros Hd r o r' H. split.
  2:{ intros r0 H0. unfold nullable. destruct (d r) as [o0 r2] eqn:E. destruct (Hd _ _ _ E) as [_ K]. now rewrite K. }
  unfold nullable in H. destruct (d r) as [o0 r2] eqn:E. destruct (Hd _ _ _ E) as [K _].
  destruct o0 as [v| | |]; injection H as <- <-.
  - destruct K as (p & P1 & P2 & P3 & P4 & P5). exists p. split; [exact P1|]. split; [exact P2|]. split; [exact P3|].
    split; [exact P4|]. intros s L C HL HC. unfold nullable. now rewrite P5.
  - exact K.
  - destruct K as (p & P1 & P2 & P3 & P4 & P5). exists p. split; [exact P1|]. split; [exact P2|]. split; [exact P3|].
    split; [exact P4|]. intros s L C HL HC. unfold nullable. now rewrite P5.
  - exact Logic.I.
Qed.

Lemma elements_inner d : steady d -> forall k c o c1, 0 <= lim c -> elements k d c = (o, c1) ->
  match o with
  | Bad => True
  | Got l => exists p, src c = p ++ src c1 /\ lim c1 = lim c - blen p /\ blen p <= lim c /\
      forall k' s C, blen p <= C -> (length p < k')%nat ->
        elements k' d (mkR (p ++ s) (lim c) C) = (Got l, mkR s (lim c - blen p) C)
  | _ => False
  end.
Proof.
  intros Hd. induction k as [|k IH]; intros c o c1 H0 H.
  - injection H as <- <-. exact Logic.I.
  - cbn [elements] in H. destruct (d c) as [ov c2] eqn:E. destruct (Hd _ _ _ E) as [K Kend].
    destruct ov as [v| | |]; [| |injection H as <- <-; exact Logic.I|injection H as <- <-; exact Logic.I].
    + destruct K as (p & P1 & P2 & P3 & P4 & P5). destruct (elements k d c2) as [ol c3] eqn:El.
      assert (H2 : 0 <= lim c2) by lia. pose proof (IH _ _ _ H2 El) as Hl.
      destruct ol as [l| | |]; [|contradiction|contradiction|injection H as <- <-; exact Logic.I].
      injection H as <- <-. destruct Hl as (q & Q1 & Q2 & Q3 & Q4). pose proof (blen_nonneg q).
      exists (p ++ q). rewrite blen_app. split; [now rewrite P1, Q1, app_assoc|]. split; [lia|]. split; [lia|].
      intros k' s C HC Hk. rewrite app_length in Hk. destruct k' as [|k']; [lia|]. cbn [elements].
      rewrite <- app_assoc, P5 by lia. rewrite <- P2.
      rewrite Q4 by (try lia; unfold blen in P4; lia). f_equal. f_equal. lia.
    + injection H as <- <-. destruct K as [K ->]. assert (E0 : lim c = 0) by lia.
      exists []. rewrite blen_nil. split; [reflexivity|]. split; [lia|]. split; [lia|].
      intros k' s C HC Hk. destruct k' as [|k']; [lia|]. cbn [elements app]. rewrite Kend by (cbn [lim]; lia).
      f_equal. f_equal. lia.
Qed.

Lemma slots_inner d z : steady d -> forall n c o c1, 0 <= lim c -> slots n z d c = (o, c1) ->
  match o with
  | Bad => True
  | Got l => exists p, src c = p ++ src c1 /\ lim c1 = lim c - blen p /\ blen p <= lim c /\
      forall s C, blen p <= C -> slots n z d (mkR (p ++ s) (lim c) C) = (Got l, mkR s (lim c - blen p) C)
  | _ => False
  end.
Proof.
  intros Hd. induction n as [|n IH]; intros c o c1 H0 H.
  - injection H as <- <-. exists []. rewrite blen_nil. split; [reflexivity|]. split; [lia|]. split; [lia|].
    intros s C HC. cbn [slots app]. f_equal. f_equal. lia.
  - cbn [slots] in H. destruct (d c) as [ov c2] eqn:E. destruct (Hd _ _ _ E) as [K Kend].
    destruct ov as [v| | |]; [| |injection H as <- <-; exact Logic.I|injection H as <- <-; exact Logic.I].
    + destruct K as (p & P1 & P2 & P3 & P4 & P5). destruct (slots n z d c2) as [ol c3] eqn:El.
      assert (H2 : 0 <= lim c2) by lia. pose proof (IH _ _ _ H2 El) as Hl.
      destruct ol as [l| | |]; [|contradiction|contradiction|injection H as <- <-; exact Logic.I].
      injection H as <- <-. destruct Hl as (q & Q1 & Q2 & Q3 & Q4). pose proof (blen_nonneg q).
      exists (p ++ q). rewrite blen_app. split; [now rewrite P1, Q1, app_assoc|]. split; [lia|]. split; [lia|].
      intros s C HC. cbn [slots]. rewrite <- app_assoc, P5 by lia. rewrite <- P2.
      rewrite Q4 by lia. f_equal. f_equal. lia.
    + injection H as <- <-. destruct K as [K ->]. assert (E0 : lim c = 0) by lia.
      exists []. rewrite blen_nil. split; [reflexivity|]. split; [lia|]. split; [lia|].
      intros s C HC. cbn [slots app]. rewrite Kend by (cbn [lim]; lia). f_equal. f_equal. lia.
Qed.

Lemma fields_inner fs : Forall (fun t => steady (dec t)) fs -> inner (dec_fields fs).
Proof.
  intros Hs. induction Hs as [|f fr Hf Hr IH]; intros c o c1 H0 H.
  - injection H as <- <-. exists []. rewrite blen_nil. split; [reflexivity|]. split; [lia|]. split; [lia|].
    intros s C HC. cbn [dec_fields app]. f_equal. f_equal. lia.
  - cbn [dec_fields] in H. destruct (dec f c) as [ov c2] eqn:E. destruct (Hf _ _ _ E) as [K Kend].
    destruct ov as [v| | |].
    + destruct K as (p & P1 & P2 & P3 & P4 & P5). destruct (dec_fields fr c2) as [ol c3] eqn:El.
      assert (H2 : 0 <= lim c2) by lia. pose proof (IH _ _ _ H2 El) as Hl.
      destruct ol as [l| | |]; [|contradiction| |injection H as <- <-; exact Logic.I];
        injection H as <- <-; destruct Hl as (q & Q1 & Q2 & Q3 & Q4); pose proof (blen_nonneg q);
        exists (p ++ q); rewrite blen_app; (split; [now rewrite P1, Q1, app_assoc|]); (split; [lia|]); (split; [lia|]);
        intros s C HC; cbn [dec_fields]; rewrite <- app_assoc, P5 by lia; rewrite <- P2;
        rewrite Q4 by lia; f_equal; f_equal; lia.
    + destruct K as [K ->]. assert (E0 : lim c = 0) by lia.
      destruct (dec_fields fr c) as [ol c3] eqn:El. pose proof (IH _ _ _ H0 El) as Hl.
      destruct ol as [l| | |]; [|contradiction| |injection H as <- <-; exact Logic.I];
        injection H as <- <-; destruct Hl as (q & Q1 & Q2 & Q3 & Q4);
        exists q; (split; [exact Q1|]); (split; [exact Q2|]); (split; [exact Q3|]);
        intros s C HC; cbn [dec_fields]; rewrite Kend by (cbn [lim]; lia); rewrite Q4 by lia; reflexivity.
    + injection H as <- <-. destruct K as (p & P1 & P2 & P3 & P4 & P5). exists p. split; [exact P1|].
      split; [exact P2|]. split; [lia|]. intros s C HC. cbn [dec_fields]. rewrite P5 by lia. reflexivity.
    + injection H as <- <-. exact Logic.I.
Qed.

Lemma map_steady {A} (f : reader -> outcome A * reader) (g : outcome A -> outcome val) (h : reader -> outcome val * reader) :
  steady f -> (forall r, h r = (g (fst (f r)), snd (f r))) -> g AtEnd = AtEnd -> g Bad = Bad ->
  (forall a, g (Got a) <> AtEnd) -> g IsNil <> AtEnd -> steady h.
Proof.
  intros Hf Hh GE GB GG GN r o r' H. rewrite Hh in H. destruct (f r) as [oa r1] eqn:E.
  destruct (Hf _ _ _ E) as [K Kend]. cbn [fst snd] in H. split.
  2:{ intros r0 H0. rewrite Hh, Kend by exact H0. cbn. now rewrite GE. }
  injection H as <- <-.
  assert (Q : forall o0, (o0 = oa) -> (exists a, o0 = Got a) \/ o0 = IsNil -> match g o0 with
    | Bad => True | AtEnd => lim r <= 0 /\ r1 = r
    | _ => exists p, src r = p ++ src r1 /\ lim r1 = lim r - blen p /\ cap r1 = cap r /\ 1 <= blen p <= lim r /\
           forall s L C, blen p <= L -> blen p <= C -> h (mkR (p ++ s) L C) = (g oa, mkR s (L - blen p) C) end).
  { intros o0 -> Ho. destruct Ho as [(a & ->)| ->];
      destruct K as (p & P1 & P2 & P3 & P4 & P5).
    - assert (R : exists p, src r = p ++ src r1 /\ lim r1 = lim r - blen p /\ cap r1 = cap r /\ 1 <= blen p <= lim r /\
           forall s L C, blen p <= L -> blen p <= C -> h (mkR (p ++ s) L C) = (g (Got a), mkR s (L - blen p) C)).
      { exists p. split; [exact P1|]. split; [exact P2|]. split; [exact P3|]. split; [exact P4|].
        intros s L C HL HC. rewrite Hh, P5 by assumption. reflexivity. }
      pose proof (GG a). destruct (g (Got a)); [exact R|congruence|exact R|exact Logic.I].
    - assert (R : exists p, src r = p ++ src r1 /\ lim r1 = lim r - blen p /\ cap r1 = cap r /\ 1 <= blen p <= lim r /\
           forall s L C, blen p <= L -> blen p <= C -> h (mkR (p ++ s) L C) = (g IsNil, mkR s (L - blen p) C)).
      { exists p. split; [exact P1|]. split; [exact P2|]. split; [exact P3|]. split; [exact P4|].
        intros s L C HL HC. rewrite Hh, P5 by assumption. reflexivity. }
      destruct (g IsNil); [exact R|congruence|exact R|exact Logic.I]. }
  destruct oa as [a| | |].
  - specialize (Q _ eq_refl (or_introl (ex_intro _ a eq_refl))). destruct (g (Got a)); exact Q.
  - rewrite GE. exact K.
  - specialize (Q _ eq_refl (or_intror eq_refl)). destruct (g IsNil); exact Q.
  - rewrite GB. exact Logic.I.
Qed.

Lemma plain_steady conv : (forall b, conv b <> AtEnd) -> steady (plain conv).
Proof.
  intros H. apply (map_steady read_bytes (fun o => match o with
    | Got b => conv b | AtEnd => AtEnd | IsNil => IsNil | Bad => Bad end)).
  - exact read_bytes_steady.
  - intros r. unfold plain. destruct (read_bytes r) as [o r1]. destruct o; reflexivity.
  - reflexivity.
  - reflexivity.
  - exact H.
  - discriminate.
Qed.

Theorem dec_steady t : steady (dec t).
Proof.
  induction t as [|n| |w|w| | |t IH|t IH|n t IH|fs IH] using ty_ind'.
  - apply (map_steady read_bytes (fun o => match o with
      | Got b => Got (VBytes (Some b)) | AtEnd => AtEnd | IsNil => Got (VBytes None) | Bad => Bad end));
      [exact read_bytes_steady| |reflexivity|reflexivity|discriminate|discriminate].
    intros r. cbn [dec]. destruct (read_bytes r) as [o r1]. destruct o; reflexivity.
  - apply plain_steady. discriminate.
  - apply plain_steady. intros b. unfold to_bool. destruct (go_SafeBytesToUint64 b) as [z|]; [|discriminate].
    destruct (z =? 0); [discriminate|]. destruct (z =? 1); discriminate.
  - apply plain_steady. intros b. unfold to_uint. destruct (go_SafeBytesToUint64 b) as [z|]; [|discriminate].
    destruct (z <? 2 ^ w); discriminate.
  - apply plain_steady. intros b. unfold to_int. destruct (go_SafeBytesToInt64 b) as [z|]; [|discriminate].
    destruct ((- 2 ^ (w - 1) <=? z) && (z <? 2 ^ (w - 1))); discriminate.
  - apply plain_steady. discriminate.
  - apply plain_steady. discriminate.
  - apply (map_steady (dec t) (fun o => match o with
      | Got v => Got (VPtr (Some v)) | AtEnd => AtEnd | IsNil => Got (VPtr None) | Bad => Bad end));
      [exact IH| |reflexivity|reflexivity|discriminate|discriminate].
    intros r. cbn [dec]. destruct (dec t r) as [o r1]. destruct o; reflexivity.
  - apply (map_steady (listed (fun c => elements (S (length (src c))) (nullable t (dec t)) c)) (fun o => match o with
      | Got v => Got v | AtEnd => AtEnd | IsNil => Got (VList None) | Bad => Bad end));
      [| |reflexivity|reflexivity|discriminate|discriminate].
    + apply listed_steady. intros c o c1 H0 H.
      pose proof (elements_inner _ (nullable_steady t _ IH) _ _ _ _ H0 H) as K.
      destruct o as [l| | |]; [|exact K|contradiction|exact K].
      destruct K as (p & P1 & P2 & P3 & P4). exists p. split; [exact P1|]. split; [exact P2|]. split; [exact P3|].
      intros s C HC. apply P4; [exact HC|]. cbn [src]. rewrite app_length. lia.
    + intros r. cbn [dec]. destruct (listed _ r) as [o r1]. destruct o; reflexivity.
  - cbn [dec]. apply listed_steady. intros c o c1 H0 H.
    pose proof (slots_inner _ (zero t) (nullable_steady t _ IH) _ _ _ _ H0 H) as K.
    destruct o as [l| | |]; [exact K|exact K|contradiction|exact K].
  - change (dec (TStruct fs)) with (listed (dec_fields fs)). apply listed_steady. now apply fields_inner.
Qed.

Theorem unmarshal_takes t bs v rest : unmarshal t bs = Some (v, rest) ->
  exists p, bs = p ++ rest /\ forall x, unmarshal t (p ++ x) = Some (v, x).
Proof.
  unfold unmarshal. intros H. destruct (dec t (reader_of bs)) as [o r] eqn:E.
  destruct (dec_steady t _ _ _ E) as [K _]. destruct o as [v'| | |]; try discriminate H.
  injection H as -> <-. destruct K as (p & P1 & P2 & P3 & P4 & P5). exists p. split; [exact P1|].
  intros x. unfold reader_of. pose proof (blen_nonneg x). rewrite P5 by (rewrite blen_app; lia). reflexivity.
Qed.
