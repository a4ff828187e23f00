(** Parts: cutting, keys, what is made, what is received. *)
From Verif Require Import Model.Bytes Model.IntCodec Model.DbKey Model.Rlp Model.Mpt Model.MptRun Model.MptProof Model.BitArray Model.PartSet
  Spec.RlpSpec Spec.TrieSpec Spec.PartSetSpec
  Proof.BytesFacts Proof.MptRlpFacts Proof.MptTree Proof.MptStore Proof.MptOps Proof.MptRunFacts Proof.MptProofFacts Proof.BitArrayFacts.
From Verif Require Proof.PartProve Proof.PartHonest Proof.RlpFacts Proof.RlpTyped.
Open Scope nat_scope.

(** ** Cutting *)
Definition wok (size : nat) (b : buffer) (data : bytes) : Prop :=
  concat (fst b) ++ match snd b with Some c => c | None => [] end = data
  /\ Forall (fun p => length p = size) (fst b)
  /\ match snd b with Some c => 0 < length c < size | None => True end.

Lemma write_f_ok size : 0 < size -> forall fuel b data p, length p < fuel -> wok size b data -> wok size (write_f fuel size b p) (data ++ p).
Proof.
  intro Hs. induction fuel as [|f IH]; intros [parts cur] data p L W; [lia|]. cbn [write_f].
  destruct p as [|x p]; [rewrite app_nil_r; exact W|]. remember (x :: p) as q eqn:Eq. assert (Lq : 0 < length q) by (subst; cbn; lia). clear Eq x p.
  destruct W as (E & A & C). cbn [fst snd] in *. set (c := match cur with Some c => c | None => [] end) in *.
  assert (Lc : length c < size) by (unfold c; destruct cur; cbn; lia).
  set (n := Nat.min (size - length c) (length q)). assert (Hn : 0 < n <= length q) by (unfold n; lia).
  assert (Fn : length (firstn n q) = n) by (rewrite firstn_length; lia).
  assert (D : data ++ q = (data ++ firstn n q) ++ skipn n q) by (rewrite <- app_assoc, firstn_skipn; reflexivity).
  rewrite D. apply IH; [rewrite skipn_length; lia|]. rewrite <- E.
  destruct (Nat.eqb_spec (length (c ++ firstn n q)) size) as [X|X]; rewrite app_length, Fn in X.
  - split; [|split]; cbn [fst snd]; auto.
    + rewrite concat_app. cbn [concat]. rewrite !app_nil_r, !app_assoc. reflexivity.
    + apply Forall_app. split; auto. constructor; auto. rewrite app_length, Fn. exact X.
  - split; [|split]; cbn [fst snd]; auto.
    + rewrite app_assoc. reflexivity.
    + rewrite app_length, Fn. unfold n in *. lia.
Qed.
Lemma write_ok size b data p : 0 < size -> wok size b data -> wok size (write size b p) (data ++ p).
Proof. intros Hs W. apply write_f_ok; auto. Qed.
Lemma write_all_ok size : 0 < size -> forall chunks b data, wok size b data -> wok size (write_all size b chunks) (data ++ concat chunks).
Proof.
  intro Hs. induction chunks as [|c r IH]; intros b data W; cbn [write_all concat]; [rewrite app_nil_r; exact W|].
  rewrite app_assoc. apply IH. now apply write_ok.
Qed.
Lemma wok_cut size b data : 0 < size -> wok size b data -> cut_into size data (buffer_parts b).
Proof.
  intros Hs (E & A & C). unfold buffer_parts. split.
  - rewrite concat_app. destruct (snd b); cbn [concat]; rewrite ?app_nil_r in *; exact E.
  - intros i p Hi. rewrite app_length. destruct (Nat.lt_ge_cases i (length (fst b))) as [L|L].
    + rewrite nth_error_app1 in Hi by exact L. apply nth_error_In in Hi. rewrite Forall_forall in A. specialize (A _ Hi). lia.
    + rewrite nth_error_app2 in Hi by exact L. destruct (snd b) as [c|]; [|destruct (i - length (fst b)); discriminate Hi].
      destruct (i - length (fst b)) as [|k] eqn:Ek; [|destruct k; discriminate Hi]. injection Hi as <-. cbn [length]. lia.
Qed.
(** There is one way to cut. *)
Lemma cut_unique size : forall l1 l2 data, cut_into size data l1 -> cut_into size data l2 -> l1 = l2.
Proof.
  induction l1 as [|p l1 IH]; intros l2 data [E1 A1] [E2 A2].
  - destruct l2 as [|q l2]; auto. destruct (A2 0 q eq_refl) as [X _]. rewrite <- E1 in E2. destruct q; [cbn in X; lia|discriminate E2].
  - destruct l2 as [|q l2].
    + destruct (A1 0 p eq_refl) as [X _]. rewrite <- E2 in E1. destruct p; [cbn in X; lia|discriminate E1].
    + destruct (A1 0 p eq_refl) as [Xp Yp], (A2 0 q eq_refl) as [Xq Yq]. cbn [concat length] in *.
      assert (Lpq : length p = length q).
      { assert (L : length p + length (concat l1) = length q + length (concat l2)) by (rewrite <- !app_length; congruence).
        destruct l1 as [|p1 l1].
        - destruct l2 as [|q1 l2]; [cbn in L; lia|]. destruct (A2 1 q1 eq_refl) as [X _]. cbn [length concat] in *. rewrite app_length in L. rewrite Yq in * by lia. lia.
        - destruct l2 as [|q1 l2].
          + destruct (A1 1 p1 eq_refl) as [X _]. cbn [length concat] in *. rewrite app_length in L. rewrite Yp in * by lia. lia.
          + cbn [length] in *. rewrite Yp, Yq by lia. reflexivity. }
      rewrite <- E2 in E1.
      assert (p = q).
      { pose proof (f_equal (firstn (length p)) E1) as X. rewrite !firstn_app, firstn_all, Nat.sub_diag, Lpq, Nat.sub_diag, firstn_all in X.
        cbn [firstn] in X. now rewrite !app_nil_r in X. }
      subst q. apply app_inv_head in E1. f_equal. apply (IH l2 (concat l1)).
      * split; auto. intros i x Hi. destruct (A1 (S i) x Hi) as [a b]. split; auto. intro; apply b; lia.
      * split; auto. intros i x Hi. destruct (A2 (S i) x Hi) as [a b]. split; auto. intro; apply b; lia.
Qed.

(** ** Keys *)
Lemma u64_len : forall f v acc, length (go_u64_loop f v acc) <= f + length acc.
Proof.
  induction f as [|f IH]; intros v acc; cbn [go_u64_loop]; [lia|]. destruct (_ && _); [cbn [length]; lia|].
  specialize (IH (Z.shiftr v 8) (Z.land v 255 :: acc)). cbn [length] in IH. lia.
Qed.
Lemma key_ok i : (0 <= i < 65536)%Z -> wf_bytes (part_key i) /\ (blen (part_key i) < 2 ^ 32)%Z.
Proof.
  intro Hi. unfold part_key. rewrite Z.mod_small by exact Hi. cbn [enc].
  destruct (RlpFacts.uint_ok 16 i ltac:(cbn; auto) Hi) as [W _].
  assert (L : length (go_Uint64ToBytes i) <= 9).
  { unfold go_Uint64ToBytes. destruct (i =? 0)%Z; [cbn; lia|]. pose proof (u64_len 9 i []) as X. cbn [length] in X. lia. }
  unfold write_bytes. cbv zeta. unfold blen in *. set (b := go_Uint64ToBytes i) in *.
  destruct (Z.eqb_spec (Z.of_nat (length b)) 0); [split; [repeat constructor; lia|reflexivity]|].
  destruct (_ && _); [split; [exact W|lia]|]. destruct (Z.leb_spec (Z.of_nat (length b)) 55); [|lia].
  split; [|cbn [length]; lia]. constructor; [|exact W]. unfold wf_byte. pose proof (Z.mod_pos_bound (128 + Z.of_nat (length b)) 256 ltac:(lia)). lia.
Qed.
Lemma key_inj i j : (0 <= i < 65536)%Z -> (0 <= j < 65536)%Z -> part_key i = part_key j -> i = j.
Proof.
  intros Hi Hj E. unfold part_key in E. rewrite !Z.mod_small in E by assumption.
  assert (A : forall k, (0 <= k < 65536)%Z -> unmarshal (TUint 16) (enc (TUint 16) (VNum k)) = Some (VNum k, [])).
  { intros k Hk. rewrite <- (app_nil_r (enc _ _)). apply RlpFacts.unmarshal_enc; [constructor; [cbn; auto|exact Hk]|].
    pose proof (proj2 (key_ok k Hk)) as L. unfold part_key in L. rewrite Z.mod_small in L by exact Hk. eapply Z.lt_trans; [exact L|reflexivity]. }
  pose proof (A i Hi) as X. rewrite E, (A j Hj) in X. now injection X.
Qed.

Definition there {A} (o : option (option A)) : bool := match o with Some (Some _) => true | _ => false end.
Definition present (l : list (option bytes)) : Z := Z.of_nat (length (filter (fun o => match o with Some _ => true | None => false end) l)).
Lemma present_none c : present (repeat None c) = 0%Z.
Proof. induction c; auto. Qed.
Lemma present_set : forall l i d, nth_error l i = Some None -> present (set_nth l i (Some d)) = (present l + 1)%Z.
Proof.
  unfold present. induction l as [|o l IH]; intros [|i] d E; cbn [nth_error set_nth filter] in *; try discriminate E.
  - injection E as ->. cbn [length]. lia.
  - specialize (IH i d E). destruct o; cbn [length]; lia.
Qed.
Lemma nth_set_same {A} (l : list A) i x : i < length l -> nth_error (set_nth l i x) i = Some x.
Proof. revert i. induction l as [|y l IH]; intros [|i] L; cbn in *; try lia; auto. apply IH. lia. Qed.
Lemma nth_set_other {A} (l : list A) i j x : i <> j -> nth_error (set_nth l i x) j = nth_error l j.
Proof. revert i j. induction l as [|y l IH]; intros [|i] [|j] N; cbn; auto; try congruence. Qed.
Lemma set_len {A} (l : list A) i x : length (set_nth l i x) = length l.
Proof. revert i. induction l as [|y l IH]; intros [|i]; cbn; auto. Qed.

Section Digest.
Context (H : bytes -> bytes) (HH : digest32 H).
Notation ser := (serialize H).

(** ** What is made *)
Definition held (parts : list bytes) (k : bytes) (v : bytes) : Prop := exists i, nth_error parts i = Some v /\ k = part_key (Z.of_nat i).

Lemma set_all_ok db : forall parts r c i, tinv H db r c -> Forall okv parts -> (0 <= i)%Z -> (i + Z.of_nat (length parts) <= 65536)%Z ->
  exists r' c', set_all (mk_mpt db r) i parts = mk_mpt db r' /\ tinv H db r' c'
    /\ (forall k, (exists j p, nth_error parts j = Some p /\ k = part_key (i + Z.of_nat j) /\ c' k = Some p)
                  \/ ((forall j, j < length parts -> k <> part_key (i + Z.of_nat j)) /\ c' k = c k))
    /\ (parts <> [] -> r' <> None).
Proof.
  induction parts as [|p parts IH]; intros r c i T F Hi Hl; cbn [set_all].
  { exists r, c. split; auto. split; auto. split; [|congruence]. intro k. right. split; [intros j Hj; cbn in Hj; lia|auto]. }
  cbn [length] in Hl. inversion F as [|? ? Op F' E1]; subst.
  destruct (key_ok i ltac:(lia)) as [W L]. destruct (mpt_set (mk_mpt db r) (part_key i) p) as [[m' old] e] eqn:Es.
  destruct (set_sim H HH db r c (part_key i) p m' old e W L Op T Es) as (_ & _ & T').
  assert (Em : m' = mk_mpt db (m_root m')).
  { pose proof (f_equal (fun x => m_db (fst (fst x))) Es) as X. cbn [fst] in X. unfold mpt_set in X. destruct m' as [d1 r1]. cbn [m_db m_root] in *. rewrite <- X.
    destruct (opt_set _ _ _ _ _) as [[[? ?] ?] ?]. reflexivity. }
  cbn [fst]. rewrite Em. destruct (IH (m_root m') (with_key c (part_key i) p) (i + 1)%Z T' F' ltac:(lia) ltac:(lia)) as (r' & c' & E & T2 & C & Hr).
  exists r', c'. split; [exact E|]. split; [exact T2|]. split.
  - intro k. destruct (C k) as [(j & q & Hj & -> & Hc)|[N Hc]].
    + left. exists (S j), q. split; auto. split; auto. f_equal. lia.
    + destruct (bytes_eqb k (part_key i)) eqn:B.
      * apply bytes_eqb_eq in B. left. exists 0, p. split; auto. split; [rewrite B; f_equal; lia|]. rewrite Hc. unfold with_key. rewrite B, bytes_eqb_refl. reflexivity.
      * right. split; [|rewrite Hc; unfold with_key; rewrite B; reflexivity]. intros [|j] Hj X.
        -- rewrite Z.add_0_r in X. rewrite X, bytes_eqb_refl in B. discriminate B.
        -- cbn [length] in Hj. apply (N j); [lia|]. rewrite X. f_equal. lia.
  - intros _. destruct parts as [|q parts]; [|apply Hr; discriminate]. cbn [set_all] in E. injection E as <-.
    intro X. rewrite X in T'. cbn [tinv] in T'. specialize (T' (part_key i) W). unfold with_key in T'. rewrite bytes_eqb_refl in T'. discriminate T'.
Qed.

(** What a proof shows to one who holds the hash [h] only. *)
Definition good (h k v : bytes) (proof : list bytes) : Prop :=
  forall f, snd (pprove H f (PHash h) (bytesToNibs k) proof) = PGot v \/ snd (pprove H f (PHash h) (bytesToNibs k) proof) = PFuelOut.

Lemma set_all_made parts : parts <> [] -> Forall okv parts -> (Z.of_nat (length parts) <= 65536)%Z ->
  exists n t, set_all (new_mpt (fun _ => None) []) 0 parts = mk_mpt (fun _ => None) (Some n) /\ fine t /\ rrep H (fun _ => None) n t
    /\ (forall i p, nth_error parts i = Some p -> has t (unpack (part_key (Z.of_nat i))) p)
    /\ mpt_hash H (mk_mpt (fun _ => None) (Some n)) = H (ser t).
Proof.
  intros Hn F L. destruct (set_all_ok (fun _ => None) parts None (fun _ => None) 0 ltac:(cbn; auto) F ltac:(lia) ltac:(lia)) as (r & c & E & T & C & Hr).
  specialize (Hr Hn). destruct r as [n|]; [|congruence]. destruct T as (t & Ft & K & R & S1). exists n, t. split; [exact E|]. split; auto. split; auto. split.
  - intros i p Hi. assert (Li : i < length parts) by (apply nth_error_Some; congruence). apply S1; [apply key_ok; lia|].
    destruct (C (part_key (Z.of_nat i))) as [(j & q & Hj & Ej & Hc)|[N _]].
    + assert (Lj : j < length parts) by (apply nth_error_Some; congruence). apply key_inj in Ej; [|lia|lia]. assert (i = j) by lia. subst j. congruence.
    + exfalso. apply (N i Li). reflexivity.
  - unfold mpt_hash. cbn [m_root]. eapply rrep_hash; eauto.
Qed.

Lemma proofs_made n t : fine t -> rrep H (fun _ => None) n t -> forall parts i, (0 <= i)%Z -> (i + Z.of_nat (length parts) <= 65536)%Z ->
  (forall j p, nth_error parts j = Some p -> has t (unpack (part_key (i + Z.of_nat j))) p) ->
  exists l, proofs H (mk_mpt (fun _ => None) (Some n)) i parts = Some l /\ length l = length parts
    /\ forall j p, nth_error parts j = Some p -> exists pr, nth_error l j = Some (Some pr) /\ good (H (ser t)) (part_key (i + Z.of_nat j)) p pr.
Proof.
  intros F R. induction parts as [|p parts IH]; intros i Hi L Hs; cbn [proofs].
  { exists []. split; auto. split; auto. intros [|j] q E; discriminate E. }
  cbn [length] in L. destruct (key_ok i ltac:(lia)) as [W _].
  pose proof (Hs 0 p eq_refl) as A. rewrite Z.add_0_r in A.
  destruct (PartHonest.honest H HH (fun _ => None) t true n (bytesToNibs (part_key i)) p _ F R (unpack_nibbles _ W) (fuel_ok _) A) as (pr & Ep & V).
  unfold mpt_proof. cbn [m_root m_db]. rewrite Ep.
  destruct (IH (i + 1)%Z ltac:(lia) ltac:(lia)) as (l & -> & Ll & G).
  { intros j q Hj. replace (i + 1 + Z.of_nat j)%Z with (i + Z.of_nat (S j))%Z by lia. apply Hs. exact Hj. }
  exists (Some pr :: l). split; auto. split; [cbn; lia|]. intros [|j] q Hj.
  - injection Hj as <-. exists pr. split; auto. rewrite Z.add_0_r. intro f. exact (V f).
  - destruct (G j q Hj) as (pr' & E & Gd). exists pr'. split; auto. replace (i + Z.of_nat (S j))%Z with (i + 1 + Z.of_nat j)%Z by lia. exact Gd.
Qed.

(** ** What is received *)
Section Pieces.
Context (P : bytes -> Prop) (Inj : forall a b, P a -> P b -> H a = H b -> a = b).
Definition known (p : part) : Prop := forall b, In b (pieces p) -> P b.
Definition rinv (h : bytes) (c : nat) (r : received) : Prop :=
  length (r_parts r) = c /\ length (r_proofs r) = c
  /\ (exists n, r_tree r = Some n /\ PartProve.ex H P (PHash h) n)
  /\ (shaped (r_mask r) /\ ba_bits (r_mask r) = Z.of_nat c /\ forall i, bit (r_mask r) (Z.of_nat i) = there (nth_error (r_parts r) i))
  /\ r_added r = present (r_parts r)
  /\ forall i, i < c -> (nth_error (r_parts r) i = Some None /\ nth_error (r_proofs r) i = Some None)
       \/ exists d p, nth_error (r_parts r) i = Some (Some d) /\ nth_error (r_proofs r) i = Some (Some p) /\ known (mk_part (Z.of_nat i) p)
            /\ exists f, snd (pprove H f (PHash h) (bytesToNibs (part_key (Z.of_nat i))) (pieces (mk_part (Z.of_nat i) p))) = PGot d.

Lemma rinv_start h c : h <> [] -> (Z.of_nat c < 65536)%Z -> rinv h c (from_id (Z.of_nat c, h)).
Proof.
  intros Hh L. unfold from_id, rinv. cbn [r_parts r_proofs r_tree r_mask r_added fst snd]. rewrite !Nat2Z.id, !repeat_length.
  destruct (new_ok (Z.of_nat c) ltac:(lia)) as (b & -> & S1 & C1 & B1 & Z1).
  split; auto. split; auto. split; [|split; [|split]].
  - exists (PHash h). split; [destruct h; [congruence|reflexivity]|apply PartProve.ex_refl].
  - split; auto. split; auto. intro i. rewrite Z1. destruct (nth_error (repeat None c) i) as [o|] eqn:E; auto. apply nth_error_In, repeat_spec in E. now subst o.
  - symmetry. apply present_none.
  - intros i Hi. left. split; (rewrite nth_error_repeat; [reflexivity|exact Hi]).
Qed.

Lemma add_ok h c r p : rinv h c r -> (Z.of_nat c < 65536)%Z -> known p ->
  let i := Z.to_nat (p_index p) in
  (~ ((0 <= p_index p < Z.of_nat c)%Z /\ nth_error (r_parts r) i = Some None) /\ add_part H r p = (r, Rejected))
  \/ ((0 <= p_index p < Z.of_nat c)%Z /\ nth_error (r_parts r) i = Some None
      /\ exists f, let o := snd (pprove H f (PHash h) (bytesToNibs (part_key (p_index p))) (pieces p)) in
         o <> PFuelOut /\ rinv h c (fst (add_part H r p))
         /\ match o with
            | PGot d => snd (add_part H r p) = Added /\ r_parts (fst (add_part H r p)) = set_nth (r_parts r) i (Some d)
            | PRefused => snd (add_part H r p) = Rejected /\ r_parts (fst (add_part H r p)) = r_parts r
            | _ => snd (add_part H r p) = Crashed
            end).
Proof.
  intros R L K. cbv zeta. pose proof R as (L1 & L2 & (n & Et & Ex) & (Sh & Bb & Bt) & Ad & It).
  unfold add_part. rewrite L1. destruct (Z.ltb_spec (p_index p) 0) as [X|X]; cbn [orb]; [left; split; [lia|reflexivity]|].
  destruct (Z.leb_spec (Z.of_nat c) (p_index p)) as [Y|Y]; [left; split; [lia|reflexivity]|].
  set (i := Z.to_nat (p_index p)) in *. assert (Hi : i < c) by lia.
  destruct (nth_error (r_parts r) i) as [[d|]|] eqn:Ei; [left; split; [intros [_ Z0]; discriminate Z0|reflexivity]| |left; split; [intros [_ Z0]; discriminate Z0|reflexivity]].
  right. split; [lia|]. split; auto. rewrite Et. cbn [p_prove]. fold (pieces p).
  exists (psteps n (pieces p)). set (f := psteps n (pieces p)). set (keys := bytesToNibs (part_key (p_index p))).
  pose proof (PartProve.enough H f n keys (pieces p) (le_n _)) as NF.
  pose proof (PartProve.same_answer H P Inj f (PHash h) n keys (pieces p) Ex K) as Sa.
  pose proof (PartProve.grows H P f (PHash h) n keys (pieces p) Ex K) as Gr.
  rewrite Sa. split; [exact NF|]. destruct (pprove H f n keys (pieces p)) as [n' o] eqn:Ep. cbn [fst snd] in *.
  assert (R1 : rinv h c (mk_rec (r_parts r) (r_proofs r) (r_added r) (Some n') (r_mask r))).
  { split; [exact L1|]. split; [exact L2|]. split; [exists n'; auto|]. split; [split; auto|]. split; auto. }
  destruct o as [d| | |]; cbn [fst snd]; [|split; [exact R1|auto]|split; [exact R1|auto]|congruence].
  destruct (set_ok (r_mask r) (p_index p) Sh X) as (mask & Em & Shm & Bm & Btm). rewrite Em. cbn [fst snd r_parts].
  split; [|split; reflexivity].
  split; [cbn; rewrite set_len; exact L1|]. split; [cbn; rewrite set_len; exact L2|]. split; [exists n'; auto|]. cbn [r_parts r_proofs r_mask r_added].
  split; [|split].
  - split; auto. split; [lia|]. intro j. rewrite Btm by lia. rewrite Bt, Bb. destruct (Nat.eq_dec i j) as [<-|N].
    + rewrite nth_set_same by (rewrite L1; exact Hi). cbn [there]. replace (Z.of_nat i) with (p_index p) by lia. rewrite Z.eqb_refl.
      destruct (Z.ltb_spec (p_index p) (Z.of_nat c)); [apply orb_true_r|lia].
    + rewrite nth_set_other by exact N. destruct (Z.eqb_spec (p_index p) (Z.of_nat j)); [lia|]. apply orb_false_r.
  - rewrite present_set by exact Ei. lia.
  - intros j Hj. destruct (Nat.eq_dec i j) as [<-|N].
    + right. exists d, (p_proof p). rewrite !nth_set_same by (rewrite ?L1, ?L2; exact Hi). split; auto. split; auto.
      split; [exact K|]. exists f. replace (Z.of_nat i) with (p_index p) by lia. exact Sa.
    + rewrite !nth_set_other by exact N. apply It. exact Hj.
Qed.

Lemma offered_ok h c : (Z.of_nat c < 65536)%Z -> forall l r, rinv h c r -> (forall p, In p l -> known p) -> rinv h c (fst (offered H r l)).
Proof.
  intro L. induction l as [|p l IH]; intros r R K; cbn [offered]; [exact R|].
  assert (R1 : rinv h c (fst (add_part H r p))).
  { destruct (add_ok h c r p R L (K p (or_introl eq_refl))) as [[_ ->]|(_ & _ & f & _ & X & _)]; [exact R|exact X]. }
  destruct (add_part H r p) as [r1 a]. cbn [fst] in R1. specialize (IH r1 R1 (fun q Hq => K q (or_intror Hq))).
  destruct (offered H r1 l). exact IH.
Qed.

(** Two answers that are answers are the same. *)
Lemma steady n keys proof f g : snd (pprove H f n keys proof) <> PFuelOut -> snd (pprove H g n keys proof) <> PFuelOut ->
  snd (pprove H f n keys proof) = snd (pprove H g n keys proof).
Proof.
  intros A B. destruct (Nat.le_ge_cases f g) as [L|L].
  - rewrite (PartProve.more H f g n keys proof L A). reflexivity.
  - rewrite (PartProve.more H g f n keys proof L B). reflexivity.
Qed.

Lemma one_data h i p q f g d e : known p -> known q -> p_index p = i -> p_index q = i ->
  snd (pprove H f (PHash h) (bytesToNibs (part_key i)) (pieces p)) = PGot d ->
  snd (pprove H g (PHash h) (bytesToNibs (part_key i)) (pieces q)) = PGot e -> d = e.
Proof.
  intros Kp Kq _ _ A B. pose proof (PartProve.one_value H P Inj f g (PHash h) (bytesToNibs (part_key i)) (pieces p) (pieces q) d Kp Kq A) as X.
  rewrite B in X. now symmetry.
Qed.

(** A part whose proof shows something is taken by any one who lacks it. *)
Lemma shown_added h c r p f d : rinv h c r -> (Z.of_nat c < 65536)%Z -> known p -> (0 <= p_index p < Z.of_nat c)%Z ->
  nth_error (r_parts r) (Z.to_nat (p_index p)) = Some None ->
  snd (pprove H f (PHash h) (bytesToNibs (part_key (p_index p))) (pieces p)) = PGot d ->
  snd (add_part H r p) = Added /\ r_parts (fst (add_part H r p)) = set_nth (r_parts r) (Z.to_nat (p_index p)) (Some d).
Proof.
  intros R L K Hi He E. destruct (add_ok h c r p R L K) as [[N _]|(_ & _ & g & NF & _ & A)]; [exfalso; apply N; auto|].
  cbv zeta in *. assert (X : snd (pprove H g (PHash h) (bytesToNibs (part_key (p_index p))) (pieces p)) = PGot d).
  { rewrite <- E. apply steady; [exact NF|congruence]. }
  rewrite X in A. exact A.
Qed.

(** If the trie of an ID shows a value at each index, offering anything does no harm. *)
Lemma no_harm h c (vals : list bytes) (prf : nat -> list bytes) : (Z.of_nat c < 65536)%Z -> length vals = c ->
  (forall i v, nth_error vals i = Some v -> good h (part_key (Z.of_nat i)) v (prf i) /\ forall b, In b (prf i) -> P b) ->
  forall l r, rinv h c r -> (forall p, In p l -> known p) ->
  (forall i d, nth_error (r_parts r) i = Some (Some d) -> nth_error vals i = Some d) ->
  (forall a, In a (snd (offered H r l)) -> a = Added \/ a = Rejected)
  /\ forall i d, nth_error (r_parts (fst (offered H r l))) i = Some (Some d) -> nth_error vals i = Some d.
Proof.
  intros L Lv Hv. induction l as [|p l IH]; intros r R K G; cbn [offered fst snd]; [split; [intros a []|exact G]|].
  pose proof (K p (or_introl eq_refl)) as Kp. pose proof (add_ok h c r p R L Kp) as A. cbv zeta in A.
  assert (B : rinv h c (fst (add_part H r p)) /\ (snd (add_part H r p) = Added \/ snd (add_part H r p) = Rejected)
              /\ forall i d, nth_error (r_parts (fst (add_part H r p))) i = Some (Some d) -> nth_error vals i = Some d).
  { destruct A as [[_ ->]|(Hi & He & f & NF & R1 & A)]; [split; [exact R|split; [now right|exact G]]|]. split; [exact R1|].
    remember (Z.to_nat (p_index p)) as j eqn:Ej. assert (Hj : j < length vals) by lia.
    destruct (nth_error vals j) as [v|] eqn:Ev; [|apply nth_error_None in Ev; lia].
    destruct (Hv j v Ev) as [Gd Kn]. replace (Z.of_nat j) with (p_index p) in Gd by lia.
    set (g := psteps (PHash h) (prf j)). assert (Eg : snd (pprove H g (PHash h) (bytesToNibs (part_key (p_index p))) (prf j)) = PGot v).
    { destruct (Gd g) as [X|X]; [exact X|]. exfalso. exact (PartProve.enough H g (PHash h) _ (prf j) (le_n _) X). }
    pose proof (PartProve.one_value H P Inj g f (PHash h) _ (prf j) (pieces p) v Kn Kp Eg) as O.
    destruct (snd (pprove H f (PHash h) (bytesToNibs (part_key (p_index p))) (pieces p))) as [d| | |]; [|destruct A as [-> Er]|contradiction|congruence].
    - destruct A as [-> Er]. subst d. split; [now left|]. rewrite Er. intros i d Hd. destruct (Nat.eq_dec j i) as [<-|Nij].
      + rewrite nth_set_same in Hd by (destruct R as (L1 & _); lia). congruence.
      + rewrite nth_set_other in Hd by exact Nij. now apply G.
    - split; [now right|]. rewrite Er. exact G. }
  destruct (add_part H r p) as [r1 a]. cbn [fst snd] in B. destruct B as (R1 & Ba & G1).
  destruct (IH r1 R1 (fun q Hq => K q (or_intror Hq)) G1) as [I1 I2]. destruct (offered H r1 l) as [r2 x]. cbn [fst snd] in *.
  split; [|exact I2]. intros y [<-|Hy]; [exact Ba|now apply I1].
Qed.
End Pieces.

(** ** What holds whatever the digests are *)
Definition winv (h : bytes) (c : nat) (r : received) : Prop :=
  length (r_parts r) = c /\ length (r_proofs r) = c
  /\ ((h = [] /\ r_tree r = None) \/ exists n, r_tree r = Some n /\ PartProve.ex H (fun _ => True) (PHash h) n)
  /\ (shaped (r_mask r) /\ ba_bits (r_mask r) = Z.of_nat c /\ forall i, bit (r_mask r) (Z.of_nat i) = there (nth_error (r_parts r) i))
  /\ r_added r = present (r_parts r)
  /\ (forall i, there (nth_error (r_parts r) i) = there (nth_error (r_proofs r) i)).
Lemma winv_start h c : (Z.of_nat c < 65536)%Z -> winv h c (from_id (Z.of_nat c, h)).
Proof.
  intros L. unfold from_id, winv. cbn [r_parts r_proofs r_tree r_mask r_added fst snd]. rewrite !Nat2Z.id, !repeat_length.
  destruct (new_ok (Z.of_nat c) ltac:(lia)) as (b & -> & S1 & C1 & B1 & Z1).
  assert (N : forall A i, there (nth_error (repeat (@None A) c) i) = false).
  { intros A i. destruct (nth_error (repeat (@None A) c) i) as [o|] eqn:E; auto. apply nth_error_In, repeat_spec in E. now subst o. }
  split; auto. split; auto. split; [|split; [|split]].
  - destruct h as [|x h]; [left; auto|right]. exists (PHash (x :: h)). split; [reflexivity|apply PartProve.ex_refl].
  - split; auto. split; auto. intro i. rewrite Z1, N. reflexivity.
  - symmetry. apply present_none.
  - intro i. now rewrite !N.
Qed.
Lemma winv_add h c r p : winv h c r -> winv h c (fst (add_part H r p)).
Proof.
  intros R. pose proof R as (L1 & L2 & Tr & (Sh & Bb & Bt) & Ad & Pf).
  unfold add_part. rewrite L1. destruct (Z.ltb_spec (p_index p) 0) as [X|X]; cbn [orb]; [exact R|].
  destruct (Z.leb_spec (Z.of_nat c) (p_index p)) as [Y|Y]; [exact R|].
  remember (Z.to_nat (p_index p)) as i eqn:Eqi. assert (Hi : i < c) by lia.
  destruct (nth_error (r_parts r) i) as [[d|]|] eqn:Ei; [exact R| |exact R].
  destruct (p_prove H (r_tree r) (part_key (p_index p)) match p_proof p with Some l => l | None => [] end) as [tree o] eqn:Ep.
  assert (Tr' : (h = [] /\ tree = None) \/ exists n, tree = Some n /\ PartProve.ex H (fun _ => True) (PHash h) n).
  { destruct Tr as [[-> Et]|(n & Et & Ex)]; rewrite Et in Ep; cbn [p_prove] in Ep; [injection Ep as <- <-; left; auto|].
    right. fold (pieces p) in Ep. pose proof (PartProve.grows H (fun _ => True) (psteps n (pieces p)) (PHash h) n (bytesToNibs (part_key (p_index p))) (pieces p) Ex (fun _ _ => Logic.I)) as G.
    destruct (pprove H (psteps n (pieces p)) n (bytesToNibs (part_key (p_index p))) (pieces p)) as [n' o']. injection Ep as <- <-. exists n'. auto. }
  assert (R1 : winv h c (mk_rec (r_parts r) (r_proofs r) (r_added r) tree (r_mask r))) by (repeat split; auto; apply Sh).
  destruct o as [d| | |]; [|exact R1|exact R1|exact R1].
  destruct (set_ok (r_mask r) (p_index p) Sh X) as (mask & Em & Shm & Bm & Btm). rewrite Em. cbn [fst].
  split; [cbn; rewrite set_len; exact L1|]. split; [cbn; rewrite set_len; exact L2|]. split; [exact Tr'|]. cbn [r_parts r_proofs r_mask r_added].
  split; [|split].
  - split; auto. split; [lia|]. intro j. rewrite Btm by lia. rewrite Bt, Bb. destruct (Nat.eq_dec i j) as [<-|N].
    + rewrite nth_set_same by (rewrite L1; exact Hi). cbn [there]. replace (Z.of_nat i) with (p_index p) by lia. rewrite Z.eqb_refl.
      destruct (Z.ltb_spec (p_index p) (Z.of_nat c)); [apply orb_true_r|lia].
    + rewrite nth_set_other by exact N. destruct (Z.eqb_spec (p_index p) (Z.of_nat j)); [lia|]. apply orb_false_r.
  - rewrite present_set by exact Ei. lia.
  - intro j. destruct (Nat.eq_dec i j) as [<-|N].
    + rewrite !nth_set_same by (rewrite ?L1, ?L2; exact Hi). reflexivity.
    + rewrite !nth_set_other by exact N. apply Pf.
Qed.
Lemma winv_offered h c : forall l r, winv h c r -> winv h c (fst (offered H r l)).
Proof.
  induction l as [|p l IH]; intros r R; cbn [offered]; [exact R|]. pose proof (winv_add h c r p R) as R1.
  destruct (add_part H r p) as [r1 a]. cbn [fst] in R1. specialize (IH r1 R1). destruct (offered H r1 l). exact IH.
Qed.
Lemma winv_id h c r : winv h c r -> (Z.of_nat c < 65536)%Z -> rec_id H r = (Z.of_nat c, h).
Proof.
  intros (L1 & _ & Tr & _) L. unfold rec_id. rewrite L1, Z.mod_small by lia. f_equal.
  destruct Tr as [[-> ->]|(n & -> & Ex)]; [reflexivity|]. eapply PartProve.hash_stays. exact Ex.
Qed.
Lemma present_all : forall l, present l = Z.of_nat (length l) <-> forall i, i < length l -> there (nth_error l i) = true.
Proof.
  unfold present. induction l as [|o l IH]; [cbn; split; intros; [lia|auto]|].
  assert (Lf : length (filter (fun o : option bytes => match o with Some _ => true | None => false end) l) <= length l) by (clear IH; induction l as [|[x|] l IHl]; cbn [filter length]; lia).
  destruct o as [x|]; cbn [filter length]; split.
  - intros E [|i] Hi; [reflexivity|]. cbn [nth_error]. apply IH; lia.
  - intros A. assert (X : Z.of_nat (length (filter (fun o : option bytes => match o with Some _ => true | None => false end) l)) = Z.of_nat (length l)).
    { apply IH. intros i Hi. apply (A (S i)). lia. } lia.
  - intros E. lia.
  - intros A. specialize (A 0 ltac:(lia)). discriminate A.
Qed.

(** ** The set that is made *)
Lemma cut_last size b data : 0 < size -> wok size b data -> length data mod size <> 0 -> exists c, snd b = Some c.
Proof.
  intros Hs (E & A & C) N. destruct (snd b) as [c|]; [eauto|]. exfalso. apply N. rewrite app_nil_r in E. rewrite <- E.
  clear - A Hs. induction (fst b) as [|p l IH]; [apply Nat.mod_small; exact Hs|]. pose proof (Forall_inv A) as Lp. pose proof (Forall_inv_tail A) as Al. cbn [concat].
  rewrite app_length, Lp. rewrite <- (Nat.mul_1_l size) at 1. rewrite Nat.add_comm, Nat.mod_add by lia. now apply IH.
Qed.
Lemma cut_none size b data : 0 < size -> wok size b data -> length data mod size = 0 -> snd b = None.
Proof.
  intros Hs (E & A & C) N. destruct (snd b) as [c|]; [|reflexivity]. exfalso. rewrite <- E, app_length in N.
  assert (M : length (concat (fst b)) mod size = 0).
  { clear - A Hs. induction (fst b) as [|p l IH]; [apply Nat.mod_small; exact Hs|]. pose proof (Forall_inv A) as Lp. pose proof (Forall_inv_tail A) as Al. cbn [concat].
    rewrite app_length, Lp. rewrite <- (Nat.mul_1_l size) at 1. rewrite Nat.add_comm, Nat.mod_add by lia. now apply IH. }
  rewrite Nat.add_mod, M, Nat.add_0_l, Nat.mod_mod, Nat.mod_small in N by lia. lia.
Qed.
Lemma parts_okv size b data : wok size b data -> (Z.of_nat size < 2 ^ 32)%Z -> 0 < size -> wf_bytes data -> Forall okv (buffer_parts b).
Proof.
  intros W L Hs Wd. pose proof (wok_cut size b data Hs W) as [E A]. rewrite <- E in Wd.
  apply Forall_forall. intros p Hp. apply In_nth_error in Hp as [i Hi]. destruct (A i p Hi) as [X _].
  split; [|split; [destruct p; [cbn in X; lia|discriminate]|unfold blen; lia]].
  apply nth_error_In in Hi. unfold wf_bytes in *. rewrite Forall_forall in *. intros x Hx. apply Wd. apply in_concat. eauto.
Qed.
Lemma made_ok size b data : 0 < size -> (Z.of_nat size < 2 ^ 32)%Z -> wok size b data -> wf_bytes data -> length data mod size <> 0 ->
  (Z.of_nat (length (buffer_parts b)) < 65536)%Z ->
  exists m h, part_set H b = Some m /\ m_parts m = buffer_parts b /\ made_id H m = (Z.of_nat (length (buffer_parts b)), h) /\ h <> []
    /\ m_mask m = full_mask (length (buffer_parts b))
    /\ forall i p, nth_error (buffer_parts b) i = Some p ->
         exists pr, made_part m i = Some (mk_part (Z.of_nat i) (Some pr)) /\ good h (part_key (Z.of_nat i)) p pr.
Proof.
  intros Hs Sz W Wd N L. destruct (cut_last size b data Hs W N) as [c Ec]. pose proof (parts_okv size b data W Sz Hs Wd) as Ok.
  unfold buffer_parts in *. rewrite Ec in *. destruct b as [parts cur]. cbn [fst snd] in *. subst cur.
  assert (Hne : parts ++ [c] <> []) by (destruct parts; discriminate).
  destruct (set_all_made (parts ++ [c]) Hne Ok ltac:(lia)) as (n & t & E & F & R & Hs2 & Eh).
  destruct (proofs_made n t F R (parts ++ [c]) 0 ltac:(lia) ltac:(lia) Hs2) as (l & El & Ll & G).
  unfold part_set. rewrite E, El. eexists. exists (H (ser t)). split; [reflexivity|]. split; [reflexivity|]. split; [|split; [|split; [reflexivity|]]].
  - unfold made_id. cbn [m_parts m_tree]. rewrite Eh, Z.mod_small by lia. reflexivity.
  - intro X. pose proof (proj1 (HH (ser t))) as Lh. rewrite X in Lh. discriminate Lh.
  - intros i p Hi. destruct (G i p Hi) as (pr & Hp & Gd). exists pr. unfold made_part. cbn [m_proofs]. rewrite Hp. split; [reflexivity|exact Gd].
Qed.
End Digest.

(** ** Reading *)
Definition rest_of (parts : list bytes) (idx off : nat) : bytes := skipn off (concat (skipn idx parts)).
Definition at_ok (parts : list bytes) (idx off : nat) : Prop :=
  match nth_error parts idx with Some d => off < length d | None => off = 0 /\ idx = length parts end.
Lemma rest_at (parts : list bytes) idx off d : nth_error parts idx = Some d -> off <= length d -> rest_of parts idx off = skipn off d ++ rest_of parts (S idx) 0.
Proof.
  intros E L. unfold rest_of. assert (S1 : @skipn bytes idx parts = d :: @skipn bytes (S idx) parts).
  { clear L. revert idx E. induction parts as [|x parts IH]; intros [|idx] E; try discriminate E; [injection E as ->; reflexivity|]. cbn [skipn]. now apply IH. }
  unfold bytes in *. rewrite S1. cbn [concat]. rewrite skipn_app. replace (off - length d) with 0 by lia. reflexivity.
Qed.
Lemma read_f_ok (parts : list bytes) : (forall p, In p parts -> p <> []) -> forall fuel idx off room acc,
  at_ok parts idx off -> length parts - idx < fuel ->
  exists i o, read_f fuel (map Some parts) idx off room acc = Some (acc ++ firstn room (rest_of parts idx off), i, o)
    /\ at_ok parts i o /\ rest_of parts i o = skipn room (rest_of parts idx off).
Proof.
  intro Hne. induction fuel as [|f IH]; intros idx off room acc A L; [lia|]. cbn [read_f]. rewrite map_length.
  destruct (Nat.ltb_spec 0 room) as [R|R]; cbn [andb].
  2:{ assert (room = 0) by lia. subst room. exists idx, off. cbn [firstn skipn]. rewrite app_nil_r. auto. }
  destruct (Nat.ltb_spec idx (length parts)) as [I1|I1].
  2:{ exists idx, off. unfold at_ok in A. destruct (nth_error parts idx) as [d|] eqn:E; [assert (idx < length parts) by (apply nth_error_Some; congruence); lia|].
      assert (Z0 : rest_of parts idx off = []).
      { pose proof (skipn_all2 (n := idx) parts I1) as Z1. unfold rest_of, bytes in *. rewrite Z1. apply skipn_nil. }
      rewrite Z0, firstn_nil, skipn_nil, app_nil_r. split; [reflexivity|]. split; [|reflexivity]. unfold at_ok. rewrite E. exact A. }
  rewrite nth_error_map. unfold at_ok in A. destruct (nth_error parts idx) as [d|] eqn:E; [|apply nth_error_None in E; lia]. cbn [option_map].
  rewrite (rest_at parts idx off d E) by lia.
  destruct (Nat.leb_spec (length d) (off + length (firstn room (skipn off d)))) as [X|X]; rewrite firstn_length, skipn_length in X.
  - assert (Fn : firstn room (skipn off d) = skipn off d) by (apply firstn_all2; rewrite skipn_length; lia). rewrite Fn.
    destruct (IH (S idx) 0 (room - length (skipn off d)) (acc ++ skipn off d)) as (i & o & Er & Ao & Ro); [|lia|].
    + unfold at_ok. destruct (nth_error parts (S idx)) as [d'|] eqn:E'; [apply nth_error_In in E'; specialize (Hne _ E'); destruct d'; [congruence|cbn; lia]|].
      apply nth_error_None in E'. lia.
    + exists i, o. rewrite Er, firstn_app, skipn_app, Fn, app_assoc. split; auto. split; auto.
      rewrite Ro. rewrite (skipn_all2 (skipn off d)) by (rewrite skipn_length; lia). reflexivity.
  - assert (Lr : length (firstn room (skipn off d)) = room) by (rewrite firstn_length, skipn_length; lia).
    rewrite Lr, Nat.sub_diag. exists idx, (off + room).
    assert (Er : read_f f (map Some parts) idx (off + room) 0 (acc ++ firstn room (skipn off d)) = Some (acc ++ firstn room (skipn off d), idx, off + room)) by (destruct f; reflexivity).
    rewrite Er, firstn_app, skipn_length. replace (room - (length d - off)) with 0 by lia. cbn [firstn]. rewrite app_nil_r. split; auto. split.
    + unfold at_ok. rewrite E. lia.
    + rewrite (rest_at parts idx (off + room) d E) by lia. rewrite skipn_app, skipn_length. replace (room - (length d - off)) with 0 by lia. cbn [skipn].
      f_equal. clear. revert off. induction d as [|x d IHd]; intros [|off]; cbn; rewrite ?skipn_nil; auto.
Qed.
Lemma reads_ok (parts : list bytes) : (forall p, In p parts -> p <> []) -> forall sizes idx off, at_ok parts idx off ->
  exists l, reads (map Some parts) (idx, off) sizes = Some l /\ concat l = firstn (fold_right Nat.add 0 sizes) (rest_of parts idx off)
    /\ length l = length sizes
    /\ forall k n b, nth_error sizes k = Some n -> nth_error l k = Some b -> b = firstn n (skipn (fold_right Nat.add 0 (firstn k sizes)) (rest_of parts idx off)).
Proof.
  intro Hne. induction sizes as [|n sizes IH]; intros idx off A; cbn [reads fold_right].
  { exists []. split; auto. split; auto. split; auto. intros [|k] n b Hn; discriminate Hn. }
  unfold read. cbn [fst snd]. rewrite map_length.
  destruct (read_f_ok parts Hne (S (S (length parts))) idx off n [] A ltac:(lia)) as (i & o & Er & Ao & Ro). rewrite Er.
  destruct (IH i o Ao) as (l & El & Cl & Ll & Nl). rewrite El. cbn [app].
  assert (Sk : forall a b (x : bytes), skipn a (skipn b x) = skipn (b + a) x).
  { clear. intros a b. induction b as [|b IHb]; intros [|y x]; cbn; rewrite ?skipn_nil; auto. }
  exists (firstn n (rest_of parts idx off) :: l). split; auto. split; [|split; [cbn; lia|]].
  - cbn [concat]. rewrite Cl, Ro. clear. generalize (rest_of parts idx off) as x. intro x. revert x. induction n as [|n IHn]; intros [|y x]; cbn; rewrite ?firstn_nil; auto. f_equal. apply IHn.
  - intros [|k] n0 b Hn Hb; [injection Hn as <-; injection Hb as <-; reflexivity|]. cbn [nth_error firstn fold_right] in *.
    rewrite (Nl k n0 b Hn Hb), Ro, Sk. reflexivity.
Qed.

Lemma start_ok size : wok size ([], None) [].
Proof. split; [reflexivity|]. split; [constructor|exact Logic.I]. Qed.
Lemma cut_count size : forall parts data n, cut_into size data parts -> length data <= n * size -> length parts <= n.
Proof.
  intros parts data n [<- A] L. revert n A L. induction parts as [|p parts IH]; intros n A L; cbn [length concat] in *; [lia|].
  rewrite app_length in L. destruct (A 0 p eq_refl) as [X Y]. destruct n as [|n]; [lia|]. cbn in L.
  destruct parts as [|q parts]; [cbn; lia|]. rewrite Y in L by (cbn; lia).
  assert (length (q :: parts) <= n); [|lia]. apply IH; [|lia].
  intros i r Hi. destruct (A (S i) r Hi) as [a b]. split; auto. intro; apply b; cbn [length] in *; lia.
Qed.
Lemma written size chunks : 0 < size -> wok size (write_all size ([], None) chunks) (concat chunks).
Proof. intro Hs. apply (write_all_ok size Hs chunks ([], None) [] (start_ok size)). Qed.
Lemma sane_count size chunks : sane_data size (concat chunks) -> (Z.of_nat (length (buffer_parts (write_all size ([], None) chunks))) < 65536)%Z.
Proof.
  intros (S1 & S2 & S3 & S4). pose proof (wok_cut size _ _ ltac:(lia) (written size chunks ltac:(lia))) as C.
  pose proof (cut_count size _ _ (Z.to_nat 65535) C ltac:(lia)). lia.
Qed.
Lemma same_buffer size b1 b2 data : 0 < size -> wok size b1 data -> wok size b2 data -> b1 = b2.
Proof.
  intros Hs W1 W2. pose proof (cut_unique size _ _ data (wok_cut size b1 data Hs W1) (wok_cut size b2 data Hs W2)) as E.
  destruct (Nat.eq_dec (length data mod size) 0) as [N|N].
  - pose proof (cut_none size b1 data Hs W1 N) as E1. pose proof (cut_none size b2 data Hs W2 N) as E2. destruct b1, b2. cbn [snd] in *. subst.
    unfold buffer_parts in E. cbn [fst snd] in E. rewrite !app_nil_r in E. congruence.
  - destruct (cut_last size b1 data Hs W1 N) as [c1 E1], (cut_last size b2 data Hs W2 N) as [c2 E2]. destruct b1 as [l1 o1], b2 as [l2 o2]. cbn [snd] in *. subst.
    unfold buffer_parts in E. cbn [fst snd] in E. apply app_inj_tail in E as [-> ->]. reflexivity.
Qed.
Lemma list_same {A} : forall l1 l2 : list A, (forall i, nth_error l1 i = nth_error l2 i) -> l1 = l2.
Proof.
  induction l1 as [|x l1 IH]; intros [|y l2] E; auto; try (specialize (E 0); discriminate E).
  pose proof (E 0) as E0. injection E0 as <-. f_equal. apply IH. intro i. exact (E (S i)).
Qed.
