(** C71: blocks sent in parts. *)
From Verif Require Import Model.Bytes Model.IntCodec Model.DbKey Model.Rlp Model.Mpt Model.MptRun Model.MptProof Model.BitArray Model.PartSet
  Spec.RlpSpec Spec.TrieSpec Spec.PartSetSpec
  Proof.BytesFacts Proof.MptRlpFacts Proof.MptTree Proof.BitArrayFacts Proof.PartSetFacts Props.P_Trie.
From Verif Require Proof.PartProve Proof.PartHonest Proof.RlpFacts.
Open Scope Z_scope.

(** However it is written, the data is cut into parts of the given size, and a set is made of them. *)
Theorem C71_cut : forall calcHash size chunks, digest32 calcHash -> sane_data size (concat chunks) ->
  exists m, part_set calcHash (write_all size ([], None) chunks) = Some m
    /\ cut_into size (concat chunks) (m_parts m) /\ fst (made_id calcHash m) = Z.of_nat (length (m_parts m)).
Proof.
  intros H size chunks HH Sa. pose proof (sane_count size chunks Sa) as L. destruct Sa as (S1 & S2 & S3 & S4).
  assert (Hs : (0 < size)%nat) by lia. pose proof (written size chunks Hs) as W. pose proof (wok_cut size _ _ Hs W) as C.
  destruct (Nat.eq_dec (length (concat chunks) mod size) 0) as [N|N].
  - pose proof (cut_none size _ _ Hs W N) as E. unfold part_set, buffer_parts in *. destruct (write_all size ([], None) chunks) as [parts cur]. cbn [fst snd] in *. subst cur.
    rewrite app_nil_r in *. eexists. split; [reflexivity|]. split; [exact C|]. unfold made_id. cbn [m_parts fst]. apply Z.mod_small. lia.
  - destruct (made_ok H HH size _ _ Hs S2 W S3 N L) as (m & h & E & Em & Ei & _). exists m. rewrite Em, Ei. auto.
Qed.
Print Assumptions C71_cut.

(** In which chunks it was written does not matter. *)
Theorem C71_chunks : forall calcHash size chunks1 chunks2, (2 <= size)%nat -> concat chunks1 = concat chunks2 ->
  part_set calcHash (write_all size ([], None) chunks1) = part_set calcHash (write_all size ([], None) chunks2).
Proof.
  intros H size c1 c2 Hs E. f_equal. apply (same_buffer size _ _ (concat c1)); [lia|apply written; lia|].
  rewrite E. apply written. lia.
Qed.
Print Assumptions C71_chunks.

(** One who has the parts reads the data, whatever buffers are used; at the end nothing comes. *)
Theorem C71_reader : forall size data parts sizes, cut_into size data parts -> Forall (fun n => (0 < n)%nat) sizes ->
  exists l, reads (map Some parts) (0, 0)%nat sizes = Some l
    /\ concat l = firstn (fold_right Nat.add O sizes) data
    /\ forall k n b, nth_error sizes k = Some n -> nth_error l k = Some b ->
         b = firstn n (skipn (fold_right Nat.add O (firstn k sizes)) data)
         /\ (b = [] <-> (length data <= fold_right Nat.add O (firstn k sizes))%nat).
Proof.
  intros size data parts sizes [E A] F.
  assert (Hne : forall p, In p parts -> p <> []).
  { intros p Hp. apply In_nth_error in Hp as [i Hi]. destruct (A i p Hi) as [X _]. destruct p; [cbn in X; lia|discriminate]. }
  assert (A0 : at_ok parts 0 0).
  { unfold at_ok. destruct parts as [|p r]; cbn; [auto|]. specialize (Hne p (or_introl eq_refl)). destruct p; [congruence|cbn; lia]. }
  destruct (reads_ok parts Hne sizes 0 0 A0) as (l & El & Cl & Ll & Nl).
  change (rest_of parts 0 0) with (concat parts) in *. rewrite E in *. exists l. split; [exact El|]. split; [exact Cl|].
  intros k n b Hn Hb. rewrite (Nl k n b Hn Hb). split; [reflexivity|]. assert (Pn : (0 < n)%nat) by (rewrite Forall_forall in F; apply F; eapply nth_error_In; eauto).
  split.
  - intro X. apply (f_equal (@length Z)) in X. rewrite firstn_length, skipn_length in X. cbn in X. lia.
  - intro X. rewrite skipn_all2 by exact X. apply firstn_nil.
Qed.
Print Assumptions C71_reader.

Lemma honest_set calcHash size chunks m : digest32 calcHash -> sane_data size (concat chunks) -> (length (concat chunks) mod size <> 0)%nat ->
  part_set calcHash (write_all size ([], None) chunks) = Some m ->
  exists h c prf, made_id calcHash m = (Z.of_nat c, h) /\ h <> [] /\ length (m_parts m) = c /\ Z.of_nat c < 65536 /\ m_mask m = full_mask c
    /\ cut_into size (concat chunks) (m_parts m)
    /\ forall i p, nth_error (m_parts m) i = Some p -> made_part m i = Some (mk_part (Z.of_nat i) (Some (prf i)))
         /\ good calcHash h (part_key (Z.of_nat i)) p (prf i) /\ In (mk_part (Z.of_nat i) (Some (prf i))) (made_all m).
Proof.
  intros HH Sa N E. pose proof (sane_count size chunks Sa) as L. destruct Sa as (S1 & S2 & S3 & S4).
  assert (Hs : (0 < size)%nat) by lia. pose proof (written size chunks Hs) as W. pose proof (wok_cut size _ _ Hs W) as C.
  destruct (made_ok calcHash HH size _ _ Hs S2 W S3 N L) as (m' & h & E' & Em & Ei & Hh & Mk & G). rewrite E in E'. injection E' as <-.
  exists h, (length (m_parts m)), (fun i => match made_part m i with Some (mk_part _ (Some l)) => l | _ => [] end).
  rewrite Em. split; [exact Ei|]. split; [exact Hh|]. split; [reflexivity|]. split; [exact L|]. split; [exact Mk|]. split; [exact C|].
  intros i p Hi. destruct (G i p Hi) as (pr & Hp & Gd). rewrite Hp. split; [reflexivity|]. split; [exact Gd|].
  unfold made_all. apply in_flat_map. exists i. rewrite Hp. split; [|now left]. apply in_seq. rewrite Em.
  assert (i < length (buffer_parts (write_all size ([], None) chunks)))%nat by (apply nth_error_Some; congruence). lia.
Qed.

(** Whatever is offered, in whatever order, to one who waits for the parts of an ID that was made as above: nothing crashes, and only
    original parts are kept. *)
Theorem C71_only_original : forall calcHash size chunks m l,
  digest32 calcHash -> sane_data size (concat chunks) -> (length (concat chunks) mod size <> 0)%nat ->
  part_set calcHash (write_all size ([], None) chunks) = Some m -> distinct calcHash (l ++ made_all m) ->
  let (r, answers) := offered calcHash (from_id (made_id calcHash m)) l in
  (forall a, In a answers -> a = Added \/ a = Rejected)
  /\ forall i d, nth_error (r_parts r) i = Some (Some d) -> nth_error (m_parts m) i = Some d.
Proof.
  intros H size chunks m l HH Sa N E D. destruct (honest_set H size chunks m HH Sa N E) as (h & c & prf & Ei & Hh & Lc & L & _ & _ & G).
  rewrite Ei. set (P := fun b => exists p, In p (l ++ made_all m) /\ In b (pieces p)).
  assert (Inj : forall a b, P a -> P b -> H a = H b -> a = b) by (intros a b (p & Hp & Ha) (q & Hq & Hb); eauto).
  destruct (no_harm H P Inj h c (m_parts m) prf L Lc) with (l := l) (r := from_id (Z.of_nat c, h)) as [X Y].
  - intros i v Hi. destruct (G i v Hi) as (_ & Gd & Hin). split; [exact Gd|]. intros b Hb. exists (mk_part (Z.of_nat i) (Some (prf i))).
    split; [apply in_or_app; now right|exact Hb].
  - now apply rinv_start.
  - intros p Hp b Hb. exists p. split; [apply in_or_app; now left|exact Hb].
  - intros i d Hd. cbn in Hd. apply nth_error_In, repeat_spec in Hd. discriminate Hd.
  - destruct (offered H (from_id (Z.of_nat c, h)) l) as [r x]. auto.
Qed.
Print Assumptions C71_only_original.

(** A part of that set is added by any one who lacks it, whatever was offered before. *)
Theorem C71_accepts : forall calcHash size chunks m l i p,
  digest32 calcHash -> sane_data size (concat chunks) -> (length (concat chunks) mod size <> 0)%nat ->
  part_set calcHash (write_all size ([], None) chunks) = Some m -> distinct calcHash (l ++ made_all m) ->
  let r := fst (offered calcHash (from_id (made_id calcHash m)) l) in
  made_part m i = Some p -> nth_error (r_parts r) i = Some None ->
  snd (add_part calcHash r p) = Added
  /\ forall j, nth_error (r_parts (fst (add_part calcHash r p))) j = if Nat.eqb j i then Some (nth_error (m_parts m) i) else nth_error (r_parts r) j.
Proof.
  intros H size chunks m l i p HH Sa N E D r Hp Hr. subst r. destruct (honest_set H size chunks m HH Sa N E) as (h & c & prf & Ei & Hh & Lc & L & _ & _ & G).
  rewrite Ei in *. set (P := fun b => exists p, In p (l ++ made_all m) /\ In b (pieces p)).
  assert (Inj : forall a b, P a -> P b -> H a = H b -> a = b) by (intros a b (p' & Hp' & Ha) (q & Hq & Hb); eauto).
  assert (R : rinv H P h c (fst (offered H (from_id (Z.of_nat c, h)) l))).
  { apply offered_ok; auto; [now apply rinv_start|]. intros q Hq b Hb. exists q. split; [apply in_or_app; now left|exact Hb]. }
  assert (Li : (i < c)%nat). { destruct R as (R1 & _). rewrite <- R1. apply nth_error_Some. congruence. }
  destruct (nth_error (m_parts m) i) as [v|] eqn:Ev; [|apply nth_error_None in Ev; lia].
  destruct (G i v Ev) as (Mp & Gd & Hin). rewrite Mp in Hp. injection Hp as <-.
  assert (K : known P (mk_part (Z.of_nat i) (Some (prf i)))) by (intros b Hb; exists (mk_part (Z.of_nat i) (Some (prf i))); split; [apply in_or_app; now right|exact Hb]).
  destruct (shown_added H P Inj h c (fst (offered H (from_id (Z.of_nat c, h)) l)) (mk_part (Z.of_nat i) (Some (prf i))) (psteps (PHash h) (prf i)) v R L K) as [A B]; cbn [p_index]; [lia|rewrite Nat2Z.id; exact Hr| |].
  - destruct (Gd (psteps (PHash h) (prf i))) as [X|X]; [exact X|]. exfalso. exact (PartProve.enough H _ (PHash h) _ (prf i) (le_n _) X).
  - cbn [p_index] in B. rewrite Nat2Z.id in B. split; [exact A|]. rewrite B. intro j. destruct (Nat.eqb_spec j i) as [->|Nj].
    + apply nth_set_same. destruct R as (R1 & _). lia.
    + apply nth_set_other. congruence.
Qed.
Print Assumptions C71_accepts.

(** The set is complete when all indices were filled, and then the data is what was written. *)
Theorem C71_whole : forall calcHash size chunks m l,
  digest32 calcHash -> sane_data size (concat chunks) -> (length (concat chunks) mod size <> 0)%nat ->
  part_set calcHash (write_all size ([], None) chunks) = Some m -> distinct calcHash (l ++ made_all m) ->
  let r := fst (offered calcHash (from_id (made_id calcHash m)) l) in
  rec_complete r = true -> r_parts r = map Some (m_parts m) /\ concat (m_parts m) = concat chunks.
Proof.
  intros H size chunks m l HH Sa N E D r C. pose proof (C71_only_original H size chunks m l HH Sa N E D) as O.
  destruct (honest_set H size chunks m HH Sa N E) as (h & c & prf & Ei & Hh & Lc & L & _ & [Ct _] & _). split; [|exact Ct].
  subst r. rewrite Ei in *. pose proof (winv_offered H h c l _ (winv_start H h c L)) as W.
  destruct (offered H (from_id (Z.of_nat c, h)) l) as [r x]. cbn [fst] in *. destruct O as [_ O]. destruct W as (L1 & _ & _ & _ & Ad & _).
  unfold rec_complete in C. rewrite Ad in C. apply Z.eqb_eq in C. pose proof (proj1 (present_all (r_parts r)) C) as A.
  apply list_same. intro i. rewrite nth_error_map. destruct (Nat.lt_ge_cases i c) as [I1|I1].
  - specialize (A i ltac:(lia)). destruct (nth_error (r_parts r) i) as [[d|]|] eqn:Ed; try discriminate A. rewrite (O i d Ed). reflexivity.
  - rewrite (proj2 (nth_error_None (r_parts r) i)) by lia. rewrite (proj2 (nth_error_None (m_parts m) i)) by lia. reflexivity.
Qed.
Print Assumptions C71_whole.

(** For any ID, whoever made it: two receivers do not have different data for a part. *)
Theorem C71_same : forall calcHash count h l1 l2 i d1 d2,
  0 <= count < 65536 -> h <> [] -> distinct calcHash (l1 ++ l2) ->
  nth_error (r_parts (fst (offered calcHash (from_id (count, h)) l1))) i = Some (Some d1) ->
  nth_error (r_parts (fst (offered calcHash (from_id (count, h)) l2))) i = Some (Some d2) -> d1 = d2.
Proof.
  intros H count h l1 l2 i d1 d2 Hc Hh D E1 E2. set (P := fun b => exists p, In p (l1 ++ l2) /\ In b (pieces p)).
  assert (Inj : forall a b, P a -> P b -> H a = H b -> a = b) by (intros a b (p' & Hp' & Ha) (q & Hq & Hb); eauto).
  rewrite <- (Z2Nat.id count) in * by lia. set (c := Z.to_nat count) in *.
  assert (R1 : rinv H P h c (fst (offered H (from_id (Z.of_nat c, h)) l1))).
  { apply offered_ok; auto; [lia|apply rinv_start; auto; lia|]. intros q Hq b Hb. exists q. split; [apply in_or_app; now left|exact Hb]. }
  assert (R2 : rinv H P h c (fst (offered H (from_id (Z.of_nat c, h)) l2))).
  { apply offered_ok; auto; [lia|apply rinv_start; auto; lia|]. intros q Hq b Hb. exists q. split; [apply in_or_app; now right|exact Hb]. }
  destruct R1 as (L1 & _ & _ & _ & _ & I1), R2 as (L2 & _ & _ & _ & _ & I2).
  assert (Li : (i < c)%nat) by (rewrite <- L1; apply nth_error_Some; congruence).
  destruct (I1 i Li) as [[X _]|(d & p & X & _ & K1 & f & V1)]; [congruence|]. destruct (I2 i Li) as [[Y _]|(e & q & Y & _ & K2 & g & V2)]; [congruence|].
  rewrite E1 in X. injection X as <-. rewrite E2 in Y. injection Y as <-.
  exact (one_data H P Inj h (Z.of_nat i) _ _ f g d1 d2 K1 K2 eq_refl eq_refl V1 V2).
Qed.
Print Assumptions C71_same.

(** For any ID: a part that one has taken is taken by any other that lacks it, with the same data. *)
Theorem C71_relay : forall calcHash count h l1 l2 i p,
  0 <= count < 65536 -> h <> [] -> distinct calcHash (l1 ++ l2) ->
  let r1 := fst (offered calcHash (from_id (count, h)) l1) in
  let r2 := fst (offered calcHash (from_id (count, h)) l2) in
  rec_part r1 i = Some p -> nth_error (r_parts r2) i = Some None ->
  snd (add_part calcHash r2 p) = Added /\ nth_error (r_parts (fst (add_part calcHash r2 p))) i = nth_error (r_parts r1) i.
Proof.
  intros H count h l1 l2 i p Hc Hh D r1 r2 Ep Er. subst r1 r2. set (P := fun b => exists p, In p (l1 ++ l2) /\ In b (pieces p)).
  assert (Inj : forall a b, P a -> P b -> H a = H b -> a = b) by (intros a b (p' & Hp' & Ha) (q & Hq & Hb); eauto).
  rewrite <- (Z2Nat.id count) in * by lia. set (c := Z.to_nat count) in *.
  assert (R1 : rinv H P h c (fst (offered H (from_id (Z.of_nat c, h)) l1))).
  { apply offered_ok; auto; [lia|apply rinv_start; auto; lia|]. intros q Hq b Hb. exists q. split; [apply in_or_app; now left|exact Hb]. }
  assert (R2 : rinv H P h c (fst (offered H (from_id (Z.of_nat c, h)) l2))).
  { apply offered_ok; auto; [lia|apply rinv_start; auto; lia|]. intros q Hq b Hb. exists q. split; [apply in_or_app; now right|exact Hb]. }
  unfold rec_part in Ep. pose proof R1 as (L1 & L1' & _ & _ & _ & I1). pose proof R2 as (L2 & _).
  destruct (nth_error (r_proofs (fst (offered H (from_id (Z.of_nat c, h)) l1))) i) as [[pr|]|] eqn:Epr; try discriminate Ep. injection Ep as <-.
  assert (Li : (i < c)%nat) by (rewrite <- L1'; apply nth_error_Some; congruence).
  destruct (I1 i Li) as [[_ X]|(d & q & X & Y & K1 & f & V1)]; [congruence|]. rewrite Epr in Y. injection Y as <-. rewrite X.
  destruct (shown_added H P Inj h c _ (mk_part (Z.of_nat i) pr) f d R2 ltac:(lia) K1) as [A B]; cbn [p_index]; [lia|rewrite Nat2Z.id; exact Er|exact V1|].
  split; [exact A|]. rewrite B. cbn [p_index]. rewrite Nat2Z.id. apply nth_set_same. lia.
Qed.
Print Assumptions C71_relay.

(** Whatever is offered: the ID stays, the mask and [GetPart] tell which parts are there, and the set is complete when all are. *)
Theorem C71_state : forall calcHash count h l, 0 <= count < 65536 ->
  let r := fst (offered calcHash (from_id (count, h)) l) in
  rec_id calcHash r = (count, h)
  /\ (forall i, ba_get (r_mask r) (Z.of_nat i) = Some (there (nth_error (r_parts r) i)))
  /\ (forall i, rec_part r i = None <-> there (nth_error (r_parts r) i) = false)
  /\ (rec_complete r = true <-> forall i, Z.of_nat i < count -> there (nth_error (r_parts r) i) = true).
Proof.
  intros H count h l Hc r. assert (Ec : exists c, count = Z.of_nat c) by (exists (Z.to_nat count); lia). destruct Ec as [c ->].
  pose proof (winv_offered H h c l _ (winv_start H h c ltac:(lia))) as W. fold r in W. split; [apply winv_id; auto; lia|].
  destruct W as (L1 & L2 & _ & (Sh & Bb & Bt) & Ad & Pf). split; [|split].
  - intro i. destruct (Z.lt_ge_cases (Z.of_nat i) (Z.of_nat c)) as [X|X].
    + rewrite get_bit by (auto; lia). now rewrite Bt.
    + rewrite get_out by lia. rewrite (proj2 (nth_error_None (r_parts r) i)) by lia. reflexivity.
  - intro i. rewrite Pf. unfold rec_part. destruct (nth_error (r_proofs r) i) as [[x|]|]; cbn; split; congruence.
  - unfold rec_complete. rewrite Ad, Z.eqb_eq, present_all, L1. split; intros A i Hi; apply A; lia.
Qed.
Print Assumptions C71_state.

(** Over the network: what [Bytes] gives is read back. *)
Theorem C71_transport : forall i pr rest, 0 <= i < 65536 -> (forall l b, pr = Some l -> In b l -> wf_bytes b) ->
  blen (part_bytes (mk_part i pr)) < 2 ^ 63 -> new_part (part_bytes (mk_part i pr) ++ rest) = Some (mk_part i pr).
Proof.
  intros i pr rest Hi W L. unfold new_part, part_bytes in *. cbn [p_index p_proof] in *. rewrite Z.mod_small in * by exact Hi.
  rewrite RlpFacts.unmarshal_enc; [|constructor; constructor; [constructor; [cbn; auto|exact Hi]|constructor; [|constructor]]|exact L].
  - destruct pr as [l|]; [|reflexivity]. f_equal. f_equal. rewrite map_map. f_equal. apply map_id.
  - destruct pr as [l|]; [|constructor]. constructor. apply Forall_map. apply Forall_forall. intros b Hb. constructor. eapply W; eauto.
Qed.
Print Assumptions C71_transport.

Lemma offered_app calcHash : forall l1 r l2, fst (offered calcHash r (l1 ++ l2)) = fst (offered calcHash (fst (offered calcHash r l1)) l2).
Proof.
  induction l1 as [|p l1 IH]; intros r l2; cbn [app offered]; [reflexivity|]. destruct (add_part calcHash r p) as [r1 a]. specialize (IH r1 l2).
  destruct (offered calcHash r1 (l1 ++ l2)), (offered calcHash r1 l1). exact IH.
Qed.
Lemma filled_stays calcHash h c : forall l r i, winv calcHash h c r -> there (nth_error (r_parts r) i) = true ->
  there (nth_error (r_parts (fst (offered calcHash r l))) i) = true.
Proof.
  induction l as [|p l IH]; intros r i W E; cbn [offered]; [exact E|].
  assert (E1 : there (nth_error (r_parts (fst (add_part calcHash r p))) i) = true).
  { unfold add_part. destruct (_ || _); [exact E|]. destruct (nth_error (r_parts r) (Z.to_nat (p_index p))) as [[d|]|] eqn:X; [exact E| |exact E].
    destruct (p_prove _ _ _ _) as [t [d| | |]]; try exact E. destruct (ba_set _ _); [|exact E]. cbn [fst r_parts].
    destruct (Nat.eq_dec (Z.to_nat (p_index p)) i) as [<-|Ne]; [rewrite X in E; discriminate E|]. now rewrite nth_set_other. }
  pose proof (winv_add calcHash h c r p W) as W1. destruct (add_part calcHash r p) as [r1 a]. cbn [fst] in *. specialize (IH r1 i W1 E1).
  destruct (offered calcHash r1 l). exact IH.
Qed.

(** When every part was offered, among whatever else and in whatever order, the set is complete. *)
Theorem C71_completes : forall calcHash size chunks m l,
  digest32 calcHash -> sane_data size (concat chunks) -> (length (concat chunks) mod size <> 0)%nat ->
  part_set calcHash (write_all size ([], None) chunks) = Some m -> distinct calcHash (l ++ made_all m) ->
  (forall i p, made_part m i = Some p -> In p l) ->
  rec_complete (fst (offered calcHash (from_id (made_id calcHash m)) l)) = true.
Proof.
  intros H size chunks m l HH Sa N E D All. destruct (honest_set H size chunks m HH Sa N E) as (h & c & prf & Ei & Hh & Lc & L & _ & _ & G).
  rewrite Ei. destruct (C71_state H (Z.of_nat c) h l ltac:(lia)) as (_ & _ & _ & C). apply C. intros i Hi.
  destruct (nth_error (m_parts m) i) as [v|] eqn:Ev; [|apply nth_error_None in Ev; lia]. destruct (G i v Ev) as (Mp & _ & _).
  destruct (in_split _ _ (All i _ Mp)) as (l1 & l2 & El).
  assert (D1 : distinct H (l1 ++ made_all m)).
  { intros p q a b Hp Hq. apply D; rewrite El, <- app_assoc; (apply in_app_or in Hp as [Hp|Hp]; apply in_app_or in Hq as [Hq|Hq]);
      apply in_or_app; try (now left); right; right; apply in_or_app; now right. }
  pose proof (winv_offered H h c l1 _ (winv_start H h c L)) as W1.
  replace (l1 ++ mk_part (Z.of_nat i) (Some (prf i)) :: l2) with ((l1 ++ [mk_part (Z.of_nat i) (Some (prf i))]) ++ l2) in El by (rewrite <- app_assoc; reflexivity).
  rewrite El, offered_app. apply (filled_stays H h c); [apply winv_offered, winv_start; exact L|]. rewrite offered_app.
  assert (One : forall r p, fst (offered H r [p]) = fst (add_part H r p)) by (intros r p; cbn [offered]; destruct (add_part H r p); reflexivity). rewrite One.
  destruct (nth_error (r_parts (fst (offered H (from_id (Z.of_nat c, h)) l1))) i) as [[d|]|] eqn:Er.
  - rewrite <- One. apply (filled_stays H h c); [exact W1|]. now rewrite Er.
  - pose proof (C71_accepts H size chunks m l1 i (mk_part (Z.of_nat i) (Some (prf i))) HH Sa N E D1) as A. cbv zeta in A. rewrite Ei in A. destruct (A Mp Er) as [_ B]. rewrite B, Nat.eqb_refl, Ev. reflexivity.
  - exfalso. apply nth_error_None in Er. destruct W1 as (L1 & _). lia.
Qed.
Print Assumptions C71_completes.

(** The numbers packed with the count: 48 bits of application data, as a network number of 32 bits and a count of votes of 16. *)
Theorem C71_app_data : forall count h app nid votes,
  0 <= count < 65536 -> 0 <= app < 2 ^ 48 -> 0 <= nid < 2 ^ 32 -> 0 <= votes < 65536 ->
  ida_id (with_app_data (count, h) app) = (count, h) /\ ida_app (with_app_data (count, h) app) = app
  /\ psid_parts (psid_app nid votes) = (nid, votes) /\ 0 <= psid_app nid votes < 2 ^ 48.
Proof.
  intros count h app nid votes Hc Ha Hn Hv.
  assert (B : forall a b, 0 <= a < 2 ^ 48 -> 0 <= b < 65536 -> Z.lor (wu64 (Z.shiftl a 16)) b = a * 65536 + b).
  { intros a b Xa Xb. assert (E0 : wu64 (Z.shiftl a 16) = Z.shiftl a 16).
    { unfold wu64. apply Z.mod_small. rewrite Z.shiftl_mul_pow2 by lia. change (2 ^ 16) with 65536. change (2 ^ 64) with (2 ^ 48 * 65536). nia. }
    rewrite E0. assert (L0 : Z.land (Z.shiftl a 16) b = 0).
    { apply Z.bits_inj'. intros k Hk. rewrite Z.land_spec, Z.bits_0. destruct (Z.lt_ge_cases k 16) as [X|X].
      - now rewrite Z.shiftl_spec_low.
      - assert (Y : Z.testbit b k = false); [|rewrite Y; apply andb_false_r].
        destruct (Z.eq_dec b 0) as [->|nz]; [apply Z.bits_0|]. apply Z.bits_above_log2; [lia|]. apply Z.log2_lt_pow2; [lia|].
        apply Z.lt_le_trans with (2 ^ 16); [cbn; lia|apply Z.pow_le_mono_r; lia]. }
    rewrite <- Z.lxor_lor by exact L0. rewrite <- Z.add_nocarry_lxor by exact L0. rewrite Z.shiftl_mul_pow2 by lia. reflexivity. }
  unfold ida_id, ida_app, with_app_data, psid_parts, psid_app. cbn [fst snd].
  rewrite !B by lia. change 65535 with (Z.ones 16). rewrite Z.land_ones, !Z.shiftr_div_pow2 by lia. change (2 ^ 16) with 65536.
  rewrite (Z.add_comm (app * 65536)), (Z.add_comm (nid * 65536)), !Z.mod_add, !Z.div_add, !(Z.div_small _ 65536), !(Z.mod_small _ 65536), !Z.add_0_l, (Z.mod_small nid) by lia.
  repeat split; try reflexivity; lia.
Qed.
Print Assumptions C71_app_data.

(** The mask of one who made the set says that all parts are there, unless their number is a multiple of 64. *)
Theorem C71_mask : forall calcHash size chunks m i,
  sane_data size (concat chunks) ->
  part_set calcHash (write_all size ([], None) chunks) = Some m ->
  (i < length (m_parts m))%nat -> Z.of_nat (length (m_parts m)) mod 64 <> 0 -> ba_get (m_mask m) (Z.of_nat i) = Some true.
Proof.
  intros H size chunks m i Sa E Hi N. pose proof (sane_count size chunks Sa) as L.
  assert (Em : m_mask m = full_mask (length (m_parts m)) /\ m_parts m = buffer_parts (write_all size ([], None) chunks)).
  { unfold part_set, buffer_parts in *. destruct (write_all size ([], None) chunks) as [parts [c|]]; cbn [fst snd] in *.
    - destruct (proofs H _ 0 (parts ++ [c])); [|discriminate E]. injection E as <-. auto.
    - injection E as <-. cbn [m_mask m_parts]. rewrite app_nil_r. auto. }
  destruct Em as [-> Ep]. rewrite <- Ep in L. unfold full_mask. destruct (new_ok (Z.of_nat (length (m_parts m))) ltac:(lia)) as (b & -> & Sb & Cb & Bb & Zb).
  destruct (flip_ok b Sb) as (Sf & Cf & Bf & F). rewrite get_bit by (auto; lia). rewrite F, Zb, Bb by lia.
  destruct (Z.eqb_spec (Z.of_nat (length (m_parts m)) mod 64) 0); [contradiction|reflexivity].
Qed.
Print Assumptions C71_mask.

(** Findings. *)

(** Whatever the digest: the one who proposes a block can make every receiver panic. *)
Theorem C71_violated_crash : forall calcHash, digest32 calcHash ->
  snd (add_part calcHash (from_id (1, calcHash [0xc2; 0x80; 0x80])) (mk_part 0 (Some [[0xc2; 0x80; 0x80]]))) = Crashed.
Proof.
  intros H HH. pose proof (proj1 (HH [0xc2; 0x80; 0x80])) as L. unfold from_id, add_part. cbn [fst snd p_index p_proof r_parts].
  destruct (H [0xc2; 0x80; 0x80]) as [|x h] eqn:E; [discriminate L|]. cbn [r_tree r_mask].
  change (Z.to_nat 1) with 1%nat. cbn [repeat length Z.of_nat nth_error Z.to_nat]. cbn [Z.ltb Z.compare Z.leb orb Pos.of_succ_nat].
  unfold p_prove. change (psteps (PHash (x :: h)) [[0xc2; 0x80; 0x80]]) with 5%nat.
  assert (O : PartProve.opened H (PHash (x :: h)) [[0xc2; 0x80; 0x80]] = DCrash).
  { unfold PartProve.opened. rewrite E, bytes_eqb_refl. vm_compute. reflexivity. }
  rewrite PartProve.pprove_unfold, O. reflexivity.
Qed.
Print Assumptions C71_violated_crash.

(** Data whose length is a multiple of the size of parts: the hash is empty, and no part is ever taken. *)
Theorem C71_violated_multiple : forall calcHash size chunks m l,
  sane_data size (concat chunks) -> (length (concat chunks) mod size = 0)%nat ->
  part_set calcHash (write_all size ([], None) chunks) = Some m ->
  made_id calcHash m = (Z.of_nat (length (m_parts m)), [])
  /\ forall a, In a (snd (offered calcHash (from_id (made_id calcHash m)) l)) -> a = Rejected.
Proof.
  intros H size chunks m l Sa N E. pose proof (sane_count size chunks Sa) as L. destruct Sa as (S1 & S2 & S3 & S4).
  pose proof (cut_none size _ _ ltac:(lia) (written size chunks ltac:(lia)) N) as X. unfold part_set, buffer_parts in *.
  destruct (write_all size ([], None) chunks) as [parts cur]. cbn [fst snd] in *. subst cur. injection E as <-. rewrite app_nil_r in L.
  assert (Ei : made_id H {| m_parts := parts; m_proofs := map (fun _ : bytes => None) parts; m_tree := None; m_mask := full_mask (length parts) |} = (Z.of_nat (length parts), [])).
  { unfold made_id. cbn [m_parts m_tree]. now rewrite Z.mod_small by lia. }
  split; [exact Ei|]. rewrite Ei.
  assert (T : forall l r, r_tree r = None -> forall a, In a (snd (offered H r l)) -> a = Rejected).
  { intro k. induction k as [|p l' IH]; intros r Tr a; cbn [offered]; [intros []|].
    assert (Ap : snd (add_part H r p) = Rejected /\ r_tree (fst (add_part H r p)) = None).
    { unfold add_part. destruct (_ || _); [auto|]. destruct (nth_error _ _) as [[d|]|]; auto. rewrite Tr. cbn. auto. }
    destruct (add_part H r p) as [r1 x]. cbn [fst snd] in Ap. destruct Ap as [-> T1]. specialize (IH r1 T1 a).
    destruct (offered H r1 l'). cbn [snd In] in *. intros [<-|Y]; auto. }
  apply T. reflexivity.
Qed.
Print Assumptions C71_violated_multiple.

(** Such data of the same length has the same ID, whatever it is. *)
Theorem C71_violated_same_id : forall calcHash size chunks1 chunks2 m1 m2,
  sane_data size (concat chunks1) -> sane_data size (concat chunks2) ->
  (length (concat chunks1) mod size = 0)%nat -> length (concat chunks2) = length (concat chunks1) ->
  part_set calcHash (write_all size ([], None) chunks1) = Some m1 -> part_set calcHash (write_all size ([], None) chunks2) = Some m2 ->
  made_id calcHash m1 = made_id calcHash m2.
Proof.
  intros H size c1 c2 m1 m2 Sa1 Sa2 N L E1 E2.
  destruct (C71_violated_multiple H size c1 m1 [] Sa1 N E1) as [I1 _]. destruct (C71_violated_multiple H size c2 m2 [] Sa2 ltac:(rewrite L; exact N) E2) as [I2 _].
  rewrite I1, I2. f_equal. f_equal. destruct Sa1 as (S1 & _).
  assert (Cu : forall c m, (length (concat c) mod size = 0)%nat -> part_set H (write_all size ([], None) c) = Some m -> (length (m_parts m) * size = length (concat c))%nat).
  { intros c m Nc Ec. pose proof (written size c ltac:(lia)) as W. pose proof (cut_none size _ _ ltac:(lia) W Nc) as X. unfold part_set in Ec.
    destruct W as (Wc & Wf & _). destruct (write_all size ([], None) c) as [parts cur]. cbn [fst snd] in *. subst cur. injection Ec as <-. rewrite <- Wc, app_nil_r. cbn [m_parts].
    clear - Wf. induction parts as [|p parts IH]; [reflexivity|]. cbn [length concat]. rewrite app_length, <- (IH (Forall_inv_tail Wf)), (Forall_inv Wf). reflexivity. }
  pose proof (Cu c1 m1 N E1). pose proof (Cu c2 m2 ltac:(rewrite L; exact N) E2). nia.
Qed.
Print Assumptions C71_violated_same_id.

(** The mask of one who made a set of a multiple of 64 parts says that the last 64 are missing. *)
Theorem C71_violated_mask : forall calcHash size chunks m i,
  sane_data size (concat chunks) ->
  part_set calcHash (write_all size ([], None) chunks) = Some m ->
  (i < length (m_parts m) <= i + 64)%nat -> Z.of_nat (length (m_parts m)) mod 64 = 0 -> ba_get (m_mask m) (Z.of_nat i) = Some false.
Proof.
  intros H size chunks m i Sa E Hi N. pose proof (sane_count size chunks Sa) as L.
  assert (Em : m_mask m = full_mask (length (m_parts m)) /\ m_parts m = buffer_parts (write_all size ([], None) chunks)).
  { unfold part_set, buffer_parts in *. destruct (write_all size ([], None) chunks) as [parts [c|]]; cbn [fst snd] in *.
    - destruct (proofs H _ 0 (parts ++ [c])); [|discriminate E]. injection E as <-. auto.
    - injection E as <-. cbn [m_mask m_parts]. rewrite app_nil_r. auto. }
  destruct Em as [-> Ep]. rewrite <- Ep in L. unfold full_mask. destruct (new_ok (Z.of_nat (length (m_parts m))) ltac:(lia)) as (b & -> & Sb & Cb & Bb & Zb).
  destruct (flip_ok b Sb) as (Sf & Cf & Bf & F). rewrite get_bit by (auto; lia). rewrite F, Zb, Bb, N by lia. cbn [Z.eqb andb negb].
  destruct (Z.leb_spec (Z.of_nat (length (m_parts m))) (Z.of_nat i + 64)); [reflexivity|lia].
Qed.
Print Assumptions C71_violated_mask.

(** A digest for examples. *)
Definition quick_digest (s : bytes) : bytes := be_bytes 32 (fold_left (fun a x => (a * 257 + x + 1) mod 2305843009213693951) s 1).
Lemma quick_digest32 : digest32 quick_digest.
Proof. intro s. split; [unfold quick_digest; rewrite blen_be_bytes; reflexivity|apply be_bytes_wf]. Qed.

(** A case: 173 bytes in parts of 40, offered in a strange order with junk between. *)
Definition run_ (a n : nat) : bytes := map Z.of_nat (seq a n).
Definition ex_data : list bytes := [run_ 1 60; []; run_ 61 100; run_ 161 13].
Definition ex_set : made := match part_set quick_digest (write_all 40 ([], None) ex_data) with Some m => m | None => mk_made [] [] None (mk_ba 0 []) end.
Definition ex_part (i : nat) : part := match made_part ex_set i with Some p => p | None => mk_part 0 None end.
Definition ex_offered : list part := [ex_part 3; mk_part 1 (Some [[1; 2; 3]]); mk_part 7 None; ex_part 0; ex_part 3; mk_part 2 (p_proof (ex_part 1)); ex_part 4; ex_part 1; ex_part 2].
Fixpoint distinct_b (l : list bytes) : bool :=
  match l with [] => true | a :: r => forallb (fun b => negb (bytes_eqb (quick_digest a) (quick_digest b)) || bytes_eqb a b) r && distinct_b r end.
Lemma distinct_b_ok : forall l, distinct_b l = true -> forall a b, In a l -> In b l -> quick_digest a = quick_digest b -> a = b.
Proof.
  induction l as [|x l IH]; cbn [distinct_b]; intros D a b Ha Hb E; [destruct Ha|]. apply andb_true_iff in D as [D1 D2]. rewrite forallb_forall in D1.
  assert (X : forall c, In c l -> quick_digest x = quick_digest c -> x = c).
  { intros c Hc Ec. specialize (D1 c Hc). rewrite Ec, bytes_eqb_refl in D1. cbn in D1. now apply bytes_eqb_eq. }
  destruct Ha as [<-|Ha], Hb as [<-|Hb]; auto; symmetry; auto.
Qed.
Example C71_hypotheses : sane_data 40 (concat ex_data) /\ (length (concat ex_data) mod 40 <> 0)%nat
  /\ part_set quick_digest (write_all 40 ([], None) ex_data) = Some ex_set /\ distinct quick_digest (ex_offered ++ made_all ex_set)
  /\ forall i p, made_part ex_set i = Some p -> In p ex_offered.
Proof.
  split.
  { split; [lia|]. split; [reflexivity|]. split; [|vm_compute; discriminate]. apply Forall_forall. intros x Hx. apply wf_is_byte.
    assert (A : forallb is_byte (concat ex_data) = true) by (vm_compute; reflexivity). rewrite forallb_forall in A. now apply A. }
  split; [vm_compute; discriminate|]. split; [vm_compute; reflexivity|]. split.
  - intros p q a b Hp Hq Ha Hb. apply (distinct_b_ok (flat_map pieces (ex_offered ++ made_all ex_set))); [vm_compute; reflexivity|..]; apply in_flat_map; eauto.
  - intros i p E. assert (A : forall j, (j < 5)%nat -> made_part ex_set j = Some (ex_part j)).
    { intros j Hj. unfold ex_part. destruct (made_part ex_set j) eqn:Ej; [reflexivity|]. exfalso. unfold made_part in Ej.
      destruct (nth_error (m_proofs ex_set) j) eqn:En; [discriminate Ej|]. apply nth_error_None in En. assert (Ln : length (m_proofs ex_set) = 5%nat) by (vm_compute; reflexivity). lia. }
    assert (Hi : (i < 5)%nat).
    { assert (Ln : length (m_proofs ex_set) = 5%nat) by (vm_compute; reflexivity). rewrite <- Ln. apply nth_error_Some. intro X. unfold made_part in E. rewrite X in E. discriminate E. }
    rewrite A in E by exact Hi. assert (E' : p = ex_part i) by congruence. rewrite E'. clear - Hi.
    
    destruct i as [|[|[|[|[|i]]]]]; [exact (nth_error_In ex_offered 3 eq_refl)|exact (nth_error_In ex_offered 7 eq_refl)|exact (nth_error_In ex_offered 8 eq_refl)|exact (nth_error_In ex_offered 0 eq_refl)|exact (nth_error_In ex_offered 6 eq_refl)|lia].
Qed.
Example C71_session : let (r, answers) := offered quick_digest (from_id (made_id quick_digest ex_set)) ex_offered in
  answers = [Added; Rejected; Rejected; Added; Rejected; Rejected; Added; Added; Added] /\ rec_complete r = true
  /\ r_parts r = [Some (run_ 1 40); Some (run_ 41 40); Some (run_ 81 40); Some (run_ 121 40); Some (run_ 161 13)]
  /\ reads (r_parts r) (0, 0)%nat [3; 99; 300; 1]%nat = Some [run_ 1 3; run_ 4 99; run_ 103 71; []].
Proof. vm_compute. repeat split. Qed.
Example C71_other_id : snd (offered quick_digest (from_id (1, quick_digest [0xc2; 0x20; 0x05])) [mk_part 0 (Some [[0xc2; 0x20; 0x05]]); mk_part 0 (Some [[0xc2; 0x20; 0x05]])]) = [Rejected; Rejected]
  /\ snd (offered quick_digest (from_id (1, quick_digest [0xc4; 0x82; 0x20; 0x00; 0x05])) [mk_part 0 None; mk_part 0 (Some [[0xc4; 0x82; 0x20; 0x00; 0x05]]); mk_part 0 (Some [[0xc4; 0x82; 0x20; 0x00; 0x05]])]) = [Rejected; Added; Rejected].
Proof. vm_compute. auto. Qed.
Example C71_transport_meets : new_part (part_bytes (mk_part 3 (Some [[1; 2]; [200]]))) = Some (mk_part 3 (Some [[1; 2]; [200]])).
Proof. vm_compute. reflexivity. Qed.
Example C71_multiple_meets : sane_data 5 (concat [[1; 2; 3]; [4; 5; 6; 7; 8; 9; 10]]) /\ (length (concat [[1; 2; 3]; [4; 5; 6; 7; 8; 9; 10]]) mod 5 = 0)%nat
  /\ made_id quick_digest (match part_set quick_digest (write_all 5 ([], None) [[1; 2; 3]; [4; 5; 6; 7; 8; 9; 10]]) with Some m => m | None => ex_set end) = (2, []).
Proof. split; [split; [lia|]; split; [reflexivity|]; split; [repeat constructor; unfold wf_byte; lia|discriminate]|]. vm_compute. auto. Qed.
