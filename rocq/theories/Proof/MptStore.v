(** Stored nodes are read back. *)
From Verif Require Import Model.Bytes Model.DbKey Model.Mpt Proof.BytesFacts Proof.MptRlpFacts Proof.MptTree.
Open Scope Z_scope.

Section Store.
Context (H : bytes -> bytes) (HH : forall s, blen (H s) = 32 /\ wf_bytes (H s)).
Notation ser := (serialize H).
Notation link := (getLink H).

Definition olink (o : option node) : bytes := match o with Some c => link c | None => go_rlpEncodeBytes [] end.
Definition vlink (v : option bytes) : bytes := match v with Some v => go_rlpEncodeBytes v | None => go_rlpEncodeBytes [] end.

Lemma ser_branch cs v : ser (NBranch cs v) = rlpEncodeList (map olink cs ++ [vlink v]).
Proof.
  cbn [serialize]. f_equal. f_equal. induction cs as [|[c|] cs IH]; cbn [map olink]; [reflexivity| |]; rewrite IH; reflexivity.
Qed.
Lemma ser_ext k n : ser (NExt k n) = rlpEncodeList [go_rlpEncodeBytes (encodeKeys 0 k); link n].
Proof. reflexivity. Qed.

Lemma entries_branch root cs v :
  flush_entries H root (NBranch cs v)
  = flat_map (fun o => match o with Some c => flush_entries H false c | None => [] end) cs ++ own_entry H root (ser (NBranch cs v)).
Proof.
  cbn [flush_entries]. f_equal. induction cs as [|[c|] cs IH]; cbn [flat_map]; [reflexivity| |]; rewrite IH; reflexivity.
Qed.

(** What a serialization is made of. *)
Definition good (s : bytes) (lim : Z) : Prop :=
  exists items, s = rlpEncodeList items /\ Forall item items /\ Forall wf_bytes items /\ blen (concat items) <= lim.

Lemma small_le b n : blen b <= n -> n < 2 ^ 53 -> small b.
Proof. unfold small. lia. Qed.

Lemma enc_nil : go_rlpEncodeBytes [] = [128]. Proof. reflexivity. Qed.

Lemma enc_hash s : small (H s) /\ wf_bytes (H s) /\ blen (go_rlpEncodeBytes (H s)) <= 40 /\ H s <> [].
Proof.
  destruct (HH s) as [L W]. assert (Sm : small (H s)) by (unfold small; rewrite L; reflexivity).
  pose proof (enc_len _ Sm W). repeat split; auto; [lia|]. intro E. rewrite E in L. discriminate L.
Qed.

Lemma link_eq n : (forall h, n <> NHash h) -> link n = if 32 <? blen (ser n) then go_rlpEncodeBytes (H (ser n)) else ser n.
Proof. intro N. unfold getLink, link_of. destruct n; try reflexivity. exfalso. eapply N. reflexivity. Qed.

Lemma canon_not_hash t h : fine t -> t <> NHash h.
Proof. intros C E. subst. fine_inv C. Qed.

Lemma okk_key tag k : tag = 0 \/ tag = 32 -> okk k ->
  small (encodeKeys tag k) /\ wf_bytes (encodeKeys tag k) /\ blen (go_rlpEncodeBytes (encodeKeys tag k)) < 2 ^ 33 + 16.
Proof.
  intros T [N L]. pose proof (len_encode tag k). assert (Sm : small (encodeKeys tag k)) by (unfold small; lia).
  pose proof (wf_encode tag k T N) as W. pose proof (enc_len _ Sm W). repeat split; auto. lia.
Qed.
Lemma okv_val v : okv v -> small v /\ wf_bytes v /\ blen (go_rlpEncodeBytes v) < 2 ^ 32 + 8.
Proof.
  intros (W & _ & L). assert (Sm : small v) by (unfold small; lia). pose proof (enc_len _ Sm W). repeat split; auto. lia.
Qed.

Definition limit := 2 ^ 35.

Lemma good_link t : fine t -> good (ser t) limit -> item (link t) /\ wf_bytes (link t) /\ blen (link t) <= 40.
Proof.
  intros C (items & E & I & W & L). rewrite link_eq by (intro; now apply canon_not_hash).
  destruct (Z.ltb_spec 32 (blen (ser t))).
  - destruct (enc_hash (ser t)) as (S1 & W1 & L1 & _). repeat split; auto; [apply item_bytes|apply wf_enc]; auto.
  - assert (Sm : small (concat items)) by (unfold small, limit in *; lia).
    split; [rewrite E; now apply item_list|]. split; [rewrite E; now apply wf_list|]. lia.
Qed.

Lemma concat_len {A} (l : list (list A)) m : 0 <= m -> (forall x, In x l -> blen x <= m) -> blen (concat l) <= m * Z.of_nat (length l).
Proof.
  intros M. induction l as [|a l IH]; intro F; cbn [concat length]; [rewrite blen_nil; lia|].
  rewrite blen_app. assert (blen a <= m) by (apply F; now left). assert (blen (concat l) <= m * Z.of_nat (length l)) by (apply IH; intros; apply F; now right). lia.
Qed.

Lemma branch_items cs bv : fine (NBranch cs bv) -> (forall c, In (Some c) cs -> good (ser c) limit) ->
  Forall item (map olink cs ++ [vlink bv]) /\ Forall wf_bytes (map olink cs ++ [vlink bv]) /\ blen (concat (map olink cs ++ [vlink bv])) <= limit.
Proof.
  intros C IH. fine_inv C.
    assert (X : forall x, In x (map olink cs) -> item x /\ wf_bytes x /\ blen x <= 40).
    { intros x Hx. apply in_map_iff in Hx as (o & <- & Ho). destruct o as [c|]; cbn [olink].
      - apply good_link; auto.
      - rewrite enc_nil. split; [rewrite <- enc_nil; apply item_bytes; [reflexivity|constructor]|].
        split; [repeat constructor; lia|]. rewrite blen_cons, blen_nil. lia. }
    assert (Y : item (vlink bv) /\ wf_bytes (vlink bv) /\ blen (vlink bv) < 2 ^ 32 + 8).
    { destruct bv as [v|]; cbn [vlink].
      - destruct (okv_val v (Cv v eq_refl)) as (S2 & W2 & L2). repeat split; auto; [apply item_bytes|apply wf_enc]; auto.
      - split; [apply item_bytes; [reflexivity|constructor]|]. rewrite enc_nil. split; [repeat constructor; lia|]. rewrite blen_cons, blen_nil. lia. }
    destruct Y as (Y1 & Y2 & Y3). split; [apply Forall_app; split; [apply Forall_forall; intros; now apply X|auto]|].
    split; [apply Forall_app; split; [apply Forall_forall; intros; now apply X|auto]|].
    rewrite concat_app, blen_app. pose proof (concat_len (map olink cs) 40 ltac:(lia) (fun x Hx => proj2 (proj2 (X x Hx)))) as Z1.
    rewrite map_length in Z1. cbn [concat]. rewrite app_nil_r. rewrite Cl in Z1. unfold limit. lia.
Qed.

Lemma canon_good t : fine t -> good (ser t) limit.
Proof.
  induction t as [k v|k n IH|h|cs bv IH] using node_ind'; intro C; fine_inv C.
  - destruct (okk_key 32 k (or_intror eq_refl) Ck) as (S1 & W1 & L1). destruct (okv_val v Cv) as (S2 & W2 & L2).
    exists [go_rlpEncodeBytes (encodeKeys 32 k); go_rlpEncodeBytes v]. split; [reflexivity|].
    split; [repeat constructor; apply item_bytes; auto|]. split; [repeat constructor; apply wf_enc; auto|].
    cbn [concat]. rewrite app_nil_r, blen_app. unfold limit. lia.
  - destruct (okk_key 0 k (or_introl eq_refl) Ck) as (S1 & W1 & L1).
    destruct (good_link _ Cn (IH Cn)) as (I2 & W2 & L2).
    exists [go_rlpEncodeBytes (encodeKeys 0 k); link (NBranch cs bv)]. split; [reflexivity|].
    split; [repeat constructor; auto; apply item_bytes; auto|]. split; [repeat constructor; auto; apply wf_enc; auto|].
    cbn [concat]. rewrite app_nil_r, blen_app. unfold limit. lia.
  - rewrite ser_branch. exists (map olink cs ++ [vlink bv]). split; [reflexivity|]. apply branch_items; auto.
Qed.

(** What comes back from the serialization: big children are hashes. *)
Fixpoint shallow (t : node) : node :=
  match t with
  | NLeaf k v => NLeaf k v
  | NExt k n => NExt k (if 32 <? blen (ser n) then NHash (H (ser n)) else shallow n)
  | NBranch cs v =>
      NBranch (map (fun o => match o with
                             | Some c => Some (if 32 <? blen (ser c) then NHash (H (ser c)) else shallow c)
                             | None => None
                             end) cs) v
  | NHash h => NHash h
  end.
Definition hide (t : node) : node := if 32 <? blen (ser t) then NHash (H (ser t)) else shallow t.

Definition from_link_f (f : nat) (b : bytes) : option (option node) :=
  if 192 <=? nth 0 b 0 then match deserialize_f f b with Some n => Some (Some n) | None => None end
  else match rlpParseBytes b with
       | None => None
       | Some [] => Some None
       | Some v => Some (Some (NHash v))
       end.

Lemma from_link_ok f t : fine t -> (blen (ser t) <= 32 -> deserialize_f f (ser t) = Some (shallow t)) ->
  from_link_f f (link t) = Some (Some (hide t)).
Proof.
  intros C D. rewrite link_eq by (intro; now apply canon_not_hash). unfold hide, from_link_f.
  destruct (Z.ltb_spec 32 (blen (ser t))) as [L|L].
  - destruct (enc_hash (ser t)) as (S1 & W1 & _ & N1). rewrite bytes_tag, parse_bytes_enc by auto.
    destruct (H (ser t)) as [|x r] eqn:E; [congruence|]. rewrite <- E. reflexivity.
  - destruct (canon_good t C) as (items & E & _ & _ & Lm).
    assert (T : 192 <=? nth 0 (ser t) 0 = true) by (rewrite E; apply list_tag; unfold small, limit in *; lia).
    rewrite T, D by auto. reflexivity.
Qed.
Lemma from_link_nil f : from_link_f f (go_rlpEncodeBytes []) = Some None.
Proof. reflexivity. Qed.

Lemma in_concat_len {A} (x : list A) l : In x l -> blen x <= blen (concat l).
Proof.
  induction l as [|a l IH]; intros []; cbn [concat]; rewrite blen_app.
  - subst. pose proof (blen_nonneg (concat l)). lia.
  - pose proof (blen_nonneg a). specialize (IH H0). lia.
Qed.

Fixpoint links_f (f : nat) (l : list bytes) : option (list (option node)) :=
  match l with
  | [] => Some []
  | b :: r => match from_link_f f b, links_f f r with Some c, Some cs => Some (c :: cs) | _, _ => None end
  end.
Lemma deser_branch f s l : rlpParseList s = Some l -> length l = 17%nat ->
  deserialize_f (S f) s = match links_f f (firstn 16 l) with
                          | None => None
                          | Some cs => match rlpParseBytes (nth 16 l []) with
                                       | None => None
                                       | Some v => Some (NBranch cs (match v with [] => None | _ => Some v end))
                                       end
                          end.
Proof.
  intros E L. cbn [deserialize_f]. rewrite E. destruct l as [|a [|b [|c r]]]; try discriminate L.
  rewrite L. change (Nat.eqb 17 17) with true. cbv iota. set (l := firstn 16 (a :: b :: c :: r)). clearbody l.
  match goal with |- match ?X with _ => _ end = match ?Y with _ => _ end => assert (Q : X = Y) end.
  { clear. induction l as [|x l IH]; cbn [links_f]; [reflexivity|]. rewrite IH. unfold from_link_f. reflexivity. }
  rewrite Q. reflexivity.
Qed.

Lemma deserialize_ok t : fine t -> forall fuel, (Z.to_nat (blen (ser t)) < fuel)%nat -> deserialize_f fuel (ser t) = Some (shallow t).
Proof.
  induction t as [k v|k n IH|h|cs bv IH] using node_ind'; intros C fuel Hf; fine_inv C.
  - destruct fuel as [|f]; [lia|]. cbn [deserialize_f]. destruct (okk_key 32 k (or_intror eq_refl) Ck) as (S1 & W1 & L1). destruct (okv_val v Cv) as (S2 & W2 & L2).
    cbn [serialize]. rewrite parse_list_enc.
    2:{ repeat constructor; apply item_bytes; auto. }
    2:{ cbn [concat]. unfold small. rewrite app_nil_r, blen_app. lia. }
    rewrite parse_bytes_enc by auto. destruct Ck as [N _]. destruct (decode_encode 32 k (or_intror eq_refl) N) as (D & x & r & E & T).
    rewrite E in *. rewrite T. change (32 =? 0) with false. cbv iota. rewrite parse_bytes_enc by auto. rewrite D. reflexivity.
  - destruct fuel as [|f]; [lia|]. destruct (okk_key 0 k (or_introl eq_refl) Ck) as (S1 & W1 & L1).
    destruct (good_link _ Cn (canon_good _ Cn)) as (I2 & W2 & L2).
    assert (Sm : small (concat [go_rlpEncodeBytes (encodeKeys 0 k); link (NBranch cs bv)])).
    { cbn [concat]. unfold small. rewrite app_nil_r, blen_app. lia. }
    assert (FL : from_link_f f (link (NBranch cs bv)) = Some (Some (hide (NBranch cs bv)))).
    { apply from_link_ok; auto. intro L. apply IH; auto. rewrite ser_ext in Hf.
      pose proof (list_len _ Sm). assert (blen (link (NBranch cs bv)) <= blen (concat [go_rlpEncodeBytes (encodeKeys 0 k); link (NBranch cs bv)])) by (apply in_concat_len; right; left; reflexivity).
      assert (Lk : link (NBranch cs bv) = ser (NBranch cs bv)).
      { rewrite link_eq by discriminate. destruct (Z.ltb_spec 32 (blen (ser (NBranch cs bv)))); [lia|reflexivity]. }
      rewrite Lk in *. pose proof (blen_nonneg (ser (NBranch cs bv))). lia. }
    rewrite ser_ext. cbn [deserialize_f]. fold (from_link_f f). rewrite parse_list_enc; auto.
    2:{ repeat constructor; auto. apply item_bytes; auto. }
    rewrite parse_bytes_enc by auto. destruct Ck as [N _]. destruct (decode_encode 0 k (or_introl eq_refl) N) as (D & x & r & E & T).
    rewrite E in *. rewrite T. change (0 =? 0) with true. cbv iota. unfold from_link_f in FL. rewrite FL, D. reflexivity.
  - destruct fuel as [|f]; [lia|].
    destruct (branch_items cs bv C (fun c Hc => canon_good c (Cc c Hc))) as (Is & _ & Lm). rewrite ser_branch in Hf.
    assert (Sm : small (concat (map olink cs ++ [vlink bv]))) by (unfold small, limit in *; lia).
    assert (Hk : forall c, In (Some c) cs -> from_link_f f (link c) = Some (Some (hide c))).
    { intros c Hc. apply from_link_ok; auto. intro L. apply IH; auto.
      assert (Lk : link c = ser c).
      { rewrite link_eq by (intro; apply canon_not_hash; auto). destruct (Z.ltb_spec 32 (blen (ser c))); [lia|reflexivity]. }
      pose proof (list_len _ Sm). assert (blen (link c) <= blen (concat (map olink cs ++ [vlink bv]))).
      { apply in_concat_len. apply in_or_app. left. apply in_map_iff. exists (Some c). auto. }
      rewrite Lk in *. pose proof (blen_nonneg (ser c)). lia. }
    rewrite ser_branch. rewrite (deser_branch f _ (map olink cs ++ [vlink bv])).
    2:{ apply parse_list_enc; auto. }
    2:{ rewrite app_length, map_length, Cl. reflexivity. }
    replace (firstn 16 (map olink cs ++ [vlink bv])) with (map olink cs).
    2:{ replace 16%nat with (length (map olink cs)) by (now rewrite map_length). now rewrite firstn_app, Nat.sub_diag, firstn_all, app_nil_r. }
    replace (nth 16 (map olink cs ++ [vlink bv]) []) with (vlink bv).
    2:{ rewrite app_nth2; rewrite map_length, Cl; [reflexivity|lia]. }
    assert (K : links_f f (map olink cs) = Some (map (fun o => match o with Some c => Some (hide c) | None => None end) cs)).
    { clear - Hk. induction cs as [|o cs IH]; cbn [map links_f]; [reflexivity|]. rewrite IH by (intros; apply Hk; now right).
      destruct o as [c|]; cbn [olink]; [rewrite Hk by (now left); reflexivity|rewrite from_link_nil; reflexivity]. }
    rewrite K. destruct bv as [v|]; cbn [vlink].
    + destruct (Cv v eq_refl) as (W & Ne & Lv). rewrite parse_bytes_enc; auto; [|unfold small; lia].
      destruct v as [|x r]; [congruence|]. reflexivity.
    + reflexivity.
Qed.

(** [rep db n t]: the node [n], with hashes for stored parts, stands for [t]. *)
Definition stored (db : database) (root : bool) (t : node) : Prop :=
  forall h s, In (h, s) (flush_entries H root t) -> db h = Some s.

Inductive rep (db : database) : node -> node -> Prop :=
| r_leaf k v : rep db (NLeaf k v) (NLeaf k v)
| r_ext k n t : rep db n t -> rep db (NExt k n) (NExt k t)
| r_branch cs ts v : Forall2 (orep db) cs ts -> rep db (NBranch cs v) (NBranch ts v)
| r_hash t : fine t -> 32 < blen (ser t) -> stored db false t -> rep db (NHash (H (ser t))) t
with orep (db : database) : option node -> option node -> Prop :=
| o_none : orep db None None
| o_some n t : rep db n t -> orep db (Some n) (Some t).

(** At the root a hash may stand for a small node too. *)
Definition rrep (db : database) (n t : node) : Prop := rep db n t \/ (n = NHash (H (ser t)) /\ stored db true t).

Lemma stored_big db t : 32 < blen (ser t) -> stored db false t -> stored db true t.
Proof.
  intros L S1 h s Hin. apply S1. apply Z.ltb_lt in L.
  destruct t; cbn [flush_entries] in *; auto; unfold own_entry in *; rewrite L in *; exact Hin.
Qed.
Lemma stored_root db t : stored db true t -> stored db false t.
Proof.
  intros S1 h s Hin. apply S1. destruct t; cbn [flush_entries] in *; auto; unfold own_entry in *; cbn [orb] in *.
  - destruct (32 <? _); [exact Hin|destruct Hin].
  - apply in_app_iff in Hin as [Hin|Hin]; apply in_or_app; [now left|right]. destruct (32 <? _); [exact Hin|destruct Hin].
  - apply in_app_iff in Hin as [Hin|Hin]; apply in_or_app; [now left|right]. destruct (32 <? _); [exact Hin|destruct Hin].
Qed.
Lemma stored_ext db root k n : stored db root (NExt k n) -> stored db false n.
Proof. intros S1 h s Hin. apply S1. cbn [flush_entries]. apply in_or_app. now left. Qed.
Lemma stored_child db root cs v c : stored db root (NBranch cs v) -> In (Some c) cs -> stored db false c.
Proof.
  intros S1 Hc h s Hin. apply S1. rewrite entries_branch. apply in_or_app. left. apply in_flat_map. exists (Some c). auto.
Qed.

Lemma rep_shallow db t : fine t -> stored db false t -> rep db (shallow t) t.
Proof.
  induction t as [k v|k n IH|h|cs bv IH] using node_ind'; intros C S1; fine_inv C; cbn [shallow].
  - constructor.
  - constructor. pose proof (stored_ext _ _ _ _ S1) as S2. destruct (Z.ltb_spec 32 (blen (ser (NBranch cs bv)))).
    + now constructor.
    + now apply IH.
  - constructor. assert (S2 : forall c, In (Some c) cs -> stored db false c) by (intros; eapply stored_child; eauto).
    clear C Cl Cv C2 S1. induction cs as [|o cs IHc]; cbn [map]; constructor.
    + destruct o as [c|]; constructor. destruct (Z.ltb_spec 32 (blen (ser c))).
      * constructor; auto; [apply Cc|apply S2]; now left.
      * apply IH; [now left|apply Cc; now left|apply S2; now left].
    + apply IHc; [intros; apply IH; auto; now right|intros; apply Cc; now right|intros; apply S2; now right].
Qed.

Lemma own_in t : fine t -> In (H (ser t), ser t) (flush_entries H true t).
Proof. intro C. destruct t; fine_inv C; cbn [flush_entries]; try (apply in_or_app; right); left; reflexivity. Qed.

Lemma realize_root db n t : fine t -> rrep db n t ->
  exists n1, realize db n = Some n1 /\ rep db n1 t /\ forall h, n1 <> NHash h.
Proof.
  intros C R.
  assert (Hash : stored db true t -> exists n1, realize db (NHash (H (ser t))) = Some n1 /\ rep db n1 t /\ forall h, n1 <> NHash h).
  { intro S1. exists (shallow t). cbn [realize]. rewrite (S1 _ _ (own_in t C)). split.
    - unfold deserialize. apply deserialize_ok; auto. unfold blen. lia.
    - split; [apply rep_shallow; auto; now apply stored_root|]. intros h E. destruct t; cbn in E; try discriminate. fine_inv C. }
  destruct R as [R|[-> S1]]; auto. destruct R as [k v|k n t R|cs ts v R|t C' L S1].
  - exists (NLeaf k v). repeat split; [constructor|discriminate].
  - exists (NExt k n). repeat split; [now constructor|discriminate].
  - exists (NBranch cs v). repeat split; [now constructor|discriminate].
  - apply Hash. now apply stored_big.
Qed.

Lemma rep_leaf_inv db n k v : rep db n (NLeaf k v) -> n = NLeaf k v \/ (n = NHash (H (ser (NLeaf k v))) /\ 32 < blen (ser (NLeaf k v)) /\ stored db false (NLeaf k v)).
Proof. intro R. inversion R; subst; auto. Qed.
Lemma rep_ext_inv db n k t : rep db n (NExt k t) -> (exists m, n = NExt k m /\ rep db m t) \/ (n = NHash (H (ser (NExt k t))) /\ 32 < blen (ser (NExt k t)) /\ stored db false (NExt k t)).
Proof. intro R. inversion R; subst; eauto. Qed.
Lemma rep_branch_inv db n ts v : rep db n (NBranch ts v) -> (exists cs, n = NBranch cs v /\ Forall2 (orep db) cs ts) \/ (n = NHash (H (ser (NBranch ts v))) /\ 32 < blen (ser (NBranch ts v)) /\ stored db false (NBranch ts v)).
Proof. intro R. inversion R; subst; eauto. Qed.
Ltac rep_inv R :=
  match type of R with
  | rep _ _ (NLeaf _ _) => let L := fresh "Big" in let S1 := fresh "Sto" in apply rep_leaf_inv in R as [->|(-> & L & S1)]
  | rep _ _ (NExt _ _) => let L := fresh "Big" in let S1 := fresh "Sto" in let Q := fresh "Rn" in apply rep_ext_inv in R as [(?m & -> & Q)|(-> & L & S1)]
  | rep _ _ (NBranch _ _) => let L := fresh "Big" in let S1 := fresh "Sto" in let Q := fresh "Rc" in apply rep_branch_inv in R as [(?cs & -> & Q)|(-> & L & S1)]
  end.

(** Links and hashes do not see which parts are loaded. *)
Lemma rep_ser db t : forall n, fine t -> rep db n t -> link n = link t /\ ((forall h, n <> NHash h) -> ser n = ser t).
Proof.
  induction t as [k v|k n IH|h|cs bv IH] using node_ind'; intros m C R; fine_inv C.
  - rep_inv R; [auto|]. split; [|intro X; exfalso; eapply X; reflexivity].
    rewrite (link_eq (NLeaf k v)) by discriminate. destruct (Z.ltb_spec 32 (blen (ser (NLeaf k v)))); [reflexivity|lia].
  - rep_inv R.
    + destruct (IH _ Cn Rn) as [E _].
      assert (S1 : ser (NExt k m0) = ser (NExt k (NBranch cs bv))) by (rewrite !ser_ext, E; reflexivity).
      split; auto. rewrite !link_eq by discriminate. rewrite S1. reflexivity.
    + split; [|intro X; exfalso; eapply X; reflexivity].
      rewrite (link_eq (NExt _ _)) by discriminate. destruct (Z.ltb_spec 32 (blen (ser (NExt k (NBranch cs bv))))); [reflexivity|lia].
  - rep_inv R.
    + assert (E : map olink cs0 = map olink cs).
      { clear - Rc IH Cc. induction Rc as [|x y l l' O F IHl]; cbn [map]; [reflexivity|]. f_equal.
        - destruct O as [|n t Hr]; cbn [olink]; [reflexivity|]. apply IH; [now left|apply Cc; now left|auto].
        - apply IHl; [intros; apply IH; auto; now right|intros; apply Cc; now right]. }
      assert (S1 : ser (NBranch cs0 bv) = ser (NBranch cs bv)) by (rewrite !ser_branch, E; reflexivity).
      split; auto. rewrite !link_eq by discriminate. rewrite S1. reflexivity.
    + split; [|intro X; exfalso; eapply X; reflexivity].
      rewrite (link_eq (NBranch _ _)) by discriminate. destruct (Z.ltb_spec 32 (blen (ser (NBranch cs bv)))); [reflexivity|lia].
Qed.
Lemma rrep_hash db n t : fine t -> rrep db n t -> getHash H n = H (ser t).
Proof.
  intros C [R|[-> _]]; [|reflexivity]. destruct (rep_ser db t n C R) as [_ S1].
  destruct n; cbn [getHash]; try (rewrite S1 by discriminate; reflexivity). inversion R; subst. reflexivity.
Qed.

(** What a flush writes. *)
Lemma rep_entries db root t : forall n, fine t -> rep db n t -> (forall h, n <> NHash h) ->
  forall h s, In (h, s) (flush_entries H root t) -> In (h, s) (flush_entries H root n) \/ db h = Some s.
Proof.
  revert root. induction t as [k v|k n IH|h0|cs bv IH] using node_ind'; intros root m C R N h s Hin; pose proof C as C0; pose proof R as R0; fine_inv C.
  - rep_inv R; auto. exfalso. eapply N. reflexivity.
  - rep_inv R; [|exfalso; eapply N; reflexivity].
    destruct (rep_ser db _ _ C0 R0) as [_ S1]. specialize (S1 N).
    cbn [flush_entries] in *. apply in_app_iff in Hin as [Hin|Hin].
    + pose proof Rn as Rn0. rep_inv Rn.
      * destruct (IH false _ Cn Rn0 ltac:(discriminate) h s Hin) as [X|X]; [left; apply in_or_app; now left|now right].
      * right. auto.
    + left. apply in_or_app. right. unfold own_entry in *. rewrite S1. exact Hin.
  - rep_inv R; [|exfalso; eapply N; reflexivity].
    destruct (rep_ser db _ _ C0 R0) as [_ S1]. specialize (S1 N).
    rewrite entries_branch in *. apply in_app_iff in Hin as [Hin|Hin].
    + assert (G : In (h, s) (flat_map (fun o => match o with Some c => flush_entries H false c | None => [] end) cs0) \/ db h = Some s).
      { clear - Rc IH Cc Hin. induction Rc as [|x y l l' O F IHl]; cbn [flat_map] in *; [destruct Hin|].
        apply in_app_iff in Hin as [Hin|Hin].
        - destruct O as [|n t Hr]; [destruct Hin|]. inversion Hr; subst.
          + destruct (IH _ (or_introl eq_refl) false _ (Cc _ (or_introl eq_refl)) Hr ltac:(discriminate) h s Hin) as [X|X]; [left; apply in_or_app; now left|now right].
          + destruct (IH _ (or_introl eq_refl) false _ (Cc _ (or_introl eq_refl)) Hr ltac:(discriminate) h s Hin) as [X|X]; [left; apply in_or_app; now left|now right].
          + destruct (IH _ (or_introl eq_refl) false _ (Cc _ (or_introl eq_refl)) Hr ltac:(discriminate) h s Hin) as [X|X]; [left; apply in_or_app; now left|now right].
          + right. auto.
        - destruct IHl as [X|X]; [intros c Hc; apply (IH c (or_intror Hc))|exact Hin|intros c Hc; exact (Cc c (or_intror Hc))| |]; [left; apply in_or_app; now right|now right]. }
      destruct G; [left; apply in_or_app; now left|now right].
    + left. apply in_or_app. right. unfold own_entry in *. rewrite S1. exact Hin.
Qed.

(** More in the database does no harm. *)
Definition extends (db db' : database) : Prop := forall h s, db h = Some s -> db' h = Some s.
Lemma stored_mono db db' root t : extends db db' -> stored db root t -> stored db' root t.
Proof. intros E S1 h s Hin. apply E, S1, Hin. Qed.
Lemma rep_mono db db' t : extends db db' -> forall n, rep db n t -> rep db' n t.
Proof.
  intro E. induction t as [k v|k n IH|h0|cs bv IH] using node_ind'; intros m R; inversion R; subst; try (constructor; eauto using stored_mono; fail).
  constructor. clear R. match goal with Rc : Forall2 _ _ _ |- _ => rename Rc into Rc' end. induction Rc' as [|x y l l' O F IHl]; constructor.
  - destruct O; constructor. apply IH; auto. now left.
  - apply IHl. intros. apply IH; auto. now right.
Qed.
Lemma rrep_mono db db' n t : extends db db' -> rrep db n t -> rrep db' n t.
Proof. intros E [R|[-> S1]]; [left; eapply rep_mono; eauto|right; split; auto; eapply stored_mono; eauto]. Qed.
End Store.
Ltac rep_inv R :=
  match type of R with
  | rep _ _ _ (NLeaf _ _) => let L := fresh "Big" in let S1 := fresh "Sto" in apply rep_leaf_inv in R as [->|(-> & L & S1)]
  | rep _ _ _ (NExt _ _) => let L := fresh "Big" in let S1 := fresh "Sto" in let Q := fresh "Rn" in apply rep_ext_inv in R as [(?m & -> & Q)|(-> & L & S1)]
  | rep _ _ _ (NBranch _ _) => let L := fresh "Big" in let S1 := fresh "Sto" in let Q := fresh "Rc" in apply rep_branch_inv in R as [(?cs & -> & Q)|(-> & L & S1)]
  end.
