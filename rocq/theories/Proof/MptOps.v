(** Reading, setting and deleting on tries of which parts may be hashes. *)
From Verif Require Import Model.Bytes Model.DbKey Model.Mpt Proof.BytesFacts Proof.MptRlpFacts Proof.MptTree Proof.MptStore.
Open Scope nat_scope.

(** ** Contents, case by case *)
Lemma has_leaf_iff k v key w : has (NLeaf k v) key w <-> key = k /\ w = v.
Proof. split; [inversion 1; auto|intros [-> ->]; constructor]. Qed.
Lemma has_ext_iff k n key w : has (NExt k n) key w <-> exists r, key = k ++ r /\ has n r w.
Proof. split; [inversion 1; subst; eauto|intros (r & -> & A); now constructor]. Qed.
Lemma has_nil_iff cs v w : has (NBranch cs v) [] w <-> v = Some w.
Proof. split; [inversion 1; auto|intros ->; constructor]. Qed.
Lemma has_cons_iff cs v x r w : (0 <= x)%Z -> has (NBranch cs v) (x :: r) w <-> exists c, nth_error cs (Z.to_nat x) = Some (Some c) /\ has c r w.
Proof.
  intro X. split.
  - inversion 1; subst. rewrite Nat2Z.id. eauto.
  - intros (c & E & A). rewrite <- (Z2Nat.id x X). econstructor; eauto.
Qed.
Lemma has_cons_nonneg cs v x r w : has (NBranch cs v) (x :: r) w -> (0 <= x)%Z.
Proof. inversion 1; subst. lia. Qed.

(** ** Key comparison *)
Lemma common_split a b : exists p s t, a = p ++ s /\ b = p ++ t /\ common_len a b = length p
  /\ match s, t with x :: _, y :: _ => x <> y | _, _ => True end.
Proof.
  revert b. induction a as [|x a IH]; intros [|y b].
  - exists [], [], []. auto.
  - exists [], [], (y :: b). auto.
  - exists [], (x :: a), []. auto.
  - cbn [common_len]. destruct (Z.eqb_spec x y) as [->|N].
    + destruct (IH b) as (p & s & t & -> & -> & E & D). exists (y :: p), s, t. rewrite E. auto.
    + exists [], (x :: a), (y :: b). auto.
Qed.
Lemma compare_app p s t : match s, t with x :: _, y :: _ => x <> y | _, _ => True end -> common_len (p ++ s) (p ++ t) = length p.
Proof.
  intro D. induction p as [|x p IH]; cbn [app common_len length].
  - destruct s as [|x s], t as [|y t]; auto. cbn. destruct (Z.eqb_spec x y); congruence.
  - rewrite Z.eqb_refl, IH. reflexivity.
Qed.
Lemma compare_match a b : snd (compareKeys a b) = true <-> a = b.
Proof.
  unfold compareKeys. cbn [snd]. destruct (common_split a b) as (p & s & t & -> & -> & E & D). rewrite E, !app_length. split.
  - intro M. apply andb_true_iff in M as [M1 M2]. apply Nat.eqb_eq in M1, M2.
    destruct s; [|cbn in M1; lia]. destruct t; [|cbn in M2; lia]. reflexivity.
  - intro M. apply app_inv_head in M. subst t. destruct s as [|x s]; [|congruence].
    cbn. rewrite !Nat.add_0_r, Nat.eqb_refl. reflexivity.
Qed.
Lemma compare_less a b : fst (compareKeys a b) < length b -> forall r, a <> b ++ r.
Proof.
  unfold compareKeys. cbn [fst]. destruct (common_split a b) as (p & s & t & -> & -> & E & D). rewrite E, app_length. intros L r X.
  rewrite <- app_assoc in X. apply app_inv_head in X. destruct t as [|y t]; [cbn in L; lia|]. subst s. cbn in D. congruence.
Qed.
Lemma compare_all a b : ~ fst (compareKeys a b) < length b -> a = b ++ skipn (fst (compareKeys a b)) a /\ fst (compareKeys a b) = length b.
Proof.
  unfold compareKeys. cbn [fst]. destruct (common_split a b) as (p & s & t & -> & -> & E & D). rewrite E, app_length. intro L.
  destruct t as [|y t]; [|cbn in L; lia]. rewrite app_nil_r. rewrite skipn_app, skipn_all, Nat.sub_diag. cbn. split; auto.
Qed.

(** ** Lists of children *)
Lemma set_nth_len {A} (l : list A) i x : length (set_nth l i x) = length l.
Proof. revert i. induction l as [|a l IH]; intros [|i]; cbn; auto. Qed.
Lemma set_nth_same {A} (l : list A) i x : i < length l -> nth_error (set_nth l i x) i = Some x.
Proof. revert i. induction l as [|a l IH]; intros [|i] L; cbn in *; try lia; auto. apply IH. lia. Qed.
Lemma set_nth_other {A} (l : list A) i j x : i <> j -> nth_error (set_nth l i x) j = nth_error l j.
Proof. revert i j. induction l as [|a l IH]; intros [|i] [|j] N; cbn; auto; try congruence. Qed.
Lemma set_nth_in {A} (l : list A) i x y : In y (set_nth l i x) -> y = x \/ In y l.
Proof.
  revert i. induction l as [|a l IH]; intros [|i]; cbn; intros []; auto. destruct (IH _ H); auto.
Qed.
Lemma set_nth_id {A} (l : list A) i x : nth_error l i = Some x -> set_nth l i x = l.
Proof. revert i. induction l as [|a l IH]; intros [|i] E; cbn in *; try discriminate; [congruence|]. f_equal. auto. Qed.
Definition isc (o : option node) : nat := match o with Some _ => 1 | None => 0 end.
Lemma kids_cons o cs : kids (o :: cs) = isc o + kids cs.
Proof. unfold kids. destruct o; reflexivity. Qed.
Lemma kids_set cs i x o : nth_error cs i = Some o -> kids (set_nth cs i x) + isc o = kids cs + isc x.
Proof.
  revert i. induction cs as [|a cs IH]; intros [|i] E; cbn [set_nth nth_error] in *; try discriminate; rewrite !kids_cons.
  - injection E as ->. lia.
  - specialize (IH _ E). lia.
Qed.
Lemma forall2_set {A B} (R : A -> B -> Prop) l l' i x y : Forall2 R l l' -> R x y -> Forall2 R (set_nth l i x) (set_nth l' i y).
Proof. intros F Q. revert i. induction F; intros [|i]; cbn; constructor; auto. Qed.
Lemma forall2_nth {A B} (R : A -> B -> Prop) l l' i : Forall2 R l l' ->
  match nth_error l i, nth_error l' i with Some x, Some y => R x y | None, None => True | _, _ => False end.
Proof. intros F. revert i. induction F; intros [|i]; cbn; auto. apply IHF. Qed.

Lemma none_nth i : i < 16 -> nth_error no_children i = Some None.
Proof. intro L. unfold no_children. rewrite nth_error_repeat; auto. Qed.
Lemma none_in c : ~ In (Some c) no_children.
Proof. intro I. apply repeat_spec in I. discriminate. Qed.

(** ** A key put beside another subtree *)
Definition wrap (p : list Z) (n : node) : node := match p with [] => n | _ => NExt p n end.
Lemma has_wrap p n key w : has (wrap p n) key w <-> exists r, key = p ++ r /\ has n r w.
Proof.
  destruct p as [|x p]; cbn [wrap]; [|apply has_ext_iff]. split; [intro A; exists key; auto|]. intros (r & -> & A). exact A.
Qed.
Definition plantc (a : list Z) (o : bytes) : list (option node) := match a with [] => no_children | x :: r => at_child x (NLeaf r o) end.
Definition plantv (a : list Z) (o : bytes) : option bytes := match a with [] => Some o | _ => None end.

Lemma nib x : nibble x -> Z.to_nat x < 16. Proof. unfold nibble. lia. Qed.

Lemma plant_len a o : length (plantc a o) = 16.
Proof. destruct a; [reflexivity|]. unfold plantc, at_child. rewrite set_nth_len. reflexivity. Qed.
Lemma plant_kids a o : nibbles a -> kids (plantc a o) + isv (plantv a o) = 1.
Proof.
  destruct a as [|x r]; intro N; [reflexivity|]. inversion N; subst. cbn [plantc plantv isv]. unfold at_child.
  pose proof (kids_set no_children (Z.to_nat x) (Some (NLeaf r o)) None (none_nth _ (nib _ H1))) as K. cbn [isc] in K.
  change (kids no_children) with 0 in K. lia.
Qed.
Lemma plant_in a o c : In (Some c) (plantc a o) -> exists x r, a = x :: r /\ c = NLeaf r o.
Proof.
  destruct a as [|x r]; cbn [plantc]; intro Hin; [now apply none_in in Hin|]. apply set_nth_in in Hin as [E|Hin]; [|now apply none_in in Hin].
  injection E as ->. eauto.
Qed.
Lemma plant_nth a o i : nibbles a -> i < 16 -> (forall x r, a = x :: r -> Z.to_nat x <> i) -> nth_error (plantc a o) i = Some None.
Proof.
  intros N L D. destruct a as [|x r]; cbn [plantc]; [now apply none_nth|]. unfold at_child. rewrite set_nth_other by eauto. now apply none_nth.
Qed.

Definition fork (a : list Z) (o : bytes) (y : Z) (rest : node) : node :=
  NBranch (set_nth (plantc a o) (Z.to_nat y) (Some rest)) (plantv a o).

Lemma fork_has a o y rest key w : nibbles a -> nibble y -> (forall x r, a = x :: r -> x <> y) ->
  has (fork a o y rest) key w <-> (key = a /\ w = o) \/ (exists r, key = y :: r /\ has rest r w).
Proof.
  intros N Y D. unfold fork. destruct key as [|x r].
  - rewrite has_nil_iff. destruct a as [|x r]; cbn [plantv]; split.
    + intro E. injection E as ->. auto.
    + intros [[_ ->]|(r & E & _)]; [auto|discriminate].
    + discriminate.
    + intros [[E _]|(r' & E & _)]; discriminate.
  - split.
    + intro A. pose proof (has_cons_nonneg _ _ _ _ _ A) as X. apply has_cons_iff in A as (c & E & A); auto.
      destruct (Z.eq_dec x y) as [->|Ne].
      * rewrite set_nth_same in E by (rewrite plant_len; now apply nib). injection E as ->. right. eauto.
      * rewrite set_nth_other in E by (unfold nibble in Y; lia). left. destruct a as [|x' r']; cbn [plantc] in E.
        { exfalso. apply nth_error_In, none_in in E. exact E. }
        inversion N as [|? ? N1 N2]; subst. unfold at_child in E. destruct (Z.eq_dec x' x) as [->|Ne'].
        { rewrite set_nth_same in E by (cbn; now apply nib). injection E as <-. apply has_leaf_iff in A as [-> ->]. auto. }
        rewrite set_nth_other in E by (unfold nibble in N1; lia). exfalso. apply nth_error_In, none_in in E. exact E.
    + intros [[E ->]|(r' & E & A)].
      * subst a. inversion N as [|? ? N1 N2]; subst. apply has_cons_iff; [unfold nibble in N1; lia|]. exists (NLeaf r o). split; [|constructor].
        rewrite set_nth_other. { cbn [plantc]. apply set_nth_same. cbn. now apply nib. }
        specialize (D x r eq_refl). unfold nibble in *. lia.
      * injection E as -> ->. apply has_cons_iff; [unfold nibble in Y; lia|]. exists rest. split; auto.
        apply set_nth_same. rewrite plant_len. now apply nib.
Qed.
Lemma fork_canon a o y rest : nibbles a -> nibble y -> (forall x r, a = x :: r -> x <> y) -> okv o -> canon rest -> canon (fork a o y rest).
Proof.
  intros N Y D Ho C. constructor.
  - rewrite set_nth_len. apply plant_len.
  - intros c Hin. apply set_nth_in in Hin as [E|Hin]; [congruence|]. apply plant_in in Hin as (x & r & -> & ->). inversion N; subst. now constructor.
  - intros x E. destruct a; cbn in E; [congruence|discriminate].
  - assert (Z0 : nth_error (plantc a o) (Z.to_nat y) = Some None).
    { apply plant_nth; auto; [now apply nib|]. intros x r E. specialize (D x r E). subst a. inversion N; subst. unfold nibble in *. lia. }
    pose proof (kids_set _ _ (Some rest) _ Z0) as K. cbn [isc] in K. pose proof (plant_kids a o N). lia.
Qed.
Lemma wrap_canon p cs v : nibbles p -> canon (NBranch cs v) -> canon (wrap p (NBranch cs v)).
Proof. intros N C. destruct p; cbn [wrap]; [auto|constructor; auto; discriminate]. Qed.

(** A value left at a fork, a key going on. *)
Definition fork0 (x : Z) (a : list Z) (o lv : bytes) : node := NBranch (at_child x (NLeaf a o)) (Some lv).
Lemma fork0_has x a o lv key w : nibble x -> has (fork0 x a o lv) key w <-> (key = x :: a /\ w = o) \/ (key = [] /\ w = lv).
Proof.
  intro N. unfold fork0. destruct key as [|y r].
  - rewrite has_nil_iff. split; [intro E; injection E as ->; auto|]. intros [[E _]|[_ ->]]; [discriminate|auto].
  - split.
    + intro A. pose proof (has_cons_nonneg _ _ _ _ _ A) as X. apply has_cons_iff in A as (c & E & A); auto. unfold at_child in E.
      destruct (Z.eq_dec x y) as [->|Ne].
      * rewrite set_nth_same in E by (cbn; now apply nib). injection E as <-. apply has_leaf_iff in A as [-> ->]. auto.
      * rewrite set_nth_other in E by (unfold nibble in N; lia). exfalso. apply nth_error_In, none_in in E. exact E.
    + intros [[E ->]|[E _]]; [|discriminate]. injection E as -> ->. apply has_cons_iff; [unfold nibble in N; lia|].
      exists (NLeaf a o). split; [|constructor]. apply set_nth_same. cbn. now apply nib.
Qed.
Lemma fork0_canon x a o lv : nibble x -> nibbles a -> okv o -> okv lv -> canon (fork0 x a o lv).
Proof.
  intros X N Ho Hl. constructor.
  - unfold at_child. rewrite set_nth_len. reflexivity.
  - intros c Hin. apply set_nth_in in Hin as [E|Hin]; [|now apply none_in in Hin]. injection E as ->. now constructor.
  - congruence.
  - unfold at_child. pose proof (kids_set no_children (Z.to_nat x) (Some (NLeaf a o)) None (none_nth _ (nib _ X))) as K.
    cbn [isc] in K. change (kids no_children) with 0 in K. cbn [isv]. lia.
Qed.

(** ** The code in these terms *)
Lemma firstn_len_app {A} (p s : list A) : firstn (length p) (p ++ s) = p.
Proof. now rewrite firstn_app, Nat.sub_diag, firstn_all, app_nil_r. Qed.
Lemma skipn_len_app {A} (p s : list A) : skipn (length p) (p ++ s) = s.
Proof. now rewrite skipn_app, Nat.sub_diag, skipn_all. Qed.
Lemma skipn_len1_app {A} (p s : list A) x : skipn (length p + 1) (p ++ x :: s) = s.
Proof. replace (length p + 1) with (length (p ++ [x])) by (rewrite app_length; reflexivity). change (x :: s) with ([x] ++ s). rewrite app_assoc. apply skipn_len_app. Qed.
Lemma nth_len_app {A} (p s : list A) x d : nth (length p) (p ++ x :: s) d = x.
Proof. rewrite app_nth2, Nat.sub_diag; auto. Qed.

Lemma leaf_set_fork p a y b lv o : (forall x r, a = x :: r -> x <> y) ->
  leaf_set (p ++ y :: b) lv (p ++ a) o = (wrap p (fork a o y (NLeaf b lv)), true, None).
Proof.
  intro D. unfold leaf_set, compareKeys.
  assert (E : common_len (p ++ a) (p ++ y :: b) = length p) by (apply compare_app; destruct a; eauto).
  rewrite E, !app_length. cbn [length].
  replace (length p =? length p + S (length b)) with false by (symmetry; apply Nat.eqb_neq; lia). rewrite andb_false_r.
  destruct p as [|z p].
  - cbn [length Nat.eqb andb negb app wrap]. unfold fork. destruct a as [|x r]; reflexivity.
  - change (Nat.eqb (length (z :: p)) 0) with false. cbn [andb].
    destruct (Nat.ltb_spec (length (z :: p)) (length (z :: p) + S (length b))); [|lia].
    rewrite nth_len_app, skipn_len1_app, firstn_len_app. unfold wrap, fork. destruct a as [|x r].
    + rewrite Nat.add_0_r, Nat.eqb_refl. reflexivity.
    + replace (length (z :: p) =? length (z :: p) + length (x :: r)) with false by (symmetry; apply Nat.eqb_neq; cbn; lia).
      rewrite nth_len_app, skipn_len1_app. reflexivity.
Qed.
Lemma leaf_set_fork0 p x a lv o : leaf_set p lv (p ++ x :: a) o = (wrap p (fork0 x a o lv), true, None).
Proof.
  unfold leaf_set, compareKeys.
  assert (E : common_len (p ++ x :: a) p = length p) by (rewrite <- (app_nil_r p) at 2; apply compare_app; auto).
  rewrite E, !app_length. cbn [length].
  replace (length p =? length p + S (length a)) with false by (symmetry; apply Nat.eqb_neq; lia). cbn [andb].
  destruct p as [|z p].
  - reflexivity.
  - change (Nat.eqb (length (z :: p)) 0) with false. cbn [andb negb]. rewrite Nat.ltb_irrefl.
    destruct (Nat.ltb_spec (length (z :: p)) (length (z :: p) + S (length a))); [|lia].
    rewrite nth_len_app, skipn_len1_app. reflexivity.
Qed.
Lemma leaf_set_same p lv o : leaf_set p lv p o = (NLeaf p o, negb (bytes_eqb lv o), Some lv).
Proof.
  unfold leaf_set, compareKeys.
  assert (E : common_len p p = length p) by (rewrite <- (app_nil_r p); rewrite compare_app; auto; rewrite app_nil_r; auto).
  rewrite E, !Nat.eqb_refl, Nat.ltb_irrefl. cbn [andb negb]. rewrite andb_false_r.
  destruct (bytes_eqb lv o) eqn:B; [|reflexivity]. apply bytes_eqb_eq in B. subst. reflexivity.
Qed.
Lemma ext_split_fork p a y b next o : (forall x r, a = x :: r -> x <> y) ->
  ext_split (p ++ y :: b) next (length p) (p ++ a) o = wrap p (fork a o y (wrap b next)).
Proof.
  intro D. unfold ext_split. rewrite firstn_len_app, nth_len_app, skipn_len1_app, !app_length. cbn [length].
  assert (R : (if length p + 1 =? length p + S (length b) then next else NExt b next) = wrap b next).
  { destruct b as [|z b]; cbn [length wrap]; [now rewrite Nat.eqb_refl|].
    replace (length p + 1 =? length p + S (S (length b))) with false by (symmetry; apply Nat.eqb_neq; lia). reflexivity. }
  rewrite R.
  assert (Cs : (if length p =? length p + length a then no_children
      else at_child (nth (length p) (p ++ a) 0%Z) (NLeaf (skipn (length p + 1) (p ++ a)) o)) = plantc a o
      /\ (if length p =? length p + length a then Some o else None) = plantv a o).
  { destruct a as [|x r]; cbn [length]; [rewrite Nat.add_0_r, Nat.eqb_refl; auto|].
    replace (length p =? length p + S (length r)) with false by (symmetry; apply Nat.eqb_neq; lia).
    rewrite nth_len_app, skipn_len1_app. auto. }
  destruct Cs as [-> ->]. destruct p; reflexivity.
Qed.

Section Ops.
Context (H : bytes -> bytes) (HH : forall s, blen (H s) = 32%Z /\ wf_bytes (H s)) (db : database).
Notation rep := (rep H db).
Notation orep := (orep H db).
Notation rrep := (rrep H db).

Lemma nib_tail x (r : list Z) : nibbles (x :: r) -> nibble x /\ nibbles r.
Proof. intro N. inversion N; auto. Qed.
Lemma nib_app a b : nibbles (a ++ b) <-> nibbles a /\ nibbles b.
Proof. apply Forall_app. Qed.

Lemma kid_at cs ts i : Forall2 orep cs ts -> length ts = 16 -> i < 16 ->
  (nth_error cs i = Some None /\ nth_error ts i = Some None)
  \/ exists c t, nth_error cs i = Some (Some c) /\ nth_error ts i = Some (Some t) /\ rep c t.
Proof.
  intros F L I. pose proof (forall2_nth _ _ _ i F) as N. destruct (nth_error ts i) as [o|] eqn:E.
  - destruct (nth_error cs i) as [o'|] eqn:E'; [|contradiction]. inversion N; subst; [now left|right; eauto].
  - apply nth_error_None in E. lia.
Qed.

(** *** get *)
Theorem get_ok t : forall n keys fuel, fine t -> rrep n t -> nibbles keys -> length keys < fuel ->
  exists n' o, node_get db fuel n keys = (n', o, None) /\ rep n' t /\ (forall v, o = Some v <-> has t keys v).
Proof.
  induction t as [k v|k t IH|h|ts bv IH] using node_ind'; intros n keys fuel C R N Hf;
    destruct (realize_root H HH db _ _ C R) as (n1 & E1 & R1 & NH); clear R; (destruct fuel as [|f]; [lia|]); cbn [node_get]; rewrite E1;
    fine_inv C; rep_inv R1; try (exfalso; eapply NH; reflexivity).
  - eexists _, _. split; [reflexivity|]. split; [constructor|]. intro w. rewrite has_leaf_iff.
    destruct (snd (compareKeys keys k)) eqn:M.
    + apply compare_match in M. split; [intro E; injection E; auto|intros [_ ->]; auto].
    + split; [discriminate|]. intros [X _]. apply compare_match in X. congruence.
  - destruct (Nat.ltb_spec (fst (compareKeys keys k)) (length k)) as [L|L].
    + eexists _, _. split; [reflexivity|]. split; [now constructor|]. intro w. split; [discriminate|]. rewrite has_ext_iff.
      intros (r & X & _). exfalso. eapply compare_less; eauto.
    + destruct (compare_all keys k ltac:(lia)) as [K1 K2]. set (r := skipn (fst (compareKeys keys k)) keys) in *. clearbody r. subst keys.
      apply nib_app in N as [_ N]. rewrite app_length in Hf.
      assert (length k <> 0) by (destruct k; [congruence|discriminate]).
      destruct (IH m r f Cn (or_introl Rn) N ltac:(lia)) as (n' & o & G & R' & V). rewrite G.
      eexists _, _. split; [reflexivity|]. split; [now constructor|]. intro w. rewrite V, has_ext_iff.
      split; [eauto|]. intros (r' & X & A). apply app_inv_head in X. now subst.
  - destruct keys as [|x r].
    + eexists _, _. split; [reflexivity|]. split; [now constructor|]. intro w. rewrite has_nil_iff. tauto.
    + apply nib_tail in N as [Nx N]. destruct (kid_at cs ts (Z.to_nat x) Rc Cl (nib _ Nx)) as [[K1 K2]|(c & t & K1 & K2 & Rk)]; rewrite K1.
      * eexists _, _. split; [reflexivity|]. split; [now constructor|]. intro w. split; [discriminate|].
        rewrite has_cons_iff by (unfold nibble in Nx; lia). intros (c & X & _). congruence.
      * pose proof (nth_error_In _ _ K2) as Hin. cbn [length] in Hf.
        destruct (IH t Hin c r f (Cc _ Hin) (or_introl Rk) N ltac:(lia)) as (n' & o & G & R' & V). rewrite G.
        eexists _, _. split; [reflexivity|]. split.
        { constructor. rewrite <- (set_nth_id ts _ _ K2). apply forall2_set; auto. now constructor. }
        intro w. rewrite V, has_cons_iff by (unfold nibble in Nx; lia). split; [eauto|]. intros (c' & X & A). congruence.
Qed.

(** *** set *)
Definition upd (t t' : node) (keys : list Z) (o : bytes) : Prop :=
  forall k w, has t' k w <-> (k = keys /\ w = o) \/ (k <> keys /\ has t k w).

Lemma rep_none_children : Forall2 orep no_children no_children.
Proof. unfold no_children. cbn. repeat constructor. Qed.
Lemma rep_plant a o : Forall2 orep (plantc a o) (plantc a o).
Proof. destruct a; cbn [plantc]; [apply rep_none_children|]. apply forall2_set; [apply rep_none_children|repeat constructor]. Qed.
Lemma rep_fork a o y rest rest' : rep rest rest' -> rep (fork a o y rest) (fork a o y rest').
Proof. intro R. constructor. apply forall2_set; [apply rep_plant|now constructor]. Qed.
Lemma rep_wrap p n t : rep n t -> rep (wrap p n) (wrap p t).
Proof. intro R. destruct p; cbn [wrap]; [auto|now constructor]. Qed.

Lemma wrap_upd p a y o : nibbles a -> nibble y -> (forall x r, a = x :: r -> x <> y) ->
  forall rest t, (forall k w, has t k w <-> exists r, k = p ++ y :: r /\ has rest r w) -> upd t (wrap p (fork a o y rest)) (p ++ a) o.
Proof.
  intros N Y D rest t T k w. rewrite has_wrap, T. split.
  - intros (r & -> & A). apply fork_has in A; auto. destruct A as [[-> ->]|(r' & -> & A)]; [auto|]. right. split; [|eauto].
    intro E. apply app_inv_head in E. destruct a as [|x a]; [discriminate|]. injection E as <- _. eapply D; reflexivity.
  - intros [[-> ->]|(Ne & r & -> & A)]; [exists a|exists (y :: r)]; (split; [reflexivity|]); apply fork_has; eauto.
Qed.

Theorem set_ok t : forall n keys o fuel, fine t -> rrep n t -> nibbles keys -> okv o -> length keys < fuel ->
  exists n' d old t', node_set db fuel n keys o = (n', d, old, None) /\ rep n' t' /\ canon t'
    /\ (forall v, old = Some v <-> has t keys v) /\ upd t t' keys o
    /\ ((exists ts v, t = NBranch ts v) -> exists ts v, t' = NBranch ts v).
Proof.
  induction t as [k v|k t IH|h|ts bv IH] using node_ind'; intros n keys o fuel C R N Ho Hf;
    destruct (realize_root H HH db _ _ C R) as (n1 & E1 & R1 & NH); clear R; (destruct fuel as [|f]; [lia|]); cbn [node_set]; rewrite E1;
    fine_inv C; rep_inv R1; try (exfalso; eapply NH; reflexivity).
  - (* leaf *)
    destruct (common_split keys k) as (p & a & b & -> & -> & _ & D). destruct Ck as [Nk _]. apply nib_app in N as [Np Na]. apply nib_app in Nk as [_ Nb].
    destruct b as [|y b].
    + rewrite app_nil_r. destruct a as [|x a].
      * rewrite app_nil_r, leaf_set_same. eexists _, _, _, (NLeaf p o). split; [reflexivity|]. split; [constructor|]. split; [now constructor|].
        split; [intro w; rewrite has_leaf_iff; split; [intro E; injection E; auto|intros [_ ->]; auto]|].
        split; [|intros (? & ? & X); discriminate]. intros k' w. rewrite !has_leaf_iff. split; [auto|]. intros [A|[A [B _]]]; [auto|congruence].
      * rewrite leaf_set_fork0. apply nib_tail in Na as [Nx Na]. eexists _, _, _, (wrap p (fork0 x a o v)). split; [reflexivity|].
        split; [apply rep_wrap; constructor; apply forall2_set; [apply rep_none_children|repeat constructor]|].
        split; [apply wrap_canon; auto; apply fork0_canon; auto|].
        split; [intro w; rewrite has_leaf_iff; split; [discriminate|]; intros [E _]; rewrite <- (app_nil_r p) in E at 2; apply app_inv_head in E; discriminate|].
        split; [|intros (? & ? & X); discriminate]. intros k' w. rewrite has_wrap, has_leaf_iff. split.
        { intros (r & -> & A). apply fork0_has in A; auto. destruct A as [[-> ->]|[-> ->]]; [auto|right]. rewrite app_nil_r. split; auto.
          intro E. rewrite <- (app_nil_r p) in E at 1. apply app_inv_head in E. discriminate. }
        { intros [[-> ->]|(_ & -> & ->)]; [exists (x :: a)|exists []; rewrite app_nil_r]; (split; [reflexivity|]); apply fork0_has; auto. }
    + apply nib_tail in Nb as [Ny Nb]. assert (D' : forall x r, a = x :: r -> x <> y) by (intros x r ->; exact D).
      rewrite leaf_set_fork by auto. eexists _, _, _, (wrap p (fork a o y (NLeaf b v))). split; [reflexivity|].
      split; [apply rep_wrap, rep_fork; constructor|]. split; [apply wrap_canon; auto; apply fork_canon; auto; now constructor|].
      split; [intro w; rewrite has_leaf_iff; split; [discriminate|]; intros [E _]; apply app_inv_head in E; subst a; exfalso; eapply D'; reflexivity|].
      split; [|intros (? & ? & X); discriminate].
      apply (wrap_upd p a y o Na Ny D' (NLeaf b v) (NLeaf (p ++ y :: b) v)).
      intros k' w. rewrite has_leaf_iff. split; [intros [-> ->]; exists b; split; auto; constructor|]. intros (r & -> & A). apply has_leaf_iff in A as [-> ->]. auto.
  - (* extension *)
    destruct (Nat.eqb_spec (length k) 0) as [Z0|_]; [destruct k; [congruence|discriminate]|].
    destruct (Nat.ltb_spec (fst (compareKeys keys k)) (length k)) as [L|L].
    + unfold compareKeys in *. cbn [fst] in *. destruct (common_split keys k) as (p & a & b & -> & -> & E & D). rewrite E in *.
      rewrite app_length in L. destruct b as [|y b]; [cbn in L; lia|]. destruct Ck as [Nk _]. apply nib_app in N as [Np Na]. apply nib_app in Nk as [_ Nb].
      apply nib_tail in Nb as [Ny Nb]. assert (D' : forall x r, a = x :: r -> x <> y) by (intros x r ->; exact D).
      rewrite ext_split_fork by auto. eexists _, _, _, (wrap p (fork a o y (wrap b (NBranch cs bv)))). split; [reflexivity|].
      split; [apply rep_wrap, rep_fork, rep_wrap; exact Rn|].
      split; [apply wrap_canon; auto; apply fork_canon; auto; apply wrap_canon; auto; apply Cn|].
      split.
      { intro w. rewrite has_ext_iff. split; [discriminate|]. intros (r & X & _). rewrite <- app_assoc in X. apply app_inv_head in X. subst a. exfalso. eapply D'; reflexivity. }
      split; [|intros (? & ? & X); discriminate].
      apply (wrap_upd p a y o Na Ny D' (wrap b (NBranch cs bv)) (NExt (p ++ y :: b) (NBranch cs bv))).
      intros k' w. rewrite has_ext_iff. split.
      * intros (r & -> & A). exists (b ++ r). rewrite <- app_assoc. split; auto. apply has_wrap. eauto.
      * intros (r & -> & A). apply has_wrap in A as (r' & -> & A). exists r'. rewrite <- app_assoc. auto.
    + destruct (compare_all keys k ltac:(lia)) as [K1 K2]. set (r := skipn (fst (compareKeys keys k)) keys) in *. clearbody r. subst keys.
      apply nib_app in N as [_ N]. rewrite app_length in Hf.
      assert (length k <> 0) by (destruct k; [congruence|discriminate]).
      destruct (IH m r o f Cn (or_introl Rn) N Ho ltac:(lia)) as (n' & d & old & t' & G & R' & C' & V & U & B). rewrite G.
      destruct (B ltac:(eauto)) as (ts' & v' & ->).
      eexists _, _, _, (NExt k (NBranch ts' v')). split; [reflexivity|]. split; [now constructor|]. split; [constructor; auto; apply Ck|].
      split; [intro w; rewrite V, has_ext_iff; split; [eauto|]; intros (r' & X & A); apply app_inv_head in X; now subst|].
      split; [|intros (? & ? & X); discriminate].
      intros k' w. rewrite !has_ext_iff. split.
      * intros (r' & -> & A). apply U in A as [[-> ->]|[Ne A]]; [auto|right]. split; [|eauto]. intro X. apply app_inv_head in X. congruence.
      * intros [[-> ->]|(Ne & r' & -> & A)]; [exists r|exists r']; (split; [reflexivity|]); apply U; [auto|right; split; auto; congruence].
  - (* branch *)
    destruct keys as [|x r].
    + set (res := match bv with Some old => if bytes_eqb old o then (NBranch cs bv, false, bv, None) else (NBranch cs (Some o), true, bv, None)
                  | None => (NBranch cs (Some o), true, None, None) end).
      assert (Er : exists d, res = (NBranch cs (Some o), d, bv, @None err)).
      { unfold res. destruct bv as [ov|]; [|eauto]. destruct (bytes_eqb ov o) eqn:B; [|eauto]. apply bytes_eqb_eq in B. subst. eauto. }
      destruct Er as [d Er]. change (exists n' d old t', res = (n', d, old, None) /\ rep n' t' /\ canon t'
        /\ (forall v, old = Some v <-> has (NBranch ts bv) [] v) /\ upd (NBranch ts bv) t' [] o
        /\ ((exists ts0 v, NBranch ts bv = NBranch ts0 v) -> exists ts0 v, t' = NBranch ts0 v)).
      rewrite Er. eexists _, _, _, (NBranch ts (Some o)). split; [reflexivity|]. split; [now constructor|].
      split; [constructor; auto; [intros c Hc; apply Cc; auto|congruence|destruct bv; cbn [isv] in *; lia]|].
      split; [intro w; rewrite has_nil_iff; tauto|]. split; [|eauto]. intros k' w. destruct k' as [|x r].
      * rewrite has_nil_iff. split; [intro E; injection E; auto|]. intros [[_ ->]|[X _]]; [auto|congruence].
      * split.
        { intro A. right. split; [discriminate|]. pose proof (has_cons_nonneg _ _ _ _ _ A). rewrite has_cons_iff in * by lia. exact A. }
        { intros [[X _]|[_ A]]; [discriminate|]. pose proof (has_cons_nonneg _ _ _ _ _ A). rewrite has_cons_iff in * by lia. exact A. }
    + apply nib_tail in N as [Nx N].
      assert (Step : forall t' c', canon t' -> rep c' t' -> forall old,
        (forall k w, has t' k w <-> (k = r /\ w = o) \/ (k <> r /\ exists t0, nth_error ts (Z.to_nat x) = Some (Some t0) /\ has t0 k w)) ->
        rep (NBranch (set_nth cs (Z.to_nat x) (Some c')) bv) (NBranch (set_nth ts (Z.to_nat x) (Some t')) bv)
        /\ canon (NBranch (set_nth ts (Z.to_nat x) (Some t')) bv) /\ upd (NBranch ts bv) (NBranch (set_nth ts (Z.to_nat x) (Some t')) bv) (x :: r) o
        /\ (old = true -> old = true)).
      { intros t' c' C' R' old U. split; [constructor; apply forall2_set; auto; now constructor|]. split.
        { constructor; [now rewrite set_nth_len| |auto|].
          - intros c Hc. apply set_nth_in in Hc as [E|Hc]; [congruence|]. apply Cc; auto.
          - destruct (nth_error ts (Z.to_nat x)) as [o'|] eqn:K; [|apply nth_error_None in K; pose proof (nib _ Nx); lia].
            pose proof (kids_set _ _ (Some t') _ K) as Q. cbn [isc] in Q. destruct o'; cbn [isc] in Q; lia. }
        split; [|auto]. intros k' w. destruct k' as [|x' r'].
        { rewrite !has_nil_iff. split; [intro; right; split; [discriminate|auto]|]. intros [[X _]|[_ A]]; [discriminate|auto]. }
        split.
        - intro A. pose proof (has_cons_nonneg _ _ _ _ _ A). rewrite has_cons_iff in A by lia. destruct A as (c & K & A).
          destruct (Z.eq_dec x x') as [<-|Ne].
          + rewrite set_nth_same in K by (rewrite Cl; now apply nib). injection K as <-. apply U in A as [[-> ->]|(Ne & t0 & K & A)]; [auto|].
            right. split; [congruence|]. rewrite has_cons_iff by lia. eauto.
          + rewrite set_nth_other in K by (unfold nibble in Nx; lia). right. split; [congruence|]. rewrite has_cons_iff by lia. eauto.
        - intros [[X ->]|[Ne A]].
          + injection X as -> ->. rewrite has_cons_iff by (unfold nibble in Nx; lia). exists t'. rewrite set_nth_same by (rewrite Cl; now apply nib).
            split; auto. apply U. auto.
          + pose proof (has_cons_nonneg _ _ _ _ _ A). rewrite has_cons_iff in * by lia. destruct A as (c & K & A).
            destruct (Z.eq_dec x x') as [<-|Nx'].
            * exists t'. rewrite set_nth_same by (rewrite Cl; now apply nib). split; auto. apply U. right. split; [congruence|eauto].
            * exists c. rewrite set_nth_other by (unfold nibble in Nx; lia). auto. }
      destruct (kid_at cs ts (Z.to_nat x) Rc Cl (nib _ Nx)) as [[K1 K2]|(c & t & K1 & K2 & Rk)]; rewrite K1.
      * destruct (Step (NLeaf r o) (NLeaf r o) ltac:(constructor; auto) ltac:(constructor) true) as (S1 & S2 & S3 & _).
        { intros k' w. rewrite has_leaf_iff. split; [auto|]. intros [A|(_ & t0 & X & _)]; [auto|congruence]. }
        eexists _, _, _, _. split; [reflexivity|]. split; [exact S1|]. split; [exact S2|].
        split; [intro w; rewrite has_cons_iff by (unfold nibble in Nx; lia); split; [discriminate|]; intros (c & X & _); congruence|]. split; [exact S3|eauto].
      * pose proof (nth_error_In _ _ K2) as Hin. cbn [length] in Hf.
        destruct (IH t Hin c r o f (Cc _ Hin) (or_introl Rk) N Ho ltac:(lia)) as (n' & d & old & t' & G & R' & C' & V & U & _). rewrite G.
        destruct (Step t' n' C' R' true) as (S1 & S2 & S3 & _).
        { intros k' w. rewrite (U k' w). split; (intros [A|[Ne A]]; [auto|right; split; auto]); [eauto|]. destruct A as (t0 & X & A). congruence. }
        eexists _, _, _, _. split; [reflexivity|]. split; [exact S1|]. split; [exact S2|].
        split; [intro w; rewrite V, has_cons_iff by (unfold nibble in Nx; lia); split; [eauto|]; intros (c' & X & A); congruence|]. split; [exact S3|eauto].
Qed.

(** *** delete *)
Lemma only_child_spec cs i : match only_child cs i with
  | Some None => kids cs = 0
  | Some (Some j) => kids cs = 1 /\ i <= j /\ exists c, nth_error cs (j - i) = Some (Some c)
  | None => 2 <= kids cs
  end.
Proof.
  revert i. induction cs as [|o cs IH]; intro i; cbn [only_child]; [reflexivity|]. specialize (IH (S i)). rewrite kids_cons. destruct o as [c|]; cbn [isc].
  - destruct (only_child cs (S i)) as [[j|]|].
    + destruct IH as [K _]. lia.
    + rewrite IH. split; [lia|]. split; [lia|]. rewrite Nat.sub_diag. exists c. reflexivity.
    + lia.
  - destruct (only_child cs (S i)) as [[j|]|]; auto. destruct IH as (K & L & c & E). split; [lia|]. split; [lia|].
    exists c. replace (j - i) with (S (j - S i)) by lia. exact E.
Qed.
Lemma kids_rep cs ts : Forall2 orep cs ts -> kids cs = kids ts.
Proof. induction 1 as [|x y l l' O F IH]; auto. rewrite !kids_cons, IH. destruct O; reflexivity. Qed.
Lemma kids_uniq cs i j c d : kids cs <= 1 -> nth_error cs i = Some (Some c) -> nth_error cs j = Some (Some d) -> i = j.
Proof.
  revert i j. induction cs as [|o cs IH]; intros [|i] [|j] K E1 E2; cbn [nth_error] in *; try discriminate; auto; rewrite kids_cons in K.
  - injection E1 as ->. apply kids_in in E2. cbn [isc] in K. lia.
  - injection E2 as ->. apply kids_in in E1. cbn [isc] in K. lia.
  - f_equal. eapply IH; eauto. lia.
Qed.

Lemma same_only ts i t : kids ts <= 1 -> nth_error ts i = Some (Some t) ->
  forall k w, has (NBranch ts None) k w <-> exists r, k = [Z.of_nat i] ++ r /\ has t r w.
Proof.
  intros K E k w. split.
  - inversion 1; subst. assert (i0 = i) by (eapply kids_uniq; eauto). subst i0. exists r. split; auto. congruence.
  - intros (r & -> & A). cbn. econstructor; eauto.
Qed.

Lemma shrink_ok cs ts v ov : Forall2 orep cs ts -> length ts = 16 -> (forall c, In (Some c) ts -> fine c) -> (forall x, v = Some x -> okv x) ->
  1 <= kids ts + isv v ->
  exists n' t', branch_shrink db cs v ov = (Some n', true, ov, None) /\ rep n' t' /\ canon t' /\ same t' (NBranch ts v).
Proof.
  intros F L C Cv K. unfold branch_shrink. pose proof (only_child_spec cs 0) as OC. pose proof (kids_rep _ _ F) as KR.
  assert (Stay : 2 <= kids ts + isv v -> rep (NBranch cs v) (NBranch ts v) /\ canon (NBranch ts v) /\ same (NBranch ts v) (NBranch ts v)).
  { intro K2. split; [now constructor|]. split; [constructor; auto; intros c Hc; apply C; auto|]. intros k w. tauto. }
  destruct (only_child cs 0) as [[i|]|].
  - destruct OC as (K1 & _ & c & E). rewrite Nat.sub_0_r in E. destruct v as [x|].
    + eexists _, _. split; [reflexivity|]. apply Stay. cbn. lia.
    + rewrite (nth_error_nth _ _ None E).
      pose proof (forall2_nth _ _ _ i F) as N. rewrite E in N. destruct (nth_error ts i) as [o|] eqn:E2; [|contradiction].
      inversion N as [|? t Rt]; subst. assert (Ft : fine t) by (eapply C, nth_error_In; eauto).
      assert (Hi : nibbles [Z.of_nat i]).
      { constructor; [|constructor]. assert (i < length ts) by (apply nth_error_Some; congruence). unfold nibble. lia. }
      destruct (realize_root H HH db _ _ Ft (or_introl Rt)) as (a & Ea & Ra & NH). rewrite Ea.
      pose proof (same_only ts i t ltac:(lia) E2) as SO. destruct t as [k x|k t|cs' v'|h]; fine_inv Ft; rep_inv Ra; try (exfalso; eapply NH; reflexivity).
      * cbn [prepend]. eexists _, (NLeaf ([Z.of_nat i] ++ k) x). split; [reflexivity|]. split; [constructor|].
        split; [constructor; auto; apply nib_app; split; auto; apply Ck|]. intros key w. rewrite SO, has_leaf_iff. split.
        { intros [-> ->]. exists k. split; auto. constructor. }
        { intros (r & -> & A). apply has_leaf_iff in A as [-> ->]. auto. }
      * cbn [prepend]. eexists _, (NExt ([Z.of_nat i] ++ k) (NBranch cs0 bv)). split; [reflexivity|]. split; [now constructor|].
        split; [constructor; [apply nib_app; split; auto; apply Ck|discriminate|apply Cn]|]. intros key w. rewrite SO, has_ext_iff. split.
        { intros (r & -> & A). exists (k ++ r). rewrite app_assoc. split; auto. now constructor. }
        { intros (r & -> & A). apply has_ext_iff in A as (r' & -> & A). exists r'. rewrite app_assoc. auto. }
      * eexists _, (NExt [Z.of_nat i] (NBranch cs' v')). split; [reflexivity|]. split; [repeat constructor; auto|].
        split; [constructor; auto; [discriminate|apply Ft]|]. intros key w. rewrite SO, has_ext_iff. tauto.
  - destruct v as [x|]; [|cbn in K; lia]. eexists _, (NLeaf [] x). split; [reflexivity|]. split; [constructor|].
    split; [constructor; [constructor|auto]|]. intros key w. rewrite has_leaf_iff. split.
    + intros [-> ->]. constructor.
    + inversion 1; subst; auto. exfalso. match goal with X : nth_error ts _ = Some (Some _) |- _ => apply kids_in in X end. lia.
  - eexists _, _. split; [destruct v; reflexivity|]. apply Stay. lia.
Qed.

Definition del (t t' : node) (keys : list Z) : Prop := forall k w, has t' k w <-> k <> keys /\ has t k w.

Theorem delete_ok t : forall n keys fuel, fine t -> rrep n t -> nibbles keys -> length keys < fuel ->
  exists r d old, node_delete db fuel n keys = (r, d, old, None) /\ (forall v, old = Some v <-> has t keys v)
    /\ match r with
       | None => d = true /\ (forall k w, has t k w -> k = keys) /\ (exists k v, t = NLeaf k v)
       | Some n' => if d then exists t', rep n' t' /\ canon t' /\ del t t' keys /\ (forall h, n' <> NHash h)
                    else rep n' t /\ old = None
       end.
Proof.
  induction t as [k v|k t IH|h|ts bv IH] using node_ind'; intros n keys fuel C R N Hf;
    destruct (realize_root H HH db _ _ C R) as (n1 & E1 & R1 & NH); clear R; (destruct fuel as [|f]; [lia|]); cbn [node_delete]; rewrite E1;
    fine_inv C; rep_inv R1; try (exfalso; eapply NH; reflexivity).
  - destruct (snd (compareKeys keys k)) eqn:M.
    + apply compare_match in M. subst k. eexists _, _, _. split; [reflexivity|]. split.
      * intro w. rewrite has_leaf_iff. split; [intro E; injection E; auto|intros [_ ->]; auto].
      * split; [reflexivity|]. split; [|eauto]. intros k w A. apply has_leaf_iff in A. tauto.
    + eexists _, _, _. split; [reflexivity|]. split; [|split; [constructor|reflexivity]]. intro w. split; [discriminate|].
      rewrite has_leaf_iff. intros [X _]. apply compare_match in X. congruence.
  - destruct (Nat.ltb_spec (fst (compareKeys keys k)) (length k)) as [L|L].
    + eexists _, _, _. split; [reflexivity|]. split; [|split; [now constructor|reflexivity]]. intro w. split; [discriminate|].
      rewrite has_ext_iff. intros (r & X & _). exfalso. eapply compare_less; eauto.
    + destruct (compare_all keys k ltac:(lia)) as [K1 K2]. set (r := skipn (fst (compareKeys keys k)) keys) in *. clearbody r. subst keys.
      apply nib_app in N as [_ N]. rewrite app_length in Hf.
      assert (length k <> 0) by (destruct k; [congruence|discriminate]).
      destruct (IH m r f Cn (or_introl Rn) N ltac:(lia)) as (res & d & old & G & V & Q). rewrite G.
      assert (V' : forall w, old = Some w <-> has (NExt k (NBranch cs bv)) (k ++ r) w).
      { intro w. rewrite V, has_ext_iff. split; [eauto|]. intros (r' & X & A). apply app_inv_head in X. now subst. }
      destruct res as [n'|].
      * destruct d.
        { destruct Q as (t' & R' & C' & D & NH').
          assert (D' : forall k' w, (exists r', k' = k ++ r' /\ has t' r' w) <-> k' <> k ++ r /\ has (NExt k (NBranch cs bv)) k' w).
          { intros k' w. rewrite has_ext_iff. split.
            - intros (r' & -> & A). apply D in A as [Ne A]. split; [|eauto]. intro X. apply app_inv_head in X. congruence.
            - intros (Ne & r' & -> & A). exists r'. split; auto. apply D. split; auto. congruence. }
          destruct t' as [k2 v2|k2 t2|ts2 v2|h]; canon_inv C'; rep_inv R'; try (exfalso; eapply NH'; reflexivity); cbn [prepend].
          - eexists _, _, _. split; [reflexivity|]. split; [exact V'|]. exists (NLeaf (k ++ k2) v2). split; [constructor|].
            split; [constructor; auto; apply nib_app; split; auto; apply Ck|]. split; [|discriminate]. intros k' w. rewrite <- D', has_leaf_iff. split.
            + intros [-> ->]. exists k2. split; auto. constructor.
            + intros (r' & -> & A). apply has_leaf_iff in A as [-> ->]. auto.
          - eexists _, _, _. split; [reflexivity|]. split; [exact V'|]. eexists (NExt (k ++ k2) _). split; [constructor; eassumption|].
            split; [constructor; auto; [apply nib_app; split; auto; apply Ck|destruct k; [congruence|discriminate]]|]. split; [|discriminate].
            intros k' w. rewrite <- D', has_ext_iff. split.
            + intros (r' & -> & A). exists (k2 ++ r'). rewrite app_assoc. split; auto. now constructor.
            + intros (r' & -> & A). apply has_ext_iff in A as (r2 & -> & A). exists r2. rewrite app_assoc. auto.
          - eexists _, _, _. split; [reflexivity|]. split; [exact V'|]. exists (NExt k (NBranch ts2 v2)). split; [repeat constructor; auto|].
            split; [constructor; auto; apply Ck|]. split; [|discriminate]. intros k' w. rewrite <- D', has_ext_iff. tauto. }
        { destruct Q as [R' ->]. eexists _, _, _. split; [reflexivity|]. split; [exact V'|]. split; [now constructor|reflexivity]. }
      * destruct Q as (_ & _ & k2 & v2 & X). discriminate X.
  - destruct keys as [|x r].
    + destruct bv as [ov|].
      * destruct (shrink_ok cs ts None (Some ov) Rc Cl Cc ltac:(discriminate)) as (n' & t' & G & R' & C' & S1); [cbn [isv] in *; lia|].
        rewrite G. eexists _, _, _. split; [reflexivity|]. split; [intro w; rewrite has_nil_iff; tauto|].
        exists t'. split; auto. split; auto. split.
        { intros k w. rewrite (S1 k w). destruct k as [|x r].
          - rewrite has_nil_iff. split; [discriminate|]. intros [X _]. congruence.
          - split.
            + intro A. split; [discriminate|]. pose proof (has_cons_nonneg _ _ _ _ _ A). rewrite has_cons_iff in * by lia. exact A.
            + intros [_ A]. pose proof (has_cons_nonneg _ _ _ _ _ A). rewrite has_cons_iff in * by lia. exact A. }
        { intros h X. subst n'. unfold branch_shrink in G. destruct (only_child cs 0) as [[i|]|]; try discriminate G.
          destruct (nth i cs None); [|discriminate G]. destruct (realize db n0) as [[]|]; discriminate G. }
      * eexists _, _, _. split; [reflexivity|]. split; [intro w; rewrite has_nil_iff; tauto|]. split; [now constructor|reflexivity].
    + apply nib_tail in N as [Nx N]. assert (X0 : (0 <= x)%Z) by (unfold nibble in Nx; lia).
      destruct (kid_at cs ts (Z.to_nat x) Rc Cl (nib _ Nx)) as [[K1 K2]|(c & t & K1 & K2 & Rk)]; rewrite K1.
      * eexists _, _, _. split; [reflexivity|]. split; [|split; [now constructor|reflexivity]]. intro w. split; [discriminate|].
        rewrite has_cons_iff by lia. intros (c & X & _). congruence.
      * pose proof (nth_error_In _ _ K2) as Hin. cbn [length] in Hf.
        destruct (IH t Hin c r f (Cc _ Hin) (or_introl Rk) N ltac:(lia)) as (res & d & old & G & V & Q). rewrite G.
        assert (V' : forall w, old = Some w <-> has (NBranch ts bv) (x :: r) w).
        { intro w. rewrite V, has_cons_iff by lia. split; [eauto|]. intros (c' & X & A). congruence. }
        destruct d.
        { assert (Fin : forall o o', orep o o' -> (forall c', o' = Some c' -> fine c') ->
            (forall k w, (exists c', o' = Some c' /\ has c' k w) <-> k <> r /\ has t k w) ->
            exists n' t', branch_shrink db (set_nth cs (Z.to_nat x) o) bv old = (Some n', true, old, None) /\ rep n' t' /\ canon t' /\ del (NBranch ts bv) t' (x :: r)).
          { intros o o' Ro Fo Ho.
            destruct (shrink_ok (set_nth cs (Z.to_nat x) o) (set_nth ts (Z.to_nat x) o') bv old) as (n' & t' & G' & R' & C' & S1); auto.
            - apply forall2_set; auto.
            - now rewrite set_nth_len.
            - intros c' Hc. apply set_nth_in in Hc as [E|Hc]; auto.
            - pose proof (kids_set _ _ o' _ K2) as Q'. cbn [isc] in Q'. destruct o'; cbn [isc] in Q'; lia.
            - exists n', t'. split; auto. split; auto. split; auto. intros k' w. rewrite (S1 k' w). destruct k' as [|x' r'].
              + rewrite !has_nil_iff. split; [intro; split; [discriminate|auto]|tauto].
              + split.
                * intro A. pose proof (has_cons_nonneg _ _ _ _ _ A). rewrite has_cons_iff in * by lia. destruct A as (c' & X & A).
                  destruct (Z.eq_dec x x') as [<-|Ne].
                  { rewrite set_nth_same in X by (rewrite Cl; now apply nib). injection X as ->.
                    destruct (proj1 (Ho r' w) (ex_intro _ c' (conj eq_refl A))) as [Ne A']. split; [congruence|eauto]. }
                  { rewrite set_nth_other in X by lia. split; [congruence|eauto]. }
                * intros [Ne A]. pose proof (has_cons_nonneg _ _ _ _ _ A). rewrite has_cons_iff in * by lia. destruct A as (c' & X & A).
                  destruct (Z.eq_dec x x') as [<-|Nx'].
                  { assert (c' = t) by congruence. subst c'. destruct (proj2 (Ho r' w)) as (c2 & E2 & A2); [split; [congruence|auto]|].
                    exists c2. rewrite set_nth_same by (rewrite Cl; now apply nib). rewrite E2. auto. }
                  { exists c'. rewrite set_nth_other by lia. auto. } }
          assert (Done : forall n' o, branch_shrink db (set_nth cs (Z.to_nat x) o) bv old = (Some n', true, old, None) -> forall h, n' <> NHash h).
          { intros n' o G' h X. subst n'. unfold branch_shrink in G'. destruct (only_child _ 0) as [[i|]|]; destruct bv; try discriminate G'.
            destruct (nth i _ None); [|discriminate G']. destruct (realize db n0) as [[]|]; discriminate G'. }
          destruct res as [c'|].
          - destruct Q as (t' & R' & C' & D & _). destruct (Fin (Some c') (Some t')) as (n' & t2 & G' & R2 & C2' & D2).
            + now constructor.
            + intros c2 E. injection E as <-. split; auto. intros k w A. apply D in A as [_ A]. eapply (proj2 (Cc _ Hin)); eauto.
            + intros k w. rewrite <- (D k w). split; [intros (c2 & E & A); congruence|eauto].
            + rewrite G'. eexists _, _, _. split; [reflexivity|]. split; [exact V'|]. eauto 8.
          - destruct Q as (_ & All & _). destruct (Fin None None) as (n' & t2 & G' & R2 & C2' & D2).
            + constructor.
            + discriminate.
            + intros k w. split; [intros (c2 & E & A); discriminate|]. intros [Ne A]. apply All in A. congruence.
            + rewrite G'. eexists _, _, _. split; [reflexivity|]. split; [exact V'|]. eauto 8. }
        { destruct res as [c'|]; [|destruct Q; discriminate]. destruct Q as [R' ->].
          eexists _, _, _. split; [reflexivity|]. split; [exact V'|]. split; [|reflexivity].
          constructor. rewrite <- (set_nth_id ts _ _ K2). apply forall2_set; auto. now constructor. }
Qed.
End Ops.
