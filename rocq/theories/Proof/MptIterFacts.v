(** What an iterator visits. *)
From Coq Require Import Sorting.Sorted.
From Verif Require Import Model.Bytes Model.DbKey Model.Mpt Model.MptRun Model.MptIter Spec.TrieSpec Spec.IterSpec
  Proof.BytesFacts Proof.MptRlpFacts Proof.MptTree Proof.MptStore Proof.MptOps Proof.MptRunFacts.
Open Scope nat_scope.

(** *** The contents in order *)
Fixpoint items (k : list Z) (t : node) : list (list Z * bytes) :=
  match t with
  | NLeaf lk v => [(k ++ lk, v)]
  | NExt ek n => items (k ++ ek) n
  | NBranch cs v =>
      match v with Some x => [(k, x)] | None => [] end
      ++ (fix all (l : list (option node)) (i : Z) : list (list Z * bytes) :=
            match l with
            | [] => []
            | None :: r => all r (i + 1)%Z
            | Some c :: r => items (k ++ [i]) c ++ all r (i + 1)%Z
            end) cs 0%Z
  | NHash _ => []
  end.
Fixpoint kid_items (k : list Z) (l : list (option node)) (i : Z) : list (list Z * bytes) :=
  match l with
  | [] => []
  | o :: r => match o with Some c => items (k ++ [i]) c | None => [] end ++ kid_items k r (i + 1)%Z
  end.
Lemma items_branch k cs v : items k (NBranch cs v) = match v with Some x => [(k, x)] | None => [] end ++ kid_items k cs 0%Z.
Proof.
  cbn [items]. f_equal. generalize 0%Z. induction cs as [|[c|] r IH]; intro i; cbn [kid_items]; [reflexivity|rewrite IH; reflexivity|rewrite IH; reflexivity].
Qed.

Fixpoint size (t : node) : nat :=
  match t with
  | NExt _ n => S (size n)
  | NBranch cs _ =>
      S ((fix all (l : list (option node)) : nat := match l with [] => 0 | None :: r => all r | Some c :: r => size c + all r end) cs)
  | _ => 1
  end.
Fixpoint kid_size (l : list (option node)) : nat :=
  match l with [] => 0 | o :: r => match o with Some c => size c | None => 0 end + kid_size r end.
Lemma size_branch cs v : size (NBranch cs v) = S (kid_size cs).
Proof. cbn [size]. f_equal. induction cs as [|[c|] r IH]; cbn [kid_size]; [reflexivity|now rewrite IH|now rewrite IH]. Qed.
Lemma size_pos t : 1 <= size t.
Proof. destruct t; cbn; lia. Qed.

Lemma in_kid_items k l : forall i key v, In (key, v) (kid_items k l i) <->
  exists j c, nth_error l j = Some (Some c) /\ In (key, v) (items (k ++ [(i + Z.of_nat j)%Z]) c).
Proof.
  induction l as [|o r IH]; intros i key v; cbn [kid_items].
  - split; [intros []|intros (j & c & E & _); destruct j; discriminate E].
  - rewrite in_app_iff, IH. split.
    + intros [A|(j & c & E & A)].
      * destruct o as [c|]; [|destruct A]. exists 0, c. split; auto. cbn. now rewrite Z.add_0_r.
      * exists (S j), c. split; auto. replace (i + Z.of_nat (S j))%Z with (i + 1 + Z.of_nat j)%Z by lia. auto.
    + intros (j & c & E & A). destruct j as [|j].
      * cbn in E. injection E as ->. left. cbn in A. now rewrite Z.add_0_r in A.
      * right. exists j, c. split; auto. replace (i + 1 + Z.of_nat j)%Z with (i + Z.of_nat (S j))%Z by lia. auto.
Qed.

Lemma in_items t : forall k key v, In (key, v) (items k t) <-> exists r, key = k ++ r /\ has t r v.
Proof.
  induction t as [lk lv|ek n IH|h|cs bv IH] using node_ind'; intros k key v.
  - cbn. split.
    + intros [E|[]]. injection E as <- <-. exists lk. split; auto. constructor.
    + intros (r & -> & A). inversion A; subst. auto.
  - cbn [items]. rewrite IH. split.
    + intros (r & -> & A). exists (ek ++ r). split; [now rewrite app_assoc|now constructor].
    + intros (r & -> & A). inversion A; subst. eexists. split; [|eauto]. now rewrite app_assoc.
  - cbn. split; [intros []|]. intros (r & _ & A). inversion A.
  - rewrite items_branch, in_app_iff, in_kid_items. split.
    + intros [A|(j & c & E & A)].
      * destruct bv as [x|]; [|destruct A]. destruct A as [E|[]]. injection E as <- <-. exists []. split; [now rewrite app_nil_r|constructor].
      * apply (IH c (nth_error_In _ _ E)) in A as (r & -> & A). exists (Z.of_nat j :: r). split; [rewrite <- app_assoc; reflexivity|]. econstructor; eauto.
    + intros (r & -> & A). inversion A as [| |cs0 v0|cs0 bv0 i c r0 v0 En Ah]; subst.
      * left. rewrite app_nil_r. now left.
      * right. exists i, c. split; [exact En|]. apply (IH _ (nth_error_In _ _ En)). eexists. split; [|eauto]. rewrite <- app_assoc. reflexivity.
Qed.

(** *** Order *)
Lemma before_app k a b : before a b -> before (k ++ a) (k ++ b).
Proof. intro B. induction k; cbn; auto. Qed.
Definition lt_item (x y : list Z * bytes) : Prop := before (fst x) (fst y).
Lemma sorted_app {A} (R : A -> A -> Prop) l1 l2 : StronglySorted R l1 -> StronglySorted R l2 -> (forall x y, In x l1 -> In y l2 -> R x y) -> StronglySorted R (l1 ++ l2).
Proof.
  intros S1 S2 L. induction S1 as [|x l1 S1 IH F]; [exact S2|]. cbn. constructor.
  - apply IH. intros. apply L; auto. now right.
  - apply Forall_app. split; auto. apply Forall_forall. intros y Hy. apply L; auto. now left.
Qed.
Lemma kid_sorted k l : (forall c k, In (Some c) l -> StronglySorted lt_item (items k c)) -> forall i, StronglySorted lt_item (kid_items k l i).
Proof.
  induction l as [|o r IH]; intros C i; cbn [kid_items]; [constructor|]. apply sorted_app.
  - destruct o as [c|]; [apply C; now left|constructor].
  - apply IH. intros; apply C; now right.
  - intros [k1 v1] [k2 v2] H1 H2. destruct o as [c|]; [|destruct H1]. apply in_items in H1 as (r1 & -> & _).
    apply in_kid_items in H2 as (j & c2 & _ & H2). apply in_items in H2 as (r2 & -> & _). unfold lt_item. cbn [fst].
    rewrite <- !app_assoc. apply before_app. cbn. left. lia.
Qed.
Lemma items_sorted t : forall k, StronglySorted lt_item (items k t).
Proof.
  induction t as [lk lv|ek n IH|h|cs bv IH] using node_ind'; intro k.
  - cbn [items]. constructor; constructor.
  - cbn [items]. apply IH.
  - constructor.
  - rewrite items_branch. apply sorted_app.
    + destruct bv; repeat constructor.
    + apply kid_sorted. auto.
    + intros [k1 v1] [k2 v2] H1 H2. destruct bv as [x|]; [|destruct H1]. destruct H1 as [E|[]]. injection E as <- <-.
      apply in_kid_items in H2 as (j & c2 & _ & H2). apply in_items in H2 as (r2 & -> & _). unfold lt_item. cbn [fst].
      rewrite <- (app_nil_r k) at 1. rewrite <- app_assoc. apply before_app. cbn. auto.
Qed.

(** *** Prefixes *)
Lemma hasPrefix_iff p : forall s, hasPrefix s p = true <-> starts_with p s.
Proof.
  induction p as [|x p IH]; intro s; cbn.
  - split; auto. intros _. now exists s.
  - destruct s as [|y s]; [split; [discriminate|intros [r E]; discriminate E]|]. rewrite andb_true_iff, IH, Z.eqb_eq. split.
    + intros [-> [r ->]]. now exists r.
    + intros [r E]. injection E as -> ->. split; auto. now exists r.
Qed.
Definition wanted (p : list Z) (x : list Z * bytes) : bool := hasPrefix (fst x) p.

Lemma starts_cases p k r : starts_with p (k ++ r) -> starts_with p k \/ (length k < length p /\ starts_with k p).
Proof.
  intros [q E]. destruct (app_cases _ _ _ _ E) as [(s & -> & _)|(s & -> & _)].
  - left. now exists s.
  - destruct s as [|x s]; [left; exists []; now rewrite !app_nil_r|]. right. split; [rewrite app_length; cbn; lia|now exists (x :: s)].
Qed.
Lemma check_short p k : checkPrefix p k true = false -> forall r, hasPrefix (k ++ r) p = false.
Proof.
  unfold checkPrefix. cbn [andb]. intros C r. destruct (hasPrefix (k ++ r) p) eqn:E; auto. apply hasPrefix_iff in E.
  apply starts_cases in E as [E|[L E]].
  - pose proof E as [q ->]. apply hasPrefix_iff in E. destruct (Nat.ltb_spec (length (p ++ q)) (length p)) as [X|X]; [rewrite app_length in X; lia|congruence].
  - destruct (Nat.ltb_spec (length k) (length p)); [|lia]. apply hasPrefix_iff in E. congruence.
Qed.
Lemma check_long p k : checkPrefix p k false = hasPrefix k p.
Proof. reflexivity. Qed.
Lemma starts_app p k r : hasPrefix k p = true -> hasPrefix (k ++ r) p = true.
Proof. rewrite !hasPrefix_iff. intros [q ->]. exists (q ++ r). now rewrite app_assoc. Qed.

Lemma filter_none p k t : (forall r, hasPrefix (k ++ r) p = false) -> filter (wanted p) (items k t) = [].
Proof.
  intro N. assert (A : forall x, In x (items k t) -> wanted p x = false).
  { intros [key v] Hin. apply in_items in Hin as (r & -> & _). apply N. }
  induction (items k t) as [|x l IH]; auto. cbn. rewrite (A x (or_introl eq_refl)). apply IH. intros; apply A; now right.
Qed.

(** *** The stack *)
Section Walk.
Context (H : bytes -> bytes) (HH : digest32 H) (db : database).
Definition frep (x : MptIter.item) (y : list Z * node) : Prop := fst x = fst y /\ rep H db (snd x) (snd y) /\ fine (snd y).
Definition left_over (p : list Z) (ys : list (list Z * node)) : list (list Z * bytes) :=
  flat_map (fun y => filter (wanted p) (items (fst y) (snd y))) ys.
Fixpoint weight (ys : list (list Z * node)) : nat := match ys with [] => 0 | y :: r => size (snd y) + weight r end.

(** What a scheduler does to a stack. *)
Definition schedules (p : list Z) (v : scheduler) (base : list Z) : Prop :=
  forall s n t st ys, rep H db n t -> fine t -> Forall2 frep st ys ->
    exists st' ys', v (base ++ s) n st = Some st' /\ Forall2 frep st' ys'
      /\ left_over p ys' = filter (wanted p) (items (base ++ s) t) ++ left_over p ys /\ weight ys' <= size t + weight ys.
Lemma append_schedules p base : schedules p (appendItem db) base.
Proof.
  intros s n t st ys R F Fs. unfold appendItem. destruct (realize_root H HH db n t F (or_introl R)) as (n1 & -> & R1 & _).
  eexists _, ((base ++ s, t) :: ys). split; [reflexivity|]. split; [constructor; auto; repeat split; auto; apply F|]. split; [reflexivity|]. cbn. lia.
Qed.
Lemma filter_schedules p base : schedules p (filterItem db p) base.
Proof.
  intros s n t st ys R F Fs. unfold filterItem. destruct (checkPrefix p (base ++ s) true) eqn:C; [apply append_schedules; auto|].
  exists st, ys. split; auto. split; auto. split; [|lia]. rewrite filter_none; auto. now apply check_short.
Qed.

Lemma push_ok p v k : schedules p v k -> forall cs ts i st ys, Forall2 (orep H db) cs ts -> (forall c, In (Some c) ts -> fine c) -> Forall2 frep st ys ->
  exists st' ys', push_children v k cs i st = Some st' /\ Forall2 frep st' ys'
    /\ left_over p ys' = filter (wanted p) (kid_items k ts i) ++ left_over p ys /\ weight ys' <= kid_size ts + weight ys.
Proof.
  intros V cs ts i st ys R. revert i st ys. induction R as [|o o' cs ts Ro R IH]; intros i st ys F Fs; cbn [push_children kid_items kid_size].
  - exists st, ys. auto.
  - destruct (IH (i + 1)%Z st ys) as (st1 & ys1 & -> & Fs1 & E1 & W1); [intros; apply F; now right|auto|].
    destruct Ro as [|n t Rn].
    + exists st1, ys1. auto.
    + destruct (V [i] n t st1 ys1 Rn (F _ (or_introl eq_refl)) Fs1) as (st2 & ys2 & -> & Fs2 & E2 & W2).
      exists st2, ys2. split; auto. split; auto. split; [rewrite filter_app, <- app_assoc, <- E1; exact E2|lia].
Qed.

(** One round: the value shown (if any) comes first of what is left over. *)
Definition shown (p : list Z) (key : list Z) (value : option bytes) : list (list Z * bytes) :=
  match value with Some v => filter (wanted p) [(key, v)] | None => [] end.
Lemma node_ok p v k n t st ys : schedules p v k -> fine t -> rrep H db n t -> Forall2 frep st ys ->
  exists st' ys' key value, traverse_node db v st k n = Some (st', key, value) /\ Forall2 frep st' ys'
    /\ shown p key value ++ left_over p ys' = filter (wanted p) (items k t) ++ left_over p ys /\ weight ys' + 1 <= size t + weight ys
    /\ (forall x, value = Some x -> exists r, key = k ++ r) /\ (value = None -> key = []).
Proof.
  intros V F R Fs. destruct (realize_root H HH db n t F R) as (n1 & E1 & R1 & NH). clear R. unfold traverse_node. rewrite E1. clear E1 n.
  destruct t as [lk lv|ek t|cs bv|h]; fine_inv F; rep_inv R1; try (exfalso; eapply NH; reflexivity).
  - exists st, ys, (k ++ lk), (Some lv). split; [reflexivity|]. split; auto. split; [reflexivity|]. split; [cbn; lia|]. split; [eauto|discriminate].
  - destruct (V ek m _ st ys Rn Cn Fs) as (st' & ys' & -> & Fs' & E & W). exists st', ys', [], None. split; [reflexivity|].
    split; auto. split; [exact E|]. split; [cbn [size] in *; lia|]. split; [discriminate|auto].
  - destruct (push_ok p v k V _ _ 0%Z st ys Rc Cc Fs) as (st' & ys' & -> & Fs' & E & W).
    exists st', ys', (match bv with Some _ => k | None => [] end), bv.
    split; [destruct bv; reflexivity|]. split; auto. split; [|split; [rewrite size_branch; lia|]].
    + rewrite items_branch, filter_app, <- app_assoc. unfold shown. destruct bv; cbn [app filter]; rewrite E; reflexivity.
    + split; [|destruct bv; [discriminate|auto]]. intros x ->. exists []. now rewrite app_nil_r.
Qed.

Lemma round_ok p k n t st ys : fine t -> rrep H db n t -> Forall2 frep st ys ->
  exists st' ys' key value, traverse db p st k n = Some (st', key, value) /\ Forall2 frep st' ys'
    /\ match value with Some v => [(key, v)] | None => [] end ++ left_over p ys' = filter (wanted p) (items k t) ++ left_over p ys
    /\ weight ys' + 1 <= size t + weight ys.
Proof.
  intros F R Fs. unfold traverse.
  assert (A : hasPrefix k p = true -> exists st' ys' key value, traverse_node db (appendItem db) st k n = Some (st', key, value) /\ Forall2 frep st' ys'
    /\ match value with Some v => [(key, v)] | None => [] end ++ left_over p ys' = filter (wanted p) (items k t) ++ left_over p ys
    /\ weight ys' + 1 <= size t + weight ys).
  { intro P. destruct (node_ok p _ k n t st ys (append_schedules p k) F R Fs) as (st' & ys' & key & value & E & Fs' & L & W & K & _).
    exists st', ys', key, value. split; auto. split; auto. split; auto. rewrite <- L. f_equal. destruct value as [x|]; auto.
    cbn. destruct (K x eq_refl) as [r ->]. unfold wanted. cbn [fst]. now rewrite starts_app. }
  destruct (Nat.ltb_spec 0 (length p)) as [Lp|Lp].
  - rewrite check_long. destruct (hasPrefix k p) eqn:P; [apply A; auto|]. clear A.
    destruct (node_ok p _ k n t st ys (filter_schedules p k) F R Fs) as (st' & ys' & key & value & -> & Fs' & L & W & _ & K).
    rewrite check_long. destruct (hasPrefix key p) eqn:P2.
    + exists st', ys', key, value. split; auto. split; auto. split; auto. rewrite <- L. f_equal. destruct value as [x|]; auto.
      cbn. unfold wanted. cbn [fst]. now rewrite P2.
    + exists st', ys', [], None. split; auto. split; auto. split; auto. rewrite <- L. destruct value as [x|]; auto.
      cbn. unfold wanted. cbn [fst]. now rewrite P2.
  - apply A. destruct p; [reflexivity|cbn in Lp; lia].
Qed.

(** [Next]. *)
Definition settled (p : list Z) (i : iter) (l : list (list Z * bytes)) (w : nat) : Prop :=
  i_prefix i = p /\ i_error i = None /\
  match l with
  | [] => i_value i = None
  | (key, v) :: l' => i_value i = Some v /\ i_key i = keysToBytes key
      /\ exists ys, Forall2 frep (i_stack i) ys /\ left_over p ys = l' /\ weight ys < w
  end.
Lemma loop_ok p : forall fuel st ys, Forall2 frep st ys -> weight ys < fuel ->
  exists i, next_loop db fuel p st = Some i /\ settled p i (left_over p ys) (weight ys).
Proof.
  induction fuel as [|f IH]; intros st ys Fs W; [lia|]. cbn [next_loop]. destruct Fs as [|[k n] [k' t] st ys (E1 & R & F) Fs].
  - eexists. split; [reflexivity|]. repeat split.
  - cbn [fst snd] in *. subst k'. destruct (round_ok p k n t st ys F (or_introl R) Fs) as (st' & ys' & key & value & -> & Fs' & L & W').
    change (left_over p ((k, t) :: ys)) with (filter (wanted p) (items k t) ++ left_over p ys). rewrite <- L.
    change (weight ((k, t) :: ys)) with (size t + weight ys) in *. destruct value as [v|].
    + eexists. split; [reflexivity|]. split; [reflexivity|]. split; [reflexivity|]. cbn. split; auto. split; auto. exists ys'. split; auto. split; auto. lia.
    + destruct (IH st' ys' Fs' ltac:(lia)) as (i & E & Se). exists i. split; auto. cbn [app].
      destruct Se as (S1 & S2 & S3). split; auto. split; auto. destruct (left_over p ys') as [|[key' v'] l']; auto.
      destruct S3 as (S3 & S4 & zs & Z1 & Z2 & Z3). split; auto. split; auto. exists zs. split; auto. split; auto. lia.
Qed.

Definition as_bytes (x : list Z * bytes) : bytes * bytes := (keysToBytes (fst x), snd x).
Lemma drain_ok p : forall l i w fuel, settled p i l w -> w < fuel -> length l < fuel ->
  drain db fuel i = Some (map as_bytes l, None).
Proof.
  induction l as [|[key v] l IH]; intros i w fuel (S1 & S2 & S3) W L; (destruct fuel as [|f]; [lia|]); cbn [drain]; unfold iter_has, iter_get.
  - rewrite S3, S2. reflexivity.
  - destruct S3 as (S3 & S4 & ys & Fs & E & Wy). rewrite S3, S2, S4. unfold iter_next. rewrite S2, S3.
    destruct (loop_ok p (S f) (i_stack i) ys Fs ltac:(lia)) as (i' & E' & Se). rewrite S1, E'. rewrite E in Se.
    cbn [length] in L. rewrite (IH i' (weight ys) f Se); [reflexivity|lia|lia].
Qed.
End Walk.

(** *** Keys as byte strings *)
Lemma nib_parts x : wf_byte x -> (Z.shiftr x 4 * 16 + Z.land x 15 = x /\ 0 <= Z.land x 15 < 16)%Z.
Proof.
  intro W. rewrite Z.shiftr_div_pow2 by lia. change (2 ^ 4)%Z with 16%Z. change 15%Z with (Z.ones 4). rewrite Z.land_ones by lia. change (2 ^ 4)%Z with 16%Z.
  pose proof (Z.div_mod x 16 ltac:(lia)). pose proof (Z.mod_pos_bound x 16 ltac:(lia)). lia.
Qed.
Lemma pack_unpack b : wf_bytes b -> pack (unpack b) = b.
Proof.
  induction 1 as [|x b Hx Hb IH]; cbn [unpack pack]; auto. rewrite IH. f_equal. rewrite (proj1 (nib_parts x Hx)). unfold wf_byte in Hx. apply Z.mod_small. lia.
Qed.
Lemma before_unpack a : wf_bytes a -> forall b, wf_bytes b -> before (unpack a) (unpack b) -> before a b.
Proof.
  induction 1 as [|x a Hx Ha IH]; intros b Wb B; destruct Wb as [|y b Hy Hb]; cbn [unpack before] in *; auto.
  pose proof (nib_parts x Hx). pose proof (nib_parts y Hy). destruct B as [B|[B1 [B|[B2 B]]]]; [left; lia|left; lia|]. right. split; [lia|auto].
Qed.
Lemma starts_unpack p : wf_bytes p -> forall b, wf_bytes b -> (starts_with (unpack p) (unpack b) <-> starts_with p b).
Proof.
  induction 1 as [|x p Hx Hp IH]; intros b Wb.
  - split; intros _; [now exists b|now exists (unpack b)].
  - destruct Wb as [|y b Hy Hb]; [split; intros [r E]; discriminate E|]. specialize (IH b Hb). cbn [unpack].
    pose proof (nib_parts x Hx). pose proof (nib_parts y Hy). split.
    + intros [r E]. injection E as E1 E2 E3. assert (x = y) by lia. subst y. destruct (proj1 IH) as [q ->]; [now exists r|]. now exists q.
    + intros [r E]. injection E as -> E3. destruct (proj2 IH) as [q Eq]; [now exists r|]. exists q. cbn. now rewrite Eq.
Qed.

Lemma filter_sorted {A} (R : A -> A -> Prop) f l : StronglySorted R l -> StronglySorted R (filter f l).
Proof.
  induction 1 as [|x l S1 IH F]; cbn; [constructor|]. destruct (f x); auto. constructor; auto. apply Forall_forall. intros y Hy. apply filter_In in Hy as [Hy _].
  rewrite Forall_forall in F. auto.
Qed.
Lemma map_sorted {A B} (R : A -> A -> Prop) (R' : B -> B -> Prop) (f : A -> B) l : (forall x y, In x l -> In y l -> R x y -> R' (f x) (f y)) ->
  StronglySorted R l -> StronglySorted R' (map f l).
Proof.
  intros M S1. induction S1 as [|x l S1 IH F]; cbn; [constructor|]. constructor.
  - apply IH. intros; apply M; auto; now right.
  - apply Forall_map, Forall_forall. intros y Hy. rewrite Forall_forall in F. apply M; auto; [now left|now right].
Qed.

Theorem listing_ok H (HH : digest32 H) db r c p : tinv H db r c -> wf_bytes p ->
  exists l bound, (forall fuel, bound <= fuel -> listing fuel (mk_mpt db r) p = Some (l, None))
    /\ StronglySorted (fun x y => before (fst x) (fst y)) l
    /\ forall k v, In (k, v) l <-> wf_bytes k /\ starts_with p k /\ c k = Some v.
Proof.
  intros T Wp. destruct r as [n|].
  - destruct T as (t & F & Ky & R & Sh). set (its := filter (wanted (unpack p)) (items [] t)).
    destruct (realize_root H HH db n t F R) as (n1 & E1 & R1 & _).
    assert (Fs : Forall2 (frep H db) [([], n1)] [([], t)]) by (constructor; [split; [reflexivity|split; auto]|constructor]).
    exists (map as_bytes its), (S (size t) + S (length its)). split.
    + intros fuel L. unfold listing, mpt_filter, bytesToNibs. cbn [m_root m_db]. rewrite E1. unfold iter_next. cbn [i_error i_value i_stack i_prefix].
      destruct (loop_ok H HH db (unpack p) fuel _ _ Fs) as (i & Ei & Se); [cbn; lia|]. unfold MptIter.item in *. rewrite Ei. clear Ei.
      assert (El : left_over (unpack p) [([], t)] = its) by (cbn; apply app_nil_r). rewrite El in Se.
      eapply (drain_ok H HH db); [exact Se|cbn; lia|lia].
    + assert (In_its : forall key v, In (key, v) its <-> exists k, wf_bytes k /\ key = unpack k /\ starts_with p k /\ c k = Some v).
      { intros key v. unfold its. rewrite filter_In, in_items. unfold wanted. cbn [fst]. rewrite hasPrefix_iff. split.
        - intros [(q & -> & A) P]. cbn [app] in *. destruct (Ky _ _ A) as (k & W & ->). exists k. split; auto. split; auto.
          split; [apply starts_unpack; auto|]. apply Sh; auto.
        - intros (k & W & -> & P & E). split; [|apply starts_unpack; auto]. exists (unpack k). split; auto. apply Sh; auto. }
      split.
      * eapply map_sorted; [|apply filter_sorted, items_sorted]. intros [k1 v1] [k2 v2] I1 I2 B. apply In_its in I1 as (b1 & W1 & -> & _). apply In_its in I2 as (b2 & W2 & -> & _).
        unfold lt_item, as_bytes, keysToBytes in *. cbn [fst] in *. rewrite !pack_unpack by auto. now apply before_unpack.
      * intros k v. rewrite in_map_iff. split.
        -- intros ([key w] & E & I1). apply In_its in I1 as (b & W & -> & P & Ec). unfold as_bytes, keysToBytes in E. cbn [fst snd] in E.
           rewrite pack_unpack in E by auto. injection E as <- <-. auto.
        -- intros (W & P & E). exists (unpack k, v). split; [unfold as_bytes, keysToBytes; cbn [fst snd]; now rewrite pack_unpack|]. apply In_its. eauto.
  - exists [], 1. split; [|split; [constructor|]].
    + intros fuel L. destruct fuel; [lia|]. reflexivity.
    + intros k v. split; [intros []|]. intros (W & _ & E). rewrite (T k W) in E. discriminate E.
Qed.
