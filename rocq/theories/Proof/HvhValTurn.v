(** Choosing the next active validators. *)
From Verif Require Import Model.HvhState Model.HvhValidator Spec.HvhValSpec Proof.HvhValFacts.
From Coq Require Import ZArith List Bool Arith Lia Permutation.
Import ListNotations.
Open Scope nat_scope.

Lemma nodes_app w a b : nodes w (a ++ b) = nodes w a ++ nodes w b.
Proof. unfold nodes. apply flat_map_app. Qed.
Definition act_list (act : option (list addr)) : list addr := match act with Some l => l | None => [] end.
Definition known (w : vworld) (o : addr) : Prop := v_info w o <> None /\ v_stat w o <> None.

(** The failure left over by the last visited candidate. *)
Definition keyless (w : vworld) (seated : list addr) (o : addr) : bool :=
  match v_info w o, v_stat w o with
  | Some i, Some s => negb (has (vi_node i) seated) && enabled s && negb (v_keyed w (vi_node i))
  | _, _ => false
  end.

Lemma next_loop_spec w act size : size = length (v_sub w) ->
  forall todo idx count err,
  (forall k, k < length todo -> nth_error todo k = nth_error (v_sub w) ((idx + k) mod size)) ->
  idx < size -> (forall o, In o todo -> known w o) ->
  exists v rest l e, next_loop w act (length todo) size idx count err = Some (l, (idx + length v) mod size, e) /\
    todo = v ++ rest /\ l = nodes w (filter (ready w (act_list act)) v) /\
    length l <= count /\ (rest <> [] -> length l = count) /\
    (length l = count -> v = [] \/ exists v' o, v = v' ++ [o] /\ ready w (act_list act) o = true) /\
    e = match rev v with [] => err | o :: _ => keyless w (act_list act) o end.
Proof.
  intros SZ. induction todo as [|o r IH]; intros idx count err N lt kn.
  - exists [], [], [], err. cbn. rewrite Nat.add_0_r, Nat.mod_small by auto.
    split; [destruct count; reflexivity|]. repeat split; auto; try lia; tauto.
  - destruct count as [|c].
    { exists [], (o :: r), [], err. cbn. rewrite Nat.add_0_r, Nat.mod_small by auto. repeat split; auto. }
    pose proof (N 0 ltac:(cbn; lia)) as N0. rewrite Nat.add_0_r, Nat.mod_small in N0 by auto. cbn in N0.
    destruct (kn o (or_introl eq_refl)) as [K1 K2].
    set (idx' := (idx + 1) mod size).
    assert (lt' : idx' < size) by (apply Nat.mod_upper_bound; lia).
    assert (N' : forall k, k < length r -> nth_error r k = nth_error (v_sub w) ((idx' + k) mod size)).
    { intros k Hk. specialize (N (S k) ltac:(cbn; lia)). cbn [nth_error] in N. rewrite N. f_equal. unfold idx'.
      rewrite Nat.add_mod_idemp_l by lia. f_equal. lia. }
    assert (J : forall n, (idx' + n) mod size = (idx + S n) mod size).
    { intros n. unfold idx'. rewrite Nat.add_mod_idemp_l by lia. f_equal. lia. }
    cbn [length next_loop]. rewrite <- N0. destruct (v_info w o) as [i|] eqn:Ei; [|contradiction].
    destruct (v_stat w o) as [s|] eqn:Es; [|contradiction].
    set (free := match act with None => true | Some l => negb (has (vi_node i) l) end).
    assert (FR : free = negb (has (vi_node i) (act_list act))) by (unfold free; destruct act; reflexivity).
    assert (RD : ready w (act_list act) o = free && enabled s && v_keyed w (vi_node i)).
    { unfold ready. rewrite Ei, Es, FR. unfold enabled. rewrite !andb_assoc. auto. }
    assert (KL : keyless w (act_list act) o = free && enabled s && negb (v_keyed w (vi_node i))).
    { unfold keyless. rewrite Ei, Es, FR. auto. }
    assert (skip : forall e0, ready w (act_list act) o = false -> e0 = keyless w (act_list act) o ->
      exists v rest l e, next_loop w act (length r) size idx' (S c) e0 = Some (l, (idx + length v) mod size, e) /\
        o :: r = v ++ rest /\ l = nodes w (filter (ready w (act_list act)) v) /\
        length l <= S c /\ (rest <> [] -> length l = S c) /\
        (length l = S c -> v = [] \/ exists v' o, v = v' ++ [o] /\ ready w (act_list act) o = true) /\
        e = match rev v with [] => err | o :: _ => keyless w (act_list act) o end).
    { intros e0 R0 E0. destruct (IH idx' (S c) e0 N' lt' ltac:(intros; apply kn; right; auto)) as (v & rest & l & e & A & B & C & D & E & F & G).
      exists (o :: v), rest, l, e. rewrite A. cbn [length]. rewrite J. split; [auto|]. split; [cbn; congruence|].
      split; [cbn [filter]; rewrite R0; auto|]. split; [auto|]. split; [auto|]. split.
      - intros L. right. destruct (F L) as [-> | (v' & x & H1 & H2)]; [|exists (o :: v'), x; rewrite H1; auto]. cbn in C. subst l. discriminate L.
      - rewrite G. cbn [rev]. destruct (rev v) as [|x q]; [cbn; auto | reflexivity]. }
    change (match act with None => true | Some l => negb (has (vi_node i) l) end) with free.
    destruct free eqn:Fr; cbn [andb] in RD, KL; [|apply skip; auto].
    destruct (enabled s) eqn:En; cbn [andb] in RD, KL; [|apply skip; auto].
    destruct (v_keyed w (vi_node i)) eqn:Ke; [|apply skip; auto].
    fold idx'. destruct (IH idx' c false N' lt' ltac:(intros; apply kn; right; auto)) as (v & rest & l & e & A & B & C & D & E & F & G).
    exists (o :: v), rest, (vi_node i :: l), e. rewrite A. cbn [length]. rewrite J. split; [auto|]. split; [cbn; congruence|].
    split; [cbn [filter]; rewrite RD; unfold nodes; cbn [flat_map]; rewrite Ei; cbn; f_equal; exact C|].
    split; [lia|]. split; [intros H; f_equal; auto|]. split.
    + intros L. injection L as L. right. destruct (F L) as [-> | (v' & x & H1 & H2)]; [exists [], o; auto|].
      exists (o :: v'), x. rewrite H1. auto.
    + rewrite G. cbn [rev]. destruct (rev v) as [|x q]; [cbn|reflexivity]. rewrite KL. reflexivity.
Qed.

Lemma rotation_nth l i : i < length l -> forall k, k < length l -> nth_error (rotation l i) k = nth_error l ((i + k) mod length l).
Proof.
  intros li k lk. unfold rotation. pose proof (skipn_length i l). destruct (Nat.lt_ge_cases k (length l - i)).
  - rewrite nth_error_app1 by lia. rewrite Nat.mod_small by lia.
    transitivity (nth_error (firstn i l ++ skipn i l) (i + k)); [|rewrite firstn_skipn; auto].
    pose proof (firstn_le_length i l). assert (length (firstn i l) = i) by (rewrite firstn_length; lia).
    rewrite nth_error_app2 by lia. f_equal. lia.
  - rewrite nth_error_app2 by lia. rewrite H.
    replace ((i + k) mod length l) with (k - (length l - i)).
    + assert (L : length (firstn i l) = i) by (rewrite firstn_length; lia).
      transitivity (nth_error (firstn i l ++ skipn i l) (k - (length l - i))); [|rewrite firstn_skipn; auto].
      rewrite nth_error_app1 by lia. auto.
    + apply (Nat.mod_unique _ _ 1); lia.
Qed.
Lemma rotation_length l i : length (rotation l i) = length l.
Proof.
  unfold rotation. rewrite app_length, skipn_length, firstn_length. destruct (Nat.le_ge_cases i (length l)); lia.
Qed.
Lemma rotation_perm l i : Permutation (rotation l i) l.
Proof. unfold rotation. rewrite Permutation_app_comm, firstn_skipn. auto. Qed.
Lemma filter_perm (f : addr -> bool) l k : Permutation l k -> Permutation (filter f l) (filter f k).
Proof.
  induction 1 as [|x l k P IH|x y l|l k m P1 IH1 P2 IH2]; cbn; auto.
  - destruct (f x); auto.
  - destruct (f x), (f y); auto. apply perm_swap.
  - etransitivity; eauto.
Qed.
Lemma ready_keyless w a o : ready w a o = true -> keyless w a o = false.
Proof.
  unfold ready, keyless. destruct (v_info w o), (v_stat w o); try discriminate. intros H.
  apply andb_true_iff in H as [_ H]. rewrite H, andb_false_r. auto.
Qed.

Definition all_known (w : vworld) : Prop := forall o, In o (v_main w) \/ In o (v_sub w) -> known w o.

(** What [next_active] returns, and when it fails. *)
Lemma next_active_run w act count : all_known w -> 1 <= count ->
  (exists l j, next_active act count w = inr (l, w_index j w) /\ turn w (act_list act) count l j) \/
  (next_active act count w = inl ENotFound /\ v_index w < length (v_sub w) /\
   length (filter (ready w (act_list act)) (v_sub w)) < count /\
   exists o, nth_error (v_sub w) ((v_index w + (length (v_sub w) - 1)) mod length (v_sub w)) = Some o /\ keyless w (act_list act) o = true).
Proof.
  intros kn c1. assert (IX : forall x : vworld, w_index (v_index x) x = x) by (intros []; reflexivity).
  unfold next_active, vbind, vget. destruct count as [|c]; [lia|]. cbn [Nat.eqb].
  destruct (Nat.eqb_spec (length (v_sub w)) 0) as [Z0 | nz].
  { destruct (v_sub w) as [|? ?] eqn:V; [|discriminate]. left. exists [], (v_index w). split; [rewrite IX; reflexivity|].
    exists [], [], (if Nat.leb (length (v_sub w)) (v_index w) then 0 else v_index w). rewrite V.
    repeat split; auto; try (cbn; lia); try tauto; try congruence. }
  set (size := length (v_sub w)) in *. set (st := if Nat.leb size (v_index w) then 0 else v_index w).
  assert (SL : st < size) by (unfold st; destruct (Nat.leb_spec size (v_index w)); lia).
  destruct (next_loop_spec w act size eq_refl (rotation (v_sub w) st) st (Nat.min (S c) size) false)
    as (v & rest & l & e & A & B & C & D & E & F & G); auto.
  { intros k Hk. rewrite rotation_length in Hk. apply rotation_nth; auto. }
  { intros o Ho. apply kn. right. eapply Permutation_in; [apply rotation_perm|eauto]. }
  rewrite rotation_length in A. fold size in A. rewrite A.
  assert (LV : length v + length rest = size) by (rewrite <- app_length, <- B; apply rotation_length).
  assert (LL : length l <= length v).
  { rewrite C. transitivity (length (filter (ready w (act_list act)) v)).
    - clear. induction v as [|o v IH]; [auto|]. cbn [filter]. destruct (ready w (act_list act) o); [|auto]. unfold nodes in *. cbn [flat_map].
      destruct (v_info w o); cbn; lia.
    - clear. induction v as [|o v IH]; [auto|]. cbn. destruct (ready w (act_list act) o); cbn; lia. }
  assert (T : turn w (act_list act) (S c) l ((st + length v) mod size)).
  { exists v, rest, st. repeat split; auto; try lia.
    - intros NR. specialize (E NR). assert (length rest <> 0) by (destruct rest; [congruence | discriminate]). lia.
    - intros L. apply F. lia.
    - intros V. unfold size in nz. rewrite V in nz. contradiction. }
  destruct (Nat.eqb_spec (v_index w) ((st + length v) mod size)) as [Q | Q].
  2:{ left. exists l, ((st + length v) mod size). split; [reflexivity | auto]. }
  destruct e.
  2:{ left. exists l, ((st + length v) mod size). rewrite <- Q, IX. split; [reflexivity|]. rewrite Q. auto. }
  right. split; [reflexivity|].
  assert (VI : v_index w < size) by (rewrite Q; apply Nat.mod_upper_bound; auto).
  assert (st = v_index w) by (unfold st; destruct (Nat.leb_spec size (v_index w)); lia).
  destruct (rev v) as [|o q] eqn:R; [discriminate|].
  assert (V : v = rev q ++ [o]) by (rewrite <- (rev_involutive v), R; reflexivity).
  assert (LV2 : length v = size).
  { assert (1 <= length v) by (rewrite V, app_length; cbn; lia).
    destruct (Nat.eq_dec (length v) size) as [|ne]; [auto|]. exfalso.
    destruct (Nat.lt_ge_cases (st + length v) size); [rewrite Nat.mod_small in Q by auto; lia|].
    replace ((st + length v) mod size) with (st + length v - size) in Q by (apply (Nat.mod_unique _ _ 1); lia). lia. }
  assert (rest = []) by (destruct rest; [auto | cbn in LV; lia]). subst rest. rewrite app_nil_r in B.
  split; [auto|]. split.
  - assert (PF : Permutation (filter (ready w (act_list act)) (v_sub w)) (filter (ready w (act_list act)) v)).
    { rewrite <- B. apply filter_perm. symmetry. apply rotation_perm. }
    rewrite (Permutation_length PF).
    assert (length l = length (filter (ready w (act_list act)) v)).
    { rewrite C. clear. induction v as [|x v IH]; [auto|]. cbn [filter]. destruct (ready w (act_list act) x) eqn:X; [|auto].
      unfold nodes. cbn [flat_map]. unfold ready in X. destruct (v_info w x); [|discriminate]. cbn. f_equal. exact IH. }
    rewrite <- H0. destruct (Nat.eq_dec (length l) (S c)) as [L|L].
    + exfalso. destruct F as [F | (v' & x & F1 & F2)]; [lia | rewrite F in V; destruct (rev q); discriminate|].
      rewrite V in F1. apply app_inj_tail in F1 as [_ ->]. apply ready_keyless in F2. congruence.
    + lia.
  - exists o. split; [|auto]. rewrite <- H. rewrite <- rotation_nth by lia. rewrite B, V.
    rewrite nth_error_app2; rewrite V, app_length in LV2; cbn in LV2; [|lia].
    replace (size - 1 - length (rev q)) with 0 by lia. reflexivity.
Qed.

(** Consequences: what is chosen *)
Lemma nodes_in w l n : In n (nodes w l) <-> exists o, In o l /\ node w o = Some n.
Proof.
  unfold nodes, node. rewrite in_flat_map. split; intros (o & H & E); exists o; (split; [auto|]); destruct (v_info w o); cbn in *.
  - destruct E as [-> | []]. auto.
  - contradiction.
  - injection E as ->. auto.
  - discriminate.
Qed.
Lemma nodes_nodup w l : NoDup l -> (forall o p n, In o l -> In p l -> node w o = Some n -> node w p = Some n -> o = p) -> NoDup (nodes w l).
Proof.
  intros nd inj. induction l as [|o r IH]; [constructor|]. inversion nd as [|x y no nr]. subst.
  assert (IHr : NoDup (nodes w r)) by (apply IH; [auto | intros; eapply inj; eauto; right; auto]).
  unfold nodes. cbn [flat_map]. fold (nodes w r). destruct (v_info w o) as [i|] eqn:E; [|auto]. cbn. constructor; [|auto].
  rewrite nodes_in. intros (p & Hp & En). apply no. assert (o = p); [|congruence].
  eapply inj; [left; reflexivity | right; eauto | unfold node; rewrite E; reflexivity | auto].
Qed.
