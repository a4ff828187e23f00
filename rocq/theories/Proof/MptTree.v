(** Canonical tries: what they contain, and that the contents determine the trie. *)
From Verif Require Import Model.Bytes Model.DbKey Model.Mpt Proof.BytesFacts Proof.MptRlpFacts.
Open Scope nat_scope.

Section NodeInd.
  Context (P : node -> Prop).
  Context (HL : forall k v, P (NLeaf k v)) (HE : forall k n, P n -> P (NExt k n)) (HH : forall h, P (NHash h)).
  Context (HB : forall cs v, (forall c, In (Some c) cs -> P c) -> P (NBranch cs v)).
  Fixpoint node_ind' (n : node) : P n :=
    match n with
    | NLeaf k v => HL k v
    | NExt k n => HE k n (node_ind' n)
    | NHash h => HH h
    | NBranch cs v =>
        HB cs v
          ((fix all (l : list (option node)) : forall c, In (Some c) l -> P c :=
              match l with
              | [] => fun c H => match H with end
              | o :: r => fun c H =>
                  match H with
                  | or_introl E =>
                      match o as o' return o' = Some c -> P c with
                      | Some x => fun E' => match E' in _ = y return match y with Some z => P z | None => True end with eq_refl => node_ind' x end
                      | None => fun E' => match E' in _ = y return match y with Some z => P z | None => True end with eq_refl => Logic.I end
                      end E
                  | or_intror H' => all r c H'
                  end
              end) cs)
    end.
End NodeInd.

(** [has t k v]: the trie maps the nibbles [k] to [v]. *)
Inductive has : node -> list Z -> bytes -> Prop :=
| has_leaf k v : has (NLeaf k v) k v
| has_ext k n r v : has n r v -> has (NExt k n) (k ++ r) v
| has_value cs v : has (NBranch cs (Some v)) [] v
| has_child cs bv i c r v : nth_error cs i = Some (Some c) -> has c r v -> has (NBranch cs bv) (Z.of_nat i :: r) v.

Definition kids (cs : list (option node)) : nat := length (filter (fun o => match o with Some _ => true | None => false end) cs).
Definition isv (v : option bytes) : nat := match v with Some _ => 1 | None => 0 end.

Definition okv (v : bytes) : Prop := wf_bytes v /\ v <> [] /\ (blen v < 2 ^ 32)%Z.
Definition okk (k : list Z) : Prop := nibbles k /\ (blen k < 2 ^ 33)%Z.

Inductive canon : node -> Prop :=
| c_leaf k v : nibbles k -> okv v -> canon (NLeaf k v)
| c_ext k cs v : nibbles k -> k <> [] -> canon (NBranch cs v) -> canon (NExt k (NBranch cs v))
| c_branch cs v : length cs = 16 -> (forall c, In (Some c) cs -> canon c) -> (forall x, v = Some x -> okv x) ->
    2 <= kids cs + isv v -> canon (NBranch cs v).

Lemma has_fun t : forall k v1 v2, has t k v1 -> has t k v2 -> v1 = v2.
Proof.
  induction t as [k v|k n IH|h|cs bv IH] using node_ind'; intros key v1 v2 A B; inversion A; subst; inversion B; subst; try congruence.
  - match goal with E : k ++ _ = k ++ _ |- _ => apply app_inv_head in E end. subst. eauto.
  - assert (i0 = i) by lia. subst i0. assert (c0 = c) by congruence. subst c0.
    eapply IH; eauto using nth_error_In.
Qed.

Lemma kids_in cs i c : nth_error cs i = Some (Some c) -> 1 <= kids cs.
Proof.
  unfold kids. revert i. induction cs as [|o cs IH]; intros [|i] H; try discriminate.
  - cbn in H. injection H as ->. cbn. lia.
  - cbn in H. apply IH in H. cbn. destruct o; cbn; lia.
Qed.
Lemma kids_one cs : 1 <= kids cs -> exists i c, nth_error cs i = Some (Some c).
Proof.
  unfold kids. induction cs as [|o cs IH]; cbn; [lia|]. destruct o as [c|]; cbn.
  - exists 0, c. reflexivity.
  - intro H. destruct (IH H) as (i & c & E). exists (S i), c. exact E.
Qed.
Lemma kids_two cs : 2 <= kids cs -> exists i j c d, i <> j /\ nth_error cs i = Some (Some c) /\ nth_error cs j = Some (Some d).
Proof.
  unfold kids. induction cs as [|o cs IH]; cbn; [lia|]. destruct o as [c|]; cbn.
  - intro H. destruct (kids_one cs) as (j & d & E); [unfold kids; lia|]. exists 0, (S j), c, d. auto.
  - intro H. destruct (IH H) as (i & j & c & d & N & E1 & E2). exists (S i), (S j), c, d. auto.
Qed.

Lemma canon_inhabited t : canon t -> exists k v, has t k v.
Proof.
  induction t as [k v|k n IH|h|cs bv IH] using node_ind'; intro C; inversion C; subst.
  - exists k, v. constructor.
  - destruct (IH H3) as (r & v' & A). exists (k ++ r), v'. now constructor.
  - destruct bv as [v|]; [exists [], v; constructor|]. cbn in H4. destruct (kids_one cs) as (i & c & E); [lia|].
    pose proof (nth_error_In _ _ E) as Q. destruct (IH _ Q (H2 _ Q)) as (r & v & A).
    exists (Z.of_nat i :: r), v. econstructor; eauto.
Qed.

(** A branch has two keys that part at once. *)
Lemma branch_parts cs v : canon (NBranch cs v) ->
  forall x, (exists k w, has (NBranch cs v) k w /\ forall r, k <> x :: r).
Proof.
  intros C x. inversion C; subst. destruct v as [v|].
  - exists [], v. split; [constructor|discriminate].
  - cbn in H4. destruct (kids_two cs) as (i & j & c & d & N & E1 & E2); [lia|].
    pose proof (nth_error_In _ _ E1) as Q1. pose proof (nth_error_In _ _ E2) as Q2.
    destruct (canon_inhabited c (H2 _ Q1)) as (r1 & v1 & A1). destruct (canon_inhabited d (H2 _ Q2)) as (r2 & v2 & A2).
    destruct (Z.eq_dec x (Z.of_nat i)) as [->|X].
    + exists (Z.of_nat j :: r2), v2. split; [econstructor; eauto|]. intros r E. injection E as E _. lia.
    + exists (Z.of_nat i :: r1), v1. split; [econstructor; eauto|]. intros r E. injection E as E _. congruence.
Qed.
Lemma branch_two cs v : canon (NBranch cs v) -> exists k1 v1 k2 v2, has (NBranch cs v) k1 v1 /\ has (NBranch cs v) k2 v2 /\ k1 <> k2.
Proof.
  intros C. destruct (canon_inhabited _ C) as (k & w & A). destruct k as [|x k].
  - inversion C; subst. inversion A; subst. cbn in H4. destruct (kids_one cs) as (i & c & E); [lia|].
    destruct (canon_inhabited c (H2 _ (nth_error_In _ _ E))) as (r & u & B).
    exists [], w, (Z.of_nat i :: r), u. repeat split; [exact A|econstructor; eauto|discriminate].
  - destruct (branch_parts cs v C x) as (k2 & w2 & A2 & N). exists (x :: k), w, k2, w2. repeat split; auto; intro E; eapply N; eauto.
Qed.

Definition same (t1 t2 : node) : Prop := forall k v, has t1 k v <-> has t2 k v.

Lemma app_cases {A} (a b c d : list A) : a ++ b = c ++ d -> (exists s, a = c ++ s /\ d = s ++ b) \/ (exists s, c = a ++ s /\ b = s ++ d).
Proof.
  revert c. induction a as [|x a IH]; intros [|y c] E; cbn in E.
  - left. exists []. auto.
  - right. exists (y :: c). auto.
  - left. exists (x :: a). auto.
  - injection E as -> E. destruct (IH _ E) as [(s & -> & ->)|(s & -> & ->)]; [left|right]; exists s; auto.
Qed.

Lemma ext_keys k1 cs1 v1 k2 cs2 v2 s : canon (NBranch cs2 v2) ->
  same (NExt k1 (NBranch cs1 v1)) (NExt k2 (NBranch cs2 v2)) -> k1 = k2 ++ s -> s = [].
Proof.
  intros C Q E. destruct s as [|x s]; auto. exfalso. destruct (branch_parts _ _ C x) as (k & w & A & N).
  assert (B : has (NExt k2 (NBranch cs2 v2)) (k2 ++ k) w) by (now constructor).
  apply Q in B. inversion B; subst. match goal with E : _ ++ _ = _ ++ _ |- _ => rewrite <- app_assoc in E; apply app_inv_head in E; cbn in E end. eapply N. eauto.
Qed.

Theorem canon_unique t1 : forall t2, canon t1 -> canon t2 -> same t1 t2 -> t1 = t2.
Proof.
  assert (LB : forall k v cs bv, canon (NBranch cs bv) -> (forall key w, has (NBranch cs bv) key w -> key = k) -> has (NLeaf k v) k v -> False).
  { intros k v cs bv C U _. destruct (branch_two _ _ C) as (a & av & b & bv' & A & B & N). apply U in A, B. congruence. }
  assert (LE : forall k v ek cs bv, canon (NBranch cs bv) -> same (NLeaf k v) (NExt ek (NBranch cs bv)) -> False).
  { intros k v ek cs bv C Q. destruct (branch_two _ _ C) as (a & av & b & bv' & A & B & N).
    apply has_ext with (k := ek) in A. apply has_ext with (k := ek) in B. apply Q in A, B. inversion A; subst. inversion B; subst.
    match goal with E : _ ++ _ = _ ++ _ |- _ => apply app_inv_head in E end. congruence. }
  assert (LB' : forall k v cs bv, canon (NBranch cs bv) -> same (NLeaf k v) (NBranch cs bv) -> False).
  { intros k v cs bv C Q. eapply LB with (k := k) (v := v); eauto; [|constructor]. intros key w A. apply Q in A. inversion A; auto. }
  assert (EB : forall ek cs bv cs' bv', ek <> [] -> canon (NBranch cs' bv') -> same (NExt ek (NBranch cs bv)) (NBranch cs' bv') -> False).
  { intros ek cs bv cs' bv' N C Q. destruct ek as [|x ek]; [congruence|]. destruct (branch_parts _ _ C x) as (k & w & A & P).
    apply Q in A. inversion A; subst. eapply P. cbn. eauto. }
  assert (SY : forall a b, same a b -> same b a) by (intros a b Q k v; specialize (Q k v); tauto).
  induction t1 as [k v|k n IH|h|cs bv IH] using node_ind'; intros t2 C1 C2 Q; inversion C1; subst; inversion C2; subst.
  - assert (A : has (NLeaf k v) k v) by constructor. apply Q in A. inversion A; subst. reflexivity.
  - exfalso. eauto.
  - exfalso. eauto.
  - exfalso. eauto.
  - assert (K : k = k0).
    { destruct (canon_inhabited _ H3) as (r & w & A). apply has_ext with (k := k) in A. apply Q in A. inversion A; subst.
      match goal with E : _ ++ _ = _ ++ _ |- _ => apply app_cases in E as [(s & EE & _)|(s & EE & _)] end.
      - assert (s = []) by (first [refine (ext_keys _ _ _ _ _ _ s _ Q EE); assumption | refine (ext_keys _ _ _ _ _ _ s _ (SY _ _ Q) EE); assumption]). subst s. now rewrite app_nil_r in EE.
      - assert (s = []) by (first [refine (ext_keys _ _ _ _ _ _ s _ Q EE); assumption | refine (ext_keys _ _ _ _ _ _ s _ (SY _ _ Q) EE); assumption]). subst s. now rewrite app_nil_r in EE. }
    subst k0. f_equal. apply IH; auto. intros r w. specialize (Q (k ++ r) w). split; intro A.
    + apply has_ext with (k := k) in A. apply Q in A. inversion A; subst. match goal with E : k ++ _ = k ++ _ |- _ => apply app_inv_head in E; now subst end.
    + apply has_ext with (k := k) in A. apply Q in A. inversion A; subst. match goal with E : k ++ _ = k ++ _ |- _ => apply app_inv_head in E; now subst end.
  - exfalso. eauto.
  - exfalso. eapply LB'; [|apply SY; eauto]; auto.
  - exfalso. eapply EB; [| |apply SY; eauto]; auto.
  - assert (HK0 : forall c, In (Some c) cs0 -> canon c) by assumption. f_equal.
    + assert (X : forall i, nth_error cs i = nth_error cs0 i).
      { intro i. destruct (nth_error cs i) as [o|] eqn:E1, (nth_error cs0 i) as [o0|] eqn:E2.
        - destruct o as [c|], o0 as [c0|].
          + do 2 f_equal. assert (R : forall r w, has c r w <-> has c0 r w).
            { intros r w. specialize (Q (Z.of_nat i :: r) w). split; intro A.
              - assert (B : has (NBranch cs bv) (Z.of_nat i :: r) w) by (econstructor; eauto). apply Q in B. inversion B; subst.
                assert (i0 = i) by lia. subst i0. congruence.
              - assert (B : has (NBranch cs0 v) (Z.of_nat i :: r) w) by (econstructor; eauto). apply Q in B. inversion B; subst.
                assert (i0 = i) by lia. subst i0. congruence. }
            pose proof (nth_error_In _ _ E1). pose proof (nth_error_In _ _ E2). eapply IH; eauto.
          + exfalso. pose proof (nth_error_In _ _ E1) as I1. destruct (canon_inhabited c (H2 _ I1)) as (r & w & A).
            assert (B : has (NBranch cs bv) (Z.of_nat i :: r) w) by (econstructor; eauto). apply Q in B. inversion B; subst.
            assert (i0 = i) by lia. subst i0. congruence.
          + exfalso. pose proof (nth_error_In _ _ E2) as I2. destruct (canon_inhabited c0 (HK0 _ I2)) as (r & w & A).
            assert (B : has (NBranch cs0 v) (Z.of_nat i :: r) w) by (econstructor; eauto). apply Q in B. inversion B; subst.
            assert (i0 = i) by lia. subst i0. congruence.
          + reflexivity.
        - exfalso. apply nth_error_None in E2. assert (i < length cs) by (apply nth_error_Some; congruence). lia.
        - exfalso. apply nth_error_None in E1. assert (i < length cs0) by (apply nth_error_Some; congruence). lia.
        - reflexivity. }
      revert X. clear. revert cs0. induction cs as [|o cs IH]; intros [|o0 cs0] X; auto; try (specialize (X 0); discriminate X).
      f_equal; [specialize (X 0); cbn in X; congruence|]. apply IH. intro i. exact (X (S i)).
    + destruct bv as [w|].
      * assert (A : has (NBranch cs (Some w)) [] w) by constructor. apply Q in A. inversion A; subst. reflexivity.
      * destruct v as [w|]; auto. assert (A : has (NBranch cs0 (Some w)) [] w) by constructor. apply Q in A. inversion A.
Qed.

Lemma canon_leaf_inv k v : canon (NLeaf k v) -> nibbles k /\ okv v.
Proof. intro C. inversion C; auto. Qed.
Lemma canon_ext_inv k n : canon (NExt k n) -> nibbles k /\ k <> [] /\ canon n /\ exists cs v, n = NBranch cs v.
Proof. intro C. inversion C; subst. eauto 8. Qed.
Lemma canon_branch_inv cs v : canon (NBranch cs v) ->
  length cs = 16 /\ (forall c, In (Some c) cs -> canon c) /\ (forall x, v = Some x -> okv x) /\ 2 <= kids cs + isv v.
Proof. intro C. inversion C; subst. auto. Qed.
Lemma canon_hash_inv h : canon (NHash h) -> False.
Proof. intro C. inversion C. Qed.
Ltac canon_inv C :=
  match type of C with
  | canon (NLeaf _ _) => let a := fresh "Ck" in let b := fresh "Cv" in pose proof (canon_leaf_inv _ _ C) as [a b]
  | canon (NExt _ _) => let a := fresh "Ck" in let b := fresh "Cne" in let c := fresh "Cn" in pose proof (canon_ext_inv _ _ C) as (a & b & c & ?cs & ?bv & ->)
  | canon (NBranch _ _) => let a := fresh "Cl" in let b := fresh "Cc" in let c := fresh "Cv" in let d := fresh "C2" in pose proof (canon_branch_inv _ _ C) as (a & b & c & d)
  | canon (NHash _) => exfalso; exact (canon_hash_inv _ C)
  end.

(** No key is longer than a node can hold. *)
Definition short (t : node) : Prop := forall k v, has t k v -> (blen k < 2 ^ 33)%Z.
Definition fine (t : node) : Prop := canon t /\ short t.

Lemma fine_leaf_inv k v : fine (NLeaf k v) -> okk k /\ okv v.
Proof. intros [C S1]. canon_inv C. repeat split; auto; try apply Cv. eapply S1. constructor. Qed.
Lemma fine_ext_inv k n : fine (NExt k n) -> okk k /\ k <> [] /\ fine n /\ exists cs v, n = NBranch cs v.
Proof.
  intros [C S1]. canon_inv C. destruct (canon_inhabited _ Cn) as (r & w & A).
  split.
  - split; auto. pose proof (S1 _ _ (has_ext k _ _ _ A)) as L. rewrite blen_app in L. pose proof (blen_nonneg r). lia.
  - split; auto. split; eauto. split; auto. intros r' w' A'. pose proof (S1 _ _ (has_ext k _ _ _ A')) as L.
    rewrite blen_app in L. pose proof (blen_nonneg k). lia.
Qed.
Lemma fine_branch_inv cs v : fine (NBranch cs v) ->
  length cs = 16 /\ (forall c, In (Some c) cs -> fine c) /\ (forall x, v = Some x -> okv x) /\ 2 <= kids cs + isv v.
Proof.
  intros [C S1]. canon_inv C. split; auto. split; auto. intros c Hc. split; auto. intros r w A.
  apply In_nth_error in Hc as [i Hi]. pose proof (S1 _ _ (has_child cs v i c r w Hi A)) as L. rewrite blen_cons in L. lia.
Qed.
Lemma fine_hash_inv h : fine (NHash h) -> False.
Proof. intros [C _]. exact (canon_hash_inv _ C). Qed.
Ltac fine_inv C :=
  match type of C with
  | fine (NLeaf _ _) => let a := fresh "Ck" in let b := fresh "Cv" in pose proof (fine_leaf_inv _ _ C) as [a b]
  | fine (NExt _ _) => let a := fresh "Ck" in let b := fresh "Cne" in let c := fresh "Cn" in pose proof (fine_ext_inv _ _ C) as (a & b & c & ?cs & ?bv & ->)
  | fine (NBranch _ _) => let a := fresh "Cl" in let b := fresh "Cc" in let c := fresh "Cv" in let d := fresh "C2" in pose proof (fine_branch_inv _ _ C) as (a & b & c & d)
  | fine (NHash _) => exfalso; exact (fine_hash_inv _ C)
  end.
