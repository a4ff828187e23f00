(** The list of payers against the rules. *)
Require Import ZArith List Bool Lia.
From Verif.Model Require Import CallFrames Deposits FeePayers.
From Verif.Spec Require Import CallSpec FeeSpec.
Import ListNotations.
Open Scope Z_scope.

Lemma nodup_app : forall X (a b : list X), NoDup (a ++ b) <->
  NoDup a /\ NoDup b /\ (forall x, In x a -> ~ In x b).
Proof.
  intros X a b. induction a as [|x a IH]; cbn [app].
  - split; [intro H; split; [constructor|split; [exact H|intros x []]]|tauto].
  - rewrite !NoDup_cons_iff, IH, in_app_iff. cbn [In]. split.
    + intros (H1 & H2 & H3 & H4). split; [split; tauto|]. split; [exact H3|].
      intros y [<-|Hy]; auto.
    + intros ((H1 & H2) & H3 & H4). split; [|split; [exact H2|split; [exact H3|]]].
      * intros [H|H]; [auto|]. exact (H4 x (or_introl eq_refl) H).
      * intros y Hy. apply H4. auto.
Qed.

Section Facts.
  Variable A : Type.
  Variable eqb : A -> A -> bool.
  Variable is_system : A -> bool.
  Variables height price : Z.
  Notation payer := (payer A).
  Notation purse := (purse A).
  Notation call := (call A).
  Notation bill := (bill A).
  Notation pay := (pay_for eqb is_system height price).
  Notation pay_all := (pay_all eqb is_system height price).
  Notation settle := (settle pay).
  Notation settle_all := (settle_all pay).

  Lemma settle_eq : forall inner used agreed s,
    settle (Call inner used agreed) s =
    let '(s1, bills, due, unpaid) := settle_all inner s in
    match agreed with
    | None => (s1, bills, due, unpaid)
    | Some (a, q) =>
        let asked := (used - due + unpaid) * q / 100 in
        let '(s2, paid, fee) := pay s1 a asked in
        (s2, bills ++ [mkBill a q used paid fee],
         due + (used - due) * q / 100, Z.max 0 (asked - paid))
    end.
  Proof.
    intros inner used agreed s. cbn [FeeSpec.settle].
    assert (E : forall cs s,
      (fix all (cs : list call) (s : purse) : purse * list bill * Z * Z :=
         match cs with
         | [] => (s, [], 0, 0)
         | c :: r =>
             let '(s1, b1, d1, u1) := settle c s in
             let '(s2, b2, d2, u2) := all r s1 in
             (s2, b1 ++ b2, d1 + d2, u1 + u2)
         end) cs s = settle_all cs s).
    { induction cs as [|c r IH]; intro s0; [reflexivity|]. cbn [FeeSpec.settle_all].
      destruct (settle c s0) as [[[x y] z] u]. rewrite IH. reflexivity. }
    rewrite E. reflexivity.
  Qed.

  Definition adopt (k : option nat) (p : payer) : payer :=
    match p_parent p with
    | Some _ => p
    | None => mkPayer (p_id p) (p_addr p) (p_portion p) (p_steps p) (p_base p) k
    end.

  Definition sum_steps (l : list payer) : Z := fold_right (fun p n => steps_of p + n) 0 l.

  (** The list of payers which stands for the calls. *)
  Inductive rep : list payer -> list call -> Prop :=
  | rep_nil : rep [] []
  | rep_cons : forall l1 l2 c cs, rep1 l1 c -> rep l2 cs -> rep (l1 ++ l2) (c :: cs)
  with rep1 : list payer -> call -> Prop :=
  | rep_none : forall l inner used, rep l inner -> rep1 l (Call inner used None)
  | rep_some : forall l inner used a q id,
      rep l inner ->
      rep1 (map (adopt (Some id)) l ++
            [mkPayer id a q (Some ((used - sum_steps l) * q / 100)) (Some (used - sum_steps l)) None])
           (Call inner used (Some (a, q))).
  Scheme rep_ind2 := Induction for rep Sort Prop
    with rep1_ind2 := Induction for rep1 Sort Prop.
  Combined Scheme rep_mutind from rep_ind2, rep1_ind2.

  Lemma rep_app : forall l1 c1 l2 c2, rep l1 c1 -> rep l2 c2 -> rep (l1 ++ l2) (c1 ++ c2).
  Proof.
    intros l1 c1 l2 c2 H H2. induction H; cbn [app]; [exact H2|].
    rewrite <- app_assoc. constructor; assumption.
  Qed.

  Lemma sum_steps_app : forall a b, sum_steps (a ++ b) = sum_steps a + sum_steps b.
  Proof.
    induction a as [|p a IH]; intro b; [reflexivity|].
    change (steps_of p + sum_steps (a ++ b) = steps_of p + sum_steps a + sum_steps b). rewrite IH. lia.
  Qed.

  Lemma adopt_steps : forall k p, steps_of (adopt k p) = steps_of p.
  Proof. intros k p. unfold adopt. destruct (p_parent p); reflexivity. Qed.

  Lemma adopt_id : forall k p, p_id (adopt k p) = p_id p.
  Proof. intros k p. unfold adopt. destruct (p_parent p); reflexivity. Qed.

  Lemma map_adopt_id : forall k l, map p_id (map (adopt k) l) = map p_id l.
  Proof. intros k l. rewrite map_map. apply map_ext. intro p. apply adopt_id. Qed.

  Lemma sum_adopt : forall k l, sum_steps (map (adopt k) l) = sum_steps l.
  Proof.
    induction l as [|p l IH]; [reflexivity|].
    change (steps_of (adopt k p) + sum_steps (map (adopt k) l) = steps_of p + sum_steps l).
    rewrite IH, adopt_steps. reflexivity.
  Qed.

  Lemma adopt_adopt : forall k id p, adopt k (adopt (Some id) p) = adopt (Some id) p.
  Proof. intros k id p. unfold adopt at 2 3. destruct (p_parent p) eqn:H; unfold adopt; cbn; rewrite ?H; reflexivity. Qed.

  Lemma map_adopt2 : forall k id l,
    map (adopt k) (map (adopt (Some id)) l) = map (adopt (Some id)) l.
  Proof. intros k id l. rewrite map_map. apply map_ext. intro p. apply adopt_adopt. Qed.

  (** Delegation of [d >= 0] steps to the payer [k]. *)
  Definition dlg (k : option nat) (d : Z) (r : list (option payer)) : list (option payer) :=
    match k with
    | None => r
    | Some id => if 0 <? d then delegate id d r else r
    end.

  Lemma delegated_id : forall p d, p_id (delegated p d) = p_id (A := A) p.
  Proof. intros p d. unfold delegated. destruct (p_base p); reflexivity. Qed.

  Lemma delegated_add : forall (p : payer) a b,
    delegated (delegated p a) b = delegated p (a + b).
  Proof.
    intros p a b. unfold delegated. destruct (p_base p) as [x|] eqn:H; [|rewrite H; reflexivity].
    cbn. unfold calc_steps. cbn. rewrite Z.add_assoc. reflexivity.
  Qed.

  Lemma delegate_add : forall id a b (r : list (option payer)),
    delegate id b (delegate id a r) = delegate id (a + b) r.
  Proof.
    intros id a b r. induction r as [|[p|] r IH]; [reflexivity| |].
    - cbn [delegate]. destruct (Nat.eqb (p_id p) id) eqn:E; cbn [delegate].
      + rewrite delegated_id, E, delegated_add. reflexivity.
      + rewrite E, IH. reflexivity.
    - cbn [delegate]. rewrite IH. reflexivity.
  Qed.

  Lemma dlg_add : forall k a b r, 0 <= a -> 0 <= b -> dlg k b (dlg k a r) = dlg k (a + b) r.
  Proof.
    intros [id|] a b r Ha Hb; [|reflexivity]. unfold dlg.
    destruct (Z.ltb_spec 0 a), (Z.ltb_spec 0 b), (Z.ltb_spec 0 (a + b)); try lia.
    - apply delegate_add.
    - replace (a + b) with a by lia. reflexivity.
    - replace (a + b) with b by lia. reflexivity.
    - reflexivity.
  Qed.

  Lemma delegate_skip : forall id d l r, ~ In id (map p_id l) ->
    delegate id d (map Some l ++ r) = map Some l ++ delegate (A := A) id d r.
  Proof.
    intros id d l r. induction l as [|p l IH]; intro H; [reflexivity|].
    cbn [map app delegate]. cbn [map In] in H.
    destruct (Nat.eqb_spec (p_id p) id) as [E|E]; [exfalso; auto|].
    rewrite IH; auto.
  Qed.

  Lemma dlg_skip : forall k d l r, (forall id, k = Some id -> ~ In id (map p_id l)) ->
    dlg k d (map Some l ++ r) = map Some l ++ dlg k d r.
  Proof.
    intros [id|] d l r H; [|reflexivity]. unfold dlg. destruct (0 <? d); [|reflexivity].
    apply delegate_skip. apply H. reflexivity.
  Qed.

  Lemma dlg_length : forall k d r, List.length (dlg k d r) = List.length r.
  Proof.
    intros [id|] d r; [|reflexivity]. unfold dlg. destruct (0 <? d); [|reflexivity].
    induction r as [|[p|] r IH]; [reflexivity| |]; cbn [delegate].
    - destruct (Nat.eqb (p_id p) id); cbn [List.length]; auto.
    - cbn [List.length]. auto.
  Qed.

  Definition line (used : payer -> Z) (d : paid_by A) : bill :=
    mkBill (p_addr (pd_payer d)) (p_portion (pd_payer d)) (used (pd_payer d)) (pd_paid d) (pd_fee d).

  (** What a list of payers which have paid says, but for the steps of the
      calls. *)
  Definition same_line (d : paid_by A) (b : bill) : Prop :=
    p_addr (pd_payer d) = b_payer b /\ p_portion (pd_payer d) = b_percent b /\
    pd_paid d = b_paid b /\ pd_fee d = b_fee b.

  Lemma total_app : forall a b : list bill, total (a ++ b) = total a + total b.
  Proof.
    induction a as [|x a IH]; intro b; [reflexivity|].
    change (b_paid x + total (a ++ b) = b_paid x + total a + total b). rewrite IH. lia.
  Qed.

  (** One payer which pays. *)
  Definition next_of (p : payer) (paid : Z) (r : list (option payer)) : list (option payer) :=
    if is_system (p_addr p) then r
    else if paid <? steps_of p then
      match p_parent p with Some id => delegate id (steps_of p - paid) r | None => r end
    else r.

  Lemma pay_all_cons : forall n p r to_pay s,
    pay_all (S n) (Some p :: r) to_pay s =
    let p := ensure_steps p to_pay in
    let '(s', paid, fee) := pay s (p_addr p) (steps_of p) in
    let '(s2, l, rest) := pay_all n (next_of p paid r) (to_pay - paid) s' in
    (s2, mkPaid p paid fee :: l, rest).
  Proof. intros n p r to_pay s. reflexivity. Qed.

  Lemma next_dlg : forall p paid r s s' fee,
    pay s (p_addr p) (steps_of p) = (s', paid, fee) ->
    next_of p paid r = dlg (p_parent p) (Z.max 0 (steps_of p - paid)) r.
  Proof.
    intros p paid r s s' fee H. unfold next_of, dlg. unfold pay_for in H.
    destruct (is_system (p_addr p)).
    - injection H as _ <- _. rewrite Z.sub_diag. cbn. destruct (p_parent p); reflexivity.
    - destruct (Z.ltb_spec paid (steps_of p)).
      + rewrite Z.max_r by lia. destruct (p_parent p); [|reflexivity].
        destruct (Z.ltb_spec 0 (steps_of p - paid)); [reflexivity|lia].
      + rewrite Z.max_l by lia. destruct (p_parent p); reflexivity.
  Qed.

  Lemma settle_unpaid :
    (forall cs s, let '(_, _, _, u) := settle_all cs s in 0 <= u).
  Proof.
    assert (H1 : forall c s, let '(_, _, _, u) := settle c s in 0 <= u).
    { fix IH 1. intros [inner used agreed] s. rewrite settle_eq.
      assert (Hall : forall s, let '(_, _, _, u) := settle_all inner s in 0 <= u).
      { induction inner as [|c r IHr]; intro s0; cbn; [lia|].
        specialize (IH c s0). destruct (settle c s0) as [[[a b] d] u].
        specialize (IHr a). destruct (settle_all r a) as [[[a2 b2] d2] u2]. lia. }
      specialize (Hall s). destruct (settle_all inner s) as [[[s1 b1] d1] u1].
      destruct agreed as [[a q]|]; [|exact Hall].
      cbv zeta. destruct (pay s1 a ((used - d1 + u1) * q / 100)) as [[s2 paid] fee]. lia. }
    induction cs as [|c r IH]; intro s; cbn; [lia|].
    specialize (H1 c s). destruct (settle c s) as [[[a b] d] u].
    specialize (IH a). destruct (settle_all r a) as [[[a2 b2] d2] u2]. lia.
  Qed.

  (** The steps first due. *)
  Lemma rep_due :
    (forall l cs, rep l cs -> forall s, let '(_, _, d, _) := settle_all cs s in sum_steps l = d) /\
    (forall l c, rep1 l c -> forall s, let '(_, _, d, _) := settle c s in sum_steps l = d).
  Proof.
    apply rep_mutind; intros.
    - reflexivity.
    - cbn. specialize (H s). destruct (settle c s) as [[[s1 b1] d1] u1].
      specialize (H0 s1). destruct (settle_all cs s1) as [[[s2 b2] d2] u2].
      rewrite sum_steps_app. lia.
    - rewrite settle_eq. specialize (H s). destruct (settle_all inner s) as [[[s1 b1] d1] u1]. exact H.
    - rewrite settle_eq. specialize (H s). destruct (settle_all inner s) as [[[s1 b1] d1] u1].
      cbv zeta. destruct (pay s1 a ((used - d1 + u1) * q / 100)) as [[s2 paid] fee]. rewrite sum_steps_app, sum_adopt. cbn. rewrite H. lia.
  Qed.

  Definition follows (l : list payer) (res : purse * list bill * Z * Z) (n : nat) (k : option nat)
      (r : list (option payer)) (to_pay : Z) (s : purse) : Prop :=
    let '(s1, bills, _, unpaid) := res in
    exists pd, Forall2 same_line pd bills /\
      pay_all (List.length l + n) (map Some (map (adopt k) l) ++ r) to_pay s =
      let '(s2, m, rest) := pay_all n (dlg k unpaid r) (to_pay - total bills) s1 in
      (s2, pd ++ m, rest).

  Lemma rep_pays :
    (forall l cs, rep l cs -> NoDup (map p_id l) ->
       forall k, (forall id, k = Some id -> ~ In id (map p_id l)) ->
       forall n r to_pay s, follows l (settle_all cs s) n k r to_pay s) /\
    (forall l c, rep1 l c -> NoDup (map p_id l) ->
       forall k, (forall id, k = Some id -> ~ In id (map p_id l)) ->
       forall n r to_pay s, follows l (settle c s) n k r to_pay s).
  Proof.
    apply rep_mutind.
    - intros _ k Hk n r to_pay s. cbn. exists []. split; [constructor|].
      assert (E : dlg k 0 r = r) by (destruct k; reflexivity). rewrite E, Z.sub_0_r.
      destruct (pay_all n r to_pay s) as [[a b] c]. reflexivity.
    - intros l1 l2 c cs R1 IH1 R2 IH2 Hnd k Hk n r to_pay s.
      rewrite map_app in Hnd. destruct (proj1 (nodup_app _ _ _) Hnd) as (N1 & N2 & _).
      assert (K1 : forall id, k = Some id -> ~ In id (map p_id l1)).
      { intros id E Hin. apply (Hk id E). rewrite map_app, in_app_iff. auto. }
      assert (K2 : forall id, k = Some id -> ~ In id (map p_id l2)).
      { intros id E Hin. apply (Hk id E). rewrite map_app, in_app_iff. auto. }
      cbn [FeeSpec.settle_all].
      specialize (IH1 N1 k K1 (List.length l2 + n)%nat (map Some (map (adopt k) l2) ++ r) to_pay s).
      destruct (settle c s) as [[[s1 b1] d1] u1] eqn:Hc.
      assert (U1 : 0 <= u1).
      { pose proof (settle_unpaid [c] s) as X. cbn in X. rewrite Hc in X. lia. }
      destruct IH1 as (pd1 & F1 & E1).
      specialize (IH2 N2 k K2 n (dlg k u1 r) (to_pay - total b1) s1).
      pose proof (settle_unpaid cs s1) as U2.
      destruct (settle_all cs s1) as [[[s2 b2] d2] u2].
      destruct IH2 as (pd2 & F2 & E2).
      exists (pd1 ++ pd2). split; [apply Forall2_app; assumption|].
      rewrite app_length, !map_app, <- app_assoc.
      replace (List.length l1 + List.length l2 + n)%nat with (List.length l1 + (List.length l2 + n))%nat by lia.
      rewrite E1. rewrite dlg_skip.
      + rewrite E2. rewrite dlg_add by assumption. rewrite total_app.
        replace (to_pay - total b1 - total b2) with (to_pay - (total b1 + total b2)) by lia.
        match goal with |- context [FeePayers.pay_all eqb is_system height price n ?u ?v s2] => destruct (pay_all n u v s2) as [[x y] z] end. rewrite app_assoc. reflexivity.
      + intros id E. rewrite map_adopt_id. apply K2. exact E.
    - intros l inner used R IH Hnd k Hk n r to_pay s. rewrite settle_eq.
      specialize (IH Hnd k Hk n r to_pay s). unfold follows in *.
      destruct (settle_all inner s) as [[[s1 b1] d1] u1]. exact IH.
    - intros l inner used a q id R IH Hnd k Hk n r to_pay s. rewrite settle_eq.
      rewrite map_app, map_adopt_id in Hnd. cbn [map p_id] in Hnd.
      pose proof (proj1 (proj1 (nodup_app _ _ _) Hnd)) as N1.
      assert (Hid : ~ In id (map p_id l)).
      { apply NoDup_remove_2 in Hnd. rewrite app_nil_r in Hnd. exact Hnd. }
      assert (Hid' : forall i, Some id = Some i -> ~ In i (map p_id l)).
      { intros i E. injection E as <-. exact Hid. }
      set (own := mkPayer id a q (Some ((used - sum_steps l) * q / 100)) (Some (used - sum_steps l)) k).
      specialize (IH N1 (Some id) Hid' (S n) (Some own :: r) to_pay s).
      pose proof (proj1 rep_due _ _ R s) as Hdue.
      pose proof (settle_unpaid inner s) as Hu.
      destruct (settle_all inner s) as [[[s1 b1] d1] u1].
      unfold follows in IH. destruct IH as (pd1 & F1 & E1). cbv zeta.
      set (asked := (used - d1 + u1) * q / 100).
      destruct (pay s1 a asked) as [[s2 paid] fee] eqn:Hpay.
      set (own' := mkPayer id a q (Some asked) (Some (used - d1 + u1)) k).
      unfold follows. exists (pd1 ++ [mkPaid own' paid fee]). split.
      { apply Forall2_app; [exact F1|]. repeat constructor. }
      rewrite map_app, map_app, map_adopt2. cbn [map].
      replace (adopt k _) with own by reflexivity.
      rewrite <- app_assoc. cbn [app]. rewrite app_length, map_length. cbn [List.length].
      replace (List.length l + 1 + n)%nat with (List.length l + S n)%nat by lia.
      rewrite E1.
      assert (Ed : dlg (Some id) u1 (Some own :: r) = Some own' :: r).
      { unfold dlg, own, own', asked. cbn [delegate p_id]. rewrite Nat.eqb_refl.
        unfold delegated. cbn [p_base p_id p_addr p_portion p_parent]. unfold calc_steps. cbn [p_portion].
        rewrite Hdue. destruct (Z.ltb_spec 0 u1); [reflexivity|].
        replace u1 with 0 by lia. rewrite Z.add_0_r. reflexivity. }
      rewrite Ed, pay_all_cons. cbv zeta.
      replace (ensure_steps own' (to_pay - total b1)) with own' by reflexivity.
      replace (p_addr own') with a by reflexivity.
      replace (steps_of own') with asked by reflexivity. rewrite Hpay.
      assert (En : next_of own' paid r = dlg k (Z.max 0 (asked - paid)) r).
      { exact (next_dlg own' paid r s1 s2 fee Hpay). }
      rewrite En, total_app. cbn [total fold_right b_paid].
      replace (to_pay - (total b1 + (paid + 0))) with (to_pay - total b1 - paid) by lia.
      match goal with |- context [FeePayers.pay_all eqb is_system height price n ?u ?v s2] => destruct (pay_all n u v s2) as [[x y] z] end. rewrite <- app_assoc. reflexivity.
  Qed.
End Facts.
