(** The payers which the frames collect against the calls of the tree. *)
Require Import ZArith List Bool Lia.
From Verif.Model Require Import CallFrames Deposits FeePayers.
From Verif.Spec Require Import CallSpec FeeSpec.
From Verif.Proof Require Import FeeFacts.
Import ListNotations.
Open Scope Z_scope.

Section Frames.
  Variables W E M A : Type.
  Notation frame := (frame W E M A).
  Notation cfg := (cfg W E M A).
  Notation action := (action W E M A).
  Notation node := (node W E M A).
  Notation payer := (payer A).
  Variable pol : policy.

  Definition many : bool := fee_sharing pol && multiple_payers pol.

  Lemma run_app : forall l1 l2 (c : cfg),
    run pol c (l1 ++ l2) = match run pol c l1 with Some c' => run pol c' l2 | None => None end.
  Proof.
    induction l1 as [|a l1 IH]; intros l2 c; [reflexivity|]. cbn [app run].
    destruct (step pol c a); [apply IH|reflexivity].
  Qed.

  Definition oid (o : option payer) : list nat := match o with Some p => [p_id p] | None => [] end.

  Definition own_is (o : option payer) (ag : option (A * Z)) : Prop :=
    match o, ag with
    | None, None => True
    | Some p, Some (a, q) => p = mkPayer (p_id p) a q None None None /\ 0 < q <= 100
    | _, _ => False
    end.

  Definition slot (f : frame) (rest : list frame) : option payer :=
    if Nat.eqb (f_fid f) 2 then match rest with b :: _ => own_of (f_payers b) | [] => None end
    else own_of (f_payers f).

  Definition heard (f : frame) : bool :=
    fee_sharing pol && (Nat.eqb (f_fid f) 2 || multiple_payers pol).

  (** The frames below are as before, but for the payer of the base frame,
      which the first frame sets. *)
  Definition below (f : frame) (rest rest' : list frame) : Prop :=
    if Nat.eqb (f_fid f) 2 then
      match rest with
      | b :: r => exists ps, rest' = set_payers b ps :: r /\ removelast ps = removelast (f_payers b)
      | [] => rest' = []
      end
    else rest' = rest.

  Definition after (b : bool) (body : list node) (c : cfg) (f : frame) (rest : list frame)
      (c' : cfg) : Prop :=
    (c_nextpid c <= c_nextpid c')%nat /\ (3 <= c_nextfid c')%nat /\
    exists xs f' rest',
      c_stack c' = xs ++ f' :: rest' /\ (b = false -> xs = []) /\
      Forall (fun x => f_sync x = false) xs /\
      f_fid f' = f_fid f /\ f_sync f' = f_sync f /\ f_limit f' = f_limit f /\
      f_readonly f' = f_readonly f || existsb is_readonly body /\
      f_used f' = fold_left (spending (f_limit f)) body (f_used f) /\
      below f rest rest' /\
      (f_fid f = 2%nat -> own_of (f_payers f) = None -> own_of (f_payers f') = None) /\
      (forall o, own_is (slot f rest) o ->
         own_is (slot f' rest') (if heard f then fold_left agreement body o else o)) /\
      (slot f' rest' = slot f rest \/
       Forall (fun i => (c_nextpid c <= i < c_nextpid c')%nat) (oid (slot f' rest'))) /\
      (f_readonly f' = false ->
       exists L, removelast (f_payers f') = removelast (f_payers f) ++ map Some L /\
                 (f_payers f' = [] -> f_payers f = []) /\
                 rep A L (flat_map (sharing many) body) /\
                 Forall (fun i => (c_nextpid c <= i < c_nextpid c')%nat) (map p_id L) /\
                 NoDup (map p_id L) /\
                 (slot f' rest' <> slot f rest -> forall i, In i (oid (slot f' rest')) -> ~ In i (map p_id L))).

  Definition inside (b : bool) (body : list node) : Prop :=
    forall c f rest c',
      c_stack c = f :: rest -> rest <> [] -> (3 <= c_nextfid c)%nat ->
      run pol c (flat_map actions body) = Some c' ->
      after b body c f rest c'.

  Lemma set_payers_self : forall f : frame, set_payers f (f_payers f) = f.
  Proof. intros [? ? ? ? ? ? ? ? ?]. reflexivity. Qed.

  Lemma below_refl : forall f rest, below f rest rest.
  Proof.
    intros f rest. unfold below. destruct (Nat.eqb (f_fid f) 2); [|reflexivity].
    destruct rest as [|b r]; [reflexivity|]. exists (f_payers b). rewrite set_payers_self. auto.
  Qed.

  Lemma below_trans : forall f g r1 r2 r3, f_fid g = f_fid f ->
    below f r1 r2 -> below g r2 r3 -> below f r1 r3.
  Proof.
    intros f g r1 r2 r3 Hf H1 H2. unfold below in *. rewrite Hf in H2.
    destruct (Nat.eqb (f_fid f) 2); [|congruence].
    destruct r1 as [|b r]; [subst r2; exact H2|].
    destruct H1 as (ps & -> & E1). destruct H2 as (ps2 & -> & E2). cbn in E2.
    exists ps2. split; [reflexivity|]. congruence.
  Qed.

  Lemma below_nil : forall f r1 r2, below f r1 r2 -> r1 <> [] -> r2 <> [].
  Proof.
    intros f r1 r2 H Hn. unfold below in H. destruct (Nat.eqb (f_fid f) 2); [|congruence].
    destruct r1 as [|b r]; [congruence|]. destruct H as (ps & -> & _). discriminate.
  Qed.

  (** Something happened in the frame [f] (it is [f1] now), then [l]. *)
  Lemma after_cons : forall b n l c f rest c1 f1 rest1 c' L1,
    (c_nextpid c <= c_nextpid c1)%nat ->
    f_fid f1 = f_fid f -> f_sync f1 = f_sync f -> f_limit f1 = f_limit f ->
    f_readonly f1 = f_readonly f || is_readonly n ->
    f_used f1 = spending (f_limit f) (f_used f) n ->
    below f rest rest1 ->
    (f_fid f = 2%nat -> own_of (f_payers f) = None -> own_of (f_payers f1) = None) ->
    (forall o, own_is (slot f rest) o -> own_is (slot f1 rest1) (if heard f then agreement o n else o)) ->
    (slot f1 rest1 = slot f rest \/
     Forall (fun i => (c_nextpid c <= i < c_nextpid c1)%nat) (oid (slot f1 rest1))) ->
    (f_readonly f1 = false ->
       removelast (f_payers f1) = removelast (f_payers f) ++ map Some L1 /\
       (f_payers f1 = [] -> f_payers f = []) /\
       rep A L1 (sharing many n) /\
       Forall (fun i => (c_nextpid c <= i < c_nextpid c1)%nat) (map p_id L1) /\
       NoDup (map p_id L1) /\
       (slot f1 rest1 <> slot f rest -> forall i, In i (oid (slot f1 rest1)) -> ~ In i (map p_id L1))) ->
    after b l c1 f1 rest1 c' ->
    after b (n :: l) c f rest c'.
  Proof.
    intros b n l c f rest c1 f1 rest1 c' L1 Hp1 Hfid Hsync Hlim Hro Hused Hbel Hown Hag Hid Hpay H.
    destruct H as (Hp2 & Hn2 & xs & f' & rest' & H1 & H2 & H3 & H4 & H5 & H6 & H7 & H8 & H9 & H10 & H11 & H12 & H13).
    assert (Hh : heard f1 = heard f) by (unfold heard; rewrite Hfid; reflexivity).
    split; [lia|]. split; [exact Hn2|]. exists xs, f', rest'.
    split; [exact H1|]. split; [exact H2|]. split; [exact H3|].
    split; [congruence|]. split; [congruence|]. split; [congruence|].
    split. { rewrite H7, Hro. cbn [existsb]. rewrite orb_assoc. reflexivity. }
    split. { rewrite H8, Hlim, Hused. reflexivity. }
    split; [exact (below_trans f f1 rest rest1 rest' Hfid Hbel H9)|].
    split. { intros X Y. apply H10; [congruence|]. apply Hown; assumption. }
    split. { intros o Ho. specialize (H11 _ (Hag o Ho)). rewrite Hh in H11. destruct (heard f); exact H11. }
    split.
    { destruct H12 as [->|H12].
      - destruct Hid as [Hid|Hid]; [left; exact Hid|right].
        eapply Forall_impl; [|exact Hid]. cbn. intros i Hi. lia.
      - right. eapply Forall_impl; [|exact H12]. cbn. intros i Hi. lia. }
    intro Hf'. destruct (H13 Hf') as (L & E1 & E2 & E3 & E4 & E5 & E6).
    assert (Hf1 : f_readonly f1 = false).
    { rewrite H7 in Hf'. apply orb_false_iff in Hf'. tauto. }
    destruct (Hpay Hf1) as (P1 & P2 & P3 & P4 & P5 & P6).
    exists (L1 ++ L).
    split. { rewrite E1, P1, map_app, app_assoc. reflexivity. }
    split; [auto|]. split. { cbn [flat_map]. apply rep_app; assumption. }
    rewrite map_app. split.
    { apply Forall_app. split; [eapply Forall_impl; [|exact P4]|eapply Forall_impl; [|exact E4]]; cbn; intros; lia. }
    assert (Hdis : forall i, In i (map p_id L1) -> ~ In i (map p_id L)).
    { intros i I1 I2. rewrite Forall_forall in P4, E4. specialize (P4 i I1). specialize (E4 i I2). lia. }
    split. { apply nodup_app. auto. }
    intros Hne i Hi. rewrite in_app_iff. intros [I1|I2].
    - destruct H12 as [Heq|H12].
      + rewrite Heq in Hi, Hne. exact (P6 Hne i Hi I1).
      + rewrite Forall_forall in P4, H12. specialize (P4 i I1). specialize (H12 i Hi). lia.
    - destruct H12 as [Heq|H12].
      + destruct Hid as [Hid|Hid]; [congruence|]. rewrite <- Heq in Hid.
        rewrite Forall_forall in Hid, E4. specialize (Hid i Hi). specialize (E4 i I2). lia.
      + destruct (Hid) as [Hid'|Hid'].
        * apply (E6 ltac:(congruence) i Hi I2).
        * assert (Hne2 : slot f' rest' <> slot f1 rest1).
          { intro Heq. rewrite Heq in H12, Hi. rewrite Forall_forall in H12, Hid'.
            specialize (H12 i Hi). specialize (Hid' i Hi). lia. }
          exact (E6 Hne2 i Hi I2).
  Qed.

  Lemma after_nil : forall b c f rest, c_stack c = f :: rest -> (3 <= c_nextfid c)%nat ->
    after b [] c f rest c.
  Proof.
    intros b c f rest Hc Hn. split; [lia|]. split; [exact Hn|]. exists [], f, rest.
    split; [exact Hc|]. split; [reflexivity|]. split; [constructor|].
    split; [reflexivity|]. split; [reflexivity|]. split; [reflexivity|].
    split; [cbn; rewrite orb_false_r; reflexivity|]. split; [reflexivity|].
    split; [apply below_refl|]. split; [auto|].
    split. { intros o Ho. cbn. destruct (heard f); exact Ho. }
    split; [auto|]. intros _. exists []. cbn. rewrite app_nil_r.
    split; [reflexivity|]. split; [auto|]. split; [constructor|]. split; [constructor|]. split; [constructor|].
    congruence.
  Qed.

  (** What touches no payer. *)
  Lemma after_leaf : forall b n l c f rest c1 f1 c',
    c_nextpid c1 = c_nextpid c ->
    f_payers f1 = f_payers f ->
    f_fid f1 = f_fid f -> f_sync f1 = f_sync f -> f_limit f1 = f_limit f ->
    f_readonly f1 = f_readonly f || is_readonly n ->
    f_used f1 = spending (f_limit f) (f_used f) n ->
    (forall o, agreement o n = o) -> sharing many n = [] ->
    after b l c1 f1 rest c' ->
    after b (n :: l) c f rest c'.
  Proof.
    intros b n l c f rest c1 f1 c' Hp Hpay Hfid Hsync Hlim Hro Hused Hag Hsh H.
    assert (Hslot : slot f1 rest = slot f rest) by (unfold slot; rewrite Hfid, Hpay; reflexivity).
    apply (after_cons b n l c f rest c1 f1 rest c' []); auto.
    - lia.
    - apply below_refl.
    - intros _ X. rewrite Hpay. exact X.
    - intros o Ho. rewrite Hag, Hslot. destruct (heard f); exact Ho.
    - intros _. rewrite Hsh, Hpay, app_nil_r.
      split; [reflexivity|]. split; [auto|]. split; [constructor|]. split; [constructor|]. split; [constructor|].
      congruence.
  Qed.

  Lemma removelast_snoc : forall X (l : list X) x, removelast (l ++ [x]) = l.
  Proof. intros X l x. rewrite removelast_app by discriminate. cbn. apply app_nil_r. Qed.

  Lemma own_snoc : forall (l : list (option payer)) x, own_of (l ++ [x]) = x.
  Proof. intros l x. unfold own_of. apply last_last. Qed.

  Lemma rep_steps :
    (forall l cs, rep A l cs -> Forall (fun p => exists n, p_steps p = Some n) l) /\
    (forall l c, rep1 A l c -> Forall (fun p => exists n, p_steps p = Some n) l).
  Proof.
    apply rep_mutind.
    - constructor.
    - intros. apply Forall_app. auto.
    - auto.
    - intros l inner used a q id R H. apply Forall_app. split.
      + apply Forall_forall. intros p Hp. apply in_map_iff in Hp. destruct Hp as (p0 & <- & Hp).
        rewrite Forall_forall in H. destruct (H p0 Hp) as [n Hn]. exists n.
        unfold adopt. destruct (p_parent p0); exact Hn.
      + constructor; [|constructor]. eexists. reflexivity.
  Qed.

  Lemma apply_steps_set : forall (l : list payer) r n,
    Forall (fun p => exists n, p_steps p = Some n) l ->
    apply_steps (map Some l ++ r) n = map Some l ++ apply_steps r (n - sum_steps A l).
  Proof.
    induction l as [|p l IH]; intros r n H.
    - cbn. rewrite Z.sub_0_r. reflexivity.
    - inversion H as [|? ? [k Hk] H']; subst. cbn [map app apply_steps].
      assert (E1 : ensure_steps p n = p) by (unfold ensure_steps; rewrite Hk; reflexivity).
      rewrite E1, IH by exact H'.
      change (sum_steps A (p :: l)) with (steps_of p + sum_steps A l).
      replace (n - steps_of p - sum_steps A l) with (n - (steps_of p + sum_steps A l)) by lia. reflexivity.
  Qed.

  Lemma merge_payers : forall ps L kids used ag,
    removelast ps = map Some L -> rep A L kids -> own_is (own_of ps) ag ->
    exists L', apply_steps (set_parent_of_sub ps) used = map Some L' /\
      rep1 A L' (Call kids used ag) /\ map p_id L' = map p_id L ++ oid (own_of ps).
  Proof.
    intros ps L kids used ag Hr HR Ho.
    pose proof (proj1 rep_steps _ _ HR) as Hst.
    destruct ps as [|x0 ps0].
    - destruct L; [|discriminate]. destruct ag as [[a q]|]; [destruct Ho|].
      exists []. split; [reflexivity|]. split; [constructor; exact HR|reflexivity].
    - set (ps := x0 :: ps0) in *.
      assert (Hps : ps = map Some L ++ [own_of ps]).
      { rewrite <- Hr. apply app_removelast_last. discriminate. }
      clearbody ps. destruct (own_of ps) as [own|] eqn:Hown.
      + destruct ag as [[a q]|]; [|destruct Ho]. cbn in Ho. destruct Ho as [Ho Hq].
        unfold set_parent_of_sub. rewrite Hown, Hr.
        assert (E1 : map (fun o : option payer => match o with
                      | Some p =>
                          match p_parent p with
                          | None => Some (mkPayer (p_id p) (p_addr p) (p_portion p)
                                                  (p_steps p) (p_base p) (Some (p_id own)))
                          | Some _ => Some p
                          end
                      | None => None
                      end) (map Some L) = map Some (map (adopt A (Some (p_id own))) L)).
        { rewrite !map_map. apply map_ext. intro p. unfold adopt. destruct (p_parent p); reflexivity. }
        rewrite E1, apply_steps_set.
        * rewrite sum_adopt. cbn [apply_steps].
          rewrite Ho. unfold ensure_steps, calc_steps. cbn [p_steps p_id p_addr p_portion p_parent].
          eexists (map (adopt A (Some (p_id own))) L ++ [_]). rewrite map_app. cbn [map].
          split; [reflexivity|]. split; [apply rep_some; exact HR|].
          rewrite map_app, map_adopt_id. reflexivity.
        * apply Forall_forall. intros p Hp. apply in_map_iff in Hp. destruct Hp as (p0 & <- & Hp).
          rewrite Forall_forall in Hst. destruct (Hst p0 Hp) as [n Hn]. exists n.
          unfold adopt. destruct (p_parent p0); exact Hn.
      + destruct ag as [[a q]|]; [destruct Ho|].
        unfold set_parent_of_sub. rewrite Hown, Hps, apply_steps_set by exact Hst.
        cbn [apply_steps]. exists L. split; [apply app_nil_r|]. split; [constructor; exact HR|].
        cbn. rewrite app_nil_r. reflexivity.
  Qed.

  (** A call, whatever its end, in a frame which is not the base. *)
  Lemma after_call_lost : forall b n l c f rest c1 c',
    (c_nextpid c <= c_nextpid c1)%nat ->
    is_readonly n = false -> (forall u, spending (f_limit f) u n = u) ->
    (forall o, agreement o n = o) -> (f_readonly f = false -> sharing many n = []) ->
    after b l c1 f rest c' ->
    after b (n :: l) c f rest c'.
  Proof.
    intros b n l c f rest c1 c' Hp Hro Hsp Hag Hsh H.
    apply (after_cons b n l c f rest c1 f rest c' []); auto.
    - rewrite Hro, orb_false_r. reflexivity.
    - apply below_refl.
    - intros o Ho. rewrite Hag. destruct (heard f); exact Ho.
    - intros Hf. rewrite (Hsh Hf), app_nil_r.
      split; [reflexivity|]. split; [auto|]. split; [constructor|]. split; [constructor|]. split; [constructor|].
      congruence.
  Qed.

  Lemma own_set : forall (o : option payer) ag id a q,
    own_is o ag ->
    own_is (if (q <? 0) || (100 <? q) then o
            else if q =? 0 then None else Some (mkPayer id a q None None None))
           (agreement ag (Agreed (W:=W) (E:=E) (M:=M) a q)).
  Proof.
    intros o ag id a q H. cbn [agreement].
    destruct (Z.ltb_spec q 0); [exact H|]. destruct (Z.ltb_spec 100 q); [exact H|]. cbn [orb].
    destruct (Z.eqb_spec q 0); [exact Logic.I|]. cbn. split; [reflexivity|lia].
  Qed.

  Lemma own_portion : forall ps id a q,
    own_of (set_portion ps id a q) =
    if (q <? 0) || (100 <? q) then own_of ps
    else if q =? 0 then None else Some (mkPayer (A:=A) id a q None None None).
  Proof.
    intros ps id a q. unfold set_portion. destruct ((q <? 0) || (100 <? q)); [reflexivity|].
    apply own_snoc.
  Qed.

  Lemma rest_portion : forall ps id a q,
    removelast (set_portion ps id a q) = removelast (A:=option payer) ps.
  Proof.
    intros ps id a q. unfold set_portion. destruct ((q <? 0) || (100 <? q)); [reflexivity|].
    apply removelast_snoc.
  Qed.

  Lemma nil_portion : forall ps id a q, set_portion (A:=A) ps id a q = [] -> ps = [].
  Proof.
    intros ps id a q. unfold set_portion. destruct ((q <? 0) || (100 <? q)); [auto|].
    intro H. apply app_eq_nil in H. destruct H. discriminate.
  Qed.

  Lemma inside_agreed : forall b a q l, inside b l -> inside b (Agreed a q :: l).
  Proof.
    intros b a q l IH c f rest c' Hc Hr Hn H.
    cbn [flat_map actions app run] in H. destruct (step pol c (APortion a q)) as [c1|] eqn:Hs; [|discriminate].
    unfold step in Hs. rewrite Hc in Hs. destruct rest as [|p r]; [congruence|].
    injection Hs as <-. unfold set_fee in H.
    destruct (fee_sharing pol) eqn:Hfs; cbn [negb] in H.
    2:{ apply (after_cons b _ l c f (p :: r) c f (p :: r) c' []); auto.
        - cbn. rewrite orb_false_r. reflexivity.
        - apply below_refl.
        - intros o Ho. unfold heard. rewrite Hfs. exact Ho.
        - intros _. cbn. rewrite app_nil_r. split; [reflexivity|]. split; [auto|].
          split; [constructor|]. split; [constructor|]. split; [constructor|]. congruence. }
    destruct (Nat.eqb (f_fid f) 2) eqn:Hf2.
    - match type of H with run _ ?x _ = _ => set (c1 := x) in * end.
      set (p1 := set_payers p (set_portion (f_payers p) (c_nextpid c) a q)) in *.
      assert (Hslot : slot f (p1 :: r) = if (q <? 0) || (100 <? q) then slot f (p :: r)
          else if q =? 0 then None else Some (mkPayer (c_nextpid c) a q None None None)).
      { unfold slot. rewrite Hf2. unfold p1. cbn [f_payers set_payers]. apply own_portion. }
      apply (after_cons b _ l c f (p :: r) c1 f (p1 :: r) c' []); auto.
      + cbn. lia.
      + cbn. rewrite orb_false_r. reflexivity.
      + unfold below. rewrite Hf2. eexists. split; [reflexivity|]. apply rest_portion.
      + intros o Ho. unfold heard. rewrite Hfs, Hf2. cbn [andb orb]. rewrite Hslot. apply own_set. exact Ho.
      + rewrite Hslot. destruct ((q <? 0) || (100 <? q)); [auto|]. right.
        destruct (q =? 0); [constructor|]. cbn. constructor; [lia|constructor].
      + intros _. cbn [map]. rewrite app_nil_r. split; [reflexivity|]. split; [auto|].
        split; [constructor|]. split; [constructor|]. split; [constructor|]. intros _ i _ [].
      + apply IH; auto. discriminate.
    - destruct (multiple_payers pol) eqn:Hm.
      + match type of H with run _ ?x _ = _ => set (c1 := x) in * end.
        set (f1 := set_payers f (set_portion (f_payers f) (c_nextpid c) a q)) in *.
        assert (Hslot : slot f1 (p :: r) = if (q <? 0) || (100 <? q) then slot f (p :: r)
            else if q =? 0 then None else Some (mkPayer (c_nextpid c) a q None None None)).
        { unfold slot, f1. cbn [f_fid f_payers set_payers]. rewrite Hf2. apply own_portion. }
        apply (after_cons b _ l c f (p :: r) c1 f1 (p :: r) c' []); auto.
        * cbn. lia.
        * cbn. rewrite orb_false_r. reflexivity.
        * apply below_refl.
        * intros E2. apply Nat.eqb_neq in Hf2. contradiction.
        * intros o Ho. unfold heard. rewrite Hfs, Hm, orb_true_r. cbn [andb]. rewrite Hslot. apply own_set. exact Ho.
        * rewrite Hslot. destruct ((q <? 0) || (100 <? q)); [auto|]. right.
          destruct (q =? 0); [constructor|]. cbn. constructor; [lia|constructor].
        * intros _. cbn [map]. rewrite app_nil_r. split; [apply rest_portion|].
          split; [apply nil_portion|].
          split; [constructor|]. split; [constructor|]. split; [constructor|]. intros _ i _ [].
      + apply (after_cons b _ l c f (p :: r) c f (p :: r) c' []); auto.
        * cbn. rewrite orb_false_r. reflexivity.
        * apply below_refl.
        * intros o Ho. unfold heard. rewrite Hf2, Hm, andb_false_r. exact Ho.
        * intros _. cbn. rewrite app_nil_r. split; [reflexivity|]. split; [auto|].
          split; [constructor|]. split; [constructor|]. split; [constructor|]. congruence.
  Qed.

  Lemma step_call : forall (c : cfg) f rest sync lim c1,
    c_stack c = f :: rest -> step pol c (ACall sync lim) = Some c1 ->
    c1 = push c f sync lim.
  Proof.
    intros c f rest sync lim c1 Hc H. unfold step in H. rewrite Hc in H.
    destruct rest, sync; congruence.
  Qed.

  Lemma clean_skip : forall xs (f : frame) rest w,
    Forall (fun x => f_sync x = false) xs -> f_sync f = true ->
    exists w', clean_up (xs ++ f :: rest) w = Some (w', rest).
  Proof.
    intros xs f rest w Hx Hf. induction Hx as [|x xs Hx Hxs IH]; cbn [app clean_up].
    - rewrite Hf. eauto.
    - rewrite Hx. exact IH.
  Qed.

  Lemma inside_cut : forall b lim body l, inside true body -> inside b l -> inside b (Cut lim body :: l).
  Proof.
    intros b lim body l IHb IHl c f rest c' Hc Hr Hn H.
    cbn [flat_map actions] in H. rewrite run_app in H. cbn [app run] in H.
    destruct (step pol c (ACall true lim)) as [c1|] eqn:Hs; [|discriminate].
    apply (step_call c f rest) in Hs; [|exact Hc]. subst c1.
    rewrite run_app in H. destruct (run pol (push c f true lim) (flat_map actions body)) as [c2|] eqn:Hb; [|discriminate].
    assert (Hst : c_stack (push c f true lim) = mkFrame (c_nextfid c) true (f_readonly f)
        (if f_readonly f then None else Some (c_world c)) 0 lim [] [] [] :: f :: rest).
    { unfold push. cbn. rewrite Hc. reflexivity. }
    pose proof (IHb _ _ (f :: rest) c2 Hst ltac:(discriminate) ltac:(cbn; lia) Hb) as Q.
    destruct Q as (Q1 & Q2 & xs & g & rest' & Q3 & _ & Q4 & Q5 & Q6 & Q7 & Q8 & Q9 & Q10 & _).
    unfold below in Q10. cbn [f_fid] in Q10.
    destruct (Nat.eqb_spec (c_nextfid c) 2); [lia|]. subst rest'.
    cbn [run] in H. destruct (step pol c2 AAbort) as [c3|] eqn:Ha; [|discriminate].
    unfold step in Ha. rewrite Q3 in Ha.
    destruct (clean_skip xs g (f :: rest) (c_world c2) Q4 Q6) as (w' & Hw). rewrite Hw in Ha.
    assert (Hc3 : c3 = mkCfg w' (f :: rest) (c_nextfid c2) (c_nextpid c2)).
    { destruct xs; cbn [app] in Ha; congruence. }
    subst c3. apply (after_call_lost b _ l c f rest (mkCfg w' (f :: rest) (c_nextfid c2) (c_nextpid c2)) c'); auto.
  Qed.

  Lemma inside_open : forall lim body, inside true body -> inside true [Unfinished lim body].
  Proof.
    intros lim body IHb c f rest c' Hc Hr Hn H.
    cbn [flat_map actions] in H. rewrite app_nil_r in H. cbn [run] in H.
    destruct (step pol c (ACall false lim)) as [c1|] eqn:Hs; [|discriminate].
    apply (step_call c f rest) in Hs; [|exact Hc]. subst c1.
    assert (Hst : c_stack (push c f false lim) = mkFrame (c_nextfid c) false (f_readonly f)
        (if f_readonly f then None else Some (c_world c)) 0 lim [] [] [] :: f :: rest).
    { unfold push. cbn. rewrite Hc. reflexivity. }
    pose proof (IHb _ _ (f :: rest) c' Hst ltac:(discriminate) ltac:(cbn; lia) H) as Q.
    destruct Q as (Q1 & Q2 & xs & g & rest' & Q3 & _ & Q4 & Q5 & Q6 & Q7 & Q8 & Q9 & Q10 & _).
    unfold below in Q10. cbn [f_fid] in Q10.
    destruct (Nat.eqb_spec (c_nextfid c) 2); [lia|]. subst rest'.
    cbn [f_sync] in Q6. cbn in Q1.
    split; [exact Q1|]. split; [exact Q2|]. exists (xs ++ [g]), f, rest.
    split; [rewrite <- app_assoc; exact Q3|]. split; [discriminate|].
    split; [apply Forall_app; auto|]. split; [reflexivity|]. split; [reflexivity|]. split; [reflexivity|].
    split; [cbn; rewrite orb_false_r; reflexivity|]. split; [reflexivity|].
    split; [apply below_refl|]. split; [auto|].
    split. { intros o Ho. cbn. destruct (heard f); exact Ho. }
    split; [auto|]. intros _. exists []. cbn. rewrite app_nil_r.
    split; [reflexivity|]. split; [auto|]. split; [constructor|]. split; [constructor|]. split; [constructor|].
    congruence.
  Qed.

  Lemma deduct_used : forall (f : frame) n, f_used (deduct f n) = Z.min (f_limit f) (f_used f + n).
  Proof. intros f n. unfold deduct. cbn. destruct (Z.ltb_spec (f_limit f) (f_used f + n)); lia. Qed.

  Lemma inside_called : forall b sync lim body used st l,
    inside false body -> inside b l -> inside b (Called sync lim body used st :: l).
  Proof.
    intros b sync lim body used st l IHb IHl c f rest c' Hc Hr Hn H.
    cbn [flat_map actions] in H. rewrite run_app in H. cbn [app run] in H.
    destruct (step pol c (ACall sync lim)) as [c1|] eqn:Hs; [|discriminate].
    apply (step_call c f rest) in Hs; [|exact Hc]. subst c1.
    rewrite run_app in H. destruct (run pol (push c f sync lim) (flat_map actions body)) as [c2|] eqn:Hb; [|discriminate].
    assert (Hst : c_stack (push c f sync lim) = mkFrame (c_nextfid c) sync (f_readonly f)
        (if f_readonly f then None else Some (c_world c)) 0 lim [] [] [] :: f :: rest).
    { unfold push. cbn. rewrite Hc. reflexivity. }
    pose proof (IHb _ _ (f :: rest) c2 Hst ltac:(discriminate) ltac:(cbn; lia) Hb) as Q.
    destruct Q as (Q1 & Q2 & xs & g & rest' & Q3 & Q3' & Q4 & Q5 & Q6 & Q7 & Q8 & Q9 & Q10 & Q11 & Q12 & Q13 & Q14).
    specialize (Q3' eq_refl). subst xs. cbn [app] in Q3.
    unfold below in Q10. cbn [f_fid] in Q10, Q5.
    destruct (Nat.eqb_spec (c_nextfid c) 2) as [|Hf2]; [lia|]. subst rest'.
    cbn [f_limit] in Q7, Q9. cbn [f_readonly f_used f_payers] in *. cbn [c_nextpid push] in Q1, Q13, Q14.
    assert (Hg2 : Nat.eqb (f_fid g) 2 = false) by (rewrite Q5; apply Nat.eqb_neq; exact Hf2).
    cbn [run] in H. destruct (step pol c2 (AReturn used st)) as [c3|] eqn:Ha; [|discriminate].
    unfold step in Ha. rewrite Q3 in Ha. injection Ha as <-. unfold pop in H.
    change (f_readonly (deduct g used)) with (f_readonly g) in H.
    destruct (f_readonly g) eqn:Hrg.
    { apply (after_call_lost b _ l c f rest (mkCfg (c_world c2) (f :: rest) (c_nextfid c2) (c_nextpid c2)) c'); auto.
      intro Hrf. cbn [sharing]. destruct st; [reflexivity|].
      rewrite Hrf in Q8. cbn in Q8. rewrite <- Q8. reflexivity. }
    destruct st as [code|].
    { cbv beta iota in H. match type of H with run _ ?x _ = _ => set (c3 := x) in * end.
      apply (after_call_lost b _ l c f rest c3 c'); auto. }
    cbv beta iota in H. match type of H with run _ ?x _ = _ => set (c3 := x) in * end.
    symmetry in Q8. apply orb_false_iff in Q8. destruct Q8 as [Hrf Hrb].
    destruct (Q14 eq_refl) as (L & E1 & E2 & E3 & E4 & E5 & E6). cbn [removelast app] in E1.
    assert (Hsg : slot g (f :: rest) = own_of (f_payers g)) by (unfold slot; rewrite Hg2; reflexivity).
    assert (Hag : own_is (own_of (f_payers g)) (if many then fold_left agreement body None else None)).
    { rewrite <- Hsg. specialize (Q12 None).
      assert (X : own_is (slot (mkFrame (W:=W) (E:=E) (M:=M) (c_nextfid c) sync (f_readonly f)
                   (if f_readonly f then None else Some (c_world c)) 0 lim [] [] []) (f :: rest)) None).
      { unfold slot. cbn [f_fid f_payers]. destruct (Nat.eqb_spec (c_nextfid c) 2); [lia|]. exact Logic.I. }
      specialize (Q12 X). unfold heard in Q12. cbn [f_fid] in Q12.
      destruct (Nat.eqb_spec (c_nextfid c) 2); [lia|]. exact Q12. }
    destruct (merge_payers (f_payers g) L (flat_map (sharing many) body) (f_used (deduct g used)) _ E1 E3 Hag)
      as (L' & M1 & M2 & M3).
    change (f_payers (deduct g used)) with (f_payers g) in c3.
    set (f1 := mkFrame (f_fid f) (f_sync f) (f_readonly f) (f_snap f) (f_used f) (f_limit f)
        (f_logs f ++ f_logs (deduct g used)) (f_msgs f ++ f_msgs (deduct g used))
        (apply_payers (f_payers f) (f_payers g) (f_used (deduct g used)))) in *.
    assert (Hp1 : f_payers f1 = (removelast (f_payers f) ++ map Some L') ++ [own_of (f_payers f)]).
    { unfold f1, apply_payers. cbn [f_payers]. rewrite M1, app_assoc. reflexivity. }
    assert (Hslot : slot f1 rest = slot f rest).
    { unfold slot. change (f_fid f1) with (f_fid f). destruct (Nat.eqb (f_fid f) 2); [reflexivity|].
      rewrite Hp1. apply own_snoc. }
    assert (Hids : Forall (fun i => (c_nextpid c <= i < c_nextpid c2)%nat) (map p_id L') /\ NoDup (map p_id L')).
    { rewrite M3. rewrite Hsg in Q13, E6.
      assert (Hslot0 : slot (mkFrame (W:=W) (E:=E) (M:=M) (A:=A) (c_nextfid c) sync (f_readonly f)
                   (if f_readonly f then None else Some (c_world c)) 0 lim [] [] []) (f :: rest) = None).
      { unfold slot. cbn [f_fid f_payers]. destruct (Nat.eqb_spec (c_nextfid c) 2); [lia|]. reflexivity. }
      rewrite Hslot0 in Q13, E6. split.
      - apply Forall_app. split; [exact E4|]. destruct Q13 as [Q13|Q13]; [rewrite Q13; constructor|exact Q13].
      - apply nodup_app. split; [exact E5|]. split; [destruct (own_of (f_payers g)); repeat constructor; auto|].
        intros i I1 I2. destruct (own_of (f_payers g)) as [o|]; [|destruct I2].
        exact (E6 ltac:(discriminate) i I2 I1). }
    apply (after_cons b _ l c f rest c3 f1 rest c' L'); auto.
    - cbn. rewrite orb_false_r. reflexivity.
    - apply below_refl.
    - intros _ X. rewrite Hp1. rewrite own_snoc. exact X.
    - intros o Ho. rewrite Hslot. cbn [agreement]. destruct (heard f); exact Ho.
    - intros _. rewrite Hp1, removelast_snoc.
      split; [reflexivity|]. split; [intro X; destruct (removelast (f_payers f) ++ map Some L'); discriminate|].
      split.
      { cbn [sharing]. rewrite Hrb. replace (used_by lim body used) with (f_used (deduct g used)).
        - rewrite <- (app_nil_r L'). constructor; [exact M2|constructor].
        - rewrite deduct_used, Q7, Q9. reflexivity. }
      split; [exact (proj1 Hids)|]. split; [exact (proj2 Hids)|]. rewrite Hslot. congruence.
  Qed.

  Theorem inside_tree : forall b body, tree b body -> inside b body.
  Proof.
    intros b body T. induction T.
    - intros c f rest c' Hc Hr Hn H. cbn in H. injection H as <-. apply after_nil; assumption.
    - intros c f rest c' Hc Hr Hn H. cbn [flat_map actions app run step] in H. unfold step in H. rewrite Hc in H.
      destruct (f_readonly f) eqn:Hro.
      + apply (after_leaf b _ l c f rest c f c'); auto. cbn. rewrite orb_false_r. reflexivity.
      + match type of H with run _ ?x _ = _ => set (c1 := x) in * end.
        apply (after_leaf b _ l c f rest c1 f c'); auto. cbn. rewrite orb_false_r. reflexivity.
    - intros c f rest c' Hc Hr Hn H. cbn [flat_map actions app run] in H. unfold step in H. rewrite Hc in H.
      match type of H with run _ ?x _ = _ => set (c1 := x) in * end.
      assert (X : forall e, f_payers (add_log f e) = f_payers f /\ f_fid (add_log f e) = f_fid f /\
         f_sync (add_log f e) = f_sync f /\ f_limit (add_log f e) = f_limit f /\
         f_readonly (add_log f e) = f_readonly f /\ f_used (add_log f e) = f_used f).
      { intro e0. unfold add_log. destruct (f_readonly f) eqn:Y; cbn; repeat split; auto. }
      destruct (X e) as (X1 & X2 & X3 & X4 & X5 & X6).
      apply (after_leaf b _ l c f rest c1 (add_log f e) c'); auto.
      cbn. rewrite orb_false_r. exact X5.
    - intros c f rest c' Hc Hr Hn H. cbn [flat_map actions app run] in H. unfold step in H. rewrite Hc in H.
      match type of H with run _ ?x _ = _ => set (c1 := x) in * end.
      assert (X : forall e, f_payers (add_msg f e) = f_payers f /\ f_fid (add_msg f e) = f_fid f /\
         f_sync (add_msg f e) = f_sync f /\ f_limit (add_msg f e) = f_limit f /\
         f_readonly (add_msg f e) = f_readonly f /\ f_used (add_msg f e) = f_used f).
      { intro e0. unfold add_msg. destruct (f_readonly f) eqn:Y; cbn; repeat split; auto. }
      destruct (X m) as (X1 & X2 & X3 & X4 & X5 & X6).
      apply (after_leaf b _ l c f rest c1 (add_msg f m) c'); auto.
      cbn. rewrite orb_false_r. exact X5.
    - intros c f rest c' Hc Hr Hn H. cbn [flat_map actions app run] in H. unfold step in H. rewrite Hc in H.
      match type of H with run _ ?x _ = _ => set (c1 := x) in * end.
      apply (after_leaf b _ l c f rest c1 (deduct f n) c'); auto.
      + cbn. rewrite orb_false_r. reflexivity.
      + apply deduct_used.
    - apply inside_agreed. assumption.
    - intros c f rest c' Hc Hr Hn H. cbn [flat_map actions app run] in H. unfold step in H. rewrite Hc in H.
      destruct rest as [|p r]; [congruence|]. unfold enter_readonly in H.
      destruct (f_readonly f) eqn:Hro.
      + apply (after_leaf b _ l c f (p :: r) c f c'); auto. rewrite Hro. reflexivity.
      + match type of H with run _ ?x _ = _ => set (c1 := x) in * end.
        match eval unfold c1 in c1 with mkCfg _ (?g :: _) _ _ => set (f1 := g) in * end.
        apply (after_leaf b _ l c f (p :: r) c1 f1 c'); auto.
        cbn. rewrite orb_true_r. reflexivity.
    - apply inside_called; assumption.
    - apply inside_cut; assumption.
    - apply inside_open; assumption.
  Qed.
End Frames.
