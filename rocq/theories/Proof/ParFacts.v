(* Lists, locks and frames for parallel execution (for C60, C61). *)
From Coq Require Import List Bool Arith Lia.
From Verif Require Import Model.ParallelExec Spec.ParallelSpec.
Import ListNotations.

(* ---- lists ---- *)
Lemma assoc_replace : forall A id (v : A) l k, assoc id l <> None ->
  assoc k (replace id v l) = if Nat.eqb k id then Some v else assoc k l.
Proof.
  intros A id v. induction l as [|(x, y) l IH]; intros k N; cbn in *; [contradiction|].
  destruct (Nat.eqb_spec x id) as [->|Nx].
  - cbn. destruct (Nat.eqb_spec k id) as [->|Nk]; [rewrite Nat.eqb_refl; reflexivity|].
    rewrite (proj2 (Nat.eqb_neq id k)) by auto. reflexivity.
  - cbn. rewrite IH by exact N. destruct (Nat.eqb_spec x k) as [->|Nk]; [|reflexivity].
    rewrite (proj2 (Nat.eqb_neq k id)) by auto. reflexivity.
Qed.
Lemma keys_replace : forall A id (v : A) l, map fst (replace id v l) = map fst l.
Proof. intros A id v. induction l as [|(x, y) l IH]; cbn; [reflexivity|]. destruct (Nat.eqb x id); cbn; congruence. Qed.
Lemma assoc_in : forall A id (v : A) l, assoc id l = Some v -> In (id, v) l.
Proof.
  intros A id v. induction l as [|(x, y) l IH]; cbn; [discriminate|]. destruct (Nat.eqb_spec x id) as [->|N]; intros E.
  - injection E as <-. auto.
  - auto.
Qed.
Lemma in_assoc : forall A id (v : A) l, NoDup (map fst l) -> In (id, v) l -> assoc id l = Some v.
Proof.
  intros A id v. induction l as [|(x, y) l IH]; cbn; intros ND H; [destruct H|]. inversion ND as [|? ? N1 N2]. subst. destruct H as [H|H].
  - injection H as -> ->. rewrite Nat.eqb_refl. reflexivity.
  - destruct (Nat.eqb_spec x id) as [->|N]; [|auto]. destruct N1. apply (in_map fst) in H. exact H.
Qed.
Lemma assoc_none : forall A id (l : list (nat * A)), assoc id l = None <-> ~ In id (map fst l).
Proof.
  intros A id. induction l as [|(x, y) l IH]; cbn; [split; auto|]. destruct (Nat.eqb_spec x id) as [->|N].
  - split; [discriminate|]. intros F. destruct F. auto.
  - rewrite IH. tauto.
Qed.
Lemma assoc_app : forall A id (l l' : list (nat * A)), assoc id (l ++ l') = match assoc id l with Some v => Some v | None => assoc id l' end.
Proof. intros A id. induction l as [|(x, y) l IH]; intros l'; cbn; [reflexivity|]. destruct (Nat.eqb x id); auto. Qed.

Lemma set_nth_len : forall A i (v : A) l, length (set_nth i v l) = length l.
Proof. intros A i v l. revert i. induction l as [|x l IH]; intros [|i]; cbn; auto. Qed.
Lemma set_nth_get : forall A i (v : A) l j, i < length l -> nth_error (set_nth i v l) j = if Nat.eqb j i then Some v else nth_error l j.
Proof.
  intros A i v l. revert i. induction l as [|x l IH]; intros i j H; cbn in H; [lia|]. destruct i as [|i], j as [|j]; cbn; auto.
  apply IH. lia.
Qed.

(* ---- locks ---- *)
Definition sys_req : req := (Some system_id, RLock).
Definition world_w (reqs : list req) : bool := existsb (fun r => match r with (None, WLock) => true | _ => false end) reqs.
Definition acct_w (reqs : list req) (id : nat) : bool := existsb (fun r => match r with (Some k, WLock) => Nat.eqb k id | _ => false end) reqs.
Definition wr (reqs : list req) (id : nat) : bool := world_w reqs || acct_w reqs id.
Definition acct_any (reqs : list req) (id : nat) : bool := existsb (fun r => match r with (Some k, _) => Nat.eqb k id | _ => false end) (reqs ++ [sys_req]).

Lemma wr_spec : forall reqs id, wr reqs id = true <-> may_write reqs id.
Proof.
  intros reqs id. unfold wr, may_write, world_w, acct_w. rewrite orb_true_iff, !existsb_exists. split.
  - intros [((o, l) & Hin & E)|((o, l) & Hin & E)].
    + destruct o; [discriminate E|]. destruct l; try discriminate E. left. exact Hin.
    + destruct o as [k|]; [|discriminate E]. destruct l; try discriminate E. apply Nat.eqb_eq in E. subst k. right. exact Hin.
  - intros [H|H].
    + left. exists (None, WLock). auto.
    + right. exists (Some id, WLock). split; [exact H|]. apply Nat.eqb_refl.
Qed.
Lemma any_spec : forall reqs id, good_requests reqs -> may_read reqs id -> world_w reqs = false -> acct_any reqs id = true.
Proof.
  intros reqs id G H NW. unfold acct_any. apply existsb_exists. destruct H as [[H|H]|[H| ->]].
  - exfalso. unfold world_w in NW. apply not_true_iff_false in NW. apply NW. apply existsb_exists. exists (None, WLock). auto.
  - exists (Some id, WLock). split; [apply in_or_app; auto|apply Nat.eqb_refl].
  - exists (Some id, RLock). split; [apply in_or_app; auto|apply Nat.eqb_refl].
  - exists sys_req. split; [apply in_or_app; right; left; reflexivity|reflexivity].
Qed.

Lemma world_lock_good : forall reqs, good_requests reqs ->
  world_lock (reqs ++ [sys_req]) = if world_w reqs then WLock else NoLock.
Proof.
  intros reqs G. unfold world_lock. rewrite fold_left_app. cbn [fold_left fst sys_req].
  set (f := fun (l : lk) (r : req) => match fst r with None => if Nat.ltb (lk_rank l) (lk_rank (snd r)) then snd r else l | Some _ => l end).
  assert (K : forall l, good_requests l -> forall a, a = WLock \/ a = NoLock ->
    fold_left f l a = match a with WLock => WLock | _ => if world_w l then WLock else NoLock end).
  { induction l as [|(o, k) l IH]; intros Gl a Ha; cbn.
    - destruct Ha as [->| ->]; reflexivity.
    - assert (Gl' : good_requests l) by (intros r Hr; apply Gl; right; exact Hr).
      pose proof (Gl (o, k) (or_introl eq_refl)) as Gk. cbn in Gk. destruct o as [id|]; cbn.
      + rewrite IH by assumption. reflexivity.
      + destruct Gk as [->|(-> & F)]; [|destruct F; reflexivity]. destruct Ha as [->| ->]; cbn; rewrite IH by auto; reflexivity. }
  rewrite K by auto. reflexivity.
Qed.

Section Locks.
Variables V R : Type.
Notation las := (las V).

Definition fresh (a : las) : Prop := a = mkLas (l_lock a) None None None.
Definition lock_inv (seen : list req) (l : list (nat * las)) : Prop :=
  NoDup (map fst l) /\ forall id,
    match assoc id l with
    | Some a => fresh a /\ existsb (fun r => match r with (Some k, _) => Nat.eqb k id | _ => false end) seen = true /\
                l_lock a = if acct_w seen id then WLock else RLock
    | None => existsb (fun r => match r with (Some k, _) => Nat.eqb k id | _ => false end) seen = false
    end.

Lemma replace_nodup : forall A id (v : A) l, NoDup (map fst l) -> NoDup (map fst (replace id v l)).
Proof. intros. rewrite keys_replace. assumption. Qed.

Lemma acct_w_app : forall seen r id, acct_w (seen ++ [r]) id = acct_w seen id || match r with (Some k, WLock) => Nat.eqb k id | _ => false end.
Proof. intros. unfold acct_w. rewrite existsb_app. cbn [existsb]. rewrite orb_false_r. reflexivity. Qed.
Definition any0 (seen : list req) (id : nat) : bool := existsb (fun r => match r with (Some k, _) => Nat.eqb k id | _ => false end) seen.
Lemma any0_app : forall seen r id, any0 (seen ++ [r]) id = any0 seen id || match r with (Some k, _) => Nat.eqb k id | _ => false end.
Proof. intros. unfold any0. rewrite existsb_app. cbn [existsb]. rewrite orb_false_r. reflexivity. Qed.
Lemma acct_w_any0 : forall seen id, acct_w seen id = true -> any0 seen id = true.
Proof.
  intros seen id E. unfold acct_w in E. apply existsb_exists in E. destruct E as ((o', k') & Hin & E'). destruct o' as [x|]; [|discriminate E']. destruct k'; try discriminate E'.
  apply existsb_exists. exists (Some x, WLock). auto.
Qed.
Lemma add_lock_inv : forall seen l r, (snd r = WLock \/ snd r = RLock /\ fst r <> None) -> lock_inv seen l ->
  lock_inv (seen ++ [r]) (add_lock NoLock l r).
Proof.
  intros seen l (o, k) G (ND & H). change (forall id, match assoc id l with Some a => fresh a /\ any0 seen id = true /\ l_lock a = (if acct_w seen id then WLock else RLock) | None => any0 seen id = false end) in H.
  destruct o as [id|].
  2:{ unfold add_lock. cbn [fst]. split; [exact ND|]. intros i. specialize (H i). fold (any0 (seen ++ [(None, k)]) i). rewrite any0_app, acct_w_app, !orb_false_r. exact H. }
  cbn [snd fst] in G. unfold add_lock. cbn [fst snd].
  assert (Lr : Nat.leb (lk_rank k) (lk_rank NoLock) = false) by (destruct G as [->|(-> & _)]; reflexivity). rewrite Lr.
  assert (Oth : forall i, i <> id -> match assoc i l with Some a => fresh a /\ any0 (seen ++ [(Some id, k)]) i = true /\ l_lock a = (if acct_w (seen ++ [(Some id, k)]) i then WLock else RLock) | None => any0 (seen ++ [(Some id, k)]) i = false end).
  { intros i Ni. rewrite any0_app, acct_w_app, (proj2 (Nat.eqb_neq id i)) by auto.
    replace (acct_w seen i || match k with WLock => false | _ => false end) with (acct_w seen i) by (destruct k; rewrite orb_false_r; reflexivity).
    rewrite orb_false_r. exact (H i). }
  assert (Me : any0 (seen ++ [(Some id, k)]) id = true) by (rewrite any0_app, Nat.eqb_refl, orb_true_r; reflexivity).
  destruct (assoc id l) as [a|] eqn:Ea.
  - pose proof (H id) as Hid. rewrite Ea in Hid. destruct Hid as (Fa & Sa & La).
    destruct (Nat.ltb (lk_rank (l_lock a)) (lk_rank k)) eqn:Lt.
    + split; [apply replace_nodup; exact ND|]. intros i. fold (any0 (seen ++ [(Some id, k)]) i). rewrite assoc_replace by congruence.
      destruct (Nat.eqb_spec i id) as [->|Ni]; [|exact (Oth i Ni)].
      split; [reflexivity|]. split; [exact Me|]. cbn [l_lock]. rewrite acct_w_app. destruct G as [->|(-> & _)].
      * rewrite Nat.eqb_refl, orb_true_r. reflexivity.
      * rewrite orb_false_r. rewrite La in Lt. destruct (acct_w seen id); cbn in Lt; discriminate Lt.
    + split; [exact ND|]. intros i. fold (any0 (seen ++ [(Some id, k)]) i). destruct (Nat.eq_dec i id) as [->|Ni]; [|exact (Oth i Ni)].
      rewrite Ea. split; [exact Fa|]. split; [exact Me|]. rewrite acct_w_app. destruct G as [->|(-> & _)].
      * rewrite Nat.eqb_refl, orb_true_r. rewrite La in *. destruct (acct_w seen id); [reflexivity|discriminate Lt].
      * rewrite orb_false_r. exact La.
  - pose proof (H id) as Hid. rewrite Ea in Hid. split.
    + rewrite map_app. cbn. apply assoc_none in Ea. clear -ND Ea. induction (map fst l) as [|x m IH]; cbn; [constructor; [intros []|constructor]|].
      inversion ND as [|? ? N1 N2]. constructor.
      * intros F. apply in_app_or in F. destruct F as [F|[F|[]]]; [auto|]. apply Ea. left. auto.
      * apply IH; auto. intros F. apply Ea. right. exact F.
    + intros i. fold (any0 (seen ++ [(Some id, k)]) i). rewrite assoc_app. cbn [assoc]. destruct (Nat.eqb_spec id i) as [<-|Ni].
      * rewrite Ea. split; [reflexivity|]. split; [exact Me|]. cbn [l_lock]. rewrite acct_w_app. destruct G as [->|(-> & _)].
        -- rewrite Nat.eqb_refl, orb_true_r. reflexivity.
        -- rewrite orb_false_r. destruct (acct_w seen id) eqn:Ex; [|reflexivity]. apply acct_w_any0 in Ex. congruence.
      * pose proof (Oth i (fun F => Ni (eq_sym F))) as O. destruct (assoc i l); exact O.
Qed.

Lemma locks_fold : forall more seen l, good_requests more -> lock_inv seen l -> lock_inv (seen ++ more) (fold_left (add_lock NoLock) more l).
Proof.
  induction more as [|r more IH]; intros seen l G H; cbn; [rewrite app_nil_r; exact H|].
  replace (seen ++ r :: more) with ((seen ++ [r]) ++ more) by (rewrite <- app_assoc; reflexivity).
  apply IH; [intros x Hx; apply G; right; exact Hx|]. apply add_lock_inv; [apply (G r); left; reflexivity|exact H].
Qed.

Lemma locks_good : forall reqs, good_requests reqs ->
  let l := fold_left (add_lock NoLock) (reqs ++ [sys_req]) [] in
  NoDup (map fst l) /\ forall id,
    match assoc id l with
    | Some a => fresh a /\ acct_any reqs id = true /\ l_lock a = if acct_w reqs id then WLock else RLock
    | None => acct_any reqs id = false
    end.
Proof.
  intros reqs G l.
  assert (H : lock_inv (reqs ++ [sys_req]) l).
  { apply (locks_fold (reqs ++ [sys_req]) [] []).
    - intros r Hr. apply in_app_or in Hr. destruct Hr as [Hr|[<-|[]]]; [apply G; exact Hr|]. right. split; [reflexivity|discriminate].
    - split; [constructor|]. intros id. reflexivity. }
  destruct H as (ND & H). split; [exact ND|]. intros id. specialize (H id). destruct (assoc id l) as [a|]; [|exact H].
  destruct H as (A & B & C). split; [exact A|]. split; [exact B|]. rewrite C. unfold acct_w. rewrite existsb_app. cbn. rewrite orb_false_r. reflexivity.
Qed.

(* ---- binding ---- *)
Lemma bind_spec : forall first me real wl l lockers ro accts lockers' ro',
  NoDup (map fst l) -> (first = true -> forall id, In id (map fst l) -> get_locker id lockers wl = None) ->
  bind_accts first me real l lockers wl ro = (accts, lockers', ro') ->
  map fst accts = map fst l /\
  (forall id, match assoc id l with
     | None => assoc id accts = None
     | Some a => exists st : option (acc V), assoc id accts = Some (mkLas (l_lock a) st None (get_locker id lockers wl)) /\
         match get_locker id lockers wl, l_lock a with
         | Some _, _ => st = None
         | None, WLock => st = Some (Live)
         | None, _ => exists v, st = Some (Frozen v) /\ (assoc id ro = Some v \/ v = real id)
         end
     end) /\
  (forall id, get_locker id lockers' wl = match assoc id l with
                | Some a => match l_lock a with WLock => Some me | _ => get_locker id lockers wl end
                | None => get_locker id lockers wl end) /\
  (forall id v, assoc id ro' = Some v -> assoc id ro = Some v \/ (v = real id /\ get_locker id lockers wl = None)).
Proof.
  intros first me real wl. induction l as [|(id, a) l IH]; intros lockers ro accts lockers' ro' ND HF E.
  - cbn in E. injection E as <- <- <-. split; [reflexivity|]. split; [reflexivity|]. split; [reflexivity|]. auto.
  - cbn [bind_accts] in E. inversion ND as [|? ? N1 N2]. subst.
    assert (HD : (if first then None else get_locker id lockers wl) = get_locker id lockers wl).
    { destruct first; [|reflexivity]. symmetry. apply (HF eq_refl). left. reflexivity. }
    rewrite HD in E. clear HD.
    set (dep := get_locker id lockers wl) in *.
    destruct (match dep with Some _ => (None, ro) | None => match l_lock a with WLock => (Some (Live), ro) | _ => let '(v, ro1) := ro_account real ro id in (Some (Frozen v), ro1) end end) as (st, ro1) eqn:Eq.
    set (lk1 := match l_lock a with WLock => (id, me) :: lockers | _ => lockers end) in *.
    destruct (bind_accts first me real l lk1 wl ro1) as ((r, lk2), ro2) eqn:Er. injection E as <- <- <-.
    assert (GL : forall k, k <> id -> get_locker k lk1 wl = get_locker k lockers wl).
    { intros k Nk. unfold lk1, get_locker. destruct (l_lock a); try reflexivity. cbn. rewrite (proj2 (Nat.eqb_neq id k)) by auto. reflexivity. }
    assert (Hroid : forall k v, assoc k ro1 = Some v -> assoc k ro = Some v \/ (v = real k /\ k = id /\ dep = None)).
    { intros k v Ek. destruct dep; [injection Eq as _ <-; auto|].
      assert (X : forall st' r', (let '(v, ro1) := ro_account real ro id in (Some (Frozen v), ro1)) = (st', r') ->
         assoc k r' = Some v -> assoc k ro = Some v \/ (v = real k /\ k = id /\ @None nat = None)).
      { intros st' r' E1 E2. unfold ro_account in E1. destruct (assoc id ro) as [v1|] eqn:Ei; injection E1 as <- <-; [auto|].
        cbn in E2. destruct (Nat.eqb_spec id k) as [->|N]; [injection E2 as <-; auto|auto]. }
      destruct (l_lock a); [exact (X _ _ Eq Ek)|exact (X _ _ Eq Ek)|injection Eq as _ <-; auto|exact (X _ _ Eq Ek)]. }
    assert (HFf : first = true -> forall k, In k (map fst l) -> get_locker k lk1 wl = None).
    { intros F k Hk. rewrite GL; [apply (HF F); right; exact Hk|]. intros ->. exact (N1 Hk). }
    destruct (IH lk1 ro1 r lk2 ro2 N2 HFf Er) as (K1 & K2 & K3 & K4). split; [cbn; congruence|]. split; [|split].
      * intros k. cbn [assoc]. destruct (Nat.eqb_spec id k) as [->|Nk].
        -- exists st. split; [reflexivity|]. fold dep. destruct dep; [injection Eq as <- _; reflexivity|].
           assert (X : (let '(v, ro1) := ro_account real ro k in (Some (Frozen v), ro1)) = (st, ro1) -> exists v, st = Some (Frozen v) /\ (assoc k ro = Some v \/ v = real k)).
           { unfold ro_account. destruct (assoc k ro) as [v1|] eqn:Ei; intros E1; injection E1 as <- <-; eauto. }
           destruct (l_lock a); [exact (X Eq)|exact (X Eq)|injection Eq as <- _; reflexivity|exact (X Eq)].
        -- specialize (K2 k). rewrite GL in K2 by auto. destruct (assoc k l) as [a1|]; [|exact K2]. destruct K2 as (st1 & E1 & E2). exists st1. split; [exact E1|].
           destruct (get_locker k lockers wl); [exact E2|].
           assert (X : (exists v, st1 = Some (Frozen v) /\ (assoc k ro1 = Some v \/ v = real k)) -> exists v, st1 = Some (Frozen v) /\ (assoc k ro = Some v \/ v = real k)).
           { intros (v & Ev & [Ho|Ho]); [destruct (Hroid k v Ho) as [H|(H & _)]|]; eauto. }
           destruct (l_lock a1); [exact (X E2)|exact (X E2)|exact E2|exact (X E2)].
      * intros k. rewrite K3. cbn [assoc]. destruct (Nat.eqb_spec id k) as [->|Nk].
        -- assert (En : assoc k l = None) by (apply assoc_none; exact N1). rewrite En. unfold lk1, get_locker. destruct (l_lock a); try reflexivity.
           cbn. rewrite Nat.eqb_refl. reflexivity.
        -- rewrite GL by auto. reflexivity.
      * intros k v Ek. destruct (K4 k v Ek) as [H|(H & Hg)].
        -- destruct (Hroid k v H) as [H'|(H' & -> & Hd)]; auto.
        -- destruct (Nat.eq_dec k id) as [->|Nk].
           ++ right. split; [exact H|]. unfold lk1, get_locker in Hg. unfold get_locker. destruct (l_lock a); try exact Hg. cbn in Hg. rewrite Nat.eqb_refl in Hg. discriminate Hg.
           ++ rewrite GL in Hg by auto. auto.
Qed.
End Locks.
