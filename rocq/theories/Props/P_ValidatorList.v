(** C42: the validator list of a block under execution and its snapshots. *)
From Verif Require Import Model.HvhState Model.ValidatorList Spec.ValidatorListSpec Proof.ValidatorListFacts.
From Coq Require Import ZArith List Bool Arith Lia.
Import ListNotations.
Open Scope nat_scope.

(** Running operations; a reset must name a snapshot that was handed out ([known]). *)
Fixpoint vrun (ops : list vop) (s : vstate) : list vres * vstate :=
  match ops with
  | [] => ([], s)
  | op :: r => let '(x, s1) := vstep op s in let '(xs, s2) := vrun r s1 in (x :: xs, s2)
  end.
Fixpoint fair (known : list nat) (ops : list vop) (s : vstate) : Prop :=
  match ops with
  | [] => True
  | op :: r =>
      (match op with VReset p => In p known | _ => True end) /\
      let '(x, s1) := vstep op s in
      fair (match op, x with VSnapshot, RNum p => p :: known | _, _ => known end) r s1
  end.
Inductive spec_run : list validator -> table -> list vop -> list vres -> list validator -> table -> Prop :=
| R_nil l t : spec_run l t [] [] l t
| R_cons l t op x l1 t1 r xs l2 t2 :
    spec l t op x l1 t1 -> spec_run l1 t1 r xs l2 t2 -> spec_run l t (op :: r) (x :: xs) l2 t2.

Lemma run_spec ops : forall rest s t known, inv s t -> (forall p, In p known -> t p <> None) -> fair known (ops ++ rest) s ->
  exists t' known', spec_run (c_list (cur s)) t ops (fst (vrun ops s)) (c_list (cur (snd (vrun ops s)))) t' /\
    inv (snd (vrun ops s)) t' /\ (forall p l, t p = Some l -> t' p = Some l) /\
    (forall p, In p known' -> t' p <> None) /\ fair known' rest (snd (vrun ops s)).
Proof.
  induction ops as [|op r IH]; intros rest s t known iv kn fr; cbn [vrun app] in *.
  - exists t, known. split; [constructor|]. split; [exact iv|]. auto.
  - cbn [fair] in fr. destruct fr as [f1 f2].
    pose proof (vstep_spec s t op iv) as H. destruct (vstep op s) as [x s1] eqn:E.
    destruct H as (t1 & S1 & I1 & M1). { intros p ->. apply kn. auto. }
    assert (K1 : forall p, In p (match op, x with VSnapshot, RNum q => q :: known | _, _ => known end) -> t1 p <> None).
    { intros p Hp. assert (G : In p known -> t1 p <> None).
      { intros Hk. specialize (kn p Hk). destruct (t p) as [l|] eqn:T; [rewrite (M1 p l T); congruence | contradiction]. }
      destruct op; auto. destruct x as [| |q|]; auto. destruct Hp as [-> | Hp]; [|auto]. inversion S1. subst. congruence. }
    destruct (IH rest s1 t1 _ I1 K1 f2) as (t2 & k2 & S2 & I2 & M2 & K2 & F2). destruct (vrun r s1) as [xs s2]. cbn [fst snd] in *.
    exists t2, k2. split; [econstructor; eauto|]. split; [exact I2|]. auto.
Qed.
Lemma vrun_app a b : forall s, snd (vrun (a ++ b) s) = snd (vrun b (snd (vrun a s))).
Proof.
  induction a as [|op r IH]; intros s; cbn [app vrun]; [auto|]. destruct (vstep op s) as [x s1]. specialize (IH s1).
  destruct (vrun (r ++ b) s1), (vrun r s1). auto.
Qed.

(** Whatever is done to a list of validators loaded without duplicates — lookups, changes, snapshots, resets, in any
    order — every answer and the resulting content are those of a plain duplicate-free list, and every snapshot keeps
    the content it was taken with.  The cached index and the sharing of lists between a state and its snapshots are
    never visible. *)
Theorem C42_list l ops : NoDup (addrs l) -> fair [0] ops (load_v l) ->
  let '(xs, s) := vrun ops (load_v l) in
  exists t, spec_run l (fun p => if Nat.eqb p 0 then Some l else None) ops xs (c_list (cur s)) t /\
    NoDup (addrs (c_list (cur s))).
Proof.
  intros nd fr. destruct (run_spec ops [] (load_v l) _ [0] (load_inv l nd)) as (t & k & S1 & I1 & _).
  - intros p [<- | []]. discriminate.
  - rewrite app_nil_r. exact fr.
  - destruct (vrun ops (load_v l)) as [xs s]. exists t. split; [exact S1 | apply I1].
Qed.
Print Assumptions C42_list.

(** In particular going back to a snapshot restores exactly what it was taken of. *)
Theorem C42_snapshot l ops1 ops2 p s1 s2 : NoDup (addrs l) ->
  fair [0] (ops1 ++ VSnapshot :: ops2 ++ [VReset p]) (load_v l) ->
  s1 = snd (vrun ops1 (load_v l)) ->
  vstep VSnapshot s1 = (RNum p, s2) ->
  c_list (cur (snd (vrun (ops2 ++ [VReset p]) s2))) = c_list (cur s1).
Proof.
  intros nd fr E1 E.
  destruct (run_spec ops1 _ (load_v l) _ [0] (load_inv l nd) ltac:(intros q [<- | []]; discriminate) fr)
    as (t & k & _ & I1 & _ & K1 & F1). rewrite <- E1 in *.
  cbn [fair] in F1. rewrite E in F1. destruct F1 as [_ F1].
  pose proof (vstep_spec s1 t VSnapshot I1 ltac:(discriminate)) as H. rewrite E in H. destruct H as (t1 & S2 & I2 & M2).
  assert (T1 : t1 p = Some (c_list (cur s1))) by (inversion S2; congruence).
  assert (K2 : forall q, In q (p :: k) -> t1 q <> None).
  { intros q [<- | Hq]; [congruence|]. specialize (K1 q Hq). destruct (t q) as [y|] eqn:T; [rewrite (M2 q y T); congruence | contradiction]. }
  destruct (run_spec ops2 _ s2 t1 _ I2 K2 F1) as (t3 & k3 & _ & I3 & M3 & _).
  rewrite vrun_app. set (s3 := snd (vrun ops2 s2)) in *. cbn [vrun vstep snd].
  pose proof (vstep_spec s3 t3 (VReset p) I3) as H. cbn [vstep] in H.
  destruct H as (t4 & S4 & _); [intros q Q; injection Q as <-; rewrite (M3 _ _ T1); discriminate|].
  inversion S4. subst. rewrite (M3 _ _ T1) in *. congruence.
Qed.
Print Assumptions C42_snapshot.

(** A case: add, snapshot, replace, remove, look up, go back. *)
Definition va (n : Z) : addr := mkAddr false n.
Definition vv (n : Z) : validator := mkValidator (va n) [].
Example C42_example :
  let ops := [VAdd (vv 3); VSnapshot; VIndexOf (va 3); VReplace (va 1) (vv 4); VRemove (va 2); VIndexOf (va 3); VSetAt 0 (vv 3);
              VSet [vv 1; vv 1]; VReset 1; VIndexOf (va 3)] in
  fair [0] ops (load_v [vv 1; vv 2]) /\
  fst (vrun ops (load_v [vv 1; vv 2])) =
    [RDone true; RNum 1; RIndex (Some 2); RDone true; RDone true; RIndex (Some 1); RDone false; RDone false; RDone true; RIndex (Some 2)] /\
  c_list (cur (snd (vrun ops (load_v [vv 1; vv 2])))) = [vv 1; vv 2; vv 3].
Proof. cbv zeta. split; [vm_compute; tauto | split; vm_compute; reflexivity]. Qed.
