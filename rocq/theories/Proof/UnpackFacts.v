From Verif Require Import Model.Unpack Spec.UnpackSpec.
From Coq Require Import String List ZArith Lia Bool.
Import ListNotations.
Open Scope Z_scope.
Open Scope list_scope.

Lemma gostr_eqb_eq : forall a b, gostr_eqb a b = true <-> a = b.
Proof.
  induction a as [|x a IH]; destruct b as [|y b]; cbn; split; intro H; try congruence; auto.
  - apply andb_true_iff in H as [H1 H2]. apply Z.eqb_eq in H1. apply IH in H2. congruence.
  - inversion H; subst. rewrite Z.eqb_refl. cbn. now apply IH.
Qed.

Lemma has_prefix_unfold : forall p s, has_prefix s p =
  match p, s with [], _ => true | x :: p', y :: s' => (x =? y) && has_prefix s' p' | _ :: _, [] => false end.
Proof. intros [|x p] [|y s]; reflexivity. Qed.

Lemma has_prefix_app : forall p s, has_prefix s p = true <-> exists r, s = p ++ r.
Proof.
  induction p as [|x p IH]; intros s; rewrite has_prefix_unfold.
  - split; [exists s; reflexivity|reflexivity].
  - destruct s as [|y s]; [split; [discriminate|intros [r E]; discriminate]|].
    rewrite andb_true_iff, IH, Z.eqb_eq. split.
    + intros [-> [r ->]]. exists r. reflexivity.
    + intros [r E]. inversion E; subst. eauto.
Qed.
Lemma trim_prefix_app : forall p r, trim_prefix (p ++ r) p = r.
Proof.
  intros. unfold trim_prefix. rewrite (proj2 (has_prefix_app p (p ++ r))) by eauto.
  rewrite skipn_app, skipn_all, Nat.sub_diag. reflexivity.
Qed.

Definition dir_end (d : gostr) : Prop := d = [] \/ exists d', d = d' ++ [47].

Lemma split_path_spec : forall s d b, split_path s = (d, b) -> s = d ++ b /\ dir_end d /\ ~ In 47 b.
Proof.
  induction s as [|c s IH]; intros d b H; cbn in H.
  - inversion H. unfold dir_end. auto.
  - destruct (split_path s) as [d1 b1]. destruct (IH _ _ eq_refl) as (E & D & N).
    destruct d1 as [|x d1].
    + destruct (Z.eqb_spec c SLASH) as [->|Nc]; inversion H; subst.
      * cbn. repeat split; auto. right. exists []. reflexivity.
      * cbn. split; [now f_equal|]. split; [now left|]. intros [X|X]; auto.
    + inversion H; subst. repeat split; auto. right. destruct D as [D|[d' D]]; [discriminate|].
      exists (c :: d'). cbn. now rewrite <- D.
Qed.

Lemma components_acc : forall s c, components s c = match components s [] with [] => [] | x :: r => (c ++ x) :: r end.
Proof.
  induction s as [|a s IH]; intro c; cbn [components].
  - now rewrite app_nil_r.
  - destruct (a =? SLASH); [now rewrite app_nil_r|]. rewrite (IH (c ++ [a])), (IH ([] ++ [a])).
    destruct (components s []); auto. now rewrite <- app_assoc.
Qed.

Lemma components_dir : forall d s c, components (d ++ 47 :: s) c = components d c ++ components s [].
Proof.
  induction d as [|a d IH]; intros s c; cbn [app components].
  - reflexivity.
  - destruct (a =? SLASH); [cbn; now rewrite IH|apply IH].
Qed.

Lemma components_flat : forall s c, ~ In 47 s -> components s c = [c ++ s].
Proof.
  induction s as [|a s IH]; intros c H; cbn [components]; [now rewrite app_nil_r|].
  destruct (Z.eqb_spec a SLASH) as [->|N]; [exfalso; apply H; now left|].
  rewrite IH by (intro X; apply H; now right). now rewrite <- app_assoc.
Qed.

Lemma components_slashed : forall l, l <> [] -> Forall (fun x => ~ In 47 x) l -> components (slashed l) [] = l.
Proof.
  intros l N F. induction F as [|x l Hx F IH]; [congruence|].
  destruct l as [|y l].
  - cbn [slashed]. now rewrite components_flat.
  - change (slashed (x :: y :: l)) with (x ++ 47 :: slashed (y :: l)). rewrite components_dir, IH by congruence.
    now rewrite components_flat.
Qed.

Lemma walk_app : forall l1 b l2, walk b (l1 ++ l2) = walk (walk b l1) l2.
Proof.
  induction l1 as [|x l IH]; intros; cbn [app walk]; auto.
  destruct (gostr_eqb x [] || gostr_eqb x (golit ".")); auto. destruct (gostr_eqb x (golit "..")); auto.
Qed.

Lemma components_dir_end : forall d, dir_end d -> d = [] \/ exists cs, components d [] = cs ++ [[]] /\
  (forall s, components (d ++ s) [] = cs ++ components s []).
Proof.
  intros d [->|[d' ->]]; [now left|right]. exists (components d' []). rewrite components_dir. split; [reflexivity|].
  intros s. rewrite <- app_assoc. cbn [app]. now rewrite components_dir.
Qed.

Lemma join_join : forall tmp d b, dir_end d -> join (join tmp d) b = join tmp (d ++ b).
Proof.
  intros tmp d b D. unfold join. destruct (components_dir_end _ D) as [->|(cs & E1 & E2)].
  - reflexivity.
  - rewrite E1, E2, !walk_app. reflexivity.
Qed.

Lemma walk_plain : forall l b, ~ In (golit "..") l ->
  walk b l = b ++ filter (fun x => negb (gostr_eqb x [] || gostr_eqb x (golit "."))) l.
Proof.
  induction l as [|x l IH]; intros b H; cbn [walk filter]; [now rewrite app_nil_r|].
  destruct (gostr_eqb x [] || gostr_eqb x (golit ".")); cbn [negb].
  - apply IH. intro X; apply H; now right.
  - destruct (gostr_eqb x (golit "..")) eqn:E.
    + apply gostr_eqb_eq in E. exfalso. apply H. now left.
    + rewrite IH by (intro X; apply H; now right). now rewrite <- app_assoc.
Qed.

(** What an entry turns into. *)
Definition below (pb : gostr) (e : entry) (d b : gostr) : Prop :=
  is_dir e = false /\ z_name e = pb ++ d ++ b /\ dir_end d /\ ~ In 47 b
  /\ contains d (golit "__MACOSX") = false /\ contains d (golit "__pycache__") = false.

Lemma dir_cut : forall pb d, dir_end pb -> dir_end (pb ++ d) -> dir_end d.
Proof.
  intros pb d _ H. destruct d as [|y d0]; [now left|]. right. destruct (exists_last (l := y :: d0)) as (d & x & E); [discriminate|]. rewrite E in *. clear y d0 E.
  destruct H as [H|[d' H]].
  - apply app_eq_nil in H as [_ H]. destruct d; discriminate.
  - rewrite app_assoc in H. apply app_inj_tail in H as [_ ->]. eauto.
Qed.

Lemma store_written : forall tmp pb l total w o, dir_end pb -> store tmp pb l total = (w, o) ->
  forall f, In f w -> exists e d b, In e l /\ below pb e d b /\ fst f = join tmp (d ++ b)
    /\ snd f <= Z.max 0 (file_size e) /\ (0 <= z_actual e -> 0 <= snd f).
Proof.
  intros tmp pb l. induction l as [|e l IH]; intros total w o D H f Hf; cbn [store] in H.
  - inversion H; subst. contradiction.
  - assert (K : forall t, store tmp pb l t = (w, o) -> exists e0 d b, In e0 (e :: l) /\ below pb e0 d b /\ fst f = join tmp (d ++ b)
      /\ snd f <= Z.max 0 (file_size e0) /\ (0 <= z_actual e0 -> 0 <= snd f)).
    { intros t Ht. destruct (IH _ _ _ D Ht f Hf) as (e0 & d0 & b0 & X & Y). exists e0, d0, b0. split; [now right|exact Y]. }
    destruct (is_dir e) eqn:Ed; [eauto|].
    destruct (split_path (z_name e)) as [dir base] eqn:Es. destruct (split_path_spec _ _ _ Es) as (En & Dd & Nb).
    destruct (has_prefix dir pb) eqn:Hp; cbn [negb] in H; [|eauto].
    apply has_prefix_app in Hp as [d ->]. rewrite trim_prefix_app in H.
    destruct (contains d (golit "__MACOSX")) eqn:C1; cbn [orb] in H; [eauto|].
    destruct (contains d (golit "__pycache__")) eqn:C2; [eauto|].
    destruct (FileSizeLimit <? file_size e); [inversion H; subst; contradiction|].
    destruct (ContentSizeLimit <? int64 (total + file_size e)); [inversion H; subst; contradiction|].
    assert (Dc : dir_end d) by (exact (dir_cut _ _ D Dd)).
    assert (B : below pb e d base) by (unfold below; rewrite En, <- app_assoc; repeat (split; [assumption || reflexivity|]); assumption).
    rewrite (join_join _ _ _ Dc) in H.
    destruct (Z.ltb_spec (z_actual e) (file_size e)).
    + inversion H; subst. destruct Hf as [<-|[]]. exists e, d, base. cbn. repeat split; auto; try apply B. lia.
    + destruct (store tmp pb l (int64 (total + file_size e))) as [w1 o1] eqn:E1. inversion H; subst.
      destruct Hf as [<-|Hf].
      * exists e, d, base. cbn. repeat split; auto; try apply B; lia.
      * destruct (IH _ _ _ D E1 f Hf) as (e0 & d0 & b0 & X & Y). exists e0, d0, b0. split; [now right|exact Y].
Qed.

Lemma store_complete : forall tmp pb l total w, dir_end pb -> store tmp pb l total = (w, Done) ->
  forall e d b, In e l -> below pb e d b -> In (join tmp (d ++ b), Z.max 0 (file_size e)) w.
Proof.
  intros tmp pb l. induction l as [|e l IH]; intros total w D H e' d' b' Hi B; cbn [store] in H; [contradiction|].
  destruct Hi as [->|Hi].
  - destruct B as (B1 & B2 & B3 & B4 & B5 & B6). rewrite B1 in H.
    assert (Es : split_path (z_name e') = (pb ++ d', b')).
    { rewrite B2, app_assoc. assert (Dp : dir_end (pb ++ d')).
      { destruct B3 as [->|[x ->]]; [now rewrite app_nil_r|]. right. exists (pb ++ x). now rewrite app_assoc. }
      clear - Dp B4. destruct Dp as [->|[x ->]].
      - cbn [app]. induction b' as [|c b IH]; auto. cbn. rewrite IH by (intro X; apply B4; now right).
        destruct (Z.eqb_spec c SLASH) as [->|N]; auto. exfalso. apply B4. now left.
      - induction x as [|c x IH].
        + cbn [app split_path]. assert (E : split_path b' = ([], b')).
          { clear - B4. induction b' as [|c b IH]; auto. cbn. rewrite IH by (intro X; apply B4; now right).
            destruct (Z.eqb_spec c SLASH) as [->|N]; auto. exfalso. apply B4. now left. }
          rewrite E. reflexivity.
        + cbn [app split_path]. cbn [app] in IH. rewrite IH. destruct x; reflexivity. }
    rewrite Es in H. rewrite (proj2 (has_prefix_app pb (pb ++ d'))) in H by eauto. cbn [negb] in H.
    rewrite trim_prefix_app, B5, B6 in H. cbn [orb] in H.
    destruct (FileSizeLimit <? file_size e'); [discriminate|].
    destruct (ContentSizeLimit <? int64 (total + file_size e')); [discriminate|].
    rewrite (join_join _ _ _ B3) in H.
    destruct (z_actual e' <? file_size e'); [discriminate|].
    destruct (store tmp pb l (int64 (total + file_size e'))) as [w1 o1]. inversion H; subst. now left.
  - destruct (is_dir e); [eauto|]. destruct (split_path (z_name e)) as [dir base].
    destruct (negb (has_prefix dir pb)); [eauto|].
    destruct (contains (trim_prefix dir pb) (golit "__MACOSX") || contains (trim_prefix dir pb) (golit "__pycache__")); [eauto|].
    destruct (FileSizeLimit <? file_size e); [discriminate|].
    destruct (ContentSizeLimit <? int64 (total + file_size e)); [discriminate|].
    destruct (z_actual e <? file_size e); [discriminate|].
    destruct (store tmp pb l (int64 (total + file_size e))) as [w1 o1] eqn:E1. inversion H; subst. right. eauto.
Qed.

Lemma int64_small : forall x, - 2 ^ 63 <= x < 2 ^ 63 -> int64 x = x.
Proof. intros x H. unfold int64. rewrite Z.mod_small; lia. Qed.

Lemma store_volume : forall tmp pb l total w o, Forall (fun e => 0 <= z_declared e < 2 ^ 63 /\ 0 <= z_actual e) l ->
  0 <= total <= 2097152 -> store tmp pb l total = (w, o) -> 0 <= volume w /\ total + volume w <= 2097152
  /\ Forall (fun f => 0 <= snd f <= 1048576) w.
Proof.
  intros tmp pb l. induction l as [|e l IH]; intros total w o F T H; cbn [store] in H.
  - inversion H; subst. cbn. split; [lia|]. split; [lia|constructor].
  - inversion F as [|? ? [F1 F1'] F2]; subst.
    destruct (is_dir e); [eauto|]. destruct (split_path (z_name e)) as [dir base].
    destruct (negb (has_prefix dir pb)); [eauto|].
    destruct (contains (trim_prefix dir pb) (golit "__MACOSX") || contains (trim_prefix dir pb) (golit "__pycache__")); [eauto|].
    unfold file_size in H. rewrite (int64_small (z_declared e)) in H by lia.
    change FileSizeLimit with 1048576 in H. change ContentSizeLimit with 2097152 in H.
    destruct (Z.ltb_spec 1048576 (z_declared e)); [inversion H; subst; cbn; split; [lia|]; split; [lia|constructor]|].
    rewrite (int64_small (total + z_declared e)) in H by lia.
    destruct (Z.ltb_spec 2097152 (total + z_declared e)); [inversion H; subst; cbn; split; [lia|]; split; [lia|constructor]|].
    destruct (Z.ltb_spec (z_actual e) (z_declared e)).
    + inversion H; subst. cbn. split; [lia|]. split; [lia|]. constructor; [cbn; lia|constructor].
    + destruct (store tmp pb l (total + z_declared e)) as [w1 o1] eqn:E1. inversion H; subst.
      destruct (IH (total + z_declared e) w1 o F2) as (I0 & I1 & I2); [lia|exact E1|]. unfold volume in *. cbn [fold_right snd].
      split; [lia|]. split; [lia|]. constructor; [cbn [snd]; lia|exact I2].
Qed.

Lemma find_package_in : forall l p, find_package l = Some p ->
  In p l /\ is_dir p = false /\ path_base (z_name p) = golit "package.json".
Proof.
  induction l as [|e l IH]; cbn [find_package]; intros p H; [discriminate|].
  destruct (gostr_eqb (path_base (z_name e)) contractPythonRootFile && negb (is_dir e)) eqn:E.
  - inversion H; subst. apply andb_true_iff in E as [E1 E2]. apply gostr_eqb_eq in E1. apply negb_true_iff in E2.
    repeat split; auto. now left.
  - destruct (IH _ H) as (A & B). split; [now right|exact B].
Qed.

Lemma base_split : forall e, is_dir e = false -> path_base (z_name e) = golit "package.json" ->
  snd (split_path (z_name e)) = golit "package.json".
Proof.
  intros e D H. unfold is_dir in D. apply orb_false_iff in D as [_ D]. unfold path_base in H.
  destruct (z_name e) as [|c n] eqn:En; [vm_compute in H; discriminate|].
  destruct (rev (c :: n)) as [|x r] eqn:Er.
  - apply (f_equal (@List.length Z)) in Er. rewrite rev_length in Er. discriminate.
  - cbn [drop_slashes] in H. rewrite D in H. rewrite <- Er, rev_involutive in H. exact H.
Qed.
