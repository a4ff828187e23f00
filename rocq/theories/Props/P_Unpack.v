(** C45: unpacking the code of a Python contract. *)
From Verif Require Import Model.Unpack Spec.UnpackSpec Proof.UnpackFacts.
From Coq Require Import String List ZArith Lia.
Import ListNotations.
Open Scope Z_scope.
Open Scope list_scope.

Lemma split_end : forall s, dir_end (fst (split_path s)).
Proof. intro s. destruct (split_path s) as [d b] eqn:E. apply (split_path_spec _ _ _ E). Qed.

(** If no entry has ".." among its components, every file is written below the directory prepared for the contract. *)
Theorem C45_confined : forall tmp_path archive w o, store_python tmp_path archive = (w, o) ->
  (forall e, In e archive -> exists l, named (z_name e) l /\ ~ In (golit "..") l) ->
  forall path n, In (path, n) w -> exists below, path = tmp_path ++ below.
Proof.
  intros tmp l w o H N path n Hf. unfold store_python in H.
  destruct (find_package l) as [p|]; [|inversion H; subst; contradiction].
  destruct (store_written _ _ _ _ _ _ (split_end _) H _ Hf) as (e & d & b & He & B & E & _).
  cbn [fst] in E. destruct (N _ He) as (cs & (C1 & C2 & C3) & C4).
  pose proof (components_slashed _ C1 C2) as C5. rewrite <- C3 in C5.
  destruct B as (_ & B2 & _). rewrite B2 in C5.
  assert (X : ~ In (golit "..") (components (d ++ b) [])).
  { intro X. apply C4. destruct (components_dir_end _ (split_end (z_name p))) as [Q|(ds & Q1 & Q2)].
    - rewrite Q in C5. cbn [app] in C5. now rewrite <- C5.
    - rewrite Q2 in C5. rewrite <- C5. apply in_or_app. now right. }
  rewrite E. unfold join. rewrite (walk_plain _ _ X). eauto.
Qed.
Print Assumptions C45_confined.

(** With sizes in the headers below 2^63, at most 1 MiB is written for a file and 2 MiB in all, whatever the data unpacks to and
    however the unpacking ends. *)
Theorem C45_bounded : forall tmp_path archive w o, store_python tmp_path archive = (w, o) ->
  (forall e, In e archive -> 0 <= z_declared e < 2 ^ 63 /\ 0 <= z_actual e) ->
  volume w <= 2 * 1024 * 1024 /\ forall path n, In (path, n) w -> 0 <= n <= 1024 * 1024.
Proof.
  intros tmp l w o H N. unfold store_python in H. destruct (find_package l) as [p|].
  - assert (T0 : 0 <= 0 <= 2097152) by lia.
    destruct (store_volume _ _ _ _ _ _ (proj2 (Forall_forall _ _) N) T0 H) as (_ & V & F).
    split; [lia|]. intros path n Hf. rewrite Forall_forall in F. apply (F _ Hf).
  - inversion H; subst. split; [cbn; lia|]. intros path n [].
Qed.
Print Assumptions C45_bounded.

(** Every file written comes from an entry in the directory of the first package.json, at the path relative to it,
    and neither from a __pycache__ nor from a __MACOSX directory. *)
Theorem C45_source : forall tmp_path archive w o path n, store_python tmp_path archive = (w, o) -> In (path, n) w ->
  exists p e root dir base, In p archive /\ find_package archive = Some p /\ In e archive /\ is_dir e = false
    /\ split_path (z_name p) = (root, golit "package.json") /\ z_name e = root ++ dir ++ base
    /\ (dir = [] \/ exists x, dir = x ++ golit "/") /\ ~ In 47 base
    /\ (forall x y, dir <> x ++ golit "__pycache__" ++ y) /\ (forall x y, dir <> x ++ golit "__MACOSX" ++ y)
    /\ path = join tmp_path (dir ++ base).
Proof.
  assert (K : forall s t, contains s t = false -> forall x y, s <> x ++ t ++ y).
  { intros s t H x. revert s H. induction x as [|c x IH]; intros s H y E; subst s.
    - cbn [app] in H. assert (P : has_prefix (t ++ y) t = true) by (apply has_prefix_app; eauto).
      destruct (t ++ y); cbn [contains] in H; rewrite P in H; discriminate.
    - cbn [app contains] in H. apply Bool.orb_false_iff in H as [_ H]. apply (IH _ H y eq_refl). }
  intros tmp l w o path n H Hf. unfold store_python in H.
  destruct (find_package l) as [p|] eqn:Ep; [|inversion H; subst; contradiction].
  destruct (find_package_in _ _ Ep) as (P1 & P2 & P3). pose proof (base_split _ P2 P3) as P4.
  destruct (store_written _ _ _ _ _ _ (split_end _) H _ Hf) as (e & d & b & He & B & E & _).
  destruct B as (B1 & B2 & B3 & B4 & B5 & B6).
  exists p, e, (fst (split_path (z_name p))), d, b. repeat (split; [auto|]).
  - rewrite <- P4. now destruct (split_path (z_name p)).
  - repeat (split; [auto|]). exact E.
Qed.
Print Assumptions C45_source.

(** When the unpacking succeeds, the package.json found first is at the top of the directory, and every entry below it that is
    not in a __pycache__ or __MACOSX directory has been written in full. *)
Theorem C45_complete : forall tmp_path archive w, store_python tmp_path archive = (w, Done) ->
  exists p root, In p archive /\ z_name p = root ++ golit "package.json"
    /\ In (join tmp_path (golit "package.json"), Z.max 0 (file_size p)) w
    /\ forall e dir base, In e archive -> is_dir e = false -> z_name e = root ++ dir ++ base ->
         (dir = [] \/ exists x, dir = x ++ golit "/") -> ~ In 47 base ->
         contains dir (golit "__MACOSX") = false -> contains dir (golit "__pycache__") = false ->
         In (join tmp_path (dir ++ base), Z.max 0 (file_size e)) w.
Proof.
  intros tmp l w H. unfold store_python in H. destruct (find_package l) as [p|] eqn:Ep; [|discriminate].
  destruct (find_package_in _ _ Ep) as (P1 & P2 & P3). pose proof (base_split _ P2 P3) as P4.
  exists p, (fst (split_path (z_name p))). split; auto.
  assert (En : z_name p = fst (split_path (z_name p)) ++ golit "package.json").
  { rewrite <- P4 at 1. destruct (split_path (z_name p)) as [a b] eqn:Es. cbn in *. apply (split_path_spec _ _ _ Es). }
  split; [exact En|].
  assert (K : forall e dir base, In e l -> is_dir e = false -> z_name e = fst (split_path (z_name p)) ++ dir ++ base ->
         (dir = [] \/ exists x, dir = x ++ golit "/") -> ~ In 47 base ->
         contains dir (golit "__MACOSX") = false -> contains dir (golit "__pycache__") = false ->
         In (join tmp (dir ++ base), Z.max 0 (file_size e)) w).
  { intros e d b He E1 E2 E3 E4 E5 E6. apply (store_complete _ _ _ _ _ (split_end _) H _ _ _ He). unfold below. auto 10. }
  split; [|exact K]. change (golit "package.json") with ([] ++ golit "package.json"). apply K; auto.
  intro X. vm_compute in X. repeat (destruct X as [X|X]; [discriminate X|]). exact X.
Qed.
Print Assumptions C45_complete.

(** Entries with different plain names are written to different files. *)
Theorem C45_distinct : forall tmp_path a b la lb, named a la -> named b lb -> Forall plain la -> Forall plain lb ->
  join tmp_path a = join tmp_path b -> a = b.
Proof.
  assert (K : forall tmp a la, named a la -> Forall plain la -> join tmp a = tmp ++ la).
  { intros tmp a la (A1 & A2 & A3) P. unfold join. rewrite A3, (components_slashed _ A1 A2). rewrite walk_plain.
    - f_equal. clear - P. induction P as [|x l (H1 & H2 & _) P IH]; cbn [filter]; auto.
      destruct (gostr_eqb x []) eqn:E1; [apply gostr_eqb_eq in E1; contradiction|].
      destruct (gostr_eqb x (golit ".")) eqn:E2; [apply gostr_eqb_eq in E2; contradiction|]. cbn [orb negb]. now rewrite IH.
    - intro X. rewrite Forall_forall in P. destruct (P _ X) as (_ & _ & Q). now apply Q. }
  intros tmp a b la lb Ha Hb Pa Pb E. rewrite (K _ _ _ Ha Pa), (K _ _ _ Hb Pb) in E. apply app_inv_head in E. subst lb.
  destruct Ha as (_ & _ & ->), Hb as (_ & _ & ->). reflexivity.
Qed.
Print Assumptions C45_distinct.

(** ** An archive *)
Definition sample_archive : list entry :=
  [mk_entry (golit "score/") true 0 0; mk_entry (golit "score/package.json") false 120 120;
   mk_entry (golit "score/lib/util.py") false 5000 5000; mk_entry (golit "score/__pycache__/util.pyc") false 900 900;
   mk_entry (golit "README.md") false 10 10].
Example sample_stored : store_python [golit "db"; golit "tmp-1"] sample_archive =
  ([([golit "db"; golit "tmp-1"; golit "package.json"], 120); ([golit "db"; golit "tmp-1"; golit "lib"; golit "util.py"], 5000)], Done).
Proof. vm_compute. reflexivity. Qed.
Example sample_named : forall e, In e sample_archive -> exists l, named (z_name e) l /\ ~ In (golit "..") l.
Proof.
  assert (K : forall l, l <> [] -> Forall (fun x => ~ In 47 x) l -> ~ In (golit "..") l ->
    exists l', named (slashed l) l' /\ ~ In (golit "..") l') by (intros l H1 H2 H3; exists l; unfold named; auto).
  assert (F : forall l : list gostr, Forall (fun x => existsb (Z.eqb 47) x = false) l -> Forall (fun x => ~ In 47 x) l).
  { intros l H. eapply Forall_impl; [|exact H]. intros x Hx X. cbn in Hx.
    assert (existsb (Z.eqb 47) x = true) by (apply existsb_exists; exists 47; split; auto). congruence. }
  assert (D : forall l, existsb (gostr_eqb (golit "..")) l = false -> ~ In (golit "..") l).
  { intros l H X. assert (existsb (gostr_eqb (golit "..")) l = true) by (apply existsb_exists; exists (golit ".."); split; auto; reflexivity). congruence. }
  intros e [<-|[<-|[<-|[<-|[<-|[]]]]]]; cbn [z_name].
  - apply (K [golit "score"; []]); [discriminate|apply F; repeat constructor|apply D; reflexivity].
  - apply (K [golit "score"; golit "package.json"]); [discriminate|apply F; repeat constructor|apply D; reflexivity].
  - apply (K [golit "score"; golit "lib"; golit "util.py"]); [discriminate|apply F; repeat constructor|apply D; reflexivity].
  - apply (K [golit "score"; golit "__pycache__"; golit "util.pyc"]); [discriminate|apply F; repeat constructor|apply D; reflexivity].
  - apply (K [golit "README.md"]); [discriminate|apply F; repeat constructor|apply D; reflexivity].
Qed.

(** ** Findings *)

(** An entry may leave the directory with "..": a contract can write anywhere the node can. *)
Theorem C45_violated_escape : exists archive w, store_python [golit "data"; golit "contract"; golit "tmp-1"] archive = (w, Done)
  /\ In ([golit "etc"; golit "passwd"], 10) w.
Proof.
  exists [mk_entry (golit "package.json") false 5 5; mk_entry (golit "../../../../etc/passwd") false 10 10].
  eexists. split; [vm_compute; reflexivity|]. right. left. vm_compute. reflexivity.
Qed.
Print Assumptions C45_violated_escape.

(** The size in a header is a uint64 that becomes negative as int64; after such an entry the limit on the whole content is gone. *)
Theorem C45_violated_size : forall mebibytes : nat, Z.of_nat mebibytes <= 2 ^ 43 -> exists archive w,
  store_python [golit "tmp-1"] archive = (w, Done) /\ volume w = Z.of_nat mebibytes * 1048576.
Proof.
  intros k Kb.
  exists (mk_entry (golit "package.json") false (2 ^ 63) 5 :: repeat (mk_entry (golit "x.bin") false 1048576 1048576) k).
  assert (S_ : forall n t, - 2 ^ 63 <= t -> t + Z.of_nat n * 1048576 <= 0 ->
    exists w, store [golit "tmp-1"] [] (repeat (mk_entry (golit "x.bin") false 1048576 1048576) n) t = (w, Done)
      /\ volume w = Z.of_nat n * 1048576).
  { induction n as [|n IH]; intros t T1 T2; [exists []; split; reflexivity|].
    cbn [repeat store]. change (is_dir _) with false. cbv iota.
    change (split_path (z_name (mk_entry (golit "x.bin") false 1048576 1048576))) with (@nil Z, golit "x.bin"). cbv iota beta.
    change (negb (has_prefix [] [])) with false. cbv iota.
    change (contains (trim_prefix [] []) (golit "__MACOSX") || contains (trim_prefix [] []) (golit "__pycache__"))%bool with false. cbv iota.
    change (file_size (mk_entry (golit "x.bin") false 1048576 1048576)) with 1048576.
    change (z_actual (mk_entry (golit "x.bin") false 1048576 1048576)) with 1048576.
    change (FileSizeLimit <? 1048576) with false. cbv iota zeta.
    rewrite int64_small by lia. change ContentSizeLimit with 2097152.
    destruct (Z.ltb_spec 2097152 (t + 1048576)); [lia|]. change (1048576 <? 1048576) with false. cbv iota.
    destruct (IH (t + 1048576)) as (w & E & V); try lia. rewrite E. eexists. split; [reflexivity|].
    unfold volume in *. cbn [fold_right snd]. rewrite V. lia. }
  destruct (S_ k (- 2 ^ 63)) as (w & E & V); try lia.
  eexists. split.
  - unfold store_python. cbn [find_package].
    change (gostr_eqb (path_base (z_name (mk_entry (golit "package.json") false (2 ^ 63) 5))) contractPythonRootFile
            && negb (is_dir (mk_entry (golit "package.json") false (2 ^ 63) 5)))%bool with true. cbv iota.
    change (fst (split_path (z_name (mk_entry (golit "package.json") false (2 ^ 63) 5)))) with (@nil Z).
    cbn [store]. change (is_dir (mk_entry (golit "package.json") false (2 ^ 63) 5)) with false. cbv iota.
    change (split_path (z_name (mk_entry (golit "package.json") false (2 ^ 63) 5))) with (@nil Z, golit "package.json"). cbv iota beta.
    change (negb (has_prefix [] [])) with false. cbv iota.
    change (contains (trim_prefix [] []) (golit "__MACOSX") || contains (trim_prefix [] []) (golit "__pycache__"))%bool with false. cbv iota.
    change (file_size (mk_entry (golit "package.json") false (2 ^ 63) 5)) with (- 2 ^ 63).
    change (FileSizeLimit <? - 2 ^ 63) with false. cbv iota zeta.
    change (int64 (0 + - 2 ^ 63)) with (- 2 ^ 63). change (ContentSizeLimit <? - 2 ^ 63) with false. cbv iota.
    change (z_actual (mk_entry (golit "package.json") false (2 ^ 63) 5) <? - 2 ^ 63) with false. cbv iota.
    rewrite E. reflexivity.
  - unfold volume in *. cbn [fold_right snd]. rewrite V. change (Z.max 0 (- 2 ^ 63)) with 0. lia.
Qed.
Print Assumptions C45_violated_size.
