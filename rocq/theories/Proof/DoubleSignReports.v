(** The manager of reports: each name once, what is committed does not come back. *)
From Verif Require Import Model.Bytes Model.DoubleSign Spec.DoubleSignSpec.
From Coq Require Import Lia Permutation.
Open Scope Z_scope.

Lemma insert_perm {A} (h : A -> Z) l x : Permutation (insert_back h l x) (x :: l).
Proof. induction l as [|y r IH]; cbn; [reflexivity|]. destruct (h y <=? h x); [reflexivity|]. rewrite IH. apply perm_swap. Qed.
Lemma add_perm {A} (h : A -> Z) l x : Permutation (add_in_order h l x) (x :: l).
Proof. unfold add_in_order. rewrite <- Permutation_rev, insert_perm, <- Permutation_rev. reflexivity. Qed.
Lemma same_report_true h s h' s' : same_report h s h' s' = true <-> (h, s) = (h', s').
Proof. unfold same_report. rewrite Bool.andb_true_iff, Z.eqb_eq, bytes_eqb_eq. split; [intros [-> ->]; reflexivity|]. intros E. injection E as -> ->. auto. Qed.
Lemma in_todo_true g h s : in_todo g h s = true <-> In (h, s) (map name_of (g_todo g)).
Proof.
  unfold in_todo. rewrite existsb_exists, in_map_iff. split; intros (r & A & B); exists r.
  - apply same_report_true in B. split; [now symmetry|exact A].
  - split; [exact B|]. apply same_report_true. now symmetry.
Qed.
Lemma in_done_true g h s : in_done g h s = true <-> In (h, s) (g_done g).
Proof.
  unfold in_done. rewrite existsb_exists. split.
  - intros ([a b] & A & B). apply same_report_true in B. cbn in B. now rewrite B.
  - intros H. exists (h, s). split; [exact H|now apply same_report_true].
Qed.
Lemma filter_nodup {A B} (f : A -> B) (p : A -> bool) l : NoDup (map f l) -> NoDup (map f (filter p l)).
Proof.
  induction l as [|x r IH]; cbn; intros N; [constructor|]. inversion N as [|z zs N1 N2]; subst. destruct (p x); cbn; [|now apply IH].
  constructor; [|now apply IH]. intros H. apply N1. apply in_map_iff in H. destruct H as (y & E & Hy). apply in_map_iff. exists y. apply filter_In in Hy. tauto.
Qed.

(** Names of [todo] and [done] are different. *)
Record clean (g : manager) (l : list op) : Prop := {
  cl_todo : NoDup (map name_of (g_todo g));
  cl_done : NoDup (g_done g);
  cl_apart : forall x, In x (map name_of (g_todo g)) -> ~ In x (g_done g);
  cl_old : forall h s, committed l h s -> In (h, s) (g_done g) \/ h < g_first g;
  cl_from : forall h s, In (h, s) (g_done g) -> committed l h s;
  cl_proof : forall r, In r (g_todo g) -> In (Add true (r_height r) (Some (r_signer r)) (r_data r)) l;
  cl_first : forall r, In r (g_todo g) -> g_first g <= r_height r;
  cl_low : -1 <= g_first g }.

(** One committed report, where [P] is what was committed before. *)
Definition clean_for (g : manager) (P : Z * bytes -> Prop) : Prop :=
  NoDup (map name_of (g_todo g)) /\ NoDup (g_done g) /\ (forall x, In x (map name_of (g_todo g)) -> ~ In x (g_done g))
  /\ (forall x, P x -> In x (g_done g) \/ fst x < g_first g) /\ (forall x, In x (g_done g) -> P x).
Lemma commit_one_ok g P x : clean_for g P -> let g' := commit_one g x in clean_for g' (fun y => P y \/ y = x)
  /\ g_first g' = g_first g /\ (forall r, In r (g_todo g') <-> In r (g_todo g) /\ name_of r <> x).
Proof.
  intros (C1 & C2 & C3 & C4 & C5). destruct x as [h s]. unfold commit_one. cbn [fst snd].
  assert (Fr : forall r, In r (filter (fun r => negb (same_report h s (r_height r) (r_signer r))) (g_todo g)) <-> In r (g_todo g) /\ name_of r <> (h, s)).
  { intros r. rewrite filter_In, Bool.negb_true_iff. split; intros [A B]; (split; [exact A|]).
    - intros E. assert (same_report h s (r_height r) (r_signer r) = true) by (apply same_report_true; now symmetry). congruence.
    - destruct (same_report h s (r_height r) (r_signer r)) eqn:E; [|reflexivity]. apply same_report_true in E. exfalso. apply B. now symmetry. }
  assert (Da : forall y, In y (add_in_order fst (g_done g) (h, s)) <-> y = (h, s) \/ In y (g_done g)).
  { intros y. split; intros H.
    - apply (Permutation_in _ (add_perm fst (g_done g) (h, s))) in H. destruct H as [H|H]; [left; now symmetry|now right].
    - apply (Permutation_in _ (Permutation_sym (add_perm fst (g_done g) (h, s)))). destruct H as [->|H]; [now left|now right]. }
  assert (Dn : ~ In (h, s) (g_done g) -> NoDup (add_in_order fst (g_done g) (h, s))).
  { intros N. eapply Permutation_NoDup; [symmetry; apply add_perm|]. now constructor. }
  destruct (in_todo g h s) eqn:Et; [|destruct (in_done g h s) eqn:Ed].
  - apply in_todo_true in Et. cbn [g_todo g_done g_first]. split; [|split; [reflexivity|exact Fr]]. unfold clean_for. cbn [g_todo g_done g_first].
    split; [now apply filter_nodup|]. split; [apply Dn; now apply C3|]. split; [|split].
    + intros y Hy. apply in_map_iff in Hy. destruct Hy as (r & <- & Hr). apply Fr in Hr. destruct Hr as [Hr Nr]. rewrite Da. intros [E|E]; [contradiction|]. revert E. apply C3. apply in_map_iff. now exists r.
    + intros y [Hy| ->]; [|left; apply Da; now left]. destruct (C4 y Hy); [left; apply Da; now right|now right].
    + intros y Hy. apply Da in Hy. destruct Hy as [->|Hy]; [now right|left; now apply C5].
  - apply in_done_true in Ed. split; [|split; [reflexivity|]].
    + unfold clean_for. repeat split; auto; [intros y [Hy| ->]; [now apply C4|now left]].
    + intros r. split; [|tauto]. intros Hr. split; [exact Hr|]. intros E. apply (C3 (name_of r)); [apply in_map_iff; now exists r|now rewrite E].
  - assert (Nd : ~ In (h, s) (g_done g)) by (intros H; apply in_done_true in H; congruence).
    assert (Nt : ~ In (h, s) (map name_of (g_todo g))) by (intros H; apply in_todo_true in H; congruence).
    cbn [g_todo g_done g_first]. split; [|split; [reflexivity|]].
    + unfold clean_for. cbn [g_todo g_done g_first]. split; [exact C1|]. split; [now apply Dn|]. split; [|split].
      * intros y Hy. rewrite Da. intros [->|E]; [contradiction|]. now apply (C3 y).
      * intros y [Hy| ->]; [|left; apply Da; now left]. destruct (C4 y Hy); [left; apply Da; now right|now right].
      * intros y Hy. apply Da in Hy. destruct Hy as [->|Hy]; [now right|left; now apply C5].
    + intros r. split; [|tauto]. intros Hr. split; [exact Hr|]. intros E. apply Nt. rewrite <- E. apply in_map_iff. now exists r.
Qed.
Lemma clean_for_ext g P Q : (forall x, P x <-> Q x) -> clean_for g P -> clean_for g Q.
Proof.
  intros E (C1 & C2 & C3 & C4 & C5). split; [exact C1|]. split; [exact C2|]. split; [exact C3|]. split.
  - intros x Hx. apply C4. now apply E.
  - intros x Hx. apply E. now apply C5.
Qed.
Lemma commit_all_ok : forall l g P, clean_for g P -> let g' := fold_left commit_one l g in clean_for g' (fun y => P y \/ In y l)
  /\ g_first g' = g_first g /\ (forall r, In r (g_todo g') <-> In r (g_todo g) /\ ~ In (name_of r) l).
Proof.
  induction l as [|x l IH]; intros g P C; cbn.
  - split; [|split; [reflexivity|intros r; tauto]]. eapply clean_for_ext; [|exact C]. intros y. cbn. tauto.
  - destruct (commit_one_ok g P x C) as (A1 & A2 & A3). destruct (IH (commit_one g x) _ A1) as (B1 & B2 & B3). split; [|split].
    + eapply clean_for_ext; [|exact B1]. intros y. cbn. intuition congruence.
    + now rewrite B2.
    + intros r. rewrite B3, A3. intuition congruence.
Qed.

Lemma committed_snoc l o h s : committed (l ++ [o]) h s <-> committed l h s \/ exists x, o = Commit x /\ In (h, s) x.
Proof.
  split.
  - intros (x & A & B). apply in_app_or in A. destruct A as [A|[A|[]]]; [left; now exists x|right; now exists x].
  - intros [(x & A & B)|(x & -> & B)]; exists x; (split; [apply in_or_app|exact B]); [now left|right; now left].
Qed.
Lemma manager_snoc l o : manager_after (l ++ [o]) = step (manager_after l) o.
Proof. unfold manager_after. now rewrite fold_left_app. Qed.
Lemma set_first_in g h r : In r (g_todo (set_first g h)) <-> In r (g_todo g) /\ (g_first g < h -> h <= r_height r).
Proof.
  unfold set_first. destruct (Z.leb_spec h (g_first g)); [intuition lia|]. cbn [g_todo]. rewrite filter_In, Bool.negb_true_iff, Z.ltb_ge. intuition.
Qed.
Lemma clean_after l : clean (manager_after l) l.
Proof.
  induction l as [|o l IH] using rev_ind.
  - cbn. split; cbn; [constructor|constructor|intros x []| |intros h s []|intros r []|intros r []|lia]. intros h s (x & [] & _).
  - rewrite manager_snoc. set (g := manager_after l) in *. destruct IH as [I1 I2 I3 I4 I5 I6 I7 I8].
    assert (Same : (forall x, o <> Commit x) -> clean g (l ++ [o])).
    { intros No. split; auto.
      - intros h s H. apply committed_snoc in H. destruct H as [H|(x & -> & _)]; [now apply I4|now destruct (No x)].
      - intros h s H. apply committed_snoc. left. now apply I5.
      - intros r Hr. apply in_or_app. left. now apply I6. }
    destruct o as [c h s d|x|[h|]]; cbn [step].
    + unfold add_report. destruct ((g_first g =? -1) || (h <? g_first g)) eqn:E1; [apply Same; discriminate|]. apply Bool.orb_false_iff in E1. destruct E1 as [_ E1]. apply Z.ltb_ge in E1.
      destruct c; cbn [negb]; [|apply Same; discriminate]. destruct s as [a|]; [|apply Same; discriminate].
      destruct (in_todo g h a) eqn:Et; [apply Same; discriminate|]. destruct (in_done g h a) eqn:Ed; [apply Same; discriminate|]. cbn [orb].
      assert (Nd : ~ In (h, a) (g_done g)) by (intros H; apply in_done_true in H; congruence).
      assert (Nt : ~ In (h, a) (map name_of (g_todo g))) by (intros H; apply in_todo_true in H; congruence).
      destruct (Same ltac:(discriminate)) as [_ _ _ S4 S5 S6 _ _]. pose proof (add_perm r_height (g_todo g) (mk_report h a d)) as Pm.
      split; cbn [g_todo g_done g_first]; auto.
      * eapply Permutation_NoDup; [apply Permutation_map; symmetry; exact Pm|]. cbn. now constructor.
      * intros y Hy. apply (Permutation_in _ (Permutation_map name_of Pm)) in Hy. destruct Hy as [<-|Hy]; [exact Nd|now apply I3].
      * intros r Hr. apply (Permutation_in _ Pm) in Hr. destruct Hr as [<-|Hr]; [apply in_or_app; right; now left|now apply S6].
      * intros r Hr. apply (Permutation_in _ Pm) in Hr. destruct Hr as [<-|Hr]; [exact E1|now apply I7].
    + assert (C : clean_for g (fun y => committed l (fst y) (snd y))).
      { split; [exact I1|]. split; [exact I2|]. split; [exact I3|]. split; intros [h s] H; [now apply I4|now apply I5]. }
      destruct (commit_all_ok x g _ C) as ((B1 & B2 & B3 & B4 & B5) & F & T). split; auto.
      * intros h s H. apply (B4 (h, s)). apply committed_snoc in H. cbn. destruct H as [H|(y & E & H)]; [now left|injection E as <-; now right].
      * intros h s H. apply committed_snoc. destruct (B5 (h, s) H) as [H'|H']; [now left|right; now exists x].
      * intros r Hr. apply T in Hr. apply in_or_app. left. now apply I6.
      * intros r Hr. apply T in Hr. rewrite F. now apply I7.
      * now rewrite F.
    + destruct (Same ltac:(discriminate)) as [_ _ _ S4 S5 S6 _ _]. pose proof (set_first_in g h) as T. unfold set_first in *. destruct (Z.leb_spec h (g_first g)) as [L|L]; [apply Same; discriminate|].
      split; cbn [g_todo g_done g_first] in *.
      * now apply filter_nodup.
      * rewrite <- (map_id (filter _ _)). apply filter_nodup. now rewrite map_id.
      * intros y Hy. apply in_map_iff in Hy. destruct Hy as (r & <- & Hr). apply T in Hr. intros H. apply filter_In in H. apply (I3 (name_of r)); [apply in_map_iff; exists r; tauto|tauto].
      * intros h' s H. destruct (S4 h' s H) as [H'|H']; [|right; lia]. destruct (Z.ltb_spec h' h) as [L'|L']; [now right|left]. apply filter_In. split; [exact H'|]. cbn. apply Bool.negb_true_iff. apply Z.ltb_ge. lia.
      * intros h' s H. apply filter_In in H. now apply S5.
      * intros r Hr. apply T in Hr. now apply S6.
      * intros r Hr. apply T in Hr. now apply Hr.
      * lia.
    + apply Same. discriminate.
Qed.

(** A report that was taken waits until it is committed or too old. *)
Lemma waits l1 h s d l2 : let l := l1 ++ Add true h (Some s) d :: l2 in
  0 <= g_first (manager_after l1) <= h -> ~ committed l h s -> g_first (manager_after l) <= h -> In (h, s) (map name_of (g_todo (manager_after l))).
Proof.
  induction l2 as [|o l2 IH] using rev_ind; intros l; unfold l; clear l.
  - intros [F0 F1] N F. change (l1 ++ [Add true h (Some s) d]) with (l1 ++ [Add true h (Some s) d]) in *. rewrite manager_snoc in *. destruct (clean_after l1) as [_ _ _ _ C5 _ _ _]. set (g := manager_after l1) in *.
    cbn [step] in *. unfold add_report in *. destruct (Z.eqb_spec (g_first g) (-1)); [lia|]. destruct (Z.ltb_spec h (g_first g)); [lia|]. cbn [orb negb] in *.
    destruct (in_todo g h s) eqn:Et; [now apply in_todo_true|]. destruct (in_done g h s) eqn:Ed; cbn [orb].
    + exfalso. apply N. apply in_done_true in Ed. apply committed_snoc. left. now apply C5.
    + cbn [g_todo]. apply (Permutation_in _ (Permutation_map name_of (Permutation_sym (add_perm r_height (g_todo g) (mk_report h s d))))). now left.
  - intros F1. replace (l1 ++ Add true h (Some s) d :: l2 ++ [o]) with ((l1 ++ Add true h (Some s) d :: l2) ++ [o]) by now rewrite <- app_assoc.
    set (l := l1 ++ Add true h (Some s) d :: l2) in *. intros N F. assert (N' : ~ committed l h s) by (intros H; apply N; apply committed_snoc; now left).
    rewrite manager_snoc in *. set (g := manager_after l) in *. cbv zeta in IH. specialize (IH F1 N'). pose proof (clean_after l) as Cl. fold g in Cl.
    destruct o as [c h' s' d'|x|[h'|]]; cbn [step] in *.
    + unfold add_report in *. destruct ((g_first g =? -1) || (h' <? g_first g)) eqn:E1; [now apply IH|]. destruct c; cbn [negb] in *; [|now apply IH]. destruct s' as [a|]; [|now apply IH].
      destruct (in_todo g h' a || in_done g h' a); [now apply IH|]. cbn [g_todo g_first] in *.
      apply (Permutation_in _ (Permutation_map name_of (Permutation_sym (add_perm r_height (g_todo g) (mk_report h' a d'))))). right. now apply IH.
    + destruct Cl as [I1 I2 I3 I4 I5 I6 I7 I8]. assert (C : clean_for g (fun y => committed l (fst y) (snd y))).
      { split; [exact I1|]. split; [exact I2|]. split; [exact I3|]. split; intros [u v] H; [now apply I4|now apply I5]. }
      destruct (commit_all_ok x g _ C) as (_ & F' & T). rewrite F' in F. specialize (IH F). apply in_map_iff in IH. destruct IH as (r & E & Hr). apply in_map_iff. exists r. split; [exact E|].
      apply T. split; [exact Hr|]. rewrite E. intros H. apply N. apply committed_snoc. right. now exists x.
    + assert (F2 : g_first g <= h) by (unfold set_first in F; destruct (Z.leb_spec h' (g_first g)); cbn [g_first] in F; lia). specialize (IH F2).
      apply in_map_iff in IH. destruct IH as (r & E & Hr). apply in_map_iff. exists r. split; [exact E|]. apply set_first_in. split; [exact Hr|]. intros L.
      unfold set_first in F. destruct (Z.leb_spec h' (g_first g)); cbn [g_first] in F; [lia|]. unfold name_of in E. injection E as E _. lia.
    + now apply IH.
Qed.

(** The reports to do are in order of height. *)
From Coq Require Import Sorting.Sorted.
Definition asc (l : list report) : Prop := StronglySorted (fun a b => r_height a <= r_height b) l.
Definition desc (l : list report) : Prop := StronglySorted (fun a b => r_height b <= r_height a) l.
Lemma asc_app l x : asc l -> (forall y, In y l -> r_height y <= r_height x) -> asc (l ++ [x]).
Proof.
  unfold asc. induction 1 as [|y r S IH F]; cbn; intros H; [repeat constructor|]. constructor; [apply IH; intros z Hz; apply H; now right|].
  rewrite Forall_forall in *. intros z Hz. apply in_app_or in Hz. destruct Hz as [Hz|[<-|[]]]; [now apply F|apply H; now left].
Qed.
Lemma desc_app l x : desc l -> (forall y, In y l -> r_height x <= r_height y) -> desc (l ++ [x]).
Proof.
  unfold desc. induction 1 as [|y r S IH F]; cbn; intros H; [repeat constructor|]. constructor; [apply IH; intros z Hz; apply H; now right|].
  rewrite Forall_forall in *. intros z Hz. apply in_app_or in Hz. destruct Hz as [Hz|[<-|[]]]; [now apply F|apply H; now left].
Qed.
Lemma asc_rev l : asc l -> desc (rev l).
Proof.
  unfold asc. induction 1 as [|y r S IH F]; cbn; [constructor|]. apply desc_app; [exact IH|]. intros z Hz. apply in_rev in Hz. rewrite Forall_forall in F. now apply F.
Qed.
Lemma desc_rev l : desc l -> asc (rev l).
Proof.
  unfold desc. induction 1 as [|y r S IH F]; cbn; [constructor|]. apply asc_app; [exact IH|]. intros z Hz. apply in_rev in Hz. rewrite Forall_forall in F. now apply F.
Qed.
Lemma insert_desc l x : desc l -> desc (insert_back r_height l x).
Proof.
  unfold desc. induction 1 as [|y r S IH F]; cbn; [repeat constructor|]. rewrite Forall_forall in F. destruct (Z.leb_spec (r_height y) (r_height x)) as [L|L].
  - constructor; [constructor; [exact S|now apply Forall_forall]|]. apply Forall_forall. intros z [<-|Hz]; [exact L|]. specialize (F z Hz). lia.
  - constructor; [exact IH|]. apply Forall_forall. intros z Hz. apply (Permutation_in _ (insert_perm r_height r x)) in Hz. destruct Hz as [<-|Hz]; [lia|now apply F].
Qed.
Lemma add_asc l x : asc l -> asc (add_in_order r_height l x).
Proof. intros A. unfold add_in_order. apply desc_rev, insert_desc, asc_rev, A. Qed.
Lemma filter_asc p l : asc l -> asc (filter p l).
Proof.
  unfold asc. induction 1 as [|y r S IH F]; cbn; [constructor|]. destruct (p y); [|exact IH]. constructor; [exact IH|].
  rewrite Forall_forall in *. intros z Hz. apply filter_In in Hz. now apply F.
Qed.
Lemma asc_after l : asc (g_todo (manager_after l)).
Proof.
  induction l as [|o l IH] using rev_ind; [constructor|]. rewrite manager_snoc. set (g := manager_after l) in *.
  destruct o as [c h s d|x|[h|]]; cbn [step].
  - unfold add_report. destruct (_ || _); [exact IH|]. destruct (negb c); [exact IH|]. destruct s as [a|]; [|exact IH]. destruct (_ || _); [exact IH|]. now apply add_asc.
  - revert IH. generalize g as g0. clear. induction x as [|y x IH]; intros g0 A; [exact A|]. cbn. apply IH. unfold commit_one.
    destruct (in_todo g0 (fst y) (snd y)); [now apply filter_asc|]. destruct (in_done g0 (fst y) (snd y)); exact A.
  - unfold set_first. destruct (h <=? g_first g); [exact IH|]. now apply filter_asc.
  - exact IH.
Qed.
