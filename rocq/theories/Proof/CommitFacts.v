(* Facts about commit vote lists (for C52). *)
From Coq Require Import ZArith List Bool Arith Lia Permutation Sorted.
From Verif Require Import Model.Votes Proof.VotesFacts Model.CommitVotes Spec.CommitSpec.
Import ListNotations.
Open Scope Z_scope.

Lemma f2_length : forall A B (R : A -> B -> Prop) l l', Forall2 R l l' -> List.length l = List.length l'.
Proof. induction 1; cbn; congruence. Qed.

Definition mem (l : list Z) (a : Z) : bool := existsb (Z.eqb a) l.

Lemma mem_spec : forall l a, mem l a = true <-> In a l.
Proof.
  intros l a. unfold mem. rewrite existsb_exists. split.
  - intros (x & H & E). apply Z.eqb_eq in E. subst. exact H.
  - intros H. exists a. split; [exact H|apply Z.eqb_refl].
Qed.

Lemma index_from_some : forall l i a k, index_from i a l = Some k ->
  exists m, k = (i + m)%nat /\ nth_error l m = Some a.
Proof.
  induction l as [|x l IH]; intros i a k H; cbn in H; [discriminate|].
  destruct (index_from (S i) a l) as [k'|] eqn:E.
  - injection H as <-. destruct (IH _ _ _ E) as (m & -> & Hm). exists (S m). split; [lia|exact Hm].
  - destruct (Z.eqb x a) eqn:Ex; [|discriminate]. injection H as <-. apply Z.eqb_eq in Ex. subst.
    exists 0%nat. split; [lia|reflexivity].
Qed.

Lemma index_from_none : forall l i a, index_from i a l = None -> ~ In a l.
Proof.
  induction l as [|x l IH]; intros i a H; cbn in H; [tauto|].
  destruct (index_from (S i) a l) eqn:E; [discriminate|].
  destruct (Z.eqb x a) eqn:Ex; [discriminate|]. apply Z.eqb_neq in Ex. intros [F|F]; [congruence|]. exact (IH _ _ E F).
Qed.

Lemma index_of_some : forall l a k, index_of a l = Some k -> nth_error l k = Some a.
Proof. intros l a k H. destruct (index_from_some l 0 a k H) as (m & -> & Hm). exact Hm. Qed.

Lemma index_of_in : forall l a, In a l -> exists k, index_of a l = Some k.
Proof.
  intros l a H. unfold index_of. destruct (index_from 0 a l) as [k|] eqn:E; [eauto|].
  apply index_from_none in E. contradiction.
Qed.

Lemma nth_map_mem : forall (f : Z -> bool) vs i a, nth_error vs i = Some a -> nth i (map f vs) false = f a.
Proof.
  induction vs as [|x vs IH]; intros [|i] a H; cbn in *; try discriminate; [congruence|eauto].
Qed.

Lemma set_nth_mem : forall vs i a acc, NoDup vs -> nth_error vs i = Some a ->
  set_nth i true (map (mem acc) vs) = map (mem (a :: acc)) vs.
Proof.
  induction vs as [|x vs IH]; intros [|i] a acc ND H; cbn in H; try discriminate.
  - injection H as ->. cbn [map set_nth]. f_equal.
    + unfold mem. cbn. rewrite Z.eqb_refl. reflexivity.
    + apply map_ext_in. intros y Hy. unfold mem. cbn. inversion ND as [|? ? N1 N2]; subst.
      destruct (Z.eqb y a) eqn:E; [apply Z.eqb_eq in E; subst; contradiction|reflexivity].
  - inversion ND as [|? ? N1 N2]; subst. cbn [map set_nth]. f_equal; [|apply IH; auto].
    unfold mem. cbn. destruct (Z.eqb x a) eqn:E; [|reflexivity].
    apply Z.eqb_eq in E. subst. apply nth_error_In in H. contradiction.
Qed.

Lemma nodup_two : forall A B : list Z, NoDup A -> NoDup B -> (forall a, In a A -> In a B -> False) -> NoDup (A ++ B).
Proof.
  induction A as [|x A IH]; intros B NA NB D; [exact NB|]. inversion NA as [|? ? N1 N2]; subst. cbn. constructor.
  - intros H. apply in_app_iff in H. destruct H as [H|H]; [contradiction|]. apply (D x); [left; reflexivity|exact H].
  - apply IH; auto. intros a Ha. apply D. right. exact Ha.
Qed.

Section Verify.
Variable recover : signed -> Z -> option Z.

Lemma verify_items_spec : forall h r b ps vs, NoDup vs -> forall items acc out,
  verify_items recover h r b ps vs items (map (mem acc) vs) = Ok out <->
  exists voters, Forall2 (fun it a => shows recover h r b ps it a) items voters /\
    NoDup voters /\ (forall a, In a voters -> In a vs /\ ~ In a acc) /\
    out = map (mem (rev voters ++ acc)) vs.
Proof.
  intros h r b ps vs ND. induction items as [|it items IH]; intros acc out; cbn [verify_items].
  - split.
    + intros H. exists []. split; [constructor|]. split; [constructor|]. split; [intros a []|]. cbn. congruence.
    + intros (voters & F & _ & _ & E). inversion F; subst. reflexivity.
  - split.
    + intros H. destruct (recover _ _) as [a|] eqn:Er; [|discriminate].
      destruct (index_of a vs) as [i|] eqn:Ei; [|discriminate].
      apply index_of_some in Ei. rewrite (nth_map_mem _ _ _ _ Ei) in H.
      destruct (mem acc a) eqn:Em; [discriminate|]. rewrite (set_nth_mem _ _ _ _ ND Ei) in H.
      apply IH in H. destruct H as (voters & F & NV & IN & E).
      exists (a :: voters). split; [constructor; [exact Er|exact F]|].
      assert (NA : ~ In a voters). { intros Ha. apply IN in Ha. destruct Ha as (_ & Ha). apply Ha. left. reflexivity. }
      split; [constructor; auto|]. split.
      * intros x [<-|Hx].
        -- split; [eapply nth_error_In; eauto|]. intros Ha. apply mem_spec in Ha. congruence.
        -- destruct (IN x Hx) as (A & B). split; [exact A|]. intros Hc. apply B. right. exact Hc.
      * rewrite E. cbn [rev]. rewrite <- app_assoc. reflexivity.
    + intros (voters & F & NV & IN & E). inversion F as [|? a ? voters' Ea Ft]; subst.
      inversion NV as [|? ? NA NV']; subst.
      unfold shows in Ea. rewrite Ea. destruct (IN a (or_introl eq_refl)) as (Hin & Hacc).
      destruct (index_of_in vs a Hin) as (i & Ei). rewrite Ei. apply index_of_some in Ei.
      rewrite (nth_map_mem _ _ _ _ Ei). destruct (mem acc a) eqn:Em; [apply mem_spec in Em; contradiction|].
      rewrite (set_nth_mem _ _ _ _ ND Ei). apply IH. exists voters'.
      split; [exact Ft|]. split; [exact NV'|]. split.
      * intros x Hx. destruct (IN x (or_intror Hx)) as (A & B). split; [exact A|].
        intros [<-|Hc]; [contradiction|]. exact (B Hc).
      * cbn [rev]. rewrite <- app_assoc. reflexivity.
Qed.

Lemma enough_spec : forall k n, enough k n = true <-> n = 0%nat \/ (2 * n < 3 * k)%nat.
Proof.
  intros k n. unfold enough. destruct (Nat.eqb_spec n 0) as [->|NE]; [tauto|]. rewrite Nat.ltb_lt.
  pose proof (Nat.div_mod (n * 2) 3 ltac:(lia)) as D. pose proof (Nat.mod_upper_bound (n * 2) 3 ltac:(lia)) as U. lia.
Qed.

Lemma map_mem_nil : forall (vs : list Z), repeat false (List.length vs) = map (mem []) vs.
Proof. induction vs as [|x vs IH]; cbn; [reflexivity|f_equal; exact IH]. Qed.

Theorem accepts_iff : forall c h b vs vset, NoDup vs -> h <> 0 ->
  verify_block recover c h b (Some vs) = Ok (Some vset) <->
  exists voters, certifies recover c h b vs voters /\
    (vs = [] \/ (2 * List.length vs < 3 * List.length voters)%nat) /\
    vset = map (fun a => existsb (Z.eqb a) voters) vs.
Proof.
  intros c h b vs vset ND H0. unfold verify_block, certifies.
  assert (Eh : Z.eqb h 0 = false) by (apply Z.eqb_neq; exact H0). rewrite Eh, map_mem_nil.
  assert (PE : forall voters, map (mem (rev voters ++ [])) vs = map (fun a => existsb (Z.eqb a) voters) vs).
  { intros voters. apply map_ext. intros a. fold (mem voters a). apply eq_true_iff_eq. rewrite !mem_spec, app_nil_r.
    symmetry. apply in_rev. }
  split.
  - intros H. destruct (verify_items _ _ _ _ _ _ _ _) as [out| |] eqn:E; try discriminate.
    destruct (enough _ _) eqn:En; [|discriminate]. injection H as <-.
    apply (verify_items_spec h (cv_round c) b (cv_parts c) vs ND) in E. destruct E as (voters & F & NV & IN & EO).
    exists voters. split; [split; [exact F|split; [exact NV|intros a Ha; apply IN; exact Ha]]|].
    split; [|rewrite EO; apply PE]. apply enough_spec in En.
    rewrite (f2_length _ _ _ _ _ F) in En. destruct En as [En|En]; [left; destruct vs; [reflexivity|discriminate]|right; exact En].
  - intros (voters & (F & NV & IN) & Q & EV).
    assert (E : verify_items recover h (cv_round c) b (cv_parts c) vs (cv_items c) (map (mem []) vs) = Ok vset).
    { apply (verify_items_spec h (cv_round c) b (cv_parts c) vs ND). exists voters. split; [exact F|]. split; [exact NV|].
      split; [intros a Ha; split; [apply IN; exact Ha|intros []]|]. rewrite EV. symmetry. apply PE. }
    rewrite E. assert (En : enough (List.length (cv_items c)) (List.length vs) = true).
    { apply enough_spec. rewrite (f2_length _ _ _ _ _ F). destruct Q as [->|Q]; [left; reflexivity|right; exact Q]. }
    rewrite En. reflexivity.
Qed.

Lemma inter_length : forall vs A B : list Z, NoDup A -> NoDup B ->
  (forall a, In a A -> In a vs) -> (forall a, In a B -> In a vs) ->
  (List.length A + List.length B <= List.length vs + List.length (filter (mem B) A))%nat.
Proof.
  intros vs A B NA NB IA IB.
  assert (P : (List.length (filter (fun a => negb (mem B a)) A ++ B) <= List.length vs)%nat).
  { apply NoDup_incl_length.
    - apply nodup_two; [apply NoDup_filter; exact NA|exact NB|]. intros a Ha Hb. apply filter_In in Ha.
      destruct Ha as (_ & Ha). apply mem_spec in Hb. rewrite Hb in Ha. discriminate.
    - intros a Ha. apply in_app_iff in Ha. destruct Ha as [Ha|Ha]; [apply filter_In in Ha; apply IA; tauto|auto]. }
  rewrite app_length in P.
  assert (G : forall l : list Z, List.length l = (List.length (filter (mem B) l) + List.length (filter (fun a => negb (mem B a)) l))%nat).
  { induction l as [|x l IH]; cbn; [reflexivity|]. destruct (mem B x); cbn; lia. }
  specialize (G A). lia.
Qed.

Lemma forall2_in_r : forall A B (R : A -> B -> Prop) l l' b, Forall2 R l l' -> In b l' -> exists a, In a l /\ R a b.
Proof.
  intros A B R l l' b F. induction F as [|x y l l' H F IH]; intros Hb; [contradiction|].
  destruct Hb as [->|Hb]; [exists x; split; [left; reflexivity|exact H]|].
  destruct (IH Hb) as (a & Ha & Hr). exists a. split; [right; exact Ha|exact Hr].
Qed.

Theorem accountable : forall c c' h b b' vs vset vset', NoDup vs -> vs <> [] -> h <> 0 ->
  verify_block recover c h b (Some vs) = Ok (Some vset) ->
  verify_block recover c' h b' (Some vs) = Ok (Some vset') ->
  exists both, NoDup both /\ (List.length vs < 3 * List.length both)%nat /\
    forall a, In a both -> In a vs /\
      signed_by recover h (cv_round c) b (cv_parts c) a /\
      signed_by recover h (cv_round c') b' (cv_parts c') a.
Proof.
  intros c c' h b b' vs vset vset' ND NE H0 V V'.
  apply accepts_iff in V; auto. apply accepts_iff in V'; auto.
  destruct V as (A & (F & NA & IA) & QA & _). destruct V' as (B & (F' & NB & IB) & QB & _).
  destruct QA as [QA|QA]; [contradiction|]. destruct QB as [QB|QB]; [contradiction|].
  exists (filter (mem B) A). split; [apply NoDup_filter; exact NA|]. split.
  - pose proof (inter_length vs A B NA NB IA IB). lia.
  - intros a Ha. apply filter_In in Ha. destruct Ha as (Ha & Hb). apply mem_spec in Hb. split; [auto|].
    destruct (forall2_in_r _ _ _ _ _ _ F Ha) as (it & _ & S1). destruct (forall2_in_r _ _ _ _ _ _ F' Hb) as (it' & _ & S2).
    split; [exists it; exact S1|exists it'; exact S2].
Qed.

Theorem bad_signature_panics : forall c h b vs good it rest voters, NoDup vs -> h <> 0 ->
  cv_items c = good ++ it :: rest ->
  Forall2 (fun it a => shows recover h (cv_round c) b (cv_parts c) it a) good voters -> NoDup voters ->
  (forall a, In a voters -> In a vs) ->
  recover (mkSigned h (cv_round c) Precommit b (cv_parts c) (it_time it)) (it_sig it) = None ->
  verify_block recover c h b (Some vs) = Panics.
Proof.
  intros c h b vs good it rest voters ND H0 E F NV IN Er. unfold verify_block.
  assert (Eh : Z.eqb h 0 = false) by (apply Z.eqb_neq; exact H0). rewrite Eh, map_mem_nil, E.
  assert (G : forall good voters acc, Forall2 (fun it a => shows recover h (cv_round c) b (cv_parts c) it a) good voters ->
    NoDup voters -> (forall a, In a voters -> In a vs /\ ~ In a acc) ->
    verify_items recover h (cv_round c) b (cv_parts c) vs (good ++ it :: rest) (map (mem acc) vs) = Panics).
  { clear good voters E F NV IN. induction good as [|g good IH]; intros voters acc F NV IN; cbn [app verify_items].
    - rewrite Er. reflexivity.
    - inversion F as [|? a ? voters' Ea Ft]; subst. inversion NV as [|? ? NA NV']; subst.
      unfold shows in Ea. rewrite Ea. destruct (IN a (or_introl eq_refl)) as (Hin & Hacc).
      destruct (index_of_in vs a Hin) as (i & Ei). rewrite Ei. apply index_of_some in Ei.
      rewrite (nth_map_mem _ _ _ _ Ei). destruct (mem acc a) eqn:Em; [apply mem_spec in Em; contradiction|].
      rewrite (set_nth_mem _ _ _ _ ND Ei). apply (IH voters' (a :: acc) Ft NV').
      intros x Hx. destruct (IN x (or_intror Hx)) as (A & B). split; [exact A|].
      intros [<-|Hc]; [contradiction|]. exact (B Hc). }
  rewrite (G good voters []); auto. 
Qed.
End Verify.

(* ---------- the median ---------- *)
Fixpoint insert_it (x : item) (l : list item) : list item :=
  match l with
  | [] => [x]
  | y :: l' => if Z.leb (it_time x) (it_time y) then x :: l else y :: insert_it x l'
  end.
Fixpoint sort_it (l : list item) : list item :=
  match l with [] => [] | x :: l' => insert_it x (sort_it l') end.

Lemma insert_map : forall x l, map it_time (insert_it x l) = insert (it_time x) (map it_time l).
Proof. induction l as [|y l IH]; cbn; [reflexivity|]. destruct (Z.leb _ _); cbn; [reflexivity|f_equal; exact IH]. Qed.
Lemma sort_map : forall l, map it_time (sort_it l) = sort (map it_time l).
Proof. induction l as [|x l IH]; cbn; [reflexivity|]. rewrite insert_map, IH. reflexivity. Qed.
Lemma insert_perm : forall x l, Permutation (insert_it x l) (x :: l).
Proof.
  induction l as [|y l IH]; cbn; [reflexivity|]. destruct (Z.leb _ _); [reflexivity|].
  rewrite IH. apply perm_swap.
Qed.
Lemma sort_perm : forall l, Permutation (sort_it l) l.
Proof. induction l as [|x l IH]; cbn; [reflexivity|]. rewrite insert_perm. constructor. exact IH. Qed.

Definition le_it (a b : item) : Prop := it_time a <= it_time b.
Lemma insert_sorted : forall x l, StronglySorted le_it l -> StronglySorted le_it (insert_it x l).
Proof.
  induction l as [|y l IH]; intros H; cbn; [repeat constructor|].
  inversion H as [|? ? S1 F1]; subst. destruct (Z.leb (it_time x) (it_time y)) eqn:E.
  - apply Z.leb_le in E. constructor; [exact H|]. constructor; [exact E|].
    eapply Forall_impl; [|exact F1]. intros z Hz. unfold le_it in *. lia.
  - apply Z.leb_gt in E. constructor; [apply IH; exact S1|]. rewrite Forall_forall in *.
    intros z Hz. apply (Permutation_in _ (insert_perm x l)) in Hz. destruct Hz as [<-|Hz]; [unfold le_it; lia|auto].
Qed.
Lemma sort_sorted : forall l, StronglySorted le_it (sort_it l).
Proof. induction l as [|x l IH]; cbn; [constructor|]. apply insert_sorted. exact IH. Qed.

Lemma sorted_split : forall l k, StronglySorted le_it l -> forall a b, In a (firstn k l) -> In b (skipn k l) -> le_it a b.
Proof.
  induction l as [|x l IH]; intros [|k] S0 a b Ha Hb; cbn in *; try contradiction.
  inversion S0 as [|? ? S1 F1]; subst. destruct Ha as [<-|Ha].
  - rewrite Forall_forall in F1. apply F1. rewrite <- (firstn_skipn k l). apply in_app_iff. right. exact Hb.
  - eapply IH; eauto.
Qed.

Lemma filter_perm : forall (f : item -> bool) l l', Permutation l l' ->
  List.length (filter f l) = List.length (filter f l').
Proof.
  intros f l l' P. induction P as [|x l l' P IH|x y l|l l' l'' P1 IH1 P2 IH2]; cbn; auto.
  - destruct (f x); cbn; congruence.
  - destruct (f x), (f y); reflexivity.
  - congruence.
Qed.

Lemma some_honest : forall (f : item -> bool) l, (List.length (filter (fun x => negb (f x)) l) < List.length l)%nat ->
  exists a, In a l /\ f a = true.
Proof.
  induction l as [|x l IH]; cbn; intros H; [lia|]. destruct (f x) eqn:E; [exists x; auto|]. cbn in H.
  destruct (IH ltac:(lia)) as (a & A & B). exists a. auto.
Qed.

Lemma filter_app_len : forall (f : item -> bool) l k,
  List.length (filter f l) = (List.length (filter f (firstn k l)) + List.length (filter f (skipn k l)))%nat.
Proof. intros f l k. rewrite <- (firstn_skipn k l) at 1. rewrite filter_app, app_length. reflexivity. Qed.

Lemma nth_times : forall l k d, nth k (map it_time l) (it_time d) = it_time (nth k l d).
Proof. intros. apply map_nth. Qed.

(* the two middle elements of a sorted list, with honest ones on either side *)
Lemma middle : forall (f : item -> bool) l k d, StronglySorted le_it l -> (k < List.length l)%nat ->
  (List.length (filter (fun x => negb (f x)) l) < S k)%nat ->
  exists a, In a l /\ f a = true /\ it_time a <= it_time (nth k l d).
Proof.
  intros f l k d S0 Hk Hn.
  pose proof (filter_app_len (fun x => negb (f x)) l (S k)) as E.
  destruct (some_honest f (firstn (S k) l)) as (a & Ha & Fa).
  { rewrite firstn_length_le by lia. lia. }
  exists a. split; [rewrite <- (firstn_skipn (S k) l); apply in_app_iff; left; exact Ha|]. split; [exact Fa|].
  (* a is before or at k *)
  assert (Es : firstn (S k) l = firstn k l ++ [nth k l d]).
  { clear - Hk. revert k Hk. induction l as [|x l IH]; intros [|k] Hk; cbn in *; try lia; [reflexivity|].
    f_equal. apply IH. lia. }
  rewrite Es in Ha. apply in_app_iff in Ha. destruct Ha as [Ha|[<-|[]]]; [|lia].
  apply (sorted_split l k S0); [exact Ha|].
  clear - Hk. revert k Hk. induction l as [|x l IH]; intros [|k] Hk; cbn in *; try lia; [left; reflexivity|].
  apply IH. lia.
Qed.

Lemma middle_up : forall (f : item -> bool) l k d, StronglySorted le_it l -> (k < List.length l)%nat ->
  (List.length (filter (fun x => negb (f x)) l) < List.length l - k)%nat ->
  exists b, In b l /\ f b = true /\ it_time (nth k l d) <= it_time b.
Proof.
  intros f l k d S0 Hk Hn.
  pose proof (filter_app_len (fun x => negb (f x)) l k) as E.
  destruct (some_honest f (skipn k l)) as (b & Hb & Fb).
  { rewrite skipn_length. lia. }
  exists b. split; [rewrite <- (firstn_skipn k l); apply in_app_iff; right; exact Hb|]. split; [exact Fb|].
  assert (Es : skipn k l = nth k l d :: skipn (S k) l).
  { clear - Hk. revert k Hk. induction l as [|x l IH]; intros [|k] Hk; cbn in *; try lia; [reflexivity|]. apply IH. lia. }
  rewrite Es in Hb. destruct Hb as [<-|Hb]; [lia|].
  apply (sorted_split l (S k) S0); [|exact Hb].
  clear - Hk. revert k Hk. induction l as [|x l IH]; intros [|k] Hk; cbn in *; try lia; [left; reflexivity|].
  right. apply IH. lia.
Qed.

Lemma wrap64_small : forall x, -9223372036854775808 <= x < 9223372036854775808 -> wrap64 x = x.
Proof. intros x H. unfold wrap64. rewrite Z.mod_small by lia. lia. Qed.

Theorem time_between : forall c (honest : item -> bool),
  (2 * List.length (filter (fun x => negb (honest x)) (cv_items c)) < List.length (cv_items c))%nat ->
  (forall it, In it (cv_items c) -> honest it = true ->
     -4611686018427387904 <= it_time it < 4611686018427387904) ->
  exists a b, In a (cv_items c) /\ honest a = true /\ In b (cv_items c) /\ honest b = true /\
    it_time a <= timestamp c <= it_time b.
Proof.
  intros c f M B. set (d := mkItem 0 0).
  pose proof (sort_perm (cv_items c)) as P. pose proof (sort_sorted (cv_items c)) as S0.
  set (l := sort_it (cv_items c)) in *.
  assert (EL : List.length (cv_items c) = List.length l) by (symmetry; apply Permutation_length; exact P).
  rewrite <- (filter_perm (fun x => negb (f x)) l (cv_items c) P), EL in M.
  assert (IN : forall x, In x l -> In x (cv_items c)) by (intros x Hx; eapply Permutation_in; eauto).
  unfold timestamp. rewrite <- sort_map. fold l. cbv zeta. rewrite map_length.
  assert (NZ : Nat.eqb (List.length l) 0 = false) by (apply Nat.eqb_neq; lia). rewrite NZ.
  change 0 with (it_time d). rewrite !nth_times.
  pose proof (Nat.div_mod (List.length l) 2 ltac:(lia)) as DM.
  pose proof (Nat.mod_upper_bound (List.length l) 2 ltac:(lia)) as MU.
  set (n := List.length l) in *. set (h := (n / 2)%nat) in *. 
  set (nb := List.length (filter (fun x => negb (f x)) l)) in *.
  destruct (Nat.eqb (n mod 2) 1) eqn:Eo.
  - apply Nat.eqb_eq in Eo.
    destruct (middle f l h d S0) as (a & A1 & A2 & A3); [lia|fold nb; lia|].
    destruct (middle_up f l h d S0) as (b & B1 & B2 & B3); [lia|fold nb; lia|].
    exists a, b. auto 8.
  - apply Nat.eqb_neq in Eo.
    destruct (middle f l (h - 1) d S0) as (a & A1 & A2 & A3); [lia|fold nb; lia|].
    destruct (middle_up f l h d S0) as (b & B1 & B2 & B3); [lia|fold nb; lia|].
    destruct (middle f l h d S0) as (a' & A1' & A2' & A3'); [lia|fold nb; lia|].
    destruct (middle_up f l (h - 1) d S0) as (b' & B1' & B2' & B3'); [lia|fold nb n; lia|].
    assert (LE : it_time (nth (h - 1) l d) <= it_time (nth h l d)).
    { apply (sorted_split l h S0).
      - assert (Hk : (h - 1 < h)%nat) by lia. assert (Hh : (h < List.length l)%nat) by (fold n; lia).
        clear - Hk Hh. revert Hk. generalize (h - 1)%nat as k. revert Hh. generalize h as m. induction l as [|x l IH]; intros m Hh k Hk; cbn in *; [lia|].
        destruct m as [|m]; [lia|]. destruct k as [|k]; cbn; [left; reflexivity|]. right. apply IH; lia.
      - assert (Hh : (h < List.length l)%nat) by (fold n; lia). clear - Hh. revert Hh. generalize h as m.
        induction l as [|x l IH]; intros [|m] Hh; cbn in *; try lia; [left; reflexivity|]. apply IH. lia. }
    pose proof (B a (IN a A1) A2). pose proof (B b (IN b B1) B2).
    pose proof (B a' (IN a' A1') A2'). pose proof (B b' (IN b' B1') B2').
    set (x := it_time (nth (h - 1) l d)) in *. set (y := it_time (nth h l d)) in *.
    rewrite wrap64_small by lia.
    exists a, b. split; [auto|]. split; [exact A2|]. split; [auto|]. split; [exact B2|].
    change (it_time a <= Z.quot (x + y) 2 <= it_time b).
    pose proof (Z.quot_rem' (x + y) 2). 
    destruct (Z.le_ge_cases 0 (x + y)) as [G|G].
    + pose proof (Z.rem_bound_pos (x + y) 2 G ltac:(lia)). lia.
    + pose proof (Z.rem_opp_l' (x + y) 2) as RO. pose proof (Z.rem_bound_pos (- (x + y)) 2 ltac:(lia) ltac:(lia)). lia.
Qed.

Theorem built_accepted : forall recover digest msgs h r vs voters,
  (forall d d' : decision, digest d = digest d' -> d = d') -> NoDup vs -> h <> 0 ->
  (forall v s, In (v, s) msgs -> v_height v = h /\ v_round v = r /\ v_type v = Precommit) ->
  (forall v s w t, In (v, s) msgs -> In (w, t) msgs -> digest (v_dec v) = digest (v_dec w)) ->
  Forall2 (fun m a => recover (signed_of (fst m)) (snd m) = Some a) msgs voters ->
  NoDup voters -> (forall a, In a voters -> In a vs) ->
  (2 * List.length vs < 3 * List.length voters)%nat ->
  exists c, new_cvl digest msgs = Some c /\
    forall v s, In (v, s) msgs -> exists vset, verify_block recover c h (d_block (v_dec v)) (Some vs) = Ok (Some vset).
Proof.
  intros recover digest msgs h r vs voters CF ND H0 HM HD0 F NV IN Q.
  assert (HD : forall v s w t, In (v, s) msgs -> In (w, t) msgs -> v_dec v = v_dec w)
    by (intros v s w t A B; apply CF; eapply HD0; eauto).
  destruct msgs as [|(v0, s0) msgs']; [inversion F; subst; cbn in Q; lia|].
  set (msgs := (v0, s0) :: msgs') in *.
  assert (I0 : In (v0, s0) msgs) by (left; reflexivity).
  assert (EC : new_cvl digest msgs = Some (mkCvl (v_round v0) (d_parts (v_dec v0))
                 (map (fun m => mkItem (v_ts (fst m)) (snd m)) msgs))).
  { unfold new_cvl. unfold msgs at 1. fold msgs.
    assert (A : forallb (fun m => zlist_eqb (digest (v_dec v0)) (digest (v_dec (fst m)))) msgs = true).
    { apply forallb_forall. intros (v, s) Hm. apply zlist_eqb_eq. cbn. f_equal. eapply HD; eauto. }
    rewrite A. reflexivity. }
  eexists. split; [exact EC|]. intros v s Hv.
  eexists. apply accepts_iff; auto. exists voters. split; [|split; [right; exact Q|reflexivity]].
  unfold certifies. cbn [cv_round cv_parts cv_items]. split; [|split; [exact NV|exact IN]].
  assert (G : forall ms vo, (forall m, In m ms -> In m msgs) ->
    Forall2 (fun m a => recover (signed_of (fst m)) (snd m) = Some a) ms vo ->
    Forall2 (fun it a => shows recover h (v_round v0) (d_block (v_dec v)) (d_parts (v_dec v0)) it a)
      (map (fun m => mkItem (v_ts (fst m)) (snd m)) ms) vo).
  { intros ms vo SUB F'. induction F' as [|(w, t) a ms vo Hr F' IH]; cbn [map]; constructor.
    - unfold shows. cbn [it_time it_sig fst snd]. cbn [fst snd] in Hr.
      assert (Hw : In (w, t) msgs) by (apply SUB; left; reflexivity).
      destruct (HM _ _ Hw) as (A1 & A2 & A3). destruct (HM _ _ I0) as (B1 & B2 & B3).
      rewrite (HD _ _ _ _ Hv Hw), (HD _ _ _ _ I0 Hw), B2, <- A1, <- A2, <- A3. exact Hr.
    - apply IH. intros m Hm. apply SUB. right. exact Hm. }
  apply G; [auto|exact F].
Qed.

Lemma assign_bad : forall recover h r b ps (bad : Z -> bool) items voters,
  Forall2 (fun it a => shows recover h r b ps it a) items voters ->
  List.length (filter (fun it => match recover (mkSigned h r Precommit b ps (it_time it)) (it_sig it) with
                                 | Some a => bad a | None => true end) items)
  = List.length (filter bad voters).
Proof.
  intros recover h r b ps bad items voters F. induction F as [|it a items voters Ha F IH]; cbn; [reflexivity|].
  unfold shows in Ha. rewrite Ha. destruct (bad a); cbn; congruence.
Qed.

Theorem block_time : forall recover c h b vs vset time prev_time (bad : Z -> bool),
  NoDup vs -> vs <> [] -> 1 < h ->
  verify_block recover c (h - 1) b (Some vs) = Ok (Some vset) ->
  verify_time h time prev_time c = true ->
  (3 * List.length (filter bad vs) < List.length vs)%nat ->
  (forall it a, In it (cv_items c) -> shows recover (h - 1) (cv_round c) b (cv_parts c) it a -> bad a = false ->
     -4611686018427387904 <= it_time it < 4611686018427387904) ->
  prev_time < time /\
  exists x y a a', In x (cv_items c) /\ In y (cv_items c) /\ bad a = false /\ bad a' = false /\
    shows recover (h - 1) (cv_round c) b (cv_parts c) x a /\
    shows recover (h - 1) (cv_round c) b (cv_parts c) y a' /\
    it_time x <= time <= it_time y.
Proof.
  intros recover c h b vs vset time prev_time bad ND NE Hh V T M B.
  apply accepts_iff in V; auto; [|lia]. destruct V as (voters & (F & NV & IN) & Q & _).
  destruct Q as [Q|Q]; [contradiction|].
  unfold verify_time in T. apply negb_true_iff, orb_false_iff in T.
  assert (Eh : Z.ltb 1 h = true) by (apply Z.ltb_lt; exact Hh). rewrite Eh in T. cbn in T. destruct T as (T1 & T2).
  apply negb_false_iff, Z.eqb_eq in T1. apply Z.leb_gt in T2. split; [exact T2|].
  set (hon := fun it => match recover (mkSigned (h - 1) (cv_round c) Precommit b (cv_parts c) (it_time it)) (it_sig it) with
                        | Some a => negb (bad a) | None => false end).
  assert (L1 : (List.length (filter bad voters) <= List.length (filter bad vs))%nat).
  { apply NoDup_incl_length; [apply NoDup_filter; exact NV|]. intros a Ha. apply filter_In in Ha. apply filter_In.
    split; [apply IN; tauto|tauto]. }
  assert (L2 : List.length (filter (fun it => negb (hon it)) (cv_items c)) = List.length (filter bad voters)).
  { rewrite <- (assign_bad recover (h - 1) (cv_round c) b (cv_parts c) bad (cv_items c) voters F). f_equal.
    apply filter_ext. intros it. unfold hon. destruct (recover _ _); [apply negb_involutive|reflexivity]. }
  pose proof (f2_length _ _ _ _ _ F) as EL.
  destruct (time_between c hon) as (x & y & X1 & X2 & Y1 & Y2 & LE).
  - rewrite L2, EL. lia.
  - intros it Hi Hn. unfold hon in Hn. destruct (recover _ _) as [a|] eqn:Er; [|discriminate].
    apply (B it a Hi Er). apply negb_true_iff. exact Hn.
  - rewrite T1. unfold hon in X2, Y2.
    destruct (recover _ (it_sig x)) as [a|] eqn:Ex; [|discriminate].
    destruct (recover _ (it_sig y)) as [a'|] eqn:Ey; [|discriminate].
    exists x, y, a, a'. apply negb_true_iff in X2. apply negb_true_iff in Y2.
    split; [exact X1|]. split; [exact Y1|]. split; [exact X2|]. split; [exact Y2|]. split; [exact Ex|]. split; [exact Ey|exact LE].
Qed.
