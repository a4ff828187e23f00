(** The cache with random eviction, the log of messages, the manager of reports. *)
From Verif Require Import Model.Bytes Model.DoubleSign Spec.DoubleSignSpec.
From Coq Require Import Lia Permutation Sorting.Sorted.
Open Scope Z_scope.

Lemma key_eqb_eq a b : key_eqb a b = true <-> a = b.
Proof.
  destruct a as [a1 a2 a3 a4 a5], b as [b1 b2 b3 b4 b5]. unfold key_eqb. cbn. rewrite !Bool.andb_true_iff, Bool.eqb_true_iff, !Z.eqb_eq, bytes_eqb_eq.
  split; [intros ((((-> & ->) & ->) & ->) & ->); reflexivity|]. intros E. injection E as -> -> -> -> ->. repeat split.
Qed.
Lemma upd_case f k v x : upd f k v x = v /\ x = k \/ upd f k v x = f x /\ x <> k.
Proof.
  unfold upd. destruct (key_eqb x k) eqn:E; [left; split; [reflexivity|now apply key_eqb_eq]|right; split; [reflexivity|]].
  intros ->. assert (key_eqb k k = true) by now apply key_eqb_eq. congruence.
Qed.
Lemma upd_same f k v : upd f k v k = v.
Proof. destruct (upd_case f k v k) as [[E _]|[_ N]]; [exact E|contradiction]. Qed.
Lemma upd_other f k v x : x <> k -> upd f k v x = f x.
Proof. intros N. destruct (upd_case f k v x) as [[_ E]|[E _]]; [contradiction|exact E]. Qed.

Section Log.
Variable vhash : vote_body -> bytes.
Variable phash : prop_body -> bytes.
Variable signer : bytes -> bytes -> bytes.
Variable nid_app : Z -> Z.
Variable nid_bid : bytes -> Z.
Variable cost : msg -> Z.
Notation hash := (hash_of vhash phash).
Notation signer_of := (signer_of vhash phash signer).
Notation key_of := (key_of vhash phash signer).
Notation conflict := (conflict vhash phash signer nid_app nid_bid).
Notation evict := (evict cost).
Notation put := (put cost).
Notation log_and_check := (log_and_check vhash phash signer nid_app nid_bid cost).
Notation log_all := (log_all vhash phash signer nid_app nid_bid cost).

Definition cost_at (f : key -> option msg) (k : key) : Z := match f k with Some v => cost v | None => 0 end.
Fixpoint sum_at (f : key -> option msg) (l : list key) : Z := match l with [] => 0 | k :: r => cost_at f k + sum_at f r end.
Lemma sum_perm f l1 l2 : Permutation l1 l2 -> sum_at f l1 = sum_at f l2.
Proof. induction 1; cbn; lia. Qed.
Lemma sum_ext f g l : (forall k, In k l -> f k = g k) -> sum_at f l = sum_at g l.
Proof. induction l as [|x r IH]; cbn; intros H; [reflexivity|]. unfold cost_at. rewrite (H x (or_introl eq_refl)), IH; [reflexivity|intros k Hk; apply H; now right]. Qed.

Record fine (c : cache) : Prop := {
  f_nodup : NoDup (c_keys c);
  f_dom : forall k, In k (c_keys c) <-> c_kv c k <> None;
  f_sum : c_sum c = sum_at (c_kv c) (c_keys c) }.

Lemma set_nth_perm d : forall l i x, (i < length l)%nat -> Permutation (nth i l d :: set_nth l i x) (x :: l).
Proof.
  induction l as [|y r IH]; intros i x L; cbn in L; [lia|]. destruct i as [|j]; cbn; [apply perm_swap|].
  etransitivity; [apply perm_swap|]. etransitivity; [apply perm_skip; apply IH; lia|]. apply perm_swap.
Qed.
Lemma split_last (d : key) l : l <> [] -> l = firstn (length l - 1) l ++ [nth (length l - 1) l d].
Proof.
  intros N. induction l as [|y r _] using rev_ind; [contradiction|]. rewrite app_length. cbn [length]. replace (length r + 1 - 1)%nat with (length r) by lia.
  now rewrite firstn_app, Nat.sub_diag, firstn_all, app_nil_r, nth_middle.
Qed.
Lemma set_nth_len : forall l i x, length (set_nth l i x) = length l.
Proof. induction l as [|y r IH]; intros [|i] x; cbn; auto. Qed.
Lemma set_nth_other d : forall l i x j, (i <> j)%nat -> nth j (set_nth l i x) d = nth j l d.
Proof. induction l as [|y r IH]; intros [|i] x [|j] N; cbn; auto; try lia. Qed.

(** One turn of the loop takes one key, not that of the message. *)
Lemma victim_ok l (k : key) e : NoDup l -> In k l -> (2 <= length l)%nat -> (e < length l - 1)%nat ->
  let ek := nth e l k in let last := nth (length l - 1) l k in
  let p := if key_eqb ek k then (last, l) else (ek, set_nth l e last) in
  fst p <> k /\ In (fst p) l /\ Permutation l (fst p :: firstn (length l - 1) (snd p)).
Proof.
  intros N Hk L He ek last. destruct (key_eqb ek k) eqn:E; cbn [fst snd].
  - apply key_eqb_eq in E. split.
    + intros F. assert (e = (length l - 1)%nat); [|lia]. rewrite (NoDup_nth l k) in N. apply N; try lia. fold ek last. congruence.
    + split; [apply nth_In; lia|]. rewrite (split_last k l) at 1 by (destruct l; [destruct Hk|discriminate]). fold last. symmetry. apply Permutation_cons_append.
  - split; [intros F; apply key_eqb_eq in F; congruence|]. split; [apply nth_In; lia|].
    set (l' := set_nth l e last). assert (P : Permutation (ek :: l') (last :: l)) by (apply set_nth_perm; lia).
    assert (El : l' = firstn (length l - 1) l' ++ [last]).
    { assert (Ll : length l' = length l) by apply set_nth_len. rewrite (split_last k l') at 1 by (intros F; rewrite F in Ll; cbn in Ll; lia).
      rewrite Ll. f_equal. f_equal. unfold l', last at 2. rewrite set_nth_other by lia. reflexivity. }
    rewrite El in P. apply (Permutation_cons_inv (a := last)). rewrite <- P. 
    etransitivity; [apply perm_skip; symmetry; apply Permutation_cons_append|]. apply perm_swap.
Qed.
Lemma nodup_perm_sub (v : key) l ks : NoDup l -> Permutation l (v :: ks) -> NoDup ks /\ ~ In v ks /\ (forall k, In k ks <-> In k l /\ k <> v).
Proof.
  intros N P. assert (N' : NoDup (v :: ks)) by (eapply Permutation_NoDup; eassumption). inversion N' as [|z zs N1 N2]; subst.
  split; [exact N2|]. split; [exact N1|]. intros k. split.
  - intros H. split; [eapply Permutation_in; [symmetry; exact P|now right]|]. intros ->. contradiction.
  - intros [H D]. assert (In k (v :: ks)) by (eapply Permutation_in; eassumption). destruct H0 as [->|H0]; [contradiction|exact H0].
Qed.

Lemma evict_ok r k v : forall fuel c, fine c -> c_kv c k = Some v -> cost v <= c_cap c -> (length (c_keys c) <= fuel)%nat ->
  exists c', evict fuel r k c = Some c' /\ fine c' /\ c_cap c' = c_cap c /\ c_kv c' k = Some v /\ c_sum c' <= c_cap c'
    /\ (forall x, c_kv c' x = c_kv c x \/ c_kv c' x = None) /\ (c_sum c <= c_cap c -> c' = c).
Proof.
  induction fuel as [|f IH]; intros c F Ek Co L.
  - assert (In k (c_keys c)) by (apply (f_dom c F); congruence). destruct (c_keys c); [contradiction|cbn in L; lia].
  - cbn [DoubleSign.evict]. destruct (Z.leb_spec (c_sum c) (c_cap c)) as [Le|Gt].
    + exists c. repeat split; auto; apply F.
    + assert (Hk : In k (c_keys c)) by (apply (f_dom c F); congruence). destruct (Nat.leb_spec (length (c_keys c)) 1) as [L1|L1].
      * exfalso. pose proof (f_sum c F) as S. destruct (c_keys c) as [|x [|y r']]; [destruct Hk| |cbn in L1; lia]. destruct Hk as [->|[]].
        cbn in S. unfold cost_at in S. rewrite Ek in S. lia.
      * set (n := length (c_keys c)) in *. set (e := Nat.modulo (r n) (n - 1)).
        assert (He : (e < n - 1)%nat) by (apply Nat.mod_upper_bound; lia).
        pose proof (victim_ok (c_keys c) k e (f_nodup c F) Hk L1 He) as V. cbv zeta in V. fold n in V. cbv zeta.
        destruct (if key_eqb (nth e (c_keys c) k) k then (nth (n - 1) (c_keys c) k, c_keys c) else (nth e (c_keys c) k, set_nth (c_keys c) e (nth (n - 1) (c_keys c) k))) as [w ks].
        cbn [fst snd] in V. destruct V as (V1 & V2 & V3). destruct (c_kv c w) as [vw|] eqn:Ew; [|apply (f_dom c F) in V2; contradiction].
        destruct (nodup_perm_sub w _ _ (f_nodup c F) V3) as (N1 & N2 & N3).
        set (c1 := mk_cache (c_cap c) (c_sum c - cost vw) (upd (c_kv c) w None) (firstn (n - 1) ks)).
        assert (F1 : fine c1).
        { split; cbn [c1 c_keys c_kv c_sum]; [exact N1| |].
          - intros x. rewrite N3. destruct (upd_case (c_kv c) w None x) as [[E1 E2]|[E1 E2]]; rewrite E1; [intuition congruence|]. rewrite (f_dom c F). tauto.
          - rewrite (f_sum c F), (sum_perm _ _ _ V3). cbn. unfold cost_at at 1. rewrite Ew.
            rewrite (sum_ext (upd (c_kv c) w None) (c_kv c)); [lia|]. intros x Hx. apply upd_other. intros ->. contradiction. }
        assert (L2 : (length (c_keys c1) <= f)%nat) by (cbn [c1 c_keys]; apply Permutation_length in V3; cbn in V3; unfold n in *; lia).
        assert (Ek1 : c_kv c1 k = Some v) by (cbn [c1 c_kv]; rewrite upd_other; [exact Ek|congruence]).
        destruct (IH c1 F1 Ek1 Co L2) as (c' & A & B & C & D & E & G & _). exists c'. split; [exact A|]. split; [exact B|]. split; [exact C|]. split; [exact D|]. split; [exact E|].
        split; [|intros; lia]. intros x. destruct (G x) as [Gx|Gx]; [|now right]. rewrite Gx. cbn [c1 c_kv].
        destruct (upd_case (c_kv c) w None x) as [[E1 _]|[E1 _]]; rewrite E1; auto.
Qed.
Lemma put_ok r c k v : fine c -> c_sum c <= c_cap c ->
  exists c', put r c k v = Some c' /\ fine c' /\ c_cap c' = c_cap c /\ c_sum c' <= c_cap c'
    /\ (forall x, c_kv c' x = c_kv c x \/ c_kv c' x = None \/ (x = k /\ c_kv c' x = Some v))
    /\ (cost v <= c_cap c -> c_kv c' k = Some v)
    /\ (cost v <= c_cap c -> c_sum c - cost_at (c_kv c) k + cost v <= c_cap c ->
        (forall x, x <> k -> c_kv c' x = c_kv c x) /\ c_sum c' = c_sum c - cost_at (c_kv c) k + cost v).
Proof.
  intros F S. unfold DoubleSign.put. destruct (Z.ltb_spec (c_cap c) (cost v)) as [Lt|Le].
  { exists c. repeat split; auto; try apply F; try lia. }
  set (p := match c_kv c k with Some o => (c_sum c - cost o, c_keys c) | None => (c_sum c, c_keys c ++ [k]) end).
  assert (P : fst p = c_sum c - cost_at (c_kv c) k /\ NoDup (snd p) /\ (forall x, In x (snd p) <-> In x (c_keys c) \/ x = k)
     /\ sum_at (upd (c_kv c) k (Some v)) (snd p) = c_sum c - cost_at (c_kv c) k + cost v).
  { unfold p, cost_at. destruct (c_kv c k) as [o|] eqn:E; cbn [fst snd].
    - assert (Hk : In k (c_keys c)) by (apply (f_dom c F); congruence). split; [reflexivity|]. split; [apply F|]. split; [intros x; intuition congruence|].
      rewrite (f_sum c F). destruct (in_split k (c_keys c) Hk) as (a & b & El). assert (Pm : Permutation (c_keys c) (k :: a ++ b)) by (rewrite El; symmetry; apply Permutation_middle).
      destruct (nodup_perm_sub k _ _ (f_nodup c F) Pm) as (_ & N & _). rewrite !(sum_perm _ _ _ Pm). cbn. unfold cost_at. rewrite upd_same, E.
      rewrite (sum_ext (upd (c_kv c) k (Some v)) (c_kv c)); [lia|]. intros x Hx. apply upd_other. intros ->. contradiction.
    - assert (Hk : ~ In k (c_keys c)) by (intros H; apply (f_dom c F) in H; contradiction). split; [lia|].
      assert (Pm : Permutation (c_keys c ++ [k]) (k :: c_keys c)) by (symmetry; apply Permutation_cons_append).
      split; [apply (Permutation_NoDup (l := k :: c_keys c)); [symmetry; exact Pm|constructor; [exact Hk|apply F]]|].
      split; [intros x; rewrite in_app_iff; cbn; intuition congruence|]. rewrite (sum_perm _ _ _ Pm). cbn. unfold cost_at at 1. rewrite upd_same, (f_sum c F).
      rewrite (sum_ext (upd (c_kv c) k (Some v)) (c_kv c)); [lia|]. intros x Hx. apply upd_other. intros ->. contradiction. }
  destruct p as [s ks]. cbn [fst snd] in P. destruct P as (P1 & P2 & P3 & P4).
  set (c1 := mk_cache (c_cap c) (s + cost v) (upd (c_kv c) k (Some v)) ks).
  assert (F1 : fine c1).
  { split; cbn [c1 c_keys c_kv c_sum]; [exact P2| |lia]. intros x. rewrite P3, (f_dom c F). destruct (upd_case (c_kv c) k (Some v) x) as [[E1 E2]|[E1 E2]]; rewrite E1; intuition congruence. }
  destruct (evict_ok r k v (length ks) c1 F1) as (c' & A & B & C & D & E & G & H); [cbn; apply upd_same|exact Le|cbn; lia|].
  exists c'. split; [exact A|]. split; [exact B|]. split; [exact C|]. split; [exact E|]. split; [|split].
  - intros x. destruct (G x) as [Gx|Gx]; [|auto]. rewrite Gx. cbn [c1 c_kv]. destruct (upd_case (c_kv c) k (Some v) x) as [[E1 E2]|[E1 E2]]; rewrite E1; auto.
  - intros _. exact D.
  - intros _ Cs. assert (Ec : c' = c1) by (apply H; cbn [c1 c_sum c_cap]; lia). subst c'. split; [|cbn [c1 c_sum]; lia].
    intros x Nx. cbn [c1 c_kv]. now apply upd_other.
Qed.
Lemma conflict_true m1 m2 : conflict m1 m2 = true -> double_signed vhash phash signer m1 m2.
Proof.
  unfold double_signed. destruct m1 as [b1 s1 e1|b1 s1], m2 as [b2 s2 e2|b2 s2]; cbn [DoubleSign.conflict same_turn]; try discriminate.
  - destruct (match_nid _ _); cbn [negb]; [|discriminate].
    destruct (Z.eqb_spec (v_type b2) (v_type b1)) as [E1|]; cbn [negb orb]; [|discriminate].
    destruct (Z.eqb_spec (v_height b2) (v_height b1)) as [E2|]; cbn [negb orb]; [|discriminate].
    destruct (Z.eqb_spec (v_round b2) (v_round b1)) as [E3|]; cbn [negb orb]; [|discriminate].
    destruct (bytes_eqb (signer_of (Vote b2 s2 e2)) (signer_of (Vote b1 s1 e1))) eqn:E4; cbn [negb]; [|discriminate]. apply bytes_eqb_eq in E4.
    intros H. split; [repeat split; congruence|]. split; [now symmetry|]. intros E. rewrite E, bytes_eqb_refl in H. discriminate.
  - destruct (match_nid _ _); cbn [negb]; [|discriminate].
    destruct (Z.eqb_spec (p_height b1) (p_height b2)) as [E2|]; cbn [negb orb]; [|discriminate].
    destruct (Z.eqb_spec (p_round b1) (p_round b2)) as [E3|]; cbn [negb orb]; [|discriminate].
    destruct (bytes_eqb (signer_of (Prop_ b2 s2)) (signer_of (Prop_ b1 s1))) eqn:E4; cbn [negb]; [|discriminate]. apply bytes_eqb_eq in E4.
    intros H. split; [split; congruence|]. split; [now symmetry|]. intros E. rewrite E, bytes_eqb_refl in H. discriminate.
Qed.
Definition nids_match (m1 m2 : msg) : Prop := match m1, m2 with Prop_ b1 _, Prop_ b2 _ => match_nid (p_nid b1) (p_nid b2) = true | _, _ => True end.
Lemma match_self x : match_nid x x = true.
Proof. unfold match_nid. rewrite Z.eqb_refl. destruct (_ || _); reflexivity. Qed.
Lemma conflict_false m1 m2 : key_of m1 = key_of m2 -> nids_match m1 m2 -> conflict m1 m2 = false -> hash m1 = hash m2.
Proof.
  destruct m1 as [b1 s1 e1|b1 s1], m2 as [b2 s2 e2|b2 s2]; cbn [DoubleSign.conflict DoubleSign.key_of nids_match]; intros K Nm H; try discriminate K;
    injection K as K1 K2 K3; repeat match goal with x : _ |- _ => progress idtac end.
  - rewrite match_self in H. cbn [negb] in H. assert (K4 : v_round b1 = v_round b2) by congruence. rewrite K1, K3, K4, !Z.eqb_refl, K2, bytes_eqb_refl in H. cbn [negb orb] in H.
    apply Bool.negb_false_iff in H. now apply bytes_eqb_eq.
  - rewrite Nm in H. cbn [negb] in H. rewrite K2, K3, !Z.eqb_refl, K1, bytes_eqb_refl in H. cbn [negb orb] in H. apply Bool.negb_false_iff in H. now apply bytes_eqb_eq.
Qed.

Definition known (c : cache) (seen : list msg) : Prop :=
  fine c /\ c_sum c <= c_cap c /\ forall k o, c_kv c k = Some o -> key_of o = k /\ In o seen.
Lemma known_new cap : 0 <= cap -> known (new_cache cap) [].
Proof.
  intros P. split; [|split; [exact P|discriminate]]. split; cbn; [constructor| |reflexivity]. intros k. split; [intros []|congruence].
Qed.
Lemma log_step r c m seen : known c seen -> exists c' rep, log_and_check r c m = Some (c', rep) /\ known c' (seen ++ [m]) /\ c_cap c' = c_cap c
  /\ match rep with None => True | Some p => In (fst p) seen /\ snd p = m /\ conflict (fst p) (snd p) = true end.
Proof.
  intros (F & S & K). assert (K' : forall k o, c_kv c k = Some o -> key_of o = k /\ In o (seen ++ [m])).
  { intros k o E. destruct (K k o E) as [A B]. split; [exact A|apply in_or_app; now left]. }
  assert (Pt : exists c', put r c (key_of m) m = Some c' /\ known c' (seen ++ [m]) /\ c_cap c' = c_cap c).
  { destruct (put_ok r c (key_of m) m F S) as (c' & A & B & C & D & E & _). exists c'. split; [exact A|]. split; [|exact C]. split; [exact B|]. split; [exact D|].
    intros k o Eo. destruct (E k) as [Ek|[Ek|[Ek1 Ek2]]]; [rewrite Ek in Eo; now apply K'|congruence|]. rewrite Ek2 in Eo. injection Eo as <-. split; [now symmetry|apply in_or_app; right; now left]. }
  destruct Pt as (c' & P1 & P2 & P3). assert (Kc : known c (seen ++ [m])) by (split; [exact F|split; [exact S|exact K']]).
  unfold DoubleSign.log_and_check. destruct (c_kv c (key_of m)) as [o|] eqn:E.
  - destruct (conflict o m) eqn:Ec.
    + exists c, (Some (o, m)). split; [reflexivity|]. split; [exact Kc|]. split; [reflexivity|]. cbn [fst snd]. split; [apply (K _ _ E)|]. split; [reflexivity|exact Ec].
    + destruct m as [b s e|b s].
      * rewrite P1. exists c', None. split; [reflexivity|split; [exact P2|split; [exact P3|exact I]]].
      * exists c, None. split; [reflexivity|split; [exact Kc|split; [reflexivity|exact I]]].
  - rewrite P1. exists c', None. split; [reflexivity|split; [exact P2|split; [exact P3|exact I]]].
Qed.
Lemma log_all_ok : forall l c seen, known c seen -> exists c' reps, log_all c l = Some (c', reps)
  /\ forall p, In p reps -> conflict (fst p) (snd p) = true /\ exists l1 r l2, l = l1 ++ (snd p, r) :: l2 /\ In (fst p) (seen ++ map fst l1).
Proof.
  induction l as [|[m r] l IH]; intros c seen K; [exists c, []; split; [reflexivity|intros p []]|].
  destruct (log_step r c m seen K) as (c1 & rep & A & K1 & _ & R). destruct (IH c1 _ K1) as (c2 & reps & B & Q). cbn [DoubleSign.log_all]. rewrite A, B.
  assert (Q' : forall p, In p reps -> conflict (fst p) (snd p) = true /\ exists l1 r0 l2, (m, r) :: l = l1 ++ (snd p, r0) :: l2 /\ In (fst p) (seen ++ map fst l1)).
  { intros p Hp. destruct (Q p Hp) as (C & l1 & r1 & l2 & E & I). split; [exact C|]. exists ((m, r) :: l1), r1, l2. split; [cbn; now rewrite E|]. cbn. rewrite <- app_assoc in I. exact I. }
  destruct rep as [q|]; [|exists c2, reps; split; [reflexivity|exact Q']]. destruct R as (R1 & R2 & R3).
  exists c2, (q :: reps). split; [reflexivity|]. intros p [<-|Hp]; [|now apply Q']. split; [exact R3|]. exists [], r, l. split; [cbn; now rewrite R2|]. cbn. rewrite app_nil_r. exact R1.
Qed.

(** With room for all, no message is forgotten. *)
Definition told (done : list (msg * msg)) (m : msg) : Prop := exists p, In p done /\ key_of (snd p) = key_of m.
Definition remembers (c : cache) (done : list (msg * msg)) (m : msg) : Prop :=
  exists o, c_kv c (key_of m) = Some o /\ (hash o = hash m \/ told done m).
Lemma log_all_found (cost_pos : forall m, 0 <= cost m) : forall l c seen done, known c seen ->
  (forall a b, In a (seen ++ map fst l) -> In b (seen ++ map fst l) -> nids_match a b) ->
  c_sum c + total_cost cost (map fst l) <= c_cap c -> (forall m, In m seen -> remembers c done m) ->
  exists c' reps, log_all c l = Some (c', reps) /\ forall m, In m (seen ++ map fst l) -> remembers c' (done ++ reps) m.
Proof.
  induction l as [|[m r] l IH]; intros c seen done K Nm T R.
  - exists c, []. split; [reflexivity|]. cbn. rewrite !app_nil_r. exact R.
  - cbn [map fst total_cost] in T. assert (Pl : 0 <= total_cost cost (map fst l)).
    { clear -cost_pos. induction (map fst l) as [|x y IH]; cbn; [lia|]. specialize (cost_pos x). lia. }
    destruct (log_step r c m seen K) as (c1 & rep & A & K1 & Cap & _). destruct K as (F & S & K).
    assert (Cost : 0 <= cost_at (c_kv c) (key_of m)) by (unfold cost_at; destruct (c_kv c (key_of m)); [apply cost_pos|lia]).
    assert (Sum0 : 0 <= c_sum c).
    { rewrite (f_sum c F). clear -cost_pos. induction (c_keys c) as [|x y IH]; cbn; [lia|]. unfold cost_at at 1. destruct (c_kv c x); [specialize (cost_pos m)|]; lia. }
    pose (done' := match rep with Some p => done ++ [p] | None => done end).
    assert (Mono : forall x, told done x -> told done' x).
    { intros x (p & Hp & E). exists p. split; [|exact E]. unfold done'. destruct rep; [apply in_or_app; now left|exact Hp]. }
    assert (Main : c_sum c1 <= c_sum c + cost m /\ forall x, In x (seen ++ [m]) -> remembers c1 done' x).
    { assert (Put : put r c (key_of m) m = Some c1 -> (forall o, c_kv c (key_of m) = Some o -> hash o = hash m) ->
        c_sum c1 <= c_sum c + cost m /\ forall x, In x (seen ++ [m]) -> remembers c1 done' x).
      { intros P Ho. destruct (put_ok r c (key_of m) m F S) as (c' & A' & _ & _ & _ & _ & D & E). rewrite A' in P. injection P as ->.
        specialize (D ltac:(lia)). destruct (E ltac:(lia) ltac:(lia)) as (E1 & E2). split; [lia|]. intros x Hx. apply in_app_or in Hx. destruct Hx as [Hx|[<-|[]]].
        - destruct (R x Hx) as (o & Eo & Q). destruct (key_eqb (key_of x) (key_of m)) eqn:Ek.
          + apply key_eqb_eq in Ek. exists m. rewrite Ek in *. split; [exact D|]. destruct Q as [Q|Q]; [left|right; now apply Mono]. rewrite <- (Ho o Eo). exact Q.
          + exists o. rewrite E1; [split; [exact Eo|]|intros Ek'; apply key_eqb_eq in Ek'; congruence]. destruct Q as [Q|Q]; [now left|right; now apply Mono].
        - exists m. split; [exact D|now left]. }
      unfold DoubleSign.log_and_check in A. destruct (c_kv c (key_of m)) as [o|] eqn:Eo.
      - destruct (K _ _ Eo) as [Ko Io]. destruct (conflict o m) eqn:Ec.
        + injection A as <- <-. split; [specialize (cost_pos m); lia|]. intros x Hx. apply in_app_or in Hx. destruct Hx as [Hx|[<-|[]]].
          * destruct (R x Hx) as (o' & Eo' & Q). exists o'. split; [exact Eo'|]. destruct Q as [Q|Q]; [now left|right; now apply Mono].
          * exists o. split; [exact Eo|]. right. exists (o, m). split; [unfold done'; apply in_or_app; right; now left|reflexivity].
        + assert (Eh : hash o = hash m).
          { apply conflict_false; [exact Ko| |exact Ec]. apply Nm; apply in_or_app; [now left|right; now left]. }
          destruct m as [b s e|b s].
          * destruct (put r c (key_of (Vote b s e)) (Vote b s e)) as [c'|] eqn:P; [|discriminate]. injection A as <- <-. apply Put; [reflexivity|]. intros o' E'. congruence.
          * injection A as <- <-. split; [specialize (cost_pos (Prop_ b s)); lia|]. intros x Hx. apply in_app_or in Hx. destruct Hx as [Hx|[<-|[]]].
            -- destruct (R x Hx) as (o' & Eo' & Q). exists o'. split; [exact Eo'|]. destruct Q as [Q|Q]; [now left|right; now apply Mono].
            -- exists o. split; [exact Eo|now left].
      - destruct (put r c (key_of m) m) as [c'|] eqn:P; [|discriminate]. injection A as <- <-. apply Put; [reflexivity|]. discriminate. }
    destruct Main as [M1 M2]. destruct (IH c1 (seen ++ [m]) done' K1) as (c2 & reps & B & Q).
    + rewrite <- app_assoc. exact Nm.
    + rewrite Cap. lia.
    + exact M2.
    + exists c2, (match rep with Some p => p :: reps | None => reps end). cbn [DoubleSign.log_all]. rewrite A, B. split; [reflexivity|].
      intros x Hx. cbn [map fst] in Hx. change (m :: map fst l) with ([m] ++ map fst l) in Hx. rewrite app_assoc in Hx. specialize (Q x Hx). unfold done' in Q. destruct rep; [|exact Q]. rewrite <- app_assoc in Q. exact Q.
Qed.
End Log.

