From Verif Require Import Model.Bytes Model.IntCodec Model.Rlp Model.BtpMerkle Model.BtpSection Spec.BtpMerkleSpec Spec.BtpSectionSpec Proof.BtpSectionSort.
From Coq Require Import Sorting.Sorted Sorting.Permutation.
Open Scope Z_scope.

(** ** The entries *)
Definition entry_inv (l : list call) (e : entries) : Prop :=
  NoDup (map fst e) /\ (forall nid, In nid (map fst e) <-> In nid (map network_of l)) /\ (forall nid ms, In (nid, ms) e -> ms = sent_to nid l).

Lemma send_keys e n m : map fst (send e n m) = if existsb (fun x => fst x =? n) e then map fst e else map fst e ++ [n].
Proof.
  induction e as [|[k ms] e IH]; [reflexivity|]. cbn [send existsb fst]. destruct (k =? n) eqn:E; cbn [orb map fst]; [reflexivity|]. rewrite IH. now destruct (existsb _ e).
Qed.
Lemma keys_existsb {A} (e : list (Z * A)) n : existsb (fun x => fst x =? n) e = true <-> In n (map fst e).
Proof.
  rewrite existsb_exists, in_map_iff. split; intros (x & X & Y); exists x; [apply Z.eqb_eq in Y; auto|subst n; split; [exact Y|apply Z.eqb_refl]].
Qed.
Lemma send_in e n m : forall nid ms, NoDup (map fst e) -> In (nid, ms) (send e n m) ->
  (nid <> n /\ In (nid, ms) e) \/ (nid = n /\ ((exists old, In (n, old) e /\ ms = old ++ [m]) \/ (~ In n (map fst e) /\ ms = [m]))).
Proof.
  induction e as [|[k x] e IH]; intros nid ms D I.
  - destruct I as [I|[]]. injection I as <- <-. right. split; [reflexivity|]. right. split; [intros []|reflexivity].
  - cbn [map fst] in D. inversion D as [|? ? N D']; subst. cbn [send] in I. destruct (k =? n) eqn:E; [apply Z.eqb_eq in E; subst k|apply Z.eqb_neq in E].
    + destruct I as [I|I]; [injection I as <- <-; right; split; [reflexivity|]; left; exists x; split; [now left|reflexivity]|].
      left. split; [|now right]. intros ->. apply N. apply in_map_iff. exists (n, ms). auto.
    + destruct I as [I|I]; [injection I as <- <-; left; split; [exact E|now left]|].
      destruct (IH nid ms D' I) as [[X Y]|[-> [(old & X & ->)|[X ->]]]]; [left; split; [exact X|now right]|right; split; [reflexivity|left; exists old; split; [now right|reflexivity]]|].
      right. split; [reflexivity|]. right. split; [|reflexivity]. cbn. intros [->|Z1]; [now apply E|now apply X].
Qed.
Lemma sent_snoc nid l c : sent_to nid (l ++ [c]) = sent_to nid l ++ match c with Send n m => if n =? nid then [m] else [] | Ensure _ => [] end.
Proof. unfold sent_to. rewrite flat_map_app. cbn [flat_map]. now rewrite app_nil_r. Qed.
Lemma sent_none nid l : ~ In nid (map network_of l) -> sent_to nid l = [].
Proof.
  induction l as [|c l IH]; intro N; [reflexivity|]. cbn [map In] in N. unfold sent_to in *. cbn [flat_map]. rewrite IH by tauto. rewrite app_nil_r. destruct c as [n m|n]; [|reflexivity].
  cbn [network_of] in N. destruct (n =? nid) eqn:E; [|reflexivity]. apply Z.eqb_eq in E. tauto.
Qed.
Lemma NoDup_snoc {A} (l : list A) x : NoDup l -> ~ In x l -> NoDup (l ++ [x]).
Proof.
  intros D N. apply NoDup_rev in D. rewrite <- (rev_involutive (l ++ [x])). apply NoDup_rev. rewrite rev_app_distr. cbn. constructor; [|exact D]. now rewrite <- in_rev.
Qed.
Lemma entries_ok l : entry_inv l (after l).
Proof.
  unfold after. induction l as [|c l IH] using rev_ind; [split; [constructor|]; split; [tauto|intros ? ? []]|].
  rewrite fold_left_app. cbn [fold_left]. set (e := fold_left do_call l []) in *. destruct IH as (D & K & M). destruct c as [n m|n]; cbn [do_call].
  - unfold entry_inv. rewrite send_keys. destruct (existsb (fun x => fst x =? n) e) eqn:E.
    + apply keys_existsb in E. split; [exact D|]. split.
      { intro nid. rewrite map_app, in_app_iff, K. cbn [map network_of In]. split; [tauto|]. intros [X|[<-|[]]]; [exact X|now apply K]. }
      intros nid ms I. rewrite sent_snoc. destruct (send_in e n m nid ms D I) as [[X Y]|[-> [(old & X & ->)|[X ->]]]].
      * replace (n =? nid) with false by (symmetry; apply Z.eqb_neq; congruence). rewrite app_nil_r. now apply M.
      * rewrite Z.eqb_refl. now rewrite (M n old X).
      * contradiction.
    + assert (N : ~ In n (map fst e)) by (rewrite <- keys_existsb; congruence). split; [now apply NoDup_snoc|]. split.
      { intro nid. rewrite map_app, !in_app_iff, K. cbn [map network_of In]. tauto. }
      intros nid ms I. rewrite sent_snoc. destruct (send_in e n m nid ms D I) as [[X Y]|[-> [(old & X & ->)|[X ->]]]].
      * replace (n =? nid) with false by (symmetry; apply Z.eqb_neq; congruence). rewrite app_nil_r. now apply M.
      * exfalso. apply N. apply in_map_iff. exists (n, old). auto.
      * rewrite Z.eqb_refl. rewrite sent_none by (rewrite <- K; exact N). reflexivity.
  - unfold ensure, entry_inv. destruct (existsb (fun x => fst x =? n) e) eqn:E.
    + apply keys_existsb in E. split; [exact D|]. split; [|intros nid ms I; rewrite sent_snoc, app_nil_r; now apply M].
      intro nid. rewrite map_app, in_app_iff, K. cbn [map network_of In]. split; [tauto|]. intros [X|[<-|[]]]; [exact X|now apply K].
    + assert (N : ~ In n (map fst e)) by (rewrite <- keys_existsb; congruence). rewrite map_app. cbn [map fst]. split; [now apply NoDup_snoc|]. split.
      { intro nid. rewrite map_app, !in_app_iff, K. cbn [map network_of In]. tauto. }
      intros nid ms I. rewrite sent_snoc, app_nil_r. apply in_app_iff in I as [I|[I|[]]]; [now apply M|]. injection I as <- <-. rewrite sent_none by (rewrite <- K; exact N). reflexivity.
Qed.

(** ** By types *)
Section Build.
Variable H : bytes -> bytes -> bytes.
Variable pc_hash : bytes -> option bytes -> option (option bytes).
Variable v : view.

Definition from_entries (e : entries) (t : Z) (s : section) : Prop :=
  exists nid ms nw nt, In (nid, ms) e /\ v_network v nid = Some nw /\ nw_type nw = t /\ v_type v t = Some nt /\ s = new_section H nid nw ms (nt_uid nt).
Definition by_type_inv (e : entries) (m : by_type) : Prop :=
  NoDup (map fst m)
  /\ (forall t l c, In (t, (l, c)) m -> ascending (map ns_nid l) /\ l <> [] /\ c = existsb context_changed l /\ (forall s, In s l <-> from_entries e t s))
  /\ (forall nid ms, In (nid, ms) e -> exists nw nt, v_network v nid = Some nw /\ v_type v (nw_type nw) = Some nt /\ In (nw_type nw) (map fst m))
  /\ (forall t, In t (map fst m) -> exists s, from_entries e t s).

Lemma into_keys m t s : map fst (into m t s) = if existsb (fun x => fst x =? t) m then map fst m else map fst m ++ [t].
Proof.
  induction m as [|[k [l c]] m IH]; [reflexivity|]. cbn [into existsb fst]. destruct (k =? t) eqn:E; cbn [orb map fst]; [reflexivity|]. rewrite IH. now destruct (existsb _ m).
Qed.
Lemma into_in m t s : forall t' l c, NoDup (map fst m) -> In (t', (l, c)) (into m t s) ->
  (t' <> t /\ In (t', (l, c)) m)
  \/ (t' = t /\ ((exists l0 c0, In (t, (l0, c0)) m /\ l = sorted_insert ns_nid l0 s /\ c = c0 || context_changed s) \/ (~ In t (map fst m) /\ l = [s] /\ c = context_changed s))).
Proof.
  induction m as [|[k [l0 c0]] m IH]; intros t' l c D I.
  - destruct I as [I|[]]. injection I as <- <- <-. right. split; [reflexivity|]. right. split; [intros []|auto].
  - cbn [map fst] in D. inversion D as [|? ? N D']; subst. cbn [into] in I. destruct (k =? t) eqn:E; [apply Z.eqb_eq in E; subst k|apply Z.eqb_neq in E].
    + destruct I as [I|I]; [injection I as <- <- <-; right; split; [reflexivity|]; left; exists l0, c0; split; [now left|auto]|].
      left. split; [|now right]. intros ->. apply N. apply in_map_iff. exists (t, (l, c)). auto.
    + destruct I as [I|I]; [injection I as <- <- <-; left; split; [exact E|now left]|].
      destruct (IH t' l c D' I) as [[X Y]|[-> [(l1 & c1 & X & Y)|[X Y]]]]; [left; split; [exact X|now right]|right; split; [reflexivity|left; exists l1, c1; split; [now right|exact Y]]|].
      right. split; [reflexivity|]. right. split; [|exact Y]. cbn. intros [->|Z1]; [now apply E|now apply X].
Qed.
Lemma existsb_perm {A} (f : A -> bool) l m : Permutation l m -> existsb f l = existsb f m.
Proof. induction 1; cbn; [reflexivity|now rewrite IHPermutation|now rewrite !orb_assoc, (orb_comm (f y))|congruence]. Qed.
Lemma from_snoc e nid ms nw nt t s : v_network v nid = Some nw -> v_type v (nw_type nw) = Some nt ->
  (from_entries (e ++ [(nid, ms)]) t s <-> from_entries e t s \/ (t = nw_type nw /\ s = new_section H nid nw ms (nt_uid nt))).
Proof.
  intros En Et. split.
  - intros (n & x & w & y & I & A & B & C & E). apply in_app_iff in I as [I|[I|[]]]; [left; exists n, x, w, y; auto|]. injection I as <- <-. assert (w = nw) by congruence; subst w.
    subst t. assert (y = nt) by congruence; subst y. right. auto.
  - intros [(n & x & w & y & I & A)|[-> ->]]; [exists n, x, w, y; split; [apply in_app_iff; now left|exact A]|]. exists nid, ms, nw, nt. split; [apply in_app_iff; right; now left|auto].
Qed.
Lemma collect_ok : forall e done m m', NoDup (map fst (done ++ e)) -> by_type_inv done m -> collect H v e m = Some m' -> by_type_inv (done ++ e) m'.
Proof.
  induction e as [|[nid ms] e IH]; intros done m m' D B C; cbn [collect] in C.
  - injection C as <-. now rewrite app_nil_r.
  - destruct (v_network v nid) as [nw|] eqn:En; [|discriminate C]. destruct (v_type v (nw_type nw)) as [nt|] eqn:Et; [|discriminate C].
    replace (done ++ (nid, ms) :: e) with ((done ++ [(nid, ms)]) ++ e) in * by (rewrite <- app_assoc; reflexivity).
    refine (IH (done ++ [(nid, ms)]) _ m' D _ C). clear IH C m'. destruct B as (Dm & P & Q & R).
    set (s := new_section H nid nw ms (nt_uid nt)) in *. set (t := nw_type nw) in *.
    assert (Nn : ~ In nid (map fst done)).
    { rewrite !map_app in D. cbn [map fst] in D. rewrite <- app_assoc in D. cbn [app] in D.
      intro X. apply (NoDup_remove_2 _ _ _ D). apply in_app_iff. now left. }
    assert (Keys : map fst (into m t s) = if existsb (fun x => fst x =? t) m then map fst m else map fst m ++ [t]) by apply into_keys.
    assert (Sub : forall k, In k (map fst (into m t s)) <-> In k (map fst m) \/ k = t).
    { intro k. rewrite Keys. destruct (existsb (fun x => fst x =? t) m) eqn:E; [apply keys_existsb in E; split; [tauto|intros [X| ->]; auto]|]. rewrite in_app_iff. cbn. split; [intros [X|[X|[]]]; auto|intros [X| ->]; auto]. }
    split; [rewrite Keys; destruct (existsb (fun x => fst x =? t) m) eqn:E; [exact Dm|apply NoDup_snoc; [exact Dm|rewrite <- keys_existsb; congruence]]|].
    split; [|split].
    + intros t' l c I. destruct (into_in m t s t' l c Dm I) as [[X Y]|[-> [(l0 & c0 & Y & -> & ->)|(N & -> & ->)]]].
      * destruct (P t' l c Y) as (A1 & A2 & A3 & A4). split; [exact A1|]. split; [exact A2|]. split; [exact A3|]. intro s'. rewrite (from_snoc done nid ms nw nt t' s' En Et). rewrite A4. fold t. split; [auto|]. intros [Z1|[Z1 _]]; [exact Z1|contradiction].
      * destruct (P t l0 c0 Y) as (A1 & A2 & A3 & A4). pose proof (sorted_insert_perm ns_nid l0 s) as Pe. split; [|split; [|split]].
        -- apply sorted_insert_asc; [exact A1|]. intro X. apply in_map_iff in X as (s0 & E0 & I0). apply A4 in I0 as (n & x & w & y & I0 & _ & _ & _ & ->). cbn in E0. subst n.
           apply Nn. apply in_map_iff. exists (nid, x). auto.
        -- intro X. rewrite X in Pe. apply Permutation_sym, Permutation_nil in Pe. discriminate Pe.
        -- rewrite <- (existsb_perm context_changed _ _ Pe). cbn [existsb]. rewrite A3. apply orb_comm.
        -- intro s'. rewrite (from_snoc done nid ms nw nt t s' En Et). fold t. fold s. rewrite <- A4. split; intro X.
           ++ apply (Permutation_in _ (Permutation_sym Pe)) in X. destruct X as [<-|X]; auto.
           ++ apply (Permutation_in _ Pe). destruct X as [X|[_ ->]]; [now right|now left].
      * split; [repeat constructor|]. split; [discriminate|]. split; [cbn; now rewrite orb_false_r|]. intro s'. rewrite (from_snoc done nid ms nw nt t s' En Et). fold t. fold s. cbn [In]. split; intro X.
        -- destruct X as [<-|[]]. auto.
        -- destruct X as [X|[_ ->]]; [|now left]. exfalso. destruct X as (n & x & w & y & I0 & A & B & _). destruct (Q n x I0) as (w' & y' & A' & B' & C'). assert (w' = w) by congruence; subst w'. rewrite B in C'. contradiction.
    + intros n x I. apply in_app_iff in I as [I|[I|[]]].
      * destruct (Q n x I) as (w & y & A & B & C). exists w, y. split; [exact A|]. split; [exact B|]. apply Sub. now left.
      * injection I as <- <-. exists nw, nt. split; [exact En|]. split; [exact Et|]. apply Sub. now right.
    + intros k K. apply Sub in K as [K| ->].
      * destruct (R k K) as (s' & F). exists s'. apply (from_snoc done nid ms nw nt k s' En Et). now left.
      * exists s. apply (from_snoc done nid ms nw nt t s En Et). right. auto.
Qed.
Lemma collect_none : forall e m, collect H v e m = None <-> exists nid ms, In (nid, ms) e /\ match v_network v nid with None => True | Some nw => v_type v (nw_type nw) = None end.
Proof.
  induction e as [|[nid ms] e IH]; intro m; cbn [collect].
  - split; [discriminate|]. intros (? & ? & [] & _).
  - destruct (v_network v nid) as [nw|] eqn:En; [destruct (v_type v (nw_type nw)) as [nt|] eqn:Et|].
    + rewrite IH. split; intros (n & x & I & A); exists n, x; [split; [now right|exact A]|]. destruct I as [I|I]; [|auto]. injection I as <- <-. rewrite En in A. congruence.
    + split; [|reflexivity]. intros _. exists nid, ms. split; [now left|]. now rewrite En.
    + split; [|reflexivity]. intros _. exists nid, ms. split; [now left|]. now rewrite En.
Qed.

(** ** All types *)
Definition type_made (m : by_type) (x : type_section) : Prop :=
  exists t l c nt, In (t, (l, c)) m /\ v_type v t = Some nt /\ new_type_section H pc_hash t nt l c = Some x.
Lemma new_type_id t nt l c x : new_type_section H pc_hash t nt l c = Some x -> nts_id x = t.
Proof. unfold new_type_section. destruct (pc_hash _ _); [|discriminate]. intro E. injection E as <-. reflexivity. Qed.
Lemma assemble_ok : forall m done out out', NoDup (map fst (done ++ m)) -> ascending (map nts_id out) -> (forall x, In x out <-> type_made done x) ->
  assemble H pc_hash v m out = Some out' -> ascending (map nts_id out') /\ (forall x, In x out' <-> type_made (done ++ m) x).
Proof.
  induction m as [|[t [l c]] m IH]; intros done out out' D S M A; cbn [assemble] in A.
  - injection A as <-. rewrite app_nil_r. auto.
  - destruct (v_type v t) as [nt|] eqn:Et; [|discriminate A]. destruct (new_type_section H pc_hash t nt l c) as [x|] eqn:Ex; [|discriminate A].
    replace (done ++ (t, (l, c)) :: m) with ((done ++ [(t, (l, c))]) ++ m) in * by (rewrite <- app_assoc; reflexivity).
    pose proof (sorted_insert_perm nts_id out x) as Pe.
    apply (IH _ (sorted_insert nts_id out x) out' D); [| |exact A].
    + apply sorted_insert_asc; [exact S|]. rewrite (new_type_id _ _ _ _ _ Ex). intro X. apply in_map_iff in X as (y & Ey & I). apply M in I as (t' & l' & c' & nt' & I & _ & E').
      apply new_type_id in E'. assert (Q : t' = t) by (rewrite <- E'; exact Ey). rewrite Q in I. rewrite !map_app in D. cbn [map fst] in D. rewrite <- app_assoc in D. cbn [app] in D. apply (NoDup_remove_2 _ _ _ D). apply in_app_iff. left. apply in_map_iff. exists (t, (l', c')). auto.
    + intro y. split; intro Y.
      * apply (Permutation_in _ (Permutation_sym Pe)) in Y as [<-|Y]; [exists t, l, c, nt; split; [apply in_app_iff; right; now left|auto]|].
        apply M in Y as (t' & l' & c' & nt' & I & E'). exists t', l', c', nt'. split; [apply in_app_iff; now left|exact E'].
      * apply (Permutation_in _ Pe). destruct Y as (t' & l' & c' & nt' & I & E1 & E2). apply in_app_iff in I as [I|[I|[]]]; [right; apply M; exists t', l', c', nt'; auto|].
        injection I as <- <- <-. left. congruence.
Qed.
Lemma assemble_none : forall m out, assemble H pc_hash v m out = None <->
  exists t l c, In (t, (l, c)) m /\ match v_type v t with None => True | Some nt => pc_hash (nt_uid nt) (nt_next_pc nt) = None end.
Proof.
  induction m as [|[t [l c]] m IH]; intro out; cbn [assemble].
  - split; [discriminate|]. intros (? & ? & ? & [] & _).
  - destruct (v_type v t) as [nt|] eqn:Et; [destruct (new_type_section H pc_hash t nt l c) as [x|] eqn:Ex|].
    + rewrite IH. split; intros (t' & l' & c' & I & A); exists t', l', c'; [split; [now right|exact A]|]. destruct I as [I|I]; [|auto]. injection I as <- <- <-. rewrite Et in A. exfalso. unfold new_type_section in Ex. rewrite A in Ex. discriminate Ex.
    + split; [|reflexivity]. intros _. exists t, l, c. split; [now left|]. rewrite Et. unfold new_type_section in Ex. destruct (pc_hash _ _); [discriminate Ex|reflexivity].
    + split; [|reflexivity]. intros _. exists t, l, c. split; [now left|]. now rewrite Et.
Qed.

Lemma collected e m : NoDup (map fst e) -> collect H v e [] = Some m -> by_type_inv e m.
Proof.
  intros D C. apply (collect_ok e [] [] m); [exact D| |exact C]. split; [constructor|]. split; [intros ? ? ? []|]. split; [intros ? ? []|intros ? []].
Qed.
Lemma built e shuffle out : NoDup (map fst e) -> (forall m, Permutation m (shuffle m)) -> build H pc_hash v e shuffle = Some out ->
  exists m, by_type_inv e m /\ ascending (map nts_id out) /\ (forall x, In x out <-> type_made m x).
Proof.
  intros D Sh B. unfold build in B. destruct (collect H v e []) as [m|] eqn:C; [|discriminate B]. pose proof (collected e m D C) as I. exists m. split; [exact I|].
  destruct (assemble_ok (shuffle m) [] [] out) as [X Y]; [cbn [app]; eapply Permutation_NoDup; [apply Permutation_map, Sh|apply I]|constructor|intro x; split; [intros []|intros (? & ? & ? & ? & [] & _)]|exact B|].
  split; [exact X|]. intro x. rewrite Y. cbn [app]. unfold type_made. split; intros (t & l & c & nt & I1 & I2); exists t, l, c, nt; (split; [|exact I2]); [apply (Permutation_in _ (Permutation_sym (Sh m))); exact I1|apply (Permutation_in _ (Sh m)); exact I1].
Qed.
Lemma from_same e e' : Permutation e e' -> forall t s, from_entries e t s <-> from_entries e' t s.
Proof.
  intros P t s. split; intros (n & x & w & y & I & A); exists n, x, w, y; (split; [|exact A]); [apply (Permutation_in _ P I)|apply (Permutation_in _ (Permutation_sym P) I)].
Qed.
Lemma inv_same e e' m m' : Permutation e e' -> by_type_inv e m -> by_type_inv e' m' -> forall p, In p m -> In p m'.
Proof.
  intros P (D & A & B & C) (D' & A' & B' & C') [t [l c]] I. destruct (A t l c I) as (X1 & X2 & X3 & X4).
  assert (K : In t (map fst m')).
  { destruct (C t) as (s & F); [apply in_map_iff; exists (t, (l, c)); auto|]. apply (from_same _ _ P) in F as (n & x & w & y & I0 & E1 & E2 & _). destruct (B' n x I0) as (w' & y' & Z1 & _ & Z2). assert (w' = w) by congruence. subst w'. now rewrite E2 in Z2. }
  apply in_map_iff in K as ([t' [l' c']] & E & I'). cbn in E. subst t'. destruct (A' t l' c' I') as (Y1 & Y2 & Y3 & Y4).
  assert (l' = l) by (apply (asc_same ns_nid); [exact Y1|exact X1|]; intro s; rewrite X4, Y4; symmetry; apply from_same; exact P). subst l'. now rewrite X3, <- Y3.
Qed.
Theorem build_same e e' sh sh' : NoDup (map fst e) -> Permutation e e' -> (forall m, Permutation m (sh m)) -> (forall m, Permutation m (sh' m)) ->
  build H pc_hash v e sh = build H pc_hash v e' sh'.
Proof.
  intros D P S1 S2. assert (D' : NoDup (map fst e')) by (eapply Permutation_NoDup; [apply Permutation_map, P|exact D]).
  assert (CN : collect H v e [] = None <-> collect H v e' [] = None).
  { rewrite !collect_none. split; intros (n & x & I & A); exists n, x; (split; [|exact A]); [apply (Permutation_in _ P I)|apply (Permutation_in _ (Permutation_sym P) I)]. }
  destruct (build H pc_hash v e sh) as [o|] eqn:B1, (build H pc_hash v e' sh') as [o'|] eqn:B2; [| | |reflexivity].
  - destruct (built e sh o D S1 B1) as (m & I & A & M). destruct (built e' sh' o' D' S2 B2) as (m' & I' & A' & M'). f_equal. apply (asc_same nts_id); [exact A|exact A'|].
    intro x. rewrite M, M'. unfold type_made. split; intros (t & l & c & nt & X & Y); exists t, l, c, nt; (split; [|exact Y]); [apply (inv_same e e' m m' P I I' _ X)|apply (inv_same e' e m' m (Permutation_sym P) I' I _ X)].
  - exfalso. unfold build in B1, B2. destruct (collect H v e []) as [m|] eqn:C1; [|discriminate B1]. destruct (collect H v e' []) as [m'|] eqn:C2; [|destruct CN as [_ X]; discriminate (X eq_refl)].
    apply assemble_none in B2 as (t & l & c & I & A). assert (X : assemble H pc_hash v (sh m) [] = None); [|congruence]. apply assemble_none. exists t, l, c. split; [|exact A].
    apply (Permutation_in _ (S1 m)). apply (inv_same e' e m' m (Permutation_sym P) (collected _ _ D' C2) (collected _ _ D C1)). apply (Permutation_in _ (Permutation_sym (S2 m')) I).
  - exfalso. unfold build in B1, B2. destruct (collect H v e' []) as [m'|] eqn:C2; [|discriminate B2]. destruct (collect H v e []) as [m|] eqn:C1; [|destruct CN as [X _]; discriminate (X eq_refl)].
    apply assemble_none in B1 as (t & l & c & I & A). assert (X : assemble H pc_hash v (sh' m') [] = None); [|congruence]. apply assemble_none. exists t, l, c. split; [|exact A].
    apply (Permutation_in _ (S2 m')). apply (inv_same e e' m m' P (collected _ _ D C1) (collected _ _ D' C2)). apply (Permutation_in _ (Permutation_sym (S1 m)) I).
Qed.
Lemma from_calls l e t s : Permutation (after l) e -> (from_entries e t s <-> comes_from H v l t s).
Proof.
  intro P. destruct (entries_ok l) as (D & K & M). split.
  - intros (n & x & w & y & I & A). apply (Permutation_in _ (Permutation_sym P)) in I. exists n, w, y. split; [apply K, in_map_iff; exists (n, x); auto|]. rewrite <- (M n x I). exact A.
  - intros (n & w & y & I & A). apply K in I. apply in_map_iff in I as ([n' x] & E & I). cbn in E. subst n'. exists n, x, w, y. split; [apply (Permutation_in _ P I)|]. rewrite (M n x I). exact A.
Qed.
Theorem build_right l e sh out : Permutation (after l) e -> (forall m, Permutation m (sh m)) -> build H pc_hash v e sh = Some out -> sections_of H pc_hash v l out.
Proof.
  intros P Sh B. destruct (entries_ok l) as (D & K & M). assert (D' : NoDup (map fst e)) by (eapply Permutation_NoDup; [apply Permutation_map, P|exact D]).
  destruct (built e sh out D' Sh B) as (m & (Dm & I1 & I2 & I3) & A & Mo). split; [exact A|]. split.
  - intros c Hc. assert (X : In (network_of c) (map fst (after l))) by (apply K, in_map; exact Hc). apply in_map_iff in X as ([n x] & E & I). cbn in E. subst n.
    apply (Permutation_in _ P) in I. destruct (I2 _ _ I) as (nw & nt & E1 & E2 & E3). exists nw. split; [exact E1|]. apply in_map_iff in E3 as ([t [ll cc]] & E & It). cbn in E. subst t.
    unfold build in B. destruct (collect H v e []) as [m0|] eqn:C; [|discriminate B].
    assert (exists y, new_type_section H pc_hash (nw_type nw) nt ll cc = Some y) as (y & Ey).
    { unfold new_type_section. destruct (pc_hash (nt_uid nt) (nt_next_pc nt)) eqn:Ep; [eauto|]. exfalso. assert (X : assemble H pc_hash v (sh m0) [] = None); [|congruence]. apply assemble_none.
      exists (nw_type nw), ll, cc. rewrite E2. split; [|exact Ep]. apply (Permutation_in _ (Sh m0)). apply (inv_same e e m m0 (Permutation_refl e)); [exact (conj Dm (conj I1 (conj I2 I3)))|exact (collected _ _ D' C)|exact It]. }
    apply in_map_iff. exists y. split; [exact (new_type_id _ _ _ _ _ Ey)|]. apply Mo. exists (nw_type nw), ll, cc, nt. auto.
  - intros x Hx. apply Mo in Hx as (t & ll & cc & nt & It & Et & Ex). destruct (I1 t ll cc It) as (Z1 & Z2 & Z3 & Z4). unfold new_type_section in Ex. destruct (pc_hash (nt_uid nt) (nt_next_pc nt)) as [pc|] eqn:Ep; [|discriminate Ex].
    injection Ex as <-. cbn [nts_sections nts_id nts_changed nts_uid nts_pc nts_root nts_hash]. split; [exact Z2|]. split; [exact Z1|]. split; [intro s; rewrite Z4; now apply from_calls|]. split; [exact Z3|]. exists nt. auto.
Qed.
Theorem build_fails l e sh : Permutation (after l) e -> (forall m, Permutation m (sh m)) ->
  (build H pc_hash v e sh = None <-> exists c, In c l /\ match v_network v (network_of c) with None => True | Some nw =>
      match v_type v (nw_type nw) with None => True | Some nt => pc_hash (nt_uid nt) (nt_next_pc nt) = None end end).
Proof.
  intros P Sh. destruct (entries_ok l) as (D & K & M). assert (D' : NoDup (map fst e)) by (eapply Permutation_NoDup; [apply Permutation_map, P|exact D]).
  assert (Ke : forall n, In n (map fst e) <-> exists c, In c l /\ network_of c = n).
  { intro n. split.
    - intro X. apply (Permutation_in _ (Permutation_sym (Permutation_map fst P))) in X. apply K, in_map_iff in X as (c & E & I). eauto.
    - intros (c & I & E). apply (Permutation_in _ (Permutation_map fst P)). apply K, in_map_iff. eauto. }
  split.
  - unfold build. destruct (collect H v e []) as [m|] eqn:C; intro B.
    + apply assemble_none in B as (t & ll & cc & I & A). apply (Permutation_in _ (Permutation_sym (Sh m))) in I. destruct (collected e m D' C) as (_ & _ & _ & I3).
      destruct (I3 t) as (s & n & x & w & y & In0 & E1 & E2 & E3 & _); [apply in_map_iff; exists (t, (ll, cc)); auto|]. destruct (proj1 (Ke n)) as (c & Ic & Ec); [apply in_map_iff; exists (n, x); auto|].
      exists c. split; [exact Ic|]. rewrite Ec, E1, E2. exact A.
    + apply collect_none in C as (n & x & I & A). destruct (proj1 (Ke n)) as (c & Ic & Ec); [apply in_map_iff; exists (n, x); auto|]. exists c. split; [exact Ic|]. rewrite Ec. destruct (v_network v n) as [nw|]; [|exact Logic.I]. now rewrite A.
  - intros (c & Ic & A). assert (X : In (network_of c) (map fst e)) by (apply Ke; eauto). apply in_map_iff in X as ([n x] & E & In0). cbn in E. subst n.
    unfold build. destruct (collect H v e []) as [m|] eqn:C; [|reflexivity]. destruct (collected e m D' C) as (_ & _ & I2 & _). destruct (I2 _ _ In0) as (nw & nt & E1 & E2 & E3). rewrite E1, E2 in A.
    apply in_map_iff in E3 as ([t [ll cc]] & E & It). cbn in E. subst t. apply assemble_none. exists (nw_type nw), ll, cc. split; [apply (Permutation_in _ (Sh m) It)|]. now rewrite E2.
Qed.
End Build.
