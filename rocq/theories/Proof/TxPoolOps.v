(** The operations of the pool on the sequence it stands for. *)
From Coq Require Import ZArith List Bool Arith Lia.
From Verif Require Import Model.Bytes Model.TxPool Spec.TxPoolSpec Proof.TxPoolFacts Proof.TxPoolInv Proof.TxPoolAdd.
Import ListNotations.
Open Scope Z_scope.

Definition entry_at (s : pool_list) (a : addr) : entry := mkEntry a (txs s a) (direct s a) (err s a).

Lemma walk_seg s q : forall r fuel p, seg (lnext s) (lprev s) p r None -> (length r <= fuel)%nat -> q = hd_error r ->
  walk fuel s q = r.
Proof.
  intros r. revert q. induction r as [|a r IH]; intros q fuel p H Hf ->.
  - destruct fuel; reflexivity.
  - destruct fuel as [|k]; [cbn in Hf; lia|]. cbn [hd_error walk]. destruct H as (_ & Hn & H).
    f_equal. apply (IH _ k (Some a)); [exact H | cbn in Hf; lia|]. rewrite Hn. destruct r; reflexivity.
Qed.

Lemma rep_length s l : rep s l -> (length l <= fresh s)%nat.
Proof. intros R. apply nodup_bound; [apply (k_nodup _ _ (r_links _ _ R)) | apply (r_fresh _ _ R)]. Qed.

Lemma walk_rep s l : rep s l -> walk (fresh s) s (front s) = l.
Proof.
  intros R. apply (walk_seg s _ l (fresh s) None).
  - apply (k_list _ _ (r_links _ _ R)).
  - now apply rep_length.
  - apply (k_front _ _ (r_links _ _ R)).
Qed.

Lemma view_rep s l : rep s l -> view s = map (entry_at s) l.
Proof. intros R. unfold view. now rewrite (walk_rep s l R). Qed.

(** What only the reasons change. *)
Record kept (s s' : pool_list) : Prop := mkKept {
  g_fresh : fresh s' = fresh s; g_txs : txs s' = txs s; g_direct : direct s' = direct s;
  g_blm : blm s' = blm s; g_bfresh : bfresh s' = bfresh s; g_bnext : bnext s' = bnext s
}.

Lemma kept_refl s : kept s s.
Proof. now constructor. Qed.
Lemma kept_trans s1 s2 s3 : kept s1 s2 -> kept s2 s3 -> kept s1 s3.
Proof. intros [] []. constructor; congruence. Qed.

Lemma rep_err s l e : rep s l -> rep (with_err s e) l.
Proof.
  intros [K H I L F B]. constructor; try assumption.
  - apply (links_frame s); try reflexivity; [|exact K]. intros a _. repeat split.
  - destruct B. constructor; assumption.
Qed.
Lemma kept_err s e : kept s (with_err s e).
Proof. now constructor. Qed.

(** *** Add *)
Lemma map_put s s' t e l : (forall a, In a l -> entry_at s' a = entry_at s a) -> e_tx (entry_at s' e) = t ->
  map (entry_at s') (place_tx s t e l) = put (entry_at s' e) (map (entry_at s) l).
Proof.
  intros H Ht. induction l as [|a r IH]; [reflexivity|]. cbn [place_tx map put].
  unfold from_of at 1 2, time_of at 1 2. rewrite Ht. cbn [entry_at e_tx].
  assert (E := H a (or_introl eq_refl)).
  destruct (bytes_eqb (t_from (txs s a)) (t_from t) && (t_time t <? t_time (txs s a))).
  - cbn [map]. f_equal. f_equal; [exact E|]. apply map_ext_in. intros x Hx. apply H. now right.
  - cbn [map]. f_equal; [exact E|]. apply IH. intros x Hx. apply H. now right.
Qed.

Lemma pool_add_ok size s l t d : rep s l ->
  exists s' a l', pool_add size s t d = Some (s', a) /\ rep s' l'
  /\ match a with
     | Overflow => size <= Z.of_nat (length l) /\ s' = s /\ l' = l
     | IsDuplicate => Z.of_nat (length l) < size /\ (exists a, In a l /\ t_id (txs s a) = t_id t) /\ s' = s /\ l' = l
     | Accepted => Z.of_nat (length l) < size /\ (forall a, In a l -> t_id (txs s a) <> t_id t)
         /\ map (entry_at s') l' = put (mkEntry (fresh s) t d None) (map (entry_at s) l)
         /\ fresh s' = S (fresh s)
         /\ (forall a, In a l' -> a = fresh s \/ In a l)
         /\ (forall a, a <> fresh s -> entry_at s' a = entry_at s a)
     end.
Proof.
  intros R. unfold pool_add. rewrite (r_len _ _ R).
  destruct (Z.leb_spec size (Z.of_nat (length l))) as [Hle|Hlt].
  { exists s, Overflow, l. split; [reflexivity|]. split; [exact R|]. tauto. }
  assert (H := list_add_ok s l t d R). destruct (list_add s t d) as [s'| |].
  - destruct H as (Hid & l1 & l2 & El & Epl & R' & F' & T' & D' & E' & _).
    exists s', Accepted, (l1 ++ fresh s :: l2). split; [reflexivity|]. split; [exact R'|].
    split; [exact Hlt|]. split; [exact Hid|].
    assert (Hsame : forall a, a <> fresh s -> entry_at s' a = entry_at s a).
    { intros a Ha. unfold entry_at. rewrite T', D', E', !upd_other by exact Ha. reflexivity. }
    assert (Hnew : entry_at s' (fresh s) = mkEntry (fresh s) t d None).
    { unfold entry_at. rewrite T', D', E', !upd_same. reflexivity. }
    split.
    { rewrite <- Epl, <- Hnew. apply map_put.
      - intros a Ha. apply Hsame. apply (r_fresh _ _ R) in Ha. lia.
      - now rewrite Hnew. }
    split; [exact F'|]. split; [|exact Hsame].
    intros a. rewrite El, !in_app_iff. cbn [In]. intuition congruence.
  - exists s, IsDuplicate, l. split; [reflexivity|]. split; [exact R|]. tauto.
  - destruct H.
Qed.

(** *** Remove *)
Lemma filter_skip {A} (f : A -> bool) l : (forall x, In x l -> f x = true) -> filter f l = l.
Proof.
  induction l as [|a r IH]; intros H; [reflexivity|]. cbn [filter]. rewrite (H a) by now left.
  f_equal. apply IH. intros x Hx. apply H. now right.
Qed.

Lemma rep_ids s l a b : rep s l -> In a l -> In b l -> t_id (txs s a) = t_id (txs s b) -> a = b.
Proof.
  intros R Ha Hb E.
  assert (E1 : by_id s (t_id (txs s a)) = Some a) by (apply (r_id _ _ R); tauto).
  assert (E2 : by_id s (t_id (txs s a)) = Some b) by (apply (r_id _ _ R); split; [exact Hb | congruence]).
  congruence.
Qed.

Lemma list_remove_eq s l a : rep s l -> In a l ->
  exists s', list_remove s a = (s', true) /\ rep s' (filter (fun x => negb (Nat.eqb x a)) l)
    /\ kept s s' /\ err s' = err s.
Proof.
  intros R Ha. apply in_split in Ha. destruct Ha as (l1 & l2 & ->).
  destruct (list_remove_ok s l1 a l2 R) as (s' & E & R' & F & T & D & Er & B1 & B2 & B3 & _).
  exists s'. split; [exact E|]. split; [|split; [now constructor | exact Er]].
  assert (ND := k_nodup _ _ (r_links _ _ R)). apply NoDup_remove_2 in ND.
  rewrite filter_app. cbn [filter]. rewrite Nat.eqb_refl. cbn [negb].
  rewrite <- filter_app, filter_skip; [exact R'|].
  intros x Hx. destruct (Nat.eqb_spec x a) as [->|]; [contradiction | reflexivity].
Qed.

Lemma list_remove_tx_ok s l id : rep s l ->
  rep (list_remove_tx s id) (filter (fun a => negb (bytes_eqb (t_id (txs s a)) id)) l)
  /\ kept s (list_remove_tx s id) /\ err (list_remove_tx s id) = err s.
Proof.
  intros R. unfold list_remove_tx. destruct (by_id s id) as [a|] eqn:E.
  - destruct (proj1 (r_id _ _ R id a) E) as [Ha Ei].
    destruct (list_remove_eq s l a R Ha) as (s' & -> & R' & K & Er). cbn [fst].
    split; [|tauto]. replace (filter _ l) with (filter (fun x => negb (Nat.eqb x a)) l); [exact R'|].
    apply filter_ext_in. intros x Hx. f_equal. destruct (Nat.eqb_spec x a) as [->|Hne].
    + symmetry. now apply bytes_eqb_eq.
    + symmetry. destruct (bytes_eqb (t_id (txs s x)) id) eqn:E2; [|reflexivity]. exfalso. apply Hne.
      apply bytes_eqb_eq in E2. apply (rep_ids s l); congruence.
  - split; [|split; [apply kept_refl | reflexivity]]. rewrite filter_skip; [exact R|].
    intros x Hx. destruct (bytes_eqb (t_id (txs s x)) id) eqn:E2; [|reflexivity]. exfalso.
    apply bytes_eqb_eq in E2. assert (by_id s id = Some x) by (apply (r_id _ _ R); tauto). congruence.
Qed.

Lemma filter_filter {A} (f g : A -> bool) l : filter f (filter g l) = filter (fun x => g x && f x) l.
Proof.
  induction l as [|a r IH]; [reflexivity|]. cbn [filter]. destruct (g a); cbn [filter andb]; [destruct (f a)|]; congruence.
Qed.

Lemma pool_remove_ok s l ids : rep s l ->
  rep (pool_remove s ids) (filter (fun a => negb (existsb (bytes_eqb (t_id (txs s a))) ids)) l)
  /\ kept s (pool_remove s ids) /\ err (pool_remove s ids) = err s.
Proof.
  intros R. unfold pool_remove. destruct (Z.eqb_spec (len s) 0) as [E|_].
  { rewrite (r_len _ _ R) in E. destruct l; [|cbn in E; lia]. cbn [filter].
    split; [exact R|]. split; [apply kept_refl | reflexivity]. }
  revert s l R. induction ids as [|i ids IH]; intros s l R.
  - cbn [fold_left existsb]. rewrite filter_skip by (intros; reflexivity).
    split; [exact R|]. split; [apply kept_refl | reflexivity].
  - cbn [fold_left]. destruct (list_remove_tx_ok s l i R) as (R1 & K1 & E1).
    destruct (IH _ _ R1) as (R2 & K2 & E2).
    split; [|split; [exact (kept_trans _ _ _ K1 K2) | congruence]].
    rewrite filter_filter in R2. rewrite (g_txs _ _ K1) in R2.
    replace (filter (fun a => negb (existsb (bytes_eqb (t_id (txs s a))) (i :: ids))) l)
      with (filter (fun x => negb (bytes_eqb (t_id (txs s x)) i) && negb (existsb (bytes_eqb (t_id (txs s x))) ids)) l);
      [exact R2|].
    apply filter_ext. intros a. cbn [existsb]. now rewrite negb_orb.
Qed.

(** *** Dropping the old *)
Definition why (s : pool_list) (a : addr) : reason := match err s a with Some r => r | None => Expired end.
Definition is_old (s : pool_list) (bts : Z) (a : addr) : bool := t_time (txs s a) <=? bts.

Lemma drop_old_ok bts : forall r fuel s p, rep s (p ++ r) -> (length r <= fuel)%nat ->
  exists s', drop_old fuel bts s (hd_error r)
    = (s', map (fun a => (t_id (txs s a), why s a)) (filter (is_old s bts) r))
    /\ rep s' (p ++ filter (fun a => negb (is_old s bts a)) r)
    /\ kept s s' /\ (forall a, In a (p ++ filter (fun a => negb (is_old s bts a)) r) -> err s' a = err s a).
Proof.
  induction r as [|a r IH]; intros fuel s p R Hf.
  - exists s. cbn [hd_error filter map]. rewrite app_nil_r in *. split; [destruct fuel; reflexivity|].
    split; [exact R|]. split; [apply kept_refl | reflexivity].
  - destruct fuel as [|k]; [cbn in Hf; lia|]. cbn [hd_error drop_old].
    destruct (seg_at _ _ _ _ _ (k_list _ _ (r_links _ _ R))) as [_ Hn]. rewrite Hn.
    assert (ND := k_nodup _ _ (r_links _ _ R)).
    destruct (Z.leb_spec (t_time (txs s a)) bts) as [Hle|Hgt].
    + destruct (list_remove_ok s p a r R) as (s1 & E & R1 & F & T & D & Er & B1 & B2 & B3 & _).
      rewrite E. cbn [fst]. set (w := match err s1 a with Some r0 => r0 | None => Expired end).
      assert (R2 := rep_err s1 _ (upd (err s1) a (Some w)) R1).
      destruct (IH k _ p R2 ltac:(cbn in Hf; lia)) as (s' & E2 & R3 & K3 & Er3).
      assert (K1 : kept s (with_err s1 (upd (err s1) a (Some w)))) by (constructor; assumption).
      assert (Hold : forall x, is_old (with_err s1 (upd (err s1) a (Some w))) bts x = is_old s bts x).
      { intros x. unfold is_old. cbn [txs with_err]. now rewrite T. }
      assert (Hwhy : forall x, In x r -> why (with_err s1 (upd (err s1) a (Some w))) x = why s x).
      { intros x Hx. unfold why. cbn [err with_err]. rewrite upd_other, Er; [reflexivity|].
        intros ->. apply NoDup_remove_2 in ND. apply ND, in_or_app. now right. }
      rewrite E2. exists s'. cbn [filter]. assert (Eo : is_old s bts a = true) by (unfold is_old; now apply Z.leb_le).
      rewrite Eo. cbn [negb map]. rewrite (filter_ext _ _ Hold).
      rewrite (filter_ext (fun x => negb (is_old (with_err s1 (upd (err s1) a (Some w))) bts x))
                 (fun x => negb (is_old s bts x)) (fun x => f_equal negb (Hold x))) in R3, Er3.
      split.
      { f_equal. f_equal.
        - unfold w, why. now rewrite Er.
        - apply map_ext_in. intros x Hx. apply filter_In in Hx. rewrite Hwhy by apply Hx.
          cbn [txs with_err]. now rewrite T. }
      split; [exact R3|]. split; [exact (kept_trans _ _ _ K1 K3)|].
      intros x Hx. rewrite (Er3 x Hx). cbn [err with_err]. rewrite upd_other, Er; [reflexivity|].
      intros ->. apply NoDup_remove_2 in ND. apply ND. apply in_app_or in Hx. apply in_or_app.
      destruct Hx as [Hx|Hx]; [now left|]. apply filter_In in Hx. right. apply Hx.
    + assert (Eo : is_old s bts a = false) by (unfold is_old; apply Z.leb_gt; lia).
      assert (Rq : rep s ((p ++ [a]) ++ r)) by (rewrite <- app_assoc; exact R).
      destruct (IH k s (p ++ [a]) Rq ltac:(cbn in Hf; lia)) as (s' & E2 & R3 & K3 & Er3).
      rewrite E2. exists s'. cbn [filter]. rewrite Eo. cbn [negb].
      rewrite <- app_assoc in R3, Er3. cbn [app] in R3, Er3.
      split; [reflexivity|]. split; [exact R3|]. split; [exact K3 | exact Er3].
Qed.

(** *** Dropping what a collection has found *)
Lemma drop_these_ok : forall d s l, rep s l -> (forall a, In a d -> In a l -> err s a <> None) ->
  exists s' out, drop_these s d = Some (s', out)
    /\ rep s' (filter (fun a => negb (existsb (Nat.eqb a) d)) l)
    /\ kept s s' /\ err s' = err s
    /\ (forall i r, In (i, r) out <-> exists a, In a d /\ In a l /\ i = t_id (txs s a) /\ err s a = Some r)
    /\ NoDup (map fst out).
Proof.
  induction d as [|e d IH]; intros s l R He.
  - exists s, []. split; [reflexivity|]. rewrite filter_skip by reflexivity. split; [exact R|].
    split; [apply kept_refl|]. split; [reflexivity|]. split; [|constructor].
    intros i r. split; [intros [] | intros (a & [] & _)].
  - cbn [drop_these]. destruct (in_dec Nat.eq_dec e l) as [Hin|Hout].
    + destruct (list_remove_eq s l e R Hin) as (s1 & -> & R1 & K1 & E1). rewrite E1.
      destruct (err s e) as [r|] eqn:Er; [|exfalso; exact (He e (or_introl eq_refl) Hin Er)].
      destruct (IH s1 _ R1) as (s2 & out & -> & R2 & K2 & E2 & Ho & Nd).
      { intros a Ha Hl. apply filter_In in Hl. rewrite E1. apply He; [now right | apply Hl]. }
      exists s2, ((t_id (txs s1 e), r) :: out). split; [reflexivity|].
      split.
      { rewrite filter_filter in R2.
        replace (filter (fun a => negb (existsb (Nat.eqb a) (e :: d))) l)
          with (filter (fun x => negb (Nat.eqb x e) && negb (existsb (Nat.eqb x) d)) l); [exact R2|].
        apply filter_ext. intros a. cbn [existsb]. now rewrite negb_orb. }
      split; [exact (kept_trans _ _ _ K1 K2)|]. split; [congruence|].
      rewrite (g_txs _ _ K1) in *. rewrite E1 in Ho.
      split.
      * intros i r'. cbn [In]. rewrite Ho. split.
        -- intros [E|(a & H1 & H2 & H3 & H4)].
           ++ injection E as <- <-. exists e. tauto.
           ++ exists a. apply filter_In in H2. tauto.
        -- intros (a & [<-|H1] & H2 & H3 & H4); [left; congruence|].
           destruct (Nat.eqb_spec a e) as [->|Hne]; [left; congruence|]. right. exists a.
           split; [exact H1|]. split; [|tauto]. apply filter_In. split; [exact H2|].
           destruct (Nat.eqb_spec a e); [contradiction | reflexivity].
      * cbn [map fst]. constructor; [|exact Nd]. intros Hi. apply in_map_iff in Hi.
        destruct Hi as ([i r'] & Ei & Hi). cbn [fst] in Ei. subst i. apply Ho in Hi.
        destruct Hi as (a & _ & H2 & H3 & _). apply filter_In in H2. destruct H2 as [H2 H2'].
        assert (e = a) by (apply (rep_ids s l); assumption). subst a.
        rewrite Nat.eqb_refl in H2'. discriminate.
    + rewrite (list_remove_gone s l e R Hout).
      destruct (IH s l R) as (s2 & out & -> & R2 & K2 & E2 & Ho & Nd).
      { intros a Ha. apply He. now right. }
      exists s2, out. split; [reflexivity|]. split.
      { replace (filter (fun a => negb (existsb (Nat.eqb a) (e :: d))) l)
          with (filter (fun x => negb (existsb (Nat.eqb x) d)) l); [exact R2|].
        apply filter_ext_in. intros a Ha. cbn [existsb].
        destruct (Nat.eqb_spec a e) as [->|]; [contradiction | reflexivity]. }
      split; [exact K2|]. split; [exact E2|]. split; [|exact Nd].
      intros i r. rewrite Ho. split.
      * intros (a & H1 & H2). exists a. split; [now right | exact H2].
      * intros (a & [<-|H1] & H2 & H3); [contradiction|]. exists a. tauto.
Qed.
