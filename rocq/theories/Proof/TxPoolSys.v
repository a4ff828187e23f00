(** Histories of the pool. *)
From Coq Require Import ZArith List Bool Arith Lia.
From Verif Require Import Model.Bytes Model.TxPool Spec.TxPoolSpec Proof.TxPoolFacts Proof.TxPoolInv Proof.TxPoolAdd
  Proof.TxPoolOps Proof.TxPoolCollect.
Import ListNotations.
Open Scope Z_scope.

(** What never changes for the elements there have been. *)
Definition older (s s' : pool_list) : Prop :=
  (fresh s <= fresh s')%nat
  /\ forall a, (a < fresh s)%nat -> txs s' a = txs s a /\ direct s' a = direct s a /\ (err s a <> None -> err s' a <> None).

Lemma older_refl s : older s s.
Proof. split; [lia | tauto]. Qed.
Lemma older_trans s1 s2 s3 : older s1 s2 -> older s2 s3 -> older s1 s3.
Proof.
  intros [H1 H2] [H3 H4]. split; [lia|]. intros a Ha. destruct (H2 a Ha) as (E1 & E2 & E3).
  destruct (H4 a ltac:(lia)) as (E4 & E5 & E6). rewrite E4, E5. tauto.
Qed.
Lemma older_kept s s' : kept s s' -> (forall a, (a < fresh s)%nat -> err s a <> None -> err s' a <> None) -> older s s'.
Proof. intros [F T D _ _ _] H. split; [lia|]. intros a Ha. rewrite T, D. split; [reflexivity|]. split; [reflexivity | now apply H]. Qed.

Record good (size : Z) (s : pool_list) (pending : list (list addr)) (l : list addr) : Prop := mkGood {
  o_rep : rep s l;
  o_size : Z.of_nat (length l) <= Z.max 0 size;
  o_pending : forall d a, In d pending -> In a d -> (a < fresh s)%nat /\ err s a <> None
}.

Lemma filter_len {A} (f : A -> bool) l : (length (filter f l) <= length l)%nat.
Proof. induction l as [|a r IH]; cbn [filter]; [lia|]. destruct (f a); cbn [length]; lia. Qed.

Lemma place_len s t e l : length (place_tx s t e l) = S (length l).
Proof.
  induction l as [|a r IH]; [reflexivity|]. cbn [place_tx].
  destruct (bytes_eqb (t_from (txs s a)) (t_from t) && (t_time t <? t_time (txs s a))); cbn [length]; lia.
Qed.

Lemma put_len e l : length (put e l) = S (length l).
Proof.
  induction l as [|x r IH]; [reflexivity|]. cbn [put].
  destruct (bytes_eqb (from_of x) (from_of e) && (time_of e <? time_of x)); cbn [length]; lia.
Qed.

Lemma pending_older s s' pending : older s s' ->
  (forall d a, In d pending -> In a d -> (a < fresh s)%nat /\ err s a <> None) ->
  forall d a, In d pending -> In a d -> (a < fresh s')%nat /\ err s' a <> None.
Proof.
  intros [O1 O2] H d a Hd Ha. destruct (H d a Hd Ha) as [H1 H2]. split; [lia|]. now apply O2.
Qed.

(** *** Steps *)
Lemma add_good size s pending l t d : good size s pending l ->
  exists s' a l', pool_add size s t d = Some (s', a) /\ good size s' pending l' /\ older s s'
  /\ match a with
     | Overflow => size <= Z.of_nat (length l) /\ s' = s
     | IsDuplicate => Z.of_nat (length l) < size /\ (exists a, In a l /\ t_id (txs s a) = t_id t) /\ s' = s
     | Accepted => Z.of_nat (length l) < size /\ (forall a, In a l -> t_id (txs s a) <> t_id t)
         /\ map (entry_at s') l' = put (mkEntry (fresh s) t d None) (map (entry_at s) l)
     end.
Proof.
  intros [R Sz P]. destruct (pool_add_ok size s l t d R) as (s' & a & l' & E & R' & H).
  exists s', a, l'. split; [exact E|]. destruct a.
  - destruct H as (Hlt & Hid & Em & F & Hin & Hsame).
    assert (O : older s s').
    { split; [lia|]. intros x Hx. assert (Es := Hsame x ltac:(lia)). unfold entry_at in Es. injection Es as E1 E2 E3.
      rewrite E1, E2, E3. tauto. }
    split; [|tauto]. constructor.
    + exact R'.
    + assert (El : length l' = S (length l)).
      { rewrite <- (map_length (entry_at s') l'), Em, put_len, map_length. reflexivity. }
      rewrite El. lia.
    + exact (pending_older _ _ _ O P).
  - destruct H as (H1 & H2 & -> & ->). split; [constructor; assumption|]. split; [apply older_refl | tauto].
  - destruct H as (H1 & -> & ->). split; [constructor; assumption|]. split; [apply older_refl | tauto].
Qed.

Lemma remove_good size s pending l ids : good size s pending l ->
  good size (pool_remove s ids) pending (filter (fun a => negb (existsb (bytes_eqb (t_id (txs s a))) ids)) l)
  /\ older s (pool_remove s ids) /\ kept s (pool_remove s ids) /\ err (pool_remove s ids) = err s.
Proof.
  intros [R Sz P]. destruct (pool_remove_ok s l ids R) as (R' & K & E).
  assert (O : older s (pool_remove s ids)) by (apply older_kept; [exact K | intros a _; now rewrite E]).
  split; [|tauto]. constructor; [exact R'| |exact (pending_older _ _ _ O P)].
  assert (H := filter_len (fun a => negb (existsb (bytes_eqb (t_id (txs s a))) ids)) l). lia.
Qed.

Lemma drop_old_err bts : forall fuel s iter a, err s a <> None -> err (fst (drop_old fuel bts s iter)) a <> None.
Proof.
  induction fuel as [|k IH]; intros s iter a H; [exact H|]. cbn [drop_old]. destruct iter as [x|]; [|exact H].
  destruct (t_time (txs s x) <=? bts); [|now apply IH].
  match goal with |- context [drop_old k bts ?u ?v] => assert (Hq := IH u v a); destruct (drop_old k bts u v) as [s2 o] end.
  cbn [fst] in Hq |- *. apply Hq. cbn [with_err err]. unfold upd. destruct (Nat.eqb a x); [discriminate|].
  unfold list_remove. destruct (negb (here s x)); exact H.
Qed.

Lemma drop_old_good size s pending l bts : good size s pending l ->
  exists s', pool_drop_old s bts = (s', map (fun a => (t_id (txs s a), why s a)) (filter (is_old s bts) l))
    /\ good size s' pending (filter (fun a => negb (is_old s bts a)) l)
    /\ older s s' /\ kept s s' /\ (forall a, In a (filter (fun a => negb (is_old s bts a)) l) -> err s' a = err s a).
Proof.
  intros [R Sz P]. unfold pool_drop_old. rewrite (k_front _ _ (r_links _ _ R)).
  destruct (drop_old_ok bts l (fresh s) s [] R (rep_length s l R)) as (s' & E & R' & K & Er).
  exists s'. split; [exact E|].
  assert (O : older s s').
  { apply older_kept; [exact K|]. intros a _ Ha. assert (Hq := drop_old_err bts (fresh s) s (hd_error l) a Ha).
    rewrite E in Hq. exact Hq. }
  split; [|split; [exact O | split; [exact K | exact Er]]].
  constructor; [exact R'| |exact (pending_older _ _ _ O P)].
  assert (H := filter_len (fun a => negb (is_old s bts a)) l). cbn [app]. lia.
Qed.

Lemma collect_good {world} size s pending l lo hi recent (pre : world -> tx -> world * option bool) mb mc w c n d s' m :
  good size s pending l ->
  candidate lo hi recent pre s mb mc w = (c, n, d, s', m) ->
  collected lo hi recent pre l s (if mb <=? 0 then 1048576 else mb) (if mc <=? 0 then 1500 else mc) w 0 0 c n d s'
  /\ good size s' (pending ++ [d]) l /\ older s s'.
Proof.
  intros [R Sz P] H. unfold candidate in H.
  assert (Q : collected lo hi recent pre l s (if mb <=? 0 then 1048576 else mb) (if mc <=? 0 then 1500 else mc) w 0 0 c n d s').
  { destruct (Z.eqb_spec (len s) 0) as [E|_].
    - injection H as <- <- <- <- <-. rewrite (r_len _ _ R) in E. destruct l; [|cbn in E; lia].
      apply collected_none. tauto.
    - rewrite (walk_rep s l R) in H. eapply collect_ok; [|exact H]. apply (k_nodup _ _ (r_links _ _ R)). }
  split; [exact Q|].
  destruct (q_state _ _ _ _ _ _ _ _ _ _ _ _ _ _ _ Q) as (e & Es).
  assert (O : older s s').
  { apply older_kept; [rewrite Es; apply kept_err|]. intros a _ Ha.
    destruct (in_dec Nat.eq_dec a l) as [Hin|Hout].
    - destruct (q_inside _ _ _ _ _ _ _ _ _ _ _ _ _ _ _ Q a Hin) as [->|[(E1 & _)|[(-> & _)|(E1 & _)]]];
        [exact Ha | cbn in E1; contradiction | discriminate | cbn in E1; contradiction].
    - rewrite (q_outside _ _ _ _ _ _ _ _ _ _ _ _ _ _ _ Q a Hout). exact Ha. }
  split; [|exact O]. constructor.
  - rewrite Es. now apply rep_err.
  - exact Sz.
  - intros d0 a Hd Ha. apply in_app_or in Hd. destruct Hd as [Hd|[<-|[]]].
    + exact (pending_older _ _ _ O P d0 a Hd Ha).
    + destruct (q_d _ _ _ _ _ _ _ _ _ _ _ _ _ _ _ Q a Ha) as (H1 & H2 & _).
      split; [|exact H2]. rewrite Es. cbn. now apply (r_fresh _ _ R).
Qed.

Lemma finish_good size s pending l k : good size s pending l ->
  exists s' out, drop_these s (nth k pending []) = Some (s', out)
    /\ good size s' pending (filter (fun a => negb (existsb (Nat.eqb a) (nth k pending []))) l)
    /\ older s s' /\ kept s s' /\ err s' = err s
    /\ (forall i r, In (i, r) out
          <-> exists a, In a (nth k pending []) /\ In a l /\ i = t_id (txs s a) /\ err s a = Some r)
    /\ NoDup (map fst out).
Proof.
  intros [R Sz P]. destruct (drop_these_ok (nth k pending []) s l R) as (s' & out & E & R' & K & Er & Ho & Nd).
  { intros a Ha _. destruct (nth_in_or_default k pending []) as [Hn|Hn].
    - exact (proj2 (P _ a Hn Ha)).
    - rewrite Hn in Ha. destruct Ha. }
  exists s', out. split; [exact E|].
  assert (O : older s s') by (apply older_kept; [exact K | intros a _; now rewrite Er]).
  split; [|split; [exact O | split; [exact K | split; [exact Er | split; [exact Ho | exact Nd]]]]].
  constructor; [exact R'| |exact (pending_older _ _ _ O P)].
  exact (Z.le_trans _ _ _ (inj_le _ _ (filter_len _ l)) Sz).
Qed.

Section Sys.
  Context {world : Type}.

  Definition is_collect (o : op world) : bool := match o with Collect _ _ _ _ _ _ _ => true | _ => false end.

  Lemma step_good size s pending l (o : op world) : good size s pending l ->
    exists s' more ev l', step size (s, pending) o = Some ((s', pending ++ more), ev)
      /\ length more = (if is_collect o then 1 else 0)%nat
      /\ good size s' (pending ++ more) l' /\ older s s'.
  Proof.
    intros G. destruct o as [t d|ids|bts|lo hi recent pre mb mc w|k]; cbn [step is_collect].
    - destruct (add_good size s pending l t d G) as (s' & a & l' & E & G' & O & _). rewrite E.
      exists s', [], (Answered a), l'. rewrite app_nil_r. tauto.
    - destruct (remove_good size s pending l ids G) as (G' & O & _).
      exists (pool_remove s ids), [], Removed. eexists. rewrite app_nil_r.
      split; [reflexivity|]. split; [reflexivity|]. split; [exact G' | exact O].
    - destruct (drop_old_good size s pending l bts G) as (s' & E & G' & O & _). rewrite E.
      exists s', []. eexists. eexists. rewrite app_nil_r.
      split; [reflexivity|]. split; [reflexivity|]. split; [exact G' | exact O].
    - destruct (candidate lo hi recent pre s mb mc w) as [[[[c n] d] s'] m] eqn:E.
      destruct (collect_good size s pending l lo hi recent pre mb mc w c n d s' m G E) as (_ & G' & O).
      exists s', [d]. eexists. exists l. split; [reflexivity|]. tauto.
    - destruct (finish_good size s pending l k G) as (s' & out & E & G' & O & _). rewrite E.
      exists s', []. eexists. eexists. rewrite app_nil_r.
      split; [reflexivity|]. split; [reflexivity|]. split; [exact G' | exact O].
  Qed.

  Lemma play_good size : forall (h : list (op world)) s pending l, good size s pending l ->
    exists s' more l', play size (s, pending) h = Some (s', pending ++ more)
      /\ length more = length (filter is_collect h) /\ good size s' (pending ++ more) l' /\ older s s'.
  Proof.
    induction h as [|o h IH]; intros s pending l G.
    - exists s, [], l. rewrite app_nil_r. split; [reflexivity|]. split; [reflexivity|]. split; [exact G | apply older_refl].
    - cbn [play filter]. destruct (step_good size s pending l o G) as (s1 & m1 & ev & l1 & E & Hm & G1 & O1). rewrite E.
      destruct (IH s1 _ l1 G1) as (s2 & m2 & l2 & E2 & Hm2 & G2 & O2).
      exists s2, (m1 ++ m2), l2. rewrite app_assoc. split; [exact E2|].
      split. { rewrite app_length, Hm, Hm2. destruct (is_collect o); reflexivity. }
      split; [exact G2 | exact (older_trans _ _ _ O1 O2)].
  Qed.

  Lemma new_good size : good size empty_list [] [].
  Proof. constructor; [exact rep_empty | cbn; lia | intros d a []]. Qed.

  Lemma reach_good size (p : pool) : reachable (world := world) size p -> exists l, good size (fst p) (snd p) l.
  Proof.
    intros [h H]. destruct (play_good size h empty_list [] [] (new_good size)) as (s & more & l & E & _ & G & _).
    unfold new_pool in H. rewrite E in H. injection H as <-. exists l. exact G.
  Qed.
End Sys.

(** *** Filters *)
Lemma filter_txs_ok recent b s l0 : blooms s l0 -> forall l max working skip,
  (forall a, In a l -> In a l0) ->
  match skip with Some x => (x < bfresh s)%nat /\ contains_all b (bbloom s x) = true | None => True end ->
  filter_txs recent b max s l working skip
  = firstn max (filter (fun a => negb (contains b (t_id (txs s a)))
      && negb (match recent (t_id (txs s a)) (t_time (txs s a)) with Some true => true | _ => false end)) l).
Proof.
  intros B l. induction l as [|e l IH]; intros max working skip Hin Hs; [destruct max; reflexivity|].
  destruct max as [|k]; [reflexivity|].
  assert (Hin' : forall a, In a l -> In a l0) by (intros a Ha; apply Hin; now right).
  cbn [filter_txs filter].
  destruct (b_has _ _ B e (Hin e (or_introl eq_refl))) as (x & Ex & Hx & Hc). rewrite Ex.
  assert (Hskip : forall y, (y < bfresh s)%nat -> y = x -> contains_all b (bbloom s y) = true -> contains b (t_id (txs s e)) = true).
  { intros y Hy -> Hall. apply (contains_all_has b (bbloom s x)); [|exact Hall | exact Hc].
    rewrite (b_wide _ _ B x Hx). lia. }
  assert (Hcheck : forall wk,
    (if contains b (t_id (txs s e)) then filter_txs recent b (S k) s l wk skip
     else match recent (t_id (txs s e)) (t_time (txs s e)) with
          | Some true => filter_txs recent b (S k) s l wk skip
          | _ => e :: filter_txs recent b k s l wk skip
          end)
    = firstn (S k) (if negb (contains b (t_id (txs s e)))
        && negb (match recent (t_id (txs s e)) (t_time (txs s e)) with Some true => true | _ => false end)
        then e :: filter (fun a => negb (contains b (t_id (txs s a)))
               && negb (match recent (t_id (txs s a)) (t_time (txs s a)) with Some true => true | _ => false end)) l
        else filter (fun a => negb (contains b (t_id (txs s a)))
               && negb (match recent (t_id (txs s a)) (t_time (txs s a)) with Some true => true | _ => false end)) l)).
  { intros wk. destruct (contains b (t_id (txs s e))); cbn [negb andb]; [now rewrite IH|].
    destruct (recent (t_id (txs s e)) (t_time (txs s e))) as [[|]|]; cbn [negb]; [now rewrite IH| |];
      cbn [firstn]; f_equal; now rewrite IH. }
  destruct (negb (same_bloom working (Some x))); [|apply Hcheck].
  destruct (same_bloom (Some x) skip) eqn:Esk.
  - destruct skip as [y|]; [|discriminate Esk]. cbn [same_bloom] in Esk. apply Nat.eqb_eq in Esk.
    rewrite (Hskip y (proj1 Hs) (eq_sym Esk) (proj2 Hs)). cbn [negb andb]. now rewrite IH.
  - destruct (contains_all b (bbloom s x)) eqn:Ea; [|apply Hcheck].
    rewrite (Hskip x Hx eq_refl Ea). cbn [negb andb]. now rewrite IH by (try exact Hin'; cbn; tauto).
Qed.

Lemma merge_ok x y : b_bits x = 0 /\ b_set x = 0 \/ b_bits x = 12 -> b_bits y = 12 ->
  exists z, merge x y = Some z /\ b_bits z = 12
    /\ (forall id, contains x id = true -> contains z id = true)
    /\ (forall id, contains y id = true -> contains z id = true).
Proof.
  intros Hx Hy. unfold merge. rewrite Hy. cbn [Z.eqb].
  assert (G : forall bits, bits = 12 -> let z := mkBloom bits (Z.lor (b_set x) (b_set y)) in
    (b_bits x = 12 -> forall id, contains x id = true -> contains z id = true)
    /\ (forall id, contains y id = true -> contains z id = true)).
  { intros bits -> z. split; [intros Hb|]; intros id; unfold contains, z; cbn [b_bits b_set]; rewrite ?Hb, ?Hy;
      cbn [Z.eqb]; rewrite !forallb_forall; intros H i Hi; rewrite Z.lor_spec; apply orb_true_iff; [left | right]; now apply H. }
  destruct Hx as [[Hb _]|Hb]; rewrite Hb; cbn [Z.eqb Pos.eqb].
  - destruct (G 12 eq_refl) as [_ G2]. eexists. split; [reflexivity|]. split; [reflexivity|]. split; [|exact G2].
    intros id. unfold contains at 1. rewrite Hb. cbn [Z.eqb]. discriminate.
  - destruct (G 12 eq_refl) as [G1 G2]. eexists. split; [reflexivity|]. split; [reflexivity|]. split; [exact (G1 Hb) | exact G2].
Qed.

Lemma bloom_chain_ok s l : blooms s l -> forall fuel b acc, (b < bfresh s)%nat -> (bfresh s <= fuel + b)%nat ->
  b_bits acc = 0 /\ b_set acc = 0 \/ b_bits acc = 12 ->
  exists z, bloom_chain fuel s (Some b) acc = Some z
    /\ (forall id, contains acc id = true -> contains z id = true)
    /\ (forall b' id, reach (bnext s) b b' -> contains (bbloom s b') id = true -> contains z id = true).
Proof.
  intros B fuel. induction fuel as [|k IH]; intros b acc Hb Hf Ha; [lia|].
  cbn [bloom_chain]. destruct (merge_ok acc (bbloom s b) Ha (b_wide _ _ B b Hb)) as (z & -> & Hz & K1 & K2).
  destruct (bnext s b) as [n|] eqn:En.
  - assert (Hn := b_next _ _ B b n Hb En).
    destruct (IH n z ltac:(lia) ltac:(lia) (or_intror Hz)) as (z' & E & L1 & L2).
    exists z'. split; [exact E|]. split; [auto|].
    intros b' id Hr Hc. destruct Hr as [b0|b0 n0 b' E0 Hr]; [auto|].
    rewrite En in E0. injection E0 as <-. exact (L2 b' id Hr Hc).
  - exists z. split; [destruct k; reflexivity|]. split; [exact K1|].
    intros b' id Hr Hc. destruct Hr as [b0|b0 n0 b' E0 Hr]; [auto | congruence].
Qed.
