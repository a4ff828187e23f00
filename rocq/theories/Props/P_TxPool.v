(** C69: the pool of transactions. *)
From Coq Require Import ZArith List Bool Arith Lia.
From Verif Require Import Model.Bytes Model.TxPool Spec.TxPoolSpec Proof.TxPoolFacts Proof.TxPoolInv Proof.TxPoolAdd
  Proof.TxPoolOps Proof.TxPoolCollect Proof.TxPoolSys Proof.TxPoolBloom.
Import ListNotations.
Open Scope Z_scope.

(** Nothing that is done to a pool, in any order, makes it panic. *)
Theorem C69_no_panic : forall world size (h : list (op world)), exists p, play size new_pool h = Some p.
Proof.
  intros world size h. destruct (play_good size h empty_list [] [] (new_good size)) as (s & more & l & E & _).
  exists (s, [] ++ more). exact E.
Qed.

(** No transaction is there twice, those of a sender are in the order of their
    timestamps, and the pool is never over its size; HasTx and Used tell what is
    there. *)
Theorem C69_order : forall world size p, reachable (world := world) size p ->
  let s := fst p in
  NoDup (map id_of (view s)) /\ NoDup (map e_no (view s))
  /\ (forall l1 x l2 y l3, view s = l1 ++ x :: l2 ++ y :: l3 -> from_of x = from_of y -> time_of x <= time_of y)
  /\ len s = Z.of_nat (length (view s))
  /\ (0 <= size -> len s <= size)
  /\ (forall id, has_tx s id = true <-> exists e, In e (view s) /\ id_of e = id).
Proof.
  intros world size [s pd] H. cbn [fst]. destruct (reach_good size (s, pd) H) as (l & [R Sz P]). cbn [fst snd] in *.
  rewrite (view_rep s l R). rewrite !map_map. cbn [entry_at e_no]. rewrite map_id.
  assert (ND := k_nodup _ _ (r_links _ _ R)).
  split.
  { assert (Hin : forall a, In a l -> In a l) by tauto. revert ND Hin. generalize l at 1 2 4 as l'.
    induction l' as [|a r IH]; intros ND Hin; [constructor|]. inversion ND as [|? ? Hna ND' E0]. subst. cbn [map]. constructor.
    - intros Hi. apply in_map_iff in Hi. destruct Hi as (b & Eb & Hb). unfold id_of in Eb. cbn [entry_at e_tx] in Eb.
      assert (b = a).
      { apply (rep_ids s l); [exact R | apply Hin; now right | apply Hin; now left | exact Eb]. }
      subst b. contradiction.
    - apply IH; [exact ND' | intros b Hb; apply Hin; now right]. }
  split; [exact ND|]. split.
  { intros l1 x l2 y l3 E Ef.
    destruct (map_eq_app _ _ _ _ E) as (k1 & k2 & -> & <- & E2).
    destruct k2 as [|a k2]; [discriminate E2|]. cbn [map] in E2. injection E2 as <- E2.
    destruct (map_eq_app _ _ _ _ E2) as (k3 & k4 & -> & <- & E3).
    destruct k4 as [|b k4]; [discriminate E3|]. cbn [map] in E3. injection E3 as <- E3.
    assert (Hs := k_sorted _ _ (r_links _ _ R)). apply fop_app in Hs. destruct Hs as (_ & Hs & _).
    inversion Hs as [|? ? Ha _ E0]. subst. rewrite Forall_forall in Ha.
    apply (Ha b); [apply in_or_app; right; now left | exact Ef]. }
  split; [rewrite map_length; apply (r_len _ _ R)|].
  split; [rewrite (r_len _ _ R); lia|].
  intros id. unfold has_tx. split.
  - destruct (by_id s id) as [a|] eqn:E; [|discriminate]. intros _. apply (r_id _ _ R) in E.
    exists (entry_at s a). split; [apply in_map; apply E | apply E].
  - intros (e & He & Ei). apply in_map_iff in He. destruct He as (a & <- & Ha).
    assert (E : by_id s id = Some a) by (apply (r_id _ _ R); split; assumption). now rewrite E.
Qed.

(** Add: refused when full, refused when it is there already, and else put in
    front of the first later transaction of the same sender. *)
Theorem C69_add : forall world size p t d p' a, reachable (world := world) size p ->
  step (world := world) size p (Add t d) = Some (p', Answered a) ->
  let l := view (fst p) in
  match a with
  | Overflow => size <= Z.of_nat (length l) /\ p' = p
  | IsDuplicate => Z.of_nat (length l) < size /\ (exists e, In e l /\ id_of e = t_id t) /\ p' = p
  | Accepted => Z.of_nat (length l) < size /\ (forall e, In e l -> id_of e <> t_id t)
      /\ exists n, (forall e, In e l -> (e_no e < n)%nat) /\ view (fst p') = put (mkEntry n t d None) l
  end.
Proof.
  intros world size [s pd] t d p' a H E. cbn [fst]. destruct (reach_good size (s, pd) H) as (l & G). cbn [fst snd] in *.
  cbn [step] in E. destruct (add_good size s pd l t d G) as (s' & a' & l' & E1 & G' & O & Hm). rewrite E1 in E.
  injection E as <- <-. assert (R := o_rep _ _ _ _ G). rewrite (view_rep s l R). rewrite map_length. cbn [fst].
  destruct a'.
  - destruct Hm as (H1 & H2 & H3). split; [exact H1|]. split.
    { intros e He. apply in_map_iff in He. destruct He as (x & <- & Hx). now apply H2. }
    exists (fresh s). split.
    { intros e He. apply in_map_iff in He. destruct He as (x & <- & Hx). now apply (r_fresh _ _ R). }
    rewrite (view_rep s' l' (o_rep _ _ _ _ G')). exact H3.
  - destruct Hm as (H1 & (x & Hx & Ex) & ->). split; [exact H1|]. split; [|reflexivity].
    exists (entry_at s x). split; [now apply in_map | exact Ex].
  - destruct Hm as (H1 & ->). split; [exact H1 | reflexivity].
Qed.

Lemma filter_map {A B} (f : B -> bool) (g : A -> B) l : filter f (map g l) = map g (filter (fun a => f (g a)) l).
Proof. induction l as [|a r IH]; [reflexivity|]. cbn [map filter]. destruct (f (g a)); cbn [map]; congruence. Qed.

(** RemoveList takes out those of a block, and nothing else. *)
Theorem C69_remove : forall world size p ids p' ev, reachable (world := world) size p ->
  step (world := world) size p (Remove ids) = Some (p', ev) ->
  view (fst p') = filter (fun e => negb (existsb (bytes_eqb (id_of e)) ids)) (view (fst p)).
Proof.
  intros world size [s pd] ids p' ev H E. destruct (reach_good size (s, pd) H) as (l & G). cbn [fst snd step] in *.
  injection E as <- <-. destruct (remove_good size s pd l ids G) as (G' & O & K & Er). cbn [fst].
  rewrite (view_rep s l (o_rep _ _ _ _ G)), (view_rep _ _ (o_rep _ _ _ _ G')), filter_map.
  apply map_ext. intros a. unfold entry_at. now rewrite (g_txs _ _ K), (g_direct _ _ K), Er.
Qed.

(** DropOldTXs takes out those up to the time and tells about each of them. *)
Theorem C69_drop_old : forall world size p bts p' ev, reachable (world := world) size p ->
  step (world := world) size p (DropOld bts) = Some (p', ev) ->
  view (fst p') = filter (fun e => bts <? time_of e) (view (fst p))
  /\ ev = Dropped (map (fun e => (id_of e, match e_why e with Some r => r | None => Expired end))
                     (filter (fun e => time_of e <=? bts) (view (fst p)))).
Proof.
  intros world size [s pd] bts p' ev H E. destruct (reach_good size (s, pd) H) as (l & G). cbn [fst snd step] in *.
  destruct (drop_old_good size s pd l bts G) as (s' & E1 & G' & O & K & Er). rewrite E1 in E. injection E as <- <-. cbn [fst].
  rewrite (view_rep s l (o_rep _ _ _ _ G)), (view_rep _ _ (o_rep _ _ _ _ G')), !filter_map, map_map.
  split; [|reflexivity].
  replace (filter (fun a => bts <? time_of (entry_at s a)) l) with (filter (fun a => negb (is_old s bts a)) l).
  2:{ apply filter_ext. intros a. unfold is_old, time_of. cbn [entry_at e_tx]. symmetry. apply Z.ltb_antisym. }
  apply map_ext_in. intros a Ha. unfold entry_at. now rewrite (g_txs _ _ K), (g_direct _ _ K), (Er a Ha).
Qed.

(** Candidate: the chosen are in the order of the pool, within the limits of
    bytes and number, in the range of timestamps and not of a recent block, and
    each passes in the world left by those chosen before it.  Nothing is passed
    over without a reason before the end or a limit.  The pool keeps what it has,
    and a reason is written only where it is true. *)
Theorem C69_collect : forall world size p lo hi recent (pre : world -> tx -> world * option bool) mb mc w p' c n,
  reachable (world := world) size p ->
  step size p (Collect lo hi recent pre mb mc w) = Some (p', Collected c n) ->
  let bytes_max := if mb <=? 0 then 1048576 else mb in
  let count_max := if mc <=? 0 then 1500 else mc in
  let l := view (fst p) in
  within c (map e_tx l)
  /\ n = sum_sizes c /\ n <= bytes_max /\ Z.of_nat (length c) <= count_max
  /\ (forall t, In t c -> lo < t_time t <= hi /\ recent (t_id t) (t_time t) = Some false)
  /\ ((forall w t w' b, pre w t = (w', Some b) -> w' = w) -> all_pass pre w c)
  /\ (exists l1 l2, l = l1 ++ l2 /\ within c (map e_tx l1)
      /\ (forall e, In e l1 -> In (e_tx e) c \/ skipped lo hi recent pre e)
      /\ (l2 = [] \/ bytes_max <= n \/ count_max <= Z.of_nat (length c)
          \/ exists e r, l2 = e :: r /\ bytes_max < n + t_size (e_tx e)))
  /\ map (fun e => (e_no e, e_tx e, e_direct e)) (view (fst p')) = map (fun e => (e_no e, e_tx e, e_direct e)) l
  /\ (forall e e', In e l -> In e' (view (fst p')) -> e_no e' = e_no e -> reason_step lo recent pre e (e_why e')).
Proof.
  intros world size [s pd] lo hi recent pre mb mc w p' c n H E. destruct (reach_good size (s, pd) H) as (l & G).
  cbn [fst snd step] in *. destruct (candidate lo hi recent pre s mb mc w) as [[[[c0 n0] d] s'] m] eqn:E1.
  injection E as <- <- <-. destruct (collect_good size s pd l lo hi recent pre mb mc w c0 n0 d s' m G E1) as (Q & G' & O).
  cbv zeta. cbn [fst]. rewrite (view_rep s l (o_rep _ _ _ _ G)), (view_rep s' l (o_rep _ _ _ _ G')).
  destruct Q as [Q1 Q2 Q3 Q4 Q5 Q6 Q7 Q8 Q9 Q10 Q11 Q12].
  assert (Wm : forall u v, within u v -> within (map (txs s) u) (map e_tx (map (entry_at s) v))).
  { induction 1; cbn [map]; [apply within_nil | apply within_take; assumption | apply within_skip; assumption]. }
  split; [now apply Wm|].
  split; [rewrite Q2; lia|].
  split. { apply Q3. destruct (Z.leb_spec mb 0); lia. }
  split. { rewrite map_length. assert (Hq := Q4 ltac:(destruct (Z.leb_spec mc 0); lia)). lia. }
  split. { intros t Ht. apply in_map_iff in Ht. destruct Ht as (a & <- & Ha). now apply Q5. }
  split; [exact Q9|].
  split.
  { destruct Q12 as (l1 & l2 & -> & W & S1 & _ & _ & St). exists (map (entry_at s) l1), (map (entry_at s) l2).
    split; [apply map_app|]. split; [now apply Wm|]. split.
    - intros e He. apply in_map_iff in He. destruct He as (a & <- & Ha). destruct (S1 a Ha) as [Hc|Hs]; [left | now right].
      cbn [entry_at e_tx]. now apply in_map.
    - rewrite map_length. destruct St as [->|[?|[?|(a & r & -> & _ & Hb)]]];
        [now left | tauto | right; right; left; lia | right; right; right].
      exists (entry_at s a), (map (entry_at s) r). split; [reflexivity | exact Hb]. }
  destruct Q1 as (e0 & Es).
  split. { rewrite !map_map. rewrite Es. reflexivity. }
  intros e e' He He' En. apply in_map_iff in He. destruct He as (a & <- & Ha).
  apply in_map_iff in He'. destruct He' as (b & <- & Hb). cbn [entry_at e_no] in En. subst b.
  exact (Q8 a Ha).
Qed.

(** What a Candidate drops, whenever its goroutine runs and whatever has been
    done in between: those it has found expired, processed or refused and which
    are still there (the same arrival); each is told about with its reason. *)
Theorem C69_drop : forall world size (h1 : list (op world)) p1 lo hi recent (pre : world -> tx -> world * option bool) mb mc w p2 c n,
  play size new_pool h1 = Some p1 ->
  step size p1 (Collect lo hi recent pre mb mc w) = Some (p2, Collected c n) ->
  exists found,
    (forall k, In k found -> exists e, In e (view (fst p1)) /\ e_no e = k /\ faulty lo recent pre e)
    /\ (exists l1 l2, view (fst p1) = l1 ++ l2 /\ within c (map e_tx l1)
        /\ (forall e, In e l1 -> due lo hi recent e -> In (e_no e) found))
    /\ forall (h2 : list (op world)) p3, play size p2 h2 = Some p3 ->
       exists p4 out, step (world := world) size p3 (Finish (collects h1)) = Some (p4, Dropped out)
       /\ view (fst p4) = filter (fun e => negb (existsb (Nat.eqb (e_no e)) found)) (view (fst p3))
       /\ NoDup (map fst out)
       /\ (forall id r, In (id, r) out
             <-> exists e, In e (view (fst p3)) /\ In (e_no e) found /\ id_of e = id /\ e_why e = Some r)
       /\ (forall e3, In e3 (view (fst p3)) -> In (e_no e3) found ->
             e_why e3 <> None
             /\ exists e1, In e1 (view (fst p1)) /\ e_no e1 = e_no e3 /\ e_tx e1 = e_tx e3 /\ e_direct e1 = e_direct e3).
Proof.
  intros world size h1 p1 lo hi recent pre mb mc w p2 c n Hp E.
  destruct (play_good size h1 empty_list [] [] (new_good size)) as (s & pd & l & E0 & Hlen & G & _).
  unfold new_pool in Hp. rewrite E0 in Hp. cbn [app] in *. injection Hp as <-.
  cbn [step] in E. destruct (candidate lo hi recent pre s mb mc w) as [[[[c0 n0] d] s'] m] eqn:E1.
  injection E as <- <- <-. destruct (collect_good size s pd l lo hi recent pre mb mc w c0 n0 d s' m G E1) as (Q & G' & O).
  cbn [fst]. rewrite (view_rep s l (o_rep _ _ _ _ G)).
  destruct Q as [Q1 Q2 Q3 Q4 Q5 Q6 Q7 Q8 Q9 Q10 Q11 Q12].
  exists d. split.
  { intros k Hk. destruct (Q6 k Hk) as (H1 & _ & H3). exists (entry_at s k).
    split; [now apply in_map|]. split; [reflexivity | exact H3]. }
  split.
  { destruct Q12 as (l1 & l2 & -> & W & _ & S2 & _ & _). exists (map (entry_at s) l1), (map (entry_at s) l2).
    split; [apply map_app|].
    split. { clear - W. revert W. generalize l1. intros l1' W. induction W; cbn [map];
               [apply within_nil | apply within_take; assumption | apply within_skip; assumption]. }
    intros e He Hd. apply in_map_iff in He. destruct He as (a & <- & Ha). exact (S2 a Ha Hd). }
  intros h2 p3 Hp3. destruct (play_good size h2 s' (pd ++ [d]) l G') as (s3 & more & l3 & E3 & _ & G3 & O3).
  rewrite E3 in Hp3. injection Hp3 as <-. cbn [step].
  assert (Hn : nth (collects h1) ((pd ++ [d]) ++ more) [] = d).
  { change (collects h1) with (length (filter is_collect h1)). rewrite <- Hlen.
    rewrite <- app_assoc. rewrite app_nth2 by lia. rewrite Nat.sub_diag. reflexivity. }
  destruct (finish_good size s3 _ l3 (collects h1) G3) as (s4 & out & E4 & G4 & O4 & K4 & Er4 & Ho & Nd).
  rewrite E4. exists (s4, (pd ++ [d]) ++ more), out. split; [reflexivity|]. cbn [fst].
  rewrite Hn in *.
  rewrite (view_rep s3 l3 (o_rep _ _ _ _ G3)), (view_rep s4 _ (o_rep _ _ _ _ G4)), filter_map.
  split. { apply map_ext. intros a. unfold entry_at. now rewrite (g_txs _ _ K4), (g_direct _ _ K4), Er4. }
  split; [exact Nd|]. split.
  { intros id r. rewrite Ho. split.
    - intros (a & H1 & H2 & H3 & H4). exists (entry_at s3 a). split; [now apply in_map|].
      split; [exact H1|]. split; [symmetry; exact H3 | exact H4].
    - intros (e & H1 & H2 & H3 & H4). apply in_map_iff in H1. destruct H1 as (a & <- & Ha).
      exists a. split; [exact H2|]. split; [exact Ha|]. split; [symmetry; exact H3 | exact H4]. }
  intros e3 H3 Hf. apply in_map_iff in H3. destruct H3 as (a & <- & Ha). cbn [entry_at e_no e_why e_tx e_direct] in *.
  destruct (Q6 a Hf) as (Hl & He & _). assert (Hfr := r_fresh _ _ (o_rep _ _ _ _ G) a Hl).
  assert (Oall := older_trans _ _ _ O O3). destruct Oall as [_ Oall]. destruct (Oall a Hfr) as (T & D & _).
  split.
  { destruct O3 as [_ O3]. apply O3; [|exact He]. destruct O as [O _]. lia. }
  exists (entry_at s a). split; [now apply in_map|]. cbn [entry_at e_no e_tx e_direct]. rewrite T, D. tauto.
Qed.

(** FilterTransactions: the first which the filter of the peer does not show. *)
Theorem C69_filter : forall world size p recent b max, reachable (world := world) size p ->
  map (txs (fst p)) (pool_filter recent (fst p) b max)
  = firstn max (filter (fun t => negb (contains b (t_id t))
      && negb (match recent (t_id t) (t_time t) with Some true => true | _ => false end)) (map e_tx (view (fst p)))).
Proof.
  intros world size [s pd] recent b max H. cbn [fst]. destruct (reach_good size (s, pd) H) as (l & [R _ _]). cbn [fst snd] in *.
  unfold pool_filter. rewrite (walk_rep s l R), (view_rep s l R), map_map. cbn [entry_at e_tx].
  refine (eq_trans (f_equal (map (txs s)) (filter_txs_ok recent b s l (r_bloom _ _ R) l max None None _ _)) _);
    [tauto | exact Logic.I|].
  rewrite filter_map. symmetry. apply firstn_map.
Qed.

(** GetBloom shows all of the pool, if the transactions of each sender have come
    in the order of their timestamps. *)
Theorem C69_bloom : forall world size (h : list (op world)) p, in_turn h -> play size new_pool h = Some p ->
  exists b, get_bloom (fst p) = Some b /\ forall e, In e (view (fst p)) -> contains b (id_of e) = true.
Proof.
  intros world size h p T H.
  destruct (filed_play size h empty_list [] [] [] p (new_good size)) as (l & G & (R & A & _)).
  - split; [exact rep_empty|]. split; [constructor | intros a []].
  - exact T.
  - exact H.
  - destruct (get_bloom_all (fst p) l R A) as (b & E & Hb). exists b. split; [exact E|].
    intros e He. rewrite (view_rep _ l R) in He. apply in_map_iff in He. destruct He as (a & <- & Ha). exact (Hb a Ha).
Qed.

(** In any pool it gives an answer. *)
Theorem C69_bloom_any : forall world size p, reachable (world := world) size p -> exists b, get_bloom (fst p) = Some b.
Proof.
  intros world size p H. destruct (reach_good size p H) as (l & [R _ _]). exact (get_bloom_some _ l R).
Qed.

(** ** Findings *)

Definition tx1 (i f : Z) (time size : Z) : tx := mkTx [i; i + 1; i + 2; i + 3; i + 4; i + 5] [f] time size.
Definition free (w : unit) (t : tx) : unit * option bool := (w, None).
Definition nothing_recent (id : bytes) (t : Z) : option bool := Some false.

(** A transaction at the front which is bigger than the limit of the block stops
    the collection, so that the block is empty whatever else is waiting; it stays
    there until it expires. *)
Theorem C69_violated_blocked : forall n,
  let p0 := play (world := unit) 5000 new_pool [Add (tx1 1 1 50 600) true; Add (tx1 10 2 50 100) true; Add (tx1 20 3 50 100) true] in
  exists p, p0 = Some p
  /\ exists p', play (world := unit) 5000 p (repeat (Collect 0 100 nothing_recent free 512 0 tt) n) = Some p'
     /\ exists p'', step (world := unit) 5000 p' (Collect 0 100 nothing_recent free 512 0 tt) = Some (p'', Collected [] 0)
     /\ length (view (fst p'')) = 3%nat.
Proof.
  intros n. cbv zeta.
  set (p0 := play (world := unit) 5000 new_pool [Add (tx1 1 1 50 600) true; Add (tx1 10 2 50 100) true; Add (tx1 20 3 50 100) true]).
  destruct p0 as [[s pd]|] eqn:E; [|vm_compute in E; discriminate E].
  exists (s, pd). split; [reflexivity|].
  assert (Hstep : forall pd, step (world := unit) 5000 (s, pd) (Collect 0 100 nothing_recent free 512 0 tt) = Some ((s, pd ++ [[]]), Collected [] 0)).
  { vm_compute in E. injection E as <- <-. intros pd0. vm_compute. reflexivity. }
  assert (Hv : length (view s) = 3%nat).
  { vm_compute in E. injection E as <- <-. vm_compute. reflexivity. }
  clear E p0. revert pd. induction n as [|n IH]; intros pd; cbn [repeat play].
  - exists (s, pd). split; [reflexivity|]. exists (s, pd ++ [[]]). split; [apply Hstep | exact Hv].
  - rewrite Hstep. apply IH.
Qed.

(** A transaction which comes late, before the only other of its sender at the
    front of the pool, has a filter of its own which is not linked to the others:
    GetBloom shows it alone. *)
Theorem C69_violated_bloom : exists p b e,
  play (world := unit) 5000 new_pool [Add (tx1 1 1 50 100) true; Add (tx1 100 2 50 100) true; Add (tx1 200 1 40 100) true] = Some p
  /\ get_bloom (fst p) = Some b /\ In e (view (fst p)) /\ contains b (id_of e) = false.
Proof.
  eexists. eexists. exists (mkEntry 0 (tx1 1 1 50 100) true None).
  split; [vm_compute; reflexivity|]. split; [vm_compute; reflexivity|].
  split; [right; left; reflexivity | vm_compute; reflexivity].
Qed.

(** ** A case *)
Definition case_history : list (op Z) :=
  [Add (tx1 1 1 50 100) true; Add (tx1 10 2 60 100) false; Add (tx1 20 1 40 100) true; Add (tx1 30 3 5 100) true;
   Add (tx1 1 1 50 100) true;
   Collect 10 100 (fun id _ => Some (bytes_eqb id (t_id (tx1 10 2 60 100))))
     (fun w t => if t_size t <=? w then (w - t_size t, None) else (w, Some true)) 0 0 150;
   Remove [t_id (tx1 20 1 40 100)]; Add (tx1 40 3 30 100) false; Finish 0].

Example C69_case : exists p1 p,
  play 10 new_pool (firstn 5 case_history) = Some p1
  /\ map (fun e => (e_no e, time_of e)) (view (fst p1)) = [(2%nat, 40); (0%nat, 50); (1%nat, 60); (3%nat, 5)]
  /\ option_map snd (step 10 p1 (nth 5 case_history (DropOld 0))) = Some (Collected [tx1 20 1 40 100] 100)
  /\ play 10 new_pool (firstn 8 case_history) = Some p
  /\ option_map snd (step (world := Z) 10 p (Finish 0)) = Some (Dropped [(t_id (tx1 10 2 60 100), Processed); (t_id (tx1 30 3 5 100), Expired)])
  /\ map (fun e => (e_no e, e_why e)) (view (fst p)) = [(0%nat, Some (Refused true)); (1%nat, Some Processed); (3%nat, Some Expired); (4%nat, None)].
Proof.
  eexists. eexists. split; [vm_compute; reflexivity|]. split; [vm_compute; reflexivity|].
  split; [vm_compute; reflexivity|]. split; [vm_compute; reflexivity|]. split; vm_compute; reflexivity.
Qed.

Print Assumptions C69_no_panic.
Print Assumptions C69_order.
Print Assumptions C69_add.
Print Assumptions C69_remove.
Print Assumptions C69_drop_old.
Print Assumptions C69_collect.
Print Assumptions C69_drop.
Print Assumptions C69_filter.
Print Assumptions C69_bloom.
Print Assumptions C69_bloom_any.
Print Assumptions C69_violated_blocked.
Print Assumptions C69_violated_bloom.
