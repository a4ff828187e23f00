(** C78: a transaction that the node dropped is not taken again while it is valid.

    Source: /repo/service/txidcache.go, /repo/service/txidmanager.go, /repo/service/tschecker.go. *)
From Verif Require Import Model.Bytes Model.TxDropped Spec.TxDroppedSpec Proof.TxDroppedFacts.
From Coq Require Import Lia Logic.FinFun.
Open Scope Z_scope.

(** Once dropped, whatever comes before and after, it is refused: as dropped
    already, as too old, or as too new. *)
Theorem C78_never_again dur size th0 h1 id ts h2 now committed :
  0 < dur -> 0 <= ts ->
  let h := h1 ++ Drop id ts :: h2 in
  let m := after dur size th0 h in
  Z.of_nat (drops_in dur ts h) <= size -> window_never_back th0 h ->
  refused (check_add m now committed id ts).
Proof.
  intros P N h m B W. destruct (window_after dur size th0 h) as [Wc Wt]. fold m in Wc, Wt. unfold window_never_back in W. rewrite <- Wc, <- Wt in W. unfold refused, check_add. destruct (Z.leb_spec ts (m_commit m - m_th m)); [now left|].
  destruct (now + m_th m <? ts); [right; now left|]. right. right.
  destruct (held_after dur size th0 h P) as [_ _ I3 _ I5 I6 _ _ _]. fold m in I3, I5, I6.
  assert (L : c_min (m_cache m) <= ts).
  { destruct I6 as [->|(x & t & Hi & ->)]; [exact N|]. specialize (W x t Hi). lia. }
  rewrite contains_ids, (proj2 (Z.leb_le _ _) L). unfold slot_of. rewrite I3.
  rewrite (proj2 (has_id_in _ id)); [reflexivity|]. exact (stays dur size th0 h1 id ts h2 P B L).
Qed.
Print Assumptions C78_never_again.

(** Each answer, when it is given: no transaction that was not dropped is refused as dropped. *)
Theorem C78_answers dur size th0 h now committed id ts : 0 < dur ->
  let m := after dur size th0 h in
  let low := last_block h - threshold th0 h in
  let high := now + threshold th0 h in
  (check_add m now committed id ts = Expired <-> ts <= low)
  /\ (check_add m now committed id ts = Future <-> low < ts /\ high < ts)
  /\ (check_add m now committed id ts = AlreadyDropped ->
        (exists ts', In (Drop id ts') h /\ same_period dur ts' ts) /\ forall c th, In (Commit c th) h -> c - th <= ts)
  /\ (low < ts -> ts <= high -> (forall ts', ~ In (Drop id ts') h) ->
        check_add m now committed id ts = if committed then Committed else Accepted)
  /\ (check_add m now committed id ts = Accepted -> committed = false /\ low < ts <= high).
Proof.
  intros P m. destruct (window_after dur size th0 h) as [Wc Wt]. fold m in Wc, Wt. rewrite <- Wc, <- Wt. intros low high. destruct (held_after dur size th0 h P) as [_ _ I3 _ I5 _ I7 _ _]. fold m in I3, I5, I7.
  assert (T : contains (m_cache m) id ts = true -> (exists ts', In (Drop id ts') h /\ same_period dur ts' ts) /\ forall c th, In (Commit c th) h -> c - th <= ts).
  { rewrite contains_ids. intros E. apply andb_prop in E. destruct E as [E1 E2]. apply Z.leb_le in E1. apply has_id_in in E2. unfold slot_of in E2. rewrite I3 in E2.
    split; [exact (I7 _ _ E2)|]. intros c th Hi. specialize (I5 c th Hi). lia. }
  unfold check_add. fold low high. destruct (Z.leb_spec ts low).
  { repeat split; try discriminate; lia. }
  destruct (Z.ltb_spec high ts).
  { repeat split; try discriminate; lia. }
  destruct (contains (m_cache m) id ts) eqn:E.
  - specialize (T eq_refl). split; [split; [discriminate|lia]|]. split; [split; [discriminate|lia]|]. split; [intros _; exact T|]. split; [|discriminate].
    intros _ _ N. destruct T as [[ts' [Hi _]] _]. now destruct (N ts').
  - split; [split; [destruct committed; discriminate|lia]|]. split; [split; [destruct committed; discriminate|lia]|].
    split; [destruct committed; discriminate|]. split; [reflexivity|]. destruct committed; [discriminate|]. intros _. repeat split; lia.
Qed.
Print Assumptions C78_answers.

(** The memory: the count is that of the IDs, of each period there are [size] at
    most (one if [size] is none), each ID once, and none of periods before the
    latest window. *)
Theorem C78_memory dur size th0 h : 0 < dur ->
  let c := m_cache (after dur size th0 h) in
  c_count c = total (c_slots c)
  /\ c_count c <= Z.of_nat (length (filter (fun a => match a with Drop _ _ => true | _ => false end) h))
  /\ NoDup (map fst (c_slots c))
  /\ (forall p ids, In (p, ids) (c_slots c) -> NoDup ids /\ Z.of_nat (length ids) <= Z.max 1 size)
  /\ forall p ids x th, In (p, ids) (c_slots c) -> In (Commit x th) h -> Z.quot (x - th) dur <= p.
Proof.
  intros P c. destruct (held_after dur size th0 h P) as [(_ & G2 & G3 & _ & G5 & G6) I2 I3 I4 I5 _ _ _ I9]. fold c in G2, G3, G5, G6, I2, I3, I4, I5, I9.
  assert (Ids : forall p ids, In (p, ids) (c_slots c) -> ids_of (c_slots c) p = ids).
  { intros p ids Hi. unfold ids_of. now rewrite (proj2 (get_in _ p ids G2) Hi). }
  split; [exact G3|]. split; [exact I9|]. split.
  - revert G2. unfold in_order. clear. induction (map fst (c_slots c)) as [|x r IH]; intros O; [constructor|]. inversion O as [|z zs O1 O2]; subst.
    rewrite Forall_forall in O2. constructor; [|now apply IH]. intros Hi. specialize (O2 x Hi). lia.
  - split.
    + intros p ids Hi. rewrite <- (Ids p ids Hi), <- I4. split; [apply G5|apply G6].
    + intros p ids x th Hi Hc. specialize (I5 x th Hc). assert (K : slot_of c (c_min c) <= p) by (apply I2; apply in_map_iff; now exists (p, ids)).
      unfold slot_of in K. rewrite I3 in K. assert ((x - th) ÷ dur <= c_min c ÷ dur) by (apply Z.quot_le_mono; assumption). lia.
Qed.
Print Assumptions C78_memory.

(** Finding: when the threshold is raised after a block, transactions of the
    added time were forgotten with that block, and are taken again. *)
Theorem C78_violated_raised : exists h1 h2 id ts now,
  let h := h1 ++ Drop id ts :: h2 in
  let m := after 10 100 50 h in
  Z.of_nat (drops_in 10 ts h) <= 100 /\ check_add (after 10 100 50 h1) now false id ts = Accepted
  /\ (forall c th, In (Commit c th) h -> c <= last_block h)
  /\ check_add (after 10 100 50 (h1 ++ [Drop id ts])) now false id ts = AlreadyDropped
  /\ check_add m now false id ts = Accepted.
Proof.
  exists [Commit 100 50], [Commit 200 50; SetThreshold 150], [1], 100, 100. vm_compute. repeat split; try discriminate; try reflexivity.
  intros c th H. destruct H as [H|[H|[H|[H|[]]]]]; try discriminate H; injection H as <- <-; discriminate.
Qed.
Print Assumptions C78_violated_raised.

(** Finding: of a period with more than [size] dropped transactions, all of the
    first [size] are forgotten at once, and are taken again, for any [size]. *)
Theorem C78_violated_full : forall size : nat, (0 < size)%nat -> exists h,
  let m := after 10 (Z.of_nat size) 50 h in
  (drops_in 10 100 h = S size)%nat
  /\ forall id ts, In (Drop id ts) (firstn size h) -> check_add m 100 false id ts = Accepted.
Proof.
  intros size Ps. set (ids := map (fun n => [Z.of_nat n]) (seq 0 size) : list bytes). exists (map (fun id => Drop id 100) ids ++ [Drop [Z.of_nat size] 100]).
  assert (Lid : @length bytes ids = size) by (unfold ids, bytes; now rewrite map_length, seq_length).
  assert (Nd : NoDup (ids ++ [[Z.of_nat size]])).
  { replace (ids ++ [[Z.of_nat size]]) with (map (fun n => [Z.of_nat n]) (seq 0 (S size))) by (rewrite seq_S, map_app; reflexivity).
    apply Injective_map_NoDup; [|apply seq_NoDup]. intros a b E. injection E. lia. }
  assert (D : forall l, drops_in 10 100 (map (fun id => Drop id 100) l) = length l) by (intros l; induction l as [|x r IH]; cbn; [reflexivity|now rewrite IH]).
  assert (A : forall l, NoDup l -> (length l <= size)%nat -> let m := after 10 (Z.of_nat size) 50 (map (fun id => Drop id 100) l) in
     m_commit m = 0 /\ m_th m = 50 /\ c_min (m_cache m) = 0 /\ c_slots (m_cache m) = (if (length l =? 0)%nat then [] else [(10, l)]) /\ c_dur (m_cache m) = 10 /\ c_size (m_cache m) = Z.of_nat size).
  { intros l. induction l as [|x l IH] using rev_ind; intros N L; [repeat split|]. rewrite app_length in L. cbn in L.
    assert (Nx : ~ In x l /\ NoDup l) by (apply NoDup_remove in N; rewrite app_nil_r in N; tauto). destruct Nx as [Nx Nl].
    destruct (IH Nl ltac:(lia)) as (B1 & B2 & B3 & B4 & B5 & B6). cbv zeta. rewrite map_app. cbn [map]. rewrite after_snoc. cbn [act m_commit m_th m_cache].
    split; [exact B1|]. split; [exact B2|]. unfold add_id, slot_of. rewrite B3, B4, B5, B6, app_length. cbn [length].
    replace (length l + 1 =? 0)%nat with false by (symmetry; apply Nat.eqb_neq; lia). destruct l as [|y r]; cbn -[Z.of_nat Z.leb has_id].
    - cbn -[Z.of_nat Z.leb]. change (Z.of_nat 0) with 0. destruct (Z.leb_spec (Z.of_nat size) 0); [lia|]. repeat split.
    - destruct (has_id (y :: r) x) eqn:E; [apply has_id_in in E; contradiction|]. cbn -[Z.of_nat Z.leb].
      destruct (Z.leb_spec (Z.of_nat size) (Z.of_nat (S (length r)))) as [L'|]; [cbn in L; lia|]. repeat split. }
  split.
  - rewrite drops_in_app, D, Lid. cbn. lia.
  - intros id ts Hi. rewrite firstn_app, map_length, Lid, Nat.sub_diag, app_nil_r, firstn_all2 in Hi by (rewrite map_length; lia).
    apply in_map_iff in Hi. destruct Hi as (y & E & Hy). injection E as <- <-. rewrite after_snoc.
    assert (N1 : NoDup ids /\ ~ In [Z.of_nat size] ids) by (apply NoDup_remove in Nd; rewrite app_nil_r in Nd; tauto). destruct N1 as [N1 N2].
    destruct (A ids N1 ltac:(lia)) as (B1 & B2 & B3 & B4 & B5 & B6). unfold check_add. cbn [act m_commit m_th m_cache]. rewrite B1, B2.
    unfold add_id, slot_of. rewrite B3, B4, B5, B6, Lid. clearbody ids. destruct size as [|k]; [lia|].
    change (0 <=? 100) with true. cbn -[Z.of_nat Z.leb has_id contains]. destruct (has_id ids [Z.of_nat (S k)]) eqn:E; [apply has_id_in in E; contradiction|]. rewrite Lid.
    destruct (Z.leb_spec (Z.of_nat (S k)) (Z.of_nat (S k))); [|lia]. unfold contains, slot_of. cbn -[Z.of_nat Z.leb has_id].
    change (100 <=? -50) with false. change (0 <=? 100) with true. cbn [andb].
    match goal with |- context [has_id ?a ?b] => destruct (has_id a b) eqn:E2 end; [|reflexivity]. apply has_id_in in E2. destruct E2 as [<-|[]]. contradiction.
Qed.
Print Assumptions C78_violated_full.

(** Non-triviality: dropped among others, blocks after it, a lower threshold. *)
Definition some_history : list action :=
  [Commit 100 50; Drop [2] 109; SetThreshold 40] ++ Drop [1] 105 :: [Commit 110 40; Drop [3] 101; Drop [4] 130; SetThreshold 45; Commit 120 45].
Example ex_hypotheses : Z.of_nat (drops_in 10 105 some_history) <= 3
  /\ window_never_back 50 some_history
  /\ check_add (after 10 3 50 some_history) 120 false [1] 105 = AlreadyDropped
  /\ check_add (after 10 3 50 some_history) 120 false [5] 105 = Accepted
  /\ check_add (after 10 3 50 some_history) 120 true [5] 105 = Committed.
Proof.
  split; [vm_compute; discriminate|]. split; [|repeat split; vm_compute; reflexivity].
  intros c th H. cbn in H. repeat (destruct H as [H|H]; [try discriminate H; injection H as <- <-; vm_compute; discriminate|]). destruct H.
Qed.
Example ex_expired : check_add (after 10 3 50 (some_history ++ [Commit 160 45])) 120 false [1] 105 = Expired.
Proof. reflexivity. Qed.
Example ex_memory : c_slots (m_cache (after 10 3 50 some_history)) = [(10, [[2]; [1]; [3]]); (13, [[4]])].
Proof. reflexivity. Qed.
