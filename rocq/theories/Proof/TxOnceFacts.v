(* The locator manager knows every finalized transaction (for C56, C57). *)
From Coq Require Import ZArith List Bool Arith Lia Sorted.
From Verif Require Import Model.TxLocator Spec.TxOnceSpec.
Import ListNotations.
Open Scope Z_scope.

(* ---- maps ---- *)
Lemma mem_In : forall k l, mem k l = true <-> In k l.
Proof.
  intros k l. unfold mem. rewrite existsb_exists. split.
  - intros (x & Hx & E). apply Z.eqb_eq in E. subst. exact Hx.
  - intros H. exists k. split; [exact H|apply Z.eqb_refl].
Qed.

Lemma find_set : forall A k k' (x : A) m, find k (set k' x m) = if Z.eqb k k' then Some x else find k m.
Proof.
  intros A k k' x m. unfold set. cbn [find]. destruct (Z.eqb k k') eqn:E; [reflexivity|].
  induction m as [|(a, y) m IH]; [reflexivity|]. cbn [filter fst]. destruct (Z.eqb k' a) eqn:Ea; cbn [negb].
  - apply Z.eqb_eq in Ea. subst a. cbn [find]. rewrite E. exact IH.
  - cbn [find]. destruct (Z.eqb k a); [reflexivity|exact IH].
Qed.

Lemma find_put : forall ids tag h k l id,
  (In id ids -> exists i, find id (put_all tag h k ids l) = Some (mkLoc tag h i)) /\
  (~ In id ids -> find id (put_all tag h k ids l) = find id l).
Proof.
  induction ids as [|a ids IH]; intros tag h k l id; cbn [put_all].
  - split; [intros []|auto].
  - destruct (IH tag h (S k) (set a (mkLoc tag h k) l) id) as (P & Q). split.
    + intros H. destruct (in_dec Z.eq_dec id ids) as [Hi|Hi]; [apply P; exact Hi|].
      destruct H as [->|H]; [|contradiction]. exists k. rewrite Q by exact Hi. rewrite find_set, Z.eqb_refl. reflexivity.
    + intros H. rewrite Q by (intros F; apply H; right; exact F). rewrite find_set.
      destruct (Z.eqb id a) eqn:E; [|reflexivity]. apply Z.eqb_eq in E. subst. exfalso. apply H. left. reflexivity.
Qed.

Lemma find_filter : forall (f : Z * loc -> bool) l id lo, find id l = Some lo -> f (id, lo) = true ->
  find id (filter f l) = Some lo.
Proof.
  induction l as [|(a, y) l IH]; intros id lo H F; [discriminate|]. cbn [find] in H. cbn [filter].
  destruct (Z.eqb id a) eqn:E.
  - apply Z.eqb_eq in E. subst a. injection H as ->. rewrite F. cbn [find]. rewrite Z.eqb_refl. reflexivity.
  - destruct (f (a, y)); [cbn [find]; rewrite E|]; apply IH; auto.
Qed.

(* ---- lists and blocks ---- *)
Definition Mx (b : block) : Z := b_ts b + b_th b.
Definition Ml (l : txlist) : Z := l_ts l + l_th l.
Definition matches (l : txlist) (b : block) : Prop :=
  l_height l = b_height b /\ l_ts l = b_ts b /\ l_th l = b_th b /\ l_ids l = b_ids b.

Definition working (m : manager) : list txlist := match m_work m with Some (j, _) => [j] | None => [] end.
Definition lists (m : manager) : list txlist := m_cache m ++ working m ++ m_queue m.

Definition before (l l' : txlist) : Prop :=
  (l_tag l < l_tag l')%nat /\ l_ts l' <> 0 /\ (l_ts l <> 0 -> Ml l <= Ml l').
Definition below (a b : block) : Prop := b_ts b < b_ts a /\ Mx b <= Mx a.
Definition SortedP (p : list block) : Prop := StronglySorted below p /\ Forall (fun b => 0 < b_ts b) p.
Definition in_db (m : manager) (id : Z) : Prop := find id (m_db m) <> None.

Record MI (m : manager) (K : list block) : Prop := {
  mi_alive : m_alive m = true;
  mi_sorted : StronglySorted before (lists m);
  mi_tag : forall l, In l (lists m) -> (l_tag l < m_next m)%nat;
  mi_loc : forall l id, In l (lists m) -> In id (l_ids l) ->
    exists lo, find id (m_loc m) = Some lo /\ (l_tag l <= lo_tag lo)%nat;
  mi_cache : forall l id, In l (m_cache m) -> In id (l_ids l) -> in_db m id;
  mi_work : forall j k id, m_work m = Some (j, k) -> In id (firstn k (l_ids j)) -> in_db m id;
  mi_root : forall l, In l (lists m) -> l_ts l = 0 -> l_ids l = [];
  mi_known : forall b, In b K -> (exists l, In l (lists m) /\ matches l b) \/
    ((forall id, In id (b_ids b) -> in_db m id) /\ (m_max m = 0 \/ Mx b <= m_max m) /\
     forall l, In l (lists m) -> l_ts l <> 0 -> Mx b <= Ml l);
  mi_match : forall l, In l (lists m) -> l_ts l <> 0 -> exists b, In b K /\ matches l b;
  mi_max : m_max m = 0 \/ exists a, In a K /\ m_max m <= b_ts a - b_th a
}.
(* the newest block has the newest list *)
Definition ML (m : manager) (K : list block) : Prop :=
  forall b K', K = b :: K' -> exists l0 l, lists m = l0 ++ [l] /\ matches l b.

Lemma SS_app : forall A (R : A -> A -> Prop) l x, StronglySorted R l -> (forall y, In y l -> R y x) ->
  StronglySorted R (l ++ [x]).
Proof.
  intros A R. induction l as [|a l IH]; intros x H K; cbn [app].
  - constructor; constructor.
  - apply StronglySorted_inv in H. destruct H as (H1 & H2). constructor.
    + apply IH; [exact H1|]. intros y Hy. apply K. right. exact Hy.
    + apply Forall_app. split; [exact H2|]. constructor; [|constructor]. apply K. left. reflexivity.
Qed.

Lemma SS_split : forall A (R : A -> A -> Prop) l1 l2 x y, StronglySorted R (l1 ++ l2) -> In x l1 -> In y l2 -> R x y.
Proof.
  intros A R. induction l1 as [|a l1 IH]; intros l2 x y H Hx Hy; [destruct Hx|].
  cbn [app] in H. apply StronglySorted_inv in H. destruct H as (H1 & H2). destruct Hx as [->|Hx].
  - rewrite Forall_forall in H2. apply H2. apply in_or_app. right. exact Hy.
  - apply (IH l2 x y); auto.
Qed.

Lemma SS_drop : forall A (R : A -> A -> Prop) l1 l2, StronglySorted R (l1 ++ l2) -> StronglySorted R l2.
Proof.
  intros A R. induction l1 as [|a l1 IH]; intros l2 H; [exact H|]. apply IH.
  cbn [app] in H. apply StronglySorted_inv in H. apply H.
Qed.

(* a block is committed *)
Lemma commit_list_MI : forall m K b h ts th ids m', MI m K -> SortedP (b :: K) ->
  commit_list h ts th ids m = Some m' -> matches (mkList 0 h ts th ids) b -> MI m' (b :: K) /\ ML m' (b :: K).
Proof.
  intros m K b h ts th ids m' H (SP & PP) E Mt. unfold commit_list in E. rewrite (mi_alive _ _ H) in E.
  injection E as <-. destruct Mt as (M1 & M2 & M3 & M4). cbn [l_height l_ts l_th l_ids] in M1, M2, M3, M4. subst h ts th ids.
  set (j := mkList (m_next m) (b_height b) (b_ts b) (b_th b) (b_ids b)).
  set (m' := mkMgr true _ _ _ _ _ _ _).
  assert (L : lists m' = lists m ++ [j]) by (unfold lists, working, m'; cbn; rewrite !app_assoc; reflexivity).
  assert (Pb : 0 < b_ts b) by (inversion PP; assumption).
  apply StronglySorted_inv in SP. destruct SP as (SP & BK). rewrite Forall_forall in BK.
  assert (Jm : matches j b) by (repeat split).
  assert (Lo : forall id, In id (b_ids b) -> exists lo, find id (m_loc m') = Some lo /\ lo_tag lo = m_next m).
  { intros id Hi. destruct (proj1 (find_put (b_ids b) (m_next m) (b_height b) 0 (m_loc m) id) Hi) as (i & Ei).
    exists (mkLoc (m_next m) (b_height b) i). split; [exact Ei|reflexivity]. }
  assert (Bj : forall l, In l (lists m) -> before l j).
  { intros l Hl. split; [apply (mi_tag _ _ H l Hl)|]. split; [cbn; lia|]. intros Hn.
    destruct (mi_match _ _ H l Hl Hn) as (a & Ha & _ & A2 & A3 & _). unfold Ml. rewrite A2, A3. cbn.
    apply (BK a Ha). }
  split; [constructor|].
  - reflexivity.
  - rewrite L. apply SS_app; [apply (mi_sorted _ _ H)|exact Bj].
  - rewrite L. intros l Hl. apply in_app_or in Hl. cbn [m_next m']. destruct Hl as [Hl|[<-|[]]].
    + apply (mi_tag _ _ H) in Hl. lia.
    + cbn. lia.
  - rewrite L. intros l id Hl Hi. destruct (in_dec Z.eq_dec id (b_ids b)) as [Hb|Hb].
    + destruct (Lo id Hb) as (lo & El & Et). exists lo. split; [exact El|]. rewrite Et.
      apply in_app_or in Hl. destruct Hl as [Hl|[<-|[]]]; [apply (mi_tag _ _ H) in Hl; lia|cbn; lia].
    + apply in_app_or in Hl. destruct Hl as [Hl|[<-|[]]]; [|contradiction].
      destruct (mi_loc _ _ H l id Hl Hi) as (lo & El & Et). exists lo. split; [|exact Et].
      unfold m'. cbn [m_loc]. rewrite (proj2 (find_put _ _ _ _ _ _) Hb). exact El.
  - exact (mi_cache _ _ H).
  - exact (mi_work _ _ H).
  - rewrite L. intros l Hl Hz. apply in_app_or in Hl. destruct Hl as [Hl|[<-|[]]]; [apply (mi_root _ _ H); auto|].
    cbn in Hz. lia.
  - rewrite L. intros a [<-|Ha].
    + left. exists j. split; [apply in_or_app; right; left; reflexivity|exact Jm].
    + destruct (mi_known _ _ H a Ha) as [(l & Hl & Ml0)|(D & X & Y)].
      * left. exists l. split; [apply in_or_app; left; exact Hl|exact Ml0].
      * right. split; [exact D|]. split; [exact X|]. intros l Hl Hn. apply in_app_or in Hl.
        destruct Hl as [Hl|[<-|[]]]; [apply Y; auto|]. apply (BK a Ha).
  - rewrite L. intros l Hl Hn. apply in_app_or in Hl. destruct Hl as [Hl|[<-|[]]].
    + destruct (mi_match _ _ H l Hl Hn) as (a & Ha & Q). exists a. split; [right; exact Ha|exact Q].
    + exists b. split; [left; reflexivity|exact Jm].
  - destruct (mi_max _ _ H) as [Z0|(a & Ha & X)]; [left; exact Z0|]. right. exists a. split; [right; exact Ha|exact X].
  - intros b0 K' E. injection E as <- _. exists (lists m), j. split; [exact L|exact Jm].
Qed.

(* the root tracker is committed *)
Lemma commit_root_MI : forall m th m', MI m [] -> lists m = [] -> commit_list 0 0 th [] m = Some m' -> MI m' [].
Proof.
  intros m th m' H L0 E. unfold commit_list in E. rewrite (mi_alive _ _ H) in E. injection E as <-.
  cbn [put_all]. set (j := mkList (m_next m) 0 0 th []). set (m' := mkMgr true _ _ _ _ _ _ _).
  assert (L : lists m' = [j]).
  { unfold lists in L0. apply app_eq_nil in L0. destruct L0 as (A & B). apply app_eq_nil in B. destruct B as (B & D).
    unfold lists, working, m'. cbn. unfold working in B. destruct (m_work m) as [(x, k)|]; [discriminate|].
    rewrite A, D. reflexivity. }
  constructor.
  - reflexivity.
  - rewrite L. constructor; constructor.
  - rewrite L. intros l [<-|[]]. cbn. lia.
  - rewrite L. intros l id [<-|[]] [].
  - exact (mi_cache _ _ H).
  - exact (mi_work _ _ H).
  - rewrite L. intros l [<-|[]] _. reflexivity.
  - intros b [].
  - rewrite L. intros l [<-|[]] F. cbn in F. congruence.
  - left. cbn. destruct (mi_max _ _ H) as [X|(a & [] & _)]. exact X.
Qed.

(* ---- the worker ---- *)
Lemma evict_spec : forall min c l mx c' l' mx', evict min c l mx = (c', l', mx') ->
  exists gone, c = gone ++ c' /\ (forall p, In p gone -> Ml p <= min) /\
    (forall id lo, find id l = Some lo -> (forall p, In p gone -> lo_tag lo <> l_tag p) -> find id l' = Some lo) /\
    mx <= mx' /\ (forall p, In p gone -> l_ts p <> 0 -> Ml p <= mx') /\
    (mx' = mx \/ exists p, In p gone /\ l_ts p <> 0 /\ mx' = Ml p).
Proof.
  intros min. induction c as [|p c IH]; intros l mx c' l' mx' E; cbn [evict] in E.
  - injection E as <- <- <-. exists []. repeat split; auto; try lia; intros q [].
  - destruct (Z.ltb min (l_ts p + l_th p)) eqn:Em.
    + injection E as <- <- <-. exists []. repeat split; auto; try lia; intros q [].
    + apply Z.ltb_ge in Em. apply IH in E. destruct E as (gone & E1 & E2 & E3 & E4 & E5 & E6).
      exists (p :: gone). subst c. split; [reflexivity|]. split; [intros q [<-|Hq]; [exact Em|auto]|].
      split; [|split; [|split]].
      * intros id lo F N. apply E3; [|intros q Hq; apply N; right; exact Hq]. apply find_filter; [exact F|].
        cbn [snd]. rewrite negb_true_iff, Nat.eqb_neq. apply N. left. reflexivity.
      * destruct (negb (Z.eqb (l_ts p) 0) && Z.ltb mx (l_ts p + l_th p)) eqn:Eb; [|exact E4].
        apply andb_true_iff in Eb. destruct Eb as (_ & Eb). apply Z.ltb_lt in Eb. lia.
      * intros q [<-|Hq] Hn; [|auto]. unfold Ml.
        destruct (negb (Z.eqb (l_ts p) 0) && Z.ltb mx (l_ts p + l_th p)) eqn:Eb; [exact E4|].
        apply andb_false_iff in Eb. destruct Eb as [Eb|Eb].
        { rewrite negb_false_iff, Z.eqb_eq in Eb. contradiction. }
        apply Z.ltb_ge in Eb. lia.
      * destruct E6 as [E6|(q & Hq & Hn & E6)]; [|right; exists q; split; [right; exact Hq|auto]].
        destruct (negb (Z.eqb (l_ts p) 0) && Z.ltb mx (l_ts p + l_th p)) eqn:Eb; [|left; exact E6].
        right. exists p. split; [left; reflexivity|]. apply andb_true_iff in Eb. destruct Eb as (Eb & _).
        rewrite negb_true_iff, Z.eqb_neq in Eb. split; [exact Eb|exact E6].
Qed.

Lemma worker_MI : forall m K m', MI m K -> SortedP K -> worker m = Some m' -> MI m' K.
Proof.
  intros m K m' H SK E. unfold worker in E. destruct (m_work m) as [(j, k)|] eqn:Ew.
  - destruct (nth_error (l_ids j) k) as [id0|] eqn:En.
    + (* one entry is written *)
      injection E as <-. set (m' := mkMgr _ _ _ _ _ _ _ _).
      assert (L : lists m' = lists m) by (unfold lists, working, m'; cbn; rewrite Ew; reflexivity).
      assert (D : forall id, in_db m id -> in_db m' id).
      { intros id X. unfold in_db, m'. cbn [m_db]. rewrite find_set. destruct (Z.eqb id id0); [discriminate|exact X]. }
      constructor; try rewrite L; try apply H.
      * intros l id Hl Hi. apply D. exact (mi_cache _ _ H l id Hl Hi).
      * intros j' k' id E0 Hi. unfold m' in E0. cbn in E0. injection E0 as <- <-.
        assert (X : In id (firstn k (l_ids j)) \/ id = id0).
        { clear - Hi En. revert k Hi En. induction (l_ids j) as [|a l IH]; intros k Hi En; [destruct k; discriminate|].
          destruct k as [|k]; cbn in En.
          - injection En as ->. cbn in Hi. destruct Hi as [->|[]]. right. reflexivity.
          - cbn [firstn] in Hi. destruct Hi as [->|Hi]; [left; left; reflexivity|].
            destruct (IH k Hi En) as [X|X]; [left; right; exact X|right; exact X]. }
        destruct X as [X|X]; [apply D; exact (mi_work _ _ H j k id Ew X)|]. subst id.
        unfold in_db, m'. cbn [m_db]. rewrite find_set, Z.eqb_refl. discriminate.
      * intros b Hb. destruct (mi_known _ _ H b Hb) as [X|(X & Y)]; [left; exact X|right].
        split; [intros id Hi; apply D; auto|exact Y].
    + (* the list is done *)
      injection E as <-. unfold add_list. rewrite (mi_alive _ _ H).
      destruct (evict (l_ts j - l_th j) (m_cache m) (m_loc m) (m_max m)) as ((c', l'), mx') eqn:Ee.
      apply evict_spec in Ee. destruct Ee as (gone & E1 & E2 & E3 & E4 & E5 & E6).
      set (m' := mkMgr _ _ _ _ _ _ _ _).
      assert (L0 : lists m = gone ++ (c' ++ [j] ++ m_queue m)).
      { unfold lists, working. rewrite Ew, E1, <- !app_assoc. reflexivity. }
      assert (L : lists m' = c' ++ [j] ++ m_queue m) by (unfold lists, working, m'; cbn; rewrite <- app_assoc; reflexivity).
      pose proof (mi_sorted _ _ H) as SS. rewrite L0 in SS.
      assert (Sub : forall x, In x (lists m') -> In x (lists m)) by (intros x Hx; rewrite L0; apply in_or_app; right; rewrite <- L; exact Hx).
      assert (Gin : forall x, In x gone -> In x (lists m)) by (intros x Hx; rewrite L0; apply in_or_app; left; exact Hx).
      assert (Gcache : forall x, In x gone -> In x (m_cache m)) by (intros x Hx; rewrite E1; apply in_or_app; left; exact Hx).
      assert (Bef : forall x y, In x gone -> In y (lists m') -> before x y).
      { intros x y Hx Hy. rewrite L in Hy. exact (SS_split _ _ _ _ x y SS Hx Hy). }
      assert (Dj : forall id, In id (l_ids j) -> in_db m id).
      { intros id Hi. apply (mi_work _ _ H j k id Ew). rewrite firstn_all2; [exact Hi|]. apply nth_error_None. exact En. }
      constructor.
      * reflexivity.
      * rewrite L. exact (SS_drop _ _ _ _ SS).
      * intros l Hl. exact (mi_tag _ _ H l (Sub l Hl)).
      * intros l id Hl Hi. destruct (mi_loc _ _ H l id (Sub l Hl) Hi) as (lo & F & T). exists lo. split; [|exact T].
        apply E3; [exact F|]. intros p Hp F0. destruct (Bef p l Hp Hl) as (B & _). lia.
      * intros l id Hl Hi. unfold m' in Hl. cbn [m_cache] in Hl. apply in_app_or in Hl. destruct Hl as [Hl|[<-|[]]].
        { apply (mi_cache _ _ H l id); [rewrite E1; apply in_or_app; right; exact Hl|exact Hi]. }
        apply Dj. exact Hi.
      * intros j' k' id E0. discriminate.
      * intros l Hl. apply (mi_root _ _ H). apply Sub. exact Hl.
      * intros b Hb. assert (Pb : 0 < b_ts b) by (destruct SK as (_ & P); rewrite Forall_forall in P; auto).
        destruct (mi_known _ _ H b Hb) as [(l & Hl & Mt)|(D & X & Y)].
        { rewrite L0 in Hl. apply in_app_or in Hl. destruct Hl as [Hl|Hl].
          - right. destruct Mt as (_ & M2 & M3 & M4). assert (Nz : l_ts l <> 0) by lia.
            assert (Em : Mx b = Ml l) by (unfold Mx, Ml; rewrite M2, M3; reflexivity).
            split; [|split].
            + intros id Hi. rewrite <- M4 in Hi. exact (mi_cache _ _ H l id (Gcache l Hl) Hi).
            + right. rewrite Em. apply E5; auto.
            + intros l2 Hl2 Hn2. rewrite Em. destruct (Bef l l2 Hl Hl2) as (_ & _ & Z0). apply Z0. exact Nz.
          - left. exists l. split; [rewrite L; exact Hl|exact Mt]. }
        right. split; [exact D|]. split; [|intros l Hl; apply Y; apply Sub; exact Hl].
        destruct E6 as [E6|(p & Hp & Hn & E6)].
        { unfold m'. cbn [m_max]. destruct X as [X|X]; [left; congruence|right; lia]. }
        right. unfold m'. cbn [m_max]. rewrite E6. apply Y; auto.
      * intros l Hl. apply (mi_match _ _ H). apply Sub. exact Hl.
      * unfold m'. cbn [m_max]. destruct E6 as [E6|(p & Hp & Hn & E6)].
        { rewrite E6. exact (mi_max _ _ H). }
        right. assert (Hj : In j (lists m')) by (rewrite L; apply in_or_app; right; left; reflexivity).
        destruct (Bef p j Hp Hj) as (_ & Hz & _). destruct (mi_match _ _ H j (Sub j Hj) Hz) as (a & Ha & _ & A2 & A3 & _).
        exists a. split; [exact Ha|]. rewrite E6. specialize (E2 p Hp). lia.
  - destruct (m_queue m) as [|j q] eqn:Eq; [discriminate|]. injection E as <-.
    set (m' := mkMgr _ _ _ _ _ _ _ _).
    assert (L : lists m' = lists m) by (unfold lists, working, m'; cbn; rewrite Ew, Eq; reflexivity).
    constructor; try rewrite L; try apply H.
    intros j' k' id E0 Hi. unfold m' in E0. cbn in E0. injection E0 as <- <-. destruct Hi.
Qed.

Lemma worker_ML : forall m K m', m_alive m = true -> ML m K -> worker m = Some m' -> ML m' K.
Proof.
  intros m K m' Al H E b K' EK. destruct (H b K' EK) as (l0 & l & El & Mt). clear H.
  unfold worker in E. destruct (m_work m) as [(j, k)|] eqn:Ew.
  - destruct (nth_error (l_ids j) k) as [id0|] eqn:En.
    + injection E as <-. exists l0, l. split; [|exact Mt]. unfold lists, working in *. cbn. rewrite Ew in El. exact El.
    + injection E as <-. unfold add_list. rewrite Al.
      destruct (evict (l_ts j - l_th j) (m_cache m) (m_loc m) (m_max m)) as ((c', l'), mx') eqn:Ee.
      apply evict_spec in Ee. destruct Ee as (gone & E1 & _).
      unfold lists, working in *. cbn [m_cache m_work m_queue]. rewrite Ew, E1 in El.
      assert (NE : (c' ++ [j]) ++ [] ++ m_queue m <> []) by (destruct c'; discriminate).
      destruct (exists_last NE) as (r & x & Er). exists r, x. split; [exact Er|].
      rewrite <- app_assoc in Er. cbn [app] in Er. cbn [app] in El. rewrite <- app_assoc, Er, app_assoc in El.
      apply app_inj_tail in El. destruct El as (_ & ->). exact Mt.
  - destruct (m_queue m) as [|j q] eqn:Eq; [discriminate|]. injection E as <-.
    exists l0, l. split; [|exact Mt]. unfold lists, working in *. cbn. rewrite Ew, Eq in El. exact El.
Qed.
