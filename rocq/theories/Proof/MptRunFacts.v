(** Runs of the tries refine the store of versions. *)
From Verif Require Import Model.Bytes Model.DbKey Model.Mpt Model.MptRun Spec.TrieSpec
  Proof.BytesFacts Proof.MptRlpFacts Proof.MptTree Proof.MptStore Proof.MptOps.
Open Scope nat_scope.

Section Runs.
Context (H : bytes -> bytes) (HH : digest32 H).

(** *** The database *)
Definition knows (db : database) (log : list (bytes * bytes)) : Prop :=
  (forall h s, db h = Some s -> In (h, s) log) /\ (forall h s, In (h, s) log -> exists s', db h = Some s').

Lemma put_all_knows l : forall db log, knows db log -> knows (put_all db l) (log ++ l).
Proof.
  induction l as [|[h s] l IH]; intros db log K; cbn [put_all]; [now rewrite app_nil_r|].
  replace (log ++ (h, s) :: l) with ((log ++ [(h, s)]) ++ l) by (rewrite <- app_assoc; reflexivity). apply IH.
  destruct K as [K1 K2]. split; unfold put.
  - intros h' s' E. apply in_or_app. destruct (bytes_eqb h' h) eqn:B; [|left; auto]. apply bytes_eqb_eq in B. subst. right. left. congruence.
  - intros h' s' Hin. destruct (bytes_eqb h' h) eqn:B; [eauto|]. apply in_app_iff in Hin as [Hin|[E|[]]]; [eauto|].
    injection E as -> ->. rewrite bytes_eqb_refl in B. discriminate.
Qed.
Lemma knows_in db log h s : knows db log -> no_collision log -> In (h, s) log -> db h = Some s.
Proof. intros [K1 K2] N Hin. destruct (K2 _ _ Hin) as [s' E]. rewrite E. f_equal. eapply N; eauto. Qed.
Lemma no_collision_sub l l' : incl l l' -> no_collision l' -> no_collision l.
Proof. intros I N h s s' A B. eapply N; eauto. Qed.
Lemma put_all_extends db log l : knows db log -> no_collision (log ++ l) ->
  extends db (put_all db l) /\ forall h s, In (h, s) l -> put_all db l h = Some s.
Proof.
  intros K N. pose proof (put_all_knows l db log K) as K'. split.
  - intros h s E. eapply knows_in; eauto. apply in_or_app. left. now apply K.
  - intros h s Hin. eapply knows_in; eauto. apply in_or_app. now right.
Qed.

(** *** Tries against contents *)
Definition keyed (t : node) : Prop := forall k v, has t k v -> exists b, wf_bytes b /\ k = unpack b.
Definition shows (t : node) (c : contents) : Prop := forall b v, wf_bytes b -> (c b = Some v <-> has t (unpack b) v).
Definition tinv (db : database) (r : option node) (c : contents) : Prop :=
  match r with
  | None => forall b, wf_bytes b -> c b = None
  | Some n => exists t, fine t /\ keyed t /\ rrep H db n t /\ shows t c
  end.
Definition kinv (db : database) (h : bytes) (c : contents) : Prop :=
  (h = [] /\ forall b, wf_bytes b -> c b = None) \/ exists t, fine t /\ keyed t /\ h = H (serialize H t) /\ stored H db true t /\ shows t c.

Lemma tinv_mono db db' r c : extends db db' -> tinv db r c -> tinv db' r c.
Proof. intros E. destruct r as [n|]; cbn; auto. intros (t & F & K & R & S1). exists t. eauto using rrep_mono. Qed.
Lemma kinv_mono db db' h c : extends db db' -> kinv db h c -> kinv db' h c.
Proof. intros E [A|(t & F & K & R & S1 & S2)]; [now left|right]. exists t. eauto 8 using stored_mono. Qed.

Lemma fuel_ok k : length (bytesToNibs k) < depth_bound (bytesToNibs k).
Proof. unfold depth_bound. lia. Qed.

Lemma shows_opt t c (o : option bytes) b : shows t c -> wf_bytes b -> (forall v, o = Some v <-> has t (unpack b) v) -> o = c b.
Proof.
  intros S1 W V. destruct (c b) as [v|] eqn:E.
  - apply V, S1; auto.
  - destruct o as [v|]; auto. assert (X : c b = Some v) by (apply S1, V; auto). congruence.
Qed.

Lemma get_sim db r c k m' v e : wf_bytes k -> tinv db r c -> mpt_get (mk_mpt db r) k = (m', v, e) ->
  v = c k /\ e = None /\ tinv db (m_root m') c.
Proof.
  intros W T E. unfold mpt_get in E. cbn [m_root m_db] in E. destruct r as [n|].
  - destruct T as (t & F & K & R & S1).
    destruct (get_ok H HH db t n (bytesToNibs k) (depth_bound (bytesToNibs k)) F R (unpack_nibbles k W) (fuel_ok k)) as (n' & o & G & R' & V).
    rewrite G in E. injection E as <- <- <-. split; [eapply shows_opt; eauto|]. split; auto. cbn. exists t. split; auto. split; auto. split; auto. now left.
  - injection E as <- <- <-. cbn. split; [symmetry; auto|auto].
Qed.

Lemma wf_key_short k : (blen k < 2 ^ 32)%Z -> (blen (unpack k) < 2 ^ 33)%Z.
Proof. intro L. unfold blen in *. rewrite len_unpack. lia. Qed.

Lemma shows_upd t t' c k v : shows t c -> wf_bytes k -> upd t t' (unpack k) v -> shows t' (with_key c k v).
Proof.
  intros S1 W U b w Wb. rewrite (U (unpack b) w). unfold with_key. destruct (bytes_eqb b k) eqn:B.
  - apply bytes_eqb_eq in B. subst b. split; [intro E; injection E; auto|]. intros [[_ ->]|[X _]]; [auto|congruence].
  - assert (Ne : b <> k) by (intro X; subst; rewrite bytes_eqb_refl in B; discriminate). rewrite (S1 b w Wb). split.
    + intro A. right. split; auto. intro X. apply unpack_inj in X; auto.
    + intros [[X _]|[_ A]]; [apply unpack_inj in X; auto; contradiction|auto].
Qed.
Lemma shows_del t t' c k : shows t c -> wf_bytes k -> del t t' (unpack k) -> shows t' (without_key c k).
Proof.
  intros S1 W U b w Wb. rewrite (U (unpack b) w). unfold without_key. destruct (bytes_eqb b k) eqn:B.
  - apply bytes_eqb_eq in B. subst b. split; [discriminate|]. intros [X _]. congruence.
  - assert (Ne : b <> k) by (intro X; subst; rewrite bytes_eqb_refl in B; discriminate). rewrite (S1 b w Wb). split.
    + intro A. split; auto. intro X. apply unpack_inj in X; auto.
    + tauto.
Qed.

Lemma set_sim db r c k v m' old e : wf_bytes k -> (blen k < 2 ^ 32)%Z -> okv v -> tinv db r c -> mpt_set (mk_mpt db r) k v = (m', old, e) ->
  old = c k /\ e = None /\ tinv db (m_root m') (with_key c k v).
Proof.
  intros W L Ho T E. unfold mpt_set in E. cbn [m_root m_db] in E. destruct r as [n|]; cbn [opt_set] in E.
  - destruct T as (t & F & K & R & S1).
    destruct (set_ok H HH db t n (bytesToNibs k) v (depth_bound (bytesToNibs k)) F R (unpack_nibbles k W) Ho (fuel_ok k)) as (n' & d & o & t' & G & R' & C' & V & U & _).
    rewrite G in E. injection E as <- <- <-. split; [eapply shows_opt; eauto|]. split; auto. cbn. exists t'. split; [|split; [|split]].
    + split; auto. intros k' w A. apply U in A as [[-> _]|[_ A]]; [now apply wf_key_short|]. eapply (proj2 F); eauto.
    + intros k' w A. apply U in A as [[-> _]|[_ A]]; [exists k; auto|]. eapply K; eauto.
    + now left.
    + eapply shows_upd; eauto.
  - injection E as <- <- <-. split; [symmetry; auto|]. split; auto. cbn. exists (NLeaf (bytesToNibs k) v). split; [|split; [|split]].
    + split; [constructor; auto; now apply unpack_nibbles|]. intros k' w A. inversion A; subst. now apply wf_key_short.
    + intros k' w A. inversion A; subst. exists k. auto.
    + left. constructor.
    + intros b w Wb. unfold with_key. rewrite has_leaf_iff. destruct (bytes_eqb b k) eqn:B.
      * apply bytes_eqb_eq in B. subst b. split; [intro E; injection E; auto|intros [_ ->]; auto].
      * rewrite T by auto. split; [discriminate|]. intros [X _]. apply unpack_inj in X; auto. subst. rewrite bytes_eqb_refl in B. discriminate.
Qed.

Lemma del_sim db r c k m' old e : wf_bytes k -> tinv db r c -> mpt_delete (mk_mpt db r) k = (m', old, e) ->
  old = c k /\ e = None /\ tinv db (m_root m') (without_key c k).
Proof.
  intros W T E. unfold mpt_delete in E. cbn [m_root m_db] in E. destruct r as [n|].
  - destruct T as (t & F & K & R & S1).
    destruct (delete_ok H HH db t n (bytesToNibs k) (depth_bound (bytesToNibs k)) F R (unpack_nibbles k W) (fuel_ok k)) as (r & d & o & G & V & Q).
    rewrite G in E. injection E as <- <- <-. pose proof (shows_opt _ _ _ _ S1 W V) as Ov. split; auto. split; auto.
    destruct r as [n'|].
    + destruct d.
      * destruct Q as (t' & R' & C' & D & _). cbn. exists t'. split; [|split; [|split]].
        { split; auto. intros k' w A. apply D in A as [_ A]. eapply (proj2 F); eauto. }
        { intros k' w A. apply D in A as [_ A]. eapply K; eauto. }
        { now left. }
        { eapply shows_del; eauto. }
      * destruct Q as [_ ->]. cbn. exists t. split; auto. split; auto. split; auto. intros b w Wb. unfold without_key.
        destruct (bytes_eqb b k) eqn:B; [|now apply S1]. apply bytes_eqb_eq in B. subst b. rewrite <- (S1 k w W), <- Ov. tauto.
    + destruct Q as (-> & All & _). cbn. intros b Wb. unfold without_key. destruct (bytes_eqb b k) eqn:B; auto.
      destruct (c b) as [w|] eqn:Eb; auto. apply S1, All, unpack_inj in Eb; auto. subst. rewrite bytes_eqb_refl in B. discriminate.
  - injection E as <- <- <-. cbn in *. split; [symmetry; auto|]. split; auto. intros b Wb. unfold without_key. destruct (bytes_eqb b k); auto.
Qed.

Lemma flush_sim db log r c : knows db log -> tinv db r c ->
  no_collision (log ++ match r with Some n => flush_entries H true n | None => [] end) ->
  let m' := mpt_flush H (mk_mpt db r) in
  extends db (m_db m') /\ knows (m_db m') (log ++ match r with Some n => flush_entries H true n | None => [] end)
  /\ m_root m' = r /\ kinv (m_db m') (mpt_hash H (mk_mpt db r)) c.
Proof.
  intros K T N. unfold mpt_flush, mpt_hash. cbn [m_root m_db]. destruct r as [n|]; cbn [m_root m_db].
  - destruct (put_all_extends _ _ _ K N) as [E P]. split; auto. split; [now apply put_all_knows|]. split; auto.
    destruct T as (t & F & Ky & R & S1). right. exists t. split; auto. split; auto. split; [eapply rrep_hash; eauto|]. split; auto.
    intros h s Hin. destruct R as [R|[-> St]].
    + assert (Sh : (forall h, n <> NHash h) \/ exists h, n = NHash h) by (destruct n; try (left; discriminate); right; eauto).
      destruct Sh as [NH|[h0 ->]].
      * destruct (rep_entries H HH db true t n F R NH h s Hin) as [X|X]; [apply P; auto|apply E; auto].
      * inversion R; subst. apply E. eapply stored_big; eauto.
    + apply E. apply St. exact Hin.
  - split; [intros h s E; exact E|]. rewrite app_nil_r. split; auto. split; auto. left. auto.
Qed.

Lemma compact_stored db root n t : fine t -> rep H db n t -> (forall h, n <> NHash h) ->
  (forall h s, In (h, s) (flush_entries H root n) -> db h = Some s) -> stored H db root t /\ serialize H n = serialize H t.
Proof.
  intros F R NH St. split.
  - intros h s Hin. destruct (rep_entries H HH db root t n F R NH h s Hin); auto.
  - now apply (rep_ser H HH db t n F R).
Qed.
Lemma compact_rep db t : forall n n', fine t -> rep H db n t -> compacts H db false n n' -> rep H db n' t.
Proof.
  induction t as [k v|k t IH|h|ts bv IH] using node_ind'; intros n n' F R C; pose proof F as F0; fine_inv F;
    inversion C as [? ?|? ? NH St B|? k0 m m' Cm|? cs1 cs1' v0 Cc']; subst; auto;
    try (destruct (compact_stored db false n _ F0 R NH St) as [S1 E1]; rewrite E1; constructor; auto; destruct B as [B|B]; [discriminate|rewrite <- E1; exact B]).
  - inversion R.
  - inversion R.
  - apply rep_ext_inv in R as [(m1 & E & Rn)|(E & _)]; [|discriminate]. injection E as -> ->. constructor. eapply IH; eauto.
  - apply rep_ext_inv in R as [(m1 & E & Rn)|(E & _)]; discriminate.
  - apply rep_branch_inv in R as [(c1 & E & Rc)|(E & _)]; discriminate.
  - apply rep_branch_inv in R as [(c1 & E & Rc)|(E & _)]; [|discriminate]. injection E as -> ->. constructor. clear - IH Cc Cc' Rc.
    revert cs1' Cc'. induction Rc as [|x y l l' O F IHl]; intros cs1' Q; inversion Q; subst; constructor.
    + destruct O as [|n t Rt]; [match goal with X : ocompacts _ _ None _ |- _ => inversion X end; constructor|].
      match goal with X : ocompacts _ _ (Some _) _ |- _ => inversion X; subst end. constructor. eapply IH; eauto; [now left|apply Cc; now left].
    + apply IHl; auto; [intros; eapply IH; eauto; now right|intros; apply Cc; now right].
Qed.
Lemma compact_root db t n n' : fine t -> rrep H db n t -> compacts H db true n n' -> rrep H db n' t.
Proof.
  intros F [R|[-> St]] C.
  - inversion C as [? ?|? ? NH St B|? k0 m m' Cm|? cs cs' v0 Cc']; subst.
    + now left.
    + destruct (compact_stored db true n _ F R NH St) as [S1 E1]. right. rewrite E1. auto.
    + left. apply compact_rep with (n := NExt k0 m); auto. now constructor.
    + left. apply compact_rep with (n := NBranch cs v0); auto. now constructor.
  - inversion C; subst; [right; auto|]. exfalso. match goal with X : forall h, NHash _ <> NHash h |- _ => eapply X; reflexivity end.
Qed.

(** *** The simulation *)
Definition sim (s : st) (a : versions) : Prop :=
  knows (st_db s) (st_log s) /\ Forall2 (kinv (st_db s)) (st_roots s) (v_kept a) /\ Forall2 (tinv (st_db s)) (st_tries s) (v_live a).

Lemma log_grows s o x s' : step H s o x s' -> incl (st_log s) (st_log s').
Proof. intros Q y Hy. inversion Q; subst; cbn; auto. apply in_or_app. now left. Qed.

Lemma forall2_at {A B} (R : A -> B -> Prop) l l' i x : Forall2 R l l' -> nth_error l i = Some x -> exists y, nth_error l' i = Some y /\ R x y.
Proof. intros F E. pose proof (forall2_nth R l l' i F) as N. rewrite E in N. destruct (nth_error l' i); [eauto|contradiction]. Qed.
Lemma forall2_mono {A B} (R R' : A -> B -> Prop) l l' : (forall x y, R x y -> R' x y) -> Forall2 R l l' -> Forall2 R' l l'.
Proof. intros M F. induction F; constructor; auto. Qed.
Lemma forall2_set_right {A B} (R : A -> B -> Prop) l l' i x y : Forall2 R l l' -> nth_error l' i = Some y -> R x y -> Forall2 R (set_nth l i x) l'.
Proof. intros F E Q. rewrite <- (set_nth_id l' i y E). now apply forall2_set. Qed.

Lemma trie_at s a j m : sim s a -> trie_of s j = Some m ->
  exists r c, m = mk_mpt (st_db s) r /\ nth_error (st_tries s) j = Some r /\ nth_error (v_live a) j = Some c /\ tinv (st_db s) r c.
Proof.
  intros (_ & _ & F) E. unfold trie_of in E. destruct (nth_error (st_tries s) j) as [r|] eqn:E1; [|discriminate]. injection E as <-.
  destruct (forall2_at _ _ _ _ _ F E1) as (c & E2 & T). eauto 8.
Qed.

Lemma sim_step s a o x s' : sim s a -> sane_op o -> step H s o x s' -> no_collision (st_log s') -> exists a', vstep a o x a' /\ sim s' a'.
Proof.
  intros Si Sa Q N. inversion Q as [s0|s0 i h Eh|s0 j m Em|s0 j m k m' v e Em Eg|s0 j m k v m' old e Em Eg|s0 j m k m' old e Em Eg|s0 j m Em|s0 j n n' En Cn]; subst;
    cbn [st_log] in N.
  - eexists. split; [constructor|]. destruct Si as (K & F1 & F2). split; [exact K|]. split; [exact F1|]. cbn. apply Forall2_app; auto. repeat constructor.
  - destruct Si as (K & F1 & F2). destruct (forall2_at _ _ _ _ _ F1 Eh) as (c & Ec & Kc). eexists. split; [constructor; eauto|].
    split; [exact K|]. split; [exact F1|]. cbn. apply Forall2_app; auto. constructor; [|constructor].
    destruct Kc as [[-> Z0]|(t & F & Ky & -> & St & S1)]; [exact Z0|].
    pose proof (proj1 (HH (serialize H t))) as L. destruct (H (serialize H t)) as [|b r] eqn:Eb; [discriminate L|]. cbn.
    exists t. split; auto. split; auto. split; auto. right. rewrite Eb. auto.
  - destruct (trie_at _ _ _ _ Si Em) as (r & c & -> & E1 & E2 & T). eexists. split; [constructor; eauto|].
    destruct Si as (K & F1 & F2). split; [exact K|]. split; [exact F1|]. cbn. apply Forall2_app; auto.
  - destruct (trie_at _ _ _ _ Si Em) as (r & c & -> & E1 & E2 & T). destruct (get_sim _ _ _ _ _ _ _ Sa T Eg) as (-> & -> & T').
    eexists. split; [constructor; eauto|]. destruct Si as (K & F1 & F2). split; [exact K|]. split; [exact F1|]. cbn. eapply forall2_set_right; eauto.
  - destruct (trie_at _ _ _ _ Si Em) as (r & c & -> & E1 & E2 & T). destruct Sa as (W & Wv & Ne & L & Lv).
    destruct (set_sim _ _ _ _ _ _ _ _ W L (conj Wv (conj Ne Lv)) T Eg) as (-> & -> & T').
    eexists. split; [constructor; eauto|]. destruct Si as (K & F1 & F2). split; [exact K|]. split; [exact F1|]. cbn. apply forall2_set; auto.
  - destruct (trie_at _ _ _ _ Si Em) as (r & c & -> & E1 & E2 & T). destruct (del_sim _ _ _ _ _ _ _ Sa T Eg) as (-> & -> & T').
    eexists. split; [constructor; eauto|]. destruct Si as (K & F1 & F2). split; [exact K|]. split; [exact F1|]. cbn. apply forall2_set; auto.
  - destruct (trie_at _ _ _ _ Si Em) as (r & c & -> & E1 & E2 & T). cbn [m_root] in N. destruct Si as (K & F1 & F2).
    destruct (flush_sim _ _ _ _ K T N) as (Ex & K' & Er & Kv). eexists. split; [constructor; eauto|]. split; [exact K'|]. cbn [st_roots st_tries st_db v_kept v_live].
    split.
    + apply Forall2_app; [eapply forall2_mono; [|exact F1]; intros; eapply kinv_mono; eauto|constructor; auto].
    + rewrite Er. rewrite (set_nth_id _ _ _ E1). eapply forall2_mono; [|exact F2]. intros. eapply tinv_mono; eauto.
  - exists a. split; [constructor|]. destruct Si as (K & F1 & F2). split; [exact K|]. split; [exact F1|]. cbn.
    destruct (forall2_at _ _ _ _ _ F2 En) as (c & Ec & t & F & Ky & R & S1). eapply forall2_set_right; eauto.
    exists t. split; auto. split; auto. split; auto. eapply compact_root; eauto.
Qed.

Theorem runs_refine l s : steps H st_init l s -> Forall (fun ox => sane_op (fst ox)) l -> no_collision (st_log s) ->
  exists a, vsteps (mk_versions [] []) l a /\ sim s a.
Proof.
  intros Q. remember st_init as s0 eqn:E0. induction Q as [|s0 l s1 o x s2 Q IH St]; intros Sa N; subst.
  - exists (mk_versions [] []). split; [constructor|]. split; [|split; constructor]. split; [discriminate|intros h s []].
  - apply Forall_app in Sa as [Sa So]. inversion So as [|? ? So1 _]; subst. cbn [fst] in So1.
    destruct (IH eq_refl Sa) as (a & V & Si). { eapply no_collision_sub; [eapply log_grows; eauto|auto]. }
    destruct (sim_step _ _ _ _ _ Si So1 St N) as (a' & V' & Si'). exists a'. split; auto. econstructor; eauto.
Qed.

(** *** Hashes *)
Lemma shallow_not_hash t h : fine t -> shallow H t <> NHash h.
Proof. intros F E. destruct t; cbn in E; try discriminate. fine_inv F. Qed.
Lemma ser_shallow t1 t2 : fine t1 -> fine t2 -> serialize H t1 = serialize H t2 -> shallow H t1 = shallow H t2.
Proof.
  intros F1 F2 E. pose proof (deserialize_ok H HH t1 F1 _ (Nat.lt_succ_diag_r _)) as D1.
  rewrite E in D1. rewrite (deserialize_ok H HH t2 F2 _ (Nat.lt_succ_diag_r _)) in D1. congruence.
Qed.
Definition agree (t1 t2 : node) : Prop := forall h s s', In (h, s) (flush_entries H false t1) -> In (h, s') (flush_entries H false t2) -> s = s'.

Lemma big_own t : fine t -> (32 < blen (serialize H t))%Z -> In (H (serialize H t), serialize H t) (flush_entries H false t).
Proof.
  intros F B. apply Z.ltb_lt in B. destruct t; fine_inv F; cbn [flush_entries]; try (apply in_or_app; right); unfold own_entry; rewrite B; left; reflexivity.
Qed.

Lemma hide_eq t1 t2 : fine t1 -> fine t2 -> agree t1 t2 -> hide H t1 = hide H t2 -> shallow H t1 = shallow H t2.
Proof.
  intros F1 F2 A E. unfold hide in E.
  destruct (Z.ltb_spec 32 (blen (serialize H t1))) as [B1|B1], (Z.ltb_spec 32 (blen (serialize H t2))) as [B2|B2].
  - injection E as E. apply ser_shallow; auto. eapply A; [now apply big_own|]. rewrite E. now apply big_own.
  - exfalso. symmetry in E. exact (shallow_not_hash _ _ F2 E).
  - exfalso. exact (shallow_not_hash _ _ F1 E).
  - exact E.
Qed.

Lemma shallow_inj t1 : forall t2, fine t1 -> fine t2 -> agree t1 t2 -> shallow H t1 = shallow H t2 -> t1 = t2.
Proof.
  induction t1 as [k v|k t IH|h|ts bv IH] using node_ind'; intros t2 F1 F2 A E; destruct t2 as [k2 v2|k2 n2|ts2 v2|h2]; try (exfalso; exact (fine_hash_inv _ F1)); try (exfalso; exact (fine_hash_inv _ F2)); cbn [shallow] in E; try discriminate E.
  - congruence.
  - injection E as -> E. f_equal. destruct (fine_ext_inv _ _ F1) as (_ & _ & G1 & _). destruct (fine_ext_inv _ _ F2) as (_ & _ & G2 & _).
    assert (A' : agree t n2). { intros h s s' I1 I2. eapply A; cbn [flush_entries]; apply in_or_app; left; eauto. }
    apply IH; auto. apply hide_eq; auto.
  - injection E as E ->. f_equal. destruct (fine_branch_inv _ _ F1) as (_ & G1 & _). destruct (fine_branch_inv _ _ F2) as (_ & G2 & _).
    assert (A' : forall c c2, In (Some c) ts -> In (Some c2) ts2 -> agree c c2).
    { intros c c2 I1 I2 h s s' J1 J2. eapply A; rewrite entries_branch; apply in_or_app; left; apply in_flat_map; [exists (Some c)|exists (Some c2)]; eauto. }
    clear F1 F2 A. revert ts2 E G2 A'. induction ts as [|o ts IHl]; intros [|o2 ts2] E G2 A'; try discriminate E; auto.
    cbn [map] in E. injection E as E0 E. f_equal.
    + destruct o as [c|], o2 as [c2|]; try discriminate E0; auto. injection E0 as E0. f_equal.
      apply IH; [now left|apply G1; now left|apply G2; now left|apply A'; now left|].
      apply hide_eq; [apply G1; now left|apply G2; now left|apply A'; now left|exact E0].
    + apply IHl; auto; [intros; apply IH; auto; now right|intros; apply G1; now right|intros; apply G2; now right|intros; apply A'; now right].
Qed.

Lemma entries_root t x : In x (flush_entries H false t) -> In x (flush_entries H true t).
Proof.
  destruct x as [h s]. intro Hin.
  destruct t; cbn [flush_entries] in *; auto; unfold own_entry in *; cbn [orb].
  - destruct (32 <? _)%Z; [exact Hin|destruct Hin].
  - apply in_app_iff in Hin as [Hin|Hin]; apply in_or_app; [now left|right]. destruct (32 <? _)%Z; [exact Hin|destruct Hin].
  - apply in_app_iff in Hin as [Hin|Hin]; apply in_or_app; [now left|right]. destruct (32 <? _)%Z; [exact Hin|destruct Hin].
Qed.
Theorem hash_binds t1 t2 : fine t1 -> fine t2 ->
  (forall h s s', In (h, s) (flush_entries H true t1) -> In (h, s') (flush_entries H true t2) -> s = s') ->
  H (serialize H t1) = H (serialize H t2) -> t1 = t2.
Proof.
  intros F1 F2 A E. apply shallow_inj; auto.
  - intros h s s' I1 I2. eapply A; apply entries_root; eauto.
  - apply ser_shallow; auto. eapply A; [apply own_in; auto|]. rewrite E. apply own_in. auto.
Qed.


Lemma entries_known db log n t : fine t -> rrep H db n t -> knows db log -> incl (flush_entries H true t) (log ++ flush_entries H true n).
Proof.
  intros F R K [h s] Hin. apply in_or_app. destruct R as [R|[-> St]]; [|left; apply K, St; exact Hin].
  assert (Sh : (forall h, n <> NHash h) \/ exists h, n = NHash h) by (destruct n; try (left; discriminate); right; eauto).
  destruct Sh as [NH|[h0 ->]].
  - destruct (rep_entries H HH db true t n F R NH h s Hin) as [X|X]; [now right|left; now apply K].
  - inversion R; subst. left. apply K. eapply stored_big; eauto.
Qed.

Lemma get_value db r c k : wf_bytes k -> tinv db r c -> snd (fst (mpt_get (mk_mpt db r) k)) = c k /\ snd (mpt_get (mk_mpt db r) k) = None.
Proof.
  intros W T. destruct (mpt_get (mk_mpt db r) k) as [[m' v] e] eqn:E. destruct (get_sim _ _ _ _ _ _ _ W T E) as (-> & -> & _). auto.
Qed.

Theorem same_contents_same_hash db1 r1 c1 db2 r2 c2 : tinv db1 r1 c1 -> tinv db2 r2 c2 -> (forall k, wf_bytes k -> c1 k = c2 k) ->
  mpt_hash H (mk_mpt db1 r1) = mpt_hash H (mk_mpt db2 r2).
Proof.
  intros T1 T2 E. unfold mpt_hash. cbn [m_root].
  assert (Emp : forall t c, fine t -> keyed t -> shows t c -> (forall b, wf_bytes b -> c b = None) -> False).
  { intros t c F K S1 Z0. destruct (canon_inhabited t (proj1 F)) as (k & v & A). destruct (K _ _ A) as (b & W & ->). apply S1 in A; auto. rewrite Z0 in A; auto. discriminate. }
  destruct r1 as [n1|], r2 as [n2|]; cbn [tinv] in T1, T2.
  - destruct T1 as (t1 & F1 & K1 & R1 & S1), T2 as (t2 & F2 & K2 & R2 & S2). rewrite (rrep_hash H HH db1 n1 t1), (rrep_hash H HH db2 n2 t2) by auto.
    do 2 f_equal. apply canon_unique; [apply F1|apply F2|]. intros k v. split; intro A.
    + destruct (K1 _ _ A) as (b & W & ->). apply S1 in A; auto. apply S2; auto. rewrite <- E; auto.
    + destruct (K2 _ _ A) as (b & W & ->). apply S2 in A; auto. apply S1; auto. rewrite E; auto.
  - exfalso. destruct T1 as (t1 & F1 & K1 & R1 & S1). eapply Emp; eauto. intros b W. rewrite E; auto.
  - exfalso. destruct T2 as (t2 & F2 & K2 & R2 & S2). eapply Emp; eauto. intros b W. rewrite <- E; auto.
  - reflexivity.
Qed.

Theorem same_hash_same_contents db1 log1 r1 c1 db2 log2 r2 c2 : knows db1 log1 -> knows db2 log2 -> tinv db1 r1 c1 -> tinv db2 r2 c2 ->
  no_collision (log1 ++ loaded H (mk_mpt db1 r1) ++ log2 ++ loaded H (mk_mpt db2 r2)) ->
  mpt_hash H (mk_mpt db1 r1) = mpt_hash H (mk_mpt db2 r2) -> forall k, wf_bytes k -> c1 k = c2 k.
Proof.
  intros Kn1 Kn2 T1 T2 N E k W. unfold mpt_hash in E. cbn [m_root] in E.
  assert (Ne : forall db n t, fine t -> rrep H db n t -> getHash H n <> []).
  { intros db n t F R X. rewrite (rrep_hash H HH db n t F R) in X. pose proof (proj1 (HH (serialize H t))) as L. rewrite X in L. discriminate L. }
  destruct r1 as [n1|], r2 as [n2|]; cbn [tinv] in T1, T2.
  - destruct T1 as (t1 & F1 & K1 & R1 & S1), T2 as (t2 & F2 & K2 & R2 & S2). rewrite (rrep_hash H HH db1 n1 t1), (rrep_hash H HH db2 n2 t2) in E by auto.
    assert (t1 = t2).
    { apply hash_binds; auto. intros h s s' I1 I2. eapply N; rewrite app_assoc.
      - apply in_or_app. left. exact (entries_known db1 log1 n1 t1 F1 R1 Kn1 _ I1).
      - apply in_or_app. right. exact (entries_known db2 log2 n2 t2 F2 R2 Kn2 _ I2). }
    subst t2. destruct (c1 k) as [v|] eqn:E1.
    + symmetry. apply S2; auto. apply S1; auto.
    + destruct (c2 k) as [v|] eqn:E2; auto. apply S2, S1 in E2; auto. congruence.
  - exfalso. destruct T1 as (t1 & F1 & K1 & R1 & S1). eapply Ne; eauto.
  - exfalso. destruct T2 as (t2 & F2 & K2 & R2 & S2). eapply Ne; eauto.
  - rewrite T1, T2; auto.
Qed.
End Runs.
