(* Known transactions are refused (for C56). *)
From Coq Require Import ZArith List Bool Arith Lia Sorted.
From Verif Require Import Model.TxLocator Spec.TxOnceSpec Proof.TxOnceFacts Proof.TxOnceWorld.
Import ListNotations.
Open Scope Z_scope.

Lemma m_has_list : forall tsof m K l id, MI m K -> In l (lists m) -> In id (l_ids l) -> m_has tsof id m = true.
Proof.
  intros tsof m K l id H Hl Hi. unfold m_has. rewrite (mi_alive _ _ H). cbn [negb].
  destruct (mi_loc _ _ H l id Hl Hi) as (lo & -> & _). reflexivity.
Qed.

Lemma m_has_ok : forall tsof m K b id, MI m K -> In b K -> In id (b_ids b) -> tsof id < Mx b -> m_has tsof id m = true.
Proof.
  intros tsof m K b id H Hb Hi Ht. destruct (mi_known _ _ H b Hb) as [(l & Hl & Mt)|(D & X & _)].
  - apply (m_has_list tsof m K l id H Hl). destruct Mt as (_ & _ & _ & M4). rewrite M4. exact Hi.
  - unfold m_has. rewrite (mi_alive _ _ H). cbn [negb]. destruct (find id (m_loc m)); [reflexivity|].
    assert (E : negb (m_max m =? 0) && (m_max m <=? tsof id) = false).
    { apply andb_false_iff. destruct X as [X|X]; [left; rewrite X; reflexivity|right; apply Z.leb_gt; lia]. }
    rewrite E. specialize (D id Hi). unfold in_db in D. destruct (find id (m_db m)); [reflexivity|congruence].
Qed.

(* what a false answer means *)
Lemma m_has_missed : forall tsof m K b id, MI m K -> In b K -> In id (b_ids b) -> m_has tsof id m = false ->
  Mx b <= m_max m /\ m_max m <= tsof id /\ exists a, In a K /\ m_max m <= b_ts a - b_th a.
Proof.
  intros tsof m K b id H Hb Hi E. destruct (mi_known _ _ H b Hb) as [(l & Hl & Mt)|(D & X & _)].
  - exfalso. destruct Mt as (_ & _ & _ & M4). rewrite <- M4 in Hi. rewrite (m_has_list tsof m K l id H Hl Hi) in E. discriminate.
  - unfold m_has in E. rewrite (mi_alive _ _ H) in E. cbn [negb] in E. destruct (find id (m_loc m)); [discriminate|].
    specialize (D id Hi). unfold in_db in D. destruct (find id (m_db m)); [|congruence].
    destruct (negb (m_max m =? 0) && (m_max m <=? tsof id)) eqn:E0; [|discriminate].
    apply andb_true_iff in E0. destruct E0 as (E1 & E2). apply negb_true_iff, Z.eqb_neq in E1. apply Z.leb_le in E2.
    destruct X as [X|X]; [contradiction|]. destruct (mi_max _ _ H) as [F|F]; [contradiction|]. auto.
Qed.

Lemma add_ids_known : forall known ids acc id, In id ids -> known id = true -> fst (add_ids known false acc ids) = false.
Proof.
  intros known. induction ids as [|a ids IH]; intros acc id Hi Hk; [destruct Hi|]. cbn [add_ids].
  destruct (mem a acc); [reflexivity|]. cbn [negb andb]. destruct (known a) eqn:Ea; [reflexivity|].
  destruct Hi as [->|Hi]; [congruence|]. apply (IH _ id Hi Hk).
Qed.

Lemma record_known : forall tsof m ts i b id, In id (b_ids b) -> parent_has tsof m ts (new_parent ts i) id = true ->
  fst (record tsof m ts i b false) = false.
Proof.
  intros tsof m ts i b id Hi Hk. unfold record.
  pose proof (add_ids_known (parent_has tsof m ts (new_parent ts i)) (b_ids b) [] id Hi Hk) as E.
  destruct (add_ids _ false [] (b_ids b)) as (ok, ids). cbn in *. exact E.
Qed.

Section Main.
Variable tsof : Z -> Z.
Variable th0 : Z.

Lemma trk_has_ok : forall w, WI w -> forall fuel i p b id, (i < fuel)%nat -> nth_error (w_path w) i = Some p ->
  In b p -> In id (b_ids b) -> tsof id < Mx b -> trk_has tsof fuel (w_m w) (w_t w) i id = true.
Proof.
  intros w H. induction fuel as [|f IH]; intros i p b id Lf Hp Hb Hi Ht; [lia|]. cbn [trk_has].
  destruct (nth_error (w_t w) i) as [t|] eqn:Et.
  2:{ apply nth_error_None in Et. rewrite (wi_len w H) in Et. apply nth_error_None in Et. congruence. }
  pose proof (wi_trk w H i t p Et Hp) as T. unfold TI in T. destruct p as [|a p]; [destruct Hb|].
  assert (Ma : Mx b <= Mx a).
  { destruct Hb as [->|Hb]; [lia|]. destruct (wi_paths w H i _ Hp) as (SS & _). apply StronglySorted_inv in SS.
    destruct SS as (_ & F). rewrite Forall_forall in F. apply F. exact Hb. }
  assert (El : Z.leb (t_ts t + t_th t) (tsof id) = false).
  { apply Z.leb_gt. assert (D : hdr t a) by (destruct (t_ids t); tauto). destruct D as (_ & -> & ->). unfold Mx in *. lia. }
  rewrite El. destruct (t_ids t) as [ids|].
  - destruct T as (-> & _ & T). destruct (mem id (b_ids a)) eqn:Em; [reflexivity|].
    assert (Hb' : In b p).
    { destruct Hb as [->|Hb]; [|exact Hb]. exfalso. apply mem_In in Hi. congruence. }
    destruct (t_parent t) as [j|].
    + destruct T as (Lj & Pj). apply (IH j p b id); auto. lia.
    + destruct T as (T & _). apply (m_has_ok tsof _ _ b id (wi_m w H)); auto.
  - destruct T as (-> & T & _). apply (m_has_ok tsof _ _ b id (wi_m w H)); auto.
Qed.

Lemma parent_has_ok : forall w i p b id, WI w -> nth_error (w_path w) i = Some p ->
  In b p -> In id (b_ids b) -> tsof id < Mx b -> parent_has tsof (w_m w) (w_t w) (new_parent (w_t w) i) id = true.
Proof.
  intros w i p b id H Hp Hb Hi Ht. unfold new_parent.
  destruct (nth_error (w_t w) i) as [t|] eqn:Et.
  2:{ apply nth_error_None in Et. rewrite (wi_len w H) in Et. apply nth_error_None in Et. congruence. }
  pose proof (wi_trk w H i t p Et Hp) as T. unfold TI in T.
  assert (K : trk_has tsof (S i) (w_m w) (w_t w) i id = true) by (apply (trk_has_ok w H (S i) i p b id); auto).
  destruct (t_ids t) as [ids|]; [exact K|]. destruct T as (-> & T & _).
  cbn [parent_has]. apply (m_has_ok tsof _ _ b id (wi_m w H)); auto.
Qed.

(* every block of the node satisfies what the rule says about a single block *)
Section Blocks.
Variable rule : list block -> block -> Prop.
Variables ahead df : bool.
Variable P : block -> Prop.
Hypothesis rule_P : forall p b, rule p b -> forallb (in_range tsof b) (b_ids b) = true -> P b.

Lemma reach_blocks : forall w, reach tsof th0 rule ahead df w ->
  (forall i p b, nth_error (w_path w) i = Some p -> In b p -> P b) /\ (forall b, In b (committed w) -> P b).
Proof.
  intros w R. induction R as [|w i p b force ts R (IH1 & IH2) Hp Hr Hs Er Ef Rg|w i t b m ts R (IH1 & IH2) Ep Eq Hp|w b R (IH1 & IH2) Ep|w m R IH|w R IH|w R (IH1 & IH2) Ec|w b c m ts R (IH1 & IH2) Ec].
  - split; [|intros b []]. intros [|[|i]] p b H Hb; cbn in H; try discriminate. injection H as <-. destruct Hb.
  - split; [|exact IH2]. cbn [w_path]. intros k q a Hq Ha. destruct (Nat.lt_ge_cases k (length (w_path w))) as [L|L].
    + rewrite nth_error_app1 in Hq by exact L. exact (IH1 k q a Hq Ha).
    + rewrite nth_error_app2 in Hq by exact L. destruct (k - length (w_path w))%nat as [|n]; cbn in Hq; [|destruct n; discriminate].
      injection Hq as <-. destruct Ha as [<-|Ha]; [exact (rule_P p b Hr Rg)|exact (IH1 i p a Hp Ha)].
  - split; [exact IH1|]. unfold committed. cbn. intros a Ha. exact (IH1 i _ a Hp Ha).
  - split; [exact IH1|]. unfold committed in *. cbn. rewrite Ep in IH2. exact IH2.
  - exact IH.
  - exact IH.
  - split; [|intros b []]. intros [|[|i]] p b H Hb; cbn in H; try discriminate. injection H as <-. destruct Hb.
  - assert (Q : forall a, In a (b :: c) -> P a).
    { intros a Ha. apply IH2. unfold committed. destruct (w_pend w); [right|]; rewrite Ec; exact Ha. }
    split; [|exact Q]. cbn [w_path]. intros [|[|[|i]]] p a Hp Ha; cbn in Hp; try discriminate; injection Hp as <-; [destruct Ha|exact (Q a Ha)].
Qed.
End Blocks.

(* ---- first rule ---- *)
Lemma rule_A : forall p b, window_advances tsof p b -> later p b /\ match p with [] => True | a :: _ => Mx a <= Mx b end.
Proof. intros p b (H1 & H2 & _). split; [exact H1|exact H2]. Qed.

Lemma refused_A : forall ahead w i p b id, reach tsof th0 (window_advances tsof) ahead false w ->
  nth_error (w_path w) i = Some p -> on_chain id p -> In id (b_ids b) ->
  fst (record tsof (w_m w) (w_t w) i b false) = false.
Proof.
  intros ahead w i p b id R Hp (a & Ha & Hi) Hb. apply (record_known tsof _ _ i b id Hb).
  apply (parent_has_ok w i p a id); auto.
  - exact (reach_WI tsof th0 _ ahead rule_A w R).
  - destruct (reach_blocks (window_advances tsof) ahead false (fun b => forall id, In id (b_ids b) -> tsof id < Mx b)) with (w := w) as (Q & _); auto.
    + intros q c (_ & _ & X) _. exact X.
    + exact (Q i p a Hp Ha id Hi).
Qed.

Definition once (p : list block) : Prop := NoDup (flat_map b_ids p).

Lemma NoDup_app_both : forall (a b : list Z), NoDup a -> NoDup b -> (forall x, In x a -> ~ In x b) -> NoDup (a ++ b).
Proof.
  induction a as [|x a IH]; intros b Ha Hb D; [exact Hb|]. cbn. inversion Ha. constructor.
  - intros F. apply in_app_or in F. destruct F as [F|F]; [contradiction|]. apply (D x); [left; reflexivity|exact F].
  - apply IH; auto. intros y Hy. apply D. right. exact Hy.
Qed.

Lemma once_cons : forall b p, once p -> fresh b p -> once (b :: p).
Proof.
  intros b p H (F1 & F2). unfold once. cbn [flat_map]. apply NoDup_app_both; auto.
  intros x Hx F. apply in_flat_map in F. destruct F as (a & Ha & Fa). apply (F2 x Hx). exists a. auto.
Qed.

Lemma once_tl : forall b p, once (b :: p) -> once p.
Proof. intros b p H. unfold once in *. cbn [flat_map] in H. induction (b_ids b) as [|x l IH]; [exact H|]. inversion H. auto. Qed.

Lemma once_A : forall ahead w, reach tsof th0 (window_advances tsof) ahead false w ->
  (forall i p, nth_error (w_path w) i = Some p -> once p) /\ once (committed w).
Proof.
  intros ahead w R.
  induction R as [|w i p b force ts R (IH1 & IH2) Hp Hr Hs Er Ef|w i t b m ts R (IH1 & IH2) Ep Eq Hp|w b R (IH1 & IH2) Ep|w m R IH|w R IH|w R (IH1 & IH2) Ec|w b c m ts R (IH1 & IH2) Ec].
  - split; [|constructor]. intros [|[|i]] p H; cbn in H; try discriminate. injection H as <-. constructor.
  - split; [|exact IH2]. cbn [w_path]. intros k q Hq. destruct (Nat.lt_ge_cases k (length (w_path w))) as [L|L].
    + rewrite nth_error_app1 in Hq by exact L. exact (IH1 k q Hq).
    + rewrite nth_error_app2 in Hq by exact L. destruct (k - length (w_path w))%nat as [|n]; cbn in Hq; [|destruct n; discriminate].
      injection Hq as <-. apply once_cons; [exact (IH1 i p Hp)|]. destruct force; [auto|].
      split; [apply record_inv in Er; tauto|]. intros id Hi Hc.
      pose proof (refused_A ahead w i p b id R Hp Hc Hi) as X. rewrite Er in X. discriminate.
  - split; [exact IH1|]. unfold committed. cbn. exact (IH1 i _ Hp).
  - split; [exact IH1|]. unfold committed in *. cbn. rewrite Ep in IH2. exact IH2.
  - exact IH.
  - exact IH.
  - split; [|constructor]. intros [|[|i]] p H; cbn in H; try discriminate. injection H as <-. constructor.
  - assert (Q : once (b :: c)).
    { unfold committed in IH2. rewrite Ec in IH2. destruct (w_pend w); [exact (once_tl _ _ IH2)|exact IH2]. }
    split; [|exact Q]. cbn [w_path]. intros [|[|[|i]]] p Hp; cbn in Hp; try discriminate; injection Hp as <-; [constructor|exact Q].
Qed.

(* ---- second rule ---- *)
Variable th : Z.
Lemma rule_B : forall p b, constant_threshold th p b ->
  later p b /\ match p with [] => True | a :: _ => Mx a <= Mx b end.
Proof.
  intros p b (H1 & F). split; [exact H1|]. destruct p as [|a p]; [auto|]. inversion F as [|x y Fb F' E]. inversion F'. unfold Mx.
  destruct H1 as (_ & H1). lia.
Qed.

Lemma settled_incl : forall w i p t, WI w -> nth_error (w_path w) i = Some p -> settled w i ->
  nth_error (w_t w) i = Some t -> p <> [] -> new_parent (w_t w) i = None /\ incl p (committed w).
Proof.
  intros w i p t H Hp Hs Ht Hn. pose proof (wi_trk w H i t p Ht Hp) as T. unfold TI in T. unfold new_parent. rewrite Ht.
  destruct Hs as [(t' & Ht' & Hz)|Hs]; [|congruence]. rewrite Ht in Ht'. injection Ht' as <-. rewrite Hz in *.
  destruct T as (-> & T & _). auto.
Qed.

Lemma later_all : forall a b p, SortedP p -> later p b -> In a p -> b_ts a < b_ts b.
Proof.
  intros a b p (SS & _) (_ & L) Ha. destruct p as [|x p]; [destruct Ha|]. apply StronglySorted_inv in SS. destruct SS as (_ & F).
  rewrite Forall_forall in F. destruct Ha as [->|Ha]; [exact L|]. destruct (F a Ha) as (X & _). lia.
Qed.

(* nothing is missed by a block built on all finalized blocks *)
Lemma fresh_B : forall w i p b ts, WI w -> (forall a, In a (committed w) -> b_th a = th) ->
  (forall a id, In a (committed w) -> In id (b_ids a) -> tsof id <= Mx a) ->
  nth_error (w_path w) i = Some p -> settled w i -> incl (committed w) p -> later p b -> b_th b = th ->
  record tsof (w_m w) (w_t w) i b false = (true, ts) -> forallb (in_range tsof b) (b_ids b) = true -> fresh b p.
Proof.
  intros w i p b ts H Kth Krange Hp Hs Inc La Tb Er Rg. apply record_inv in Er. destruct Er as (_ & ND & Kn).
  split; [exact ND|]. intros id Hi (a & Ha & Hia). specialize (Kn eq_refl id Hi).
  destruct (nth_error (w_t w) i) as [t|] eqn:Et.
  2:{ apply nth_error_None in Et. rewrite (wi_len w H) in Et. apply nth_error_None in Et. congruence. }
  assert (Np : p <> []) by (intros ->; destruct Ha).
  destruct (settled_incl w i p t H Hp Hs Et Np) as (Ep & Inc'). rewrite Ep in Kn. cbn [parent_has] in Kn.
  destruct (m_has_missed tsof _ _ a id (wi_m w H) (Inc' a Ha) Hia Kn) as (M1 & M2 & c & Hc & M3).
  rewrite forallb_forall in Rg. specialize (Rg id Hi). unfold in_range in Rg. apply andb_true_iff in Rg. destruct Rg as (R1 & _).
  apply Z.ltb_lt in R1. pose proof (Krange a id (Inc' a Ha) Hia) as M4.
  pose proof (later_all c b p (wi_paths w H i p Hp) La (Inc c Hc)) as M5. rewrite (Kth c Hc) in M3. lia.
Qed.

Lemma in_range_Mx : forall b id, forallb (in_range tsof b) (b_ids b) = true -> In id (b_ids b) -> tsof id <= Mx b.
Proof.
  intros b id H Hi. rewrite forallb_forall in H. specialize (H id Hi). unfold in_range in H. apply andb_true_iff in H.
  destruct H as (_ & H). apply Z.leb_le in H. exact H.
Qed.

Lemma facts_B : forall w, reach tsof th0 (constant_threshold th) false false w ->
  (forall a, In a (committed w) -> b_th a = th) /\
  (forall a id, In a (committed w) -> In id (b_ids a) -> tsof id <= Mx a).
Proof.
  intros w R.
  destruct (reach_blocks (constant_threshold th) false false
              (fun a => b_th a = th /\ forall id, In id (b_ids a) -> tsof id <= Mx a)) with (w := w) as (_ & Q); auto.
  - intros p b (_ & F) Rg. split; [inversion F; assumption|]. intros id Hi. exact (in_range_Mx b id Rg Hi).
  - split; [intros a Ha; apply (Q a Ha)|intros a id Ha; apply (Q a Ha)].
Qed.

Lemma refused_B : forall w i b id, reach tsof th0 (constant_threshold th) false false w ->
  nth_error (w_path w) i = Some (committed w) -> settled w i -> later (committed w) b -> b_th b = th ->
  on_chain id (committed w) -> In id (b_ids b) -> validate tsof (w_m w) (w_t w) i b = false.
Proof.
  intros w i b id R Hp Hs La Tb Hc Hi. pose proof (reach_WI tsof th0 _ false rule_B w R) as H.
  destruct (facts_B w R) as (F1 & F2). unfold validate.
  destruct (record tsof (w_m w) (w_t w) i b false) as (ok, ts) eqn:Er. cbn [fst]. destruct ok; [|reflexivity].
  destruct (forallb (in_range tsof b) (b_ids b)) eqn:Rg; [|reflexivity]. exfalso.
  destruct (fresh_B w i (committed w) b ts H F1 F2 Hp Hs (incl_refl _) La Tb Er Rg) as (_ & X).
  exact (X id Hi Hc).
Qed.

Definition freshB (w : world) : Prop := forall k t b p, nth_error (w_t w) k = Some t -> t_ids t <> None ->
  nth_error (w_path w) k = Some (b :: p) -> incl (committed w) p -> fresh b p.

Lemma once_B : forall w, reach tsof th0 (constant_threshold th) false false w -> freshB w /\ once (committed w).
Proof.
  intros w R.
  induction R as [|w i p b force ts R (IH1 & IH2) Hp Hr Hs Er Ef Rg|w i t b m ts R (IH1 & IH2) Ep Eq Hp Ht Hn Hs Ec|w b R (IH1 & IH2) Ep|w m R (IH1 & IH2)|w R IH|w R (IH1 & IH2) Ec|w b c m ts R (IH1 & IH2) Ec Er].
  - split; [|constructor]. intros [|[|k]] t b p _ _ H; cbn in H; discriminate.
  - split; [|exact IH2]. pose proof (reach_WI tsof th0 _ false rule_B w R) as H. destruct (facts_B w R) as (F1 & F2).
    assert (Er' := Er). apply record_inv in Er'. destruct Er' as (Ets & _).
    intros k t a q Htk Hn Hq Inc. cbn [w_path w_t] in *. change (incl (committed w) q) in Inc.
    destruct (Nat.lt_ge_cases k (length (w_path w))) as [L|L].
    + rewrite nth_error_app1 in Hq by exact L. rewrite Ets, nth_error_app1 in Htk by (rewrite (wi_len w H); exact L).
      exact (IH1 k t a q Htk Hn Hq Inc).
    + rewrite nth_error_app2 in Hq by exact L. destruct (k - length (w_path w))%nat as [|n]; cbn in Hq; [|destruct n; discriminate].
      injection Hq as <- <-. destruct force; [auto|]. destruct Hr as (La & Fo). inversion Fo.
      apply (fresh_B w i p b ts H F1 F2 Hp (Hs eq_refl) Inc La); auto.
  - pose proof (reach_WI tsof th0 _ false rule_B w R) as H.
    assert (Ek : committed w = w_chain w) by (unfold committed; rewrite Ep; reflexivity).
    destruct (commit_settled w i t b m ts H Ep Hp Ht Hn Hs Ec)
      as (m1 & ts1 & _ & _ & Ln & Hti & _ & Oth & _ & ->).
    split.
    + intros k tk a q Htk Hnk Hq Inc. cbn [w_path w_t] in *. unfold committed in Inc. cbn in Inc.
      assert (Inc' : incl (committed w) q) by (rewrite Ek; intros x Hx; apply Inc; right; exact Hx).
      destruct (Nat.eq_dec k i) as [->|N].
      * rewrite replace_same in Htk by (apply nth_error_Some; congruence). injection Htk as <-. cbn in Hnk. congruence.
      * rewrite replace_other in Htk by exact N. destruct (Oth k tk N Htk) as [Old|(_ & X & _)]; [|congruence].
        exact (IH1 k tk a q Old Hnk Hq Inc').
    + unfold committed. cbn. rewrite Ek in IH2. apply once_cons; [exact IH2|]. apply (IH1 i t b _ Ht Hn Hp). rewrite Ek. apply incl_refl.
  - unfold freshB, committed in *. rewrite Ep in *. cbn in *. auto.
  - split; [exact IH1|exact IH2].
  - discriminate.
  - split; [|constructor]. intros [|[|k]] t b p _ _ F; cbn in F; discriminate.
  - assert (Q : once (b :: c)).
    { unfold committed in IH2. rewrite Ec in IH2. destruct (w_pend w); [exact (once_tl _ _ IH2)|exact IH2]. }
    split; [|exact Q]. pose proof (reach_WI tsof th0 _ false rule_B _ (r_crash tsof th0 _ false false w b c m ts R Ec Er)) as H.
    intros k t a q Htk Hn Hq Inc. cbn [w_path] in Hq. destruct k as [|[|k]]; cbn in Hq; try discriminate.
    + injection Hq as <- <-. exfalso. unfold committed in Inc. cbn in Inc.
      pose proof (wi_sorted _ H) as (SS & _). unfold committed in SS. cbn in SS. apply StronglySorted_inv in SS. destruct SS as (_ & F).
      rewrite Forall_forall in F. destruct (F b (Inc b (or_introl eq_refl))) as (X & _). lia.
    + destruct k; discriminate.
Qed.
End Main.
