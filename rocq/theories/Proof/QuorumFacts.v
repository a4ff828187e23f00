(* Quorums of signed votes and the combinatorial core of agreement (for C53). *)
From Coq Require Import ZArith List Bool Arith Lia.
From Verif Require Import Model.Votes.
Import ListNotations.
Open Scope Z_scope.

Definition pair_eqb (a b : option (Z * Z)) : bool :=
  match a, b with
  | None, None => true
  | Some (x, y), Some (x', y') => Z.eqb x x' && Z.eqb y y'
  | _, _ => false
  end.

Lemma pair_eqb_eq : forall a b, pair_eqb a b = true <-> a = b.
Proof.
  intros [(x, y)|] [(x', y')|]; cbn; try (split; congruence).
  rewrite andb_true_iff, !Z.eqb_eq. split; [intros (-> & ->); reflexivity|intros E; injection E as -> ->; auto].
Qed.

(* the log of votes signed by honest validators, newest first *)
Definition log := list (nat * vote).

Section Quorum.
Variable n : nat.
Variable byz : nat -> bool.
Variable strict : bool.
Variable q : bool.   (* whether quorums are spoken about at all *)

Definition sees1 (i : nat) (r : Z) (t : vtype) (b : Z) (ps : option (Z * Z)) (e : nat * vote) : bool :=
  Nat.eqb (fst e) i && Z.eqb (v_round (snd e)) r && vtype_eqb (v_type (snd e)) t
  && Z.eqb (d_block (v_dec (snd e))) b && pair_eqb (d_parts (v_dec (snd e))) ps.

Definition sees (L : log) (i : nat) (r : Z) (t : vtype) (b : Z) (ps : option (Z * Z)) : bool :=
  byz i || existsb (sees1 i r t b ps) L.

Definition quorum (L : log) (r : Z) (t : vtype) (b : Z) (ps : option (Z * Z)) : Prop :=
  (2 * n < 3 * List.length (filter (fun i => sees L i r t b ps) (seq 0 n)))%nat.

Definition polka (L : log) (r : Z) (o : option Z) : Prop :=
  exists b ps, option_map fst ps = o /\ quorum L r Prevote b ps.

Definition decided (L : log) (p : Z) : Prop :=
  exists r b a, quorum L r Precommit b (Some (p, a)).

Lemma vtype_eqb_eq' : forall a b, vtype_eqb a b = true <-> a = b.
Proof. destruct a, b; cbn; split; congruence. Qed.

Lemma sees_spec : forall L i r t b ps, sees L i r t b ps = true <->
  byz i = true \/ exists v, In (i, v) L /\ v_round v = r /\ v_type v = t /\
                    d_block (v_dec v) = b /\ d_parts (v_dec v) = ps.
Proof.
  intros. unfold sees. rewrite orb_true_iff, existsb_exists. split.
  - intros [H|((j, v) & Hin & H)]; [left; exact H|right].
    unfold sees1 in H. cbn in H.
    rewrite !andb_true_iff, Nat.eqb_eq, !Z.eqb_eq, vtype_eqb_eq', pair_eqb_eq in H.
    destruct H as ((((-> & ?) & ?) & ?) & ?). exists v. auto.
  - intros [H|(v & Hin & A & B & D & F)]; [left; exact H|right]. exists (i, v). split; [exact Hin|].
    unfold sees1. cbn. rewrite !andb_true_iff, Nat.eqb_eq, !Z.eqb_eq, vtype_eqb_eq', pair_eqb_eq. auto.
Qed.

Lemma sees_mono : forall L L' i r t b ps, (forall e, In e L -> In e L') ->
  sees L i r t b ps = true -> sees L' i r t b ps = true.
Proof.
  intros L L' i r t b ps H. rewrite !sees_spec. intros [A|(v & B & D)]; [left; exact A|right; exists v; auto].
Qed.

Lemma filter_mono : forall A (f g : A -> bool) l, (forall x, In x l -> f x = true -> g x = true) ->
  (List.length (filter f l) <= List.length (filter g l))%nat.
Proof.
  induction l as [|x l IH]; intros H; cbn; [lia|].
  assert (IH' := IH (fun y Hy => H y (or_intror Hy))).
  specialize (H x (or_introl eq_refl)). destruct (f x); [rewrite H by reflexivity; cbn; lia|].
  destruct (g x); cbn; lia.
Qed.

Lemma quorum_mono : forall L L' r t b ps, (forall e, In e L -> In e L') ->
  quorum L r t b ps -> quorum L' r t b ps.
Proof.
  unfold quorum. intros L L' r t b ps H Q.
  assert (G := filter_mono nat (fun i => sees L i r t b ps) (fun i => sees L' i r t b ps) (seq 0 n)).
  specialize (G (fun x _ => sees_mono L L' x r t b ps H)). lia.
Qed.

Lemma polka_mono : forall L L' r o, (forall e, In e L -> In e L') -> polka L r o -> polka L' r o.
Proof. intros L L' r o H (b & ps & A & Q). exists b, ps. split; [exact A|]. eapply quorum_mono; eauto. Qed.

Lemma decided_mono : forall L L' p, (forall e, In e L -> In e L') -> decided L p -> decided L' p.
Proof. intros L L' p H (r & b & a & Q). exists r, b, a. eapply quorum_mono; eauto. Qed.

Lemma three_filters : forall A (f g h : A -> bool) l,
  (List.length (filter f l) + List.length (filter g l) <=
   List.length l + List.length (filter h l)
   + List.length (filter (fun x => f x && g x && negb (h x)) l))%nat.
Proof.
  induction l as [|x l IH]; cbn; [lia|]. destruct (f x), (g x), (h x); cbn; lia.
Qed.

Hypothesis minority : (3 * List.length (filter byz (seq 0 n)) < n)%nat.

(* two quorums share an honest validator *)
Lemma quorum_inter : forall L L' r t b ps r' t' b' ps',
  quorum L r t b ps -> quorum L' r' t' b' ps' ->
  exists i v v', (i < n)%nat /\ byz i = false /\ In (i, v) L /\ In (i, v') L' /\
    v_round v = r /\ v_type v = t /\ d_block (v_dec v) = b /\ d_parts (v_dec v) = ps /\
    v_round v' = r' /\ v_type v' = t' /\ d_block (v_dec v') = b' /\ d_parts (v_dec v') = ps'.
Proof.
  intros L L' r t b ps r' t' b' ps' Q Q'. unfold quorum in *.
  pose proof (three_filters nat (fun i => sees L i r t b ps) (fun i => sees L' i r' t' b' ps') byz (seq 0 n)) as T.
  rewrite seq_length in T.
  destruct (filter (fun x => sees L x r t b ps && sees L' x r' t' b' ps' && negb (byz x)) (seq 0 n)) as [|i rest] eqn:F.
  - cbn in T. lia.
  - assert (I0 : In i (i :: rest)) by (left; reflexivity). rewrite <- F in I0.
    apply filter_In in I0. destruct I0 as (Hin & H). apply in_seq in Hin.
    rewrite !andb_true_iff, negb_true_iff in H. destruct H as ((A & B) & D).
    apply sees_spec in A. apply sees_spec in B.
    destruct A as [A|(v & A1 & A2 & A3 & A4 & A5)]; [congruence|].
    destruct B as [B|(v' & B1 & B2 & B3 & B4 & B5)]; [congruence|].
    exists i, v, v'. repeat (split; [first [lia|assumption]|]). assumption.
Qed.

(* ---------- well-behaved logs ---------- *)
Definition before (w v : vote) : Prop :=
  v_round w < v_round v \/ (v_round w = v_round v /\ v_type w = Prevote /\ v_type v = Precommit).

Fixpoint safe (L : log) : Prop :=
  match L with
  | [] => True
  | (i, v) :: L' =>
      safe L' /\ byz i = false /\ (i < n)%nat /\
      (forall w, In (i, w) L' -> before w v) /\
      (q = true -> v_type v = Precommit -> forall p, d_id (v_dec v) = Some p -> polka L' (v_round v) (Some p)) /\
      (q = true -> strict = true -> v_type v = Prevote ->
         forall w p, In (i, w) L' -> v_type w = Precommit -> d_id (v_dec w) = Some p ->
           d_id (v_dec v) <> Some p ->
           exists r' o, v_round w < r' /\ o <> Some p /\ polka L' r' o)
  end.

Lemma safe_app : forall A B, safe (A ++ B) -> safe B.
Proof. induction A as [|(i, v) A IH]; intros B H; [exact H|]. apply IH. apply H. Qed.

(* honest validators sign at most one vote of a kind in a round *)
Lemma safe_unique : forall L i v w, safe L -> In (i, v) L -> In (i, w) L ->
  v_round v = v_round w -> v_type v = v_type w -> v = w.
Proof.
  clear minority.
  induction L as [|(j, x) L IH]; intros i v w H Hv Hw R T; [contradiction|].
  destruct H as (S0 & _ & _ & O & _).
  destruct Hv as [Hv|Hv], Hw as [Hw|Hw].
  - congruence.
  - injection Hv as -> ->. specialize (O w Hw). destruct O as [O|(_ & O1 & O2)]; [lia|congruence].
  - injection Hw as -> ->. specialize (O v Hv). destruct O as [O|(_ & O1 & O2)]; [lia|congruence].
  - eapply IH; eauto.
Qed.

(* no two quorums of a kind in one round *)
Lemma quorum_unique : forall L r t b ps b' ps', safe L ->
  quorum L r t b ps -> quorum L r t b' ps' -> b = b' /\ ps = ps'.
Proof.
  intros L r t b ps b' ps' S0 Q Q'.
  destruct (quorum_inter _ _ _ _ _ _ _ _ _ _ Q Q')
    as (i & v & v' & _ & _ & I1 & I2 & R1 & T1 & B1 & P1 & R2 & T2 & B2 & P2).
  assert (v = v') by (eapply safe_unique; eauto; congruence). subst. auto.
Qed.

Lemma polka_unique : forall L r o o', safe L -> polka L r o -> polka L r o' -> o = o'.
Proof.
  intros L r o o' S0 (b & ps & E & Q) (b' & ps' & E' & Q').
  destruct (quorum_unique _ _ _ _ _ _ _ S0 Q Q') as (_ & ->). congruence.
Qed.

Lemma in_split_log : forall (L : log) e, In e L -> exists A B, L = A ++ e :: B.
Proof. intros. now apply in_split. Qed.

(* once a block is decided in round r, no later round sees a majority for
   anything else *)
Lemma no_other_polka : forall L r b p a, q = true -> strict = true -> safe L -> quorum L r Precommit b (Some (p, a)) ->
  forall K, (exists A, L = A ++ K) ->
  forall r' o, r < r' -> polka K r' o -> o = Some p.
Proof.
  intros L r b p a Hq ST S0 Q.
  assert (G : forall m K, (List.length K <= m)%nat -> (exists A, L = A ++ K) ->
    forall r' o, r < r' -> polka K r' o -> o = Some p).
  { induction m as [|m IH]; intros K Hm (A & EA) r' o Hr (b' & ps & Eo & Q').
    - destruct K; [|cbn in Hm; lia].
      destruct (quorum_inter _ _ _ _ _ _ _ _ _ _ Q Q') as (i & v & v' & _ & _ & _ & I2 & _). contradiction.
    - destruct (quorum_inter _ _ _ _ _ _ _ _ _ _ Q Q')
        as (i & v & v' & _ & _ & I1 & I2 & R1 & T1 & B1 & P1 & R2 & T2 & B2 & P2).
      destruct (in_split_log _ _ I2) as (K1 & K2 & EK).
      assert (EL : L = (A ++ K1) ++ (i, v') :: K2) by (rewrite EA, EK, app_assoc; reflexivity).
      assert (SV : safe ((i, v') :: K2)) by (apply (safe_app (A ++ K1)); rewrite <- EL; exact S0).
      destruct SV as (SK & _ & _ & _ & _ & LK).
      destruct (option_map fst ps) as [z|] eqn:Eps.
      + subst o. destruct (Z.eq_dec z p) as [->|NE]; [reflexivity|exfalso].
        (* the precommit was signed before this prevote *)
        assert (IV : In (i, v) K2).
        { rewrite EL in I1. rewrite in_app_iff in I1. destruct I1 as [I1|[I1|I1]]; [|congruence|exact I1].
          exfalso. destruct (in_split_log _ _ I1) as (X1 & X2 & EX).
          assert (SX : safe ((i, v) :: X2 ++ (i, v') :: K2)).
          { apply (safe_app X1). rewrite EL, EX, <- app_assoc in S0. exact S0. }
          destruct SX as (_ & _ & _ & O & _).
          specialize (O v'). assert (In (i, v') (X2 ++ (i, v') :: K2)) as J by (rewrite in_app_iff; right; left; reflexivity).
          destruct (O J) as [F|(F & _)]; lia. }
        destruct (LK Hq ST T2 v p IV T1) as (r'' & o' & L1 & L2 & L3).
        * unfold d_id. rewrite P1. reflexivity.
        * unfold d_id. rewrite P2, Eps. congruence.
        * apply L2. apply (IH K2) with (r' := r''); auto.
          -- rewrite EK, app_length in Hm. cbn in Hm. lia.
          -- exists ((A ++ K1) ++ [(i, v')]). rewrite <- app_assoc. exact EL.
          -- lia.
      + subst o. exfalso.
        assert (IV : In (i, v) K2).
        { rewrite EL in I1. rewrite in_app_iff in I1. destruct I1 as [I1|[I1|I1]]; [|congruence|exact I1].
          exfalso. destruct (in_split_log _ _ I1) as (X1 & X2 & EX).
          assert (SX : safe ((i, v) :: X2 ++ (i, v') :: K2)).
          { apply (safe_app X1). rewrite EL, EX, <- app_assoc in S0. exact S0. }
          destruct SX as (_ & _ & _ & O & _).
          specialize (O v'). assert (In (i, v') (X2 ++ (i, v') :: K2)) as J by (rewrite in_app_iff; right; left; reflexivity).
          destruct (O J) as [F|(F & _)]; lia. }
        destruct (LK Hq ST T2 v p IV T1) as (r'' & o' & L1 & L2 & L3).
        * unfold d_id. rewrite P1. reflexivity.
        * unfold d_id. rewrite P2, Eps. congruence.
        * apply L2. apply (IH K2) with (r' := r''); auto.
          -- rewrite EK, app_length in Hm. cbn in Hm. lia.
          -- exists ((A ++ K1) ++ [(i, v')]). rewrite <- app_assoc. exact EL.
          -- lia. }
  intros K. apply (G (List.length K) K). lia.
Qed.

Lemma decided_polka : forall L r b p a, q = true -> safe L -> quorum L r Precommit b (Some (p, a)) -> polka L r (Some p).
Proof.
  intros L r b p a Hq S0 Q.
  destruct (quorum_inter _ _ _ _ _ _ _ _ _ _ Q Q) as (i & v & _ & _ & _ & I1 & _ & R1 & T1 & _ & P1 & _).
  destruct (in_split_log _ _ I1) as (A & B & EL).
  assert (SV : safe ((i, v) :: B)) by (apply (safe_app A); rewrite <- EL; exact S0).
  destruct SV as (_ & _ & _ & _ & J & _).
  assert (PK : polka B (v_round v) (Some p)).
  { apply J; [exact Hq|exact T1|]. unfold d_id. rewrite P1. reflexivity. }
  rewrite R1 in PK. eapply polka_mono; [|exact PK]. intros e He. rewrite EL, in_app_iff. right. right. exact He.
Qed.

Theorem agreement : forall L p p', q = true -> strict = true -> safe L -> decided L p -> decided L p' -> p = p'.
Proof.
  intros L p p' Hq ST S0 (r & b & a & Q) (r' & b' & a' & Q').
  destruct (Z.lt_trichotomy r r') as [H|[H|H]].
  - pose proof (decided_polka _ _ _ _ _ Hq S0 Q') as PK.
    assert (E := no_other_polka L r b p a Hq ST S0 Q L (ex_intro _ [] eq_refl) r' (Some p') H PK). congruence.
  - subst r'. destruct (quorum_unique _ _ _ _ _ _ _ S0 Q Q') as (_ & E). congruence.
  - pose proof (decided_polka _ _ _ _ _ Hq S0 Q) as PK.
    assert (E := no_other_polka L r' b' p' a' Hq ST S0 Q' L (ex_intro _ [] eq_refl) r (Some p) H PK). congruence.
Qed.

End Quorum.
