(* The invariant of a consensus node (for C53, C54). *)
From Coq Require Import ZArith List Bool Arith Lia.
From Verif Require Import Model.Votes Proof.VotesFacts Model.Consensus Proof.QuorumFacts
  Proof.ConsensusVotes Proof.ConsensusWal Spec.ConsensusSpec.
Import ListNotations.
Open Scope Z_scope.

Section Inv.
Variable C : chain.
Variable byz : nat -> bool.
Variable strict : bool.
Notation n := (c_n C).
Notation dig := (Consensus.c_digest C).
Variable qm : bool.   (* whether quorums are spoken about *)
Hypothesis cf : qm = true -> forall d d', dig d = dig d' -> d = d'.
Hypothesis minority : qm = true -> (3 * List.length (filter byz (seq 0 n)) < n)%nat.
Variable j : nat.
Hypothesis honest : byz j = false.

Notation legit := (legit byz).
Notation hvs_ok := (hvs_ok C byz).
Notation proves := (proves C byz).
Notation safe := (safe n byz strict qm).
Definition polka (L : log) (r : Z) (o : option Z) : Prop := qm = true -> QuorumFacts.polka n byz L r o.
Definition quorum (L : log) (r : Z) (t : vtype) (b : Z) (ps : option (Z * Z)) : Prop :=
  qm = true -> QuorumFacts.quorum n byz L r t b ps.
Definition decided (L : log) (p : Z) : Prop := qm = true -> QuorumFacts.decided n byz L p.

Lemma polka_mono : forall L L' r o, (forall e, In e L -> In e L') -> polka L r o -> polka L' r o.
Proof. intros L L' r o H P Hq. eapply QuorumFacts.polka_mono; eauto. Qed.
Lemma decided_mono : forall L L' p, (forall e, In e L -> In e L') -> decided L p -> decided L' p.
Proof. intros L L' p H P Hq. eapply QuorumFacts.decided_mono; eauto. Qed.
Lemma over_polka : forall L r h o, hvs_ok L h -> over_id (h_votes r Prevote h) = Some o -> polka L r o.
Proof. intros L r h o H E Hq. eapply ConsensusVotes.over_polka; eauto. Qed.

(* ---------- what is on disk ---------- *)
Fixpoint recs (K : list entry) : list (Z * Z) :=
  match K with
  | [] => []
  | WParts p :: K' =>
      match K' with
      | WVotes ((_, v0) :: _) :: _ => (p, v_round v0) :: recs K'
      | _ => recs K'
      end
  | _ :: K' => recs K'
  end.

Lemma last_lock_recs : forall K, last_lock K = hd_error (recs K).
Proof.
  induction K as [|[v|l|r|p] K IH]; cbn [last_lock recs]; auto.
  destruct K as [|[v|l|r|q] K]; auto. destruct l as [|(i, v0) l]; auto.
Qed.

Definition all_legit (L : log) (l : list (nat * vote)) : Prop := forall i v, In (i, v) l -> legit L i v.

Fixpoint lwf (L : log) (K : list entry) : Prop :=
  match K with
  | [] => True
  | WParts p :: K' => lwf L K' /\ exists l r K'', K' = WVotes l :: K'' /\ proves L l r p
  | WVotes l :: K' => lwf L K' /\ all_legit L l
  | _ :: _ => False
  end.

Definition covers (L : log) (rs : list (Z * Z)) : Prop :=
  qm = true -> forall w p, In (j, w) L -> v_type w = Precommit -> d_id (v_dec w) = Some p ->
  exists later rq rest, rs = later ++ (p, rq) :: rest /\ forall x, In x later -> v_round w < snd x.

Definition D (w : walname) (L : log) (l : list entry) : Prop :=
  match w with
  | RoundWAL => (forall v, In (j, v) L <-> In (WVote v) l) /\ (forall x, In (WVotes x) l -> all_legit L x)
  | LockWAL => lwf L l /\ covers L (recs l)
  | CommitWAL => forall x, In (WVotes x) l -> all_legit L x
  end.

Definition sent_ok (L : log) (f : list fx) : Prop := forall v, In (FxVote v) f -> In (j, v) L.

Definition PTw (w : walname) (L : log) (f : list fx) : Prop :=
  forall a, (a <= unsynced w f)%nat -> D w L (skipn a (news w f)).

Definition PT (L : log) (f : list fx) : Prop := (forall w, PTw w L f) /\ sent_ok L f.

Definition ext (L L' : log) : Prop := exists g, L' = g ++ L /\ forall e, In e g -> fst e = j.

Definition CS (L : log) (f : list fx) : Prop :=
  forall a : walname -> nat, (forall w, (a w <= unsynced w f)%nat) ->
  exists L', ext L L' /\ safe L' /\ (forall w, D w L' (skipn (a w) (news w f))) /\ sent_ok L' f.

Definition path (L : log) (f : list fx) (L' : log) (f' : list fx) : Prop :=
  ext L L' /\ safe L' /\ PT L' f' /\ exists g, f' = g ++ f /\ forall k, CS L (skipn k g ++ f).

Lemma ext_refl : forall L, ext L L.
Proof. intros L. exists []. split; [reflexivity|]. intros e []. Qed.

Lemma ext_trans : forall L L1 L2, ext L L1 -> ext L1 L2 -> ext L L2.
Proof.
  intros L L1 L2 (g & -> & A) (g' & -> & B). exists (g' ++ g). rewrite app_assoc. split; [reflexivity|].
  intros e H. apply in_app_iff in H. destruct H; auto.
Qed.

Lemma ext_incl : forall L L', ext L L' -> forall e, In e L -> In e L'.
Proof. intros L L' (g & -> & _) e H. apply in_app_iff. auto. Qed.

Lemma PT_CS : forall L L' f, ext L L' -> safe L' -> PT L' f -> CS L f.
Proof. intros L L' f X S0 (P & Q) a Ha. exists L'. repeat split; auto. intros w. apply P. apply Ha. Qed.

Lemma CS_ext : forall L L1 f, ext L L1 -> CS L1 f -> CS L f.
Proof.
  intros L L1 f X H a Ha. destruct (H a Ha) as (L' & A & B). exists L'. split; [eapply ext_trans; eauto|exact B].
Qed.

Lemma path_refl : forall L f, safe L -> PT L f -> path L f L f.
Proof.
  intros L f S0 P. split; [apply ext_refl|]. split; [exact S0|]. split; [exact P|]. exists [].
  split; [reflexivity|]. intros k. rewrite skipn_nil. eapply PT_CS; eauto. apply ext_refl.
Qed.

Lemma path_trans : forall L f L1 f1 L2 f2, path L f L1 f1 -> path L1 f1 L2 f2 -> path L f L2 f2.
Proof.
  intros L f L1 f1 L2 f2 (X1 & S1 & P1 & g1 & E1 & K1) (X2 & S2 & P2 & g2 & E2 & K2).
  split; [eapply ext_trans; eauto|]. split; [exact S2|]. split; [exact P2|].
  exists (g2 ++ g1). split; [rewrite E2, E1, app_assoc; reflexivity|].
  intros k. rewrite skipn_app, <- app_assoc.
  destruct (Nat.le_gt_cases k (List.length g2)) as [H|H].
  - replace (k - List.length g2)%nat with 0%nat by lia. cbn [skipn]. rewrite <- E1.
    eapply CS_ext; [exact X1|]. apply K2.
  - rewrite (skipn_all2 g2) by lia. cbn [app]. apply K1.
Qed.

Lemma path_one : forall L f x, safe L -> PT L f -> PT L (x :: f) -> path L f L (x :: f).
Proof.
  intros L f x S0 P P'. split; [apply ext_refl|]. split; [exact S0|]. split; [exact P'|].
  exists [x]. split; [reflexivity|]. intros [|k].
  - cbn. eapply PT_CS; eauto. apply ext_refl.
  - cbn. rewrite skipn_nil. eapply PT_CS; eauto. apply ext_refl.
Qed.

Lemma PTw_write_same : forall w L f e, PTw w L f -> D w L (e :: news w f) -> PTw w L (FxWrite w e :: f).
Proof.
  intros w L f e P H a Ha. cbn in *. rewrite wal_eqb_refl in *. destruct a as [|a]; [exact H|].
  cbn. apply P. lia.
Qed.

Lemma PTw_write_other : forall w w' L f e, w <> w' -> PTw w L f -> PTw w L (FxWrite w' e :: f).
Proof.
  intros w w' L f e NE P a Ha. cbn in *.
  destruct (wal_eqb w w') eqn:E; [apply wal_eqb_eq in E; congruence|]. apply P. exact Ha.
Qed.

Lemma PTw_sync : forall w w' L f, PTw w L f -> PTw w L (FxSync w' :: f).
Proof.
  intros w w' L f P a Ha. cbn in *. destruct (wal_eqb w w'); [|apply P; exact Ha].
  apply P. lia.
Qed.

Lemma PT_write : forall w L f e, PT L f -> D w L (e :: news w f) -> PT L (FxWrite w e :: f).
Proof.
  intros w L f e (P & Q) H. split.
  - intros w'. destruct (wal_eqb w' w) eqn:E.
    + apply wal_eqb_eq in E. subst w'. apply PTw_write_same; auto.
    + apply PTw_write_other; auto. intros ->. rewrite wal_eqb_refl in E. discriminate.
  - intros v [F|F]; [discriminate|auto].
Qed.

Lemma PT_sync : forall w L f, PT L f -> PT L (FxSync w :: f).
Proof.
  intros w L f (P & Q). split; [intros w'; apply PTw_sync; auto|]. intros v [F|F]; [discriminate|auto].
Qed.

Lemma PT_proposal : forall r id p L f, PT L f -> PT L (FxProposal r id p :: f).
Proof. intros r id p L f (P & Q). split; [exact P|]. intros v [F|F]; [discriminate|auto]. Qed.

Lemma PT_now : forall w L f, PT L f -> D w L (news w f).
Proof. intros w L f (P & _). apply (P w 0%nat). lia. Qed.

(* ---------- more votes are signed ---------- *)
Lemma all_legit_mono : forall L L' l, (forall e, In e L -> In e L') -> all_legit L l -> all_legit L' l.
Proof. intros L L' l H A i v Hi. eapply legit_mono; eauto. Qed.

Lemma lwf_mono : forall L L' K, (forall e, In e L -> In e L') -> lwf L K -> lwf L' K.
Proof.
  intros L L' K H. induction K as [|[v|l|r|p] K IH]; cbn; auto.
  - intros (A & B). split; [auto|eapply all_legit_mono; eauto].
  - intros (A & l & r & K'' & E & B). split; [auto|]. exists l, r, K''. split; [exact E|].
    eapply proves_mono; eauto.
Qed.

(* votes of others *)
Lemma D_others : forall w L L' l, (forall e, In e L -> In e L') -> (forall v, In (j, v) L' -> In (j, v) L) ->
  D w L l -> D w L' l.
Proof.
  intros [] L L' l H O; cbn.
  - intros (A & B). split; [intros v; rewrite <- A; split; auto|]. intros x Hx. eapply all_legit_mono; eauto.
  - intros (A & B). split; [eapply lwf_mono; eauto|]. intros Hq w p Hw. apply B; auto.
  - intros A x Hx. eapply all_legit_mono; eauto.
Qed.

Lemma PT_others : forall L L' f, (forall e, In e L -> In e L') -> (forall v, In (j, v) L' -> In (j, v) L) ->
  PT L f -> PT L' f.
Proof.
  intros L L' f H O (P & Q). split; [|intros v Hv; auto]. intros w a Ha. eapply D_others; eauto. apply P. exact Ha.
Qed.

(* an own vote is written, synced and sent *)
Lemma path_vote : forall L f v, safe ((j, v) :: L) -> PT L f -> unsynced LockWAL f = 0%nat ->
  covers ((j, v) :: L) (recs (news LockWAL f)) ->
  path L f ((j, v) :: L) (FxVote v :: FxSync RoundWAL :: FxWrite RoundWAL (WVote v) :: f).
Proof.
  intros L f v S0 P U Cv. set (L' := (j, v) :: L).
  assert (HI : forall e, In e L -> In e L') by (intros e H; right; exact H).
  assert (X : ext L L').
  { exists [(j, v)]. split; [reflexivity|]. intros e [<-|[]]. reflexivity. }
  assert (DR : D RoundWAL L' (WVote v :: news RoundWAL f)).
  { destruct (PT_now RoundWAL L f P) as (A & B). split.
    - intros w. cbn. rewrite <- A. split; intros [H|H]; auto; left; congruence.
    - intros x [F|F]; [discriminate|]. eapply all_legit_mono; eauto. }
  assert (DL : D LockWAL L' (news LockWAL f)).
  { destruct (PT_now LockWAL L f P) as (A & B). split; [eapply lwf_mono; eauto|exact Cv]. }
  assert (DC : forall a, (a <= unsynced CommitWAL f)%nat -> D CommitWAL L' (skipn a (news CommitWAL f))).
  { intros a Ha x Hx. eapply all_legit_mono; [exact HI|]. apply (proj1 P CommitWAL a Ha). exact Hx. }
  assert (P2 : PT L' (FxSync RoundWAL :: FxWrite RoundWAL (WVote v) :: f)).
  { split.
    - intros w a Ha. destruct w; cbn in *.
      + assert (a = 0%nat) as -> by lia. exact DR.
      + assert (a = 0%nat) as -> by lia. exact DL.
      + apply DC. exact Ha.
    - intros w [F|[F|F]]; [discriminate|discriminate|]. right. apply (proj2 P). exact F. }
  assert (P3 : PT L' (FxVote v :: FxSync RoundWAL :: FxWrite RoundWAL (WVote v) :: f)).
  { destruct P2 as (A & B). split; [exact A|]. intros w [F|F]; [injection F as ->; left; reflexivity|auto]. }
  split; [exact X|]. split; [exact S0|]. split; [exact P3|].
  exists [FxVote v; FxSync RoundWAL; FxWrite RoundWAL (WVote v)]. split; [reflexivity|].
  intros [|[|[|k]]]; cbn [skipn app].
  - eapply PT_CS; eauto.
  - eapply PT_CS; eauto.
  - intros a Ha. destruct (a RoundWAL) as [|a'] eqn:Ea.
    + exists L'. split; [exact X|]. split; [exact S0|]. split.
      * intros [].
        -- rewrite Ea. exact DR.
        -- cbn. specialize (Ha LockWAL). cbn in Ha. assert (a LockWAL = 0%nat) as -> by lia. exact DL.
        -- apply DC. exact (Ha CommitWAL).
      * intros w [F|F]; [discriminate|]. right. apply (proj2 P). exact F.
    + exists L. split; [apply ext_refl|]. split; [apply S0|]. split.
      * intros [].
        -- rewrite Ea. cbn. apply (proj1 P RoundWAL). specialize (Ha RoundWAL). cbn in Ha. lia.
        -- cbn. apply (proj1 P LockWAL). exact (Ha LockWAL).
        -- cbn. apply (proj1 P CommitWAL). exact (Ha CommitWAL).
      * intros w [F|F]; [discriminate|]. apply (proj2 P). exact F.
  - rewrite skipn_nil. eapply PT_CS; [apply ext_refl|apply S0|exact P].
Qed.

(* a lock is recorded *)
Lemma path_lock : forall L f l r id, safe L -> PT L f -> proves L l r id ->
  (forall w, In (j, w) L -> v_type w = Precommit -> v_round w < r) ->
  path L f L (FxSync LockWAL :: FxWrite LockWAL (WParts id) :: FxWrite LockWAL (WVotes l) :: f) /\
  recs (news LockWAL (FxSync LockWAL :: FxWrite LockWAL (WParts id) :: FxWrite LockWAL (WVotes l) :: f))
  = (id, r) :: recs (news LockWAL f).
Proof.
  intros L f l r id S0 P PV O.
  destruct (PT_now LockWAL L f P) as (A & B).
  assert (AL : all_legit L l) by (intros i v Hi; apply (proj1 PV i v Hi)).
  assert (P1 : PT L (FxWrite LockWAL (WVotes l) :: f)).
  { apply PT_write; [exact P|]. split; [cbn; auto|]. cbn. exact B. }
  assert (ER : recs (WParts id :: WVotes l :: news LockWAL f) = (id, r) :: recs (news LockWAL f)).
  { destruct (proves_nonempty _ _ _ _ _ _ PV) as (i & v & l' & -> & R). cbn. rewrite R. reflexivity. }
  assert (P2 : PT L (FxWrite LockWAL (WParts id) :: FxWrite LockWAL (WVotes l) :: f)).
  { apply PT_write; [exact P1|]. cbn [news wal_eqb]. split.
    - split; [split; auto|]. exists l, r, (news LockWAL f). auto.
    - rewrite ER. intros Hq w p Hw T E. destruct (B Hq w p Hw T E) as (later & rq & rest & E1 & H1).
      exists ((id, r) :: later), rq, rest. split; [rewrite E1; reflexivity|].
      intros x [<-|Hx]; [cbn; apply (O w Hw T)|apply H1; exact Hx]. }
  split.
  - eapply path_trans; [apply path_one; [exact S0|exact P|exact P1]|].
    eapply path_trans; [apply path_one; [exact S0|exact P1|exact P2]|].
    apply path_one; [exact S0|exact P2|]. apply PT_sync. exact P2.
  - exact ER.
Qed.

(* ---------- the node ---------- *)
Record NI (L : log) (s : node) : Prop := {
  ni_hvs : hvs_ok L (s_hvs s);
  ni_votes : forall v, In (j, v) L -> v_round v < s_round s \/
    (v_round v = s_round s /\ (step_num (vote_step (v_type v)) <= step_num (s_step s))%nat);
  ni_import : forall r p, s_import s = Some (r, p) -> r <= s_round s /\
    (r = s_round s -> (4 <= step_num (s_step s))%nat /\
       ((step_num (s_step s) <= 5)%nat -> s_locked s = None /\ forall v, In (j, v) L -> v_round v < s_round s));
  ni_lock : strict = true -> s_halt s = None -> forall w p, In (j, w) L -> v_type w = Precommit ->
    d_id (v_dec w) = Some p ->
    (exists lp, s_locked s = Some lp /\ p_id lp = p /\ v_round w <= s_lround s) \/
    (exists r' o, v_round w < r' /\ o <> Some p /\ polka L r' o);
  ni_final : forall p, s_final s = Some p -> decided L p;
  ni_commit : s_step s = Commit -> exists c, s_cur s = Some c /\ decided L (p_id c);
  ni_rec : qm = true -> forall lp, s_locked s = Some lp ->
    exists rq rest, recs (news LockWAL (s_fx s)) = (p_id lp, rq) :: rest;
  ni_sync : unsynced LockWAL (s_fx s) = 0%nat
}.

Definition goes (L : log) (s s' : node) : Prop :=
  exists L', NI L' s' /\ path L (s_fx s) L' (s_fx s').

Lemma goes_here : forall L s s', safe L -> PT L (s_fx s) -> NI L s' -> s_fx s' = s_fx s -> goes L s s'.
Proof. intros L s s' S0 P H E. exists L. split; [exact H|]. rewrite E. apply path_refl; assumption. Qed.

Lemma goes_trans : forall L s s1 s2, goes L s s1 ->
  (forall L1, ext L L1 -> NI L1 s1 -> safe L1 -> PT L1 (s_fx s1) -> goes L1 s1 s2) -> goes L s s2.
Proof.
  intros L s s1 s2 (L1 & N1 & P1) H.
  destruct (H L1 (proj1 P1) N1 (proj1 (proj2 P1)) (proj1 (proj2 (proj2 P1)))) as (L2 & N2 & P2).
  exists L2. split; [exact N2|]. eapply path_trans; eauto.
Qed.

Lemma goes_fx : forall L s s1 s2, s_fx s = s_fx s1 -> goes L s1 s2 -> goes L s s2.
Proof. intros L s s1 s2 E (L1 & A & B). exists L1. split; [exact A|]. rewrite E. exact B. Qed.

Lemma goes_andthen : forall L s s1 f, goes L s s1 ->
  (forall L1, ext L L1 -> NI L1 s1 -> safe L1 -> PT L1 (s_fx s1) -> gone s1 = false -> goes L1 s1 (f s1)) ->
  goes L s (andthen s1 f).
Proof.
  intros L s s1 f G H. unfold andthen. destruct (gone s1) eqn:E; [exact G|].
  eapply goes_trans; [exact G|]. intros. apply H; auto.
Qed.

Ltac ni H := destruct H; constructor; cbn in *; auto.

Lemma NI_halted : forall L s h, NI L s -> NI L (halted h s).
Proof. intros L s h H. ni H. discriminate. Qed.

Lemma NI_hvs : forall L s h, NI L s -> hvs_ok L h -> NI L (with_hvs h s).
Proof. intros L s h H Hh. ni H. Qed.

Lemma NI_cur : forall L s c, NI L s ->
  (s_step s = Commit -> exists x, c = Some x /\ decided L (p_id x)) -> NI L (with_cur c s).
Proof. intros L s c H Hc. ni H. Qed.

Lemma NI_pol : forall L s p, NI L s -> NI L (with_pol p s).
Proof. intros L s p H. ni H. Qed.
Lemma NI_prop : forall L s p, NI L s -> NI L (with_prop p s).
Proof. intros L s p H. ni H. Qed.
Lemma NI_crnd : forall L s p, NI L s -> NI L (with_crnd p s).
Proof. intros L s p H. ni H. Qed.
Lemma NI_final : forall L s p, NI L s -> decided L p -> NI L (with_final (Some p) s).
Proof. intros L s p H Hp. ni H. intros q E. injection E as <-. exact Hp. Qed.
Lemma NI_no_import : forall L s, NI L s -> NI L (with_import None s).
Proof. intros L s H. ni H. discriminate. Qed.

Lemma NI_import : forall L s p, NI L s -> s_locked s = None -> s_step s = PrevoteS ->
  (forall v, In (j, v) L -> v_round v < s_round s) -> NI L (with_import (Some (s_round s, p)) s).
Proof.
  intros L s p H Hl Hst Hv. ni H. intros r q E. injection E as <- <-. split; [lia|]. intros _.
  rewrite Hst. cbn. split; [lia|auto].
Qed.

Lemma NI_step : forall L s st, NI L s -> (step_num (s_step s) < step_num st)%nat -> st <> Commit ->
  NI L (with_step st s).
Proof.
  intros L s st H Hs Hc. ni H.
  - intros v Hv. destruct (ni_votes0 v Hv) as [A|(A & B)]; [left; exact A|right; split; [exact A|lia]].
  - intros r p E. destruct (ni_import0 r p E) as (A & B). split; [exact A|]. intros Er.
    destruct (B Er) as (B1 & B2). split; [lia|]. intros B3. apply B2. lia.
  - intros E. contradiction.
Qed.

Lemma NI_reset : forall L s r, NI L s -> s_round s < r -> NI L (reset_round r s).
Proof.
  intros L s r H Hr. unfold reset_round, begin_step. destruct H. constructor; cbn in *; auto.
  - apply hvs_ok_prune. exact ni_hvs0.
  - intros v Hv. left. destruct (ni_votes0 v Hv) as [A|(A & _)]; lia.
  - intros q p E. destruct (ni_import0 q p E) as (A & _). split; [lia|]. intros F. lia.
  - discriminate.
Qed.

Lemma NI_unlock : forall L s, NI L s ->
  (strict = true -> s_halt s = None -> forall w p, In (j, w) L -> v_type w = Precommit -> d_id (v_dec w) = Some p ->
     forall lp, s_locked s = Some lp -> p_id lp = p -> v_round w <= s_lround s ->
     exists r' o, v_round w < r' /\ o <> Some p /\ polka L r' o) ->
  NI L (with_lock None (-1) s).
Proof.
  intros L s H Hu. ni H.
  - intros r p E. destruct (ni_import0 r p E) as (A & B). split; [exact A|]. intros Er.
    destruct (B Er) as (B1 & B2). split; [exact B1|]. intros B3. split; [reflexivity|]. apply B2. exact B3.
  - intros ST HH w p Hw T E. right. destruct (ni_lock0 ST HH w p Hw T E) as [(lp & A1 & A2 & A3)|A]; [|exact A].
    eapply Hu; eauto.
  - discriminate.
Qed.

Lemma NI_relock : forall L s, NI L s -> (6 <= step_num (s_step s))%nat ->
  (forall w, In (j, w) L -> v_type w = Precommit -> v_round w <= s_round s) ->
  NI L (with_lock (s_locked s) (s_round s) s).
Proof.
  intros L s H Hst Hv. ni H.
  - intros ST HH w p Hw T E. destruct (ni_lock0 ST HH w p Hw T E) as [(lp & A1 & A2 & A3)|A]; [|right; exact A].
    left. exists lp. auto.
Qed.

Lemma NI_emit : forall L s x, NI L s ->
  match x with FxWrite LockWAL _ => False | _ => True end -> NI L (emit x s).
Proof.
  intros L s x H Hx. destruct x as [[] e|[]|v|r id p]; cbn in Hx; try contradiction; ni H.
Qed.

(* own votes and steps *)
Lemma own_below : forall L s, NI L s -> (step_num (s_step s) < 4)%nat ->
  forall v, In (j, v) L -> v_round v < s_round s.
Proof.
  intros L s H Hs v Hv. destruct (ni_votes _ _ H v Hv) as [A|(_ & B)]; [exact A|].
  destruct (v_type v); cbn in B; lia.
Qed.

Lemma own_prec_below : forall L s, NI L s -> (step_num (s_step s) < 6)%nat ->
  forall v, In (j, v) L -> v_round v < s_round s \/ (v_round v = s_round s /\ v_type v = Prevote).
Proof.
  intros L s H Hs v Hv. destruct (ni_votes _ _ H v Hv) as [A|(A & B)]; [left; exact A|].
  right. split; [exact A|]. destruct (v_type v); cbn in B; [reflexivity|lia].
Qed.

Definition pre (L : log) (c : call) (s : node) : Prop :=
  match c with
  | CRecv i v => legit L i v
  | CSend t p =>
      (forall w, In (j, w) L -> v_round w < s_round s \/
         (v_round w = s_round s /\ v_type w = Prevote /\ t = Precommit)) /\
      (step_num (vote_step t) <= step_num (s_step s))%nat /\
      (t = Prevote -> (s_locked s = None \/ p = s_locked s) /\
         forall r q, s_import s = Some (r, q) -> r < s_round s) /\
      (t = Precommit -> forall q, p = Some q -> polka L (s_round s) (Some (p_id q)) /\
         s_locked s = Some q /\ s_lround s = s_round s)
  | CCommit r id => exists b a, quorum L r Precommit b (Some (id, a))
  | _ => True
  end.

(* ---------- one call, the calls it makes being as specified ---------- *)
Section Calls.
Variable E : env.
Hypothesis disk : e_disk E = true.
Notation me := (who C j).
Variable rec : call -> node -> node.
Hypothesis REC : forall c L s, NI L s -> safe L -> PT L (s_fx s) -> pre L c s -> goes L s (rec c s).

(* a change of the state without effects, then a call *)
Lemma go_rec : forall c L s s1, NI L s1 -> safe L -> PT L (s_fx s1) -> s_fx s1 = s_fx s -> pre L c s1 ->
  goes L s (rec c s1).
Proof. intros c L s s1 H S0 P Ef Pr. eapply goes_fx; [symmetry; exact Ef|]. apply REC; auto. Qed.

Lemma begin_cases : forall st s, st <> NewHeight -> st <> NewRound ->
  (begin_step st s = with_step st s /\ (step_num (s_step s) < step_num st)%nat) \/
  (exists h, begin_step st s = halted h s).
Proof.
  intros st s A B. unfold begin_step.
  assert (X : (match st with
               | NewHeight => match s_step s with NewHeight | Commit => true | _ => false end
               | NewRound => true
               | _ => step_ltb (s_step s) st end) = step_ltb (s_step s) st).
  { destruct st; try reflexivity; congruence. }
  rewrite X. unfold step_ltb. destruct (Nat.ltb (step_num (s_step s)) (step_num st)) eqn:F.
  - left. split; [reflexivity|]. apply Nat.ltb_lt. exact F.
  - right. eauto.
Qed.

Lemma goes_begin : forall st L s f, st <> NewHeight -> st <> NewRound -> st <> Commit ->
  NI L s -> safe L -> PT L (s_fx s) ->
  ((step_num (s_step s) < step_num st)%nat -> NI L (with_step st s) -> goes L (with_step st s) (f (with_step st s))) ->
  goes L s (andthen (begin_step st s) f).
Proof.
  intros st L s f A B Cm H S0 P G.
  destruct (begin_cases st s A B) as [(-> & Hs)|(h & ->)].
  - unfold andthen. assert (N1 : NI L (with_step st s)) by (apply NI_step; auto).
    destruct (gone (with_step st s)); [apply goes_here; auto|]. eapply goes_fx; [|apply G; auto]. reflexivity.
  - unfold andthen, gone. cbn. apply goes_here; auto. apply NI_halted. exact H.
Qed.

Lemma prevote_check_ok : forall L s, NI L s -> safe L -> PT L (s_fx s) -> goes L s (prevote_check rec s).
Proof.
  intros L s H S0 P. unfold prevote_check.
  destruct (step_eqb (s_step s) PrevoteS && vs_has (prevotes_of (s_round s) s)).
  - apply REC; auto. exact Logic.I.
  - apply goes_here; auto.
Qed.

Lemma precommit_check_ok : forall L s, NI L s -> safe L -> PT L (s_fx s) -> goes L s (precommit_check rec s).
Proof.
  intros L s H S0 P. unfold precommit_check.
  destruct (step_eqb (s_step s) PrecommitS && vs_has (precommits_of (s_round s) s)).
  - apply REC; auto. exact Logic.I.
  - apply goes_here; auto.
Qed.

Lemma gone_halt : forall s, gone s = false -> s_halt s = None.
Proof. intros s. unfold gone. destruct (s_halt s); [discriminate|reflexivity]. Qed.

(* sendVote *)
Lemma cast_ok : forall L s t p v, NI L s -> safe L -> PT L (s_fx s) -> gone s = false ->
  pre L (CSend t p) s -> (j < n)%nat -> v_round v = s_round s -> v_type v = t ->
  d_id (v_dec v) = option_map p_id p ->
  goes L s (rec (CRecv j v)
    (emit (FxVote v) (wal_sync E RoundWAL (wal E RoundWAL (WVote v) s)))).
Proof.
  intros L s t p v H S0 P G (O & St & PV & PC) Hj R T Di.
  unfold wal_sync, wal. rewrite disk.
  set (L' := (j, v) :: L).
  assert (HI : forall e, In e L -> In e L') by (intros e He; right; exact He).
  assert (SF : safe L').
  { cbn. split; [exact S0|]. split; [exact honest|]. split; [exact Hj|]. split; [|split].
    - intros w Hw. unfold before. rewrite R, T. apply O. exact Hw.
    - intros Hq Tp z Eq. rewrite Tp in T. symmetry in T. rewrite Di in Eq. destruct p as [q0|]; [|discriminate].
      cbn in Eq. injection Eq as <-. destruct (PC T q0 eq_refl) as (A & _). rewrite R. apply A. exact Hq.
    - intros Hq SS Tp w z Hw Tw Ew Nq. rewrite Tp in T. symmetry in T.
      destruct (ni_lock _ _ H SS (gone_halt _ G) w z Hw Tw Ew) as [(lp & A1 & A2 & A3)|(r' & o & A1 & A2 & A3)];
        [|exists r', o; auto].
      exfalso. destruct (PV T) as ([F|F] & _); [congruence|]. apply Nq. rewrite Di, F, A1. cbn. congruence. }
  assert (CV : covers L' (recs (news LockWAL (s_fx s)))).
  { intros Hq w z [F|F] Tw Ew.
    - injection F as <-. rewrite T in Tw. rewrite Di in Ew. destruct p as [q0|]; [|discriminate].
      cbn in Ew. injection Ew as <-. destruct (PC Tw q0 eq_refl) as (_ & A & _).
      destruct (ni_rec _ _ H Hq q0 A) as (rq & rest & Er). exists [], rq, rest. split; [exact Er|].
      intros x [].
    - apply (proj2 (PT_now LockWAL L (s_fx s) P) Hq w z); auto. }
  assert (PA := path_vote L (s_fx s) v SF P (ni_sync _ _ H) CV).
  assert (N' : NI L' (emit (FxVote v) (emit (FxSync RoundWAL) (emit (FxWrite RoundWAL (WVote v)) s)))).
  { destruct H as [h1 h2 h3 h4 h5 h6 h7 h8]. constructor; cbn [emit s_hvs s_round s_step s_import s_locked s_lround s_final s_cur s_fx s_halt].
    - eapply hvs_ok_mono; eauto.
    - intros w [F|F]; [injection F as <-; right; split; [exact R|rewrite T; exact St]|apply h2; exact F].
    - intros r q Ei. destruct (h3 r q Ei) as (A & B). split; [exact A|]. intros Er. destruct (B Er) as (B1 & B2).
      split; [exact B1|]. intros B3. exfalso. destruct t.
      + destruct (PV eq_refl) as (_ & F). specialize (F r q Ei). lia.
      + cbn in St. lia.
    - intros SS HH w q [F|F] Tw Ew.
      + injection F as <-. rewrite T in Tw. rewrite Di in Ew. destruct p as [q0|]; [|discriminate].
        cbn in Ew. injection Ew as <-. destruct (PC Tw q0 eq_refl) as (_ & A & A2).
        left. exists q0. split; [exact A|]. split; [reflexivity|lia].
      + destruct (h4 SS HH w q F Tw Ew) as [A|(r' & o & A1 & A2 & A3)]; [left; exact A|right].
        exists r', o. split; [exact A1|]. split; [exact A2|]. eapply polka_mono; eauto.
    - intros q Eq. eapply decided_mono; eauto.
    - intros Ec. destruct (h6 Ec) as (c & A & B). exists c. split; [exact A|]. eapply decided_mono; eauto.
    - exact h7.
    - exact h8. }
  assert (GG : goes L s (emit (FxVote v) (emit (FxSync RoundWAL) (emit (FxWrite RoundWAL (WVote v)) s)))).
  { exists L'. split; [exact N'|exact PA]. }
  assert (GO := REC (CRecv j v) L' (emit (FxVote v) (emit (FxSync RoundWAL) (emit (FxWrite RoundWAL (WVote v)) s)))
                 N' SF (proj1 (proj2 (proj2 PA)))).
  destruct GO as (L2 & N2 & P2); [apply legit_mine; left; reflexivity|].
  exists L2. split; [exact N2|]. eapply path_trans; [exact PA|exact P2].
Qed.

Lemma send_ok : forall L s t p, NI L s -> safe L -> PT L (s_fx s) -> gone s = false ->
  pre L (CSend t p) s -> goes L s (send_vote C me E rec t p s).
Proof.
  intros L s t p H S0 P G Pr. unfold send_vote, who.
  destruct (Nat.ltb j n) eqn:Hj; [|apply goes_here; auto].
  rewrite Hj. apply Nat.ltb_lt in Hj.
  destruct p as [q|].
  - destruct (p_block q); [|apply goes_here; auto; apply NI_halted; exact H].
    eapply cast_ok; eauto.
  - eapply cast_ok; eauto.
Qed.

Lemma wal_round_ok : forall L s l, NI L s -> safe L -> PT L (s_fx s) -> all_legit L l ->
  goes L s (wal E RoundWAL (WVotes l) s).
Proof.
  intros L s l H S0 P A. unfold wal. rewrite disk. exists L. split; [apply NI_emit; [exact H|exact Logic.I]|].
  cbn [emit s_fx]. apply path_one; auto. apply PT_write; [exact P|].
  destruct (PT_now RoundWAL L _ P) as (X & Y). split.
  - intros v. rewrite X. cbn. split; [auto|]. intros [F|F]; [discriminate|exact F].
  - intros x [F|F]; [injection F as <-; exact A|auto].
Qed.

Lemma proposal_ok : forall L s id pol, NI L s -> safe L -> PT L (s_fx s) -> goes L s (send_proposal E id pol s).
Proof.
  intros L s id pol H S0 P. unfold send_proposal, wal_sync, wal. rewrite disk. exists L. split.
  - apply NI_emit; [|exact Logic.I]. apply NI_emit; [|exact Logic.I]. apply NI_emit; [|exact Logic.I]. exact H.
  - cbn [emit s_fx].
    assert (P1 : PT L (FxWrite RoundWAL (WProposal (s_round s)) :: s_fx s)).
    { apply PT_write; [exact P|]. destruct (PT_now RoundWAL L _ P) as (X & Y). split.
      - intros v. rewrite X. cbn. split; [auto|]. intros [F|F]; [discriminate|exact F].
      - intros x [F|F]; [discriminate|auto]. }
    eapply path_trans; [apply path_one; [exact S0|exact P|exact P1]|].
    eapply path_trans; [apply path_one; [exact S0|exact P1|apply PT_sync; exact P1]|].
    apply path_one; [exact S0|apply PT_sync; exact P1|]. apply PT_proposal. apply PT_sync. exact P1.
Qed.

Lemma set_legit : forall L s r t, NI L s -> all_legit L (indexed (vs_msgs (h_votes r t (s_hvs s))) 0).
Proof. intros L s r t H i v Hi. eapply (indexed_legit C byz L r t); [apply (ni_hvs _ _ H)|exact Hi]. Qed.

Lemma enter_propose_ok : forall L s, NI L s -> safe L -> PT L (s_fx s) -> goes L s (enter_propose C me E rec s).
Proof.
  intros L s H S0 P. unfold enter_propose. apply goes_begin; try discriminate; auto.
  intros Hs N1. set (s1 := with_step Propose s) in *.
  assert (P1 : PT L (s_fx s1)) by exact P.
  destruct (is_proposer C me s1).
  - destruct (s_locked s1) as [lp|] eqn:El.
    + eapply goes_trans; [apply proposal_ok; auto|]. intros L1 X N2 S2 P2.
      apply goes_here; [exact S2|exact P2| |reflexivity]. apply NI_cur; [exact N2|]. intros F. exfalso.
      unfold send_proposal, wal_sync, wal in F. rewrite disk in F. cbn in F. discriminate.
    + apply goes_here; auto. apply NI_prop. exact N1.
  - destruct (proposal_complete s1); [apply REC; auto; exact Logic.I|apply goes_here; auto].
Qed.

Lemma enter_prevote_ok : forall L s, NI L s -> safe L -> PT L (s_fx s) -> goes L s (enter_prevote C E rec s).
Proof.
  intros L s H S0 P. unfold enter_prevote. apply goes_begin; try discriminate; auto.
  intros Hs N1. cbn in Hs.
  assert (P1 : PT L (s_fx (with_step PrevoteS s))) by exact P.
  assert (O := own_below L s H Hs).
  set (s1 := with_step PrevoteS s) in *.
  assert (IM : forall r q, s_import s1 = Some (r, q) -> r < s_round s1).
  { intros r q Ei. destruct (ni_import _ _ H r q Ei) as (A & B). cbn.
    destruct (Z.eq_dec r (s_round s)) as [F|F]; [|lia]. destruct (B F). lia. }
  assert (PS : forall p, s_locked s1 = None \/ p = s_locked s1 -> pre L (CSend Prevote p) s1).
  { intros p Hp. cbn [pre]. split; [intros w Hw; left; apply O; exact Hw|]. split; [cbn; lia|].
    split; [intros _; split; [exact Hp|exact IM]|discriminate]. }
  assert (NX : forall p, s_locked s1 = None \/ p = s_locked s1 ->
     goes L s1 (andthen (rec (CSend Prevote p) s1) (prevote_check rec))).
  { intros p Hp. apply goes_andthen; [apply REC; auto|].
    intros. apply prevote_check_ok; auto. }
  destruct (s_locked s1) as [lp|] eqn:El.
  - apply NX. right. reflexivity.
  - destruct (s_cur s1) as [p|] eqn:Ec; [|apply NX; auto].
    destruct (p_block p); [|apply NX; auto].
    destruct (p_valid p); [apply NX; auto|].
    destruct (negb (valid_proposer C s1)); [apply NX; auto|].
    destruct (e_import E); [|apply REC; auto].
    assert (N2 : NI L (with_import (Some (s_round s1, p_id p)) s1)).
    { apply NI_import; [exact N1|exact El|reflexivity|exact O]. }
    eapply goes_fx; [|apply prevote_check_ok; [exact N2|exact S0|exact P]]. reflexivity.
Qed.

Lemma enter_prevote_wait_ok : forall L s, NI L s -> safe L -> PT L (s_fx s) ->
  goes L s (enter_prevote_wait E rec s).
Proof.
  intros L s H S0 P. unfold enter_prevote_wait. apply goes_begin; try discriminate; auto.
  intros Hs N1. set (s1 := with_step PrevoteWait s) in *.
  eapply goes_trans; [apply wal_round_ok; [exact N1|exact S0|exact P|apply (set_legit L s1 (s_round s1) Prevote N1)]|].
  intros L1 X N2 S2 P2. unfold prevotes_of.
  destruct (over_id _); [apply REC; auto; exact Logic.I|apply goes_here; auto].
Qed.

Lemma enter_new_round_ok : forall L s, NI L s -> safe L -> PT L (s_fx s) -> goes L s (enter_new_round E rec s).
Proof.
  intros L s H S0 P. unfold enter_new_round.
  apply goes_andthen; [apply goes_here; auto; apply NI_reset; [exact H|lia]|].
  intros L1 X N1 S1 P1 _. destruct (e_delay E); [apply goes_here; auto|apply REC; auto; exact Logic.I].
Qed.

Lemma enter_trans_wait_ok : forall L s, NI L s -> safe L -> PT L (s_fx s) -> goes L s (enter_trans_wait E rec s).
Proof.
  intros L s H S0 P. unfold enter_trans_wait. apply goes_begin; try discriminate; auto.
  intros Hs N1. assert (P1 : PT L (s_fx (with_step TransactionWait s))) by exact P.
  destruct (e_waittx E); [apply goes_here; auto|apply REC; auto; exact Logic.I].
Qed.

Lemma over_decided : forall L s r id, NI L s -> over_id (precommits_of r s) = Some (Some id) ->
  exists b a, quorum L r Precommit b (Some (id, a)).
Proof.
  intros L s r id H Eo. destruct (bool_dec qm true) as [Hq|Hq]; [|exists 0, 0; intros F; contradiction].
  destruct (over_quorum C byz (cf Hq) L r Precommit (s_hvs s) _ (ni_hvs _ _ H) Eo)
    as (b & ps & A & Q). destruct ps as [(x, a)|]; [|discriminate]. cbn in A. injection A as ->. exists b, a. intros _. exact Q.
Qed.

Lemma enter_precommit_wait_ok : forall L s, NI L s -> safe L -> PT L (s_fx s) ->
  goes L s (enter_precommit_wait E rec s).
Proof.
  intros L s H S0 P. unfold enter_precommit_wait. apply goes_begin; try discriminate; auto.
  intros Hs N1. set (s1 := with_step PrecommitWait s) in *.
  eapply goes_trans; [apply wal_round_ok; [exact N1|exact S0|exact P|apply (set_legit L s1 (s_round s1) Precommit N1)]|].
  intros L1 X N2 S2 P2.
  destruct (over_id (precommits_of (s_round s1) s1)) as [[id|]|] eqn:Eo.
  - apply REC; auto. cbn [pre].
    assert (ER : s_round (wal E RoundWAL (WVotes (indexed (vs_msgs (precommits_of (s_round s1) s1)) 0)) s1) = s_round s1)
      by (unfold wal; rewrite disk; reflexivity).
    rewrite ER. apply (over_decided L1 _ _ _ N2). unfold wal. rewrite disk. exact Eo.
  - apply REC; auto. exact Logic.I.
  - apply goes_here; auto.
Qed.

Lemma enter_precommit_ok : forall L s, NI L s -> safe L -> PT L (s_fx s) -> goes L s (enter_precommit E rec s).
Proof.
  intros L s H S0 P. unfold enter_precommit. apply goes_begin; try discriminate; auto.
  intros Hs N1. cbn in Hs.
  assert (O := own_prec_below L s H Hs).
  set (s1 := with_step PrecommitS s) in *.
  assert (P1 : PT L (s_fx s1)) by exact P.
  assert (OP : forall w, In (j, w) L -> v_type w = Precommit -> v_round w < s_round s1).
  { intros w Hw Tw. destruct (O w Hw) as [A|(_ & A)]; [exact A|congruence]. }
  assert (PS0 : forall L' s', (forall w, In (j, w) L' -> In (j, w) L) -> s_round s' = s_round s1 -> s_step s' = PrecommitS ->
     forall p, (forall q, p = Some q -> polka L' (s_round s') (Some (p_id q)) /\ s_locked s' = Some q /\ s_lround s' = s_round s') ->
     pre L' (CSend Precommit p) s').
  { intros L' s' HL ER ES p Hp. cbn [pre]. split.
    - intros w Hw. destruct (O w (HL w Hw)) as [A|(A & B)]; rewrite ER; cbn; [left; exact A|right; auto].
    - split; [rewrite ES; cbn; lia|]. split; [discriminate|]. intros _. exact Hp. }
  assert (AF : forall L' s0 s2, goes L' s0 s2 -> goes L' s0 (andthen s2 (precommit_check rec))).
  { intros L' s0 s2 G. apply goes_andthen; [exact G|]. intros. apply precommit_check_ok; auto. }
  destruct (over_id (prevotes_of (s_round s1) s1)) as [o|] eqn:Eo.
  2:{ apply AF. apply REC; auto. apply PS0; auto. intros q F. discriminate. }
  assert (PK := over_polka L (s_round s1) (s_hvs s1) o (ni_hvs _ _ N1) Eo).
  assert (UN : forall s', s_locked s' = s_locked s1 -> NI L s' ->
    (forall id, o = Some id -> has_id id (s_locked s1) = false) -> NI L (with_lock None (-1) s')).
  { intros s' El Ns' NO. apply NI_unlock; [exact Ns'|]. intros SS HH w p Hw Tw Ew lp El2 Ep _.
    exists (s_round s1), o. split; [apply OP; auto|]. split; [|exact PK].
    intros F. specialize (NO p F). rewrite <- El, El2 in NO. cbn in NO. rewrite Ep, Z.eqb_refl in NO. discriminate. }
  destruct o as [id|].
  2:{ apply AF. apply go_rec; auto.
      - apply UN; [reflexivity|exact N1|]. discriminate.
      - apply PS0; auto. intros q F. discriminate. }
  destruct (has_id id (s_locked s1)) eqn:Hl.
  - (* the same lock *)
    apply AF. apply go_rec; auto.
    + apply NI_relock; [exact N1|cbn; lia|]. intros w Hw Tw. specialize (OP w Hw Tw). lia.
    + apply PS0; auto. intros q F. cbn in F |- *. split; [|auto].
      cbn in Hl. rewrite F in Hl. cbn in Hl. apply Z.eqb_eq in Hl. rewrite Hl. exact PK.
  - destruct (has_id id (s_cur s1) && (match s_cur s1 with Some p => p_block p | None => false end)) eqn:Hc.
    + (* a new lock *)
      apply andb_true_iff in Hc. destruct Hc as (Hc & Hb).
      destruct (s_cur s1) as [cp|] eqn:Ec; [|discriminate]. cbn in Hc. apply Z.eqb_eq in Hc.
      unfold wal_sync, wal. rewrite disk.
      set (l := indexed (vs_msgs (prevotes_of (s_round s1) s1)) 0).
      assert (PV : proves L l (s_round s1) id) by (apply indexed_proves; [apply N1|exact Eo]).
      destruct (path_lock L (s_fx s1) l (s_round s1) id S0 P PV OP) as (PA & ER).
      set (s3 := emit (FxSync LockWAL) (emit (FxWrite LockWAL (WParts id)) (emit (FxWrite LockWAL (WVotes l))
             (with_lock (Some cp) (s_round s1) s1)))).
      assert (N3 : NI L s3).
      { destruct N1 as [h1 h2 h3 h4 h5 h6 h7 h8]. constructor;
          cbn [s3 emit with_lock s_hvs s_round s_step s_import s_locked s_lround s_final s_cur s_fx s_halt]; auto.
        - intros r q Ei. destruct (h3 r q Ei) as (A & B). split; [exact A|]. intros Er. cbn. split; [lia|].
          intros F. lia.
        - intros SS HH w p Hw Tw Ew. destruct (Z.eq_dec p id) as [->|NE].
          + left. exists cp. split; [reflexivity|]. split; [exact Hc|]. specialize (OP w Hw Tw). lia.
          + right. exists (s_round s1), (Some id). split; [apply OP; auto|]. split; [congruence|exact PK].
        - intros Hq lp Elp. injection Elp as <-. exists (s_round s1), (recs (news LockWAL (s_fx s1))).
          rewrite Hc. exact ER. }
      apply AF.
      assert (GG : goes L s3 (rec (CSend Precommit (s_locked s3)) s3)).
      { apply REC; [exact N3|exact S0|exact (proj1 (proj2 (proj2 PA)))|]. apply PS0; auto.
        intros q F. cbn in F. injection F as <-. cbn [s3 emit with_lock s_round s_locked s_lround]. rewrite Hc. auto. }
      destruct GG as (L2 & A2 & B2). exists L2. split; [exact A2|]. eapply path_trans; [exact PA|exact B2].
    + destruct (has_id id (s_cur s1) && (match s_cur s1 with Some p => p_complete p | None => false end)).
      * apply goes_here; auto. apply NI_halted. exact N1.
      * apply AF. apply go_rec; auto.
        -- apply UN; [reflexivity| |].
           ++ apply NI_cur; [exact N1|]. cbn. discriminate.
           ++ intros id' F. injection F as <-. exact Hl.
        -- apply PS0; auto. intros q F. discriminate.
Qed.

Lemma set_id_some : forall id c, exists x, set_id id c = Some x /\ p_id x = id.
Proof.
  intros id [p|]; cbn; [|eauto]. destruct (Z.eqb (p_id p) id) eqn:F; [|eauto].
  apply Z.eqb_eq in F. eauto.
Qed.

Lemma finish_ok : forall L s, NI L s -> safe L -> PT L (s_fx s) -> s_step s = Commit -> goes L s (finish s).
Proof.
  intros L s H S0 P Hs. unfold finish. destruct (ni_commit _ _ H Hs) as (c & Ec & Dc). rewrite Ec.
  destruct (p_block c); apply goes_here; auto; [apply NI_final; auto|apply NI_halted; exact H].
Qed.

Lemma enter_commit_ok : forall L s r id, NI L s -> safe L -> PT L (s_fx s) -> gone s = false ->
  (exists b a, quorum L r Precommit b (Some (id, a))) -> goes L s (enter_commit C E r id s).
Proof.
  intros L s r id H S0 P Hg (b & a & Q). unfold enter_commit.
  assert (DD : decided L id) by (intros Hq; exists r, b, a; apply Q; exact Hq).
  destruct (begin_cases Commit s) as [(-> & Hs)|(h & ->)]; try discriminate.
  2:{ unfold andthen, gone. cbn. apply goes_here; auto. apply NI_halted. exact H. }
  unfold andthen. assert (Hg' : gone (with_step Commit s) = false) by exact Hg. rewrite Hg'.
  unfold wal_sync, wal. rewrite disk.
  set (s1 := with_step Commit s).
  set (l := indexed (vs_msgs (precommits_of r (with_crnd r s1))) 0).
  set (s3 := emit (FxSync CommitWAL) (emit (FxWrite CommitWAL (WVotes l)) (with_crnd r s1))).
  assert (AL : all_legit L l) by (apply (set_legit L s r Precommit H)).
  assert (PW : PT L (FxWrite CommitWAL (WVotes l) :: s_fx s)).
  { apply PT_write; [exact P|]. intros x [F|F]; [injection F as <-; exact AL|].
    apply (PT_now CommitWAL L _ P). exact F. }
  assert (PA : path L (s_fx s) L (s_fx s3)).
  { eapply path_trans; [apply path_one; [exact S0|exact P|exact PW]|].
    apply path_one; [exact S0|exact PW|]. apply PT_sync. exact PW. }
  assert (NC : forall x, p_id x = id -> NI L (with_cur (Some x) s3)).
  { intros x Ex. destruct H as [h1 h2 h3 h4 h5 h6 h7 h8]. constructor;
      cbn [s3 s1 with_cur emit with_crnd with_step s_hvs s_round s_step s_import s_locked s_lround s_final s_cur s_fx s_halt]; auto.
    - intros v Hv. destruct (h2 v Hv) as [A|(A & B)]; [left; exact A|right; split; [exact A|cbn in *; lia]].
    - intros q p Ei. destruct (h3 q p Ei) as (A & B). split; [exact A|]. intros Er. cbn. split; [lia|].
      intros F. lia.
    - intros _. exists x. split; [reflexivity|]. rewrite Ex. exact DD. }
  assert (GO : forall x, p_id x = id -> goes L s (if p_complete x then finish (with_cur (Some x) s3) else with_cur (Some x) s3)).
  { intros x Ex.
    assert (G1 : goes L s (with_cur (Some x) s3)) by (exists L; split; [apply NC; exact Ex|exact PA]).
    destruct (p_complete x); [|exact G1].
    eapply goes_trans; [exact G1|]. intros L1 X N1 S1 P1. apply finish_ok; auto. }
  destruct (set_id_some id (s_cur s3)) as (x & Ex & Ix). rewrite Ex.
  cbn [with_cur s_cur]. destruct (negb (p_complete x) && e_cached E).
  - cbn [with_cur s_cur s_round s_step s_locked s_lround s_pol s_hvs s_import s_prop s_crnd s_final s_halt s_fx].
    apply (GO (mkParts (p_id x) true (c_decodes C (p_id x)) false)). exact Ix.
  - apply (GO x). exact Ix.
Qed.

Lemma handle_prevote_ok : forall L s v, NI L s -> safe L -> PT L (s_fx s) ->
  goes L s (handle_prevote rec v s).
Proof.
  intros L s v H S0 P. unfold handle_prevote.
  destruct (step_leb Commit (s_step s)) eqn:Es; [apply goes_here; auto|].
  assert (NC : s_step s <> Commit) by (intros F; rewrite F in Es; discriminate).
  cbv zeta. set (r := v_round v). set (q := over_id (prevotes_of r s)).
  match goal with |- context [rec CPrevoteWait ?b] => set (s1 := b) end.
  assert (X : NI L s1 /\ s_fx s1 = s_fx s /\ s_step s1 = s_step s).
  { unfold s1. destruct q as [oid|] eqn:Eq; [|auto].
    assert (PK := over_polka L r (s_hvs s) oid (ni_hvs _ _ H) Eq).
    set (s0 := match s_locked s with
         | Some lp => if Z.ltb (s_lround s) r && negb (match oid with Some id => Z.eqb (p_id lp) id | None => false end)
                      then with_lock None (-1) s else s
         | None => s end).
    assert (Y : NI L s0 /\ s_fx s0 = s_fx s /\ s_step s0 = s_step s).
    { unfold s0. destruct (s_locked s) as [lp|] eqn:El; [|auto].
      destruct (Z.ltb (s_lround s) r && negb (match oid with Some id => Z.eqb (p_id lp) id | None => false end)) eqn:Eu; [|auto].
      apply andb_true_iff in Eu. destruct Eu as (E1 & E2). apply Z.ltb_lt in E1. apply negb_true_iff in E2.
      split; [|auto]. apply NI_unlock; [exact H|]. intros SS HH w p Hw Tw Ew lp' El' Ep Hr.
      rewrite El in El'. injection El' as <-. exists r, oid. split; [lia|]. split; [|exact PK].
      intros ->. rewrite Ep, Z.eqb_refl in E2. discriminate. }
    destruct Y as (Y1 & Y2 & Y3). destruct oid as [id|]; [|auto].
    destruct (Z.eqb (s_round s0) r); [|auto].
    split; [|cbn; auto]. apply NI_cur; [exact Y1|]. intros F. congruence. }
  destruct X as (N1 & F1 & St1). cbv zeta.
  assert (P1 : PT L (s_fx s1)) by (rewrite F1; exact P).
  destruct (Z.ltb r (s_round s1) && step_ltb (s_step s1) PrevoteS && Z.eqb r (s_pol s1) && proposal_complete s1);
    [apply go_rec; auto; exact Logic.I|].
  destruct (Z.eqb (s_round s1) r && step_ltb (s_step s1) PrevoteS); [apply go_rec; auto; exact Logic.I|].
  destruct (Z.eqb (s_round s1) r && step_eqb (s_step s1) PrevoteS); [apply go_rec; auto; exact Logic.I|].
  destruct (Z.eqb (s_round s1) r && step_eqb (s_step s1) PrevoteWait).
  { destruct q; [apply go_rec; auto; exact Logic.I|apply goes_here; auto]. }
  destruct (Z.ltb (s_round s1) r && step_ltb (s_step s1) Commit) eqn:Ea; [|apply goes_here; auto].
  apply andb_true_iff in Ea. destruct Ea as (Ea & _). apply Z.ltb_lt in Ea.
  apply go_rec; auto; [apply NI_reset; auto|exact Logic.I].
Qed.

Lemma handle_precommit_ok : forall L s v, NI L s -> safe L -> PT L (s_fx s) ->
  goes L s (handle_precommit rec v s).
Proof.
  intros L s v H S0 P. unfold handle_precommit.
  cbv zeta. set (r := v_round v). set (q := over_id (precommits_of r s)).
  destruct (Z.ltb r (s_round s) && step_ltb (s_step s) Commit).
  { destruct q as [[id|]|] eqn:Eq; try (apply goes_here; auto; fail).
    apply REC; auto. exact (over_decided L s r id H Eq). }
  destruct (Z.eqb (s_round s) r && step_ltb (s_step s) PrecommitS); [apply REC; auto; exact Logic.I|].
  destruct (Z.eqb (s_round s) r && step_eqb (s_step s) PrecommitS); [apply REC; auto; exact Logic.I|].
  destruct (Z.eqb (s_round s) r && step_eqb (s_step s) PrecommitWait).
  { destruct q as [[id|]|] eqn:Eq.
    - apply REC; auto. exact (over_decided L s r id H Eq).
    - apply REC; auto; exact Logic.I.
    - apply goes_here; auto. }
  destruct (Z.ltb (s_round s) r && step_ltb (s_step s) Commit) eqn:Ea; [|apply goes_here; auto].
  apply andb_true_iff in Ea. destruct Ea as (Ea & _). apply Z.ltb_lt in Ea.
  apply go_rec; auto; [apply NI_reset; auto|exact Logic.I].
Qed.

Lemma receive_ok : forall L s i v, NI L s -> safe L -> PT L (s_fx s) -> legit L i v ->
  goes L s (receive_vote C rec i v s).
Proof.
  intros L s i v H S0 P G. unfold receive_vote.
  destruct (negb (Z.eqb (v_height v) (c_height C))); [apply goes_here; auto|].
  destruct (negb (Nat.ltb i n)); [apply goes_here; auto|].
  destruct (h_add dig i v (s_hvs s)) as (added, h) eqn:Eh.
  assert (Hh : hvs_ok L h).
  { replace h with (snd (h_add dig i v (s_hvs s))) by (rewrite Eh; reflexivity).
    apply hvs_ok_add; [apply H|exact G]. }
  assert (N1 : NI L (with_hvs h s)) by (apply NI_hvs; auto).
  destruct (negb added); [apply goes_here; auto|].
  destruct (negb (vs_has (h_votes (v_round v) (v_type v) h))); [apply goes_here; auto|].
  destruct (v_type v).
  - eapply goes_fx; [|apply handle_prevote_ok; [exact N1|exact S0|exact P]]. reflexivity.
  - eapply goes_fx; [|apply handle_precommit_ok; [exact N1|exact S0|exact P]]. reflexivity.
Qed.

Lemma do_call_ok : forall c L s, NI L s -> safe L -> PT L (s_fx s) -> gone s = false -> pre L c s ->
  goes L s (do_call C me E rec c s).
Proof.
  intros [i v|t p| | | | | | |r id|] L s H S0 P G Pr; cbn [do_call].
  - apply receive_ok; auto.
  - apply send_ok; auto.
  - apply enter_trans_wait_ok; auto.
  - apply enter_propose_ok; auto.
  - apply enter_prevote_ok; auto.
  - apply enter_prevote_wait_ok; auto.
  - apply enter_precommit_ok; auto.
  - apply enter_precommit_wait_ok; auto.
  - apply enter_commit_ok; auto.
  - apply enter_new_round_ok; auto.
Qed.

End Calls.

Lemma run_ok : forall E, e_disk E = true -> forall fuel c L s, NI L s -> safe L -> PT L (s_fx s) ->
  pre L c s -> goes L s (run C (who C j) E fuel c s).
Proof.
  intros E HD. induction fuel as [|fuel IH]; intros c L s H S0 P Pr; cbn [run].
  - apply goes_here; auto. apply NI_halted. exact H.
  - destruct (gone s) eqn:G; [apply goes_here; auto|].
    apply do_call_ok; auto.
Qed.

Lemma perform_ok : forall E c L s s0, e_disk E = true -> NI L s -> safe L -> PT L (s_fx s) ->
  s_fx s = s_fx s0 -> pre L c s -> goes L s0 (perform C (who C j) E c s).
Proof.
  intros. eapply goes_fx; [symmetry; eassumption|]. unfold perform. apply run_ok; auto.
Qed.

(* ---------- events ---------- *)
Definition ev_ok (L : log) (e : event) : Prop :=
  match e with
  | EVote i v => legit L i v
  | EBlock _ l _ => all_legit L l
  | _ => True
  end.

Lemma parts_changed_ok : forall E L s, e_disk E = true -> NI L s -> safe L -> PT L (s_fx s) ->
  goes L s (parts_changed C (who C j) E s).
Proof.
  intros E L s HD H S0 P. unfold parts_changed.
  destruct ((step_eqb (s_step s) TransactionWait || step_eqb (s_step s) Propose) && proposal_complete s).
  { apply perform_ok; auto. exact Logic.I. }
  destruct (step_eqb (s_step s) Commit && (match s_cur s with Some p => p_complete p | None => false end)) eqn:Ec;
    [|apply goes_here; auto].
  apply andb_true_iff in Ec. destruct Ec as (Ec & _). apply finish_ok; auto.
  unfold step_eqb in Ec. destruct (s_step s); cbn in Ec; try discriminate. reflexivity.
Qed.

Lemma step_eqb_eq : forall a b, step_eqb a b = true -> a = b.
Proof. intros [] []; cbn; intros H; try discriminate H; reflexivity. Qed.

Lemma handle_ok : forall E e L s, e_disk E = true -> NI L s -> safe L -> PT L (s_fx s) -> ev_ok L e ->
  goes L s (handle C (who C j) E e s).
Proof.
  intros E e L s HD H S0 P Ev. unfold handle. destruct (gone s) eqn:G; [apply goes_here; auto|].
  destruct e as [i v|i r id pol| |ok|oid| |r votes id].
  - apply perform_ok; auto.
  - destruct (Z.eqb r (s_round s) && step_ltb (s_step s) Commit && Nat.ltb i n
         && Z.eqb (proposer_index C (s_round s)) (Z.of_nat i)) eqn:Ec; [|apply goes_here; auto].
    rewrite !andb_true_iff in Ec. destruct Ec as (((_ & Hc) & _) & _).
    destruct (s_cur s) as [c|] eqn:Ecur; [apply goes_here; auto|].
    match goal with |- goes L s (parts_changed C _ E ?x) => assert (N1 : NI L x) end.
    { apply NI_cur; [apply NI_pol; exact H|]. cbn. intros F. rewrite F in Hc. discriminate. }
    eapply goes_fx; [|apply parts_changed_ok; [exact HD|exact N1|exact S0|exact P]]. reflexivity.
  - destruct (s_cur s) as [p|] eqn:Ec; [|apply goes_here; auto].
    destruct (p_complete p); [apply goes_here; auto|].
    match goal with |- goes L s (parts_changed C _ E ?x) => assert (N1 : NI L x) end.
    { apply NI_cur; [exact H|]. intros F. destruct (ni_commit _ _ H F) as (c & A & B). rewrite Ec in A.
      injection A as <-. eauto. }
    eapply goes_fx; [|apply parts_changed_ok; [exact HD|exact N1|exact S0|exact P]]. reflexivity.
  - destruct (s_import s) as [(r, id)|] eqn:Ei; [|apply goes_here; auto].
    assert (N1 : NI L (with_import None s)) by (apply NI_no_import; exact H).
    set (s1 := with_import None s) in *.
    destruct (negb (Z.eqb (s_round s1) r) || step_leb Commit (s_step s1)) eqn:Er; [apply goes_here; auto|].
    apply orb_false_iff in Er. destruct Er as (Er & Hc). apply negb_false_iff in Er. apply Z.eqb_eq in Er.
    cbn in Er. destruct (ni_import _ _ H r id Ei) as (_ & B). destruct (B (eq_sym Er)) as (B1 & B2).
    assert (SD : forall s2 p, s_fx s2 = s_fx s -> s_round s2 = s_round s -> s_step s2 = s_step s ->
       s_locked s2 = s_locked s -> s_import s2 = None -> NI L s2 -> step_leb (s_step s2) PrevoteWait = true ->
       goes L s (perform C (who C j) E (CSend Prevote p) s2)).
    { intros s2 p F1 F2 F3 F4 F5 N2 Hs. apply perform_ok; auto; [rewrite F1; exact P|].
      apply Nat.leb_le in Hs. rewrite F3 in Hs. cbn in Hs. destruct (B2 Hs) as (A1 & A2).
      cbn [pre]. split; [intros w Hw; left; rewrite F2; apply A2; exact Hw|]. split; [rewrite F3; cbn; lia|].
      split; [|discriminate]. intros _. split; [left; congruence|]. intros x y F. congruence. }
    destruct ok.
    + set (s2 := match s_cur s1 with
                 | Some p => if p_block p && Z.eqb (c_bid C (p_id p)) (c_bid C id)
                             then with_cur (Some (mkParts id true true true)) s1 else s1
                 | None => s1 end).
      assert (X : s_fx s2 = s_fx s /\ s_round s2 = s_round s /\ s_step s2 = s_step s /\
                  s_locked s2 = s_locked s /\ s_import s2 = None /\ NI L s2).
      { unfold s2. destruct (s_cur s1) as [p|] eqn:Ec.
        - destruct (p_block p && Z.eqb (c_bid C (p_id p)) (c_bid C id)); [|repeat (split; [reflexivity|]); exact N1].
          repeat (split; [reflexivity|]). apply NI_cur; [exact N1|]. intros F. rewrite F in Hc. discriminate.
        - repeat (split; [reflexivity|]). exact N1. }
      destruct X as (X1 & X2 & X3 & X4 & X5 & X6).
      destruct (step_leb (s_step s2) PrevoteWait) eqn:Hs.
      * destruct (s_cur s2) as [p|]; [apply SD; auto|].
        apply goes_here; auto. apply NI_halted. exact X6.
      * apply goes_here; auto.
    + destruct (step_leb (s_step s1) PrevoteWait) eqn:Hs; [apply SD; auto|apply goes_here; auto].
  - destruct (s_prop s) as [r|] eqn:Ep; [|apply goes_here; auto].
    assert (N1 : NI L (with_prop None s)) by (apply NI_prop; exact H).
    set (s1 := with_prop None s) in *.
    destruct (Z.eqb (s_round s1) r && step_eqb (s_step s1) Propose) eqn:Er; [|apply goes_here; auto].
    apply andb_true_iff in Er. destruct Er as (_ & Es). apply step_eqb_eq in Es.
    destruct oid as [id|]; [|apply perform_ok; auto; exact Logic.I].
    assert (G1 : goes L s1 (send_proposal E id (-1) s1)) by (apply proposal_ok; auto).
    eapply goes_fx with (s1 := s1); [reflexivity|].
    eapply goes_trans; [exact G1|]. intros L1 X N2 S2 P2.
    apply perform_ok; [exact HD| |exact S2|exact P2|reflexivity|exact Logic.I].
    apply NI_cur; [exact N2|]. intros F. exfalso. unfold send_proposal, wal_sync, wal in F. rewrite HD in F.
    cbn in F. cbn in Es. congruence.
  - destruct (s_step s); try (apply goes_here; auto; fail); apply perform_ok; auto; exact Logic.I.
  - destruct (step_eqb (s_step s) Commit && (match s_cur s with Some p => p_complete p | None => false end));
      [apply goes_here; auto|].
    match goal with |- context [with_hvs ?x s] => set (h := x) end.
    assert (Hh : hvs_ok L h) by (apply (hvs_ok_add_all C byz L votes (s_hvs s) (ni_hvs _ _ H) Ev)).
    assert (N1 : NI L (with_hvs h s)) by (apply NI_hvs; auto).
    set (s1 := with_hvs h s) in *.
    destruct (over_id (precommits_of r s1)) as [[id'|]|] eqn:Eo; try (apply goes_here; auto; fail).
    destruct (Z.eqb id id') eqn:Ei; [|apply goes_here; auto]. apply Z.eqb_eq in Ei. subst id'.
    destruct (over_decided L s1 r id N1 Eo) as (b & a & Q).
    match goal with |- context [with_cur (Some ?x) s1] => set (px := x) end.
    assert (N2 : NI L (with_cur (Some px) s1)).
    { apply NI_cur; [exact N1|]. intros _. exists px. split; [reflexivity|]. intros Hq. exists r, b, a. apply Q. exact Hq. }
    cbv zeta. destruct (step_ltb (s_step (with_cur (Some px) s1)) Commit) eqn:Es.
    + apply perform_ok; auto. exists b, a. exact Q.
    + eapply goes_fx; [|apply finish_ok; [exact N2|exact S0|exact P|]]; [reflexivity|].
      cbn. unfold step_ltb in Es. cbn in Es. destruct (s_step s); cbn in Es; try discriminate. reflexivity.
Qed.

(* ---------- restart ---------- *)
Definition at_least (s : node) (r : Z) (k : nat) : Prop :=
  r < s_round s \/ (r = s_round s /\ (k <= step_num (s_step s))%nat).

Definition keeps (s s' : node) : Prop :=
  s_locked s' = s_locked s /\ s_lround s' = s_lround s /\ s_halt s' = s_halt s /\ s_fx s' = s_fx s /\
  s_import s' = s_import s /\ s_final s' = s_final s /\
  (forall r k, at_least s r k -> at_least s' r k) /\ (s_step s <> Commit -> s_step s' <> Commit).

Lemma keeps_refl : forall s, keeps s s.
Proof. intros s. repeat (split; [reflexivity|]). split; auto. Qed.

Lemma keeps_trans : forall a b c, keeps a b -> keeps b c -> keeps a c.
Proof.
  intros a b c (A1 & A2 & A3 & A4 & A5 & A6 & A7 & A8) (B1 & B2 & B3 & B4 & B5 & B6 & B7 & B8).
  repeat (split; [congruence|]). split; auto.
Qed.

Lemma keeps_hvs : forall s h, keeps s (with_hvs h s).
Proof. intros s h. repeat (split; [reflexivity|]). split; auto. Qed.

Lemma keeps_raise : forall s r st, st <> Commit ->
  s_round s < r \/ (s_round s = r /\ (step_num (s_step s) <= step_num st)%nat) ->
  keeps s (with_step st (with_round r s)).
Proof.
  intros s r st NC H. repeat (split; [reflexivity|]). split; [|cbn; auto].
  intros q k [A|(A & B)]; unfold at_least; cbn; destruct H as [H|(H & H')]; try (left; lia).
  right. split; [lia|lia].
Qed.

Lemma vote_step_nc : forall t, vote_step t <> Commit.
Proof. destruct t; discriminate. Qed.

Lemma raise_cond : forall s r st, Z.ltb (s_round s) r || (Z.eqb (s_round s) r && step_leb (s_step s) st) = true ->
  s_round s < r \/ (s_round s = r /\ (step_num (s_step s) <= step_num st)%nat).
Proof.
  intros s r st H. apply orb_true_iff in H. destruct H as [H|H]; [left; now apply Z.ltb_lt|right].
  apply andb_true_iff in H. destruct H as (A & B). apply Z.eqb_eq in A. apply Nat.leb_le in B. auto.
Qed.

Lemma raise_cond_lt : forall s r st b,
  (Z.ltb (s_round s) r || (Z.eqb (s_round s) r && step_ltb (s_step s) st)) && b = true ->
  s_round s < r \/ (s_round s = r /\ (step_num (s_step s) <= step_num st)%nat).
Proof.
  intros s r st b H. apply andb_true_iff in H. destruct H as (H & _).
  apply orb_true_iff in H. destruct H as [H|H]; [left; now apply Z.ltb_lt|right].
  apply andb_true_iff in H. destruct H as (A & B). apply Z.eqb_eq in A. apply Nat.ltb_lt in B. split; [exact A|lia].
Qed.

Lemma votes_apply_ok : forall L l i0 v0 s, hvs_ok L (s_hvs s) -> all_legit L ((i0, v0) :: l) ->
  let s1 := with_hvs (add_all C ((i0, v0) :: l) (s_hvs s)) s in
  let s2 := if (Z.ltb (s_round s1) (v_round v0) || (Z.eqb (s_round s1) (v_round v0) && step_ltb (s_step s1) (vote_step (v_type v0))))
               && vs_has (h_votes (v_round v0) (v_type v0) (s_hvs s1))
            then with_step (vote_step (v_type v0)) (with_round (v_round v0) s1) else s1 in
  keeps s s2 /\ hvs_ok L (s_hvs s2) /\ s_hvs s2 = s_hvs s1.
Proof.
  intros L l i0 v0 s H A s1 s2.
  assert (H1 : hvs_ok L (s_hvs s1)) by (apply hvs_ok_add_all; auto).
  unfold s2. match goal with |- context [if ?b then _ else _] => destruct b eqn:Eb end.
  - apply raise_cond_lt in Eb. split; [|split; [exact H1|reflexivity]].
    eapply keeps_trans; [apply keeps_hvs|]. apply keeps_raise; [apply vote_step_nc|exact Eb].
  - split; [apply keeps_hvs|]. split; [exact H1|reflexivity].
Qed.

Lemma safe_lt : forall L i v, safe L -> In (i, v) L -> (i < n)%nat.
Proof.
  induction L as [|(k, w) L IH]; intros i v H Hi; [contradiction|].
  destruct H as (S0 & _ & Hk & _). destruct Hi as [F|F]; [injection F as -> ->; exact Hk|eapply IH; eauto].
Qed.

Lemma apply_round1_ok : forall L s e, safe L -> hvs_ok L (s_hvs s) ->
  match e with WVote v => In (j, v) L | WVotes l => all_legit L l | _ => True end ->
  let s' := apply_round1 C (who C j) s e in
  keeps s s' /\ hvs_ok L (s_hvs s') /\
  match e with WVote v => at_least s' (v_round v) (step_num (vote_step (v_type v))) | _ => True end.
Proof.
  intros L s [v|[|(i0, v0) l]|r|p] S0 H A; cbn [apply_round1].
  - pose proof (safe_lt L j v S0 A) as Hj. unfold who. apply Nat.ltb_lt in Hj. rewrite Hj, Hj. cbv zeta.
    set (s1 := with_hvs (snd (h_add dig j v (s_hvs s))) s).
    assert (H1 : hvs_ok L (s_hvs s1)) by (apply hvs_ok_add; [exact H|apply legit_mine; exact A]).
    destruct (Z.ltb (s_round s1) (v_round v) || (Z.eqb (s_round s1) (v_round v) && step_leb (s_step s1) (vote_step (v_type v)))) eqn:Eb.
    + apply raise_cond in Eb. split; [|split; [exact H1|right; cbn; auto]].
      eapply keeps_trans; [apply keeps_hvs|]. apply keeps_raise; [apply vote_step_nc|exact Eb].
    + split; [apply keeps_hvs|]. split; [exact H1|]. apply orb_false_iff in Eb. destruct Eb as (E1 & E2).
      apply Z.ltb_ge in E1. unfold at_least. destruct (Z.eq_dec (s_round s1) (v_round v)) as [F|F]; [right|left; lia].
      split; [auto|]. rewrite F, Z.eqb_refl in E2. cbn [andb] in E2. apply Nat.leb_gt in E2. lia.
  - split; [apply keeps_refl|auto].
  - destruct (votes_apply_ok L l i0 v0 s H A) as (X & Y & _). split; [exact X|]. split; [exact Y|exact Logic.I].
  - cbv zeta. destruct (Z.ltb (s_round s) r || (Z.eqb (s_round s) r && step_leb (s_step s) Propose)) eqn:Eb.
    + apply raise_cond in Eb. split; [apply keeps_raise; [discriminate|exact Eb]|]. split; [exact H|exact Logic.I].
    + split; [apply keeps_refl|auto].
  - split; [apply keeps_refl|auto].
Qed.

Lemma fold_round_ok : forall L l s, safe L -> hvs_ok L (s_hvs s) ->
  (forall v, In (WVote v) l -> In (j, v) L) -> (forall x, In (WVotes x) l -> all_legit L x) ->
  let s' := fold_left (apply_round1 C (who C j)) l s in
  keeps s s' /\ hvs_ok L (s_hvs s') /\
  (forall v, In (WVote v) l -> at_least s' (v_round v) (step_num (vote_step (v_type v)))).
Proof.
  intros L l. induction l as [|e l IH]; intros s S0 H A B; cbn [fold_left].
  - split; [apply keeps_refl|]. split; [exact H|]. intros v [].
  - destruct (apply_round1_ok L s e S0 H) as (K1 & H1 & V1).
    { destruct e as [v|x|r|p]; auto; [apply A|apply B]; left; reflexivity. }
    destruct (IH (apply_round1 C (who C j) s e) S0 H1 (fun v Hv => A v (or_intror Hv)) (fun x Hx => B x (or_intror Hx)))
      as (K2 & H2 & V2).
    split; [eapply keeps_trans; eauto|]. split; [exact H2|].
    intros v [F|F]; [|apply V2; exact F]. subst e. apply K2. exact V1.
Qed.

Lemma fold_lock_ok : forall L K s, safe L -> hvs_ok L (s_hvs s) -> lwf L K ->
  let '(s', bp, last) := fold_left (apply_lock1 C) (rev K) (s, None, None) in
  keeps s s' /\ hvs_ok L (s_hvs s') /\
  (qm = true -> last = (match recs K with [] => None | x :: _ => Some x end)) /\
  (qm = true -> forall l K' r p, K = WVotes l :: K' -> proves L l r p -> bp = Some (p, r)).
Proof.
  intros L K s S0 H. induction K as [|e K IH]; intros W.
  - cbn. split; [apply keeps_refl|]. split; [exact H|]. split; [reflexivity|]. intros _. discriminate.
  - cbn [rev]. rewrite fold_left_app. cbn [fold_left].
    assert (WK : lwf L K) by (destruct e as [v|x|r|p]; cbn in W; tauto).
    specialize (IH WK). destruct (fold_left (apply_lock1 C) (rev K) (s, None, None)) as ((s1, bp), last).
    destruct IH as (K1 & H1 & La & Bp).
    destruct e as [v|x|r|p]; cbn in W; try contradiction.
    + destruct W as (_ & AL). cbn [apply_lock1]. destruct x as [|(i0, v0) l].
      * split; [exact K1|]. split; [exact H1|]. split; [exact La|]. intros Hq l K' r p F PV. injection F as <- <-.
        destruct (proves_nonempty _ _ _ _ _ _ PV) as (? & ? & ? & F & _). discriminate.
      * destruct (votes_apply_ok L l i0 v0 s1 H1 AL) as (X & Y & Z0). cbv zeta in X, Y, Z0 |- *.
        split; [eapply keeps_trans; eauto|]. split; [exact Y|]. split; [exact La|].
        intros Hq l' K' r p F PV. injection F as <- <-.
        destruct (proves_nonempty _ _ _ _ _ _ PV) as (i' & v' & l'' & F & R). injection F as <- <- <-.
        unfold prevotes_of. cbn [with_hvs s_hvs]. rewrite R.
        rewrite (add_all_over C byz (cf Hq) (minority Hq) strict qm L _ r p (s_hvs s1) S0 H1 PV). reflexivity.
    + destruct W as (_ & l & r & K'' & EK & PV). cbn [apply_lock1].
      assert (X : forall last', (match bp with
          | Some (id', r0) => if Z.eqb p id' then (s1, bp, Some (id', r0)) else (s1, bp, last)
          | None => (s1, bp, last) end) = last' ->
          fst (fst last') = s1 /\ snd (fst last') = bp /\ (qm = true -> snd last' = Some (p, r))).
      { intros last' <-. split; [destruct bp as [(x, y)|]; [destruct (Z.eqb p x)|]; reflexivity|].
        split; [destruct bp as [(x, y)|]; [destruct (Z.eqb p x)|]; reflexivity|].
        intros Hq. rewrite (Bp Hq l K'' r p EK PV), Z.eqb_refl. reflexivity. }
      match goal with |- match ?t with _ => _ end =>
        destruct (X t eq_refl) as (X1 & X2 & X3); clear X; destruct t as ((s', bp'), last') end.
      cbn in X1, X2, X3. subst s' bp'.
      split; [exact K1|]. split; [exact H1|]. split; [|intros _; discriminate].
      intros Hq. rewrite (X3 Hq).
      destruct (proves_nonempty _ _ _ _ _ _ PV) as (i' & v' & l'' & F & R). rewrite EK, F. cbn. rewrite R. reflexivity.
Qed.

Lemma apply_commit1_ok : forall L s e, hvs_ok L (s_hvs s) ->
  match e with WVotes l => all_legit L l | _ => True end ->
  keeps s (apply_commit1 C s e) /\ hvs_ok L (s_hvs (apply_commit1 C s e)).
Proof.
  intros L s [v|[|(i0, v0) l]|r|p] H A; cbn [apply_commit1]; try (split; [apply keeps_refl|exact H]).
  destruct (votes_apply_ok L l i0 v0 s H A) as (X & Y & _). split; [exact X|exact Y].
Qed.

Lemma fold_commit_ok : forall L l s, hvs_ok L (s_hvs s) -> (forall x, In (WVotes x) l -> all_legit L x) ->
  keeps s (fold_left (apply_commit1 C) l s) /\ hvs_ok L (s_hvs (fold_left (apply_commit1 C) l s)).
Proof.
  intros L l. induction l as [|e l IH]; intros s H A; cbn [fold_left]; [split; [apply keeps_refl|exact H]|].
  destruct (apply_commit1_ok L s e H) as (K1 & H1).
  { destruct e; auto. apply A. left. reflexivity. }
  destruct (IH _ H1 (fun x Hx => A x (or_intror Hx))) as (K2 & H2). split; [eapply keeps_trans; eauto|exact H2].
Qed.

Lemma recs_polka : forall L K p r, lwf L K -> In (p, r) (recs K) -> polka L r (Some p).
Proof.
  intros L K p r. induction K as [|e K IH]; intros W Hi; [contradiction|].
  assert (WK : lwf L K) by (destruct e as [v|x|r0|p0]; cbn in W; tauto).
  destruct e as [v|x|r0|p0]; cbn in W, Hi; auto.
  destruct W as (_ & l & r1 & K'' & EK & PV).
  destruct (proves_nonempty _ _ _ _ _ _ PV) as (i' & v' & l'' & F & R). subst l. rewrite EK in Hi.
  destruct Hi as [Hi|Hi]; [|apply IH; [exact WK|rewrite EK; exact Hi]].
  injection Hi as <- <-. rewrite R. intros Hq. eapply proves_polka; eauto.
Qed.

Hypothesis strict_q : strict = true -> qm = true.

Lemma recover_ok : forall L f, safe L -> (forall w, D w L (news w f)) -> unsynced LockWAL f = 0%nat ->
  (strict = true -> lock_recorded f) ->
  NI L (recover C (who C j) f) /\ s_fx (recover C (who C j) f) = f.
Proof.
  intros L f S0 HD U LR. unfold lock_recorded in LR. unfold recover in *.
  rewrite !entries_news, rev_involutive in *.
  match goal with |- context [fold_left (apply_round1 C (who C j)) _ ?x] => set (s0 := x) in * end.
  assert (H0 : hvs_ok L (s_hvs s0)) by apply hvs_ok_new.
  destruct (HD RoundWAL) as (RV & RL). destruct (HD LockWAL) as (LW & CV). pose proof (HD CommitWAL) as CL.
  destruct (fold_round_ok L (rev (news RoundWAL f)) s0 S0 H0) as (K1 & H1 & V1).
  { intros v Hv. apply RV. now apply in_rev. }
  { intros x Hx. apply RL. now apply in_rev. }
  set (s1 := fold_left (apply_round1 C (who C j)) (rev (news RoundWAL f)) s0) in *.
  pose proof (fold_lock_ok L (news LockWAL f) s1 S0 H1 LW) as FL.
  destruct (fold_left (apply_lock1 C) (rev (news LockWAL f)) (s1, None, None)) as ((s2, bp), last).
  destruct FL as (K2 & H2 & La & _).
  match goal with |- context [fold_left (apply_commit1 C) _ ?x] => set (s3 := x) in * end.
  assert (KK : keeps s0 s2) by (eapply keeps_trans; eauto).
  assert (H3 : hvs_ok L (s_hvs s3)).
  { unfold s3. destruct last as [(id, r)|]; [destruct (c_decodes C id)|]; exact H2. }
  destruct (fold_commit_ok L (rev (news CommitWAL f)) s3 H3) as (K4 & H4).
  { intros x Hx. apply CL. now apply in_rev. }
  set (s4 := fold_left (apply_commit1 C) (rev (news CommitWAL f)) s3) in *.
  destruct KK as (A1 & A2 & A3 & A4 & A5 & A6 & A7 & A8). destruct K4 as (B1 & B2 & B3 & B4 & B5 & B6 & B7 & B8).
  assert (X3 : s_fx s3 = f /\ s_import s3 = None /\ s_final s3 = None /\ s_step s3 = s_step s2 /\
               s_round s3 = s_round s2).
  { unfold s3. destruct last as [(id, r)|]; [destruct (c_decodes C id)|]; cbn;
      rewrite ?A4, ?A5, ?A6; cbn; auto. }
  destruct X3 as (X1 & X2 & X3 & X4 & X5).
  assert (NC : s_step s4 <> Commit).
  { apply B8. rewrite X4. apply A8. discriminate. }
  split; [|rewrite B4; exact X1]. constructor.
  - exact H4.
  - intros v Hv. specialize (V1 v). assert (Hin : In (WVote v) (rev (news RoundWAL f))) by (apply -> in_rev; apply RV; exact Hv).
    specialize (V1 Hin). apply (proj1 (proj2 (proj2 (proj2 (proj2 (proj2 (proj2 K2))))))) in V1.
    apply B7. unfold at_least in V1 |- *. rewrite X4, X5. exact V1.
  - intros r p Ei. rewrite B5, X2 in Ei. discriminate.
  - intros SS HH w p Hw Tw Ew.
    specialize (La (strict_q SS)).
    destruct (CV (strict_q SS) w p Hw Tw Ew) as (later & rq & rest & ER & LT).
    rewrite B3 in HH.
    destruct later as [|(p', r') later].
    + cbn in ER. rewrite ER in La. left. specialize (LR SS).
      assert (DC : c_decodes C p = true).
      { destruct (c_decodes C p) eqn:F; [reflexivity|]. exfalso. unfold s3 in HH. rewrite La, F in HH.
        cbn in HH. discriminate. }
      assert (El : s_locked s4 = Some (mkParts p true true false)).
      { rewrite B1. unfold s3. rewrite La, DC. reflexivity. }
      rewrite last_lock_recs, ER in LR. cbn [app hd_error] in LR.
      assert (Er : s_lround s4 = rq) by (rewrite B2; unfold s3; rewrite La, DC; reflexivity).
      rewrite Er.
      exists (mkParts p true true false). split; [exact El|]. split; [reflexivity|].
      apply LR; auto. apply in_news. apply RV. exact Hw.
    + cbn in ER. rewrite ER in La. assert (Hr : v_round w < r') by (apply (LT (p', r')); left; reflexivity).
      destruct (Z.eq_dec p' p) as [->|NE].
      * left. assert (DC : c_decodes C p = true).
        { destruct (c_decodes C p) eqn:F; [reflexivity|]. exfalso. unfold s3 in HH. rewrite La, F in HH.
          cbn in HH. discriminate. }
        exists (mkParts p true true false). split; [|split; [reflexivity|]].
        -- rewrite B1. unfold s3. rewrite La, DC. reflexivity.
        -- rewrite B2. unfold s3. rewrite La, DC. cbn. lia.
      * right. exists r', (Some p'). split; [exact Hr|]. split; [congruence|].
        apply (recs_polka L (news LockWAL f)); [exact LW|]. rewrite ER. left. reflexivity.
  - intros p Ep. rewrite B6, X3 in Ep. discriminate.
  - intros F. contradiction.
  - intros Hq lp El. specialize (La Hq). rewrite B4, X1. rewrite B1 in El. unfold s3 in El.
    destruct (recs (news LockWAL f)) as [|(p, r) rest] eqn:ER; rewrite La in El.
    + rewrite A1 in El. discriminate.
    + destruct (c_decodes C p).
      * cbn in El. injection El as <-. eauto.
      * cbn in El. rewrite A1 in El. discriminate.
  - rewrite B4, X1. exact U.
Qed.

Lemma start_ok : forall E L f, e_disk E = true -> safe L -> (forall w, D w L (news w f)) -> sent_ok L f ->
  (forall w, unsynced w f = 0%nat) -> (strict = true -> lock_recorded f) ->
  exists L', ext L L' /\ safe L' /\ NI L' (start C (who C j) E f) /\ PT L' (s_fx (start C (who C j) E f)).
Proof.
  intros E L f HD S0 DD SO U LR. destruct (recover_ok L f S0 DD (U LockWAL) LR) as (N1 & F1).
  assert (P0 : PT L f).
  { split; [|exact SO]. intros w a Ha. rewrite U in Ha. assert (a = 0%nat) as -> by lia. apply DD. }
  assert (G : goes L (recover C (who C j) f) (start C (who C j) E f)).
  { set (s := recover C (who C j) f) in *. assert (P1 : PT L (s_fx s)) by (rewrite F1; exact P0).
    unfold start. fold s. apply goes_andthen; [apply goes_here; auto|]. intros L1 X N2 S2 P2 _.
    destruct (s_step s); try (apply goes_here; auto; fail).
    - destruct (Z.eqb (s_round s) 0); apply perform_ok; auto; exact Logic.I.
    - apply perform_ok; auto. exact Logic.I.
    - destruct (vs_has _); [apply perform_ok; auto; exact Logic.I|apply goes_here; auto].
    - destruct (vs_has _); [apply perform_ok; auto; exact Logic.I|apply goes_here; auto]. }
  destruct G as (L' & N' & (X & S' & P' & _)). exists L'. auto.
Qed.

(* a node that is left alone while others sign *)
Lemma NI_others : forall L L' s, (forall e, In e L -> In e L') -> (forall v, In (j, v) L' -> In (j, v) L) ->
  NI L s -> NI L' s.
Proof.
  intros L L' s HI HO [h1 h2 h3 h4 h5 h6 h7 h8]. constructor; auto.
  - eapply hvs_ok_mono; eauto.
  - intros r p Ei. destruct (h3 r p Ei) as (A & B). split; [exact A|]. intros Er. destruct (B Er) as (B1 & B2).
    split; [exact B1|]. intros B3. destruct (B2 B3) as (B4 & B5). split; [exact B4|]. intros v Hv. auto.
  - intros SS HH w p Hw Tw Ew. destruct (h4 SS HH w p (HO w Hw) Tw Ew) as [A|(r' & o & A & B & D0)]; [left; exact A|right].
    exists r', o. split; [exact A|]. split; [exact B|]. eapply polka_mono; eauto.
  - intros p Ep. eapply decided_mono; eauto.
  - intros Ec. destruct (h6 Ec) as (c & A & B). exists c. split; [exact A|]. eapply decided_mono; eauto.
Qed.

(* a crash at any point of an event *)
Lemma crash_ok : forall E E' e L s k kr kl kc f, e_disk E = true -> e_disk E' = true ->
  NI L s -> safe L -> PT L (s_fx s) -> ev_ok L e ->
  f = after_crash C (who C j) E e k kr kl kc s -> (strict = true -> lock_recorded f) ->
  exists L', ext L L' /\ safe L' /\ NI L' (start C (who C j) E' f) /\ PT L' (s_fx (start C (who C j) E' f)).
Proof.
  intros E E' e L s k kr kl kc f HD HD' H S0 P Ev Ef LR.
  destruct (handle_ok E e L s HD H S0 P Ev) as (L1 & _ & (_ & _ & _ & g & Eg & CSg)).
  unfold after_crash in Ef. rewrite Eg in Ef.
  set (m := (List.length (g ++ s_fx s) - List.length (s_fx s) - k)%nat) in Ef.
  assert (Em : skipn m (g ++ s_fx s) = skipn m g ++ s_fx s).
  { rewrite skipn_app. replace (m - List.length g)%nat with 0%nat; [reflexivity|].
    unfold m. rewrite app_length. lia. }
  cbv zeta in Ef. fold m in Ef. rewrite Em in Ef.
  set (f1 := skipn m g ++ s_fx s) in *.
  destruct (left_over_news kr kl kc f1) as (a & b & c & Ha & Hb & Hc & Na & Nb & Nc & Sn).
  unfold left_over in *.
  destruct (CSg m (fun w => match w with RoundWAL => a | LockWAL => b | CommitWAL => c end))
    as (L2 & X2 & S2 & D2 & T2).
  { intros []; assumption. }
  destruct (start_ok E' L2 f HD' S2) as (L3 & X3 & S3 & N3 & P3).
  - intros w. rewrite Ef. specialize (D2 w). destruct w; cbn [news].
    + rewrite Na. exact D2.
    + rewrite Nb. exact D2.
    + rewrite Nc. exact D2.
  - intros v Hv. rewrite Ef in Hv. destruct Hv as [F|[F|[F|F]]]; try discriminate. apply T2. apply Sn. exact F.
  - intros w. rewrite Ef. destruct w; reflexivity.
  - exact LR.
  - exists L3. split; [eapply ext_trans; eauto|auto].
Qed.

End Inv.
