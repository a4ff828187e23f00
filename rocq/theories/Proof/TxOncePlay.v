(* Running concrete histories of a node (for C56, C57). *)
From Coq Require Import ZArith List Bool Arith Lia.
From Verif Require Import Model.TxLocator Spec.TxOnceSpec Proof.TxOnceFacts.
Import ListNotations.
Open Scope Z_scope.

Inductive act :=
| ABlock (i : nat) (b : block) (force : bool)
| ACommit (i : nat)
| AHeight
| AWorker
| AFail
| ACrash.

Definition is_nil {A : Type} (l : list A) : bool := match l with [] => true | _ => false end.

Fixpoint nodupb (l : list Z) : bool := match l with [] => true | x :: l' => negb (mem x l') && nodupb l' end.
Definition freshb (b : block) (p : list block) : bool :=
  nodupb (b_ids b) && forallb (fun id => forallb (fun a => negb (mem id (b_ids a))) p) (b_ids b).

Lemma mem_false : forall x l, mem x l = false -> ~ In x l.
Proof. intros x l H F. apply mem_In in F. congruence. Qed.
Lemma nodupb_ok : forall l, nodupb l = true -> NoDup l.
Proof.
  induction l as [|x l IH]; intros H; constructor; cbn in H; apply andb_true_iff in H; destruct H as (H1 & H2); auto.
  apply negb_true_iff in H1. apply mem_false. exact H1.
Qed.
Lemma freshb_ok : forall b p, freshb b p = true -> fresh b p.
Proof.
  intros b p H. apply andb_true_iff in H. destruct H as (H1 & H2). split; [apply nodupb_ok; exact H1|].
  rewrite forallb_forall in H2. intros id Hi (a & Ha & Hia). specialize (H2 id Hi). rewrite forallb_forall in H2.
  specialize (H2 a Ha). apply negb_true_iff in H2. exact (mem_false _ _ H2 Hia).
Qed.

Definition block_eqb (a b : block) : bool :=
  Z.eqb (b_height a) (b_height b) && Z.eqb (b_ts a) (b_ts b) && Z.eqb (b_th a) (b_th b) &&
  (if list_eq_dec Z.eq_dec (b_ids a) (b_ids b) then true else false).
Lemma block_eqb_ok : forall a b, block_eqb a b = true -> a = b.
Proof.
  intros [h ts th ids] [h' ts' th' ids'] H. unfold block_eqb in H. cbn [b_height b_ts b_th b_ids] in H.
  destruct (list_eq_dec Z.eq_dec ids ids') as [->|]; [|rewrite andb_false_r in H; discriminate].
  rewrite !andb_true_iff, !Z.eqb_eq in H. destruct H as (((-> & ->) & ->) & _). reflexivity.
Qed.
Fixpoint path_eqb (p q : list block) : bool :=
  match p, q with [], [] => true | a :: p', b :: q' => block_eqb a b && path_eqb p' q' | _, _ => false end.
Lemma path_eqb_ok : forall p q, path_eqb p q = true -> p = q.
Proof.
  induction p as [|a p IH]; intros [|b q] H; cbn in H; try discriminate; [reflexivity|].
  apply andb_true_iff in H. destruct H as (H1 & H2). apply block_eqb_ok in H1. rewrite H1, (IH q H2). reflexivity.
Qed.

Definition settledb (w : world) (i : nat) : bool :=
  match nth_error (w_t w) i with
  | Some t => match t_ids t with None => true | Some _ => match nth_error (w_path w) i with Some [] => true | _ => false end end
  | None => false
  end.
Lemma settledb_ok : forall w i, settledb w i = true -> settled w i.
Proof.
  intros w i H. unfold settledb in H. destruct (nth_error (w_t w) i) as [t|] eqn:Et; [|discriminate].
  destruct (t_ids t) eqn:Ei; [|left; exists t; auto]. right. destruct (nth_error (w_path w) i) as [[|]|]; [reflexivity|discriminate|discriminate].
Qed.

Section Play.
Variable tsof : Z -> Z.
Variable th0 : Z.
Variable rule : list block -> block -> Prop.
Variable ruleb : list block -> block -> bool.
Hypothesis ruleb_ok : forall p b, ruleb p b = true -> rule p b.
Variables ahead df : bool.

Definition play1 (a : act) (w : world) : option world :=
  match a with
  | ABlock i b force =>
      match nth_error (w_path w) i with
      | Some p =>
          match record tsof (w_m w) (w_t w) i b force with
          | (true, ts) =>
              if ruleb p b && (ahead || settledb w i) && (negb force || freshb b p) && forallb (in_range tsof b) (b_ids b)
              then Some (mkWorld (w_m w) ts (w_path w ++ [b :: p]) (w_chain w) (w_pend w) (w_lost w))
              else None
          | _ => None
          end
      | None => None
      end
  | ACommit i =>
      match w_pend w, m_queue (w_m w), nth_error (w_path w) i, nth_error (w_t w) i, commit (S i) (w_m w) (w_t w) i with
      | None, [], Some (b :: p), Some t, Some (m, ts) =>
          if path_eqb p (w_chain w) && (match t_ids t with Some _ => true | None => false end) &&
             (match t_parent t with Some j => settledb w j | None => true end)
          then Some (mkWorld m ts (w_path w) (w_chain w) (Some b) (w_lost w)) else None
      | _, _, _, _, _ => None
      end
  | AHeight =>
      match w_pend w, m_queue (w_m w) with
      | Some b, [] => Some (mkWorld (w_m w) (w_t w) (w_path w) (b :: w_chain w) None (w_lost w))
      | _, _ => None
      end
  | AWorker =>
      match worker (w_m w) with
      | Some m => Some (mkWorld m (w_t w) (w_path w) (w_chain w) (w_pend w) (w_lost w))
      | None => None
      end
  | AFail => if df then Some (mkWorld (worker_fails (w_m w)) (w_t w) (w_path w) (w_chain w) (w_pend w) (w_lost w)) else None
  | ACrash =>
      match w_chain w with
      | [] => Some (mkWorld (manager_new (m_db (w_m w))) [root th0] [[]] [] None (lost_now w))
      | b :: c => match restart tsof th0 (m_db (w_m w)) b with
                  | Some (m, ts) => Some (mkWorld m ts [[]; b :: c] (b :: c) None (lost_now w))
                  | None => None
                  end
      end
  end.

Fixpoint play (l : list act) (w : world) : option world :=
  match l with [] => Some w | a :: l' => match play1 a w with Some w' => play l' w' | None => None end end.

Lemma play1_ok : forall a w w', reach tsof th0 rule ahead df w -> play1 a w = Some w' -> reach tsof th0 rule ahead df w'.
Proof.
  intros [i b force|i| | | |] w w' R E; cbn [play1] in E.
  - destruct (nth_error (w_path w) i) as [p|] eqn:Ep; [|discriminate].
    destruct (record tsof (w_m w) (w_t w) i b force) as ([|], ts) eqn:Er; [|discriminate].
    destruct (ruleb p b && (ahead || settledb w i) && (negb force || freshb b p) && forallb (in_range tsof b) (b_ids b)) eqn:Ec; [|discriminate].
    injection E as <-. rewrite !andb_true_iff in Ec. destruct Ec as (((C1 & C2) & C3) & C4).
    apply (r_block tsof th0 rule ahead df w i p b force ts); auto.
    + intros Ea. rewrite Ea in C2. apply settledb_ok. exact C2.
    + intros Ef. rewrite Ef in C3. apply freshb_ok. exact C3.
  - destruct (w_pend w) eqn:Epd; [discriminate|]. destruct (m_queue (w_m w)) eqn:Eq; [|discriminate].
    destruct (nth_error (w_path w) i) as [[|b p]|] eqn:Ep; try discriminate.
    destruct (nth_error (w_t w) i) as [t|] eqn:Et; [|discriminate].
    destruct (commit (S i) (w_m w) (w_t w) i) as [(m, ts)|] eqn:Ec; [|discriminate].
    match type of E with (if ?c then _ else _) = _ => destruct c eqn:Eb; [|discriminate] end. injection E as <-.
    rewrite !andb_true_iff in Eb. destruct Eb as ((B1 & B2) & B3). apply path_eqb_ok in B1. subst p.
    apply (r_commit tsof th0 rule ahead df w i t b m ts); auto.
    + destruct (t_ids t); [discriminate|discriminate B2].
    + intros j Hj. rewrite Hj in B3. apply settledb_ok. exact B3.
  - destruct (w_pend w) as [b|] eqn:Epd; [|discriminate]. destruct (m_queue (w_m w)) eqn:Eq; [|discriminate]. injection E as <-.
    apply r_height; auto.
  - destruct (worker (w_m w)) as [m|] eqn:Ew; [|discriminate]. injection E as <-. apply r_worker; auto.
  - destruct df eqn:Ed; [|discriminate]. injection E as <-. apply r_fails; auto.
  - destruct (w_chain w) as [|b c] eqn:Ec; [injection E as <-; apply r_crash_empty; auto|].
    destruct (restart tsof th0 (m_db (w_m w)) b) as [(m, ts)|] eqn:Er; [|discriminate]. injection E as <-.
    apply r_crash; auto.
Qed.

Lemma play_ok : forall l w w', reach tsof th0 rule ahead df w -> play l w = Some w' -> reach tsof th0 rule ahead df w'.
Proof.
  induction l as [|a l IH]; intros w w' R E; cbn in E; [injection E as <-; exact R|].
  destruct (play1 a w) as [w1|] eqn:E1; [|discriminate]. apply (IH w1 w'); auto. exact (play1_ok a w w1 R E1).
Qed.

Definition start : world := mkWorld (manager_new []) [root th0] [[]] [] None [].
End Play.

Definition laterb (p : list block) (b : block) : bool :=
  Z.ltb 0 (b_ts b) && match p with [] => true | a :: _ => Z.ltb (b_ts a) (b_ts b) end.
Lemma laterb_ok : forall p b, laterb p b = true -> later p b.
Proof.
  intros p b H. apply andb_true_iff in H. destruct H as (H1 & H2). apply Z.ltb_lt in H1. split; [exact H1|].
  destruct p; [exact I|]. apply Z.ltb_lt in H2. exact H2.
Qed.
Definition constb (th : Z) (p : list block) (b : block) : bool := laterb p b && forallb (fun a => Z.eqb (b_th a) th) (b :: p).
Lemma constb_ok : forall th p b, constb th p b = true -> constant_threshold th p b.
Proof.
  intros th p b H. apply andb_true_iff in H. destruct H as (H1 & H2). split; [apply laterb_ok; exact H1|].
  apply Forall_forall. rewrite forallb_forall in H2. intros x Hx. apply Z.eqb_eq. auto.
Qed.
Definition advb (tsof : Z -> Z) (p : list block) (b : block) : bool :=
  laterb p b && match p with [] => true | a :: _ => Z.leb (b_ts a + b_th a) (b_ts b + b_th b) end &&
  forallb (fun id => Z.ltb (tsof id) (b_ts b + b_th b)) (b_ids b).
Lemma advb_ok : forall tsof p b, advb tsof p b = true -> window_advances tsof p b.
Proof.
  intros tsof p b H. unfold advb in H. rewrite !andb_true_iff in H. destruct H as ((H1 & H2) & H3). split; [apply laterb_ok; exact H1|]. split.
  - destruct p; [exact I|]. apply Z.leb_le. exact H2.
  - rewrite forallb_forall in H3. intros id Hi. apply Z.ltb_lt. auto.
Qed.
