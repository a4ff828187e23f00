(* C51: a vote set counts each validator once and reports a decision exactly
   when more than two thirds of the validators stand behind it. *)
From Coq Require Import ZArith List Bool Arith Lia.
From Verif Require Import Model.Votes Spec.VoteSpec Proof.VotesFacts.
Import ListNotations.
Open Scope nat_scope.

(* Whatever has been handed in, the votes on record are exactly those the
   rule of Spec/VoteSpec.v keeps, one for each validator, and the mask shows
   who voted. *)
Theorem C51_votes_on_record : forall digest n ops,
  exists f, on_record digest n ops f /\
    (forall i, i < n -> nth_error (vs_msgs (vrun digest ops (vs_new n))) i = Some (f i)) /\
    (forall i, i < n -> nth_error (vs_mask (vrun digest ops (vs_new n))) i
                        = Some (match f i with Some _ => true | None => false end)).
Proof.
  intros digest n ops. destruct (record_exists digest n ops) as (f & R). exists f. split; [exact R|].
  destruct (vrun_ok digest n ops f R) as (V & H & _).
  assert (M : forall i, i < n -> nth_error (vs_msgs (vrun digest ops (vs_new n))) i = Some (f i)).
  { intros i Hi. specialize (H i Hi). unfold held in H.
    destruct (nth_error (vs_msgs (vrun digest ops (vs_new n))) i) eqn:E; [now rewrite H|].
    apply nth_error_None in E. rewrite (vi_len _ _ _ V) in E. lia. }
  split; [exact M|]. intros i Hi.
  destruct (nth_error (vs_mask (vrun digest ops (vs_new n))) i) as [b|] eqn:E.
  - f_equal. pose proof (proj1 (vi_bits _ _ _ V i)) as B1. pose proof (proj2 (vi_bits _ _ _ V i)) as B2.
    rewrite E in B1, B2. rewrite (M i Hi) in B1, B2. destruct b.
    + destruct (B1 eq_refl) as (v & Ev). injection Ev as ->. reflexivity.
    + destruct (f i) as [v|]; [|reflexivity]. assert (F : Some false = Some true) by (apply B2; eauto). discriminate F.
  - apply nth_error_None in E. rewrite (vi_mask _ _ _ V) in E. lia.
Qed.
Print Assumptions C51_votes_on_record.

(* The result of handing in one more vote says whether it was taken. *)
Theorem C51_answer : forall digest n ops f i v,
  on_record digest n ops f ->
  (fst (vs_add digest i v (vrun digest ops (vs_new n))) = true <-> taken digest f n i v).
Proof.
  intros digest n ops f i v R. destruct (vrun_ok digest n ops f R) as (V & H & O).
  pose proof (vs_add_spec digest n _ i v V) as G.
  destruct (vs_add digest i v (vrun digest ops (vs_new n))) as (b, vs'). cbn.
  destruct G as (_ & GT & GF). split.
  - intros ->. destruct (GT eq_refl) as ((o & D & S') & _).
    assert (Hi : i < n) by (rewrite <- (vi_len _ _ _ V); apply nth_error_Some; congruence).
    split; [exact Hi|]. rewrite <- (H i Hi). unfold held. rewrite D.
    destruct o as [w|]; [|exact Logic.I]. destruct S' as (S1 & S2). split; [exact S1|].
    intros F. apply S2. unfold wins in F.
    rewrite <- (backers_ext digest (held (vrun digest ops (vs_new n)))) in F by exact H.
    rewrite backers_tally in F by apply (vi_len _ _ _ V). exact F.
  - intros (Hi & T). destruct b; [reflexivity|exfalso].
    destruct (GF eq_refl) as (_ & _ & [D|(w & D & S')]).
    + apply nth_error_None in D. rewrite (vi_len _ _ _ V) in D. lia.
    + rewrite <- (H i Hi) in T. unfold held in T. rewrite D in T. destruct T as (T1 & T2).
      destruct S' as [S'|S']; [exact (T1 S')|]. apply T2. unfold wins.
      rewrite <- (backers_ext digest (held (vrun digest ops (vs_new n)))) by exact H.
      rewrite backers_tally by apply (vi_len _ _ _ V). exact S'.
Qed.
Print Assumptions C51_answer.

(* The winner is reported exactly when there is one, with the part set of a
   decision having that digest; the remembered answer is never stale. *)
Theorem C51_winner : forall digest n ops f dg,
  on_record digest n ops f ->
  (wins digest f n dg <-> exists id, over (vrun digest ops (vs_new n)) = Some (dg, id)) /\
  (forall id, over (vrun digest ops (vs_new n)) = Some (dg, id) ->
     exists d, digest d = dg /\ id = d_id d).
Proof.
  intros digest n ops f dg R. destruct (vrun_ok digest n ops f R) as (V & H & _).
  pose proof (vs_get_spec digest n _ V) as G. unfold over.
  destruct (vs_get (vrun digest ops (vs_new n))) as (q, vs'). cbn.
  destruct G as (_ & _ & _ & _ & _ & _ & G1 & G2).
  assert (E : wins digest f n dg <-> 2 * n < 3 * tally digest dg (vs_msgs (vrun digest ops (vs_new n)))).
  { unfold wins. rewrite <- (backers_ext digest (held (vrun digest ops (vs_new n)))) by exact H.
    rewrite backers_tally by apply (vi_len _ _ _ V). tauto. }
  rewrite E. split; [split|].
  - apply G2.
  - intros (id & ->). exact (proj1 (G1 dg id eq_refl)).
  - intros id ->. exact (proj2 (G1 dg id eq_refl)).
Qed.
Print Assumptions C51_winner.

(* More than two thirds have voted, whatever for. *)
Theorem C51_turnout : forall digest n ops f,
  on_record digest n ops f ->
  (vs_has (vrun digest ops (vs_new n)) = true <->
   2 * n < 3 * List.length (filter (fun i => match f i with Some _ => true | None => false end) (seq 0 n))).
Proof.
  intros digest n ops f R. destruct (vrun_ok digest n ops f R) as (V & H & _).
  unfold vs_has. rewrite two_thirds, (vi_len _ _ _ V), (vi_count _ _ _ V). unfold vs_votes.
  assert (E : List.length (somes (vs_msgs (vrun digest ops (vs_new n)))) =
    List.length (filter (fun i => match f i with Some _ => true | None => false end) (seq 0 n))).
  { rewrite (filter_ext_in _ (fun i => match held (vrun digest ops (vs_new n)) i with Some _ => true | None => false end)).
    - pose proof (vi_len _ _ _ V) as L. unfold held. revert L.
      generalize (vs_msgs (vrun digest ops (vs_new n))). intros l <-.
      assert (GG : forall (l : list (option vote)) k, List.length (somes l) = List.length (filter (fun i => match
         (match nth_error l (i - k) with Some m => m | None => None end) with Some _ => true | None => false end)
           (seq k (List.length l)))).
      { clear. induction l as [|m l IH]; intros k; cbn [List.length seq filter]; [reflexivity|].
        replace (k - k) with 0 by lia. cbn [nth_error].
        rewrite (filter_ext_in _ (fun i => match
         (match nth_error l (i - S k) with Some m => m | None => None end) with Some _ => true | None => false end) (seq (S k) _)).
        - destruct m; cbn [somes List.length]; rewrite (IH (S k)); reflexivity.
        - intros i Hi. apply in_seq in Hi. replace (i - k) with (S (i - S k)) by lia. reflexivity. }
      rewrite (GG l 0). f_equal. apply filter_ext. intros i. now rewrite Nat.sub_0_r.
    - intros i Hi. apply in_seq in Hi. rewrite H by lia. reflexivity. }
  rewrite E. tauto.
Qed.
Print Assumptions C51_turnout.

(* Once a decision has won it stays the winner, and the votes that made it
   win stay on record, whatever is handed in later; and it is the only one. *)
Theorem C51_final : forall digest n ops more f f' dg,
  on_record digest n ops f -> on_record digest n (ops ++ more) f' -> wins digest f n dg ->
  wins digest f' n dg /\
  (forall i v, f i = Some v -> digest (v_dec v) = dg -> f' i = Some v) /\
  (forall other, wins digest f' n other -> other = dg).
Proof.
  intros digest n ops more f f' dg R R' W.
  destruct (wins_stable digest n ops f R dg more f' W R') as (W' & K).
  split; [exact W'|]. split; [exact K|]. intros other O. exact (wins_unique digest f' n other dg O W').
Qed.
Print Assumptions C51_final.

(* The list made for a winner holds the votes for it and nothing else, one
   for each backer. *)
Theorem C51_proof_of_winner : forall digest n ops f dg id,
  on_record digest n ops f -> over (vrun digest ops (vs_new n)) = Some (dg, id) ->
  exists l, vs_winning digest (vrun digest ops (vs_new n)) = Some l /\
    (forall v, In v l <-> (exists i, i < n /\ f i = Some v) /\ digest (v_dec v) = dg) /\
    List.length l = backers digest f n dg.
Proof.
  intros digest n ops f dg id R O. destruct (vrun_ok digest n ops f R) as (V & H & _).
  unfold vs_winning. rewrite O. eexists. split; [reflexivity|]. split.
  - intros v. rewrite filter_In, zlist_eqb_eq. unfold vs_votes. rewrite somes_in. unfold v_digest.
    split.
    + intros ((i & Hi) & <-). split; [|reflexivity]. exists i.
      assert (L : i < n) by (rewrite <- (vi_len _ _ _ V); apply nth_error_Some; congruence).
      split; [exact L|]. rewrite <- (H i L). unfold held. now rewrite Hi.
    + intros ((i & L & Hi) & <-). split; [|reflexivity]. exists i.
      rewrite <- (H i L) in Hi. unfold held in Hi.
      destruct (nth_error (vs_msgs (vrun digest ops (vs_new n))) i) as [m|]; [|discriminate Hi]. now rewrite Hi.
  - unfold vs_votes. rewrite winning_length.
    rewrite <- (backers_ext digest (held (vrun digest ops (vs_new n)))) by exact H.
    symmetry. apply backers_tally. apply (vi_len _ _ _ V).
Qed.
Print Assumptions C51_proof_of_winner.

(* The vote set cut down to the winner holds the votes for it and nothing
   else, each under its validator. *)
Theorem C51_restricted : forall digest n ops f dg id,
  on_record digest n ops f -> over (vrun digest ops (vs_new n)) = Some (dg, id) ->
  exists vs, vs_restrict digest (vrun digest ops (vs_new n)) = Some vs /\
    (forall i, i < n -> nth_error (vs_msgs vs) i =
       Some (match f i with
             | Some v => if list_eq_dec Z.eq_dec (digest (v_dec v)) dg then Some v else None
             | None => None
             end)).
Proof.
  intros digest n ops f dg id R O. destruct (vrun_ok digest n ops f R) as (V & H & _).
  unfold vs_restrict. rewrite O. eexists. split; [reflexivity|]. intros i Hi.
  rewrite (vi_len _ _ _ V).
  destruct (add_matching_ok digest dg n (vs_msgs (vrun digest ops (vs_new n))) 0 (vs_new n)
              (vsinv_new digest n)) as (_ & _ & B).
  - exact (vi_len _ _ _ V).
  - intros j _ Hj. cbn. rewrite nth_error_repeat by exact Hj. reflexivity.
  - destruct (nth_error (vs_msgs (vrun digest ops (vs_new n))) i) as [m|] eqn:E.
    + rewrite (B i m E : nth_error _ i = _). specialize (H i Hi). unfold held in H. rewrite E in H. subst m.
      f_equal. unfold backs. destruct (f i) as [v|]; [|reflexivity].
      destruct (list_eq_dec Z.eq_dec (digest (v_dec v)) dg) as [Y|Y].
      * assert (Z1 : zlist_eqb (v_digest digest v) dg = true) by (now apply zlist_eqb_eq). now rewrite Z1.
      * assert (Z1 : zlist_eqb (v_digest digest v) dg = false) by (now apply zlist_eqb_neq). now rewrite Z1.
    + apply nth_error_None in E. rewrite (vi_len _ _ _ V) in E. lia.
Qed.
Print Assumptions C51_restricted.

(* Rounds and kinds of vote do not mix, and forgetting old rounds forgets
   just those. *)
Theorem C51_rounds_apart : forall digest i v h r t lower except,
  h_votes r t (snd (h_add digest i v h)) =
    (if Z.eqb r (v_round v) && vtype_eqb t (v_type v)
     then snd (vs_add digest i v (h_votes r t h)) else h_votes r t h) /\
  h_votes r t (h_prune lower except h) =
    (if Z.ltb r lower && negb (Z.eqb r except) then vs_new (h_n h) else h_votes r t h).
Proof. intros. split; [apply h_votes_add|apply h_votes_prune]. Qed.
Print Assumptions C51_rounds_apart.

(* A late precommit for the last block is kept only if it agrees with the
   block that won. *)
Theorem C51_late_vote : forall digest n ops f i v dg id,
  on_record digest n ops f -> over (vrun digest ops (vs_new n)) = Some (dg, id) ->
  fst (vs_check_add digest i v (vrun digest ops (vs_new n))) = true ->
  digest (v_dec v) = dg /\ taken digest f n i v.
Proof.
  intros digest n ops f i v dg id R O. unfold vs_check_add. rewrite O.
  destruct (Z.eqb (v_round v) (vs_round (vrun digest ops (vs_new n))) && zlist_eqb dg (v_digest digest v)) eqn:E;
    [|discriminate].
  apply andb_true_iff in E. destruct E as (_ & E). apply zlist_eqb_eq in E. intros A. split; [symmetry; exact E|].
  apply (proj1 (C51_answer digest n ops f i v R) A).
Qed.
Print Assumptions C51_late_vote.

(* A concrete history of four validators: validator 3 changes its mind before
   the decision, is counted once, and cannot change it afterwards. *)
Definition ex_digest (d : decision) : list Z :=
  [d_block d; match d_parts d with Some (p, a) => p | None => -1 end]%Z.
Definition ex_vote (b : Z) : vote := mkVote 5 0 Prevote (mkDecision b (Some (b, 0)%Z) []) 100.
Definition ex_ops : list vop :=
  [Hand 0 (ex_vote 7); Ask; Hand 3 (ex_vote 8); Hand 1 (ex_vote 7); Ask; Hand 3 (ex_vote 7); Ask;
   Hand 3 (ex_vote 8); Hand 2 (ex_vote 8)].

Example C51_nonvacuous :
  over (vrun ex_digest (firstn 5 ex_ops) (vs_new 4)) = None /\
  vs_has (vrun ex_digest (firstn 5 ex_ops) (vs_new 4)) = true /\
  over (vrun ex_digest ex_ops (vs_new 4)) = Some ([7; 7]%Z, Some 7%Z) /\
  option_map (@List.length vote) (vs_winning ex_digest (vrun ex_digest ex_ops (vs_new 4))) = Some 3.
Proof. vm_compute. repeat split; reflexivity. Qed.
