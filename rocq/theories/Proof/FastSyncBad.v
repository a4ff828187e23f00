(** A peer which sends something bad. *)
From Coq Require Import ZArith List Bool Arith Lia Permutation.
From Verif Require Import Model.Bytes Model.FastSync Spec.FastSyncSpec Proof.FastSyncFacts Proof.FastSyncInv Proof.FastSyncOps Proof.FastSyncSteps
  Proof.FastSyncSys Proof.FastSyncMore.
Import ListNotations.
Open Scope Z_scope.

Section Bad.
  Variable parse : bytes -> option Z.
  Local Notation inv := (inv parse).

  Lemma give_up_no : forall i l hs l' hs', give_up i l hs = Some (l', hs') -> forall r, In (Some r) l' -> r_peer r <> i.
  Proof.
    intros i. induction l as [|o l IH]; intros hs l' hs' E r I1; cbn [give_up] in E; [injection E as <- <-; destruct I1|].
    destruct o as [x|].
    - destruct (Nat.eqb_spec (r_peer x) i) as [X|X].
      + destruct (hs_add hs (r_height x)) as [h1|]; [|discriminate E]. destruct (give_up i l h1) as [[l1 h2]|] eqn:G; [|discriminate E]. injection E as <- <-.
        destruct I1 as [Y|I1]; [discriminate Y|]. exact (IH _ _ _ G r I1).
      + destruct (give_up i l hs) as [[l1 h2]|] eqn:G; [|discriminate E]. injection E as <- <-.
        destruct I1 as [Y|I1]; [injection Y as <-; exact X|]. exact (IH _ _ _ G r I1).
    - destruct (give_up i l hs) as [[l1 h2]|] eqn:G; [|discriminate E]. injection E as <- <-.
      destruct I1 as [Y|I1]; [discriminate Y|]. exact (IH _ _ _ G r I1).
  Qed.

  Lemma reschedule_pending : forall k net q q', reschedule k net q = Some q' -> q_pending q' = q_pending q.
  Proof.
    induction k as [|k IH]; intros net q q' E; cbn [reschedule] in E; [injection E as <-; reflexivity|].
    destruct (3 <=? q_active q); [injection E as <-; reflexivity|].
    destruct (_ =? q_active q); [injection E as <-; reflexivity|].
    destruct (get_lowest (q_hs q)) as [l|]; [|injection E as <-; reflexivity].
    destruct (_ <=? l); [injection E as <-; reflexivity|].
    destruct (give _ (q_peers q)) as [ps|] eqn:G; [|discriminate E].
    rewrite (IH _ _ _ E). reflexivity.
  Qed.

  Lemma error_out : forall net q k p f q' out, on_error net q k (p_id p) f false = Some (q', out) ->
    (forall r, hd_pending q = Some r -> r_peer r <> p_id p) ->
    blocks_of out = [] /\ forall q1, q' = Some q1 -> forall x, In (Some x) (q_pending q1) -> r_peer x <> p_id p.
  Proof.
    intros net q k p f q' out E HD. unfold on_error in E. destruct (hs_add (q_hs q) (f_height f)) as [hs|]; [|discriminate E]. cbv zeta in E.
    cbn [with_hs with_peers q_pending q_hs] in E.
    assert (X : forall pd hs2, match q_pending q with
                  | [] => Some ([], hs)
                  | x :: rest => option_map (fun '(l, h) => (x :: l, h)) (give_up (p_id p) rest hs)
                  end = Some (pd, hs2) -> forall r, In (Some r) pd -> r_peer r <> p_id p).
    { intros pd hs2 G r I1. unfold hd_pending in HD. destruct (q_pending q) as [|x rest]; [injection G as <- <-; destruct I1|].
      destruct (give_up (p_id p) rest hs) as [[l1 h1]|] eqn:GU; [|discriminate G]. injection G as <- <-.
      destruct I1 as [->|I1]; [apply HD; reflexivity|exact (give_up_no _ _ _ _ _ GU r I1)]. }
    match type of E with match ?m with _ => _ end = _ => destruct m as [[pd hs2]|] eqn:G; [|discriminate E] end.
    specialize (X pd hs2 eq_refl).
    match type of E with match ?m with _ => _ end = _ => destruct m as [|y ys] end.
    - match type of E with match ?m with _ => _ end = _ => destruct m as [r|] end; injection E as <- <-.
      + split; [reflexivity|]. intros q1 Y. injection Y as <-. exact X.
      + split; [reflexivity|]. discriminate.
    - match type of E with go_on ?m = _ => destruct m as [q2|] eqn:R; [|discriminate E] end. injection E as <- <-. split; [reflexivity|].
      intros q1 Y. injection Y as <-. apply reschedule_pending in R. rewrite R. exact X.
  Qed.

  (** Bad data: more than was announced, or not the block asked for. *)
  Definition bad (f : fetcher) (data : bytes) : Prop :=
    f_left f - Z.of_nat (length data) < 0
    \/ (f_left f - Z.of_nat (length data) = 0 /\ parse (concat (f_data f ++ [data])) <> Some (f_height f)).

  Lemma bad_shut : forall s log net i data q p f s' e, sinv parse false s log -> c_req (s_client s) = Some q ->
    In p (q_peers q) -> p_id p = i -> p_f p = Some f -> f_step f = FWaitData -> bad f data ->
    (forall r, hd_pending q = Some r -> r_peer r <> i) ->
    step parse s (Receive net i (Data (f_req f) data)) = Some (s', e) -> shut i (q_no q) s' /\ forall x, ~ In (EBlock x) e.
  Proof.
    intros s log net i data q p f s' e SI EQ IP PI PF FS BD HD E. destruct (si_req _ _ _ _ SI q EQ) as (V & S1 & _).
    cbn [step] in E. unfold with_req in E. rewrite EQ in E. unfold on_receive in E.
    assert (FP : exists k, find_peer (fun p => has_id i p && match p_f p with Some _ => true | None => false end) (q_peers q) = Some (k, p)).
    { destruct (find_peer _ (q_peers q)) as [[k p']|] eqn:F.
      - exists k. destruct (found _ _ _ _ _ F) as (N & EI & _). do 2 f_equal.
        pose proof (i_ids _ _ _ V) as ND. clear - ND N IP EI PI. apply nth_error_In in N. rewrite <- EI in PI.
        induction (q_peers q) as [|y l IH]; [destruct IP|]. cbn [map] in ND. inversion ND as [|a b A1 A2]; subst.
        destruct IP as [->|IP], N as [->|N]; auto; exfalso; apply A1; apply in_map_iff; eauto.
      - exfalso. clear - F IP PI PF. induction (q_peers q) as [|y l IH]; [destruct IP|]. cbn [find_peer] in F.
        destruct (has_id i y && _) eqn:B; [discriminate F|]. destruct IP as [->|IP].
        + unfold has_id in B. rewrite PI, PF, Nat.eqb_refl in B. discriminate B.
        + destruct (find_peer _ l) as [[? ?]|]; [discriminate F|]. apply IH; auto. }
    destruct FP as [k FP]. rewrite FP in E. destruct (found _ _ _ _ _ FP) as (N & _). destruct p as [pi pr pf]. cbn [p_id p_f] in *. subst pi pf.
    rewrite FS, Z.eqb_refl in E. cbn [negb] in E. cbv zeta in E.
    assert (E' : settle s [] (on_error net q k i f false) = Some (s', e)).
    { destruct (Z.eqb_spec (f_left f - Z.of_nat (length data)) 0) as [Z0|Z0].
      - destruct BD as [BD|[_ BD]]; [lia|]. destruct (parse (concat (f_data f ++ [data]))) as [h|]; [|exact E].
        destruct (Z.eqb_spec h (f_height f)) as [->|NE]; [congruence|exact E].
      - destruct BD as [BD|[BD _]]; [|contradiction]. destruct (Z.ltb_spec (f_left f - Z.of_nat (length data)) 0); [exact E|lia]. }
    clear E. unfold settle in E'. destruct (on_error net q k i f false) as [[q' out]|] eqn:OE; [|discriminate E']. injection E' as <- <-.
    destruct (error_out net q k (mkPeer i pr (Some f)) f q' out OE HD) as (BO & PE). cbn [p_id] in PE.
    assert (LT : (q_no q < c_next (s_client s))%nat) by (exact (proj1 (proj2 (proj2 (si_req _ _ _ _ SI q EQ))))).
    split.
    - split; [exact LT|]. cbn [s_client c_req]. intros q1 X _. split; [|exact (PE q1 X)].
      destruct (on_error_ok parse net false q k (mkPeer i pr (Some f)) f false V N eq_refl ltac:(discriminate)) as [(Y & _)|(q2 & Y & _ & _ & _ & _ & _ & NI & _)];
        cbn [p_id] in Y; rewrite OE in Y; injection Y as Y1 Y2; [congruence|]. rewrite X in Y1. injection Y1 as ->. exact NI.
    - intros x I1. cbn [app] in I1. apply blocks_in in I1. rewrite BO in I1. exact I1.
  Qed.
End Bad.
