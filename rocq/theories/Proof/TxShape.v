(** The actions of a transaction are a tree with one call at its base. *)
Require Import ZArith List Bool Lia.
From Verif.Model Require Import CallFrames Deposits FeePayers TxExecute.
From Verif.Spec Require Import CallSpec FeeSpec TxSpec.
From Verif.Proof Require Import CallFacts FeeFacts FeeFrames FeeTx.
Import ListNotations.
Open Scope Z_scope.

Section Shape.
  Variables A R E M : Type.
  Notation world := (world A R).
  Notation cfg := (cfg world E M A).
  Notation action := (action world E M A).
  Notation node := (node world E M A).
  Variable pol : policy.

  Lemma run_call_run : forall l (c c' : cfg), run_call pol c l = Some c' ->
    run pol c l = Some c' /\ stays pol 1 c l.
  Proof.
    induction l as [|a l IH]; intros c c' H; cbn [run_call] in H.
    - destruct (Nat.leb_spec 2 (List.length (c_stack c))); [|discriminate]. cbn. split; [exact H|]. split; [lia|exact Logic.I].
    - destruct (Nat.leb_spec 2 (List.length (c_stack c))); [|discriminate]. cbn [run stays].
      destruct (step pol c a) as [c1|]; [|discriminate]. destruct (IH c1 c' H) as [I1 I2].
      split; [exact I1|]. split; [lia|exact I2].
  Qed.

  Lemma stays_prefix : forall l m n (c c' : cfg), stays pol n c (l ++ m) -> run pol c l = Some c' ->
    (n < List.length (c_stack c'))%nat.
  Proof.
    induction l as [|a l IH]; intros m n c c' H Hr; cbn [app run stays] in *.
    - injection Hr as <-. destruct m; destruct H as [H _]; exact H.
    - destruct H as [_ H]. destruct (step pol c a) as [c1|]; [|discriminate]. exact (IH m n c1 c' H Hr).
  Qed.

  Lemma head_spend : forall (t : list node) k r, tree false t -> flat_map actions t = ASpend k :: r ->
    exists t', t = Spent k :: t' /\ flat_map actions t' = r /\ tree false t'.
  Proof.
    intros t k r T H. destruct t as [|n t]; [discriminate H|]. cbn [flat_map] in H.
    destruct n; cbn [actions app] in H; try discriminate H.
    injection H as -> H. inversion T; subst. exists t. auto.
  Qed.

  Definition closing (a : action) : Prop :=
    match a with AReturn _ _ => True | AAbort => True | _ => False end.

  (** The call a list of actions begins with. *)
  Definition made (lim : Z) (b : list node) (z : action) (n : node) : Prop :=
    match z with
    | AReturn u st => n = Called true lim b u st /\ tree false b
    | AAbort => n = Cut lim b /\ tree true b
    | _ => False
    end.

  Lemma head_call : forall (t : list node) lim r, tree false t -> flat_map actions t = ACall true lim :: r ->
    exists n t' b z, t = n :: t' /\ tree false t' /\ made lim b z n /\ closing z /\ is_call n = true /\
      r = flat_map actions b ++ z :: flat_map actions t'.
  Proof.
    intros t lim r T H. destruct t as [|n t]; [discriminate H|]. cbn [flat_map] in H.
    destruct n as [g|e|m|k|a q| |s l b u st|l b|l b]; cbn [actions app] in H; try discriminate H.
    - injection H as -> -> H. inversion T; subst. exists (Called true lim b u st), t, b, (AReturn u st).
      cbn. rewrite <- app_assoc. auto 10.
    - injection H as -> H. inversion T; subst. exists (Cut lim b), t, b, AAbort.
      cbn. rewrite <- app_assoc. auto 10.
  Qed.

  Lemma no_calls : forall (t : list node) l, flat_map actions t = map ASpend l ->
    forallb (fun n => negb (is_call n)) t = true.
  Proof.
    intros t l H. apply forallb_forall. intros n Hn. destruct (is_call n) eqn:Hc; [|reflexivity]. exfalso.
    assert (X : exists s k, In (ACall s k) (actions n)).
    { destruct n as [g|e|m|k|a q| |s k b u st|k b|k b]; try discriminate Hc;
        cbn [actions]; eexists; eexists; left; reflexivity. }
    destruct X as (s & k & X).
    assert (Y : In (ACall s k) (flat_map actions t)) by (apply in_flat_map; exists n; auto).
    rewrite H in Y. apply in_map_iff in Y. destruct Y as (z & Y & _). discriminate Y.
  Qed.

  Lemma tx_shape : forall (t : list node) w limit d i lim body z spends (c c1 : cfg),
    tree false t -> closing z ->
    flat_map actions t = ASpend d :: ASpend i :: ACall true lim :: body ++ z :: map ASpend spends ->
    run pol (new_context w limit false) (flat_map actions t) = Some c ->
    run pol (new_context w limit false) [ASpend d; ASpend i; ACall true lim] = Some c1 ->
    stays pol 1 c1 body ->
    exists b n post, t = Spent d :: Spent i :: n :: post /\ made lim b z n /\ flat_map actions b = body /\
      is_call n = true /\ forallb (fun n => negb (is_call n)) post = true /\ flat_map actions post = map ASpend spends.
  Proof.
    intros t w limit d i lim body z spends c c1 T Hz Ht Hrun H1 Hst.
    assert (Hrun' := Hrun). rewrite Ht in Hrun'.
    pose proof T as T0. apply head_spend in Ht; [|exact T]. destruct Ht as (t1 & -> & Ht & T1).
    apply head_spend in Ht; [|exact T1]. destruct Ht as (t2 & -> & Ht & T2).
    apply head_call in Ht; [|exact T2]. destruct Ht as (n & post & b & z' & -> & T3 & Hm & Hz' & Hn & Ht).
    symmetry in Ht. apply app_eq_app in Ht. destruct Ht as (l & [[H2 H3]|[H2 H3]]).
    - destruct l as [|x l].
      + cbn [app] in H3. injection H3 as -> H3. rewrite app_nil_r in H2.
        exists b, n, post. symmetry in H3. pose proof (no_calls post spends H3). auto 10.
      + exfalso. cbn [app] in H3. injection H3 as _ H3.
        assert (Y : In z' (map ASpend spends)) by (rewrite H3; apply in_or_app; right; left; reflexivity).
        apply in_map_iff in Y. destruct Y as (k & <- & _). exact Hz'.
    - destruct l as [|x l].
      + cbn [app] in H3. injection H3 as -> H3. rewrite app_nil_r in H2.
        exists b, n, post. pose proof (no_calls post spends H3). auto 10.
      + exfalso. cbn [app] in H3. injection H3 as <- H3.
        change (ASpend d :: ASpend i :: ACall true lim :: body ++ z :: map ASpend spends)
          with ([ASpend d; ASpend i; ACall true lim] ++ body ++ z :: map ASpend spends) in Hrun'.
        rewrite run_app, H1, run_app in Hrun'.
        destruct (run pol c1 body) as [c2|] eqn:Hb; [|discriminate]. clear Hrun'.
        rewrite H2 in Hst, Hb. change (z' :: l) with ([z'] ++ l) in Hst, Hb. rewrite app_assoc in Hst, Hb.
        rewrite run_app in Hb.
        destruct (run pol c1 (flat_map actions b ++ [z'])) as [c3|] eqn:Hb3; [|discriminate].
        pose proof (stays_prefix _ _ _ _ _ Hst Hb3) as Hlen.
        assert (Hr : run pol (new_context w limit false) (flat_map actions ([Spent d; Spent i] ++ n :: [])) = Some c3).
        { replace (flat_map actions ([Spent d; Spent i] ++ [n]))
            with ([ASpend d; ASpend i; ACall true lim] ++ (flat_map actions b ++ [z'])).
          - rewrite run_app, H1. exact Hb3.
          - cbn. rewrite app_nil_r. destruct z' as [g|e|m|k|a q| |s k|u st|]; try destruct Hm as [-> _]; try destruct Hm; reflexivity. }
        assert (Tr : tree false ([Spent d; Spent i] ++ n :: [])).
        { cbn [app]. constructor. constructor. destruct z' as [g|e|m|k|a q| |s k|u st|]; try (destruct Hm; fail);
            destruct Hm as [-> Hm]; constructor; auto; constructor. }
        destruct (base_payers world E M A pol w limit [Spent d; Spent i] n [] c3 Tr eq_refl Hn eq_refl Hr) as (base & B1 & _).
        rewrite B1 in Hlen. cbn in Hlen. lia.
  Qed.
End Shape.
