(** Reading successful runs of the platform's operations backwards, and invariants of histories. *)
From Verif Require Import Model.HvhState Model.HvhExt Spec.HvhSpec.
From Coq Require Import ZArith List Bool Lia ZifyBool.
Import ListNotations.
Open Scope Z_scope.

Ltac Zify.zify_post_hook ::= Z.div_mod_to_equations.

(** ** The error monad *)
Lemma bind_ok {A B} (m : M A) (k : A -> M B) w b w' :
  bind m k w = (Ok b, w') -> exists a w1, m w = (Ok a, w1) /\ k a w1 = (Ok b, w').
Proof. unfold bind. destruct (m w) as [[a | e] w1]; [eauto | discriminate]. Qed.
Lemma bind_eq {A B} (m : M A) (k : A -> M B) w a w1 : m w = (Ok a, w1) -> bind m k w = k a w1.
Proof. intros E. unfold bind. rewrite E. reflexivity. Qed.
Lemma get_ok {A} (f : world -> A) w a w' : get f w = (Ok a, w') -> a = f w /\ w' = w.
Proof. unfold get. intros [= <- <-]. auto. Qed.
Lemma put_ok f w a w' : put f w = (Ok a, w') -> w' = f w.
Proof. unfold put. intros [= _ <-]. auto. Qed.
Lemma ret_ok {A} (x : A) w a w' : ret x w = (Ok a, w') -> a = x /\ w' = w.
Proof. unfold ret. intros [= <- <-]. auto. Qed.
Lemma fail_ok {A} e w (a : A) w' : fail e w = (Ok a, w') -> False.
Proof. discriminate. Qed.
Lemma when_ok b m w a w' : when b m w = (Ok a, w') -> (b = true /\ m w = (Ok a, w')) \/ (b = false /\ w' = w).
Proof. unfold when. destruct b; [auto|]. intros H. apply ret_ok in H. tauto. Qed.
Lemma lift_ok {A} (o : out A) w a w' : lift o w = (Ok a, w') -> o = Ok a /\ w' = w.
Proof. unfold lift. destruct o; intros [= <- <-] || intros [=]. auto. Qed.

(** One backward step through a successful run. *)
Ltac hstep H :=
  first
  [ apply get_ok in H; let E := fresh "E" in destruct H as [E ->]; subst
  | apply put_ok in H; subst
  | apply ret_ok in H; let E := fresh "E" in destruct H as [E ->]; subst
  | apply fail_ok in H; destruct H
  | apply lift_ok in H; let E := fresh "E" in destruct H as [E ->] ].
Ltac hbind H a w1 H1 := apply bind_ok in H; destruct H as (a & w1 & H1 & H).

(** ** Operations keeping a property of the world whenever they succeed *)
Definition keeps {A} (P : world -> Prop) (m : M A) : Prop :=
  forall w a w', P w -> m w = (Ok a, w') -> P w'.

Lemma keeps_bind {A B} (P : world -> Prop) (m : M A) (k : A -> M B) :
  keeps P m -> (forall a, keeps P (k a)) -> keeps P (bind m k).
Proof. intros Hm Hk w b w' p H. hbind H a w1 H1. eapply Hk; [eapply Hm; eauto | eauto]. Qed.
Lemma keeps_get {A} (P : world -> Prop) (f : world -> A) : keeps P (get f).
Proof. intros w a w' p H. hstep H. auto. Qed.
Lemma keeps_put (P : world -> Prop) f : (forall w, P w -> P (f w)) -> keeps P (put f).
Proof. intros Hf w a w' p H. hstep H. auto. Qed.
Lemma keeps_ret {A} (P : world -> Prop) (a : A) : keeps P (ret a).
Proof. intros w x w' p H. hstep H. auto. Qed.
Lemma keeps_fail {A} (P : world -> Prop) e : keeps P (@fail A e).
Proof. intros w x w' p H. hstep H. Qed.
Lemma keeps_lift {A} (P : world -> Prop) (o : out A) : keeps P (lift o).
Proof. intros w x w' p H. hstep H. auto. Qed.
Lemma keeps_if {A} (P : world -> Prop) (b : bool) (m n : M A) : keeps P m -> keeps P n -> keeps P (if b then m else n).
Proof. destruct b; auto. Qed.
Lemma keeps_when (P : world -> Prop) (b : bool) m : keeps P m -> keeps P (when b m).
Proof. intros H. apply keeps_if; [auto | apply keeps_ret]. Qed.

(** ** Invariants of histories *)
Definition next_block (rev : Z) (w : world) : world := set_revision rev (set_height (height w + 1) w).

Lemma begin_block_cases rev claimed vc w w' :
  begin_block rev claimed vc w = Some w' ->
  (need_base_tx (next_block rev w) vc = false /\ w' = next_block rev w) \/
  (need_base_tx (next_block rev w) vc = true /\ exists u, on_base_tx claimed (next_block rev w) = (Ok u, w')).
Proof.
  unfold begin_block. fold (next_block rev w). destruct need_base_tx; [|intros [= <-]; auto].
  destruct on_base_tx as [[u | e] w2] eqn:E; [|discriminate]. intros [= <-]. eauto.
Qed.

Lemma apply_tx_cases t w :
  apply_tx t w = w \/
  exists u, match t with Call from c => exec from c w | Coins from to amount => transfer from to amount w end
            = (Ok u, apply_tx t w).
Proof.
  unfold apply_tx. destruct t; (destruct (exec from c w) as [[u|e] w'] || destruct (transfer from to amount w) as [[u|e] w']);
  eauto.
Qed.

Lemma history_ind' w0 (P : world -> Prop) :
  P w0 ->
  (forall w rev, history w0 w -> P w -> P (next_block rev w)) ->
  (forall w claimed u w', P w -> on_base_tx claimed w = (Ok u, w') -> P w') ->
  (forall w from c u w', history w0 w -> P w -> a_id from <> a_id PublicTreasury -> exec from c w = (Ok u, w') -> P w') ->
  (forall w from to amount u w', P w -> a_id from <> a_id PublicTreasury ->
     transfer from to amount w = (Ok u, w') -> P w') ->
  forall w, history w0 w -> P w.
Proof.
  intros P0 Pb Pbase Pc Pt w h. induction h as [| w w' rev claimed vc h IH B | w t h IH o].
  - exact P0.
  - apply begin_block_cases in B as [[_ ->] | [_ [u B]]]; [auto | eapply Pbase; [|exact B]; auto].
  - destruct (apply_tx_cases t w) as [-> | [u E]]; [auto|].
    destruct t; cbn in o; [eapply Pc; eauto | eapply Pt; eauto].
Qed.
