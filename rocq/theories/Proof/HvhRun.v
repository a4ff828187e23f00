(** The sample chain is a history. *)
From Verif Require Import Model.HvhState Model.HvhExt Spec.HvhSpec Spec.HvhSample.
From Coq Require Import ZArith List Bool Lia.
Import ListNotations.
Open Scope Z_scope.

Lemma run_history steps : forall w w0 w', history w0 w -> all_ordinary steps -> run steps w = Some w' -> history w0 w'.
Proof.
  induction steps as [|[x|t] r IH]; intros w w0 w' h o H; cbn [run all_ordinary] in *.
  - injection H as <-. exact h.
  - destruct (begin_block 3 x false w) as [w1|] eqn:B; [|discriminate]. eapply IH; [|exact o|exact H]. eapply h_block; eauto.
  - destruct o as [o1 o]. eapply IH; [|exact o|exact H]. apply h_tx; auto.
Qed.
Lemma sample_genesis : genesis sample.
Proof.
  unfold genesis. repeat (split; [first [reflexivity | cbn; lia | intros; reflexivity]|]).
  split; [|split; [|]].
  - intros a. cbn [bal sample]. destruct (a =? 100); [lia|]. destruct (a =? a_id HooverFund); lia.
  - exists [100; a_id HooverFund]. split; [|split].
    + repeat constructor; [intros [E|[]]; discriminate E | intros []].
    + intros a n. cbn [bal sample]. destruct (Z.eqb_spec a 100) as [->|]; [destruct n; left; auto|].
      destruct (Z.eqb_spec a (a_id HooverFund)) as [->|]; [destruct n; right; left; auto | auto].
    + reflexivity.
  - discriminate.
Qed.
Lemma script_ordinary : all_ordinary script.
Proof. cbn. repeat split; discriminate. Qed.
Definition after (n : nat) : option world := run (firstn n script) sample.
Lemma firstn_ordinary n l : all_ordinary l -> all_ordinary (firstn n l).
Proof.
  revert l. induction n as [|n IH]; intros [|[x|t] r] o; cbn [firstn all_ordinary] in *; auto. destruct o. auto.
Qed.
Lemma after_history n w : after n = Some w -> history sample w.
Proof. apply run_history; [constructor | apply firstn_ordinary, script_ordinary]. Qed.
