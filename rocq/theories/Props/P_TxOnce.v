(* C56: a transaction is on the chain at most once, and only a transaction that
   is already there makes a block be refused.
   C57: the height and index answered for a transaction are right. *)
From Coq Require Import ZArith List Bool Arith Lia.
From Verif Require Import Model.TxLocator Spec.TxOnceSpec Proof.TxOnceFacts Proof.TxOnceWorld Proof.TxOnceMain
  Proof.TxOnceLoc Proof.TxOnceExact Proof.TxOncePlay.
Import ListNotations.
Open Scope Z_scope.

(* Blocks may be built on blocks that are not finalized, the disk does not fail,
   the node may stop at any moment: a block with a transaction of any block
   below it is refused. *)
Theorem C56_replay_refused : forall tsof th0 ahead w i p b id,
  reach tsof th0 (window_advances tsof) ahead false w ->
  nth_error (w_path w) i = Some p -> on_chain id p -> In id (b_ids b) ->
  validate tsof (w_m w) (w_t w) i b = false.
Proof.
  intros tsof th0 ahead w i p b id R Hp Hc Hi. unfold validate.
  rewrite (refused_A tsof th0 ahead w i p b id R Hp Hc Hi). reflexivity.
Qed.
Print Assumptions C56_replay_refused.

(* With a threshold that never changes and blocks built on finalized ones, also
   a transaction on the edge of the window is refused. *)
Theorem C56_replay_refused_settled : forall tsof th0 th w i b id,
  reach tsof th0 (constant_threshold th) false false w ->
  nth_error (w_path w) i = Some (committed w) -> settled w i ->
  later (committed w) b -> b_th b = th ->
  on_chain id (committed w) -> In id (b_ids b) ->
  validate tsof (w_m w) (w_t w) i b = false.
Proof. exact refused_B. Qed.
Print Assumptions C56_replay_refused_settled.

Theorem C56_once : forall tsof th0 ahead w,
  reach tsof th0 (window_advances tsof) ahead false w -> NoDup (flat_map b_ids (committed w)).
Proof. intros tsof th0 ahead w R. exact (proj2 (once_A tsof th0 ahead w R)). Qed.
Print Assumptions C56_once.

Theorem C56_once_settled : forall tsof th0 th w,
  reach tsof th0 (constant_threshold th) false false w -> NoDup (flat_map b_ids (committed w)).
Proof. intros tsof th0 th w R. exact (proj2 (once_B tsof th0 th w R)). Qed.
Print Assumptions C56_once_settled.

(* Whatever the rule, the disk and the crashes: a block is refused for its IDs
   only if one of them is twice in it or in a block that is below it, finalized,
   or was being finalized when the node stopped. *)
Theorem C56_no_false_alarm : forall tsof th0 rule ahead disk_fails w i p b,
  reach tsof th0 rule ahead disk_fails w ->
  nth_error (w_path w) i = Some p ->
  forallb (in_range tsof b) (b_ids b) = true ->
  validate tsof (w_m w) (w_t w) i b = false ->
  ~ NoDup (b_ids b) \/
  exists id, In id (b_ids b) /\ (on_chain id p \/ on_chain id (committed w) \/ on_chain id (w_lost w)).
Proof.
  intros tsof th0 rule ahead df w i p b R Hp Rg V. unfold validate in V. rewrite Rg, andb_true_r in V.
  exact (refused_sound tsof th0 rule ahead df w i p b R Hp V).
Qed.
Print Assumptions C56_no_false_alarm.

(* ---- where it fails ---- *)

Definition tsid (id : Z) : Z := id.      (* in the examples an ID is its timestamp *)

(* The threshold is always 10.  A transaction whose timestamp is exactly the
   block's plus 10 is accepted again on top of that block as long as it is not
   finalized, and both are finalized then. *)
Theorem C56_violated_edge : exists w,
  reach tsid 100 (constant_threshold 10) true false w /\
  map b_ids (w_chain w) = [[110]; [110]].
Proof.
  destruct (play tsid 100 (constb 10) true false
    [ABlock 0 (mkBlock 1 100 10 [110]) false; ABlock 1 (mkBlock 2 101 10 [110]) false;
     ACommit 1; AWorker; AWorker; AWorker; AHeight; ACommit 2; AWorker; AWorker; AWorker; AHeight] (start 100)) as [w|] eqn:E;
    [|vm_compute in E; discriminate E].
  exists w. split; [exact (play_ok tsid 100 _ (constb 10) (constb_ok 10) true false _ _ w (r_start _ _ _ _ _) E)|].
  vm_compute in E. injection E as <-. reflexivity.
Qed.
Print Assumptions C56_violated_edge.

(* Nothing is built ahead, but the threshold is raised: a transaction on the edge
   of its block's window is accepted again after its block left the cache. *)
Theorem C56_violated_raised : exists w,
  reach tsid 100 later false false w /\
  map b_th (w_chain w) = [50; 10; 10] /\ map b_ids (w_chain w) = [[110]; []; [110]].
Proof.
  destruct (play tsid 100 laterb false false
    [ABlock 0 (mkBlock 1 100 10 [110]) false; ACommit 1; AWorker; AWorker; AWorker; AHeight;
     ABlock 1 (mkBlock 2 120 10 []) false; ACommit 2; AWorker; AWorker; AWorker; AWorker; AHeight;
     ABlock 2 (mkBlock 3 121 50 [110]) false; ACommit 3; AWorker; AHeight] (start 100)) as [w|] eqn:E;
    [|vm_compute in E; discriminate E].
  exists w. split; [exact (play_ok tsid 100 _ laterb laterb_ok false false _ _ w (r_start _ _ _ _ _) E)|].
  vm_compute in E. injection E as <-. split; reflexivity.
Qed.
Print Assumptions C56_violated_raised.

(* The threshold is lowered and the node restarted: a transaction from the wide
   window is accepted a second time (it is in the database, but the node believes
   that nothing so young can be there). *)
Theorem C56_violated_lowered : exists w,
  reach tsid 100 later false false w /\
  map b_th (w_chain w) = [10; 10; 10; 100] /\ map b_ids (w_chain w) = [[190]; []; []; [190]] /\
  find 190 (m_db (w_m w)) = Some (1, 0%nat).
Proof.
  destruct (play tsid 100 laterb false false
    [ABlock 0 (mkBlock 1 100 100 [190]) false; ACommit 1; AWorker; AWorker; AWorker; AHeight;
     ABlock 1 (mkBlock 2 110 10 []) false; ACommit 2; AWorker; AWorker; AWorker; AWorker; AHeight;
     ACrash; AWorker; AWorker; AWorker; AWorker;
     ABlock 1 (mkBlock 3 140 10 []) false; ACommit 2; AWorker; AWorker; AHeight;
     ABlock 2 (mkBlock 4 185 10 [190]) false; ACommit 3; AWorker; AHeight] (start 100)) as [w|] eqn:E;
    [|vm_compute in E; discriminate E].
  exists w. split; [exact (play_ok tsid 100 _ laterb laterb_ok false false _ _ w (r_start _ _ _ _ _) E)|].
  vm_compute in E. injection E as <-. repeat split; reflexivity.
Qed.
Print Assumptions C56_violated_lowered.

(* The disk refuses to write the locators of block 1 while block 2 waits: block 2
   is finalized nevertheless, and after a restart the transaction of block 1 is
   accepted again. *)
Theorem C56_violated_disk : exists w,
  reach tsid 100 (constant_threshold 10) false true w /\
  map b_ids (w_chain w) = [[101]; []; [101]].
Proof.
  destruct (play tsid 100 (constb 10) false true
    [ABlock 0 (mkBlock 1 100 10 [101]) false; ACommit 1; AWorker; AWorker; AWorker; AHeight;
     ABlock 1 (mkBlock 2 101 10 []) false; ACommit 2; AFail; AHeight; ACrash;
     AWorker; AWorker; AWorker; AWorker;
     ABlock 1 (mkBlock 3 102 10 [101]) false; ACommit 2; AWorker; AHeight] (start 100)) as [w|] eqn:E;
    [|vm_compute in E; discriminate E].
  exists w. split; [exact (play_ok tsid 100 _ (constb 10) (constb_ok 10) false true _ _ w (r_start _ _ _ _ _) E)|].
  vm_compute in E. injection E as <-. reflexivity.
Qed.
Print Assumptions C56_violated_disk.

(* The node stops after the locators of block 2 are written and before its height
   is: then it refuses that very block, though none of its transactions is on its
   chain. *)
Theorem C56_leftover_refused : exists w b,
  reach tsid 100 (constant_threshold 10) false false w /\
  nth_error (w_path w) 1 = Some (w_chain w) /\ committed w = w_chain w /\
  fresh b (w_chain w) /\ later (w_chain w) b /\ forallb (in_range tsid b) (b_ids b) = true /\
  validate tsid (w_m w) (w_t w) 1 b = false.
Proof.
  destruct (play tsid 100 (constb 10) false false
    [ABlock 0 (mkBlock 1 100 10 [101]) false; ACommit 1; AWorker; AWorker; AWorker; AHeight;
     ABlock 1 (mkBlock 2 101 10 [102]) false; ACommit 2; AWorker; AWorker; AWorker; AWorker; ACrash] (start 100)) as [w|] eqn:E;
    [|vm_compute in E; discriminate E].
  exists w, (mkBlock 2 101 10 [102]).
  split; [exact (play_ok tsid 100 _ (constb 10) (constb_ok 10) false false _ _ w (r_start _ _ _ _ _) E)|].
  vm_compute in E. injection E as <-. split; [reflexivity|]. split; [reflexivity|].
  split; [apply freshb_ok; reflexivity|]. split; [apply laterb_ok; reflexivity|]. split; reflexivity.
Qed.
Print Assumptions C56_leftover_refused.

(* ---- C57 ---- *)

Theorem C57_locator_exact : forall tsof th0 ahead w b k id,
  reach tsof th0 (window_advances tsof) ahead false w ->
  In b (committed w) -> nth_error (b_ids b) k = Some id ->
  get_locator id (w_m w) = Some (b_height b, k).
Proof.
  intros tsof th0 ahead w b k id R. apply (locator_exact tsof th0 _ ahead (rule_A tsof)); [|exact R].
  intros w' R'. exact (proj2 (once_A tsof th0 ahead w' R')).
Qed.
Print Assumptions C57_locator_exact.

Theorem C57_locator_exact_settled : forall tsof th0 th w b k id,
  reach tsof th0 (constant_threshold th) false false w ->
  In b (committed w) -> nth_error (b_ids b) k = Some id ->
  get_locator id (w_m w) = Some (b_height b, k).
Proof.
  intros tsof th0 th w b k id R. apply (locator_exact tsof th0 _ false (rule_B th)); [|exact R].
  intros w' R'. exact (proj2 (once_B tsof th0 th w' R')).
Qed.
Print Assumptions C57_locator_exact_settled.

(* Whatever happens, an answer names a block that was finalized, or was being
   finalized when the node stopped, and a place in it that holds the transaction. *)
Theorem C57_locator_sound : forall tsof th0 rule ahead disk_fails w id h k,
  reach tsof th0 rule ahead disk_fails w -> get_locator id (w_m w) = Some (h, k) ->
  exists b, (In b (committed w) \/ In b (w_lost w)) /\ b_height b = h /\ nth_error (b_ids b) k = Some id.
Proof. exact locator_sound. Qed.
Print Assumptions C57_locator_sound.

(* ---- the hypotheses are met ---- *)

(* Three blocks, two of them not finalized; one list has left the cache; a
   restart. *)
Definition history_a : list act :=
  [ABlock 0 (mkBlock 1 100 10 [101; 105]) false; ACommit 1; AWorker; AWorker; AWorker; AWorker; AWorker; AWorker; AHeight;
   ABlock 1 (mkBlock 2 130 10 [131]) false; ACommit 2; AWorker; AWorker; AWorker; AHeight;
   ABlock 2 (mkBlock 3 131 10 [133]) false; ABlock 3 (mkBlock 4 132 10 [134]) false].

Example C56_hypotheses_met : exists w,
  reach tsid 100 (window_advances tsid) true false w /\
  nth_error (w_path w) 4 = Some [mkBlock 4 132 10 [134]; mkBlock 3 131 10 [133]; mkBlock 2 130 10 [131]; mkBlock 1 100 10 [101; 105]] /\
  m_max (w_m w) = 110 /\
  validate tsid (w_m w) (w_t w) 4 (mkBlock 5 133 10 [135]) = true /\
  validate tsid (w_m w) (w_t w) 4 (mkBlock 5 133 10 [135; 133]) = false /\
  get_locator 105 (w_m w) = Some (1, 1%nat).
Proof.
  destruct (play tsid 100 (advb tsid) true false history_a (start 100)) as [w|] eqn:E; [|vm_compute in E; discriminate E].
  exists w. split; [exact (play_ok tsid 100 _ (advb tsid) (advb_ok tsid) true false _ _ w (r_start _ _ _ _ _) E)|].
  vm_compute in E. injection E as <-. repeat split; reflexivity.
Qed.

Example C56_hypotheses_met_settled : exists w,
  reach tsid 100 (constant_threshold 10) false false w /\
  nth_error (w_path w) 1 = Some (committed w) /\ settled w 1 /\
  map b_ids (committed w) = [[140]; [110; 101]] /\ w_lost w = [mkBlock 3 131 10 [135]] /\
  validate tsid (w_m w) (w_t w) 1 (mkBlock 3 131 10 [140]) = false /\
  validate tsid (w_m w) (w_t w) 1 (mkBlock 3 131 10 [139]) = true.
Proof.
  destruct (play tsid 100 (constb 10) false false
    [ABlock 0 (mkBlock 1 100 10 [110; 101]) false; ACommit 1; AWorker; AWorker; AWorker; AWorker; AWorker; AWorker; AHeight;
     ABlock 1 (mkBlock 2 130 10 [140]) false; ACommit 2; AWorker; AWorker; AWorker; AHeight;
     ABlock 2 (mkBlock 3 131 10 [135]) false; ACommit 3; AWorker; ACrash] (start 100)) as [w|] eqn:E; [|vm_compute in E; discriminate E].
  exists w. split; [exact (play_ok tsid 100 _ (constb 10) (constb_ok 10) false false _ _ w (r_start _ _ _ _ _) E)|].
  vm_compute in E. injection E as <-. split; [reflexivity|]. split; [apply settledb_ok; reflexivity|]. repeat split; reflexivity.
Qed.
