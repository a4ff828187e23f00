(** C23, C41: bloom filters and the event monitor. *)
From Verif Require Import Model.Bytes Model.Bloom Spec.Monitor Proof.BloomFacts.
From Coq Require Import Sorted.

(** The bits of an item, from the definition of the filter: three 16-bit big-endian numbers of its hash, modulo 2048. *)
Definition bit_of_item (sha3 : bytes -> bytes) (v : bytes) (i : Z) : Prop :=
  exists k, (k < 3)%nat /\ i = (256 * nth (2 * k) (sha3 v) 0 + nth (2 * k + 1) (sha3 v) 0) mod 2048.
Lemma bit_marks sha3 v i : In i (marks sha3 v) <-> bit_of_item sha3 v i.
Proof.
  unfold marks, bit_of_item. rewrite in_map_iff. assert (E : forall k, Z.land (go_u16 (sha3 v) (2 * k)) 2047 = (256 * nth (2 * k) (sha3 v) 0 + nth (2 * k + 1) (sha3 v) 0) mod 2048).
  { intros k. change 2047 with (Z.ones 11). rewrite Z.land_ones by lia. unfold go_u16. replace (2 * k + 1)%nat with (S (2 * k)) by lia. reflexivity. }
  split.
  - intros (k & <- & Hk). exists k. split; [cbn in Hk; lia|apply E].
  - intros (k & Hk & ->). exists k. split; [apply E|]. destruct k as [|[|[|k]]]; cbn; auto; lia.
Qed.

(** Nothing that was added is missed, whatever was in the filter before. *)
Theorem C23_no_false_negative sha3 b vs v : In v vs -> py_contains sha3 (py_extend sha3 b vs) v = true.
Proof.
  intros H. apply py_contains_marked. intros i Hi. pose proof (marks_range _ _ _ Hi). apply extend_spec; [lia|]. right. eauto.
Qed.
Print Assumptions C23_no_false_negative.

Theorem C23_kept sha3 b vs v : py_contains sha3 b v = true -> py_contains sha3 (py_extend sha3 b vs) v = true.
Proof.
  rewrite !py_contains_marked. intros H i Hi. pose proof (marks_range _ _ _ Hi). apply extend_spec; [lia|]. left. auto.
Qed.
Print Assumptions C23_kept.

Theorem C23_union sha3 a b v : py_contains sha3 a v = true \/ py_contains sha3 b v = true ->
  py_contains sha3 (py_combine a b) v = true.
Proof.
  rewrite !py_contains_marked. unfold py_combine. intros [H|H]; (eapply marked_sub; [|exact H]); [apply sub_lor_l|apply sub_lor_r].
Qed.
Print Assumptions C23_union.

(** The filter of a list of items has exactly their bits... *)
Theorem C23_bits sha3 vs i : 0 <= i -> Z.testbit (py_from_iterable sha3 vs) i = true <-> exists v, In v vs /\ bit_of_item sha3 v i.
Proof.
  intros Hi. unfold py_from_iterable. rewrite extend_spec, Z.bits_0 by exact Hi. split.
  - intros [H|(v & Hv & M)]; [discriminate|]. exists v. split; [exact Hv|]. apply bit_marks, M.
  - intros (v & Hv & M). right. exists v. split; [exact Hv|]. apply bit_marks, M.
Qed.
Print Assumptions C23_bits.
(** ... is tested on exactly these bits ... *)
Theorem C23_contains sha3 b v : py_contains sha3 b v = true <-> forall i, bit_of_item sha3 v i -> Z.testbit b i = true.
Proof. rewrite py_contains_marked. unfold marked. setoid_rewrite bit_marks. reflexivity. Qed.
Print Assumptions C23_contains.
(** ... and so depends only on the set of items, and fits in 2048 bits. *)
Theorem C23_set sha3 us vs : (forall v, In v us <-> In v vs) -> py_from_iterable sha3 us = py_from_iterable sha3 vs.
Proof.
  intros H. apply Z.bits_inj'. intros i Hi.
  assert (E : Z.testbit (py_from_iterable sha3 us) i = true <-> Z.testbit (py_from_iterable sha3 vs) i = true) by (rewrite !C23_bits by exact Hi; setoid_rewrite H; reflexivity).
  destruct (Z.testbit (py_from_iterable sha3 us) i), (Z.testbit (py_from_iterable sha3 vs) i); intuition.
Qed.
Print Assumptions C23_set.
Theorem C23_size sha3 vs : 0 <= py_from_iterable sha3 vs < 2 ^ 2048.
Proof.
  assert (P : forall l b, 0 <= b -> 0 <= py_extend sha3 b l) by (induction l as [|v l IH]; intros b Hb; [exact Hb|]; apply (IH (py_add sha3 b v)); rewrite py_add_go; apply addLog_pos, Hb).
  specialize (P vs 0 ltac:(lia)). fold (py_from_iterable sha3 vs) in P. split; [exact P|]. set (b := py_from_iterable sha3 vs) in *.
  destruct (Z.eq_dec b 0) as [->|N]; [reflexivity|]. apply Z.log2_lt_pow2; [lia|].
  assert (T : Z.testbit b (Z.log2 b) = true) by (apply Z.bit_log2; lia). apply C23_bits in T; [|apply Z.log2_nonneg]. destruct T as (v & _ & k & _ & ->).
  apply Z.mod_pos_bound. lia.
Qed.
Print Assumptions C23_size.

(** The node's filters are the same, and its [Contain] is inclusion of the bit sets. *)
Theorem C23_go_same sha3 b v : go_addLog sha3 b v = py_add sha3 b v.
Proof. symmetry. apply py_add_go. Qed.
Print Assumptions C23_go_same.
Theorem C23_go_contain a b : 0 <= a -> 0 <= b -> go_Contain a b = true <-> forall i, 0 <= i -> Z.testbit b i = true -> Z.testbit a i = true.
Proof. exact (contain_sub a b). Qed.
Print Assumptions C23_go_contain.

Definition toy_hash (b : bytes) : bytes := match b with [] => [0; 1; 0; 2; 0; 3] | x :: _ => [x; x; x + 1; x; 0; x] end.
Example C23_ex : py_from_iterable toy_hash [[]; [5]; []] = py_from_iterable toy_hash [[5]; []] /\
  py_contains toy_hash (py_from_iterable toy_hash [[]; [5]]) [5] = true /\ py_contains toy_hash (py_from_iterable toy_hash [[]; [5]]) [7] = false /\
  go_Contain (2 ^ 2000 + 2 ^ 64 + 8) (2 ^ 64) = true /\ go_Contain 8 (2 ^ 64) = false.
Proof. repeat split; reflexivity. Qed.

(** ** C41 *)

(** The event monitor, which skips blocks and receipts whose bloom does not contain that of the filter, reports to a
    client exactly the events of the block's normal transactions that match one of its filters, each once, in order,
    one notification per receipt.  (A filter's signature is never empty: [Compile] refuses it.) *)
Theorem C41_monitor_exact sha3 fs patch normal : Forall (fun f => f_signature f <> []) fs ->
  let ns := block_notifications sha3 fs (block_bloom sha3 patch normal) normal in
  (forall i j l, In (i, j, l) (reported ns) <->
     0 <= i /\ 0 <= j /\ (exists r, nth_error normal (Z.to_nat i) = Some r /\ nth_error r (Z.to_nat j) = Some l) /\ exists f, In f fs /\ matches f l) /\
  StronglySorted before (reported ns) /\ StronglySorted Z.lt (map fst ns) /\ Forall (fun n => snd n <> []) ns.
Proof. exact (monitor_exact sha3 fs patch normal). Qed.
Print Assumptions C41_monitor_exact.

(** Two receipts; the filter asks for address [2], first indexed argument [9]. *)
Definition ex_logs : list (list event_log) :=
  [ [mk_log [1] [Some [83]; Some [9]] []; mk_log [2] [Some [83]; Some [8]] [Some []]];
    [mk_log [2] [Some [83]; Some [9]; None] []; mk_log [2] [Some [84]; Some [9]] []; mk_log [2] [Some [83]; Some [9]] []] ].
Definition ex_filter := mk_filter (Some [2]) [83] [Some [9]] [].
Example C41_ex : map (fun n => (fst n, map fst (snd n))) (block_notifications toy_hash [ex_filter] (block_bloom toy_hash [] ex_logs) ex_logs) = [(1, [0; 2])].
Proof. reflexivity. Qed.
