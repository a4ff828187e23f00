From Verif Require Import Model.Bytes Model.Bloom Spec.Monitor.
From Coq Require Import Sorted.

(** ** Bit sets *)
Definition sub (a b : Z) : Prop := forall i, 0 <= i -> Z.testbit a i = true -> Z.testbit b i = true.
Lemma sub_refl a : sub a a. Proof. intros i _ H. exact H. Qed.
Lemma sub_trans a b c : sub a b -> sub b c -> sub a c. Proof. intros H K i P Q. auto. Qed.
Lemma sub_lor_l a b : sub a (Z.lor a b). Proof. intros i _ H. rewrite Z.lor_spec, H. reflexivity. Qed.
Lemma sub_lor_r a b : sub b (Z.lor a b). Proof. intros i _ H. rewrite Z.lor_spec, H. apply orb_true_r. Qed.

Section Hash.
Context (sha3 : bytes -> bytes).
(** The three bits of an item. *)
Definition marks (v : bytes) : list Z := map (fun i => Z.land (go_u16 (sha3 v) (2 * i)) 2047) [0%nat; 1%nat; 2%nat].
Lemma land_2047 x : 0 <= Z.land x 2047 < 2048.
Proof. change 2047 with (Z.ones 11). rewrite Z.land_ones by lia. apply Z.mod_pos_bound. lia. Qed.
Lemma marks_range v i : In i (marks v) -> 0 <= i < 2048.
Proof. unfold marks. intros H. apply in_map_iff in H. destruct H as (k & <- & _). apply land_2047. Qed.
Lemma setbit_spec a n i : 0 <= n -> 0 <= i -> Z.testbit (Z.setbit a n) i = (Z.testbit a i || (n =? i))%bool.
Proof. intros Hn Hi. rewrite Z.setbit_eqb by lia. apply orb_comm. Qed.
Lemma addLog_spec lb v i : 0 <= i -> Z.testbit (go_addLog sha3 lb v) i = (Z.testbit lb i || existsb (fun k => k =? i) (marks v))%bool.
Proof.
  intros Hi. unfold go_addLog, go_addBit, marks. cbn [map existsb Nat.mul Nat.add]. rewrite !setbit_spec by (try exact Hi; apply land_2047). rewrite orb_false_r, !orb_assoc. reflexivity.
Qed.
Lemma addLog_pos lb v : 0 <= lb -> 0 <= go_addLog sha3 lb v.
Proof.
  intros H. unfold go_addLog, go_addBit. rewrite !Z.setbit_spec', !Z.lor_nonneg. repeat split; try exact H; apply Z.pow_nonneg; lia.
Qed.
Lemma addLog_sub lb v : sub lb (go_addLog sha3 lb v).
Proof. intros i Hi H. rewrite addLog_spec, H by exact Hi. reflexivity. Qed.
(** [v] has its three bits in [lb]. *)
Definition marked (lb : Z) (v : bytes) : Prop := forall i, In i (marks v) -> Z.testbit lb i = true.
Lemma addLog_marked lb v : marked (go_addLog sha3 lb v) v.
Proof.
  intros i H. pose proof (marks_range _ _ H). rewrite addLog_spec by lia. replace (existsb _ _) with true; [apply orb_true_r|].
  symmetry. apply existsb_exists. exists i. split; [exact H|apply Z.eqb_refl].
Qed.
Lemma marked_sub a b v : sub a b -> marked a v -> marked b v.
Proof. intros S M i H. pose proof (marks_range _ _ H). apply S; [lia|auto]. Qed.
Lemma addLog_least lb v b : sub lb b -> marked b v -> sub (go_addLog sha3 lb v) b.
Proof.
  intros S M i Hi H. rewrite addLog_spec in H by exact Hi. apply orb_true_iff in H. destruct H as [H|H]; [auto|].
  apply existsb_exists in H. destruct H as (k & Hk & E). apply Z.eqb_eq in E. subst. auto.
Qed.

(** ** Python's filter is Go's *)
Lemma nth_slice j (l : bytes) k : (k < 2)%nat -> nth k (firstn 2 (skipn j l)) 0 = nth (j + k) l 0.
Proof.
  intros Hk. revert j. induction l as [|x l IH]; intros [|j]; cbn [skipn].
  - destruct k as [|[|k]]; reflexivity.
  - destruct k as [|[|k]]; reflexivity.
  - destruct k as [|[|k]]; try lia; [reflexivity|]. destruct l; reflexivity.
  - cbn [plus nth]. apply IH.
Qed.
Lemma chunk_bits h i : py_chunk_bits (firstn 2 (skipn (2 * i) h)) = 2 ^ Z.land (go_u16 h (2 * i)) 2047.
Proof.
  unfold py_chunk_bits, go_u16. rewrite Z.shiftl_1_l. f_equal. f_equal. rewrite Z.shiftl_mul_pow2 by lia. change (2 ^ 8) with 256.
  rewrite !nth_slice by lia. rewrite Nat.add_0_r. replace (2 * i + 1)%nat with (S (2 * i)) by lia. lia.
Qed.
Lemma bloom_bits v : py_bloom_bits sha3 v = map (fun i => 2 ^ i) (marks v).
Proof.
  unfold py_bloom_bits, py_chunks, marks. cbn [map]. rewrite <- !chunk_bits. reflexivity.
Qed.
Lemma py_add_go b v : py_add sha3 b v = go_addLog sha3 b v.
Proof. unfold py_add. rewrite bloom_bits. unfold go_addLog, go_addBit, marks. cbn [map fold_left]. rewrite !Z.setbit_spec'. reflexivity. Qed.
Lemma py_contains_marked b v : py_contains sha3 b v = true <-> marked b v.
Proof.
  unfold py_contains. rewrite forallb_forall, bloom_bits. split.
  - intros H i Hi. pose proof (marks_range _ _ Hi) as R. specialize (H (2 ^ i) (in_map _ _ _ Hi)). apply negb_true_iff, Z.eqb_neq in H.
    destruct (Z.testbit b i) eqn:T; [reflexivity|exfalso; apply H]. apply Z.bits_inj'. intros k Hk. rewrite Z.land_spec, Z.bits_0, Z.pow2_bits_eqb by lia.
    destruct (Z.eqb_spec i k); [subst; rewrite T; reflexivity|apply andb_false_r].
  - intros H x Hx. apply in_map_iff in Hx. destruct Hx as (i & <- & Hi).
    pose proof (marks_range _ _ Hi). apply negb_true_iff, Z.eqb_neq. intros Z0. apply (f_equal (fun z => Z.testbit z i)) in Z0.
    rewrite Z.land_spec, Z.bits_0, Z.pow2_bits_true, (H _ Hi) in Z0 by lia. discriminate.
Qed.
Lemma extend_spec vs : forall b i, 0 <= i -> Z.testbit (py_extend sha3 b vs) i = true <-> Z.testbit b i = true \/ exists v, In v vs /\ In i (marks v).
Proof.
  unfold py_extend. induction vs as [|v vs IH]; intros b i Hi; cbn [fold_left].
  - split; [auto|]. intros [H|(v & [] & _)]. exact H.
  - rewrite IH by exact Hi. rewrite py_add_go, addLog_spec, orb_true_iff, existsb_exists by exact Hi. split.
    + intros [[H|(k & Hk & E)]|(u & Hu & M)]; [auto| |right; exists u; cbn; auto]. apply Z.eqb_eq in E. subst. right. exists v. cbn. auto.
    + intros [H|(u & [->|Hu] & M)]; [auto| |right; eauto]. left. right. exists i. rewrite Z.eqb_refl. auto.
Qed.

(** ** [Contain] is inclusion *)
Lemma testbit_mod x i : 0 <= i < 64 -> Z.testbit (x mod WORD) i = Z.testbit x i.
Proof. intros H. unfold WORD. rewrite Z.mod_pow2_bits_low by lia. reflexivity. Qed.
Lemma testbit_div x i : 0 <= i -> Z.testbit (x / WORD) i = Z.testbit x (i + 64).
Proof. intros H. unfold WORD. rewrite Z.div_pow2_bits by lia. reflexivity. Qed.
Lemma testbit_mod_high x i : 64 <= i -> Z.testbit (x mod WORD) i = false.
Proof. intros H. unfold WORD. apply Z.mod_pow2_bits_high. lia. Qed.
Lemma words_len n : forall x, length (words_of n x) = n.
Proof. induction n as [|n IH]; intros x; cbn; [reflexivity|]. rewrite IH. reflexivity. Qed.
Lemma contain_words_spec n2 : forall n1 x y, (n2 <= n1)%nat ->
  contain_words (words_of n1 x) (words_of n2 y) = true <-> forall i, 0 <= i < 64 * Z.of_nat n2 -> Z.testbit y i = true -> Z.testbit x i = true.
Proof.
  induction n2 as [|n2 IH]; intros [|n1] x y L; try lia; cbn [words_of contain_words].
  - split; [intros _ i Hi; lia|reflexivity].
  - split; [intros _ i Hi; lia|reflexivity].
  - assert (W : (if y mod WORD =? 0 then true else Z.land (x mod WORD) (y mod WORD) =? y mod WORD) = true <-> forall i, 0 <= i < 64 -> Z.testbit y i = true -> Z.testbit x i = true).
    { split.
      - intros H i Hi T. rewrite <- testbit_mod in T by lia. destruct (Z.eqb_spec (y mod WORD) 0) as [E|_]; [rewrite E, Z.bits_0 in T; discriminate|].
        apply Z.eqb_eq in H. rewrite <- H, Z.land_spec, andb_true_iff, testbit_mod in T by lia. apply T.
      - intros H. destruct (Z.eqb_spec (y mod WORD) 0) as [E|_]; [reflexivity|]. apply Z.eqb_eq, Z.bits_inj'. intros i Hi. rewrite Z.land_spec.
        destruct (Z.lt_ge_cases i 64); [|rewrite !testbit_mod_high by lia; reflexivity]. rewrite !testbit_mod by lia.
        specialize (H i ltac:(lia)). destruct (Z.testbit y i); [rewrite H by reflexivity|rewrite andb_false_r]; reflexivity. }
    transitivity ((if y mod WORD =? 0 then true else Z.land (x mod WORD) (y mod WORD) =? y mod WORD) = true /\ contain_words (words_of n1 (x / WORD)) (words_of n2 (y / WORD)) = true).
    { destruct (y mod WORD =? 0); [tauto|]. destruct (Z.land _ _ =? _); cbn; intuition discriminate. }
    rewrite W, IH by lia. split.
    + intros (A & B) i Hi T. destruct (Z.lt_ge_cases i 64); [apply A; [lia|exact T]|]. specialize (B (i - 64) ltac:(lia)). rewrite !testbit_div in B by lia.
      replace (i - 64 + 64) with i in B by lia. auto.
    + intros H. split; [intros i Hi; apply H; lia|]. intros i Hi. rewrite !testbit_div by lia. apply H. lia.
Qed.
Lemma n_words_spec x : 0 <= x -> (forall i, 64 * Z.of_nat (n_words x) <= i -> Z.testbit x i = false) /\
  (n_words x <> O -> exists i, 64 * (Z.of_nat (n_words x) - 1) <= i /\ Z.testbit x i = true).
Proof.
  intros H. unfold n_words. destruct (Z.eqb_spec x 0) as [->|N]; [split; [intros; apply Z.bits_0|congruence]|].
  pose proof (Z.log2_nonneg x) as L. assert (0 <= Z.log2 x / 64) by (apply Z.div_pos; lia). rewrite Z2Nat.id by lia.
  pose proof (Z.div_mod (Z.log2 x) 64 ltac:(lia)) as D. pose proof (Z.mod_pos_bound (Z.log2 x) 64 ltac:(lia)). split.
  - intros i Hi. apply Z.bits_above_log2; lia.
  - intros _. exists (Z.log2 x). split; [lia|]. apply Z.bit_log2. lia.
Qed.
Lemma contain_sub a b : 0 <= a -> 0 <= b -> go_Contain a b = true <-> sub b a.
Proof.
  intros Ha Hb. destruct (n_words_spec a Ha) as (A1 & A2), (n_words_spec b Hb) as (B1 & B2).
  unfold go_Contain, big_Bits. rewrite !words_len. destruct (Nat.ltb_spec (n_words a) (n_words b)) as [L|L].
  - split; [discriminate|]. intros S. exfalso. destruct B2 as (i & Hi & T); [lia|]. specialize (S i ltac:(lia) T). rewrite A1 in S by lia. discriminate.
  - rewrite contain_words_spec by exact L. split.
    + intros H i Hi T. destruct (Z.lt_ge_cases i (64 * Z.of_nat (n_words b))); [apply H; [lia|exact T]|]. rewrite B1 in T by lia. discriminate.
    + intros H i Hi. apply H. lia.
Qed.

(** ** Receipts, blocks and filters *)
Lemma addItems_spec items : forall lb k b, sub (go_addItems sha3 lb k items) b <->
  sub lb b /\ (forall i v, nth_error items i = Some (Some v) -> marked b ((k + Z.of_nat i) mod 256 :: v)).
Proof.
  induction items as [|[v|] items IH]; intros lb k b; cbn [go_addItems].
  - split; [intros H; split; [exact H|]; intros [|]; discriminate|tauto].
  - rewrite IH. split.
    + intros (Sb & H). split; [eapply sub_trans; [apply addLog_sub|exact Sb]|]. intros [|i] u Hu; cbn in Hu.
      * injection Hu as <-. rewrite Z.add_0_r. eapply marked_sub; [exact Sb|apply addLog_marked].
      * replace (k + Z.of_nat (S i)) with (k + 1 + Z.of_nat i) by lia. auto.
    + intros (Sb & H). split.
      * apply addLog_least; [exact Sb|]. specialize (H O v eq_refl). rewrite Z.add_0_r in H. exact H.
      * intros i u Hu. specialize (H (S i) u Hu). replace (k + Z.of_nat (S i)) with (k + 1 + Z.of_nat i) in H by lia. exact H.
  - rewrite IH. split; intros (Sb & H); (split; [exact Sb|]).
    + intros [|i] u Hu; [discriminate|]. replace (k + Z.of_nat (S i)) with (k + 1 + Z.of_nat i) by lia. auto.
    + intros i u Hu. specialize (H (S i) u Hu). replace (k + Z.of_nat (S i)) with (k + 1 + Z.of_nat i) in H by lia. exact H.
Qed.
Lemma addItems_pos items : forall lb k, 0 <= lb -> 0 <= go_addItems sha3 lb k items.
Proof. induction items as [|[v|] items IH]; intros lb k H; cbn; [exact H| |]; apply IH; [apply addLog_pos, H|exact H]. Qed.
Lemma AddLog_spec lb addr items b : sub (go_AddLog sha3 lb addr items) b <->
  sub lb b /\ (items <> [] -> marked b (255 :: addr)) /\ (forall i v, nth_error items i = Some (Some v) -> marked b (Z.of_nat i mod 256 :: v)).
Proof.
  unfold go_AddLog. destruct items as [|it items].
  - split; [intros H; split; [exact H|]; split; [congruence|]; intros [|]; discriminate|tauto].
  - set (l := it :: items). assert (l <> []) by discriminate. rewrite addItems_spec. cbn [Z.add]. split.
    + intros (Sb & H'). split; [eapply sub_trans; [apply addLog_sub|exact Sb]|]. split; [intros _; eapply marked_sub; [exact Sb|apply addLog_marked]|exact H'].
    + intros (Sb & A & H'). split; [apply addLog_least; auto|exact H'].
Qed.
Lemma AddLog_pos lb addr items : 0 <= lb -> 0 <= go_AddLog sha3 lb addr items.
Proof. intros H. unfold go_AddLog. destruct items; [exact H|]. apply addItems_pos, addLog_pos, H. Qed.
Lemma receipt_pos logs : forall lb, 0 <= lb -> 0 <= fold_left (fun lb l => go_AddLog sha3 lb (l_addr l) (l_indexed l)) logs lb.
Proof. induction logs as [|l logs IH]; intros lb H; cbn; [exact H|]. apply IH, AddLog_pos, H. Qed.
Lemma receipt_sub logs : forall lb, sub lb (fold_left (fun lb l => go_AddLog sha3 lb (l_addr l) (l_indexed l)) logs lb) /\
  forall l, In l logs -> sub (go_AddLog sha3 0 (l_addr l) (l_indexed l)) (fold_left (fun lb l => go_AddLog sha3 lb (l_addr l) (l_indexed l)) logs lb).
Proof.
  induction logs as [|l logs IH]; intros lb; cbn; [split; [apply sub_refl|tauto]|].
  destruct (IH (go_AddLog sha3 lb (l_addr l) (l_indexed l))) as (S & H). pose proof (proj1 (AddLog_spec lb (l_addr l) (l_indexed l) _) (sub_refl _)) as (A & B & C).
  split; [eapply sub_trans; eauto|]. intros l' [<-|Hin]; [|auto]. eapply sub_trans; [|exact S].
  apply AddLog_spec. split; [intros i _ T; rewrite Z.bits_0 in T; discriminate|]. auto.
Qed.
Lemma filter_spec f b : sub (filter_bloom sha3 f) b <->
  (forall a, f_addr f = Some a -> marked b (255 :: a)) /\ marked b (0 :: f_signature f) /\
  (forall i v, nth_error (f_indexed f) i = Some (Some v) -> marked b ((1 + Z.of_nat i) mod 256 :: v)).
Proof.
  assert (Z0 : sub 0 b) by (intros i _ T; rewrite Z.bits_0 in T; discriminate).
  unfold filter_bloom. rewrite addItems_spec. unfold go_AddIndexedOfLog. change (0 mod 256) with 0. split.
  - intros (Sb & H). split; [|split; [eapply marked_sub; [exact Sb|apply addLog_marked]|exact H]].
    intros a E. rewrite E in Sb. eapply marked_sub; [|apply addLog_marked]. eapply sub_trans; [apply addLog_sub|exact Sb].
  - intros (A & Sb & H). split; [|exact H]. apply addLog_least; [|exact Sb]. destruct (f_addr f) as [a|]; [|exact Z0]. apply addLog_least; auto.
Qed.
Lemma filter_pos f : 0 <= filter_bloom sha3 f.
Proof. unfold filter_bloom. apply addItems_pos, addLog_pos. destruct (f_addr f); [apply addLog_pos|]; lia. Qed.

Lemma matches_sub f l : matches f l -> sub (filter_bloom sha3 f) (go_AddLog sha3 0 (l_addr l) (l_indexed l)).
Proof.
  intros (S & A & I & _). pose proof (proj1 (AddLog_spec 0 (l_addr l) (l_indexed l) _) (sub_refl _)) as (_ & B & C).
  apply filter_spec. split; [|split].
  - intros a Ha. rewrite <- (A _ Ha). apply B. destruct (l_indexed l); discriminate.
  - apply (C O), S.
  - intros i v Hv. specialize (C (Datatypes.S i) v (I _ _ Hv)). replace (1 + Z.of_nat i) with (Z.of_nat (Datatypes.S i)) by lia. exact C.
Qed.
Lemma matches_receipt f l logs : In l logs -> matches f l -> go_Contain (receipt_bloom sha3 logs) (filter_bloom sha3 f) = true.
Proof.
  intros Hin M. apply contain_sub; [apply receipt_pos; lia|apply filter_pos|]. eapply sub_trans; [apply matches_sub, M|]. apply receipt_sub, Hin.
Qed.
Lemma block_pos rs : forall lb, 0 <= lb -> 0 <= fold_left (fun lb r => go_Merge lb (receipt_bloom sha3 r)) rs lb.
Proof. induction rs as [|r rs IH]; intros lb H; cbn; [exact H|]. apply IH. unfold go_Merge. apply Z.lor_nonneg. split; [exact H|apply receipt_pos; lia]. Qed.
Lemma block_sub rs : forall lb, sub lb (fold_left (fun lb r => go_Merge lb (receipt_bloom sha3 r)) rs lb) /\
  forall r, In r rs -> sub (receipt_bloom sha3 r) (fold_left (fun lb r => go_Merge lb (receipt_bloom sha3 r)) rs lb).
Proof.
  induction rs as [|r rs IH]; intros lb; cbn; [split; [apply sub_refl|tauto]|]. destruct (IH (go_Merge lb (receipt_bloom sha3 r))) as (S & H). unfold go_Merge in *.
  split; [eapply sub_trans; [apply sub_lor_l|exact S]|]. intros r' [<-|Hin]; [|auto]. eapply sub_trans; [apply sub_lor_r|exact S].
Qed.
Lemma matches_block f l logs patch normal : In l logs -> In logs normal -> matches f l -> go_Contain (block_bloom sha3 patch normal) (filter_bloom sha3 f) = true.
Proof.
  intros Hin Hr M. apply contain_sub; [apply block_pos; lia|apply filter_pos|].
  eapply sub_trans; [apply matches_sub, M|]. eapply sub_trans; [apply (proj2 (receipt_sub logs 0)), Hin|]. apply (proj2 (block_sub (patch ++ normal) 0)). apply in_or_app. auto.
Qed.

(** ** The matching *)
Lemma args_match_spec args : forall items, (length args <= length items)%nat -> args_match args items = true <-> forall i b, nth_error args i = Some (Some b) -> nth_error items i = Some (Some b).
Proof.
  induction args as [|[a|] args IH]; intros [|x items] L; cbn in L; try lia; cbn [args_match].
  - split; [intros _ [|]; discriminate|reflexivity].
  - split; [intros _ [|]; discriminate|reflexivity].
  - rewrite andb_true_iff, IH by lia. split.
    + intros (E & H) [|i] b Hb; cbn in *; [|auto]. injection Hb as ->. destruct x as [x|]; [|discriminate]. apply bytes_eqb_eq in E. congruence.
    + intros H. split; [|intros i b; apply (H (S i))]. specialize (H O a eq_refl). cbn in H. injection H as ->. cbn. apply bytes_eqb_refl.
  - cbn [tl]. rewrite IH by lia. split.
    + intros H [|i] b Hb; [discriminate|]. exact (H _ _ Hb).
    + intros H i b. apply (H (S i)).
Qed.
Lemma MatchLog_spec f l : f_signature f <> [] -> MatchLog f l = true <-> matches f l.
Proof.
  intros NE. unfold MatchLog, matches.
  assert (SG : bytes_eqb (f_signature f) (raw (hd None (l_indexed l))) = true <-> nth_error (l_indexed l) 0 = Some (Some (f_signature f))).
  { rewrite bytes_eqb_eq. destruct (l_indexed l) as [|[x|] t]; cbn; split; intros H; try congruence. }
  assert (AD : match f_addr f with Some a => negb (bytes_eqb a (l_addr l)) | None => false end = false <-> forall a, f_addr f = Some a -> l_addr l = a).
  { destruct (f_addr f) as [a|]; [|split; [intros _ a; discriminate|reflexivity]]. rewrite negb_false_iff, bytes_eqb_eq. split; [intros -> a' [= <-]; reflexivity|]. intros H. symmetry. auto. }
  destruct (bytes_eqb _ _); [|split; [discriminate|]; intros (H & _); apply SG in H; discriminate].
  destruct (match f_addr f with Some _ => _ | None => _ end); [split; [discriminate|]; intros (_ & H & _); apply AD in H; discriminate|].
  destruct (Nat.ltb_spec 0 (length (f_indexed f) + length (f_data f))) as [LA|LA].
  - assert (NN : f_indexed f ++ f_data f <> []) by (intros E; apply (f_equal (@length _)) in E; rewrite app_length in E; cbn in E; lia).
    destruct (Nat.leb_spec (length (l_indexed l)) (length (f_indexed f))); [split; [discriminate|]; intros (_ & _ & _ & _ & H'); specialize (H' NN); lia|].
    destruct (Nat.ltb_spec (length (l_data l)) (length (f_data f))); [split; [discriminate|]; intros (_ & _ & _ & _ & H'); specialize (H' NN); lia|].
    rewrite andb_true_iff, !args_match_spec by (try lia; destruct (l_indexed l); cbn in *; lia).
    assert (T : forall i, nth_error (tl (l_indexed l)) i = nth_error (l_indexed l) (S i)) by (destruct (l_indexed l); [destruct i; reflexivity|reflexivity]).
    setoid_rewrite T. tauto.
  - destruct (f_indexed f), (f_data f); cbn in LA; try lia. split; [|reflexivity]. intros _. split; [tauto|]. split; [tauto|]. split; [intros [|]; discriminate|]. split; [intros [|]; discriminate|]. cbn. congruence.
Qed.

(** ** Filtering does not change the answer *)
Lemma FBL_match fs lb l : (forall f, In (Some f) fs -> f_signature f <> []) ->
  (forall f, matches f l -> go_Contain lb (filter_bloom sha3 f) = true) ->
  some_match (fst (FilteredByLogBloom sha3 fs lb)) l = some_match fs l.
Proof.
  intros NE H. unfold FilteredByLogBloom, some_match. cbn [fst]. induction fs as [|[f|] fs IH]; cbn; [reflexivity| |].
  - rewrite IH by (intros f' Hf; apply NE; cbn; auto). f_equal. destruct (go_Contain lb (filter_bloom sha3 f)) eqn:E; [reflexivity|].
    destruct (MatchLog f l) eqn:M; [|reflexivity]. apply MatchLog_spec in M; [|apply NE; cbn; auto]. rewrite (H _ M) in E. discriminate.
  - apply IH. intros f' Hf. apply NE. cbn. auto.
Qed.
Lemma FBL_none fs lb l : snd (FilteredByLogBloom sha3 fs lb) = false -> some_match (fst (FilteredByLogBloom sha3 fs lb)) l = false.
Proof.
  unfold FilteredByLogBloom, some_match. cbn [fst snd]. induction fs as [|f fs IH]; cbn; [reflexivity|]. intros H. apply orb_false_iff in H. destruct H as (H & K).
  rewrite (IH K), orb_false_r. destruct f as [f|]; [|reflexivity]. destruct (go_Contain lb (filter_bloom sha3 f)); [discriminate|reflexivity].
Qed.
Lemma FBL_in fs lb f : In (Some f) (fst (FilteredByLogBloom sha3 fs lb)) -> In (Some f) fs.
Proof.
  unfold FilteredByLogBloom. cbn [fst]. intros H. apply in_map_iff in H. destruct H as ([g|] & E & Hg); [|discriminate].
  destruct (go_Contain lb (filter_bloom sha3 g)); [|discriminate]. injection E as ->. exact Hg.
Qed.
Lemma matching_ext fs fs' logs : (forall l, In l logs -> some_match fs l = some_match fs' l) -> forall i, matching_from fs i logs = matching_from fs' i logs.
Proof. induction logs as [|l logs IH]; intros H i; cbn; [reflexivity|]. rewrite (H l (or_introl eq_refl)), !IH by (intros; apply H; cbn; auto). reflexivity. Qed.
Lemma matching_none fs logs : (forall l, In l logs -> some_match fs l = false) -> forall i, matching_from fs i logs = [].
Proof. induction logs as [|l logs IH]; intros H i; cbn; [reflexivity|]. rewrite (H l (or_introl eq_refl)), IH by (intros; apply H; cbn; auto). reflexivity. Qed.
Lemma MatchEvents_all fs logs : (forall f, In (Some f) fs -> f_signature f <> []) -> MatchEvents sha3 fs logs = matching_from fs 0 logs.
Proof.
  intros NE. unfold MatchEvents. destruct (FilteredByLogBloom sha3 fs (receipt_bloom sha3 logs)) as (fs', c) eqn:E.
  assert (K : forall l, In l logs -> some_match fs' l = some_match fs l).
  { intros l Hl. replace fs' with (fst (FilteredByLogBloom sha3 fs (receipt_bloom sha3 logs))) by (rewrite E; reflexivity). apply FBL_match; [exact NE|]. intros f M. eapply matches_receipt; eauto. }
  destruct c; [apply matching_ext, K|]. symmetry. apply matching_none. intros l Hl. rewrite <- K by exact Hl.
  replace fs' with (fst (FilteredByLogBloom sha3 fs (receipt_bloom sha3 logs))) by (rewrite E; reflexivity). apply FBL_none. rewrite E. reflexivity.
Qed.

(** ** Everything together *)
Lemma matching_spec fs logs : forall k i l, In (i, l) (matching_from fs k logs) <-> k <= i /\ nth_error logs (Z.to_nat (i - k)) = Some l /\ some_match fs l = true.
Proof.
  induction logs as [|x logs IH]; intros k i l; cbn [matching_from].
  - split; [intros []|]. intros (_ & H & _). destruct (Z.to_nat (i - k)); discriminate.
  - assert (T : In (i, l) (matching_from fs (k + 1) logs) <-> k < i /\ nth_error (x :: logs) (Z.to_nat (i - k)) = Some l /\ some_match fs l = true).
    { rewrite IH. split; intros (A & B & C); (split; [lia|split; [|exact C]]); replace (Z.to_nat (i - k)) with (S (Z.to_nat (i - (k + 1)))) in * by lia; exact B. }
    destruct (some_match fs x) eqn:M; [cbn [In]|]; rewrite T; split.
    + intros [[= <- <-]|(A & B)]; [|split; [lia|exact B]]. replace (Z.to_nat (k - k)) with O by lia. cbn. auto with zarith.
    + intros (A & B & C). destruct (Z.eq_dec k i) as [<-|N]; [|right; split; [lia|auto]]. left. replace (Z.to_nat (k - k)) with O in B by lia. cbn in B. congruence.
    + intros (A & B). split; [lia|exact B].
    + intros (A & B & C). split; [|auto]. destruct (Z.eq_dec k i) as [<-|N]; [|lia]. replace (Z.to_nat (k - k)) with O in B by lia. cbn in B. congruence.
Qed.
Lemma matching_sorted fs logs : forall k, StronglySorted (fun a b => fst a < fst b) (matching_from fs k logs).
Proof.
  induction logs as [|x logs IH]; intros k; cbn [matching_from]; [constructor|]. destruct (some_match fs x); [|apply IH]. constructor; [apply IH|].
  apply Forall_forall. intros (i, l) H. apply matching_spec in H. cbn. lia.
Qed.
Lemma notify_spec fs rs : (forall f, In (Some f) fs -> f_signature f <> []) -> forall k i es, In (i, es) (notify_from sha3 fs k rs) <->
  k <= i /\ exists r, nth_error rs (Z.to_nat (i - k)) = Some r /\ es = matching_from fs 0 r /\ es <> [].
Proof.
  intros NE. induction rs as [|x rs IH]; intros k i es; cbn [notify_from].
  - split; [intros []|]. intros (_ & r & H & _). destruct (Z.to_nat (i - k)); discriminate.
  - rewrite MatchEvents_all by exact NE.
    assert (T : In (i, es) (notify_from sha3 fs (k + 1) rs) <-> k < i /\ exists r, nth_error (x :: rs) (Z.to_nat (i - k)) = Some r /\ es = matching_from fs 0 r /\ es <> []).
    { rewrite IH. split; intros (A & r & B & C); (split; [lia|exists r; split; [|exact C]]); replace (Z.to_nat (i - k)) with (S (Z.to_nat (i - (k + 1)))) in * by lia; exact B. }
    destruct (matching_from fs 0 x) as [|e l] eqn:M; [|cbn [In]]; rewrite T; split.
    + intros (A & B). split; [lia|exact B].
    + intros (A & r & B & C & D). destruct (Z.eq_dec k i) as [<-|N]; [|split; [lia|eauto]]. replace (Z.to_nat (k - k)) with O in B by lia. cbn in B. congruence.
    + intros [[= <- <-]|(A & B)]; [|split; [lia|exact B]]. split; [lia|]. exists x. replace (Z.to_nat (k - k)) with O by lia. cbn. split; [reflexivity|]. split; [congruence|discriminate].
    + intros (A & r & B & C & D). destruct (Z.eq_dec k i) as [<-|N]; [|right; split; [lia|eauto]]. left. replace (Z.to_nat (k - k)) with O in B by lia. cbn in B. congruence.
Qed.
Lemma notify_sorted fs rs : (forall f, In (Some f) fs -> f_signature f <> []) -> forall k, StronglySorted (fun a b => fst a < fst b) (notify_from sha3 fs k rs).
Proof.
  intros NE. induction rs as [|x rs IH]; intros k; cbn [notify_from]; [constructor|]. destruct (MatchEvents sha3 fs x) as [|e es]; [apply IH|]. constructor; [apply IH|].
  apply Forall_forall. intros (i, l) H. apply notify_spec in H; [|exact NE]. cbn. lia.
Qed.

Theorem monitor_exact fs patch normal : Forall (fun f => f_signature f <> []) fs ->
  let ns := block_notifications sha3 fs (block_bloom sha3 patch normal) normal in
  (forall i j l, In (i, j, l) (reported ns) <->
     0 <= i /\ 0 <= j /\ (exists r, nth_error normal (Z.to_nat i) = Some r /\ nth_error r (Z.to_nat j) = Some l) /\ exists f, In f fs /\ matches f l) /\
  StronglySorted before (reported ns) /\ StronglySorted Z.lt (map fst ns) /\ Forall (fun n => snd n <> []) ns.
Proof.
  intros NE ns. rewrite Forall_forall in NE. subst ns. unfold block_notifications. set (lb := block_bloom sha3 patch normal).
  destruct (FilteredByLogBloom sha3 (map Some fs) lb) as (fs', c) eqn:E.
  assert (F1 : fs' = fst (FilteredByLogBloom sha3 (map Some fs) lb)) by (rewrite E; reflexivity).
  assert (NE1 : forall f, In (Some f) (map Some fs) -> f_signature f <> []) by (intros f H; apply in_map_iff in H; destruct H as (g & [= ->] & Hg); auto).
  assert (NE2 : forall f, In (Some f) fs' -> f_signature f <> []) by (intros f H; rewrite F1 in H; apply FBL_in in H; auto).
  assert (K : forall r l, In r normal -> In l r -> some_match fs' l = some_match (map Some fs) l).
  { intros r l Hr Hl. rewrite F1. apply FBL_match; [exact NE1|]. intros f M. eapply matches_block; eauto. }
  assert (SM : forall l, some_match (map Some fs) l = true <-> exists f, In f fs /\ matches f l).
  { intros l. unfold some_match. rewrite existsb_exists. split.
    - intros (o & Ho & M). apply in_map_iff in Ho. destruct Ho as (f & <- & Hf). exists f. split; [exact Hf|]. apply MatchLog_spec; auto.
    - intros (f & Hf & M). exists (Some f). split; [apply in_map, Hf|]. apply MatchLog_spec; auto. }
  set (ns := if c then notify_from sha3 fs' 0 normal else []).
  assert (NS : forall i es, In (i, es) ns <-> 0 <= i /\ exists r, nth_error normal (Z.to_nat i) = Some r /\ es = matching_from fs' 0 r /\ es <> []).
  { intros i es. subst ns. destruct c.
    - rewrite notify_spec by exact NE2. rewrite Z.sub_0_r. reflexivity.
    - split; [intros []|]. intros (_ & r & Hr & -> & N). apply N, matching_none. intros l _. rewrite F1. apply FBL_none. rewrite E. reflexivity. }
  assert (SO : StronglySorted (fun a b => fst a < fst b) ns) by (subst ns; destruct c; [apply notify_sorted, NE2|constructor]).
  split; [|split; [|split]].
  - intros i j l. unfold reported. rewrite in_flat_map. split.
    + intros ((i', es) & Hn & H). cbn [fst snd] in H. apply in_map_iff in H. destruct H as ((j', l') & [= <- <- <-] & Hj). apply NS in Hn. destruct Hn as (P & r & Hr & -> & _).
      apply matching_spec in Hj. rewrite Z.sub_0_r in Hj. destruct Hj as (Q & Hl & M). split; [exact P|]. split; [exact Q|]. split; [eauto|]. apply SM. rewrite <- (K r l'); [exact M|eapply nth_error_In; eauto|eapply nth_error_In; eauto].
    + intros (P & Q & (r & Hr & Hl) & M). apply SM in M.
      assert (Hin : In (j, l) (matching_from fs' 0 r)).
      { apply matching_spec. rewrite Z.sub_0_r. split; [exact Q|]. split; [exact Hl|]. rewrite (K r l); [exact M|eapply nth_error_In; eauto|eapply nth_error_In; eauto]. }
      exists (i, matching_from fs' 0 r). split.
      * apply NS. split; [exact P|]. exists r. split; [exact Hr|]. split; [reflexivity|]. intros N. rewrite N in Hin. exact Hin.
      * cbn [fst snd]. apply in_map_iff. exists (j, l). auto.
  - assert (G : forall i es, In (i, es) ns -> exists r, es = matching_from fs' 0 r) by (intros i es H; apply NS in H; destruct H as (_ & r & _ & -> & _); eauto).
    clear NS. induction SO as [|(i, es) ns' _ IH FA]; [constructor|]. unfold reported. cbn [flat_map fst snd]. fold (reported ns').
    destruct (G i es (or_introl eq_refl)) as (r & ->). specialize (IH (fun i es H => G i es (or_intror H))).
    assert (AF : forall x, In x (reported ns') -> i < fst (fst x)).
    { intros x H. apply in_flat_map in H. destruct H as (n & Hn & H). apply in_map_iff in H. destruct H as (e & <- & _). cbn [fst]. rewrite Forall_forall in FA. exact (FA _ Hn). }
    clear G FA.    pose proof (matching_sorted fs' r 0) as MS. induction MS as [|(j, l) es' _ IHm FM]; [exact IH|]. cbn [map app fst snd]. constructor; [exact IHm|].
    apply Forall_app. split.
    + apply Forall_forall. intros x Hx. apply in_map_iff in Hx. destruct Hx as (e & <- & He). rewrite Forall_forall in FM. specialize (FM _ He). right. cbn in *. split; [reflexivity|exact FM].
    + apply Forall_forall. intros x Hx. left. cbn. apply AF, Hx.
  - clear -SO. induction SO as [|n ns' _ IH FA]; cbn; constructor; [exact IH|]. apply Forall_map. exact FA.
  - apply Forall_forall. intros (i, es) H. apply NS in H. destruct H as (_ & r & _ & _ & N). exact N.
Qed.
End Hash.
