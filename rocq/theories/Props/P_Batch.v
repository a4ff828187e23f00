(** C24-C26: batches of writes and block records. *)
From Verif Require Import Model.Bytes Model.Exn Model.Batch Spec.BatchSpec Proof.BytesFacts Proof.BatchFacts.

Ltac nd := cbn; repeat (apply NoDup_cons; [cbn; intuition discriminate|]); apply NoDup_nil.

(** ** C24 *)

(** A call's history, however deep its inner calls, run in any open batch (whose dictionaries have distinct keys, as
    dictionaries do): it touches only the innermost dictionary, and afterwards every key reads as the history says. *)
Theorem C24_history h d rest : distinct (d :: rest) -> exists d',
  tb_run (ops h) (d :: rest) = Ok (d' :: rest) /\ distinct (d' :: rest) /\
  (forall k, tb_find (d' :: rest) k = visible h (tb_find rest) (tb_find (d :: rest)) k).
Proof.
  intros D. destruct (run_history h d rest D) as (d' & R & N & V). exists d'. split; [exact R|]. split; [|exact V]. inversion D; subst. constructor; assumption.
Qed.
Print Assumptions C24_history.

(** Reading, and testing for presence. *)
Theorem C24_read b k : tb_getitem b k = match tb_find b k with Some v => v | None => None end /\ (tb_contains b k = true <-> tb_find b k <> None).
Proof.
  split; [reflexivity|]. unfold tb_contains. induction b as [|d b IH]; cbn; [split; [discriminate|congruence]|].
  destruct (od_get d k); cbn; [split; [discriminate|reflexivity]|exact IH].
Qed.
Print Assumptions C24_read.

(** A call that ends merges exactly what it saw; one that gives up first leaves the batch exactly as it was. *)
Theorem C24_commit body b d rest : b = d :: rest -> distinct b -> exists d',
  tb_run (OpEnter :: ops body ++ [OpLeave]) b = Ok (d' :: rest) /\ forall k, tb_find (d' :: rest) k = visible body (tb_find b) (tb_find b) k.
Proof. intros -> D. destruct (run_history (Call body Done) d rest D) as (d' & R & _ & V). exists d'. split; [exact R|]. intros k. rewrite V. reflexivity. Qed.
Print Assumptions C24_commit.
Theorem C24_abort body b : b <> [] -> distinct b -> tb_run (OpEnter :: ops body ++ [OpRevert; OpLeave]) b = Ok b.
Proof.
  intros NE D. destruct b as [|d rest]; [congruence|]. destruct (run_history body [] (d :: rest)) as (e & R & _). { constructor; [constructor|exact D]. }
  change (tb_run (ops body ++ [OpRevert; OpLeave]) ([] :: d :: rest) = Ok (d :: rest)). rewrite run_app.
  match goal with |- res_bind ?x _ = _ => replace x with (Ok (e :: d :: rest) : pyres tbatch) by (symmetry; exact R) end. reflexivity.
Qed.
Print Assumptions C24_abort.

(** A history in closed form: the last write of a key that was not given up is what is read. *)
Example C24_ex : exists d', tb_run (ops (Put [1] (Some [10]) (Call (Put [1] (Some [11]) (Call (Put [2] None Done) (Drop (Put [3] (Some [30]) Done)))) Done))) new_batch = Ok [d'] /\
  tb_getitem [d'] [1] = Some [10] /\ tb_find [d'] [2] = None /\ tb_getitem [d'] [3] = Some [30].
Proof. eexists. split; [reflexivity|]. repeat split. Qed.
Example C24_ex_distinct : distinct new_batch. Proof. repeat constructor. Qed.

(** FINDING: during a nested call the mapping is not a mapping: a key written in two calls is counted and listed
    twice, so [len(batch)] is not the number of keys. *)
Theorem C24_violated_len : exists b, tb_run [OpSet [1] (Some [5]); OpEnter; OpSet [1] (Some [6])] new_batch = Ok b /\ tb_len b = 2 /\ tb_iter b = [[1]; [1]].
Proof. eexists. split; [reflexivity|]. split; reflexivity. Qed.
Print Assumptions C24_violated_len.
(** FINDING: leaving the outermost call is not refused: it destroys the batch, after which writing raises. *)
Theorem C24_violated_underflow : exists b, tb_run [OpLeave] new_batch = Ok b /\ (forall k v, tb_step (OpSet k v) b = Exc (EPy KIndexError)) /\ forall k, tb_getitem b k = None.
Proof. exists []. repeat split. Qed.
Print Assumptions C24_violated_underflow.

(** ** C25 *)

(** FINDING: whatever the hash function, different batches have the same digest, because a deletion adds nothing... *)
Theorem C25_violated_deletion : exists d e, NoDup (map fst d) /\ NoDup (map fst e) /\ d <> e /\ (exists k, od_get d k <> od_get e k) /\ forall sha3, digest sha3 d = digest sha3 e.
Proof.
  exists [([1], None); ([2], Some [3])], [([1], Some [2]); ([3], None)].
  split; [nd|]. split; [nd|]. split; [discriminate|]. split; [exists [1]; discriminate|reflexivity].
Qed.
Print Assumptions C25_violated_deletion.
(** ... or because the separator '|' (124) may occur in keys and values. *)
Theorem C25_violated_separator : exists d e, NoDup (map fst d) /\ NoDup (map fst e) /\ (exists k, od_get d k <> od_get e k) /\ (forall k, od_get d k <> Some None) /\ (forall k, od_get e k <> Some None) /\
  forall sha3, digest sha3 d = digest sha3 e.
Proof.
  exists [([1; 124; 2], Some [3])], [([1], Some [2; 124; 3])].
  split; [nd|]. split; [nd|]. split; [exists [1]; discriminate|]. split; [|split; [|reflexivity]]; intros k; unfold od_get; destruct (bytes_eqb _ k); discriminate.
Qed.
Print Assumptions C25_violated_separator.

(** What does hold: if '|' does not occur, and keys can be told from values (say by their length), the digest
    identifies the sequence of writes as far as the hash does not collide. *)
Theorem C25_identifies_separated (is_key : bytes -> Prop) sha3 d e : ~ is_key [] ->
  let ok := fun d : odict => Forall (fun kv => ~ In 124 (fst kv) /\ is_key (fst kv) /\ forall v, snd kv = Some v -> ~ In 124 v /\ ~ is_key v) d in
  ok d -> ok e -> (sha3 (digest_input d) = sha3 (digest_input e) -> digest_input d = digest_input e) ->
  digest sha3 d = digest sha3 e -> d = e.
Proof.
  intros NK ok Od Oe H E. apply H in E. clear H. unfold digest_input in E.
  assert (P : forall d, ok d -> Forall (fun s => ~ In 124 s) (digest_parts d)).
  { intros x F. induction F as [|(k, v) x (A & _ & B) _ IH]; cbn; [constructor|]. destruct v as [v|]; cbn [fst snd] in *; [|constructor; assumption]. constructor; [exact A|]. constructor; [apply (B v eq_refl)|exact IH]. }
  assert (Q : forall d, ok d -> Forall (fun kv => is_key (fst kv) /\ forall v, snd kv = Some v -> ~ is_key v) d).
  { intros x F. eapply Forall_impl; [|exact F]. intros kv (_ & A & B). split; [exact A|]. intros v Hv. apply (B v Hv). }
  assert (N : forall d, ok d -> d <> [] -> digest_parts d <> [] /\ join_bar (digest_parts d) <> []).
  { intros [|(k, v) x] F NE; [congruence|]. inversion F as [|? ? (_ & A & _) _]; subst. cbn [fst] in A. assert (k <> []) by (intros ->; auto). split; [destruct v; discriminate|].
    cbn [digest_parts]. destruct k; [congruence|]. destruct v; cbn; [discriminate|]. destruct (digest_parts x); discriminate. }
  destruct d as [|kv d].
  - destruct e as [|kv e]; [reflexivity|]. destruct (N _ Oe) as (_ & B); [discriminate|]. exfalso. apply B. symmetry. exact E.
  - destruct e as [|kv' e]. { destruct (N _ Od) as (_ & B); [discriminate|]. exfalso. apply B. exact E. }
    destruct (N _ Od) as (N1 & _); [discriminate|]. destruct (N _ Oe) as (N2 & _); [discriminate|]. eapply parts_inj; [apply Q, Od|apply Q, Oe|]. apply join_inj; auto.
Qed.
Print Assumptions C25_identifies_separated.

(** The digest is given between transactions only: while a call is open, however deep, it is refused, and when all
    calls have ended it is the digest of the one dictionary that is left, which reads as the history says. *)
Theorem C25_digest_at_top sha3 h : exists d,
  tb_run (ops h) new_batch = Ok [d] /\ tb_digest sha3 [d] = Ok (digest sha3 d) /\
  (forall k, tb_find [d] k = visible h (fun _ => None) (fun _ => None) k) /\
  (forall body, exists b, tb_run (OpEnter :: ops body) [d] = Ok b /\ tb_digest sha3 b = Exc (EIcon Database)).
Proof.
  destruct (C24_history h [] []) as (d & R & D & V); [constructor; constructor|].
  exists d. split; [exact R|]. split; [reflexivity|]. split; [exact V|].
  intros body. destruct (C24_history body [] [d]) as (d' & R' & _); [constructor; [constructor | exact D]|].
  exists (d' :: [d]). split; [exact R' | reflexivity].
Qed.
Print Assumptions C25_digest_at_top.
Example C25_ex : let is_key (b : bytes) := length b = 2%nat in ~ is_key [] /\
  Forall (fun kv => ~ In 124 (fst kv) /\ is_key (fst kv) /\ forall v, snd kv = Some v -> ~ In 124 v /\ ~ is_key v) [([1; 2], Some [7]); ([1; 3], None)].
Proof.
  cbn. split; [discriminate|]. apply Forall_cons; [|apply Forall_cons; [|apply Forall_nil]]; cbn.
  - split; [intuition discriminate|]. split; [reflexivity|]. intros v [= <-]. cbn. intuition discriminate.
  - split; [intuition discriminate|]. split; [reflexivity|]. intros v. discriminate.
Qed.

(** ** C26 *)

Definition in_range (b : block) : Prop :=
  0 <= b_height b < 2 ^ 256 /\ 0 <= b_timestamp b < 2 ^ 256 /\ (exists h, b_hash b = Some h /\ length h = 32%nat /\ wf_bytes h) /\
  (forall p, b_prev b = Some p -> length p = 32%nat /\ wf_bytes p).
Theorem C26_roundtrip b : in_range b -> exists buf, block_to_bytes b = Ok buf /\ blen buf = 129 /\
  block_from_bytes buf = Ok (mk_block (b_height b) (b_timestamp b) (b_hash b) (match b_prev b with Some p => if bytes_eqb p (repeat 0 32) then None else Some p | None => None end)).
Proof.
  intros (Hh & Ht & (hash & Eh & Lh & Wh) & Hp). change (2 ^ 256) with (256 ^ 32) in *.
  set (prev := match b_prev b with Some p => p | None => repeat 0 SIZE end).
  assert (Lp : length prev = SIZE /\ wf_bytes prev).
  { unfold prev. destruct (b_prev b) as [p|]; [apply Hp; reflexivity|]. split; [apply repeat_length|]. apply Forall_forall. intros x Hx. apply repeat_spec in Hx. subst. unfold wf_byte. lia. }
  destruct Lp as (Lp & Wp).
  destruct (slices 0 (be_bytes SIZE (b_height b)) hash (be_bytes SIZE (b_timestamp b)) prev) as (S0 & S1 & S2 & S3 & S4); try apply be_bytes_length; auto.
  exists (0 :: be_bytes SIZE (b_height b) ++ hash ++ be_bytes SIZE (b_timestamp b) ++ prev). split; [|split; [exact S0|]].
  - unfold block_to_bytes, to_bytes32. destruct (Z.leb_spec 0 (b_height b)), (Z.ltb_spec (b_height b) (256 ^ 32)); try lia. destruct (Z.leb_spec 0 (b_timestamp b)), (Z.ltb_spec (b_timestamp b) (256 ^ 32)); try lia.
    cbn [andb res_bind]. rewrite Eh. cbn [pack32s res_bind]. rewrite (firstn_pad hash Lh). fold prev. rewrite (firstn_pad prev Lp). reflexivity.
  - unfold block_from_bytes. rewrite S0, S1, S2, S3, S4. cbn [Z.eqb Pos.eqb negb]. rewrite !be_val_be_bytes. change (Z.of_nat SIZE) with 32. rewrite !Z.mod_small by assumption. rewrite Eh. do 2 f_equal.
    pose proof (be_val_zero prev Wp) as Z0. rewrite Lp in Z0. unfold prev in *. destruct (b_prev b) as [p|].
    + destruct (Z.eqb_spec (be_val p) 0) as [E|E].
      * apply Z0 in E. rewrite E at 1. change (repeat 0 32) with (repeat 0 SIZE). rewrite bytes_eqb_refl. reflexivity.
      * destruct (bytes_eqb p (repeat 0 32)) eqn:Q; [|reflexivity]. apply bytes_eqb_eq in Q. exfalso. apply E, Z0, Q.
    + reflexivity.
Qed.
Print Assumptions C26_roundtrip.

(** Conversely, any 129 bytes read as a block, which is written as the same bytes but for the version (the first). *)
Theorem C26_reread buf : wf_bytes buf -> blen buf = 129 -> exists b, block_from_bytes buf = Ok b /\ in_range b /\ block_to_bytes b = Ok (0 :: tl buf).
Proof.
  intros W L. unfold block_from_bytes. rewrite L. cbn [Z.eqb Pos.eqb negb]. destruct buf as [|v buf]; [discriminate|]. cbn [tl].
  inversion W as [|? ? _ W']; subst. assert (Lb : length buf = 128%nat) by (unfold blen in L; cbn [length] in L; lia).
  set (h := firstn 32 buf). set (a := firstn 32 (skipn 32 buf)). set (t := firstn 32 (skipn 64 buf)). set (p := skipn 96 buf).
  assert (E : buf = h ++ a ++ t ++ p).
  { unfold h, a, t, p. rewrite <- (firstn_skipn 32 buf) at 1. f_equal. rewrite <- (firstn_skipn 32 (skipn 32 buf)) at 1. f_equal. rewrite skipn_skipn. cbn [plus].
    rewrite <- (firstn_skipn 32 (skipn 64 buf)) at 1. f_equal. rewrite skipn_skipn. reflexivity. }
  assert (Lh : length h = SIZE) by (unfold h; rewrite firstn_length; unfold SIZE; lia). assert (La : length a = SIZE) by (unfold a; rewrite firstn_length, skipn_length; unfold SIZE; lia).
  assert (Lt : length t = SIZE) by (unfold t; rewrite firstn_length, skipn_length; unfold SIZE; lia). assert (Lp : length p = SIZE) by (unfold p; rewrite skipn_length; unfold SIZE; lia).
  assert (WW : wf_bytes h /\ wf_bytes a /\ wf_bytes t /\ wf_bytes p) by (rewrite E in W'; rewrite !wf_bytes_app in W'; tauto). destruct WW as (Wh & Wa & Wt & Wp).
  clearbody h a t p. subst buf. destruct (slices v h a t p Lh La Lt Lp) as (_ & S1 & S2 & S3 & S4). rewrite S1, S2, S3, S4.
  pose proof (be_val_bound h Wh) as Bh. pose proof (be_val_bound t Wt) as Bt. unfold blen in Bh, Bt. rewrite Lh in Bh. rewrite Lt in Bt. change (Z.of_nat SIZE) with 32 in *.
  eexists. split; [reflexivity|]. split.
  - unfold in_range. cbn [b_height b_timestamp b_hash b_prev]. change (2 ^ 256) with (256 ^ 32). split; [exact Bh|]. split; [exact Bt|]. split; [exists a; auto|].
    intros q. destruct (be_val p =? 0); [discriminate|]. intros [= <-]. auto.
  - unfold block_to_bytes, to_bytes32. cbn [b_height b_timestamp b_hash b_prev]. destruct (Z.leb_spec 0 (be_val h)), (Z.ltb_spec (be_val h) (256 ^ 32)); try lia. destruct (Z.leb_spec 0 (be_val t)), (Z.ltb_spec (be_val t) (256 ^ 32)); try lia.
    cbn [andb res_bind pack32s]. rewrite (firstn_pad a La).
    assert (PP : firstn SIZE ((match (if be_val p =? 0 then None else Some p) with Some p => p | None => repeat 0 SIZE end) ++ repeat 0 SIZE) = p).
    { destruct (Z.eqb_spec (be_val p) 0) as [Q|Q]; [|apply firstn_pad, Lp]. apply be_val_zero in Q; [|exact Wp]. rewrite Lp in Q. rewrite Q. reflexivity. }
    match goal with |- context [firstn SIZE ?x] => replace (firstn SIZE x) with p by (symmetry; exact PP) end. rewrite <- Lh at 1. rewrite be_bytes_be_val by exact Wh. rewrite <- Lt at 1. rewrite be_bytes_be_val by exact Wt. reflexivity.
Qed.
Print Assumptions C26_reread.

(** Out of range numbers raise. *)
Theorem C26_refused b : ~ (0 <= b_height b < 2 ^ 256 /\ 0 <= b_timestamp b < 2 ^ 256) -> block_to_bytes b = Exc (EPy KOverflow).
Proof.
  change (2 ^ 256) with (256 ^ 32). intros N. unfold block_to_bytes, to_bytes32.
  destruct (Z.leb_spec 0 (b_height b)), (Z.ltb_spec (b_height b) (256 ^ 32)); try reflexivity. cbn [andb res_bind].
  destruct (Z.leb_spec 0 (b_timestamp b)), (Z.ltb_spec (b_timestamp b) (256 ^ 32)); try reflexivity. lia.
Qed.
Print Assumptions C26_refused.
(** FINDING: a hash of another length is silently cut or filled with zeros. *)
Theorem C26_violated_hash : exists b buf b', block_to_bytes b = Ok buf /\ block_from_bytes buf = Ok b' /\ b_hash b = Some [7] /\ b_hash b' = Some (7 :: repeat 0 31).
Proof. exists (mk_block 1 1 (Some [7]) None). eexists _, _. split; [reflexivity|]. split; [reflexivity|]. split; reflexivity. Qed.
Print Assumptions C26_violated_hash.
Example C26_ex : in_range (mk_block 77 1600000000000000 (Some (repeat 3 32)) (Some (repeat 0 32))).
Proof.
  assert (W : forall x n, 0 <= x < 256 -> wf_bytes (repeat x n)) by (intros x n H; apply Forall_forall; intros y Hy; apply repeat_spec in Hy; subst; exact H).
  split; [cbn; lia|]. split; [cbn; lia|]. split; [exists (repeat 3 32); split; [reflexivity|]; split; [reflexivity|apply W; lia]|].
  intros p Hp. cbn [b_prev] in Hp. apply some_inj in Hp. subst p. split; [reflexivity|]. apply W; lia.
Qed.
