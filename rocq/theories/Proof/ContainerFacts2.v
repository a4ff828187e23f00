(** Iteration, membership, frames and histories of containers. *)
From Verif Require Import Model.Bytes Model.IntCodec Model.DbKey Model.Utf8 Model.Exn Model.Monad Model.Address Model.Typed Model.EE Model.Containers
  Spec.EagerEE Spec.Slots Spec.Running Spec.ContainerOps Proof.BytesFacts Proof.IntCodecFacts Proof.Int64Facts Proof.DbKeyFacts Proof.EESim Proof.RunningFacts Proof.ContainerFacts.
From Coq Require Import ZifyBool.

Section WithHash.
Context (sha3 : bytes -> bytes).
Notation running := (running sha3).
Notation post := (Running.post sha3).

Definition dec (d : array_db) (b : bytes) : pyres pyval := decode_object (enc_cell b) (arr_type d).

Lemma map_res_cons {A B} (f : A -> pyres B) a l : map_res f (a :: l) = res_bind (f a) (fun t => res_bind (map_res f l) (fun ts => Ok (t :: ts))).
Proof. reflexivity. Qed.

Lemma iter_elem w d l i x r0 : array_holds sha3 w d l -> running w -> skipn i l = x :: r0 ->
  post (arr_get_in sha3 d (blen l) (VInt (Z.of_nat i))) w (fun r w' => same_but_steps w w' /\ (r = dec d x \/ exists e, r = Exc e /\ short w e)).
Proof.
  intros H R Sk. assert (Hi : (i < length l)%nat).
  { destruct (le_lt_dec (length l) i) as [G|G]; [|exact G]. rewrite skipn_all2 in Sk by exact G. discriminate. }
  eapply post_weak; [apply (get_in_post sha3 w d (length l) (VInt (Z.of_nat i)) (Z.of_nat i) R eq_refl)|].
  assert (P : position (Z.of_nat i) (length l) = Some i).
  { unfold position. destruct (_ && _) eqn:Y; [rewrite Nat2Z.id; reflexivity|lia]. }
  rewrite P. rewrite (read_elem_holds sha3 _ _ _ _ H Hi).
  assert (E : nth i l [] = x).
  { rewrite <- (firstn_skipn i l) at 1. rewrite app_nth2; rewrite firstn_length_le by lia; [|lia]. rewrite Nat.sub_diag, Sk. reflexivity. }
  rewrite E. intros r w' R' (S & [X|X]); auto.
Qed.

Lemma iter_post d l : forall n i w, running w -> array_holds sha3 w d l -> (i + n = length l)%nat ->
  post (arr_iter_from sha3 d (blen l) n (Z.of_nat i)) w (fun r w' => same_but_steps w w' /\
    (r = map_res (dec d) (skipn i l) \/ exists e, r = Exc e /\ short w e)).
Proof.
  induction n as [|n IH]; intros i w R H Hn.
  - apply post_ret; [exact R|]. split; [apply same_refl|]. rewrite skipn_all2 by lia. auto.
  - destruct (skipn i l) as [|x r0] eqn:Sk.
    { apply (f_equal (@length _)) in Sk. rewrite skipn_length in Sk. cbn in Sk. lia. }
    cbn [arr_iter_from]. eapply post_bind; [apply (iter_elem w d l i x r0 H R Sk)| | |].
    + intros a w1 R1 (S1 & [X|(e & X & _)]); [|discriminate]. rewrite map_res_cons, <- X. cbn [res_bind].
      assert (E0 : r0 = skipn (S i) l).
      { change (S i) with (1 + i)%nat. rewrite Nat.add_comm || idtac. clear -Sk. revert i Sk. induction l as [|y l IH]; intros i Sk; [destruct i; discriminate|].
        destruct i; [cbn in *; congruence|]. cbn in *. apply IH. exact Sk. }
      rewrite E0. replace (Z.of_nat i + 1) with (Z.of_nat (S i)) by lia.
      eapply post_bind; [apply (IH (S i) w1 R1 (holds_same sha3 _ _ _ _ S1 H)); lia| | |].
      * intros ts w2 R2 (S2 & [Y|(e & Y & _)]); [|discriminate]. rewrite <- Y. apply post_ret; [exact R2|]. split; [eapply same_trans; eauto|auto].
      * intros e w2 R2 (S2 & [Y|(e' & Y & F)]); (split; [eapply same_trans; eauto|]); [rewrite <- Y; auto|].
        right. exists e. split; [reflexivity|]. injection Y as <-. eapply short_back; [apply same_costs; exact S1|exact F].
      * intros w2 (S2 & [Y|(e & Y & _)]); [|discriminate]. symmetry in Y. revert Y. apply map_res_ns. apply Forall_forall. intros b _.
        unfold dec. destruct (decode_object_total (enc_cell b) (arr_type d)) as [(y & ->)|(y & ->)]; discriminate.
    + intros e w1 R1 (S1 & [X|(e' & X & F)]); (split; [exact S1|]); [rewrite map_res_cons, <- X; auto|]. injection X as <-. eauto.
    + intros w1 (S1 & [X|(e & X & _)]); [|discriminate].
      unfold dec in X. destruct (decode_object_total (enc_cell x) (arr_type d)) as [(y & Y)|(y & Y)]; congruence.
Qed.
Lemma list_post w d l : running w -> array_holds sha3 w d l ->
  post (arr_list sha3 d) w (fun r w' => same_but_steps w w' /\ (r = map_res (dec d) l \/ exists e, r = Exc e /\ short w e)).
Proof.
  intros R H. eapply post_bind; [apply (size_post sha3 w d R)| | |].
  - intros n w1 R1 (S1 & [X|(e & X & _)]); [|discriminate]. injection X as ->. rewrite (holds_size sha3 _ _ _ H).
    replace (Z.to_nat (blen l)) with (length l) by (unfold blen; lia).
    eapply post_weak; [apply (iter_post d l (length l) 0%nat w1 R1 (holds_same sha3 _ _ _ _ S1 H)); lia|].
    intros r w2 R2 (S2 & X). split; [eapply same_trans; eauto|]. destruct X as [X|(e & -> & F)]; [left; exact X|].
    right. exists e. split; [reflexivity|]. eapply short_back; [apply same_costs; exact S1|exact F].
  - intros e w' R' (S & [X|(e' & X & Se)]); [discriminate|]. injection X as <-. eauto.
  - intros w' (S & [X|(e & X & _)]); discriminate.
Qed.

(** ** Search by iteration *)
Lemma search_post d l item : forall n i w vs, running w -> array_holds sha3 w d l -> (i + n = length l)%nat ->
  map_res (dec d) (skipn i l) = Ok vs ->
  post (arr_search sha3 d (blen l) item n (Z.of_nat i)) w (fun r w' => same_but_steps w w' /\
    (r = Ok (existsb (fun e => py_eq e item) vs) \/ exists e, r = Exc e /\ short w e)).
Proof.
  induction n as [|n IH]; intros i w vs R H Hn Hv.
  - apply post_ret; [exact R|]. split; [apply same_refl|]. rewrite skipn_all2 in Hv by lia. injection Hv as <-. auto.
  - destruct (skipn i l) as [|x r0] eqn:Sk.
    { apply (f_equal (@length _)) in Sk. rewrite skipn_length in Sk. cbn in Sk. lia. }
    rewrite map_res_cons in Hv. destruct (dec d x) as [a0| |] eqn:Da; try discriminate. cbn [res_bind] in Hv.
    destruct (map_res (dec d) r0) as [vs0| |] eqn:Dr; try discriminate. cbn [res_bind] in Hv. injection Hv as <-.
    cbn [arr_search]. eapply post_bind; [apply (iter_elem w d l i x r0 H R Sk)| | |].
    + intros a w1 R1 (S1 & [X|(e & X & _)]); [|discriminate]. rewrite Da in X. injection X as ->. cbn [existsb].
      destruct (py_eq a0 item) eqn:Pe; cbn [orb]; [apply post_ret; auto|].
      assert (E0 : r0 = skipn (S i) l).
      { clear -Sk. revert i Sk. induction l as [|y l IH]; intros i Sk; [destruct i; discriminate|].
        destruct i; [cbn in *; congruence|]. cbn in *. apply IH. exact Sk. }
      subst r0. replace (Z.of_nat i + 1) with (Z.of_nat (S i)) by lia.
      eapply post_weak; [apply (IH (S i) w1 vs0 R1 (holds_same sha3 _ _ _ _ S1 H)); [lia|exact Dr]|].
      intros r w2 R2 (S2 & Y). split; [eapply same_trans; eauto|]. destruct Y as [Y|(e & -> & F)]; [auto|].
      right. exists e. split; [reflexivity|]. eapply short_back; [apply same_costs; exact S1|exact F].
    + intros e w1 R1 (S1 & [X|(e' & X & F)]); [rewrite Da in X; discriminate|]. split; [exact S1|]. injection X as <-. eauto.
    + intros w1 (S1 & [X|(e & X & _)]); [rewrite Da in X|]; discriminate.
Qed.
Lemma in_other_type_post w d l item vs : running w -> array_holds sha3 w d l -> type_is item (arr_type d) = false ->
  map_res (dec d) l = Ok vs ->
  post (arr_contains sha3 d item) w (fun r w' => same_but_steps w w' /\
    (r = Ok (existsb (fun e => py_eq e item) vs) \/ exists e, r = Exc e /\ short w e)).
Proof.
  intros R H T Hv. unfold arr_contains. rewrite T. eapply post_bind; [apply (size_post sha3 w d R)| | |].
  - intros n w1 R1 (S1 & [X|(e & X & _)]); [|discriminate]. injection X as ->. rewrite (holds_size sha3 _ _ _ H).
    replace (Z.to_nat (blen l)) with (length l) by (unfold blen; lia).
    eapply post_weak; [apply (search_post d l item (length l) 0%nat w1 vs R1 (holds_same sha3 _ _ _ _ S1 H)); [lia|exact Hv]|].
    intros r w2 R2 (S2 & X). split; [eapply same_trans; eauto|]. destruct X as [X|(e & -> & F)]; [left; exact X|].
    right. exists e. split; [reflexivity|]. eapply short_back; [apply same_costs; exact S1|exact F].
  - intros e w' R' (S & [X|(e' & X & Se)]); [discriminate|]. injection X as <-. eauto.
  - intros w' (S & [X|(e & X & _)]); discriminate.
Qed.

(** ** The remote scan *)
Lemma raw_key_none db : concat_encoded [db_tag db; db_prefix db] = raw_key db None.
Proof. unfold raw_key, concat_encoded. cbn [map concat]. rewrite !app_nil_r. reflexivity. Qed.
Lemma raw_key_some db k : raw_key db (Some k) = raw_key db None ++ get_encoded_key k.
Proof. unfold raw_key, concat_encoded. cbn [map concat]. rewrite !app_nil_r, app_assoc. reflexivity. Qed.

Lemma i64_len i : 0 <= i < 2 ^ 63 -> blen (go_Int64ToBytes i) <= 8.
Proof.
  intros H. pose proof (Int64ToBytes_ok i ltac:(lia)) as E. rewrite int_to_bytes_ok in E. injection E as <-.
  unfold blen. rewrite be_bytes_length. pose proof (byte_length_spec i) as (B1 & B2 & B3).
  set (n := byte_length_of_int i) in *. destruct (Z.le_gt_cases n 8); [lia|]. exfalso.
  destruct B3 as [B3|B3]; [lia| |].
  - pose proof (Z.pow_pos_nonneg 2 (8 * (n - 1) - 1)). lia.
  - assert (2 ^ 63 <= 2 ^ (8 * (n - 1) - 1)) by (apply Z.pow_le_mono_r; lia). lia.
Qed.
Lemma go_elem_key d i : 0 <= i < 2 ^ 63 ->
  sha3 (go_AppendKeys (concat_encoded [db_tag (arr_sdb d); db_prefix (arr_sdb d)]) [go_Int64ToBytes i]) = elem_slot sha3 d i.
Proof.
  intros H. unfold elem_slot. rewrite (Int64ToBytes_ok i) by lia. unfold hash_key. f_equal.
  rewrite raw_key_some, raw_key_none. rewrite go_append_agrees.
  - cbn [map concat]. rewrite app_nil_r. reflexivity.
  - constructor; [|constructor]. pose proof (i64_len i H). lia.
Qed.


Lemma scan_ok ns a pre value g gb limit (elems : nat -> bytes) :
  0 <= g -> 0 <= gb ->
  forall n i cost cnt size,
  (forall j, (i <= j < i + n)%nat -> ns_get ns a (sha3 (go_AppendKeys pre [go_Int64ToBytes (Z.of_nat j)])) = enc_cell (elems j)) ->
  cost = gb * cnt + g * size -> 0 <= cnt -> 0 <= size ->
  let '(yn, cnt', size') := go_contains_loop sha3 ns a pre value g gb limit n (Z.of_nat i) cost cnt size in
  cnt <= cnt' /\ 0 <= size' /\ ((0 < n)%nat -> cnt < cnt') /\
  (yn = existsb (finds value) (map elems (seq i n)) /\
     cnt' = cnt + blen (scanned value (map elems (seq i n))) /\ size' = size + sizes (scanned value (map elems (seq i n))) \/ yn = false /\ limit < gb * cnt' + g * size').
Proof.
  intros Hg Hgb. induction n as [|n IH]; intros i cost cnt size He Hc H1 H2; cbn [go_contains_loop].
  - split; [lia|]. split; [lia|]. split; [lia|]. left. cbn. split; [reflexivity|]. unfold blen, sizes. cbn. lia.
  - rewrite (He i) by lia. cbn [seq map existsb].
    assert (Hrest : forall cost' size', cost' = gb * (cnt + 1) + g * size' -> size' = size + blen (elems i) -> finds value (elems i) = false ->
      let '(yn, cnt', size2) := if limit <? cost' then (false, cnt + 1, size')
        else go_contains_loop sha3 ns a pre value g gb limit n (Z.of_nat i + 1) cost' (cnt + 1) size' in
      cnt <= cnt' /\ 0 <= size2 /\ ((0 < S n)%nat -> cnt < cnt') /\
      (yn = finds value (elems i) || existsb (finds value) (map elems (seq (S i) n)) /\
       cnt' = cnt + blen (scanned value (elems i :: map elems (seq (S i) n))) /\
       size2 = size + sizes (scanned value (elems i :: map elems (seq (S i) n))) \/ yn = false /\ limit < gb * cnt' + g * size2)).
    { intros cost' size' Hc' Hz Hf. assert (Hs' : 0 <= size') by (unfold blen in Hz; lia). destruct (limit <? cost') eqn:X.
      - split; [lia|]. split; [lia|]. split; [lia|]. right. split; [reflexivity|lia].
      - replace (Z.of_nat i + 1) with (Z.of_nat (S i)) by lia.
        specialize (IH (S i) cost' (cnt + 1) size' ltac:(intros j Hj; apply He; lia) Hc' ltac:(lia) Hs').
        destruct (go_contains_loop _ _ _ _ _ _ _ _ _ _ _ _ _) as [[yn cnt'] size2].
        destruct IH as (I1 & I2 & I3 & I4).
        split; [lia|]. split; [lia|]. split; [lia|]. rewrite Hf. cbn [orb].
        destruct I4 as [(I4 & I5 & I6)|I4]; [left|right; exact I4]. split; [exact I4|].
        cbn [scanned]. rewrite Hf. cbn [sizes]. unfold blen in *. cbn [length]. lia. }
    destruct (elems i) as [|x b] eqn:Eb; cbn [enc_cell].
    + apply Hrest; [unfold blen; cbn; lia|unfold blen; cbn; lia|reflexivity].
    + assert (0 <= blen (x :: b)) by (unfold blen; lia).
      destruct (bytes_eqb (x :: b) value) eqn:Ev.
      * split; [lia|]. split; [lia|]. split; [lia|]. left. cbn [finds]. rewrite Ev. split; [reflexivity|].
        cbn [scanned finds]. rewrite Ev. cbn [sizes]. unfold blen. cbn [length]. lia.
      * apply Hrest; [lia|lia|exact Ev].
Qed.

(** Cost tables for which the node counts what the executor charges. *)

Lemma seq_nth_map {A} (l : list A) d : map (fun i => nth i l d) (seq 0 (length l)) = l.
Proof.
  induction l as [|x l IH]; [reflexivity|]. cbn [length seq map nth]. f_equal. rewrite <- seq_shift, map_map. exact IH.
Qed.

Lemma in_same_type_post w d l item b : running w -> array_holds sha3 w d l -> blen l < 2 ^ 63 ->
  (forall sz, cell w (size_slot sha3 d) = Some sz -> wf_bytes sz) ->
  scan_costs (cost_table w) -> type_is item (arr_type d) = true -> encode_value item = Ok b ->
  post (arr_contains sha3 d item) w (fun r w' => same_but_steps w w' /\
    (r = Ok (existsb (finds b) l) \/ exists e, r = Exc e /\ short w e)).
Proof.
  intros R H Hl Hw (C1 & C2 & C3) T E. unfold arr_contains. rewrite T. eapply post_bind; [apply (size_post sha3 w d R)| | |].
  - intros n w1 R1 (S1 & [X|(e & X & _)]); [|discriminate]. injection X as ->. rewrite (holds_size sha3 _ _ _ H).
    pose proof (holds_same sha3 _ _ _ _ S1 H) as H1.
    destruct (blen l =? 0) eqn:Z0.
    { assert (l = []) as -> by (destruct l; [reflexivity|unfold blen in Z0; cbn [length] in Z0; lia]).
      apply post_ret; auto. }
    eapply post_lift_ok; [exact E|]. unfold sdb_contains.
    pose proof (contains_effect sha3 w1 (concat_encoded [db_tag (arr_sdb d); db_prefix (arr_sdb d)]) b (running_live sha3 w1 R1)) as K.
    rewrite (same_costs _ _ S1) in K.
    unfold go_contains in K.
    assert (Hsz : go_array_size sha3 (w_ns w1) (here w1) (concat_encoded [db_tag (arr_sdb d); db_prefix (arr_sdb d)]) = blen l).
    { unfold go_array_size. rewrite raw_key_none. change (ns_get (w_ns w1) (here w1) (sha3 (raw_key (arr_sdb d) None))) with (cell w1 (size_slot sha3 d)).
      rewrite (cell_same _ _ _ S1). destruct H as [H _]. destruct (cell w (size_slot sha3 d)) as [sz|] eqn:Cs; [|exact H].
      rewrite go_python_decode by (apply Hw; reflexivity). exact H. }
    rewrite Hsz in K. replace (Z.to_nat (blen l)) with (length l) in K by (unfold blen; lia).
    pose proof (scan_ok (w_ns w1) (here w1) (concat_encoded [db_tag (arr_sdb d); db_prefix (arr_sdb d)]) b
      (cost_table w GET) (cost_table w GET_BASE) (steps_left w1) (fun i => nth i l []) C1 C2 (length l) 0%nat 0 0 0) as Sc.
    cbv beta in Sc. rewrite seq_nth_map in Sc. change (Z.of_nat 0) with 0 in Sc.
    destruct (go_contains_loop _ _ _ _ _ _ _ _ _ _ _ _ _) as [[yn cnt] size].
    destruct Sc as (Q1 & Q2 & Q3 & Q4); try lia.
    { intros j Hj. rewrite go_elem_key by (unfold blen in Hl; lia). apply (proj2 H1). lia. }
    assert (0 < cnt) by (apply Q3; unfold blen in Z0; lia).
    destruct K as (r & w2 & E2 & L2 & S2 & K). exists r, w2. split; [exact E2|]. split; [eapply run_contains; eauto|].
    split; [eapply same_trans; eauto|].
    assert (Ht : (if 1 <? cnt then base_step (cost_table w) GET * (cnt - 1) else 0) + price (cost_table w) GET size =
                 cost_table w GET_BASE * cnt + cost_table w GET * size).
    { unfold price. rewrite C3. destruct (1 <? cnt) eqn:Y; [lia|]. replace cnt with 1 by lia. lia. }
    rewrite Ht in K. pose proof (left_nonneg w1 (running_live sha3 w1 R1)) as Ln.
    set (tot := cost_table w GET_BASE * cnt + cost_table w GET * size) in *.
    destruct Q4 as [(-> & _)|(-> & Q4)].
    + destruct (_ && _) eqn:Y in K; [left; apply K|right].
      destruct K as ((e & -> & O) & _). exists e. split; [reflexivity|]. split; [exact O|]. intros F.
      set (base := if 1 <? cnt then _ else _) in *.
      assert (P0 : cost_table w GET_BASE <= 0 /\ cost_table w GET <= 0).
      { pose proof (F GET 0 ltac:(lia)) as F0. pose proof (F GET 1 ltac:(lia)) as F1. unfold price in F0, F1. rewrite C3 in F0, F1. lia. }
      assert (cost_table w GET_BASE = 0) by lia. assert (cost_table w GET = 0) by lia.
      assert (tot = 0) by (unfold tot; rewrite H2, H3; lia).
      assert (base = 0) by (unfold base; rewrite C3, H2; destruct (1 <? cnt); lia). lia.
    + destruct (_ && _) eqn:Y in K; [lia|]. right.
      destruct K as ((e & -> & O) & _). exists e. split; [reflexivity|]. split; [exact O|]. intros F.
      assert (P0 : cost_table w GET_BASE <= 0 /\ cost_table w GET <= 0).
      { pose proof (F GET 0 ltac:(lia)) as F0. pose proof (F GET 1 ltac:(lia)) as F1. unfold price in F0, F1. rewrite C3 in F0, F1. lia. }
      assert (A1 : cost_table w GET_BASE = 0) by lia. assert (A2 : cost_table w GET = 0) by lia.
      unfold tot in Q4. rewrite A1, A2 in Q4. lia.
  - intros e w' R' (S & [X|(e' & X & Se)]); [discriminate|]. injection X as <-. eauto.
  - intros w' (S & [X|(e & X & _)]); discriminate.
Qed.

(** The price of a scan that answered. *)
Lemma scan_price w d l b yn w' : running w -> array_holds sha3 w d l -> blen l < 2 ^ 63 ->
  (forall sz, cell w (size_slot sha3 d) = Some sz -> wf_bytes sz) -> l <> [] ->
  scan_costs (cost_table w) ->
  sdb_contains sha3 (arr_sdb d) b w = (Ok yn, w') ->
  yn = existsb (finds b) l /\
  steps_left w' = steps_left w - (cost_table w GET_BASE * blen (scanned b l) + cost_table w GET * sizes (scanned b l)).
Proof.
  intros R H Hl Hw Hne (C1 & C2 & C3) E. unfold sdb_contains in E.
  pose proof (contains_effect sha3 w (concat_encoded [db_tag (arr_sdb d); db_prefix (arr_sdb d)]) b (running_live sha3 w R)) as K.
  unfold go_contains in K.
  assert (Hsz : go_array_size sha3 (w_ns w) (here w) (concat_encoded [db_tag (arr_sdb d); db_prefix (arr_sdb d)]) = blen l).
  { unfold go_array_size. rewrite raw_key_none. change (ns_get (w_ns w) (here w) (sha3 (raw_key (arr_sdb d) None))) with (cell w (size_slot sha3 d)).
    destruct H as [H _]. destruct (cell w (size_slot sha3 d)) as [sz|] eqn:Cs; [|exact H].
    rewrite go_python_decode by (apply Hw; reflexivity). exact H. }
  rewrite Hsz in K. replace (Z.to_nat (blen l)) with (length l) in K by (unfold blen; lia).
  pose proof (scan_ok (w_ns w) (here w) (concat_encoded [db_tag (arr_sdb d); db_prefix (arr_sdb d)]) b
    (cost_table w GET) (cost_table w GET_BASE) (steps_left w) (fun i => nth i l []) C1 C2 (length l) 0%nat 0 0 0) as Sc.
  cbv beta in Sc. rewrite seq_nth_map in Sc. change (Z.of_nat 0) with 0 in Sc.
  destruct (go_contains_loop _ _ _ _ _ _ _ _ _ _ _ _ _) as [[yn' cnt] size].
  destruct Sc as (Q1 & Q2 & Q3 & Q4); try lia.
  { intros j Hj. rewrite go_elem_key by (unfold blen in Hl; lia). apply (proj2 H). lia. }
  assert (0 < cnt) by (apply Q3; destruct l; [congruence|cbn; lia]).
  destruct K as (r & w2 & E2 & L2 & S2 & K). rewrite E in E2. injection E2 as <- <-.
  assert (Ht : (if 1 <? cnt then base_step (cost_table w) GET * (cnt - 1) else 0) + price (cost_table w) GET size =
               cost_table w GET_BASE * cnt + cost_table w GET * size).
  { unfold price. rewrite C3. destruct (1 <? cnt) eqn:Y; [lia|]. replace cnt with 1 by lia. lia. }
  destruct (_ && _) eqn:Y in K; [|destruct K as ((e & X & _) & _); discriminate X].
  destruct K as (X & K). injection X as ->.
  destruct Q4 as [(-> & -> & ->)|(-> & Q4)]; [|lia].
  split; [reflexivity|]. rewrite K. lia.
Qed.
End WithHash.
