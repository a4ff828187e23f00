(** Containers behave as cells, maps and lists. *)
From Verif Require Import Model.Bytes Model.IntCodec Model.DbKey Model.Utf8 Model.Exn Model.Monad Model.Address Model.Typed Model.EE Model.Containers
  Spec.EagerEE Spec.Slots Spec.Running Spec.ContainerOps Proof.BytesFacts Proof.IntCodecFacts Proof.Utf8Facts Proof.AddressFacts Proof.DbKeyFacts Proof.EESim Proof.RunningFacts.
From Coq Require Import ZifyBool.

Section WithHash.
Context (sha3 : bytes -> bytes).
Notation running := (running sha3).

(** ** Post-conditions *)
Notation post := (Running.post sha3).
Lemma post_bind {A B} (m : M A) (f : A -> M B) w (Q1 : pyres A -> world -> Prop) (Q : pyres B -> world -> Prop) : post m w Q1 ->
  (forall a w', running w' -> Q1 (Ok a) w' -> post (f a) w' Q) ->
  (forall e w', running w' -> Q1 (Exc e) w' -> Q (Exc e) w') ->
  (forall w', ~ Q1 Stuck w') -> post (mbind m f) w Q.
Proof.
  intros (r & w' & E & R & H) K1 K2 K3. destruct r as [a|e|].
  - destruct (K1 a w' R H) as (r2 & w2 & E2 & R2 & H2). exists r2, w2. rewrite (bind_ok _ _ _ _ _ E). auto.
  - exists (Exc e), w'. rewrite (bind_exc _ _ _ _ _ E). auto.
  - exfalso; eapply K3; eauto.
Qed.
Lemma post_ret {A} (a : A) w (Q : pyres A -> world -> Prop) : running w -> Q (Ok a) w -> post (mret a) w Q.
Proof. intros R H. exists (Ok a), w. auto. Qed.
Lemma post_raise {A} e w (Q : pyres A -> world -> Prop) : running w -> Q (Exc e) w -> post (mraise e) w Q.
Proof. intros R H. exists (Exc e), w. auto. Qed.
Lemma post_lift_ok {A B} (x : pyres A) a (f : A -> M B) w (Q : pyres B -> world -> Prop) : x = Ok a -> post (f a) w Q -> post (mbind (mlift x) f) w Q.
Proof. intros -> (r & w' & E & H). exists r, w'. rewrite (bind_ok _ _ w a w) by reflexivity. auto. Qed.
Lemma post_lift_exc {A B} (x : pyres A) e (f : A -> M B) w (Q : pyres B -> world -> Prop) : x = Exc e -> running w -> Q (Exc e) w -> post (mbind (mlift x) f) w Q.
Proof. intros -> R H. exists (Exc e), w. rewrite (bind_exc _ _ w e w) by reflexivity. auto. Qed.
Lemma post_weak {A} (m : M A) w (Q1 Q : pyres A -> world -> Prop) : post m w Q1 -> (forall r w', running w' -> Q1 r w' -> Q r w') -> post m w Q.
Proof. intros (r & w' & E & R & H) K. exists r, w'. auto. Qed.

Lemma size_of_nonneg v : 0 <= size_of v.
Proof. destruct v; cbn; [unfold blen|]; lia. Qed.

Lemma short_price w e t n : running w -> out_of_step e -> 0 <= n -> steps_left w < price (cost_table w) t n -> short w e.
Proof.
  intros R O N L. split; [exact O|]. intros F. specialize (F t n N). pose proof (left_nonneg w (running_live sha3 w R)). lia.
Qed.

Lemma get_post w key : running w ->
  post (db_get sha3 key) w (fun r w' => same_but_steps w w' /\ (r = Ok (cell w key) \/ exists e, r = Exc e /\ short w e)).
Proof.
  intros R. destruct (get_effect sha3 w key (running_live sha3 w R)) as (r & w' & E & L & S & H).
  exists r, w'. split; [exact E|]. split; [eapply run_get; eauto|]. split; [exact S|].
  destruct (_ <=? _) eqn:X in H; [left; apply H|right]. destruct H as ((l & u & ->) & _). eexists. split; [reflexivity|].
  eapply short_price; [exact R|red; eauto|apply size_of_nonneg|]. apply Z.leb_gt. exact X.
Qed.

Lemma ns_get_pos w key o : cell w key = Some o -> 1 <= blen o.
Proof.
  unfold cell, ns_get. destruct (ns_store _ _ _) as [|z l]; [discriminate|]. intros [= <-].
  unfold blen. cbn [length]. lia.
Qed.
Lemma put_price_free w key value : running w -> free (cost_table w) -> put_price (cost_table w) (cell w key) value <= 0.
Proof.
  intros R F. unfold put_price. assert (0 <= blen value) by (unfold blen; lia). pose proof (F SET _ H).
  pose proof (refunding_live w (running_live sha3 w R)) as Rf.
  destruct (cell w key) as [o|] eqn:E; [|lia]. apply ns_get_pos in E.
  destruct value as [|b value].
  - destruct (_ =? 0) eqn:S0; [unfold refund_amount; rewrite S0; change (blen (@nil Z)) with 0 in *; rewrite Z.mul_0_r; lia|].
    pose proof (proj2 (Rf _ E)). lia.
  - assert (1 <= blen (b :: value)) by (unfold blen; cbn [length]; lia).
    destruct (_ =? 0); [pose proof (proj2 (Rf _ H1))|pose proof (proj2 (Rf _ E))]; lia.
Qed.

(** Writing: what is stored afterwards, and that a failure changes nothing. *)
Lemma put_post w key value : running w ->
  post (db_put sha3 key value) w (fun r w' =>
    (r = Ok tt /\ wrote key value w w') \/ (exists e, r = Exc e /\ (short w e \/ denied w e) /\ same_but_steps w w')).
Proof.
  intros R. destruct (put_effect sha3 w key value (running_live sha3 w R)) as (r & w' & E & L & H).
  exists r, w'. split; [exact E|]. split; [eapply run_put; eauto|].
  destruct (readonly w) eqn:Ro.
  { right. destruct H as (-> & H & _). eexists. split; [reflexivity|]. split; [right; split; auto|exact H]. }
  destruct (_ <=? _) eqn:X in H; [left; tauto|right]. destruct H as ((e & -> & O) & S & _). exists e.
  split; [reflexivity|]. split; [left|exact S]. split; [exact O|]. intros F.
  pose proof (left_nonneg w (running_live sha3 w R)). apply Z.leb_gt in X. destruct value as [|b value].
  - unfold delete_price in X. destruct (cell w key) as [o|] eqn:Eo; [|lia].
    pose proof (F DELETE (blen o)). unfold blen in *. lia.
  - pose proof (put_price_free w key (b :: value) R F). lia.
Qed.
Lemma delete_post w key : running w ->
  post (db_delete sha3 key) w (fun r w' =>
    (r = Ok tt /\ wrote key [] w w') \/ (exists e, r = Exc e /\ denied w e /\ same_but_steps w w')).
Proof.
  intros R. destruct (delete_effect sha3 w key (running_live sha3 w R)) as (r & w' & E & L & H).
  exists r, w'. split; [exact E|]. split; [eapply run_delete; eauto|].
  destruct (readonly w) eqn:Ro; [right|left; tauto].
  destruct H as (-> & H & _). eexists. split; [reflexivity|]. split; [split; auto|exact H].
Qed.

Lemma same_readonly w w' : same_but_steps w w' -> readonly w' = readonly w.
Proof. intros H; apply H. Qed.
Lemma same_costs w w' : same_but_steps w w' -> cost_table w' = cost_table w.
Proof. intros (_ & H & _). apply (here_frames _ _ H). Qed.
Lemma wrote_costs k v w w' : wrote k v w w' -> cost_table w' = cost_table w.
Proof. intros (_ & H & _). apply (here_frames _ _ H). Qed.
Lemma short_back w w' e : cost_table w' = cost_table w -> short w' e -> short w e.
Proof. unfold short. intros ->. auto. Qed.
Lemma denied_back w w' e : readonly w' = readonly w -> denied w' e -> denied w e.
Proof. unfold denied. intros ->. auto. Qed.

(** ** Values *)
Lemma int_bytes z : exists b, int_to_bytes z = Some b /\ b <> [] /\ bytes_to_int b = z /\ wf_bytes b.
Proof. destruct (int_roundtrip z) as (b & E & D & V). exists b. destruct D as (D1 & D2 & _). auto. Qed.

(** What is read back for a value written to a container of its own type. *)
Lemma value_roundtrip v ty b : type_is v ty = true -> (forall a, v = VAddr a -> wf_address a) ->
  encode_value v = Ok b -> decode_object (enc_cell b) ty = Ok (match v with VBytes [] => VNone | _ => v end).
Proof.
  destruct v, ty; try discriminate; intros _ Wa E; cbn [encode_value lift_opt] in E.
  - set (z := if b0 then 1 else 0) in *. destruct (int_bytes z) as (c & Ec & Nc & Vc & _). rewrite Ec in E. injection E as <-.
    destruct c as [|x c]; [congruence|]. cbn [enc_cell decode_object]. rewrite Vc. subst z. destruct b0; reflexivity.
  - destruct (int_bytes z) as (c & Ec & Nc & Vc & _). rewrite Ec in E. injection E as <-.
    destruct c as [|x c]; [congruence|]. cbn [enc_cell decode_object]. rewrite Vc. reflexivity.
  - destruct (utf8_encode s) as [c|] eqn:Es; [|discriminate]. injection E as <-. destruct c as [|x c].
    + apply encode_nil in Es. subst. reflexivity.
    + cbn [enc_cell decode_object]. rewrite (decode_encode _ _ Es). reflexivity.
  - injection E as <-. destruct bs; reflexivity.
  - injection E as <-. cbn [enc_cell decode_object address_to_bytes].
    change (prefix_byte (a_prefix a) :: a_body a) with (address_to_bytes a).
    rewrite address_bytes_roundtrip by auto. reflexivity.
Qed.

Lemma encode_value_total v : (exists b, encode_value v = Ok b) \/ (exists e, encode_value v = Exc e).
Proof.
  destruct v; cbn [encode_value]; eauto.
  - destruct (int_bytes (if b then 1 else 0)) as (c & -> & _). left. eexists; reflexivity.
  - destruct (int_bytes z) as (c & -> & _). left. eexists; reflexivity.
  - destruct (utf8_encode s); cbn; eauto.
Qed.
Lemma encode_key_total v : (exists b, encode_key v = Ok b) \/ (exists e, encode_key v = Exc e).
Proof. exact (encode_value_total v). Qed.
Lemma decode_object_total v ty : (exists x, decode_object v ty = Ok x) \/ (exists e, decode_object v ty = Exc e).
Proof.
  destruct v as [b|]; [|left; eexists; reflexivity]. destruct ty; cbn [decode_object]; eauto.
  - destruct (utf8_decode b); cbn; eauto.
  - pose proof (address_from_bytes_ns b). destruct (address_from_bytes b); cbn; eauto. congruence.
Qed.

Lemma cell_enc key v w w' k : wrote key v w w' -> cell w' k = if bytes_eqb k key then enc_cell v else cell w k.
Proof. intros H. rewrite (cell_wrote _ _ _ _ k H). destruct (bytes_eqb k key); [destruct v|]; reflexivity. Qed.

(** ** VarDB *)
Lemma var_get_post w d : running w ->
  post (var_get sha3 d) w (fun r w' => same_but_steps w w' /\
    (r = decode_object (cell w (hash_key sha3 (var_sdb d) None)) (var_type d) \/ exists e, r = Exc e /\ short w e)).
Proof.
  intros R. eapply post_bind; [apply (get_post w _ R)| | |].
  - intros a w' R' (S & [E|(e & E & _)]); [|discriminate]. injection E as ->.
    eexists _, w'. split; [reflexivity|]. split; auto.
  - intros e w' R' (S & [E|(e' & E & H)]); [discriminate|]. injection E as <-. eauto.
  - intros w' (S & [E|(e & E & _)]); discriminate.
Qed.
Lemma var_set_post w d v b : running w -> encode_value v = Ok b ->
  post (var_set sha3 d v) w (fun r w' =>
    (r = Ok tt /\ wrote (hash_key sha3 (var_sdb d) None) b w w') \/
    (exists e, r = Exc e /\ (short w e \/ denied w e) /\ same_but_steps w w')).
Proof. intros R E. eapply post_lift_ok; [exact E|]. apply put_post; exact R. Qed.
Lemma var_remove_post w d : running w ->
  post (var_remove sha3 d) w (fun r w' =>
    (r = Ok tt /\ wrote (hash_key sha3 (var_sdb d) None) [] w w') \/
    (exists e, r = Exc e /\ denied w e /\ same_but_steps w w')).
Proof. intros R. apply delete_post; exact R. Qed.

(** ** DictDB *)
Lemma dict_get_post w d k kb : running w -> dict_depth d = 1 -> encode_key k = Ok kb ->
  post (dict_getitem sha3 d k) w (fun r w' => same_but_steps w w' /\
    (r = res_bind (decode_object (cell w (hash_key sha3 (dict_sdb d) (Some kb))) (dict_type d)) (fun x => Ok (inl x))
     \/ exists e, r = Exc e /\ short w e)).
Proof.
  intros R D E. unfold dict_getitem. rewrite D. change (1 =? 1) with true. cbv iota.
  eapply post_lift_ok; [exact E|]. eapply post_bind; [apply (get_post w _ R)| | |].
  - intros a w' R' (S & [X|(e & X & _)]); [|discriminate]. injection X as ->.
    destruct (decode_object_total (cell w (hash_key sha3 (dict_sdb d) (Some kb))) (dict_type d)) as [(x & X)|(e & X)]; rewrite X.
    + eexists _, w'. split; [reflexivity|]. split; auto.
    + eexists _, w'. split; [reflexivity|]. split; auto.
  - intros e w' R' (S & [X|(e' & X & H)]); [discriminate|]. injection X as <-. eauto.
  - intros w' (S & [X|(e & X & _)]); discriminate.
Qed.
Lemma dict_in_post w d k kb : running w -> encode_key k = Ok kb ->
  post (dict_contains sha3 d k) w (fun r w' => same_but_steps w w' /\
    (r = Ok (match cell w (hash_key sha3 (dict_sdb d) (Some kb)) with Some _ => true | None => false end)
     \/ exists e, r = Exc e /\ short w e)).
Proof.
  intros R E. eapply post_lift_ok; [exact E|]. eapply post_bind; [apply (get_post w _ R)| | |].
  - intros a w' R' (S & [X|(e & X & _)]); [|discriminate]. injection X as ->.
    apply post_ret; auto.
  - intros e w' R' (S & [X|(e' & X & H)]); [discriminate|]. injection X as <-. eauto.
  - intros w' (S & [X|(e & X & _)]); discriminate.
Qed.
Lemma dict_set_post w d k kb v b : running w -> dict_depth d = 1 -> encode_key k = Ok kb -> encode_value v = Ok b ->
  post (dict_setitem sha3 d k v) w (fun r w' =>
    (r = Ok tt /\ wrote (hash_key sha3 (dict_sdb d) (Some kb)) b w w') \/
    (exists e, r = Exc e /\ (short w e \/ denied w e) /\ same_but_steps w w')).
Proof.
  intros R D E1 E2. unfold dict_setitem. rewrite D. change (negb (1 =? 1)) with false. cbv iota.
  eapply post_lift_ok; [exact E1|]. eapply post_lift_ok; [exact E2|]. apply put_post; exact R.
Qed.
Lemma dict_remove_post w d k kb : running w -> dict_depth d = 1 -> encode_key k = Ok kb ->
  post (dict_remove sha3 d k) w (fun r w' =>
    (r = Ok tt /\ wrote (hash_key sha3 (dict_sdb d) (Some kb)) [] w w') \/
    (exists e, r = Exc e /\ denied w e /\ same_but_steps w w')).
Proof.
  intros R D E1. unfold dict_remove. rewrite D. change (negb (1 =? 1)) with false. cbv iota.
  eapply post_lift_ok; [exact E1|]. apply delete_post; exact R.
Qed.

(** ** ArrayDB *)
Lemma size_post w d : running w ->
  post (arr_get_size sha3 d) w (fun r w' => same_but_steps w w' /\ (r = Ok (array_size sha3 w d) \/ exists e, r = Exc e /\ short w e)).
Proof.
  intros R. eapply post_bind; [apply (get_post w _ R)| | |].
  - intros a w' R' (S & [X|(e & X & _)]); [|discriminate]. injection X as ->.
    unfold array_size, size_slot. destruct (cell w _) as [b|]; eexists _, w'; (split; [reflexivity|]); auto.
  - intros e w' R' (S & [X|(e' & X & H)]); [discriminate|]. injection X as <-. eauto.
  - intros w' (S & [X|(e & X & _)]); discriminate.
Qed.

Lemma holds_size w d l : array_holds sha3 w d l -> array_size sha3 w d = blen l.
Proof. intros [H _]. exact H. Qed.
Lemma holds_same w w' d l : same_but_steps w w' -> array_holds sha3 w d l -> array_holds sha3 w' d l.
Proof. intros S [H1 H2]. split; [rewrite (cell_same _ _ _ S); exact H1|]. intros i Hi. rewrite (cell_same _ _ _ S). auto. Qed.
Lemma size_same w w' d : same_but_steps w w' -> array_size sha3 w' d = array_size sha3 w d.
Proof. intros S. unfold array_size. rewrite (cell_same _ _ _ S). reflexivity. Qed.

Lemma elem_slot_eq d i k : int_to_bytes i = Some k -> hash_key sha3 (arr_sdb d) (Some k) = elem_slot sha3 d i.
Proof. intros E. unfold elem_slot. rewrite E. reflexivity. Qed.

Lemma position_spec i n : match position i n with
  | Some p => (p < n)%nat /\ (if i <? 0 then i + Z.of_nat n else i) = Z.of_nat p /\
      (0 <=? (if i <? 0 then i + Z.of_nat n else i)) && ((if i <? 0 then i + Z.of_nat n else i) <? Z.of_nat n) = true
  | None => (0 <=? (if i <? 0 then i + Z.of_nat n else i)) && ((if i <? 0 then i + Z.of_nat n else i) <? Z.of_nat n) = false
  end.
Proof.
  unfold position. destruct ((0 <=? i) && (i <? Z.of_nat n)) eqn:X.
  - destruct (i <? 0) eqn:Y; [lia|]. split; [lia|]. split; lia.
  - destruct ((i <? 0) && (- Z.of_nat n <=? i)) eqn:Y.
    + destruct (i <? 0) eqn:V; [|lia]. split; [lia|]. split; lia.
    + destruct (i <? 0) eqn:V; lia.
Qed.

Definition read_elem (w : world) (d : array_db) (i : nat) : pyres pyval :=
  decode_object (cell w (elem_slot sha3 d (Z.of_nat i))) (arr_type d).

(** Reading position [idx] of an array of [n] elements. *)
Lemma get_in_post w d n idx i : running w -> as_index idx = Some i ->
  post (arr_get_in sha3 d (Z.of_nat n) idx) w (fun r w' => same_but_steps w w' /\
    (r = match position i n with Some p => read_elem w d p | None => Exc (EIcon InvalidParams) end \/ exists e, r = Exc e /\ short w e)).
Proof.
  intros R Ei. unfold arr_get_in. rewrite Ei. pose proof (position_spec i n) as P. destruct (position i n) as [p|].
  - destruct P as (P1 & P2 & P3). rewrite P3, P2. destruct (int_bytes (Z.of_nat p)) as (k & Ek & _).
    eapply post_lift_ok; [cbn [encode_key]; rewrite Ek; reflexivity|]. rewrite <- (elem_slot_eq d _ _ Ek) || idtac.
    eapply post_bind; [apply (get_post w _ R)| | |].
    + intros a w' R' (S & [X|(e & X & _)]); [|discriminate]. injection X as ->.
      eexists _, w'. split; [reflexivity|]. split; [auto|]. split; [exact S|]. left. unfold read_elem.
      rewrite <- (elem_slot_eq d _ _ Ek). reflexivity.
    + intros e w' R' (S & [X|(e' & X & H)]); [discriminate|]. injection X as <-. eauto.
    + intros w' (S & [X|(e & X & _)]); discriminate.
  - rewrite P. apply post_raise; [exact R|]. split; [apply same_refl|auto].
Qed.
Lemma read_elem_same w w' d i : same_but_steps w w' -> read_elem w' d i = read_elem w d i.
Proof. intros S. unfold read_elem. rewrite (cell_same _ _ _ S). reflexivity. Qed.
Lemma read_elem_holds w d l i : array_holds sha3 w d l -> (i < length l)%nat ->
  read_elem w d i = decode_object (enc_cell (nth i l [])) (arr_type d).
Proof. intros [_ H] L. unfold read_elem. rewrite H by exact L. reflexivity. Qed.

Ltac exc_same := intros; match goal with H : _ /\ (_ \/ _) |- _ => destruct H as (? & [?|(? & ? & ?)]) end; try discriminate.

Lemma getitem_post w d l idx i : running w -> array_holds sha3 w d l -> as_index idx = Some i ->
  post (arr_getitem sha3 d idx) w (fun r w' => same_but_steps w w' /\
    (r = match position i (length l) with
         | Some p => decode_object (enc_cell (nth p l [])) (arr_type d)
         | None => Exc (EIcon InvalidParams) end \/ exists e, r = Exc e /\ short w e)).
Proof.
  intros R H Ei. eapply post_bind; [apply (size_post w d R)| | |].
  - intros n w1 R1 (S1 & [X|(e & X & _)]); [|discriminate]. injection X as ->.
    rewrite (holds_size _ _ _ H). eapply post_weak; [apply (get_in_post w1 d (length l) idx i R1 Ei)|].
    intros r w2 R2 (S2 & X). split; [eapply same_trans; eauto|]. destruct X as [->|(e & -> & Se)].
    + left. pose proof (position_spec i (length l)) as P. destruct (position i (length l)) as [p|]; [|reflexivity].
      apply read_elem_holds; [apply (holds_same w w1); auto|apply P].
    + right. exists e. split; [reflexivity|]. eapply short_back; [apply same_costs; exact S1|exact Se].
  - intros e w' R' (S & [X|(e' & X & Se)]); [discriminate|]. injection X as <-. eauto.
  - intros w' (S & [X|(e & X & _)]); discriminate.
Qed.

Lemma put_at_post w d i v b : running w -> encode_value v = Ok b ->
  post (arr_put_at sha3 d i v) w (fun r w' => (r = Ok tt /\ wrote (elem_slot sha3 d i) b w w') \/
    (exists e, r = Exc e /\ (short w e \/ denied w e) /\ same_but_steps w w')).
Proof.
  intros R E. eapply post_lift_ok; [exact E|]. destruct (int_bytes i) as (k & Ek & _).
  eapply post_lift_ok; [cbn [encode_key]; rewrite Ek; reflexivity|]. unfold sdb_put. rewrite (elem_slot_eq d _ _ Ek).
  apply put_post; exact R.
Qed.
Lemma set_size_post w d n : running w ->
  post (arr_set_size sha3 d n) w (fun r w' => (r = Ok tt /\ (exists b, b <> [] /\ bytes_to_int b = n /\ wf_bytes b /\ wrote (size_slot sha3 d) b w w')) \/
    (exists e, r = Exc e /\ (short w e \/ denied w e) /\ same_but_steps w w')).
Proof.
  intros R. destruct (int_bytes n) as (k & Ek & Nk & Vk & Wk).
  eapply post_lift_ok; [cbn [encode_value]; rewrite Ek; reflexivity|].
  eapply post_weak; [apply (put_post w (size_slot sha3 d) k R)|]. intros r w' R' [(-> & H)|H]; [left|right; exact H].
  split; [reflexivity|]. exists k. auto.
Qed.

Lemma eqb_false (a b : bytes) : a <> b -> bytes_eqb a b = false.
Proof. apply bytes_eqb_neq. Qed.

Lemma nth_replace {A} (l : list A) p x i d : (p < length l)%nat -> nth i (replace_nth p x l) d = if Nat.eqb i p then x else nth i l d.
Proof.
  revert p i; induction l as [|y l IH]; intros p i L; [cbn in L; lia|]. destruct p, i; cbn; auto.
  apply IH. cbn in L. lia.
Qed.
Lemma length_replace {A} (l : list A) p x : length (replace_nth p x l) = length l.
Proof. revert p; induction l as [|y l IH]; intros [|p]; cbn; auto. Qed.

Lemma holds_replace w w' d l p b : array_holds sha3 w d l -> slots_distinct sha3 d (length l) -> (p < length l)%nat ->
  wrote (elem_slot sha3 d (Z.of_nat p)) b w w' -> array_holds sha3 w' d (replace_nth p b l).
Proof.
  intros [H1 H2] [D1 D2] L W. split.
  - rewrite (cell_enc _ _ _ _ _ W), eqb_false by (apply D1; lia). unfold blen. rewrite length_replace. exact H1.
  - intros i Hi. rewrite length_replace in Hi. rewrite (cell_enc _ _ _ _ _ W), nth_replace by exact L.
    destruct (Nat.eqb_spec i p) as [->|N]; [rewrite bytes_eqb_refl; reflexivity|].
    rewrite eqb_false by (apply D2; lia). auto.
Qed.

Lemma setitem_post w d l idx i v b : running w -> array_holds sha3 w d l -> slots_distinct sha3 d (length l) ->
  as_index idx = Some i -> encode_value v = Ok b ->
  post (arr_setitem sha3 d idx v) w (fun r w' =>
    match position i (length l) with
    | Some p => (r = Ok tt /\ wrote (elem_slot sha3 d (Z.of_nat p)) b w w' /\ array_holds sha3 w' d (replace_nth p b l)) \/
                (exists e, r = Exc e /\ (short w e \/ denied w e) /\ same_but_steps w w')
    | None => same_but_steps w w' /\ exists e, r = Exc e /\ (e = EIcon InvalidParams \/ short w e)
    end).
Proof.
  intros R H D Ei E. unfold arr_setitem. rewrite Ei. eapply post_bind; [apply (size_post w d R)| | |].
  - intros n w1 R1 (S1 & [X|(e & X & _)]); [|discriminate]. injection X as ->. rewrite (holds_size _ _ _ H). cbv zeta.
    change (blen l) with (Z.of_nat (length l)).
    pose proof (position_spec i (length l)) as P. destruct (position i (length l)) as [p|].
    + destruct P as (P1 & P2 & P3). rewrite P3, P2. eapply post_weak; [apply (put_at_post w1 d _ v b R1 E)|].
      intros r w2 R2 [(-> & W)|(e & -> & F & S2)].
      * left. assert (W' : wrote (elem_slot sha3 d (Z.of_nat p)) b w w2) by (eapply same_wrote; eauto).
        split; [reflexivity|]. split; [exact W'|]. eapply holds_replace; eauto.
      * right. exists e. split; [reflexivity|]. split; [|eapply same_trans; eauto].
        destruct F as [F|F]; [left; eapply short_back; [apply same_costs; exact S1|exact F]|right; eapply denied_back; [apply same_readonly; exact S1|exact F]].
    + rewrite P. apply post_raise; [exact R1|]. split; [exact S1|]. eauto.
  - intros e w' R' (S & [X|(e' & X & Se)]); [discriminate|]. injection X as <-.
    destruct (position i (length l)); eauto 8.
  - intros w' (S & [X|(e & X & _)]); discriminate.
Qed.

Lemma holds_append w w1 w2 d l b n : array_holds sha3 w d l -> slots_distinct sha3 d (length l) ->
  wrote (elem_slot sha3 d (blen l)) b w w1 -> bytes_to_int n = blen l + 1 -> n <> [] -> wrote (size_slot sha3 d) n w1 w2 ->
  array_holds sha3 w2 d (l ++ [b]).
Proof.
  intros [H1 H2] [D1 D2] W1 En Nn W2. split.
  - rewrite (cell_enc _ _ _ _ _ W2), bytes_eqb_refl. destruct n as [|x n]; [congruence|]. cbn [enc_cell]. rewrite En.
    unfold blen. rewrite app_length. cbn [length]. lia.
  - intros i Hi. rewrite app_length in Hi. cbn [length] in Hi.
    rewrite (cell_enc _ _ _ _ _ W2), eqb_false by (apply not_eq_sym, D1; lia).
    rewrite (cell_enc _ _ _ _ _ W1). destruct (Nat.eq_dec i (length l)) as [->|N].
    + change (blen l) with (Z.of_nat (length l)). rewrite bytes_eqb_refl, app_nth2, Nat.sub_diag by lia. reflexivity.
    + rewrite eqb_false by (apply D2; lia). rewrite app_nth1 by lia. apply H2; lia.
Qed.
Lemma holds_beyond w w' d l b : array_holds sha3 w d l -> slots_distinct sha3 d (length l) ->
  wrote (elem_slot sha3 d (blen l)) b w w' -> array_holds sha3 w' d l.
Proof.
  intros [H1 H2] [D1 D2] W. change (blen l) with (Z.of_nat (length l)) in W. split.
  - rewrite (cell_enc _ _ _ _ _ W), eqb_false by (apply D1; lia). exact H1.
  - intros i Hi. rewrite (cell_enc _ _ _ _ _ W), eqb_false by (apply D2; lia). auto.
Qed.

Lemma fails_back w w' e : cost_table w' = cost_table w -> readonly w' = readonly w -> short w' e \/ denied w' e -> short w e \/ denied w e.
Proof. intros C R [F|F]; [left; eapply short_back; eauto|right; eapply denied_back; eauto]. Qed.
Lemma wrote_readonly k v w w' : wrote k v w w' -> readonly w' = readonly w.
Proof. intros H; apply H. Qed.

Lemma arr_put_post w d l v b : running w -> array_holds sha3 w d l -> slots_distinct sha3 d (length l) -> encode_value v = Ok b ->
  post (arr_put sha3 d v) w (fun r w' =>
    (r = Ok tt /\ array_holds sha3 w' d (l ++ [b])) \/ (exists e, r = Exc e /\ (short w e \/ denied w e) /\ array_holds sha3 w' d l)).
Proof.
  intros R H D E. eapply post_bind; [apply (size_post w d R)| | |].
  - intros n w1 R1 (S1 & [X|(e & X & _)]); [|discriminate]. injection X as ->. rewrite (holds_size _ _ _ H).
    pose proof (holds_same _ _ _ _ S1 H) as H1'. eapply post_bind; [apply (put_at_post w1 d _ v b R1 E)| | |].
    + intros [] w2 R2 [(_ & W2)|(e & X & _)]; [|discriminate].
      eapply post_weak; [apply (set_size_post w2 d _ R2)|]. intros r w3 R3 [(-> & k & Nk & Vk & Wk & W3)|(e & -> & F & S3)].
      * left. split; [reflexivity|]. eapply holds_append; eauto.
      * right. exists e. split; [reflexivity|]. split.
        -- eapply fails_back; [| |exact F]; [rewrite (wrote_costs _ _ _ _ W2); apply same_costs; exact S1|rewrite (wrote_readonly _ _ _ _ W2); apply same_readonly; exact S1].
        -- apply (holds_same w2 w3); [exact S3|]. eapply holds_beyond; eauto.
    + intros e w2 R2 [(X & _)|(e' & X & F & S2)]; [discriminate|]. injection X as <-. right. exists e. split; [reflexivity|].
      split; [eapply fails_back; [| |exact F]; [apply same_costs; exact S1|apply same_readonly; exact S1]|]. apply (holds_same w1 w2); auto.
    + intros w' [(X & _)|(e & X & _)]; discriminate.
  - intros e w' R' (S & [X|(e' & X & Se)]); [discriminate|]. injection X as <-. right. exists e. split; [reflexivity|]. split; [auto|].
    apply (holds_same w w'); auto.
  - intros w' (S & [X|(e & X & _)]); discriminate.
Qed.

(** Removing the last element: when only the size update fails, the element is gone but still counted. *)
Lemma arr_pop_post w d l x : running w -> array_holds sha3 w d (l ++ [x]) -> slots_distinct sha3 d (length l) ->
  post (arr_pop sha3 d) w (fun r w' =>
    (r = decode_object (enc_cell x) (arr_type d) /\ (exists v, r = Ok v) /\ array_holds sha3 w' d l) \/
    (exists e, r = Exc e /\ (short w e \/ denied w e \/ decode_object (enc_cell x) (arr_type d) = Exc e) /\ same_but_steps w w') \/
    (exists e, r = Exc e /\ (short w e \/ denied w e) /\ array_holds sha3 w' d (l ++ [[]]))).
Proof.
  intros R H D. assert (Hl : blen (l ++ [x]) = blen l + 1) by (unfold blen; rewrite app_length; cbn [length]; lia).
  eapply post_bind; [apply (size_post w d R)| | |].
  - intros n w1 R1 (S1 & [X|(e & X & _)]); [|discriminate]. injection X as ->. rewrite (holds_size _ _ _ H), Hl.
    pose proof (holds_same _ _ _ _ S1 H) as H1. destruct (blen l + 1 =? 0) eqn:Z0; [unfold blen in Z0; lia|].
    replace (blen l + 1 - 1) with (blen l) by lia.
    eapply post_bind; [apply (getitem_post w1 d (l ++ [x]) (VInt (blen l)) (blen l) R1 H1 eq_refl)| | |].
    + intros last w2 R2 (S2 & [X|(e & X & _)]); [|discriminate].
      assert (P : position (blen l) (length (l ++ [x])) = Some (length l)).
      { unfold position. rewrite app_length. cbn [length]. unfold blen. destruct (_ && _) eqn:Y; [rewrite Nat2Z.id; reflexivity|lia]. }
      rewrite P in X. rewrite app_nth2, Nat.sub_diag in X by lia. cbn [nth] in X.
      destruct (int_bytes (blen l)) as (k & Ek & _).
      eapply post_lift_ok; [cbn [encode_key]; rewrite Ek; reflexivity|]. unfold sdb_delete. rewrite (elem_slot_eq d _ _ Ek).
      assert (S12 : same_but_steps w w2) by (eapply same_trans; eauto).
      eapply post_bind; [apply (delete_post w2 _ R2)| | |].
      * intros [] w3 R3 [(_ & W3)|(e & Y & _)]; [|discriminate].
        assert (H3 : array_holds sha3 w3 d (replace_nth (length l) [] (l ++ [x]))).
        { destruct D as [D1 D2]. pose proof (holds_same _ _ _ _ S12 H) as [G1 G2].
          change (blen l) with (Z.of_nat (length l)) in W3. split.
          - rewrite (cell_enc _ _ _ _ _ W3), eqb_false by (apply D1; lia). unfold blen. rewrite length_replace. exact G1.
          - intros i Hi. rewrite length_replace, app_length in Hi. cbn [length] in Hi. rewrite (cell_enc _ _ _ _ _ W3).
            rewrite nth_replace by (rewrite app_length; cbn [length]; lia).
            destruct (Nat.eqb_spec i (length l)) as [->|N]; [rewrite bytes_eqb_refl; reflexivity|].
            rewrite eqb_false by (apply D2; lia). apply G2. rewrite app_length. cbn [length]. lia. }
        assert (Er : replace_nth (length l) [] (l ++ [x]) = l ++ [[]]).
        { clear. induction l as [|y l IH]; [reflexivity|]. cbn [length app replace_nth]. rewrite IH. reflexivity. }
        rewrite Er in H3.
        assert (C3 : cost_table w3 = cost_table w) by (rewrite (wrote_costs _ _ _ _ W3); apply same_costs; exact S12).
        assert (Q3 : readonly w3 = readonly w) by (rewrite (wrote_readonly _ _ _ _ W3); apply same_readonly; exact S12).
        eapply post_bind; [apply (set_size_post w3 d _ R3)| | |].
        -- intros [] w4 R4 [(_ & n & Nn & Vn & Wn & W4)|(e & Y & _)]; [|discriminate].
           apply post_ret; [exact R4|]. left. split; [exact X|]. split; [eauto|].
           destruct H3 as [G1 G2]. destruct D as [D1 D2]. split.
           ++ rewrite (cell_enc _ _ _ _ _ W4), bytes_eqb_refl. destruct n; [congruence|]. exact Vn.
           ++ intros i Hi. rewrite (cell_enc _ _ _ _ _ W4), eqb_false by (apply not_eq_sym, D1; lia).
              rewrite G2 by (rewrite app_length; cbn [length]; lia). rewrite app_nth1 by exact Hi. reflexivity.
        -- intros e w4 R4 [(Y & _)|(e' & Y & F & S4)]; [discriminate|]. injection Y as <-. right. right. exists e.
           split; [reflexivity|]. split; [eapply fails_back; eauto|]. apply (holds_same w3 w4); auto.
        -- intros w4 [(Y & _)|(e & Y & _)]; discriminate.
      * intros e w3 R3 [(Y & _)|(e' & Y & F & S3)]; [discriminate|]. injection Y as <-. right. left. exists e.
        split; [reflexivity|]. split; [right; left; eapply denied_back; [apply same_readonly; exact S12|exact F]|eapply same_trans; eauto].
      * intros w3 [(Y & _)|(e & Y & _)]; discriminate.
    + intros e w2 R2 (S2 & X). right. left. exists e. split; [reflexivity|]. split; [|eapply same_trans; eauto].
      destruct X as [X|(e' & X & F)].
      * assert (P : position (blen l) (length (l ++ [x])) = Some (length l)).
        { unfold position. rewrite app_length. cbn [length]. unfold blen. destruct (_ && _) eqn:Y; [rewrite Nat2Z.id; reflexivity|lia]. }
        rewrite P in X. rewrite app_nth2, Nat.sub_diag in X by lia. cbn [nth] in X. rewrite <- X. auto.
      * injection X as <-. left. eapply short_back; [apply same_costs; exact S1|exact F].
    + intros w2 (S2 & [X|(e & X & _)]); [|discriminate].
      destruct (position (blen l) (length (l ++ [x]))); [|discriminate].
      destruct (decode_object_total (enc_cell (nth n (l ++ [x]) [])) (arr_type d)) as [(y & Y)|(y & Y)]; congruence.
  - intros e w' R' (S & [X|(e' & X & Se)]); [discriminate|]. injection X as <-. right. left. exists e. auto.
  - intros w' (S & [X|(e & X & _)]); discriminate.
Qed.
Lemma arr_pop_empty w d : running w -> array_holds sha3 w d [] ->
  post (arr_pop sha3 d) w (fun r w' => same_but_steps w w' /\ (r = Ok VNone \/ exists e, r = Exc e /\ short w e)).
Proof.
  intros R H. eapply post_bind; [apply (size_post w d R)| | |].
  - intros n w1 R1 (S1 & [X|(e & X & _)]); [|discriminate]. injection X as ->. rewrite (holds_size _ _ _ H). apply post_ret; auto.
  - intros e w' R' (S & [X|(e' & X & Se)]); [discriminate|]. injection X as <-. eauto.
  - intros w' (S & [X|(e & X & _)]); discriminate.
Qed.
Lemma arr_len_post w d l : running w -> array_holds sha3 w d l -> blen l < 2 ^ 63 ->
  post (arr_len sha3 d) w (fun r w' => same_but_steps w w' /\ (r = Ok (blen l) \/ exists e, r = Exc e /\ short w e)).
Proof.
  intros R H Hb. eapply post_bind; [apply (size_post w d R)| | |].
  - intros n w1 R1 (S1 & [X|(e & X & _)]); [|discriminate]. injection X as ->. rewrite (holds_size _ _ _ H).
    destruct (blen l <? 0) eqn:Y; [unfold blen in Y; lia|]. destruct (2 ^ 63 <=? blen l) eqn:V; [lia|]. apply post_ret; auto.
  - intros e w' R' (S & [X|(e' & X & Se)]); [discriminate|]. injection X as <-. eauto.
  - intros w' (S & [X|(e & X & _)]); discriminate.
Qed.
End WithHash.
