(** C28: the prices of the API calls, in every state in which SCORE code runs. *)
From Verif Require Import Model.Bytes Model.Utf8 Model.Exn Model.Monad Model.Address Model.Typed Model.EE Model.Api
  Spec.EagerEE Spec.Running Spec.ApiSpec Proof.ApiFacts Props.P_EE Props.P_Containers.

(** sha3_256 and sha_256. *)
Theorem C28_hash : forall sha3 sha2 w name bs, running sha3 w ->
  costs_exactly sha3 (api_hash sha3 sha2 name (VBytes bs)) (hash_price (cost_table w API_CALL) (blen bs))
    (Ok (match name with SHA3_256 => sha3 bs | SHA_256 => sha2 bs end)) w.
Proof. exact hash_cost. Qed.
Print Assumptions C28_hash.

(** json_dumps and json_loads, with the COMPACT_JSON revision bit.  The text is made before it is paid for, and
    handed out only when it is paid for. *)
Theorem C28_dumps : forall sha3 dumps revision w obj text u, running sha3 w -> Z.land revision 256 <> 0 ->
  dumps true obj = Ok text -> utf8_encode text = Some u ->
  costs_exactly sha3 (json_dumps dumps revision obj) (json_price (cost_table w API_CALL) 5 (blen u)) (Ok text) w.
Proof. exact dumps_cost. Qed.
Print Assumptions C28_dumps.
Theorem C28_loads : forall sha3 loads revision w s u, running sha3 w -> Z.land revision 256 <> 0 ->
  utf8_encode s = Some u -> loads s <> Stuck ->
  costs_exactly sha3 (json_loads loads revision (VStr s)) (json_price (cost_table w API_CALL) 4 (blen u)) (loads s) w.
Proof. exact loads_cost. Qed.
Print Assumptions C28_loads.

(** create_address_with_key for keys of 33 or 65 bytes, and recover_key for any arguments; a failure inside gives
    None. *)
Theorem C28_create_address : forall sha3 decompress w key, running sha3 w -> blen key = 33 \/ blen key = 65 ->
  exists a, costs_exactly sha3 (create_address_with_key sha3 decompress (VBytes key))
    (if blen key =? 33 then cost_table w API_CALL * 15 else cost_table w API_CALL * 1500 / 1000) (Ok a) w.
Proof. exact create_cost. Qed.
Print Assumptions C28_create_address.
Theorem C28_recover_key : forall sha3 recover w h s cm, running sha3 w ->
  exists k, costs_exactly sha3 (recover_key recover h s cm) (cost_table w API_CALL * 70) (Ok k) w.
Proof. exact recover_cost. Qed.
Print Assumptions C28_recover_key.

(** Arguments that are turned down cost nothing. *)
Theorem C28_turned_down : forall sha3 sha2 decompress loads revision name v w,
  ((forall bs, v <> VBytes bs) -> is_free (api_hash sha3 sha2 name v) (Exc (EIcon InvalidParams)) w) /\
  ((forall bs, v = VBytes bs -> blen bs <> 33 /\ blen bs <> 65) -> is_free (create_address_with_key sha3 decompress v) (Ok None) w) /\
  ((forall s, v <> VStr s) -> is_free (json_loads loads revision v) (Ok VNone) w).
Proof.
  intros. split; [|split]; intros H.
  - destruct v; try reflexivity. exfalso. eapply H; reflexivity.
  - destruct v; try reflexivity. destruct (H _ eq_refl) as [A B]. unfold is_free. cbn [create_address_with_key].
    replace (negb _) with true; [reflexivity|]. destruct (Z.eqb_spec (blen bs) 33), (Z.eqb_spec (blen bs) 65); tauto.
  - destruct v; try reflexivity. exfalso. eapply H; reflexivity.
Qed.
Print Assumptions C28_turned_down.

(** Prices grow with the size. *)
Theorem C28_monotone : forall k a b, 0 <= k -> a <= b ->
  hash_price k a <= hash_price k b /\ json_price k 5 a <= json_price k 5 b /\ json_price k 4 a <= json_price k 4 b.
Proof.
  intros k a b K H. split; [apply hash_price_mono; lia|]. split; apply json_price_mono; lia.
Qed.
Print Assumptions C28_monotone.

(** Without the revision bit JSON costs nothing, however long the text. *)
Theorem C28_json_unpriced : forall sha3 dumps loads revision w obj s, running sha3 w -> Z.land revision 256 = 0 ->
  is_free (json_dumps dumps revision obj) (dumps false obj) w /\ is_free (json_loads loads revision (VStr s)) (loads s) w.
Proof.
  intros sha3 dumps loads revision w obj s R H. destruct (ctx_costs sha3 w R) as (c & E & _).
  unfold is_free, json_dumps, json_loads, compact_json, REVISION_COMPACT_JSON. rewrite H. cbn [Z.eqb negb]. unfold mbind, mlift. rewrite E. auto.
Qed.
Print Assumptions C28_json_unpriced.

Definition api_costs : costs := fun t => match t with API_CALL => 10000 | _ => 0 end.
Definition api_world (limit : Z) := world_of two_ns api_costs limit.
Example C28_case : running idh (api_world 12000) /\
  hash_price 10000 33 = 12000 /\ hash_price 10000 32 = 11000 /\ hash_price 10000 0 = 10000 /\ json_price 10000 5 7 = 53500 /\
  fst (api_hash idh idh SHA3_256 (VBytes (repeat 1 33)) (api_world 12000)) = Ok (repeat 1 33) /\
  fst (api_hash idh idh SHA3_256 (VBytes (repeat 1 65)) (api_world 12000)) = Exc (EOutOfStep 12000 0 13000 API_CALL).
Proof.
  split; [apply world_of_running; [lia|intros n _; split; apply Z.le_refl]|]. repeat split; vm_compute; reflexivity.
Qed.
