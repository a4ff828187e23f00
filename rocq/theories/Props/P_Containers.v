(** C06-C10: SCORE containers.  Every statement ranges over all states a SCORE's code can be in ([running],
    Spec/Running.v: any node behaviour, any programs, any limits and cost tables with non-positive refunds).
    [short w e]: [e] is out-of-step and something costs steps; [denied w e]: [e] is the refusal to write from
    read-only code. *)
From Verif Require Import Model.Bytes Model.IntCodec Model.DbKey Model.Exn Model.Monad Model.Address Model.Typed Model.EE Model.Containers
  Spec.EagerEE Spec.Slots Spec.Running Spec.ContainerOps
  Proof.AddressFacts Proof.ContainerFacts Proof.ContainerFacts2 Proof.ContainerFacts3 Proof.ContainerFacts4 Props.P_EE.

(** ** C06: VarDB *)
Theorem C06_get : forall sha3 w d, running sha3 w ->
  post sha3 (var_get sha3 d) w (fun r w' => same_but_steps w w' /\
    (r = decode_object (cell w (hash_key sha3 (var_sdb d) None)) (var_type d) \/ exists e, r = Exc e /\ short w e)).
Proof. exact var_get_post. Qed.
Print Assumptions C06_get.

Theorem C06_set : forall sha3 w d v b, running sha3 w -> encode_value v = Ok b ->
  post sha3 (var_set sha3 d v) w (fun r w' =>
    (r = Ok tt /\ wrote (hash_key sha3 (var_sdb d) None) b w w') \/
    (exists e, r = Exc e /\ (short w e \/ denied w e) /\ same_but_steps w w')).
Proof. exact var_set_post. Qed.
Print Assumptions C06_set.

(** A value that cannot be encoded changes nothing. *)
Theorem C06_set_refused : forall sha3 w d v e, encode_value v = Exc e -> var_set sha3 d v w = (Exc e, w).
Proof. intros sha3 w d v e E. unfold var_set. rewrite E. reflexivity. Qed.
Print Assumptions C06_set_refused.

Theorem C06_remove : forall sha3 w d, running sha3 w ->
  post sha3 (var_remove sha3 d) w (fun r w' =>
    (r = Ok tt /\ wrote (hash_key sha3 (var_sdb d) None) [] w w') \/
    (exists e, r = Exc e /\ denied w e /\ same_but_steps w w')).
Proof. exact var_remove_post. Qed.
Print Assumptions C06_remove.

(** A value written to a container of its own type reads back equal, except that the empty byte string reads
    back as [None]. *)
Theorem C06_value_roundtrip : forall v ty b, type_is v ty = true -> (forall a, v = VAddr a -> wf_address a) ->
  encode_value v = Ok b -> decode_object (enc_cell b) ty = Ok (match v with VBytes [] => VNone | _ => v end).
Proof. exact value_roundtrip. Qed.
Print Assumptions C06_value_roundtrip.

(** After any history of its own operations (returned or raised) and of operations of other containers, a read
    gives the last value set and not removed. *)
Theorem C06_history : forall sha3 d h w w', running sha3 w ->
  history sha3 w (map (fun x => (var_op d (fst x), snd x)) h) w' ->
  (forall o b, In (inr o, b) h -> forall e, hash_key sha3 (op_db o) e <> hash_key sha3 (var_sdb d) None) ->
  post sha3 (var_get sha3 d) w' (fun r _ =>
    r = decode_object (fold_left var_after h (cell w (hash_key sha3 (var_sdb d) None))) (var_type d) \/
    exists e, r = Exc e /\ short w' e).
Proof.
  intros sha3 d h w w' R H Ho. pose proof (history_running sha3 w _ w' R H) as R'.
  destruct (var_get_post sha3 w' d R') as (r & w2 & E & R2 & _ & K). exists r, w2. split; [exact E|]. split; [exact R2|].
  rewrite (var_history sha3 d h w w' R H Ho) in K. exact K.
Qed.
Print Assumptions C06_history.

(** ** C07: DictDB *)
Theorem C07_get : forall sha3 w d k kb, running sha3 w -> dict_depth d = 1 -> encode_key k = Ok kb ->
  post sha3 (dict_getitem sha3 d k) w (fun r w' => same_but_steps w w' /\
    (r = res_bind (decode_object (cell w (hash_key sha3 (dict_sdb d) (Some kb))) (dict_type d)) (fun x => Ok (inl x))
     \/ exists e, r = Exc e /\ short w e)).
Proof. exact dict_get_post. Qed.
Print Assumptions C07_get.

Theorem C07_in : forall sha3 w d k kb, running sha3 w -> encode_key k = Ok kb ->
  post sha3 (dict_contains sha3 d k) w (fun r w' => same_but_steps w w' /\
    (r = Ok (match cell w (hash_key sha3 (dict_sdb d) (Some kb)) with Some _ => true | None => false end)
     \/ exists e, r = Exc e /\ short w e)).
Proof. exact dict_in_post. Qed.
Print Assumptions C07_in.

Theorem C07_set : forall sha3 w d k kb v b, running sha3 w -> dict_depth d = 1 -> encode_key k = Ok kb -> encode_value v = Ok b ->
  post sha3 (dict_setitem sha3 d k v) w (fun r w' =>
    (r = Ok tt /\ wrote (hash_key sha3 (dict_sdb d) (Some kb)) b w w') \/
    (exists e, r = Exc e /\ (short w e \/ denied w e) /\ same_but_steps w w')).
Proof. exact dict_set_post. Qed.
Print Assumptions C07_set.

Theorem C07_remove : forall sha3 w d k kb, running sha3 w -> dict_depth d = 1 -> encode_key k = Ok kb ->
  post sha3 (dict_remove sha3 d k) w (fun r w' =>
    (r = Ok tt /\ wrote (hash_key sha3 (dict_sdb d) (Some kb)) [] w w') \/
    (exists e, r = Exc e /\ denied w e /\ same_but_steps w w')).
Proof. exact dict_remove_post. Qed.
Print Assumptions C07_remove.

(** A level above the last one cannot be written or removed from, and reading it gives the next level without
    touching anything: [DictDB(name, db, ty, depth=len(keys))[k1]...[kn]] lives under [k1,...,kn]. *)
Theorem C07_upper_levels : forall sha3 w d k v, dict_depth d <> 1 ->
  dict_setitem sha3 d k v w = (Exc (EIcon InvalidContainerAccess), w) /\
  dict_remove sha3 d k w = (Exc (EIcon InvalidContainerAccess), w) /\
  forall kb, encode_key k = Ok kb ->
    dict_getitem sha3 d k w =
      (Ok (inr (mk_dict (get_sub_db (dict_sdb d) kb (Some DICT_DB_ID)) (dict_type d) (dict_depth d - 1))), w).
Proof.
  intros sha3 w d k v N. unfold dict_setitem, dict_remove, dict_getitem. apply Z.eqb_neq in N. rewrite N. cbn [negb].
  split; [reflexivity|]. split; [reflexivity|]. intros kb E. unfold new_DictDB. rewrite E. reflexivity.
Qed.
Print Assumptions C07_upper_levels.

(** Walking down [keys] gives the container at that path. *)
Fixpoint walk (sha3 : bytes -> bytes) (d : dict_db) (keys : list pyval) (w : world) : option dict_db :=
  match keys with
  | [] => Some d
  | k :: r => match dict_getitem sha3 d k w with (Ok (inr d'), w') => walk sha3 d' r w' | _ => None end
  end.
Theorem C07_levels : forall sha3 w name nb ty keys kbs, encode_key name = Ok nb -> map encode_key keys = map (fun b => Ok b) kbs ->
  exists d, new_DictDB name root_db ty (1 + Z.of_nat (length keys)) = Ok d /\
    walk sha3 d keys w = Some (mk_dict (container_db KDict [] nb kbs) ty 1).
Proof.
  intros sha3 w name nb ty keys kbs En Ek. eexists. split; [unfold new_DictDB; rewrite En; reflexivity|].
  unfold container_db. set (b0 := get_sub_db (sub_dbs []) nb (Some (kind_tag KDict))).
  change (get_sub_db root_db nb (Some DICT_DB_ID)) with b0. clearbody b0. revert kbs b0 Ek.
  induction keys as [|k keys IH]; intros [|kb kbs] b0 Ek; try discriminate; [reflexivity|].
  cbn [map] in Ek. injection Ek as E1 E2. cbn [walk fold_left].
  assert (N : 1 + Z.of_nat (length (k :: keys)) <> 1) by (cbn [length]; lia).
  destruct (C07_upper_levels sha3 w (mk_dict b0 ty (1 + Z.of_nat (length (k :: keys)))) k VNone N) as (_ & _ & G).
  rewrite (G kb E1). cbn [dict_sdb dict_type dict_depth].
  replace (1 + Z.of_nat (length (k :: keys)) - 1) with (1 + Z.of_nat (length keys)) by (cbn [length]; lia).
  apply IH. exact E2.
Qed.
Print Assumptions C07_levels.

Theorem C07_history : forall sha3 d k kb h w w', dict_depth d = 1 -> encode_key k = Ok kb -> running sha3 w ->
  history sha3 w (map (fun x => (dict_op d (fst x), snd x)) h) w' ->
  (forall o b, In (inr o, b) h -> forall e, hash_key sha3 (op_db o) e <> hash_key sha3 (dict_sdb d) (Some kb)) ->
  (forall o b kb', In (inl o, b) h -> encode_key (dop_key o) = Ok kb' -> kb' <> kb ->
     hash_key sha3 (dict_sdb d) (Some kb') <> hash_key sha3 (dict_sdb d) (Some kb)) ->
  let stored := fold_left (dict_after kb) h (cell w (hash_key sha3 (dict_sdb d) (Some kb))) in
  post sha3 (dict_getitem sha3 d k) w' (fun r _ =>
    r = res_bind (decode_object stored (dict_type d)) (fun x => Ok (inl x)) \/ exists e, r = Exc e /\ short w' e) /\
  post sha3 (dict_contains sha3 d k) w' (fun r _ =>
    r = Ok (match stored with Some _ => true | None => false end) \/ exists e, r = Exc e /\ short w' e).
Proof.
  intros sha3 d k kb h w w' D Ek R H Ho Hk stored. pose proof (history_running sha3 w _ w' R H) as R'.
  unfold stored. rewrite <- (dict_history sha3 d kb D h w w' R H Ho Hk). split.
  - destruct (dict_get_post sha3 w' d k kb R' D Ek) as (r & w2 & E & R2 & _ & K). exists r, w2. auto.
  - destruct (dict_in_post sha3 w' d k kb R' Ek) as (r & w2 & E & R2 & _ & K). exists r, w2. auto.
Qed.
Print Assumptions C07_history.

(** ** C08: ArrayDB.  [array_holds w d l]: in [w], [d] holds the list [l] of encodings. *)
Theorem C08_put : forall sha3 w d l v b, running sha3 w -> array_holds sha3 w d l -> slots_distinct sha3 d (length l) ->
  encode_value v = Ok b ->
  post sha3 (arr_put sha3 d v) w (fun r w' =>
    (r = Ok tt /\ array_holds sha3 w' d (l ++ [b])) \/
    (exists e, r = Exc e /\ (short w e \/ denied w e) /\ array_holds sha3 w' d l)).
Proof. exact arr_put_post. Qed.
Print Assumptions C08_put.

(** [pop]: the last case is the blanked element, see C08_violated_pop. *)
Theorem C08_pop : forall sha3 w d l x, running sha3 w -> array_holds sha3 w d (l ++ [x]) -> slots_distinct sha3 d (length l) ->
  post sha3 (arr_pop sha3 d) w (fun r w' =>
    (r = decode_object (enc_cell x) (arr_type d) /\ (exists v, r = Ok v) /\ array_holds sha3 w' d l) \/
    (exists e, r = Exc e /\ (short w e \/ denied w e \/ decode_object (enc_cell x) (arr_type d) = Exc e) /\ same_but_steps w w') \/
    (exists e, r = Exc e /\ (short w e \/ denied w e) /\ array_holds sha3 w' d (l ++ [[]]))).
Proof. exact arr_pop_post. Qed.
Print Assumptions C08_pop.

Theorem C08_pop_empty : forall sha3 w d, running sha3 w -> array_holds sha3 w d [] ->
  post sha3 (arr_pop sha3 d) w (fun r w' => same_but_steps w w' /\ (r = Ok VNone \/ exists e, r = Exc e /\ short w e)).
Proof. exact arr_pop_empty. Qed.
Print Assumptions C08_pop_empty.

Theorem C08_get : forall sha3 w d l idx i, running sha3 w -> array_holds sha3 w d l -> as_index idx = Some i ->
  post sha3 (arr_getitem sha3 d idx) w (fun r w' => same_but_steps w w' /\
    (r = match position i (length l) with
         | Some p => decode_object (enc_cell (nth p l [])) (arr_type d)
         | None => Exc (EIcon InvalidParams) end \/ exists e, r = Exc e /\ short w e)).
Proof. exact getitem_post. Qed.
Print Assumptions C08_get.

Theorem C08_set : forall sha3 w d l idx i v b, running sha3 w -> array_holds sha3 w d l -> slots_distinct sha3 d (length l) ->
  as_index idx = Some i -> encode_value v = Ok b ->
  post sha3 (arr_setitem sha3 d idx v) w (fun r w' =>
    match position i (length l) with
    | Some p => (r = Ok tt /\ wrote (elem_slot sha3 d (Z.of_nat p)) b w w' /\ array_holds sha3 w' d (replace_nth p b l)) \/
                (exists e, r = Exc e /\ (short w e \/ denied w e) /\ same_but_steps w w')
    | None => same_but_steps w w' /\ exists e, r = Exc e /\ (e = EIcon InvalidParams \/ short w e)
    end).
Proof. exact setitem_post. Qed.
Print Assumptions C08_set.

(** A non-integer index or a value that cannot be encoded raises and changes nothing. *)
Theorem C08_set_refused : forall sha3 w d i v, running sha3 w -> as_index i = None \/ (exists e, encode_value v = Exc e) ->
  post sha3 (arr_setitem sha3 d i v) w (fun r w' => same_but_steps w w' /\ exists e, r = Exc e).
Proof. exact set_bad. Qed.
Print Assumptions C08_set_refused.
Theorem C08_put_refused : forall sha3 w d v e, running sha3 w -> encode_value v = Exc e ->
  post sha3 (arr_put sha3 d v) w (fun r w' => same_but_steps w w' /\ exists e', r = Exc e').
Proof. exact put_bad. Qed.
Print Assumptions C08_put_refused.

Theorem C08_len : forall sha3 w d l, running sha3 w -> array_holds sha3 w d l -> blen l < 2 ^ 63 ->
  post sha3 (arr_len sha3 d) w (fun r w' => same_but_steps w w' /\ (r = Ok (blen l) \/ exists e, r = Exc e /\ short w e)).
Proof. exact arr_len_post. Qed.
Print Assumptions C08_len.

Theorem C08_iterate : forall sha3 w d l, running sha3 w -> array_holds sha3 w d l ->
  post sha3 (arr_list sha3 d) w (fun r w' => same_but_steps w w' /\
    (r = map_res (fun b => decode_object (enc_cell b) (arr_type d)) l \/ exists e, r = Exc e /\ short w e)).
Proof. exact list_post. Qed.
Print Assumptions C08_iterate.

(** After any history, the array holds what the operations that returned give on a list ([arr_after]); one that
    raised changed nothing, except that a [pop] may have blanked the last element. *)
Theorem C08_history : forall sha3 d h w w' l n, running sha3 w -> array_holds sha3 w d l ->
  (length l + length h <= n)%nat -> slots_distinct sha3 d n ->
  history sha3 w (map (fun x => (arr_op d (fst x), snd x)) h) w' ->
  (forall o b, In (inr o, b) h -> forall e, hash_key sha3 (op_db o) e <> size_slot sha3 d /\
     forall i, (i <= n)%nat -> hash_key sha3 (op_db o) e <> elem_slot sha3 d (Z.of_nat i)) ->
  exists l', arr_steps l h l' /\ array_holds sha3 w' d l'.
Proof. exact arr_history. Qed.
Print Assumptions C08_history.

(** The world of the examples: a SCORE entered with [limit] steps and the given costs, whose array 'a' of
    strings holds ["x", "yz"]; the hash is the identity. *)
Definition idh (b : bytes) : bytes := b.
Definition arr_a (ty : vtype) : array_db := mk_array (container_db KArray [] [97] []) ty.
Definition two_ns : nstate :=
  mk_nstate (fun a k => if bytes_eqb a [1] then
     if bytes_eqb k (size_slot idh (arr_a TyStr)) then [2]
     else if bytes_eqb k (elem_slot idh (arr_a TyStr) 0) then [120]
     else if bytes_eqb k (elem_slot idh (arr_a TyStr) 1) then [121; 122] else [] else []) (fun _ => 0).
Definition world_of (ns : nstate) (k : costs) (limit : Z) : world :=
  to_method (enter (mk_request [1] false false limit k) (init_world ns)).
Lemma world_of_running ns k limit : 0 <= limit -> refunding k -> running idh (world_of ns k limit).
Proof. intros L H. apply run_method, run_enter; [apply idle_fresh|split; assumption]. Qed.
Lemma two_holds k limit ty : array_holds idh (world_of two_ns k limit) (arr_a ty) [[120]; [121; 122]].
Proof. split; [reflexivity|]. intros [|[|i]] Hi; [reflexivity|reflexivity|cbn in Hi; lia]. Qed.

Lemma idh_distinct ty n : Z.of_nat n < 2 ^ 63 -> slots_distinct idh (arr_a ty) n.
Proof. intros L. apply distinct_of_hash; [split; [constructor; [red; lia|constructor]|reflexivity]|exact L|auto]. Qed.

(** [slots_distinct] is what a collision-free hash gives. *)
Theorem C08_distinct_slots : forall sha3 nb ty n, part_ok nb -> Z.of_nat n < 2 ^ 63 ->
  (forall e1 e2, sha3 (slot_preimage KArray [] nb [] e1) = sha3 (slot_preimage KArray [] nb [] e2) ->
     slot_preimage KArray [] nb [] e1 = slot_preimage KArray [] nb [] e2) ->
  slots_distinct sha3 (mk_array (container_db KArray [] nb []) ty) n.
Proof. exact distinct_of_hash. Qed.
Print Assumptions C08_distinct_slots.

Definition hw := world_of two_ns havah_costs 100000.
Example C08_case : running idh hw /\ array_holds idh hw (arr_a TyStr) [[120]; [121; 122]] /\ slots_distinct idh (arr_a TyStr) 9 /\
  fst (arr_list idh (arr_a TyStr) hw) = Ok [VStr [120]; VStr [121; 122]] /\
  fst (arr_getitem idh (arr_a TyStr) (VInt (-1)) hw) = Ok (VStr [121; 122]) /\
  fst (arr_getitem idh (arr_a TyStr) (VInt (-3)) hw) = Exc (EIcon InvalidParams) /\
  fst ((arr_put idh (arr_a TyStr) (VStr [65]) ;;; arr_setitem idh (arr_a TyStr) (VInt 0) (VStr [66]) ;;; arr_pop idh (arr_a TyStr)) hw)
    = Ok (VStr [65]).
Proof.
  split; [apply world_of_running; [lia|apply havah_refunding]|]. split; [apply two_holds|]. split; [apply idh_distinct; reflexivity|].
  vm_compute. auto.
Qed.

(** C08 is false for [pop]: with HAVAH's costs and a limit that covers the reads but not the write of the
    length, [pop] raises out-of-step, and afterwards the array still has two elements of which the last has
    become "" (a SCORE that catches the exception and returns commits this). *)
Theorem C08_violated_pop : let w := world_of two_ns havah_costs 12000 in
  running idh w /\ array_holds idh w (arr_a TyStr) [[120]; [121; 122]] /\ slots_distinct idh (arr_a TyStr) 2 /\
  exists e w', arr_pop idh (arr_a TyStr) w = (Exc e, w') /\ out_of_step e /\
    array_holds idh w' (arr_a TyStr) [[120]; []] /\ ~ array_holds idh w' (arr_a TyStr) [[120]; [121; 122]] /\
    ~ array_holds idh w' (arr_a TyStr) [[120]].
Proof.
  cbv zeta. split; [apply world_of_running; [lia|apply havah_refunding]|]. split; [apply two_holds|].
  split; [apply idh_distinct; reflexivity|]. eexists _, _. split; [vm_compute; reflexivity|].
  split; [do 4 eexists; reflexivity|]. split; [split; [reflexivity|]|split].
  - intros [|[|i]] Hi; [reflexivity|reflexivity|cbn in Hi; lia].
  - intros [_ H]. specialize (H 1%nat (le_n 2)). vm_compute in H. discriminate.
  - intros [H _]. vm_compute in H. discriminate.
Qed.
Print Assumptions C08_violated_pop.

(** ** C09: membership in an ArrayDB.  [scan_costs]: non-negative GET costs, and not (SCHEMA zero with a
    positive GET_BASE). *)
Theorem C09_same_type : forall sha3 w d l item b, running sha3 w -> array_holds sha3 w d l -> blen l < 2 ^ 63 ->
  (forall sz, cell w (size_slot sha3 d) = Some sz -> wf_bytes sz) ->
  scan_costs (cost_table w) -> type_is item (arr_type d) = true -> encode_value item = Ok b ->
  post sha3 (arr_contains sha3 d item) w (fun r w' => same_but_steps w w' /\
    (r = Ok (existsb (finds b) l) \/ exists e, r = Exc e /\ short w e)).
Proof. exact in_same_type_post. Qed.
Print Assumptions C09_same_type.

(** The answer is whether the encoding is among the elements, when that encoding is not empty. *)
Theorem C09_answer : forall b l, b <> [] -> existsb (finds b) l = true <-> In b l.
Proof.
  intros b l N. rewrite existsb_exists. split.
  - intros (x & I & F). destruct x as [|y x]; [discriminate|]. apply bytes_eqb_eq in F. subst. exact I.
  - intros I. exists b. split; [exact I|]. destruct b as [|y b]; [congruence|]. apply bytes_eqb_refl.
Qed.
Print Assumptions C09_answer.

(** An item of another type is compared with the decoded elements by [==]. *)
Theorem C09_other_type : forall sha3 w d l item vs, running sha3 w -> array_holds sha3 w d l -> type_is item (arr_type d) = false ->
  map_res (fun b => decode_object (enc_cell b) (arr_type d)) l = Ok vs ->
  post sha3 (arr_contains sha3 d item) w (fun r w' => same_but_steps w w' /\
    (r = Ok (existsb (fun e => py_eq e item) vs) \/ exists e, r = Exc e /\ short w e)).
Proof. exact in_other_type_post. Qed.
Print Assumptions C09_other_type.

(** What the scan costs: GET_BASE for each element read and GET for each byte read, and it reads the elements up
    to and including the first match. *)
Theorem C09_price : forall sha3 w d l b yn w', running sha3 w -> array_holds sha3 w d l -> blen l < 2 ^ 63 ->
  (forall sz, cell w (size_slot sha3 d) = Some sz -> wf_bytes sz) -> l <> [] -> scan_costs (cost_table w) ->
  sdb_contains sha3 (arr_sdb d) b w = (Ok yn, w') ->
  yn = existsb (finds b) l /\
  steps_left w' = steps_left w - (cost_table w GET_BASE * blen (scanned b l) + cost_table w GET * sizes (scanned b l)).
Proof. exact scan_price. Qed.
Print Assumptions C09_price.

Example C09_case : running idh hw /\ array_holds idh hw (arr_a TyStr) [[120]; [121; 122]] /\ scan_costs (cost_table hw) /\
  (forall sz, cell hw (size_slot idh (arr_a TyStr)) = Some sz -> wf_bytes sz) /\
  fst (arr_contains idh (arr_a TyStr) (VStr [121; 122]) hw) = Ok true /\
  fst (arr_contains idh (arr_a TyStr) (VStr [121]) hw) = Ok false /\
  fst (arr_contains idh (arr_a TyStr) (VInt 3) hw) = Ok false /\
  fst (arr_contains idh (arr_a TyInt) (VBool true) hw) = Ok false.
Proof.
  split; [apply world_of_running; [lia|apply havah_refunding]|]. split; [apply two_holds|].
  split; [split; [cbn; lia|]; split; [cbn; lia|reflexivity]|]. split.
  - intros sz E. change (Some [2] = Some sz) in E. injection E as <-. constructor; [red; lia|constructor].
  - vm_compute. auto.
Qed.

(** C09 is false in two corners.  The empty encoding: after [put("")] iteration yields "", but ["" in array]
    answers False. *)
Definition free_world := world_of two_ns (fun _ => 0) 0.
Example free_running : running idh free_world.
Proof. apply world_of_running; [lia|]. intros n _. split; apply Z.le_refl. Qed.
Theorem C09_violated_empty : exists w', arr_put idh (arr_a TyStr) (VStr []) free_world = (Ok tt, w') /\
    fst (arr_list idh (arr_a TyStr) w') = Ok [VStr [120]; VStr [121; 122]; VStr []] /\
    fst (arr_contains idh (arr_a TyStr) (VStr []) w') = Ok false.
Proof. eexists. split; [vm_compute; reflexivity|]. split; vm_compute; reflexivity. Qed.
Print Assumptions C09_violated_empty.

(** A cost table with SCHEMA zero and a positive GET_BASE: the node stops the scan at the step limit counting
    the base cost, the executor charges no base cost, and a wrong False is returned. *)
Definition no_schema_costs : costs := fun t => match t with GET_BASE => 3000 | _ => 0 end.
Theorem C09_violated_costs : let w := world_of two_ns no_schema_costs 100 in
  running idh w /\ array_holds idh w (arr_a TyStr) [[120]; [121; 122]] /\
  fst (arr_contains idh (arr_a TyStr) (VStr [121; 122]) w) = Ok false.
Proof.
  cbv zeta. split; [apply world_of_running; [lia|]; intros n _; split; apply Z.le_refl|]. split; [apply two_holds|].
  vm_compute. reflexivity.
Qed.
Print Assumptions C09_violated_costs.

(** ** C10: an operation writes only its own slots *)
Theorem C10_frame : forall sha3 o w r w', running sha3 w -> run_op sha3 o w = (r, w') ->
  running sha3 w' /\ r <> Stuck /\
  changed_only (fun k => exists e, may_write sha3 o w e /\ k = hash_key sha3 (op_db o) e) w w'.
Proof. exact op_frame. Qed.
Print Assumptions C10_frame.

(** So whatever an operation of the container at (kind, name, path) does, the slots of every other container
    are unchanged, if the hash does not collide on the keys involved. *)
Theorem C10_other_container : forall sha3 k1 n1 lv1 o w r w' k2 n2 lv2 e2,
  running sha3 w -> run_op sha3 o w = (r, w') -> op_db o = container_db k1 [] n1 lv1 ->
  (forall e, may_write sha3 o w e -> Forall part_ok (n1 :: lv1 ++ opt_list e)) -> Forall part_ok (n2 :: lv2 ++ opt_list e2) ->
  (forall e, may_write sha3 o w e -> sha3 (slot_preimage k1 [] n1 lv1 e) = sha3 (slot_preimage k2 [] n2 lv2 e2) ->
     slot_preimage k1 [] n1 lv1 e = slot_preimage k2 [] n2 lv2 e2) ->
  (forall e, may_write sha3 o w e -> k1 <> k2 \/ n1 <> n2 \/ lv1 ++ opt_list e <> lv2 ++ opt_list e2) ->
  cell w' (slot sha3 k2 [] n2 lv2 e2) = cell w (slot sha3 k2 [] n2 lv2 e2).
Proof. exact other_container. Qed.
Print Assumptions C10_other_container.

(** The slot of a different kind, for instance: the entry "\x00" of DictDB 'a' while ArrayDB 'a' grows. *)
Example C10_case : let o := OArrPut (arr_a TyStr) (VStr [65]) in
  running idh hw /\ op_db o = container_db KArray [] [97] [] /\
  (forall e, may_write idh o hw e -> Forall part_ok ([97] :: [] ++ opt_list e)) /\ Forall part_ok ([97] :: [] ++ opt_list (Some [0])) /\
  (exists e, may_write idh o hw e) /\ fst (run_op idh o hw) = Ok tt.
Proof.
  assert (P : forall x, 0 <= x < 256 -> part_ok [x]) by (intros x H; split; [constructor; [exact H|constructor]|reflexivity]).
  cbv zeta. split; [apply world_of_running; [lia|apply havah_refunding]|]. split; [reflexivity|]. split.
  - intros e [E|E]; rewrite E; [constructor; [apply P; lia|constructor]|].
    change (int_to_bytes (array_size idh hw (arr_a TyStr))) with (Some [2]). repeat (constructor; [apply P; lia|]). constructor.
  - split; [repeat (constructor; [apply P; lia|]); constructor|]. split; [exists None; left; reflexivity|vm_compute; reflexivity].
Qed.

(** Histories: the hypotheses of C06_history and C08_history are met by an interleaving of a VarDB and an
    ArrayDB of the same name, one of whose operations raises. *)
Definition var_a : var_db := mk_var (container_db KVar [] [97] []) TyStr.
Definition sample_history : list ((vop + cop) * bool) :=
  [(inl (VSet (VStr [65])), true); (inr (OArrPut (arr_a TyStr) (VStr [66])), true); (inl (VSet VNone), false); (inl VGet, true)].
Example C06_case : exists w', running idh hw /\
  history idh hw (map (fun x => (var_op var_a (fst x), snd x)) sample_history) w' /\
  (forall o b, In (inr o, b) sample_history -> forall e, hash_key idh (op_db o) e <> hash_key idh (var_sdb var_a) None) /\
  fst (var_get idh var_a w') = Ok (VStr [65]).
Proof.
  eexists. split; [apply world_of_running; [lia|apply havah_refunding]|]. split; [|split].
  - eapply hist_ok; [vm_compute; reflexivity|]. eapply hist_ok; [vm_compute; reflexivity|].
    eapply hist_exc; [vm_compute; reflexivity|]. eapply hist_ok; [vm_compute; reflexivity|]. apply hist_nil.
  - intros o b [H|[H|[H|[H|[]]]]]; try discriminate. injection H as <- _. intros [k|]; cbn; discriminate.
  - vm_compute. reflexivity.
Qed.
