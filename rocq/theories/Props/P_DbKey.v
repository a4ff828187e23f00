(** C03, C04, C05: storage keys.  Definitions used by the statements: Model/DbKey.v (Python and Go code),
    Spec/Slots.v. *)
From Verif Require Import Model.Bytes Model.DbKey Spec.Slots Proof.DbKeyFacts.

(** C03: the list of parts is recovered from the concatenation of their encodings, by the Go decoder. *)
Theorem C03_decoder_recovers : forall parts, Forall part_ok parts ->
  go_SplitKeys (concat (map get_encoded_key parts)) = Some parts.
Proof. exact split_encode. Qed.
Print Assumptions C03_decoder_recovers.

Theorem C03_injective : forall a b, Forall part_ok a -> Forall part_ok b ->
  concat (map get_encoded_key a) = concat (map get_encoded_key b) -> a = b.
Proof. exact encode_parts_inj. Qed.
Print Assumptions C03_injective.

(** No encoded list of parts continues into another one: an encoding is never a proper prefix. *)
Theorem C03_prefix_free : forall a b x y, part_ok a -> part_ok b ->
  get_encoded_key a ++ x = get_encoded_key b ++ y -> a = b /\ x = y.
Proof. exact encode_prefix_free. Qed.
Print Assumptions C03_prefix_free.

(** The Go containers compute the same key bytes. *)
Theorem C03_go_agrees : forall key parts, Forall (fun b => blen b < 2 ^ 53) parts ->
  go_AppendKeys key parts = key ++ concat (map get_encoded_key parts).
Proof. exact go_append_agrees. Qed.
Print Assumptions C03_go_agrees.

Example C03_case : Forall part_ok [[]; [5]; [200]; repeat 7 60] /\
  concat (map get_encoded_key [[]; [5]; [200]; repeat 7 60]) =
    [128] ++ [5] ++ [129; 200] ++ [184; 60] ++ repeat 7 60.
Proof. split; [|reflexivity]. repeat (constructor; [split; [repeat (constructor; [red; lia|]); constructor|reflexivity]|]). constructor. Qed.

(** C04: for containers created directly on the SCORE's database, equal slots mean equal kind, name and
    element path, provided the hash does not collide on the two preimages. *)
Theorem C04_slots_disjoint : forall sha3 k1 n1 lv1 e1 k2 n2 lv2 e2,
  Forall part_ok (n1 :: lv1 ++ opt_list e1) -> Forall part_ok (n2 :: lv2 ++ opt_list e2) ->
  (sha3 (slot_preimage k1 [] n1 lv1 e1) = sha3 (slot_preimage k2 [] n2 lv2 e2) ->
     slot_preimage k1 [] n1 lv1 e1 = slot_preimage k2 [] n2 lv2 e2) ->
  slot sha3 k1 [] n1 lv1 e1 = slot sha3 k2 [] n2 lv2 e2 ->
  k1 = k2 /\ n1 = n2 /\ lv1 ++ opt_list e1 = lv2 ++ opt_list e2.
Proof.
  exact (fun sha3 k1 n1 lv1 e1 k2 n2 lv2 e2 H1 H2 Hs E =>
           slot_preimage_inj k1 [] n1 lv1 e1 k2 [] n2 lv2 e2 H1 H2 (Hs E)).
Qed.
Print Assumptions C04_slots_disjoint.

(** The same with sub-databases: the prefixes and the element path are only determined together. *)
Theorem C05_slots_meet : forall sha3 k1 ps1 n1 lv1 e1 k2 ps2 n2 lv2 e2,
  Forall part_ok (n1 :: ps1 ++ lv1 ++ opt_list e1) -> Forall part_ok (n2 :: ps2 ++ lv2 ++ opt_list e2) ->
  (sha3 (slot_preimage k1 ps1 n1 lv1 e1) = sha3 (slot_preimage k2 ps2 n2 lv2 e2) ->
     slot_preimage k1 ps1 n1 lv1 e1 = slot_preimage k2 ps2 n2 lv2 e2) ->
  slot sha3 k1 ps1 n1 lv1 e1 = slot sha3 k2 ps2 n2 lv2 e2 ->
  k1 = k2 /\ n1 = n2 /\ ps1 ++ lv1 ++ opt_list e1 = ps2 ++ lv2 ++ opt_list e2.
Proof.
  exact (fun sha3 k1 ps1 n1 lv1 e1 k2 ps2 n2 lv2 e2 H1 H2 Hs E =>
           slot_preimage_inj k1 ps1 n1 lv1 e1 k2 ps2 n2 lv2 e2 H1 H2 (Hs E)).
Qed.
Print Assumptions C05_slots_meet.

(** ... and conversely, whatever the hash: only the concatenation of prefixes, levels and element matters. *)
Theorem C05_no_isolation : forall sha3 k name ps1 lv1 e1 ps2 lv2 e2,
  ps1 ++ lv1 ++ opt_list e1 = ps2 ++ lv2 ++ opt_list e2 ->
  slot sha3 k ps1 name lv1 e1 = slot sha3 k ps2 name lv2 e2.
Proof.
  intros sha3 k name ps1 lv1 e1 ps2 lv2 e2 E.
  change (sha3 (slot_preimage k ps1 name lv1 e1) = sha3 (slot_preimage k ps2 name lv2 e2)).
  rewrite !slot_preimage_eq. rewrite E. reflexivity.
Qed.
Print Assumptions C05_no_isolation.

(** So sub-databases do not isolate: for every hash, the length of [ArrayDB('a', db.get_sub_db(b'\x00'))] and element 0 of
    [ArrayDB('a', db)] share a slot. *)
Theorem C05_violated : forall sha3,
  slot sha3 KArray [[0]] [97] [] None = slot sha3 KArray [] [97] [] (Some [0]).
Proof. exact (fun sha3 => eq_refl). Qed.
Print Assumptions C05_violated.

(** In general: every element of a DictDB outside is an element or level of a same-named DictDB inside the
    sub-database named like the first key. *)
Theorem C05_violated_every_dict : forall sha3 name p e,
  slot sha3 KDict [p] name [] (Some e) = slot sha3 KDict [] name [p] (Some e).
Proof.
  intros sha3 name p e. change (sha3 (slot_preimage KDict [p] name [] (Some e)) = sha3 (slot_preimage KDict [] name [p] (Some e))).
  rewrite !slot_preimage_eq. reflexivity.
Qed.
Print Assumptions C05_violated_every_dict.

Example C04_case : Forall part_ok ([97] :: [] ++ opt_list (Some [0])) /\ Forall part_ok ([97] :: [[1]] ++ opt_list None).
Proof. split; repeat (constructor; [split; [repeat (constructor; [red; lia|]); constructor|reflexivity]|]); constructor. Qed.
