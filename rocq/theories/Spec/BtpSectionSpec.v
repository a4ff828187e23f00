(** What the messages of a block should become. *)
From Verif Require Import Model.Bytes Model.IntCodec Model.Rlp Model.BtpMerkle Spec.BtpMerkleSpec Model.BtpSection.
From Coq Require Import Sorting.Sorted Sorting.Permutation.
Open Scope Z_scope.

(** Calls of the transactions of a block, in their order. *)
Inductive call := Send (nid : Z) (msg : bytes) | Ensure (nid : Z).
Definition network_of (c : call) : Z := match c with Send n _ => n | Ensure n => n end.
Definition do_call (e : entries) (c : call) : entries :=
  match c with Send n m => send e n m | Ensure n => ensure e n end.
Definition after (l : list call) : entries := fold_left do_call l [].
(** The messages sent to a network. *)
Definition sent_to (nid : Z) (l : list call) : list bytes :=
  flat_map (fun c => match c with Send n m => if n =? nid then [m] else [] | _ => [] end) l.

Definition ascending (l : list Z) : Prop := StronglySorted Z.lt l.

Section WithHash.
Variable H : bytes -> bytes -> bytes.
Variable pc_hash : bytes -> option bytes -> option (option bytes).

(** [s] is the section of a network that was called, of the network type [t]. *)
Definition comes_from (v : view) (l : list call) (t : Z) (s : section) : Prop :=
  exists nid nw nt, In nid (map network_of l) /\ v_network v nid = Some nw /\ nw_type nw = t /\ v_type v t = Some nt
    /\ s = new_section H nid nw (sent_to nid l) (nt_uid nt).

(** The sections of a block: sorted, those of the networks called and no others. *)
Definition sections_of (v : view) (l : list call) (out : list type_section) : Prop :=
  ascending (map nts_id out)
  /\ (forall c, In c l -> exists nw, v_network v (network_of c) = Some nw /\ In (nw_type nw) (map nts_id out))
  /\ (forall x, In x out ->
        nts_sections x <> [] /\ ascending (map ns_nid (nts_sections x))
        /\ (forall s, In s (nts_sections x) <-> comes_from v l (nts_id x) s)
        /\ nts_changed x = existsb context_changed (nts_sections x)
        /\ exists nt, v_type v (nts_id x) = Some nt /\ nts_uid x = nt_uid nt /\ pc_hash (nt_uid nt) (nt_next_pc nt) = Some (nts_pc x)
             /\ nts_root x = merkle_root (H (nt_uid nt)) (map ns_hash (nts_sections x))
             /\ nts_hash x = H (nt_uid nt) (type_section_bytes (nts_pc x) (nts_root x))).

(** What a receiver computes from a message and its proofs; it accepts the
    message if the validators signed the result. *)
Definition received_hash (h : bytes -> bytes) (src : bytes) (ntid height round : Z) (pc : option bytes)
    (nid update : Z) (prev : option bytes) (count : Z) (msg : bytes) (message_path section_path : path) : bytes :=
  let messages_root := climb h (h msg) message_path in
  let section_hash := h (section_bytes nid update prev count (Some messages_root)) in
  let sections_root := climb h section_hash section_path in
  h (decision_bytes src ntid height round (h (type_section_bytes pc (Some sections_root)))).
End WithHash.

(** Values that the code can hold. *)
Definition int64_range (z : Z) : Prop := - 2 ^ 63 <= z < 2 ^ 63.
Definition sane_hash (h : bytes -> bytes) : Prop := forall s, length (h s) = 32%nat /\ wf_bytes (h s).
Definition small_bytes (b : bytes) : Prop := wf_bytes b /\ blen b < 2 ^ 32.
Definition small_opt (b : option bytes) : Prop := match b with Some b => small_bytes b | None => True end.
Definition sane_network (nw : network) : Prop :=
  0 <= nw_next_sn nw < 2 ^ 62 /\ small_opt (nw_last nw).

(** The strings that are hashed for a section: its messages, the pairs of their tree, and its own bytes. *)
Definition hashed_for (h : bytes -> bytes) (s : section) (x : bytes) : Prop :=
  In x (ns_messages s) \/ in_tree h (cat_items (ns_hashes s)) x
  \/ x = section_bytes (ns_nid s) (ns_update s) (ns_prev s) (blen (cat_items (ns_hashes s))) (ns_root s).

(** No bucket has two values for a key. *)
Definition one_value (d : db) : Prop := forall b k v v', In (b, k, v) d -> In (b, k, v') d -> v = v'.

Definition network_digest_is (s : section) : network_digest := mk_nd (ns_nid s) (Some (ns_hash s)) (ns_root s).
Definition type_digest_is (x : type_section) : type_digest := mk_ntd (nts_id x) (nts_uid x) (Some (nts_hash x)) (map network_digest_is (nts_sections x)).
