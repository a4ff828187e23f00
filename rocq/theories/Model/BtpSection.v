(** The BTP section of a block: what the messages sent in a block become.

    Models [btp/builder.go], [btp/sectionbybuilder.go] and the reading back in
    [btp/digest.go] and [btp/digestfrombytes.go].  [H]: the hash function of a
    network type module, by its UID; unknown UIDs (a nil module) are not
    modelled.  [pc_hash]: the hash of a next proof context which is read from
    its bytes, or an error.  [sha3]: the hash of the digest.  Go maps are lists
    of their pairs in the order in which they are walked, which Go does not
    fix.  A database is the list of what was written, last first. *)
From Verif Require Import Model.Bytes Model.IntCodec Model.Rlp Model.BtpMerkle.
Open Scope Z_scope.

(** [sort.Search]: the least index in [lo, hi) of which [f] holds, if [f] goes
    from false to true.  [fuel]: the number of indices. *)
Fixpoint search (fuel : nat) (f : nat -> bool) (lo hi : nat) : nat :=
  match fuel with
  | O => lo
  | S k => if (lo <? hi)%nat
           then let h := Nat.div2 (lo + hi) in
                if f h then search k f lo h else search k f (S h) hi
           else lo
  end.
Definition sort_search (n : nat) (f : nat -> bool) : nat := search n f O n.

(** builder.go:118-130 and 152-164, [SortedInsert], of sections with these IDs;
    [append(s[:i+1], s[i:]...)], then [s[i] = x]. *)
Definition sorted_insert {A} (id : A -> Z) (l : list A) (x : A) : list A :=
  let i := sort_search (length l) (fun k => match nth_error l k with Some y => id x <=? id y | None => false end) in
  if Nat.eqb i (length l) then l ++ [x]
  else firstn i l ++ x :: skipn (S i) (firstn (S i) l ++ skipn i l).

(** builder.go:132-140 and 166-174, digest.go:189-197, [Search]: the place. *)
Definition find_id {A} (id : A -> Z) (l : list A) (n : Z) : option nat :=
  let i := sort_search (length l) (fun k => match nth_error l k with Some y => n <=? id y | None => false end) in
  match nth_error l i with
  | Some y => if id y =? n then Some i else None
  | None => None
  end.

(** What the state says of networks and network types (stateview.go). *)
Record network := mk_nw { nw_type : Z; nw_next_sn : Z; nw_changed : bool; nw_last : option bytes }.
Record network_type := mk_nt { nt_uid : bytes; nt_next_pc : option bytes }.
Record view := mk_view { v_network : Z -> option network; v_type : Z -> option network_type }.

(** sectionbybuilder.go:332-342 *)
Record section := mk_ns {
  ns_nid : Z; ns_update : Z; ns_prev : option bytes; ns_messages : list bytes;
  ns_hashes : bytes; ns_root : option bytes; ns_hash : bytes }.
(** sectionbybuilder.go:134-145 *)
Record type_section := mk_nts {
  nts_id : Z; nts_uid : bytes; nts_pc : option bytes; nts_sections : list section;
  nts_root : option bytes; nts_changed : bool; nts_hash : bytes }.

(** sectionbybuilder.go:371-377, 379-387, [networkSectionFormat]. *)
Definition section_ty : ty := TStruct [TInt 64; TInt 64; TBytes; TInt 64; TBytes].
Definition section_bytes (nid update : Z) (prev : option bytes) (count : Z) (root : option bytes) : bytes :=
  enc section_ty (VList (Some [VNum nid; VNum update; VBytes prev; VNum count; VBytes root])).
(** sectionbybuilder.go:172-182, [networkTypeSectionFormat]. *)
Definition type_section_ty : ty := TStruct [TBytes; TBytes].
Definition type_section_bytes (pc root : option bytes) : bytes :=
  enc type_section_ty (VList (Some [VBytes pc; VBytes root])).
(** sectionbybuilder.go:257-273, [networkTypeSectionDecision]. *)
Definition decision_ty : ty := TStruct [TBytes; TInt 64; TInt 64; TInt 32; TBytes].
Definition decision_bytes (src : bytes) (ntid height round : Z) (hash : bytes) : bytes :=
  enc decision_ty (VList (Some [VBytes (Some src); VNum ntid; VNum height; VNum round; VBytes (Some hash)])).

Section WithHash.
Variable H : bytes -> bytes -> bytes.
Variable pc_hash : bytes -> option bytes -> option (option bytes).
Variable sha3 : bytes -> bytes.

(** ** Building *)

(** The messages of each network so far: [networkEntries]. *)
Definition entries := list (Z * list bytes).

(** builder.go:54-61, [SendMessage]. *)
Fixpoint send (e : entries) (nid : Z) (msg : bytes) : entries :=
  match e with
  | [] => [(nid, [msg])]
  | (n, ms) :: r => if n =? nid then (n, ms ++ [msg]) :: r else (n, ms) :: send r nid msg
  end.
(** builder.go:63-68, [EnsureSection]. *)
Definition ensure (e : entries) (nid : Z) : entries :=
  if existsb (fun x => fst x =? nid) e then e else e ++ [(nid, [])].

(** sectionbybuilder.go:344-369, [newNetworkSection]. *)
Definition new_section (nid : Z) (nw : network) (messages : list bytes) (uid : bytes) : section :=
  let update := wrap64 (wrap64 (nw_next_sn nw - blen messages) * 2) in
  let update := if nw_changed nw then Z.lor update 1 else update in
  let hashes := concat (map (H uid) messages) in
  let root := merkle_root (H uid) (cat_items hashes) in
  mk_ns nid update (nw_last nw) messages hashes root
    (H uid (section_bytes nid update (nw_last nw) (blen (cat_items hashes)) root)).

(** sectionbybuilder.go:397-403 *)
Definition first_sn (s : section) : Z := Z.shiftr (ns_update s) 1.
Definition context_changed (s : section) : bool := Z.testbit (ns_update s) 0.

(** sectionbybuilder.go:147-170, [newNetworkTypeSection]. *)
Definition new_type_section (ntid : Z) (nt : network_type) (l : list section) (changed : bool) : option type_section :=
  match pc_hash (nt_uid nt) (nt_next_pc nt) with
  | None => None
  | Some pc =>
      let root := merkle_root (H (nt_uid nt)) (map ns_hash l) in
      Some (mk_nts ntid (nt_uid nt) pc l root changed (H (nt_uid nt) (type_section_bytes pc root)))
  end.

(** [nsMap] and [npcChanged]: by network type. *)
Definition by_type := list (Z * (list section * bool)).
Fixpoint into (m : by_type) (ntid : Z) (s : section) : by_type :=
  match m with
  | [] => [(ntid, ([s], context_changed s))]
  | (t, (l, c)) :: r => if t =? ntid then (t, (sorted_insert ns_nid l s, c || context_changed s)) :: r
                        else (t, (l, c)) :: into r ntid s
  end.

(** builder.go:77-92: the first loop of [Build], in the order of [e]. *)
Fixpoint collect (v : view) (e : entries) (m : by_type) : option by_type :=
  match e with
  | [] => Some m
  | (nid, ms) :: r =>
      match v_network v nid with
      | None => None
      | Some nw =>
          match v_type v (nw_type nw) with
          | None => None
          | Some nt => collect v r (into m (nw_type nw) (new_section nid nw ms (nt_uid nt)))
          end
      end
  end.

(** builder.go:93-104: the second loop. *)
Fixpoint assemble (v : view) (m : by_type) (out : list type_section) : option (list type_section) :=
  match m with
  | [] => Some out
  | (ntid, (l, c)) :: r =>
      match v_type v ntid with
      | None => None
      | Some nt =>
          match new_type_section ntid nt l c with
          | None => None
          | Some x => assemble v r (sorted_insert nts_id out x)
          end
      end
  end.

(** builder.go:74-106, [Build]: [e] and [shuffle] are the orders in which the
    two maps are walked. *)
Definition build (v : view) (e : entries) (shuffle : by_type -> by_type) : option (list type_section) :=
  match collect v e [] with
  | None => None
  | Some m => assemble v (shuffle m) []
  end.

(** sectionbybuilder.go:241-247, [NetworkSectionToRootWithMod]; digest.go:171-179. *)
Definition section_to_root (x : type_section) (nid : Z) : option path :=
  match find_id ns_nid (nts_sections x) nid with
  | Some i => Some (merkle_proof (H (nts_uid x)) (map ns_hash (nts_sections x)) i)
  | None => None
  end.

(** sectionbybuilder.go:275-294, [NewDecision], [Hash]. *)
Definition decision_hash (x : type_section) (src : bytes) (height round : Z) : bytes :=
  H (nts_uid x) (decision_bytes src (nts_id x) height round (nts_hash x)).

(** ** The digest *)

(** digestfrombytes.go:132-137, 170-174; sectionbybuilder.go:75-92, 306-330,
    454-460, [encodeDigest]. *)
Definition network_digest_ty : ty := TStruct [TInt 64; TBytes; TBytes].
Definition type_digest_ty : ty := TStruct [TInt 64; TStr; TBytes; TSlice network_digest_ty].
Definition digest_ty : ty := TStruct [TSlice type_digest_ty].
Definition network_digest_val (s : section) : val := VList (Some [VNum (ns_nid s); VBytes (Some (ns_hash s)); VBytes (ns_root s)]).
Definition type_digest_val (x : type_section) : val :=
  VList (Some [VNum (nts_id x); VBytes (Some (nts_uid x)); VBytes (Some (nts_hash x)); VList (Some (map network_digest_val (nts_sections x)))]).
Definition digest_bytes (l : list type_section) : option bytes :=
  match l with
  | [] => None
  | _ => Some (enc digest_ty (VList (Some [VList (Some (map type_digest_val l))])))
  end.
Definition digest_hash (l : list type_section) : option bytes := option_map sha3 (digest_bytes l).

(** The buckets: [BytesByHash] of the node, and two of each module. *)
Inductive bucket := Digests | Bytes_of (uid : bytes) | Lists_of (uid : bytes).
Definition bucket_eqb (a b : bucket) : bool :=
  match a, b with
  | Digests, Digests => true
  | Bytes_of x, Bytes_of y => bytes_eqb x y
  | Lists_of x, Lists_of y => bytes_eqb x y
  | _, _ => false
  end.
Definition db := list (bucket * bytes * bytes).
Definition db_get (d : db) (b : bucket) (k : bytes) : option bytes :=
  match find (fun x => bucket_eqb (fst (fst x)) b && bytes_eqb (snd (fst x)) k) d with
  | Some (_, v) => Some v
  | None => None
  end.

(** sectionbybuilder.go:429-452, [flushMessages] of a section. *)
Definition flush_section (uid : bytes) (s : section) (d : db) : db :=
  match ns_root s with
  | None => d
  | Some root =>
      fold_left (fun d x => (Bytes_of uid, fst x, snd x) :: d)
        (combine (cat_items (ns_hashes s)) (ns_messages s)) ((Lists_of uid, root, ns_hashes s) :: d)
  end.
(** sectionbybuilder.go:113-132, 296-304, [Flush]. *)
Definition flush (l : list type_section) (d : db) : db :=
  match digest_bytes l with
  | None => d
  | Some b => fold_left (fun d x => fold_left (fun d s => flush_section (nts_uid x) s d) (nts_sections x) d) l ((Digests, sha3 b, b) :: d)
  end.

(** ** Reading back *)

Record network_digest := mk_nd { nd_nid : Z; nd_hash : option bytes; nd_root : option bytes }.
Record type_digest := mk_ntd { ntd_id : Z; ntd_uid : bytes; ntd_hash : option bytes; ntd_networks : list network_digest }.
Definition network_digest_of (v : val) : network_digest :=
  match v with
  | VList (Some [VNum n; VBytes h; VBytes r]) => mk_nd n h r
  | _ => mk_nd 0 None None
  end.
Definition type_digest_of (v : val) : type_digest :=
  match v with
  | VList (Some [VNum n; VBytes (Some u); VBytes h; VList (Some l)]) => mk_ntd n u h (map network_digest_of l)
  | _ => mk_ntd 0 [] None []
  end.
(** digestfrombytes.go:69-96, [NewDigestFromHashAndBytes].  Of what is not
    valid: an error here; the code leaves out errors inside the list of
    networks (digest.go:219-227). *)
Definition read_digest (b : option bytes) : option (list type_digest) :=
  match b with
  | None => Some []
  | Some b => match unmarshal digest_ty b with
              | Some (VList (Some [VList (Some l)]), _) => Some (map type_digest_of l)
              | _ => None
              end
  end.
(** digest.go:58-70, 155-162: [NetworkTypeDigestFor], [NetworkDigestFor]. *)
Definition type_digest_for (l : list type_digest) (ntid : Z) : option type_digest :=
  match find_id ntd_id l ntid with Some i => nth_error l i | None => None end.
Definition network_digest_for (x : type_digest) (nid : Z) : option network_digest :=
  match find_id nd_nid (ntd_networks x) nid with Some i => nth_error (ntd_networks x) i | None => None end.
(** digest.go:72-81, [NetworkTypeIDFromNID]. *)
Definition type_of_network (l : list type_digest) (nid : Z) : option Z :=
  match find (fun x => existsb (fun n => nd_nid n =? nid) (ntd_networks x)) l with Some x => Some (ntd_id x) | None => None end.

(** digestfrombytes.go:193-215, [MessageList]: the hashes; a key that is nil or
    not there gives none. *)
Definition message_hashes (d : db) (uid : bytes) (n : network_digest) : bytes :=
  match nd_root n with
  | None => []
  | Some r => match db_get d (Lists_of uid) r with Some b => b | None => [] end
  end.
(** digest.go:299-322, [messageList.Get], for each index. *)
Definition read_messages (d : db) (uid : bytes) (n : network_digest) : list (option bytes) :=
  map (db_get d (Bytes_of uid)) (cat_items (message_hashes d uid n)).
(** sectionfromdigest.go:164-183, 193-199: the section of a digest in the state after the block. *)
Definition read_update (d : db) (uid : bytes) (nw : network) (n : network_digest) : Z :=
  let update := wrap64 (wrap64 (nw_next_sn nw - blen (cat_items (message_hashes d uid n))) * 2) in
  if nw_changed nw then Z.lor update 1 else update.

End WithHash.
