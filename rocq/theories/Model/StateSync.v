(** Fetching a state by its hashes: common/merkle/builder.go, common/merkle/copy.go, common/db/layer_db.go, the [Resolve] methods of
    common/trie/ompt and of service/state.
    Simplified: locks; errors of the databases; the buckets of BTP lists, whose hashers have other names.  A trie's own bucket is that
    of the builder (the tries to fetch are made with [builder.Database()]: service/manager.go:849-880, service/sync2/syncer.go). *)
From Verif Require Import Model.Bytes Model.DbKey Model.Mpt.
Open Scope Z_scope.

(** common/db/bucket.go:16, 33-36, 50-70: the buckets with a hasher (both SHA3-256, under the same name) and the others. *)
Inductive bucket := MerkleTrie | BytesByHash | OtherBucket (id : bytes).
Definition bucket_eqb (a b : bucket) : bool :=
  match a, b with
  | MerkleTrie, MerkleTrie | BytesByHash, BytesByHash => true
  | OtherBucket x, OtherBucket y => bytes_eqb x y
  | _, _ => false
  end.
(** common/db/bucket.go:45-47 [Hasher]. *)
Definition has_hasher (b : bucket) : bool := match b with OtherBucket _ => false | _ => true end.

(** ** The database under the builder *)
Definition base := bucket -> bytes -> option bytes.
(** common/db/database.go [Bucket.Set] of a database that writes at once. *)
Definition base_set (d : base) (bk : bucket) (k v : bytes) : base :=
  fun b x => if bucket_eqb b bk && bytes_eqb x k then Some v else d b x.

(** common/db/layer_db.go:106-113 [layerDB]: the values set and not yet written, in the order of their last [Set]; [None]: no layer
    (builder.go:187-194 [NewBuilderWithRawDatabase]) or [flushed]. *)
Definition item := (bucket * bytes * bytes)%type.
Record store := mk_store { s_base : base; s_layer : option (list item) }.
Definition item_is (bk : bucket) (k : bytes) (i : item) : bool := bucket_eqb (fst (fst i)) bk && bytes_eqb (snd (fst i)) k.
Definition layer_find (l : list item) (bk : bucket) (k : bytes) : option bytes :=
  match find (item_is bk k) l with Some i => Some (snd i) | None => None end.
(** layer_db.go:42-52 [Get]. *)
Definition s_get (s : store) (bk : bucket) (k : bytes) : option bytes :=
  match s_layer s with
  | Some l => match layer_find l bk k with Some v => Some v | None => s_base s bk k end
  | None => s_base s bk k
  end.
(** layer_db.go:66-86 [Set]: a value set again moves to the back. *)
Definition s_set (s : store) (bk : bucket) (k v : bytes) : store :=
  match s_layer s with
  | Some l => mk_store (s_base s) (Some (filter (fun i => negb (item_is bk k i)) l ++ [(bk, k, v)]))
  | None => mk_store (base_set (s_base s) bk k v) None
  end.
(** layer_db.go:160-173: the values are written one by one, in the order of the list. *)
Definition write_items (d : base) (l : list item) : base :=
  fold_left (fun d i => base_set d (fst (fst i)) (snd (fst i)) (snd i)) l d.
(** layer_db.go:139-186 [Flush(write)]: dropped if [write] is false. *)
Definition s_flush (s : store) (write : bool) : store :=
  match s_layer s with
  | Some l => if write then mk_store (write_items (s_base s) l) None else mk_store (s_base s) (Some [])
  | None => s
  end.
(** The database on disk when the process dies after [n] writes of [Flush(true)]. *)
Definition s_crash (s : store) (n : nat) : base :=
  match s_layer s with
  | Some l => write_items (s_base s) (firstn n l)
  | None => s_base s
  end.

(** ** Who asks for data *)
(** The object type of a trie: byte strings, or accounts (service/state/world.go); mpt.go:121-142 [getObject]. *)
Inductive kind := KBytes | KAccount.
(** mpt.go:543-546 [nodeRequester]; contract.go:186-189 and objectgraph.go:151-155 (any data will do); apiinfo.go:113-120 (data that
    decodes). *)
Inductive asker := QNode (k : kind) | QBytes | QApi.
Definition ref := (asker * bytes)%type.
(** mpt.go:564, contract.go:198, objectgraph.go:143, apiinfo.go:105: the bucket named in the request. *)
Definition bucket_of (q : asker) : bucket := match q with QNode _ => MerkleTrie | _ => BytesByHash end.

(** builder.go:38-42 [request]: its key, its buckets and requesters. *)
Record request := mk_request { r_key : bytes; r_askers : list (bucket * asker) }.
(** builder.go:46-52 [merkleBuilder].  [hasherMap] is the list found by key; [onDataMark] is named by its key. *)
Record builder := mk_builder { b_store : store; b_requests : list request; b_mark : option bytes; b_resolved : nat }.
(** builder.go:182-194. *)
Definition new_builder (d : base) : builder := mk_builder (mk_store d (Some [])) [] None 0.
Definition raw_builder (d : base) : builder := mk_builder (mk_store d None) [] None 0.

(** builder.go:97, 142: the lookup in the map of requests. *)
Definition find_request (k : bytes) (l : list request) : option (list (bucket * asker)) :=
  match find (fun r => bytes_eqb (r_key r) k) l with Some r => Some (r_askers r) | None => None end.
Definition also (k : bytes) (a : bucket * asker) (l : list request) : list request :=
  map (fun r => if bytes_eqb (r_key r) k then mk_request (r_key r) (r_askers r ++ [a]) else r) l.
Definition drop_request (k : bytes) (l : list request) : list request := filter (fun r => negb (bytes_eqb (r_key r) k)) l.
(** container/list [InsertAfter]. *)
Fixpoint insert_after (mark : bytes) (x : request) (l : list request) : list request :=
  match l with
  | [] => [x]
  | r :: l' => if bytes_eqb (r_key r) mark then r :: x :: l' else r :: insert_after mark x l'
  end.

(** builder.go:126-159 [RequestData]; a nil key is the empty one. *)
Definition request_data (b : builder) (bk : bucket) (key : bytes) (q : asker) : builder :=
  match key with
  | [] => b
  | _ =>
      if negb (has_hasher bk) then b
      else match find_request key (b_requests b) with
           | Some _ => mk_builder (b_store b) (also key (bk, q) (b_requests b)) (b_mark b) (b_resolved b)
           | None =>
               let r := mk_request key [(bk, q)] in
               match b_mark b with
               | Some m => mk_builder (b_store b) (insert_after m r (b_requests b)) (Some key) (b_resolved b)
               | None => mk_builder (b_store b) (b_requests b ++ [r]) None (b_resolved b)
               end
           end
  end.

Section Sync.
(** SHA3-256; what an account snapshot refers to, in the order of account.go:429-453 [Resolve] ([None]: the bytes are not an account,
    account.go [Reset]); is it an API info, scoreapi [Info] (apiinfo.go:113-120). *)
Context (calcHash : bytes -> bytes) (account_refs : bytes -> option (list ref)) (api_ok : bytes -> bool).

(** mpt.go:554-570 [mpt.resolve] and 144-169 [realize]: is the node there; contract.go:191-204, objectgraph.go:136-149,
    apiinfo.go:95-111: no hash, or the value is there. *)
Definition known (s : store) (r : ref) : bool :=
  match fst r with
  | QNode _ => match s_get s MerkleTrie (snd r) with
               | Some v => match deserialize v with Some _ => true | None => false end
               | None => false
               end
  | _ => match snd r with
         | [] => true
         | _ => match s_get s BytesByHash (snd r) with Some _ => true | None => false end
         end
  end.
Definition want (b : builder) (r : ref) : builder :=
  if known (b_store b) r then b else request_data b (bucket_of (fst r)) (snd r) (fst r).

(** mpt.go:121-142 [getObject] and the object's [Resolve] (bytesobject.go:41-43: nothing).  What is asked for, and is it in order. *)
Definition value_refs (k : kind) (v : bytes) : list ref * bool :=
  match k with
  | KBytes => ([], true)
  | KAccount => match account_refs v with Some l => (l, true) | None => ([], false) end
  end.
(** A child that came with its parent is there: hash.go, mpt.go:554-570. *)
Definition child_refs (k : kind) (o : option node) : list ref :=
  match o with Some (NHash h) => [(QNode k, h)] | _ => [] end.
(** branch.go:367-387, extension.go:283-288, leaf.go:258-273 [resolve] (hash.go:108-111 panics). *)
Definition node_refs (k : kind) (n : node) : list ref * bool :=
  match n with
  | NLeaf _ v => value_refs k v
  | NExt _ next => (child_refs k (Some next), true)
  | NBranch cs v =>
      let (l, ok) := match v with Some v => value_refs k v | None => ([], true) end in
      (flat_map (child_refs k) cs ++ l, ok)
  | NHash _ => ([], false)
  end.
(** mpt.go:548-554, contract.go:186-189, objectgraph.go:151-155, apiinfo.go:113-120 [OnData]. *)
Definition refs_of (q : asker) (value : bytes) : list ref * bool :=
  match q with
  | QNode k => match deserialize value with Some n => node_refs k n | None => ([], false) end
  | QBytes => ([], true)
  | QApi => ([], api_ok value)
  end.

Inductive oerr := NoHasher | NoRequester | BadData.
(** builder.go:103-115: the requesters one after the other. *)
Fixpoint feed (rs : list (bucket * asker)) (key value : bytes) (b : builder) : builder * option oerr :=
  match rs with
  | [] => (b, None)
  | (bk, q) :: r =>
      let b1 := mk_builder (s_set (b_store b) bk key value) (b_requests b) (b_mark b) (b_resolved b) in
      let b2 := fold_left want (fst (refs_of q value)) b1 in
      if snd (refs_of q value) then feed r key value b2 else (b2, Some BadData)
  end.
(** builder.go:89-124 [OnData]. *)
Definition on_data (b : builder) (bid : bucket) (value : bytes) : builder * option oerr :=
  if negb (has_hasher bid) then (b, Some NoHasher)
  else
    let key := calcHash value in
    match find_request key (b_requests b) with
    | None => (b, Some NoRequester)
    | Some rs =>
        let (b1, e) := feed rs key value (mk_builder (b_store b) (b_requests b) (Some key) (b_resolved b)) in
        match e with
        | Some x => (mk_builder (b_store b1) (b_requests b1) None (b_resolved b1), Some x)
        | None => (mk_builder (b_store b1) (drop_request key (b_requests b1)) None (S (b_resolved b1)), None)
        end
    end.

(** builder.go:163-165 [UnresolvedCount]. *)
Definition unresolved (b : builder) : nat := length (b_requests b).

(** The [Resolve] calls that start it: mpt.go:537-541 and the like. *)
Definition start (b : builder) (roots : list ref) : builder := fold_left want roots b.

(** ** copy.go *)
Inductive rerr := NotFound | OnDataFailed (e : oerr) | OutOfRounds.
(** copy.go:54-67: the first bucket of the request that has the value. *)
Fixpoint lookup_source (src : base) (bks : list (bucket * asker)) (key : bytes) : option (bucket * bytes) :=
  match bks with
  | [] => None
  | (id, _) :: r => match src id key with Some v => Some (id, v) | None => lookup_source src r key end
  end.
(** copy.go:50-91: one round over the requests there were at its start (the iterator, builder.go:59-67, has moved on to the next one
    before new requests come in between).  A request that is gone when its turn comes - only if the source keeps data under a key
    that is not its hash - ends the round here. *)
Fixpoint copy_row (src : base) (keys : list bytes) (b : builder) : builder * option rerr :=
  match keys with
  | [] => (b, None)
  | k :: r =>
      match find_request k (b_requests b) with
      | None => (b, None)
      | Some bks =>
          match lookup_source src bks k with
          | None => (b, Some NotFound)
          | Some (id, v) =>
              match on_data b id v with
              | (b', Some e) => (b', Some (OnDataFailed e))
              | (b', None) => copy_row src r b'
              end
          end
      end
  end.
(** copy.go:45-93 [Run], with MaxNumberOfItemsToCopyInRow = 50; [fuel] bounds the rounds.  Without a progress callback. *)
Fixpoint run (fuel : nat) (src : base) (b : builder) : builder * option rerr :=
  match b_requests b with
  | [] => (b, None)
  | _ =>
      match fuel with
      | O => (b, Some OutOfRounds)
      | S f =>
          match copy_row src (firstn 50 (map r_key (b_requests b))) b with
          | (b', Some e) => (b', Some e)
          | (b', None) => run f src b'
          end
      end
  end.
End Sync.
