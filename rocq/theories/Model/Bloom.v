(** Bloom filters of event logs: pyee/pyexec/utils/bloom.py (a filter is the Python integer [value]) and
    service/txresult/logsbloom.go (a filter is its [big.Int]); the websocket event monitor server/wsevent.go.
    [sha3] is SHA3-256; a filter's [big.Int] is never negative. *)
From Verif Require Import Model.Bytes Model.Address.

Section WithHash.
Variable sha3 : bytes -> bytes.

(** ** bloom.py *)

(** Lines 14-17, a chunk being two bytes of the digest (so [chunk] is never shorter). *)
Definition py_chunks (h : bytes) : list bytes := [firstn 2 h; firstn 2 (skipn 2 h); firstn 2 (skipn 4 h)].
(** Lines 20-22. *)
Definition py_chunk_bits (chunk : bytes) : Z :=
  Z.shiftl 1 (Z.land (nth 1 chunk 0 + Z.shiftl (nth 0 chunk 0) 8) 2047).
(** Lines 25-29. *)
Definition py_bloom_bits (value : bytes) : list Z := map py_chunk_bits (py_chunks (sha3 value)).
(** Lines 41-45 [add], 47-49 [extend], 51-55 [from_iterable]. *)
Definition py_add (b : Z) (value : bytes) : Z := fold_left Z.lor (py_bloom_bits value) b.
Definition py_extend (b : Z) (values : list bytes) : Z := fold_left py_add values b.
Definition py_from_iterable (values : list bytes) : Z := py_extend 0 values.
(** Lines 57-64 [__contains__]. *)
Definition py_contains (b : Z) (value : bytes) : bool := forallb (fun bits => negb (Z.land b bits =? 0)) (py_bloom_bits value).
(** Lines 69-93 [__or__], [__add__], [__ior__], [__iadd__]. *)
Definition py_combine (a b : Z) : Z := Z.lor a b.

(** ** logsbloom.go *)

(** Lines 121-123 [addBit], 154-166 [addLog] (SHA256 is configured off); [BigEndian.Uint16]. *)
Definition go_addBit (lb : Z) (idx : Z) : Z := Z.setbit lb idx.
Definition go_u16 (h : bytes) (i : nat) : Z := 256 * nth i h 0 + nth (S i) h 0.
Definition go_addLog (lb : Z) (log : bytes) : Z :=
  let h := sha3 log in
  let add lb i := go_addBit lb (Z.land (go_u16 h (2 * i)) 2047) in
  add (add (add lb 0%nat) 1%nat) 2%nat.
(** Lines 140-145, 147-152; [copy] takes at most the 21 bytes of an address. *)
Definition go_AddAddressOfLog (lb : Z) (addr : bytes) : Z := go_addLog lb (255 :: addr).
Definition go_AddIndexedOfLog (lb : Z) (i : Z) (b : bytes) : Z := go_addLog lb (i mod 256 :: b).
(** Lines 125-138 [AddLog]; [None] is a nil item. *)
Fixpoint go_addItems (lb : Z) (i : Z) (items : list (option bytes)) : Z :=
  match items with
  | [] => lb
  | None :: r => go_addItems lb (i + 1) r
  | Some b :: r => go_addItems (go_AddIndexedOfLog lb i b) (i + 1) r
  end.
Definition go_AddLog (lb : Z) (addr : bytes) (indexed : list (option bytes)) : Z :=
  match indexed with [] => lb | _ => go_addItems (go_AddAddressOfLog lb addr) 0 indexed end.
(** Lines 75-87 [Merge]. *)
Definition go_Merge (lb lb2 : Z) : Z := Z.lor lb lb2.

(** [big.Int.Bits]: the 64-bit words from the least significant up, without leading zeros. *)
Definition WORD : Z := 2 ^ 64.
Definition n_words (x : Z) : nat := if x =? 0 then 0%nat else Z.to_nat (Z.log2 x / 64 + 1).
Fixpoint words_of (n : nat) (x : Z) : list Z := match n with O => [] | S n => x mod WORD :: words_of n (x / WORD) end.
Definition big_Bits (x : Z) : list Z := words_of (n_words x) x.
(** Lines 89-115 [Contain]. *)
Fixpoint contain_words (w1 w2 : list Z) : bool :=
  match w2 with
  | [] => true
  | y :: w2' =>
      match w1 with
      | [] => false
      | x :: w1' => if y =? 0 then contain_words w1' w2' else if negb (Z.land x y =? y) then false else contain_words w1' w2'
      end
  end.
Definition go_Contain (lb lb2 : Z) : bool :=
  if (length (big_Bits lb) <? length (big_Bits lb2))%nat then false else contain_words (big_Bits lb) (big_Bits lb2).

(** ** server/wsevent.go *)

(** A log of a receipt (its [Indexed()] is never empty: [Indexed()[0]] below). *)
Record event_log := mk_log { l_addr : bytes; l_indexed : list (option bytes); l_data : list (option bytes) }.

(** service/txresult/receipt.go:633-642: a receipt after its [AddLog]s; its bloom. *)
Definition receipt_bloom (logs : list event_log) : Z := fold_left (fun lb l => go_AddLog lb (l_addr l) (l_indexed l)) logs 0.
(** service/transition.go:766-784 (and 631-637): the block's bloom, from the receipts of the patch and then of the
    normal transactions. *)
Definition block_bloom (patch normal : list (list event_log)) : Z :=
  fold_left (fun lb r => go_Merge lb (receipt_bloom r)) (patch ++ normal) 0.

(** A filter with its arguments parsed by [EventDataStringToBytesByType], which never gives nil without an error;
    [None] is a null argument. *)
Record event_filter := mk_filter {
  f_addr : option bytes; f_signature : bytes; f_indexed : list (option bytes); f_data : list (option bytes)
}.
(** Lines 198-244 [EventFilter.Compile]: its bloom. *)
Definition filter_bloom (f : event_filter) : Z :=
  let lb := match f_addr f with Some a => go_AddAddressOfLog 0 a | None => 0 end in
  go_addItems (go_AddIndexedOfLog lb 0 (f_signature f)) 1 (f_indexed f).

(** Lines 248-256 [bytesEqual] and [bytes.Equal]. *)
Definition bytesEqual (a b : option bytes) : bool :=
  match a, b with None, None => true | Some x, Some y => bytes_eqb x y | _, _ => false end.
Definition raw (b : option bytes) : bytes := match b with Some x => x | None => [] end.
(** Lines 287-298: each given argument equals the item at its place. *)
Fixpoint args_match (args items : list (option bytes)) : bool :=
  match args with
  | [] => true
  | None :: r => args_match r (tl items)
  | a :: r => match items with x :: t => bytesEqual a x && args_match r t | [] => false end
  end.
(** Lines 273-304 [MatchLog]; [Address.Equal] compares the 21 bytes. *)
Definition MatchLog (f : event_filter) (l : event_log) : bool :=
  if bytes_eqb (f_signature f) (raw (hd None (l_indexed l))) then
    if match f_addr f with Some a => negb (bytes_eqb a (l_addr l)) | None => false end then false
    else if (0 <? length (f_indexed f) + length (f_data f))%nat then
      if (length (l_indexed l) <=? length (f_indexed f))%nat then false
      else if (length (l_data l) <? length (f_data f))%nat then false
      else args_match (f_indexed f) (tl (l_indexed l)) && args_match (f_data f) (l_data l)
    else true
  else false.

(** Lines 50-66 [FilteredByLogBloom]; [None] is a nil filter. *)
Definition FilteredByLogBloom (fs : list (option event_filter)) (lb : Z) : list (option event_filter) * bool :=
  let fs' := map (fun f => match f with Some f => if go_Contain lb (filter_bloom f) then Some f else None | None => None end) fs in
  (fs', existsb (fun f => match f with Some _ => true | None => false end) fs').
(** Lines 82-104 [filterEvents] and 68-80 [MatchEvents]: the numbers of the logs that some filter matches. *)
Definition some_match (fs : list (option event_filter)) (l : event_log) : bool :=
  existsb (fun f => match f with Some f => MatchLog f l | None => false end) fs.
Fixpoint matching_from (fs : list (option event_filter)) (idx : Z) (logs : list event_log) : list (Z * event_log) :=
  match logs with
  | [] => []
  | l :: r => if some_match fs l then (idx, l) :: matching_from fs (idx + 1) r else matching_from fs (idx + 1) r
  end.
Definition MatchEvents (fs : list (option event_filter)) (r : list event_log) : list (Z * event_log) :=
  let (fs', contained) := FilteredByLogBloom fs (receipt_bloom r) in
  if contained then matching_from fs' 0 r else [].
(** Lines 149-181: the notifications of a block, (receipt number, events); [lb] is the block's bloom. *)
Fixpoint notify_from (fs : list (option event_filter)) (index : Z) (rs : list (list event_log)) : list (Z * list (Z * event_log)) :=
  match rs with
  | [] => []
  | r :: t => match MatchEvents fs r with [] => notify_from fs (index + 1) t | es => (index, es) :: notify_from fs (index + 1) t end
  end.
Definition block_notifications (fs : list event_filter) (lb : Z) (normal : list (list event_log)) : list (Z * list (Z * event_log)) :=
  let (fs', contained) := FilteredByLogBloom (map Some fs) lb in
  if contained then notify_from fs' 0 normal else [].
End WithHash.
