(** pyee/pyexec/database/batch.py and pyee/pyexec/base/block.py.  Keys of a batch are bytes and values bytes or
    [None], as [digest] requires ("items in data MUST be byte-like objects"). *)
From Verif Require Import Model.Bytes Model.Exn.

(** ** [OrderedDict]: distinct keys, in the order of their first insertion *)
Definition odict := list (bytes * option bytes).
Fixpoint od_get (d : odict) (k : bytes) : option (option bytes) :=
  match d with [] => None | (k', v) :: r => if bytes_eqb k' k then Some v else od_get r k end.
Fixpoint od_set (d : odict) (k : bytes) (v : option bytes) : odict :=
  match d with
  | [] => [(k, v)]
  | (k', v') :: r => if bytes_eqb k' k then (k', v) :: r else (k', v') :: od_set r k v
  end.
Definition od_update (d e : odict) : odict := fold_left (fun d kv => od_set d (fst kv) (snd kv)) e d.

(** ** batch.py:27-36 [digest] *)
Fixpoint digest_parts (d : odict) : list bytes :=
  match d with
  | [] => []
  | (k, Some v) :: r => k :: v :: digest_parts r
  | (k, None) :: r => k :: digest_parts r
  end.
Fixpoint join_bar (l : list bytes) : bytes := match l with [] => [] | [s] => s | s :: r => s ++ 124 :: join_bar r end.
Definition digest_input (d : odict) : bytes := join_bar (digest_parts d).
Definition digest (sha3 : bytes -> bytes) (d : odict) : bytes := sha3 (digest_input d).

(** ** batch.py:63-146 [TransactionBatch]: [_call_batches], the innermost first *)
Definition tbatch := list odict.
Definition new_batch : tbatch := [[]].
(** Lines 78-83: [None] if absent. *)
Fixpoint tb_find (b : tbatch) (k : bytes) : option (option bytes) :=
  match b with [] => None | d :: r => match od_get d k with Some v => Some v | None => tb_find r k end end.
Definition tb_getitem (b : tbatch) (k : bytes) : option bytes := match tb_find b k with Some v => v | None => None end.
(** Lines 92-97. *)
Definition tb_contains (b : tbatch) (k : bytes) : bool := existsb (fun d => match od_get d k with Some _ => true | None => false end) b.
(** Lines 99-102, 104-110. *)
Definition tb_iter (b : tbatch) : list bytes := flat_map (map fst) (rev b).
Definition tb_len (b : tbatch) : Z := fold_left (fun n d => n + Z.of_nat (length d)) b 0.
(** Lines 85-87, 112-126; an [IndexError] leaves the batches as they are at that point. *)
Inductive tb_op := OpSet (k : bytes) (v : option bytes) | OpEnter | OpRevert | OpLeave.
Definition tb_step (o : tb_op) (b : tbatch) : pyres tbatch :=
  match o, b with
  | OpSet k v, d :: r => Ok (od_set d k v :: r)
  | OpEnter, _ => Ok ([] :: b)
  | OpRevert, _ :: r => Ok ([] :: r)
  | OpLeave, d :: r =>
      match d with
      | [] => Ok r
      | _ => match r with p :: r' => Ok (od_update p d :: r') | [] => Exc (EPy KIndexError) end
      end
  | _, [] => Exc (EPy KIndexError)
  end.
Definition tb_run (ops : list tb_op) (b : tbatch) : pyres tbatch := fold_left (fun r o => res_bind r (tb_step o)) ops (Ok b).
(** Lines 128-132 [digest]. *)
Definition tb_digest (sha3 : bytes -> bytes) (b : tbatch) : pyres bytes :=
  match b with [d] => Ok (digest sha3 d) | _ => Exc (EIcon Database) end.

(** ** block.py *)
Record block := mk_block { b_height : Z; b_timestamp : Z; b_hash : option bytes; b_prev : option bytes }.
(** icon_constant.py [DEFAULT_BYTE_SIZE] *)
Definition SIZE : nat := 32.
(** [int.to_bytes(32, 'big')]: unsigned. *)
Definition to_bytes32 (v : Z) : pyres bytes := if (0 <=? v) && (v <? 256 ^ 32) then Ok (be_bytes SIZE v) else Exc (EPy KOverflow).
(** [struct.pack('32s', b)]: cut or filled with zeros to 32 bytes; an error if [b] is [None]. *)
Definition KStruct := 20.   (* struct.error *)
Definition pack32s (b : option bytes) : pyres bytes :=
  match b with Some bs => Ok (firstn SIZE (bs ++ repeat 0 SIZE)) | None => Exc (EPy KStruct) end.
(** Lines 118-139 [to_bytes]. *)
Definition block_to_bytes (b : block) : pyres bytes :=
  res_bind (to_bytes32 (b_height b)) (fun h =>
  res_bind (to_bytes32 (b_timestamp b)) (fun t =>
  res_bind (pack32s (b_hash b)) (fun hash =>
  res_bind (pack32s (Some (match b_prev b with Some p => p | None => repeat 0 SIZE end))) (fun p =>
  Ok (0 :: h ++ hash ++ t ++ p))))).
(** Lines 90-116 [from_bytes]: a [struct.error] unless there are 129 bytes. *)
Definition slice (bs : bytes) (i n : nat) : bytes := firstn n (skipn i bs).
Definition block_from_bytes (buf : bytes) : pyres block :=
  if negb (blen buf =? 129) then Exc (EPy KStruct)
  else
    let prev := slice buf 97 SIZE in
    Ok (mk_block (be_val (slice buf 1 SIZE)) (be_val (slice buf 65 SIZE)) (Some (slice buf 33 SIZE))
          (if be_val prev =? 0 then None else Some prev)).
