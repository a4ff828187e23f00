(** Integer codecs of the executor (Python) and of the node (Go). *)
From Verif Require Import Model.Bytes.

(** CPython [int.bit_length]: bits of the absolute value, 0 for 0. Library function, not project code. *)
Definition bit_length (n : Z) : Z := if n =? 0 then 0 else Z.log2 (Z.abs n) + 1.

(** CPython [v.to_bytes(n, "big", signed=True)]; [None] is [OverflowError]. Library function. *)
Definition py_to_bytes_signed (v n : Z) : option bytes :=
  if (n =? 0) && (v =? 0) then Some []
  else if (1 <=? n) && (- 2 ^ (8 * n - 1) <=? v) && (v <? 2 ^ (8 * n - 1))
  then Some (be_bytes (Z.to_nat n) v) else None.

(** CPython [v.to_bytes(n, "big")] (unsigned); [None] is [OverflowError]. Library function. *)
Definition py_to_bytes_unsigned (v n : Z) : option bytes :=
  if (0 <=? n) && (0 <=? v) && (v <? 256 ^ n) then Some (be_bytes (Z.to_nat n) v) else None.

(** CPython [int.from_bytes(bs, "big", signed=True)]. Library function. *)
Definition py_from_bytes_signed (bs : bytes) : Z :=
  match bs with
  | [] => 0
  | b :: _ => if 128 <=? b then be_val bs - 256 ^ blen bs else be_val bs
  end.

(** pyee/pyexec/utils/__init__.py:35-36 [byte_length_of_int]; [n < 0] counts as 0 or 1. *)
Definition byte_length_of_int (n : Z) : Z :=
  (bit_length (n + (if n <? 0 then 1 else 0)) + 8) / 8.

(** pyee/pyexec/utils/__init__.py:26-28 [int_to_bytes]; also pyee/pyexec/ipc/proxy.py:28-30, which inlines
    the same length formula. *)
Definition int_to_bytes (v : Z) : option bytes :=
  py_to_bytes_signed v (byte_length_of_int v).

(** pyee/pyexec/utils/__init__.py:31-32 and pyee/pyexec/ipc/proxy.py:34-35 [bytes_to_int]. *)
Definition bytes_to_int (bs : bytes) : Z := py_from_bytes_signed bs.

(** Go [big.Int.Bytes]: minimal unsigned big-endian bytes of the absolute value. Library function. *)
Definition go_big_bytes (v : Z) : bytes :=
  be_bytes (Z.to_nat ((bit_length v + 7) / 8)) (Z.abs v).

(** common/intconv/bytes.go:14-33 [BigIntToBytes] (for a non-nil argument). *)
Definition go_BigIntToBytes (i : Z) : bytes :=
  if i =? 0 then [0]
  else if 0 <? i then
    let bl := bit_length i in
    if bl mod 8 =? 0 then repeat 0 (Z.to_nat (bl / 8 + 1 - blen (go_big_bytes i))) ++ go_big_bytes i
    else go_big_bytes i
  else
    let bl := bit_length (i + 1) in
    go_big_bytes (2 ^ ((bl + 8) / 8 * 8) + i).

(** common/intconv/bytes.go:35-43 [BigIntSetBytes]. *)
Definition go_BigIntSetBytes (bs : bytes) : Z :=
  let i := be_val bs in
  match bs with
  | [] => i
  | b :: _ => if negb (Z.land b 128 =? 0) then i - 2 ^ bit_length i else i
  end.

(** common/intconv/bytes.go:153-172 [Int64ToBytes]; [fuel] counts the 8 slots [idx = 7 .. 0]; [acc] is
    [bs[idx+1:]].  Go's [>>] on int64 is arithmetic. *)
Fixpoint go_i64_loop (fuel : nat) (v target : Z) (acc : bytes) : bytes :=
  match fuel with
  | O => acc
  | S f =>
      let acc' := Z.land v 255 :: acc in
      if Z.land v (-128) =? target then acc' else go_i64_loop f (Z.shiftr v 8) target acc'
  end.
Definition go_Int64ToBytes (v : Z) : bytes :=
  if v =? 0 then [0]
  else go_i64_loop 8 v (if v <? 0 then -128 else 0) [].

(** common/intconv/bytes.go:45-59 [Uint64ToBytes]; 9 slots. *)
Fixpoint go_u64_loop (fuel : nat) (v : Z) (acc : bytes) : bytes :=
  match fuel with
  | O => acc
  | S f =>
      let tv := Z.land v 255 in
      let acc' := tv :: acc in
      let v' := Z.shiftr v 8 in
      if (v' =? 0) && (Z.land tv 128 =? 0) then acc' else go_u64_loop f v' acc'
  end.
Definition go_Uint64ToBytes (v : Z) : bytes :=
  if v =? 0 then [0] else go_u64_loop 9 v [].

(** Two's complement wrap to int64 (Go conversion / arithmetic overflow). *)
Definition wrap64 (v : Z) : Z := (v + 2 ^ 63) mod 2 ^ 64 - 2 ^ 63.
(** Wrap to uint64. *)
Definition wrapu64 (v : Z) : Z := v mod 2 ^ 64.

(** common/intconv/bytes.go:124-143 [SafeBytesToInt64]; [None] is the [false] flag.  The accumulator is
    an int64, so the shift wraps. *)
Definition go_SafeBytesToInt64 (bs : bytes) : option Z :=
  match bs with
  | [] => Some 0
  | b0 :: _ =>
      if 8 <? blen bs then None
      else if negb (Z.land b0 128 =? 0)
      then Some (wrap64 (- fold_left (fun v b => wrap64 (Z.lor (Z.shiftl v 8) (Z.lxor b 255))) bs 0 - 1))
      else Some (fold_left (fun v b => wrap64 (Z.lor (Z.shiftl v 8) b)) bs 0)
  end.

(** common/intconv/bytes.go:76-93 [SafeBytesToUint64]; [None] is the [false] flag. *)
Definition go_SafeBytesToUint64 (bs : bytes) : option Z :=
  match bs with
  | [] => Some 0
  | b :: rest =>
      if b =? 0 then
        if 8 <? blen rest then None
        else Some (fold_left (fun v b => wrapu64 (Z.lor (Z.shiftl v 8) b)) rest 0)
      else if negb (Z.land b 128 =? 0) then None
      else if 8 <? blen bs then None
      else Some (fold_left (fun v b => wrapu64 (Z.lor (Z.shiftl v 8) b)) bs 0)
  end.

(** common/intconv/bytes.go:61-74 [SizeToBytes]; 8 slots. *)
Fixpoint go_size_loop (fuel : nat) (v : Z) (acc : bytes) : bytes :=
  match fuel with
  | O => acc
  | S f =>
      let acc' := Z.land v 255 :: acc in
      let v' := Z.shiftr v 8 in
      if v' =? 0 then acc' else go_size_loop f v' acc'
  end.
Definition go_SizeToBytes (v : Z) : bytes :=
  if v =? 0 then [0] else go_size_loop 8 v [].

(** common/intconv/bytes.go:110-122 [SafeBytesToSize64]; [None] is the [false] flag. *)
Definition go_SafeBytesToSize64 (bs : bytes) : option Z :=
  match bs with
  | [] => Some 0
  | _ => if 8 <? blen bs then None
         else Some (fold_left (fun v b => wrapu64 (Z.lor (Z.shiftl v 8) b)) bs 0)
  end.
