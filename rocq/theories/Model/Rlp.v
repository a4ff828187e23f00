(** The codec of the node: RLP with a null.

    Models [common/codec/rlp.go] and the part of [common/codec/codec.go] which
    writes and reads values by their Go types.  Types are the ones below: no
    maps, no interfaces, no types with methods of their own (they are made of
    the same calls); an embedded struct is its fields.  A reader holds the
    bytes which the readers around it can still give, and how many of them its
    own list has ([limitReader]).  Errors are the end of the list, the null,
    and all others ([Bad]), after which nothing is read.  Memory is not
    limited. *)
From Verif Require Import Model.Bytes Model.IntCodec.
Open Scope Z_scope.

Inductive ty :=
| TBytes                     (* []byte *)
| TFix (n : nat)             (* [n]byte *)
| TBool
| TUint (w : Z)              (* uint8, uint16, uint32, uint64 *)
| TInt (w : Z)
| TBig                       (* big.Int *)
| TStr
| TPtr (t : ty)
| TSlice (t : ty)            (* of anything but bytes *)
| TArr (n : nat) (t : ty)
| TStruct (fs : list ty).

Inductive val :=
| VBytes (b : option bytes)  (* nil or not; also [n]byte and string, never nil *)
| VBool (b : bool)
| VNum (z : Z)
| VPtr (p : option val)
| VList (l : option (list val)).  (* slice; also array and struct, never nil *)

(** ** Writing *)

(** rlp.go:445-449, [writeNull]. *)
Definition write_null : bytes := [0xf8; 0].

(** rlp.go:451-482, [writeBytes] of what is not nil. *)
Definition write_bytes (b : bytes) : bytes :=
  let l := blen b in
  if l =? 0 then [0x80]
  else if (l =? 1) && (hd 0 b <? 0x80) then b
  else if l <=? 55 then (0x80 + l) mod 256 :: b
  else let sz := go_SizeToBytes l in
       (0x80 + 55 + blen sz) mod 256 :: sz ++ b.

(** rlp.go:484-507, [writeList]. *)
Definition write_list (b : bytes) : bytes :=
  let l := blen b in
  if l =? 0 then [0xc0]
  else if l <=? 55 then (0xc0 + l) mod 256 :: b
  else let sz := go_SizeToBytes l in
       (0xc0 + 55 + blen sz) mod 256 :: sz ++ b.

(** codec.go:268-345, [encodeValue], 206-231, [encodeArrayValue], 240-266,
    [encodeRecursiveFields]; rlp.go:519-543, [WriteValue]; codec.go:195-200,
    [*big.Int].  The parent's buffer of a list holds what its elements write. *)
Fixpoint enc (t : ty) (v : val) {struct t} : bytes :=
  match t, v with
  | TBytes, VBytes None => write_null
  | TBytes, VBytes (Some b) => write_bytes b
  | TFix _, VBytes (Some b) => write_bytes b
  | TStr, VBytes (Some b) => write_bytes b
  | TBool, VBool b => write_bytes [if b then 1 else 0]
  | TUint _, VNum z => write_bytes (go_Uint64ToBytes z)
  | TInt _, VNum z => write_bytes (go_Int64ToBytes z)
  | TBig, VNum z => write_bytes (go_BigIntToBytes z)
  | TPtr _, VPtr None => write_null
  | TPtr t, VPtr (Some v) => enc t v
  | TSlice _, VList None => write_null
  | TSlice t, VList (Some l) => write_list (flat_map (enc t) l)
  | TArr _ t, VList (Some l) => write_list (flat_map (enc t) l)
  | TStruct fs, VList (Some l) =>
      write_list
        ((fix fields (fs : list ty) (l : list val) {struct fs} : bytes :=
            match fs, l with
            | f :: fr, x :: lr => enc f x ++ fields fr lr
            | _, _ => []
            end) fs l)
  | _, _ => []
  end.

(** ** Reading *)

Inductive outcome (A : Type) := Got (a : A) | AtEnd | IsNil | Bad.
Arguments Got {A}. Arguments AtEnd {A}. Arguments IsNil {A}. Arguments Bad {A}.

(** rlp.go:23-26, 48-75.  The outermost reader has no limit: its [lim] is what
    there is. *)
Record reader := mkR { src : bytes; lim : Z; cap : Z }.

(** bytes.go:29-33, 77-88: [UnmarshalFromBytes]. *)
Definition reader_of (bs : bytes) : reader := mkR bs (blen bs) (blen bs).

(** [io.ReadFull] of the one byte of the tag. *)
Definition read_tag (r : reader) : outcome Z * reader :=
  if lim r <=? 0 then (AtEnd, r)
  else match src r with
       | [] => (Bad, r)
       | b :: s => (Got b, mkR s (lim r - 1) (cap r))
       end.

(** rlp.go:94-102, [readAll]. *)
Definition read_all (n : Z) (r : reader) : outcome bytes * reader :=
  if n <=? 0 then (Got [], r)
  else if (n <=? lim r) && (n <=? blen (src r))
  then (Got (firstn (Z.to_nat n) (src r)), mkR (skipn (Z.to_nat n) (src r)) (lim r - n) (cap r))
  else (Bad, r).

(** rlp.go:87-92, [readSize]; rlp.go:32-38, intconv/bytes.go:103-108. *)
Definition read_size (n : Z) (r : reader) : outcome Z * reader :=
  match read_all n r with
  | (Got bs, r') => match go_SafeBytesToSize64 bs with
                    | Some s => if s <=? 2 ^ 63 - 1 then (Got s, r') else (Bad, r')
                    | None => (Bad, r')
                    end
  | (_, r') => (Bad, r')
  end.

(** rlp.go:184-227, [readBytes]. *)
Definition read_bytes (r : reader) : outcome bytes * reader :=
  match read_tag r with
  | (Got tag, r1) =>
      if tag <? 0x80 then (Got [tag], r1)
      else if tag <=? 0xb7 then read_all (tag - 0x80) r1
      else if tag <? 0xc0 then
        match read_size (tag - 0xb7) r1 with
        | (Got n, r2) => if cap r <? n then (Bad, r2) else read_all n r2
        | (_, r2) => (Bad, r2)
        end
      else if tag =? 0xf8 then
        match read_size 1 r1 with
        | (Got n, r2) => if n =? 0 then (IsNil, r2) else (Bad, r2)
        | (_, r2) => (Bad, r2)
        end
      else (Bad, r1)
  | (AtEnd, r1) => (AtEnd, r1)
  | (_, r1) => (Bad, r1)
  end.

(** rlp.go:145-174, [readList]: the reader of the list, and the state of this
    one, behind the header. *)
Definition child (r : reader) (n : Z) : reader :=
  mkR (firstn (Z.to_nat (lim r)) (src r)) n (Z.min (cap r) n).

Definition read_list (r : reader) : outcome reader * reader :=
  match read_tag r with
  | (Got tag, r1) =>
      if tag <? 0xc0 then (Bad, r1)
      else if tag <=? 0xf7 then (Got (child r1 (tag - 0xc0)), r1)
      else match read_size (tag - 0xf7) r1 with
           | (Got n, r2) =>
               if (tag - 0xf7 =? 1) && (n =? 0) then (IsNil, r2)
               else (Got (child r2 n), r2)
           | (_, r2) => (Bad, r2)
           end
  | (AtEnd, r1) => (AtEnd, r1)
  | (_, r1) => (Bad, r1)
  end.

(** What the reader around the list has left, when the one of the list went
    from [c] to [c']: they share the bytes. *)
Definition behind (r c c' : reader) : reader :=
  let n := blen (src c) - blen (src c') in
  mkR (skipn (Z.to_nat n) (src r)) (lim r - n) (cap r).

(** rlp.go:319-322, [Close], by [flush], codec.go:411-417: the rest of the list
    is thrown away. *)
Definition close (c : reader) : outcome unit * reader :=
  if lim c <=? blen (src c)
  then (Got tt, mkR (skipn (Z.to_nat (lim c)) (src c)) 0 (cap c))
  else (Bad, c).

(** [reflect.Zero]. *)
Fixpoint zero (t : ty) : val :=
  match t with
  | TBytes => VBytes None
  | TFix n => VBytes (Some (repeat 0 n))
  | TStr => VBytes (Some [])
  | TBool => VBool false
  | TUint _ | TInt _ | TBig => VNum 0
  | TPtr _ => VPtr None
  | TSlice _ => VList None
  | TArr n t => VList (Some (repeat (zero t) n))
  | TStruct fs => VList (Some (map zero fs))
  end.

(** codec.go:546-557, [decodeNullableValue]. *)
Definition nullable (t : ty) (d : reader -> outcome val * reader) (r : reader) : outcome val * reader :=
  match d r with
  | (IsNil, r') => (Got (zero t), r')
  | x => x
  end.

(** codec.go:644-664: the elements of a slice, until the end of the list.
    [fuel]: an element is one byte or more. *)
Fixpoint elements (fuel : nat) (d : reader -> outcome val * reader) (c : reader)
  : outcome (list val) * reader :=
  match fuel with
  | O => (Bad, c)
  | S k => match d c with
           | (Got v, c') => match elements k d c' with
                            | (Got l, c'') => (Got (v :: l), c'')
                            | x => x
                            end
           | (AtEnd, c') => (Got [], c')
           | (_, c') => (Bad, c')
           end
  end.

(** codec.go:618-631: those of an array; the end of the list leaves the rest
    as it was. *)
Fixpoint slots (n : nat) (z : val) (d : reader -> outcome val * reader) (c : reader)
  : outcome (list val) * reader :=
  match n with
  | O => (Got [], c)
  | S k => match d c with
           | (Got v, c') => match slots k z d c' with
                            | (Got l, c'') => (Got (v :: l), c'')
                            | x => x
                            end
           | (AtEnd, c') => (Got (repeat z n), c')
           | (_, c') => (Bad, c')
           end
  end.

(** [reflect.Copy] to a new array. *)
Definition copied (n : nat) (b : bytes) : bytes := firstn n (b ++ repeat 0 n).

(** rlp.go:229-317, [ReadValue], of the bytes read. *)
Definition to_uint (w : Z) (b : bytes) : outcome val :=
  match go_SafeBytesToUint64 b with
  | Some z => if z <? 2 ^ w then Got (VNum z) else Bad
  | None => Bad
  end.

Definition to_int (w : Z) (b : bytes) : outcome val :=
  match go_SafeBytesToInt64 b with
  | Some z => if (- 2 ^ (w - 1) <=? z) && (z <? 2 ^ (w - 1)) then Got (VNum z) else Bad
  | None => Bad
  end.

Definition to_bool (b : bytes) : outcome val :=
  match go_SafeBytesToUint64 b with
  | Some z => if z =? 0 then Got (VBool false) else if z =? 1 then Got (VBool true) else Bad
  | None => Bad
  end.

Definition plain (conv : bytes -> outcome val) (r : reader) : outcome val * reader :=
  match read_bytes r with
  | (Got b, r') => (conv b, r')
  | (AtEnd, r') => (AtEnd, r')
  | (IsNil, r') => (IsNil, r')
  | (Bad, r') => (Bad, r')
  end.

(** A list: its header, what is inside, and the rest thrown away. *)
Definition listed (inside : reader -> outcome (list val) * reader) (r : reader)
  : outcome val * reader :=
  match read_list r with
  | (Got c, r1) =>
      match inside c with
      | (Got l, c1) => match close c1 with
                       | (Got _, c2) => (Got (VList (Some l)), behind r1 c c2)
                       | (_, c2) => (Bad, behind r1 c c2)
                       end
      | (AtEnd, c1) => (AtEnd, behind r1 c c1)
      | (IsNil, c1) => (IsNil, behind r1 c c1)
      | (Bad, c1) => (Bad, behind r1 c c1)
      end
  | (AtEnd, r1) => (AtEnd, r1)
  | (IsNil, r1) => (IsNil, r1)
  | (Bad, r1) => (Bad, r1)
  end.

(** codec.go:591-725, [decodeValue], 559-589, [decodeRecursiveFields]: a null
    in a field which cannot be null is an error of the whole struct, with the
    rest of the struct not read. *)
Fixpoint dec (t : ty) (r : reader) {struct t} : outcome val * reader :=
  match t with
  | TBytes => match read_bytes r with
              | (Got b, r') => (Got (VBytes (Some b)), r')
              | (IsNil, r') => (Got (VBytes None), r')
              | (AtEnd, r') => (AtEnd, r')
              | (Bad, r') => (Bad, r')
              end
  | TFix n => plain (fun b => Got (VBytes (Some (copied n b)))) r
  | TStr => plain (fun b => Got (VBytes (Some b))) r
  | TBool => plain to_bool r
  | TUint w => plain (to_uint w) r
  | TInt w => plain (to_int w) r
  | TBig => plain (fun b => Got (VNum (go_BigIntSetBytes b))) r
  | TPtr t => match dec t r with
              | (Got v, r') => (Got (VPtr (Some v)), r')
              | (IsNil, r') => (Got (VPtr None), r')
              | x => x
              end
  | TSlice t =>
      match listed (fun c => elements (S (length (src c))) (nullable t (dec t)) c) r with
      | (IsNil, r') => (Got (VList None), r')
      | x => x
      end
  | TArr n t => listed (fun c => slots n (zero t) (nullable t (dec t)) c) r
  | TStruct fs =>
      listed (fun c =>
        (fix fields (fs : list ty) (c : reader) {struct fs} : outcome (list val) * reader :=
           match fs with
           | [] => (Got [], c)
           | f :: fr =>
               match dec f c with
               | (Got v, c') =>
                   match fields fr c' with
                   | (Got l, c'') => (Got (v :: l), c'')
                   | x => x
                   end
               | (AtEnd, c') =>
                   match fields fr c' with
                   | (Got l, c'') => (Got (zero f :: l), c'')
                   | x => x
                   end
               | (IsNil, c') => (IsNil, c')
               | (Bad, c') => (Bad, c')
               end
           end) fs c) r
  end.

(** bytes.go:77-88, [UnmarshalFromBytes]: the value, and the bytes behind it. *)
Definition unmarshal (t : ty) (bs : bytes) : option (val * bytes) :=
  match dec t (reader_of bs) with
  | (Got v, r) => Some (v, src r)
  | _ => None
  end.

(** bytes.go:49-51, [Unmarshal] from a stream, of which [bs] is what will come;
    rlp.go:18, 570-575, [NewDecoder]. *)
Definition unmarshal_stream (t : ty) (bs : bytes) : option (val * bytes) :=
  match dec t (mkR bs (blen bs) 1000000) with
  | (Got v, r) => Some (v, src r)
  | _ => None
  end.
