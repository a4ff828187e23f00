(** pyee/pyexec/base/address.py: addresses and their text and byte forms. *)
From Verif Require Import Model.Bytes Model.IntCodec Model.Exn Model.Utf8.

(** address.py:59-67 [AddressPrefix], 91-114 [Address]. *)
Inductive address_prefix := EOA | CONTRACT.
Record address := mk_address { a_prefix : address_prefix; a_body : bytes }.

Definition ADDRESS_BODY_SIZE := 20.
Definition ADDRESS_BYTES_SIZE := 21.

(** address.py:95-114 [Address.__init__] with length validation. *)
Definition new_address (p : address_prefix) (body : bytes) : pyres address :=
  if blen body =? ADDRESS_BODY_SIZE then Ok (mk_address p body) else Exc (EIcon InvalidParams).

(** Characters as code points. *)
Definition ch_h := 104. Definition ch_c := 99. Definition ch_x := 120.
(** address.py:26-27. *)
Definition str_hx : pystr := [ch_h; ch_x].
Definition str_cx : pystr := [ch_c; ch_x].

(** Python [bytes.hex()]: two lower-case digits per byte. Library function. *)
Definition hex_digit (d : Z) : Z := if d <? 10 then 48 + d else 87 + d.
Fixpoint py_hex (bs : bytes) : pystr :=
  match bs with [] => [] | b :: r => hex_digit (b / 16) :: hex_digit (b mod 16) :: py_hex r end.

(** Digit value as in CPython's [bytes.fromhex] (upper case accepted). Library function. *)
Definition hex_value (c : Z) : option Z :=
  if (48 <=? c) && (c <=? 57) then Some (c - 48)
  else if (97 <=? c) && (c <=? 102) then Some (c - 87)
  else if (65 <=? c) && (c <=? 70) then Some (c - 55)
  else None.
Definition is_ascii_space (c : Z) : bool := (c =? 32) || ((9 <=? c) && (c <=? 13)).
(** CPython [bytes.fromhex]: ASCII white space between bytes is skipped; [None] is [ValueError]. *)
Fixpoint py_fromhex (s : pystr) : option bytes :=
  match s with
  | [] => Some []
  | c :: r =>
      if is_ascii_space c then py_fromhex r
      else match hex_value c, r with
           | Some h, d :: r' =>
               match hex_value d, py_fromhex r' with
               | Some l, Some bs => Some (16 * h + l :: bs)
               | _, _ => None
               end
           | _, _ => None
           end
  end.

Definition is_lower_hex (c : Z) : bool := ((48 <=? c) && (c <=? 57)) || ((97 <=? c) && (c <=? 102)).

(** pyee/pyexec/utils/__init__.py:39-52 [is_lowercase_hex_string]: the longest match of [[0-9a-f]+] at the
    start must be the whole string, and must exist. *)
Definition is_lowercase_hex_string (s : pystr) : bool :=
  match s with [] => false | _ => forallb is_lower_hex s end.

(** address.py:32-47 [is_icon_address_valid] and 50-56 [split_icon_address]. *)
Definition is_icon_address_valid (s : pystr) : bool :=
  if blen s =? 42 then
    let prefix := firstn 2 s in
    let body := skipn 2 s in
    if bytes_eqb prefix str_hx || bytes_eqb prefix str_cx then is_lowercase_hex_string body else false
  else false.

(** address.py:75-88 [AddressPrefix.from_string]. *)
Definition prefix_from_string (s : pystr) : pyres address_prefix :=
  if bytes_eqb s str_hx then Ok EOA
  else if bytes_eqb s str_cx then Ok CONTRACT
  else Exc (EIcon InvalidParams).

(** address.py:149-156 [Address.__str__]. *)
Definition address_str (a : address) : pystr :=
  (match a_prefix a with EOA => str_hx | CONTRACT => str_cx end) ++ py_hex (a_body a).

(** address.py:177-193 [Address.from_string]. *)
Definition address_from_string (s : pystr) : pyres address :=
  if is_icon_address_valid s then
    res_bind (prefix_from_string (firstn 2 s)) (fun p =>
      match py_fromhex (skipn 2 s) with
      | Some body => new_address p body
      | None => Exc (EPy KValueError)
      end)
  else Exc (EIcon InvalidParams).

(** address.py:69-73, 230-237 [to_bytes]: one prefix byte (0 or 1) then the body. *)
Definition prefix_byte (p : address_prefix) : Z := match p with EOA => 0 | CONTRACT => 1 end.
Definition address_to_bytes (a : address) : bytes := prefix_byte (a_prefix a) :: a_body a.

(** address.py:207-228 [Address.from_bytes]; [Ok None] is Python's [None]. *)
Definition address_from_bytes (buf : bytes) : pyres (option address) :=
  let n := blen buf in
  if negb ((n =? 20) || (n =? 21)) then Ok None
  else if n =? 20 then res_bind (new_address EOA buf) (fun a => Ok (Some a))
  else match buf with
       | 0 :: r => res_bind (new_address EOA r) (fun a => Ok (Some a))
       | 1 :: r => res_bind (new_address CONTRACT r) (fun a => Ok (Some a))
       | _ => Exc (EPy KValueError)
       end.

(** address.py:239-245 [from_prefix_and_int]. *)
Definition address_from_prefix_and_int (p : address_prefix) (num : Z) : pyres address :=
  match int_to_bytes num with
  | None => Exc (EPy KOverflow)
  | Some nb =>
      let zero_size := 20 - blen nb in
      if zero_size <? 0 then Exc (EIcon InvalidParams)
      else new_address p (repeat 0 (Z.to_nat zero_size) ++ nb)
  end.

(** address.py:248-279 [MalformedAddress.from_string]: no length check. *)
Definition malformed_from_string (s : pystr) : pyres address :=
  let body := if bytes_eqb (firstn 2 s) str_hx then skipn 2 s else s in
  match py_fromhex body with
  | Some b => Ok (mk_address EOA b)
  | None => Exc (EIcon InvalidParams)
  end.

(** Addresses the checked constructor can build. *)
Definition wf_address (a : address) : Prop := blen (a_body a) = 20 /\ wf_bytes (a_body a).
