(** pyee/pyexec/base/type_converter.py: the external (JSON) text form of values and back. *)
From Verif Require Import Model.Bytes Model.Utf8 Model.Exn Model.Address Model.Typed Model.ScoreClass.

(** ** Python's [hex] and [int].  Library functions. *)

(** [hex_digits k n]: the [k] low hexadecimal digits of [n], most significant first. *)
Fixpoint hex_digits (k : nat) (n : Z) : pystr :=
  match k with O => [] | S k => hex_digits k (n / 16) ++ [hex_digit (n mod 16)] end.
Definition hex_count (n : Z) : nat := Z.to_nat (Z.log2 n / 4 + 1).
(** [hex(n)]. *)
Definition py_hex_int (n : Z) : pystr :=
  (if n <? 0 then [45] else []) ++ [48; 120] ++ hex_digits (hex_count (Z.abs n)) (Z.abs n).

Section WithUnicode.
(** CPython first maps each character outside ASCII to an ASCII digit (Unicode decimal digits), to a space (Unicode
    white space) or to '?'.  The tables are not modelled: [uni] is any such map. *)
Context (uni : Z -> Z).
Definition to_ascii (s : pystr) : pystr := map (fun c => if c <? 127 then c else uni c) s.

Fixpoint strip_left (s : pystr) : pystr :=
  match s with c :: r => if is_ascii_space c then strip_left r else s | [] => [] end.
Definition strip (s : pystr) : pystr := rev (strip_left (rev (strip_left s))).

Definition digit_value (c : Z) : option Z :=
  if (48 <=? c) && (c <=? 57) then Some (c - 48)
  else if (97 <=? c) && (c <=? 122) then Some (c - 87)
  else if (65 <=? c) && (c <=? 90) then Some (c - 55)
  else None.
(** Digits with single underscores between them. *)
Fixpoint parse_digits (base acc : Z) (after_digit : bool) (s : pystr) : option Z :=
  match s with
  | [] => if after_digit then Some acc else None
  | c :: r =>
      if c =? 95 then (if after_digit then parse_digits base acc false r else None)
      else match digit_value c with
           | Some d => if d <? base then parse_digits base (acc * base + d) true r else None
           | None => None
           end
  end.
(** In base 16 a [0x] or [0X] prefix may come first, and one underscore after it. *)
Definition after_prefix (base : Z) (s : pystr) : pystr :=
  if base =? 16 then
    match s with
    | 48 :: x :: r => if (x =? 120) || (x =? 88) then match r with 95 :: r' => r' | _ => r end else s
    | _ => s
    end
  else s.
(** [int(s, base)] for base 10 or 16; [None] is [ValueError].  The limit on the number of decimal digits of newer
    CPython releases is not modelled. *)
Definition py_int_of (base : Z) (s : pystr) : option Z :=
  match strip (to_ascii s) with
  | 45 :: r => option_map Z.opp (parse_digits base 0 false (after_prefix base r))
  | 43 :: r => parse_digits base 0 false (after_prefix base r)
  | r => parse_digits base 0 false (after_prefix base r)
  end.

(** [s.startswith(p)]. *)
Definition starts_with (s p : pystr) : bool := bytes_eqb (firstn (length p) s) p.
Definition s_0x : pystr := [48; 120].
Definition s_m0x : pystr := [45; 48; 120].

(** ** Text to value *)

(** Lines 147-155 [_convert_value_int]. *)
Definition convert_value_int (v : pyval) : pyres Z :=
  match v with
  | VStr s =>
      if starts_with s s_0x || starts_with s s_m0x then lift_opt KValueError (py_int_of 16 s)
      else lift_opt KValueError (py_int_of 10 s)
  | _ => Exc (EIcon InvalidParams)
  end.
(** Lines 157-168 [_convert_value_hexadecimal]. *)
Definition convert_value_hexadecimal (v : pyval) : pyres Z :=
  match v with VStr s => lift_opt KValueError (py_int_of 16 s) | _ => Exc (EIcon InvalidParams) end.
(** Lines 170-175 [_convert_value_string]. *)
Definition convert_value_string (v : pyval) : pyres pystr :=
  match v with VStr s => Ok s | _ => Exc (EIcon InvalidParams) end.
(** Lines 177-182 [_convert_value_bool]. *)
Definition convert_value_bool (v : pyval) : pyres bool :=
  match v with
  | VStr s => res_bind (convert_value_int v) (fun n => Ok (negb (n =? 0)))
  | _ => Exc (EIcon InvalidParams)
  end.
(** Lines 184-189 [_convert_value_address]. *)
Definition convert_value_address (v : pyval) : pyres address :=
  match v with VStr s => address_from_string s | _ => Exc (EIcon InvalidParams) end.
(** Lines 191-202 [_convert_value_address_or_malformed_address]. *)
Definition convert_value_address_or_malformed (v : pyval) : pyres address :=
  match v with
  | VStr s => if is_icon_address_valid s then address_from_string s else malformed_from_string s
  | _ => Exc (EIcon InvalidParams)
  end.
(** Lines 204-212 [_convert_value_bytes]. *)
Definition convert_value_bytes (v : pyval) : pyres bytes :=
  match v with
  | VStr s => lift_opt KValueError (py_fromhex (if starts_with s s_0x then skipn 2 s else s))
  | _ => Exc (EIcon InvalidParams)
  end.

(** Lines 240-252 [_convert_data_value]. *)
Definition convert_data_value (t : option base) (v : pyval) : pyres pyval :=
  match t with
  | Some BInt => res_bind (convert_value_int v) (fun z => Ok (VInt z))
  | Some BStr => res_bind (convert_value_string v) (fun s => Ok (VStr s))
  | Some BBool => res_bind (convert_value_bool v) (fun b => Ok (VBool b))
  | Some BAddress => res_bind (convert_value_address v) (fun a => Ok (VAddr a))
  | Some BBytes => res_bind (convert_value_bytes v) (fun b => Ok (VBytes b))
  | None => Ok v
  end.

(** utils/__init__.py:64-79 [get_main_type_from_annotations_type], as far as [_convert_data_value] distinguishes the
    result; [typing.get_type_hints] has resolved string annotations. *)
Definition main_type (h : hint) : option base :=
  match h with HBase b => Some b | HUnion (HBase b :: _) => Some b | _ => None end.

Definition s_self : pystr := [115; 101; 108; 102].
Definition s_cls : pystr := [99; 108; 115].
(** [kw_params.get(key)]. *)
Fixpoint dict_get (k : pystr) (d : list (dkey * pyval)) : pyval :=
  match d with
  | [] => VNone
  | (DKStr k', v) :: r => if bytes_eqb k k' then v else dict_get k r
  | (DKOther, _) :: r => dict_get k r
  end.
(** Lines 224-238 [convert_data_params]; [kw_params[key] = kw_param] replaces in place. *)
Fixpoint convert_data_params (annotations : list (pystr * hint)) (kw : list (dkey * pyval)) : pyres (list (dkey * pyval)) :=
  match annotations with
  | [] => Ok kw
  | (key, h) :: r =>
      if bytes_eqb key s_self || bytes_eqb key s_cls then convert_data_params r kw
      else match dict_get key kw with
           | VNone => convert_data_params r kw
           | v => res_bind (convert_data_value (main_type h) v) (fun x => convert_data_params r (dict_set key x kw))
           end
  end.
End WithUnicode.

(** ** Value to text *)

(** Lines 273-279 [_convert_bytes_reverse]. *)
Definition convert_bytes_reverse (bs : bytes) (is_hash : bool) : pystr :=
  if is_hash then py_hex bs else s_0x ++ py_hex bs.
Definition s_blockHash : pystr := [98; 108; 111; 99; 107; 72; 97; 115; 104].
Definition s_txHash : pystr := [116; 120; 72; 97; 115; 104].
Definition s_prevBlockHash : pystr := [112; 114; 101; 118; 66; 108; 111; 99; 107; 72; 97; 115; 104].
Definition is_hash_key (k : dkey) : bool :=
  match k with
  | DKStr s => bytes_eqb s s_blockHash || bytes_eqb s s_txHash || bytes_eqb s s_prevBlockHash
  | DKOther => false
  end.
(** Lines 254-271 [convert_type_reverse]; [bool] is a subclass of [int], a tuple is neither list nor dict. *)
Fixpoint convert_type_reverse (v : pyval) : pyval :=
  match v with
  | VDict d => VDict (map (fun kv => match kv with
                                     | (k, VBytes bs) => (k, VStr (convert_bytes_reverse bs (is_hash_key k)))
                                     | (k, x) => (k, convert_type_reverse x)
                                     end) d)
  | VList l => VList (map convert_type_reverse l)
  | VInt z => VStr (py_hex_int z)
  | VBool b => VStr (py_hex_int (if b then 1 else 0))
  | VAddr a => VStr (address_str a)
  | VBytes bs => VStr (convert_bytes_reverse bs false)
  | _ => v
  end.
