(** pyee/pyexec/ipc/proxy.py:277-359: typed values on the wire. *)
From Verif Require Import Model.Bytes Model.IntCodec Model.Utf8 Model.Exn Model.Address.

(** Python values a SCORE can return or pass.  [VOther] is any object of another class; a dictionary is
    its items in insertion order; a key that is not a [str] is [DKOther]. *)
Inductive dkey := DKStr (s : pystr) | DKOther.
Inductive pyval :=
| VNone
| VBool (b : bool)
| VInt (z : Z)
| VStr (s : pystr)
| VBytes (bs : bytes)
| VAddr (a : address)
| VList (l : list pyval)
| VTuple (l : list pyval)
| VDict (d : list (dkey * pyval))
| VOther.

(** ipc/proxy.py:145-155 [TypeTag]. *)
Definition T_NIL := 0. Definition T_DICT := 1. Definition T_LIST := 2. Definition T_BYTES := 3.
Definition T_STRING := 4. Definition T_BOOL := 5. Definition T_ADDRESS := 10. Definition T_INT := 11.

(** A typed object on the wire: [(tag, payload)].  A dictionary key is a [str] when sent and [str] or
    [bytes] when received. *)
Inductive wkey := WStr (s : pystr) | WBytes (bs : bytes).
Inductive typed :=
| TNil (tag : Z)
| TBin (tag : Z) (bs : bytes)
| TList (tag : Z) (l : list typed)
| TDict (tag : Z) (d : list (wkey * typed)).

Definition lift_opt {A} (k : Z) (o : option A) : pyres A :=
  match o with Some a => Ok a | None => Exc (EPy k) end.

(** A Python loop collecting results; the first exception ends it. *)
Definition map_res {A B} (f : A -> pyres B) : list A -> pyres (list B) :=
  fix go (l : list A) : pyres (list B) :=
    match l with
    | [] => Ok []
    | v :: r => res_bind (f v) (fun t => res_bind (go r) (fun ts => Ok (t :: ts)))
    end.

(** proxy.py:332-359 [encode_any] with pyexec.py:33-37 [EECodec.encode]. *)
Fixpoint encode_any (o : pyval) : pyres typed :=
  match o with
  | VNone => Ok (TNil T_NIL)
  | VDict d =>
      res_bind (map_res (fun kv => match kv with
                                   | (DKOther, _) => Exc (EPy KInvalidKey)
                                   | (DKStr k, v) => res_bind (encode_any v) (fun t => Ok (WStr k, t))
                                   end) d) (fun m => Ok (TDict T_DICT m))
  | VList l => res_bind (map_res encode_any l) (fun ts => Ok (TList T_LIST ts))
  | VTuple l => res_bind (map_res encode_any l) (fun ts => Ok (TList T_LIST ts))
  | VBytes bs => Ok (TBin T_BYTES bs)
  | VStr s => res_bind (lift_opt KUnicode (utf8_encode s)) (fun bs => Ok (TBin T_STRING bs))
  | VBool b => Ok (TBin T_BOOL (if b then [1] else [0]))
  | VInt z => res_bind (lift_opt KOverflow (int_to_bytes z)) (fun bs => Ok (TBin T_INT bs))
  | VAddr a => Ok (TBin T_ADDRESS (address_to_bytes a))
  | VOther => Exc (EPy KUnknownType)
  end.

(** proxy.py:277-292 [decode] with pyexec.py:39-43 [EECodec.decode]. *)
Definition decode (tag : Z) (val : bytes) : pyres pyval :=
  if tag =? T_BYTES then Ok (VBytes val)
  else if tag =? T_STRING then res_bind (lift_opt KUnicode (utf8_decode val)) (fun s => Ok (VStr s))
  else if tag =? T_INT then Ok (VInt (bytes_to_int val))
  else if tag =? T_BOOL then
    if bytes_eqb val [0] then Ok (VBool false)
    else if bytes_eqb val [1] then Ok (VBool true)
    else Exc (EPy KIllegalBool)
  else if tag =? T_ADDRESS then
    res_bind (address_from_bytes val) (fun a => Ok (match a with Some a => VAddr a | None => VNone end))
  else Exc (EPy KUnknownType).

(** Python [d[k] = v]: replaces in place or appends. *)
Fixpoint dict_set (k : pystr) (v : pyval) (d : list (dkey * pyval)) : list (dkey * pyval) :=
  match d with
  | [] => [(DKStr k, v)]
  | (DKStr k', v') :: r => if bytes_eqb k k' then (DKStr k', v) :: r else (DKStr k', v') :: dict_set k v r
  | (DKOther, v') :: r => (DKOther, v') :: dict_set k v r
  end.

(** proxy.py:320-321. *)
Definition decode_key (k : wkey) : pyres pystr :=
  match k with WStr s => Ok s | WBytes bs => lift_opt KUnicode (utf8_decode bs) end.

(** proxy.py:312-330 [decode_any]: the items are decoded in order, then entered into the new dictionary.  A payload of the wrong shape for its tag raises in Python (AttributeError
    or TypeError); modelled as [KTypeError]. *)
Fixpoint decode_any (t : typed) : pyres pyval :=
  match t with
  | TNil tag => if tag =? T_NIL then Ok VNone else Exc (EPy KTypeError)
  | TBin tag val =>
      if tag =? T_NIL then Ok VNone
      else if (tag =? T_DICT) || (tag =? T_LIST) then Exc (EPy KTypeError)
      else decode tag val
  | TList tag l =>
      if tag =? T_NIL then Ok VNone
      else if tag =? T_LIST then
        res_bind (map_res decode_any l) (fun xs => Ok (VList xs))
      else Exc (EPy KTypeError)
  | TDict tag d =>
      if tag =? T_NIL then Ok VNone
      else if tag =? T_DICT then
        res_bind (map_res (fun kv => match kv with
                    | (k, v) => res_bind (decode_key k) (fun s => res_bind (decode_any v) (fun x => Ok (s, x)))
                    end) d)
          (fun items => Ok (VDict (fold_left (fun obj kv => dict_set (fst kv) (snd kv) obj) items [])))
      else Exc (EPy KTypeError)
  end.
