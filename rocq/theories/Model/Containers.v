(** SCORE containers: pyee/pyexec/iconscore/icon_container_db.py over pyee/pyexec/database/db.py:262-365. *)
From Verif Require Import Model.Bytes Model.IntCodec Model.DbKey Model.Utf8 Model.Exn Model.Monad Model.Address Model.Typed Model.EE.

(** The [value_type] argument of a container; [TyOther] is any other class. *)
Inductive vtype := TyInt | TyStr | TyAddress | TyBool | TyBytes | TyOther.

(** icon_container_db.py:33-48 [ContainerUtil.encode_key]; [isinstance(True, int)] holds. *)
Definition encode_key (key : pyval) : pyres bytes :=
  match key with
  | VInt z => lift_opt KOverflow (int_to_bytes z)
  | VBool b => lift_opt KOverflow (int_to_bytes (if b then 1 else 0))
  | VStr s => lift_opt KUnicode (utf8_encode s)
  | VAddr a => Ok (address_to_bytes a)
  | VBytes b => Ok b
  | _ => Exc (EIcon InvalidParams)
  end.

(** icon_container_db.py:50-64 [ContainerUtil.encode_value]. *)
Definition encode_value (value : pyval) : pyres bytes :=
  match value with
  | VInt z => lift_opt KOverflow (int_to_bytes z)
  | VBool b => lift_opt KOverflow (int_to_bytes (if b then 1 else 0))
  | VStr s => lift_opt KUnicode (utf8_encode s)
  | VAddr a => Ok (address_to_bytes a)
  | VBytes b => Ok b
  | _ => Exc (EIcon InvalidParams)
  end.

(** icon_container_db.py:85-92 [get_default_value]. *)
Definition get_default_value (ty : vtype) : pyval :=
  match ty with
  | TyInt => VInt 0
  | TyStr => VStr []
  | TyBool => VBool false
  | _ => VNone
  end.

(** icon_container_db.py:66-82 [ContainerUtil.decode_object]. *)
Definition decode_object (value : option bytes) (ty : vtype) : pyres pyval :=
  match value with
  | None => Ok (get_default_value ty)
  | Some b =>
      match ty with
      | TyInt => Ok (VInt (bytes_to_int b))
      | TyStr => res_bind (lift_opt KUnicode (utf8_decode b)) (fun s => Ok (VStr s))
      | TyAddress => res_bind (address_from_bytes b) (fun a => Ok (match a with Some a => VAddr a | None => VNone end))
      | TyBool => Ok (VBool (negb (bytes_to_int b =? 0)))
      | TyBytes => Ok (VBytes b)
      | TyOther => Ok VNone
      end
  end.

(** Python [type(item) == value_type]. *)
Definition type_is (v : pyval) (ty : vtype) : bool :=
  match v, ty with
  | VInt _, TyInt | VStr _, TyStr | VAddr _, TyAddress | VBool _, TyBool | VBytes _, TyBytes => true
  | _, _ => false
  end.

(** Python [e == item] where [e] was read from a container (icon_container_db.py:246): [bool] compares as the
    number it is; address.py:132-140 for addresses.  Lists and dictionaries differ from every such [e];
    [VOther] stands for an object without an [__eq__] of its own. *)
Definition py_eq (e item : pyval) : bool :=
  match e, item with
  | VInt a, VInt b => a =? b
  | VInt a, VBool b => a =? (if b then 1 else 0)
  | VBool a, VInt b => (if a then 1 else 0) =? b
  | VBool a, VBool b => Bool.eqb a b
  | VStr a, VStr b => bytes_eqb a b
  | VBytes a, VBytes b => bytes_eqb a b
  | VAddr a, VAddr b => bytes_eqb (address_to_bytes a) (address_to_bytes b)
  | VNone, VNone => true
  | _, _ => false
  end.

Section WithHash.
Context (sha3 : bytes -> bytes).

(** database/db.py:287-306, 334-353: [IconScoreDatabase.get], [put], [delete], [contains]. *)
Definition sdb_get (db : score_db) (key : option bytes) : M (option bytes) := db_get sha3 (hash_key sha3 db key).
Definition sdb_put (db : score_db) (key : option bytes) (value : bytes) : M unit := db_put sha3 (hash_key sha3 db key) value.
Definition sdb_delete (db : score_db) (key : option bytes) : M unit := db_delete sha3 (hash_key sha3 db key).
Definition sdb_contains (db : score_db) (value : bytes) : M bool :=
  db_contains sha3 (concat_encoded [db_tag db; db_prefix db]) value.

(** ** VarDB: icon_container_db.py:268-305 *)
Record var_db := mk_var { var_sdb : score_db; var_type : vtype }.
(** Lines 277-282. *)
Definition new_VarDB (var_key : pyval) (db : score_db) (ty : vtype) : pyres var_db :=
  res_bind (encode_key var_key) (fun k => Ok (mk_var (get_sub_db db k (Some VAR_DB_ID)) ty)).
(** Lines 284-291. *)
Definition var_set (d : var_db) (value : pyval) : M unit :=
  bv <- mlift (encode_value value) ;; sdb_put (var_sdb d) None bv.
(** Lines 293-299. *)
Definition var_get (d : var_db) : M pyval :=
  b <- sdb_get (var_sdb d) None ;; mlift (decode_object b (var_type d)).
(** Lines 301-305. *)
Definition var_remove (d : var_db) : M unit := sdb_delete (var_sdb d) None.

(** ** DictDB: icon_container_db.py:95-153 *)
Record dict_db := mk_dict { dict_sdb : score_db; dict_type : vtype; dict_depth : Z }.
(** Lines 105-112. *)
Definition new_DictDB (var_key : pyval) (db : score_db) (ty : vtype) (depth : Z) : pyres dict_db :=
  res_bind (encode_key var_key) (fun k => Ok (mk_dict (get_sub_db db k (Some DICT_DB_ID)) ty depth)).
(** Lines 122-129. *)
Definition dict_setitem (d : dict_db) (key value : pyval) : M unit :=
  if negb (dict_depth d =? 1) then mraise (EIcon InvalidContainerAccess)
  else k <- mlift (encode_key key) ;; v <- mlift (encode_value value) ;; sdb_put (dict_sdb d) (Some k) v.
(** Lines 131-136: a value, or the DictDB of the next level. *)
Definition dict_getitem (d : dict_db) (key : pyval) : M (pyval + dict_db) :=
  if dict_depth d =? 1
  then k <- mlift (encode_key key) ;; b <- sdb_get (dict_sdb d) (Some k) ;;
       v <- mlift (decode_object b (dict_type d)) ;; mret (inl v)
  else d' <- mlift (new_DictDB key (dict_sdb d) (dict_type d) (dict_depth d - 1)) ;; mret (inr d').
(** Lines 141-145. *)
Definition dict_contains (d : dict_db) (key : pyval) : M bool :=
  k <- mlift (encode_key key) ;; b <- sdb_get (dict_sdb d) (Some k) ;;
  mret (match b with Some _ => true | None => false end).
(** Lines 114-120, 138-139, 147-150. *)
Definition dict_remove (d : dict_db) (key : pyval) : M unit :=
  if negb (dict_depth d =? 1) then mraise (EIcon InvalidContainerAccess)
  else k <- mlift (encode_key key) ;; sdb_delete (dict_sdb d) (Some k).

(** ** ArrayDB: icon_container_db.py:156-265 *)
Record array_db := mk_array { arr_sdb : score_db; arr_type : vtype }.
(** Lines 165-170. *)
Definition new_ArrayDB (var_key : pyval) (db : score_db) (ty : vtype) : pyres array_db :=
  res_bind (encode_key var_key) (fun k => Ok (mk_array (get_sub_db db k (Some ARRAY_DB_ID)) ty)).
(** Lines 207-208 [__get_size]; decoding as [int] never raises. *)
Definition arr_get_size (d : array_db) : M Z :=
  b <- sdb_get (arr_sdb d) None ;;
  v <- mlift (decode_object b TyInt) ;;
  match v with VInt z => mret z | _ => mraise (EPy KTypeError) end.
(** Lines 210-212 [__set_size]. *)
Definition arr_set_size (d : array_db) (size : Z) : M unit :=
  bv <- mlift (encode_value (VInt size)) ;; sdb_put (arr_sdb d) None bv.
(** Lines 214-216 [__put]. *)
Definition arr_put_at (d : array_db) (index : Z) (value : pyval) : M unit :=
  bv <- mlift (encode_value value) ;;
  k <- mlift (encode_key (VInt index)) ;;
  sdb_put (arr_sdb d) (Some k) bv.
(** Lines 172-180. *)
Definition arr_put (d : array_db) (value : pyval) : M unit :=
  size <- arr_get_size d ;;
  arr_put_at d size value ;;;
  arr_set_size d (size + 1).
(** [isinstance(index, int)]. *)
Definition as_index (index : pyval) : option Z :=
  match index with VInt z => Some z | VBool b => Some (if b then 1 else 0) | _ => None end.
(** Lines 250-260 [_get]. *)
Definition arr_get_in (d : array_db) (size : Z) (index : pyval) : M pyval :=
  match as_index index with
  | None => mraise (EIcon InvalidParams)
  | Some index =>
      let index := if index <? 0 then index + size else index in
      if (0 <=? index) && (index <? size)
      then k <- mlift (encode_key (VInt index)) ;; b <- sdb_get (arr_sdb d) (Some k) ;; mlift (decode_object b (arr_type d))
      else mraise (EIcon InvalidParams)
  end.
(** Lines 198-205, 235-236. *)
Definition arr_getitem (d : array_db) (index : pyval) : M pyval :=
  size <- arr_get_size d ;; arr_get_in d size index.
(** Lines 224-233. *)
Definition arr_setitem (d : array_db) (index : pyval) (value : pyval) : M unit :=
  match as_index index with
  | None => mraise (EIcon InvalidParams)
  | Some index =>
      size <- arr_get_size d ;;
      let index := if index <? 0 then index + size else index in
      if (0 <=? index) && (index <? size) then arr_put_at d index value else mraise (EIcon InvalidParams)
  end.
(** Lines 182-196; [None] is returned for an empty array. *)
Definition arr_pop (d : array_db) : M pyval :=
  size <- arr_get_size d ;;
  (if size =? 0 then mret VNone
   else
     let index := size - 1 in
     last <- arr_getitem d (VInt index) ;;
     k <- mlift (encode_key (VInt index)) ;;
     sdb_delete (arr_sdb d) (Some k) ;;;
     arr_set_size d index ;;;
     mret last).
(** Lines 221-222 [__len__]; [len()] itself rejects a negative size ([ValueError]) and
    one beyond [sys.maxsize] ([OverflowError]). *)
Definition arr_len (d : array_db) : M Z :=
  size <- arr_get_size d ;;
  if size <? 0 then mraise (EPy KValueError) else if 2 ^ 63 <=? size then mraise (EPy KOverflow) else mret size.
(** Lines 218-219, 262-265: [list(array)]; [i] is the next index, [n] how many are left. *)
Fixpoint arr_iter_from (d : array_db) (size : Z) (n : nat) (i : Z) : M (list pyval) :=
  match n with
  | O => mret []
  | S n' => e <- arr_get_in d size (VInt i) ;; r <- arr_iter_from d size n' (i + 1) ;; mret (e :: r)
  end.
Definition arr_list (d : array_db) : M (list pyval) :=
  size <- arr_get_size d ;; arr_iter_from d size (Z.to_nat size) 0.
(** Lines 245-248: the search by iteration. *)
Fixpoint arr_search (d : array_db) (size : Z) (item : pyval) (n : nat) (i : Z) : M bool :=
  match n with
  | O => mret false
  | S n' => e <- arr_get_in d size (VInt i) ;; if py_eq e item then mret true else arr_search d size item n' (i + 1)
  end.
(** Lines 238-248 [__contains__]. *)
Definition arr_contains (d : array_db) (item : pyval) : M bool :=
  if type_is item (arr_type d)
  then sz <- arr_get_size d ;;
       (if sz =? 0 then mret false
        else bv <- mlift (encode_value item) ;; sdb_contains (arr_sdb d) bv)
  else size <- arr_get_size d ;; arr_search d size item (Z.to_nat size) 0.
End WithHash.
