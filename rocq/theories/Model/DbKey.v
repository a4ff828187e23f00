(** Storage keys: the RLP-like part encoding, sub-databases and slot hashing. *)
From Verif Require Import Model.Bytes.

(** IEEE-754 binary64 rounding (round half to even) of the exact quotient [x / 256] followed by
    truncation, for [x >= 0].  A quotient is exact below 2^53; above, the low bits of [x] are rounded. *)
Definition float_round (x : Z) : Z :=
  let e := Z.log2 x - 52 in
  if e <=? 0 then x
  else
    let q := x / 2 ^ e in
    let r := x mod 2 ^ e in
    let h := 2 ^ (e - 1) in
    let q' := if (h <? r) || ((r =? h) && Z.odd q) then q + 1 else q in
    q' * 2 ^ e.
(** pyee/pyexec/database/db.py:42: [int(x / 256)].  Dividing by 256 only shifts the exponent, so the true
    quotient is rounded to 53 bits exactly as [x] is, then truncated. *)
Definition py_int_div256 (x : Z) : Z := float_round x / 256.

(** pyee/pyexec/database/db.py:38-42 [rlp_get_bytes]; Python recursion bounded here by [fuel] (8 suffices
    for any length below 2^53). *)
Fixpoint rlp_get_bytes_f (fuel : nat) (x : Z) : bytes :=
  match fuel with
  | O => []
  | S f => if x =? 0 then [] else rlp_get_bytes_f f (py_int_div256 x) ++ [x mod 256]
  end.
Definition rlp_get_bytes (x : Z) : bytes := rlp_get_bytes_f 128 x.

(** pyee/pyexec/database/db.py:28-35 [rlp_encode_bytes] (and 45-46 [get_encoded_key]). *)
Definition rlp_encode_bytes (b : bytes) : bytes :=
  let n := blen b in
  match b with
  | [x] => if x <? 128 then b else (n + 128) :: b
  | _ =>
      if n <=? 55 then (n + 128) :: b
      else let len_bytes := rlp_get_bytes n in
           (blen len_bytes + 128 + 55) :: len_bytes ++ b
  end.
Definition get_encoded_key (b : bytes) : bytes := rlp_encode_bytes b.

(** pyee/pyexec/database/db.py:49-50 [concat_encoded]: joins the arguments that are not [None]. *)
Definition concat_encoded (args : list (option bytes)) : bytes :=
  concat (map (fun a => match a with Some b => b | None => [] end) args).

(** pyee/pyexec/database/db.py:262-281 [IconScoreDatabase]: only the fields that form keys. *)
Record score_db := { db_tag : option bytes; db_prefix : option bytes }.

(** The database handed to a SCORE: no tag, no prefix
    (pyee/pyexec/iconscore/icon_score_mapper.py creates [IconScoreDatabase(address, context_db)]). *)
Definition root_db : score_db := {| db_tag := None; db_prefix := None |}.

(** pyee/pyexec/database/db.py:307-332 [get_sub_db] with a prefix that is not [None]. *)
Definition get_sub_db (db : score_db) (prefix : bytes) (tag : option bytes) : score_db :=
  let prefix := get_encoded_key prefix in
  match tag, db_tag db with
  | Some t, None =>
      {| db_tag := Some (concat_encoded [Some t; Some prefix]);
         db_prefix := match db_prefix db with
                      | Some p => Some (concat_encoded [Some p; None])
                      | None => None
                      end |}
  | _, _ =>
      {| db_tag := db_tag db;
         db_prefix := match db_prefix db with
                      | Some p => Some (concat_encoded [Some p; Some prefix])
                      | None => Some prefix
                      end |}
  end.

(** pyee/pyexec/database/db.py:356-365 [_hash_key], before hashing. *)
Definition raw_key (db : score_db) (key : option bytes) : bytes :=
  concat_encoded [db_tag db; db_prefix db;
                  match key with Some k => Some (get_encoded_key k) | None => None end].

(** pyee/pyexec/database/db.py:356-365 [_hash_key]; the hash is a parameter. *)
Definition hash_key (sha3 : bytes -> bytes) (db : score_db) (key : option bytes) : bytes :=
  sha3 (raw_key db key).

(** pyee/pyexec/iconscore/icon_container_db.py:27-29. *)
Definition ARRAY_DB_ID : bytes := [0].
Definition DICT_DB_ID : bytes := [1].
Definition VAR_DB_ID : bytes := [2].

(** common/containerdb/common.go:30-36 [rlpCountBytesForSize]. *)
Fixpoint go_count_loop (fuel : nat) (b cnt : Z) : Z :=
  match fuel with
  | O => cnt
  | S f => if 0 <? b then go_count_loop f (Z.shiftr b 8) (cnt + 1) else cnt
  end.
Definition go_rlpCountBytesForSize (b : Z) : Z := go_count_loop 64 (Z.shiftr b 8) 1.

(** common/containerdb/common.go:52-55: writes [blen] into [tslen] slots from the right. *)
Fixpoint go_fill (n : nat) (v : Z) (acc : bytes) : bytes :=
  match n with O => acc | S n' => go_fill n' (Z.shiftr v 8) (Z.land v 255 :: acc) end.

(** common/containerdb/common.go:38-58 [rlpEncodeBytes]; [byte(..)] truncates to 8 bits. *)
Definition go_rlpEncodeBytes (b : bytes) : bytes :=
  let n := blen b in
  match b with
  | [x] => if x <? 128 then b else (128 + n) mod 256 :: b
  | _ =>
      if n <=? 55 then (128 + n) mod 256 :: b
      else let ts := go_rlpCountBytesForSize n in
           (128 + 55 + ts) mod 256 :: go_fill (Z.to_nat ts) n [] ++ b
  end.

(** common/containerdb/common.go:90-118 [rlpReadSize] for [1 <= slen <= 8]; [None] is an error.  The
    shifts and ors build the big-endian value; [math.MaxInt] is [2^63-1] (64-bit build). *)
Definition go_rlpReadSize (b : bytes) (slen : Z) : option Z :=
  if blen b <? slen then None
  else
    let s := be_val (firstn (Z.to_nat slen) b) in
    if (s <? 56) || (nth 0 b 0 =? 0) || (2 ^ 63 - 1 <? s) then None else Some s.

(** common/containerdb/common.go:120-152 [rlpParseBytes]; [None] is an error (EOF included). *)
Definition go_rlpParseBytes (bs : bytes) : option (bytes * bytes) :=
  match bs with
  | [] => None
  | tag :: data =>
      if tag <? 128 then Some ([tag], data)
      else if tag <? 184 then
        let size := tag - 128 in
        if blen data <? size then None
        else Some (firstn (Z.to_nat size) data, skipn (Z.to_nat size) data)
      else if tag <? 192 then
        let ts := tag - 183 in
        match go_rlpReadSize data ts with
        | None => None
        | Some size =>
            let data := skipn (Z.to_nat ts) data in
            if blen data <? size then None
            else Some (firstn (Z.to_nat size) data, skipn (Z.to_nat size) data)
        end
      else None
  end.

(** common/containerdb/common.go:154-165 [SplitKeys]; each round consumes at least one byte, so the length
    of the input bounds the rounds. *)
Fixpoint go_SplitKeys_f (fuel : nat) (key : bytes) : option (list bytes) :=
  match key with
  | [] => Some []
  | _ =>
      match fuel with
      | O => None
      | S f =>
          match go_rlpParseBytes key with
          | None => None
          | Some (part, remain) =>
              match go_SplitKeys_f f remain with
              | None => None
              | Some keys => Some (part :: keys)
              end
          end
      end
  end.
Definition go_SplitKeys (key : bytes) : option (list bytes) := go_SplitKeys_f (length key) key.

(** common/containerdb/common.go:60-73 [AppendKeys], for keys already turned to bytes. *)
Definition go_AppendKeys (key : bytes) (keys : list bytes) : bytes :=
  key ++ concat (map go_rlpEncodeBytes keys).
