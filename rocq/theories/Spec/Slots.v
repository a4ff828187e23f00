(** What a storage slot is, seen from a SCORE: which container (kind and name), created in which
    sub-database, and which element of it. *)
From Verif Require Import Model.Bytes Model.DbKey.

(** Byte strings a Python program can pass as a key part: bytes below 256, length below 2^53 bytes. *)
Definition part_ok (b : bytes) : Prop := wf_bytes b /\ blen b < 2 ^ 53.

Inductive kind := KArray | KDict | KVar.

(** pyee/pyexec/iconscore/icon_container_db.py:27-29. *)
Definition kind_tag (k : kind) : bytes :=
  match k with KArray => ARRAY_DB_ID | KDict => DICT_DB_ID | KVar => VAR_DB_ID end.

(** [self.db.get_sub_db(p1).get_sub_db(p2)...]. *)
Definition sub_dbs (prefixes : list bytes) : score_db :=
  fold_left (fun db p => get_sub_db db p None) prefixes root_db.

(** icon_container_db.py:110, 169, 281: the constructor of a container; further levels of a nested DictDB
    are created by line 136 with the same tag argument. *)
Definition container_db (k : kind) (prefixes : list bytes) (name : bytes) (levels : list bytes) : score_db :=
  fold_left (fun db p => get_sub_db db p (Some (kind_tag k))) levels
            (get_sub_db (sub_dbs prefixes) name (Some (kind_tag k))).

(** The slot of an element ([None]: the length of an ArrayDB or the value of a VarDB). *)
Definition slot (sha3 : bytes -> bytes) (k : kind) (prefixes : list bytes) (name : bytes)
  (levels : list bytes) (elem : option bytes) : bytes :=
  hash_key sha3 (container_db k prefixes name levels) elem.

(** The bytes that are hashed for it. *)
Definition slot_preimage (k : kind) (prefixes : list bytes) (name : bytes)
  (levels : list bytes) (elem : option bytes) : bytes :=
  raw_key (container_db k prefixes name levels) elem.

Definition opt_list {A} (o : option A) : list A := match o with Some x => [x] | None => [] end.
