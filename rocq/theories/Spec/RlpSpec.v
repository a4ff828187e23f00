(** The values of the Go types, and which of the types have a nil of their own. *)
From Verif Require Import Model.Bytes Model.IntCodec Model.Rlp.
Open Scope Z_scope.

Definition has_nil (t : ty) : bool :=
  match t with TBytes | TPtr _ | TSlice _ => true | _ => false end.

(** [v] is a value of the type [t]; a pointer is to a type without a nil of its
    own. *)
Inductive has : ty -> val -> Prop :=
| has_bytes_nil : has TBytes (VBytes None)
| has_bytes b : wf_bytes b -> has TBytes (VBytes (Some b))
| has_fix n b : wf_bytes b -> length b = n -> has (TFix n) (VBytes (Some b))
| has_str b : wf_bytes b -> has TStr (VBytes (Some b))
| has_bool b : has TBool (VBool b)
| has_uint w z : In w [8; 16; 32; 64] -> 0 <= z < 2 ^ w -> has (TUint w) (VNum z)
| has_int w z : In w [8; 16; 32; 64] -> - 2 ^ (w - 1) <= z < 2 ^ (w - 1) -> has (TInt w) (VNum z)
| has_big z : has TBig (VNum z)
| has_ptr_nil t : has_nil t = false -> has (TPtr t) (VPtr None)
| has_ptr t v : has_nil t = false -> has t v -> has (TPtr t) (VPtr (Some v))
| has_slice_nil t : has (TSlice t) (VList None)
| has_slice t l : Forall (has t) l -> has (TSlice t) (VList (Some l))
| has_arr n t l : length l = n -> Forall (has t) l -> has (TArr n t) (VList (Some l))
| has_struct fs l : Forall2 has fs l -> has (TStruct fs) (VList (Some l)).

(** The types meant: a pointer is to a type without a nil of its own, and the
    numbers are those of Go. *)
Fixpoint proper (t : ty) : Prop :=
  match t with
  | TPtr t => has_nil t = false /\ proper t
  | TSlice t | TArr _ t => proper t
  | TStruct fs => fold_right (fun f p => proper f /\ p) True fs
  | TUint w | TInt w => In w [8; 16; 32; 64]
  | _ => True
  end.

(** No byte string in the value, nor the bytes of a number, is longer than [c]. *)
Fixpoint within (c : Z) (v : val) : Prop :=
  match v with
  | VBytes (Some b) => blen b <= c
  | VNum z => blen (go_BigIntToBytes z) <= c
  | VBool _ => 1 <= c
  | VPtr (Some v) => within c v
  | VList (Some l) => fold_right (fun x p => within c x /\ p) True l
  | _ => True
  end.

(** The zero value of a type in Go. *)
Fixpoint zero_value (t : ty) : val :=
  match t with
  | TBytes => VBytes None
  | TFix n => VBytes (Some (repeat 0 n))
  | TStr => VBytes (Some [])
  | TBool => VBool false
  | TUint _ | TInt _ | TBig => VNum 0
  | TPtr _ => VPtr None
  | TSlice _ => VList None
  | TArr n t => VList (Some (repeat (zero_value t) n))
  | TStruct fs => VList (Some (map zero_value fs))
  end.
