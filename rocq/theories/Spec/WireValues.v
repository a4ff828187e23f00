(** Which values are meant to survive the wire, and what the wire may do to them. *)
From Verif Require Import Model.Bytes Model.Utf8 Model.Address Model.Typed.

(** Values built from None, bool, int, str (no lone surrogates), bytes, Address, lists, tuples and
    dictionaries with distinct [str] keys. *)
Inductive wire_value : pyval -> Prop :=
| wv_none : wire_value VNone
| wv_bool b : wire_value (VBool b)
| wv_int z : wire_value (VInt z)
| wv_str s : valid_str s -> wire_value (VStr s)
| wv_bytes bs : wf_bytes bs -> wire_value (VBytes bs)
| wv_addr a : wf_address a -> wire_value (VAddr a)
| wv_list l : Forall wire_value l -> wire_value (VList l)
| wv_tuple l : Forall wire_value l -> wire_value (VTuple l)
| wv_dict d : Forall (fun kv => exists s, fst kv = DKStr s /\ valid_str s) d -> Forall (fun kv => wire_value (snd kv)) d ->
    NoDup (map fst d) -> wire_value (VDict d).

(** Equal up to tuples having become lists. *)
Inductive same : pyval -> pyval -> Prop :=
| same_refl v : same v v
| same_list l l' : Forall2 same l l' -> same (VList l) (VList l')
| same_tuple l l' : Forall2 same l l' -> same (VTuple l) (VList l')
| same_dict d d' : Forall2 (fun a b => fst a = fst b /\ same (snd a) (snd b)) d d' -> same (VDict d) (VDict d').

(** What the transport may do: deliver a [str] key as [str] or as its UTF-8 bytes; nothing else changes.
    [wire a b]: [a] was sent, [b] arrives. *)
Inductive wire_key : wkey -> wkey -> Prop :=
| wk_same k : wire_key k k
| wk_bytes s bs : utf8_encode s = Some bs -> wire_key (WStr s) (WBytes bs).
Inductive wire : typed -> typed -> Prop :=
| w_nil t : wire (TNil t) (TNil t)
| w_bin t bs : wire (TBin t bs) (TBin t bs)
| w_list t l l' : Forall2 wire l l' -> wire (TList t l) (TList t l')
| w_dict t d d' : Forall2 (fun a b => wire_key (fst a) (fst b) /\ wire (snd a) (snd b)) d d' ->
    wire (TDict t d) (TDict t d').
