(** How arguments bind to parameters in a Python call. *)
From Verif Require Import Model.Bytes Model.Utf8 Model.Exn Model.Address Model.Typed Model.ScoreClass Spec.TwosComplement.

(** The value of each parameter: the positional argument at its place, or else the keyword argument of its name, or
    else its default. *)
Definition bound (args : list pyval) (kw : list (pystr * pyval)) (i : nat) (p : param) (v : pyval) : Prop :=
  match nth_error args i with
  | Some a => v = a
  | None => match lookup (pa_name p) kw with Some k => v = k | None => pa_default p = Some v end
  end.
Definition all_bound (ps : list param) (args : list pyval) (kw : list (pystr * pyval)) (vs : list pyval) : Prop :=
  length vs = length ps /\ forall i p v, nth_error ps i = Some p -> nth_error vs i = Some v -> bound args kw i p v.

(** A Python call is well formed: not too many positional arguments, no parameter given twice, and every keyword
    names a parameter. *)
Definition call_ok (ps : list param) (args : list pyval) (kw : list (pystr * pyval)) : Prop :=
  (length args <= length ps)%nat /\
  (forall i p, nth_error ps i = Some p -> (i < length args)%nat -> lookup (pa_name p) kw = None) /\
  (forall k v, In (k, v) kw -> exists p, In p ps /\ pa_name p = k).
Definition python_call (ps : list param) (args : list pyval) (kw : list (pystr * pyval)) (vs : list pyval) : Prop :=
  call_ok ps args kw /\ all_bound ps args kw vs.

(** A value fits a parameter of an event: [None], or an instance of its type ([bool] being an [int]). *)
Definition fits (p : param) (v : pyval) : Prop :=
  match v with
  | VNone => True
  | VBool _ => pa_hint p = Some (HBase BBool) \/ pa_hint p = Some (HBase BInt)
  | VInt _ => pa_hint p = Some (HBase BInt)
  | VStr _ => pa_hint p = Some (HBase BStr)
  | VBytes _ => pa_hint p = Some (HBase BBytes)
  | VAddr _ => pa_hint p = Some (HBase BAddress) \/ pa_hint p = Some (HName STR_ADDRESS)
  | _ => False
  end.
(** The type names of a signature. *)
Definition type_text (p : param) : option pystr :=
  match pa_hint p with
  | Some (HBase b) => Some (base_name b)
  | Some (HName s) => Some s
  | _ => None
  end.

(** The item of an event that stands for a value.  Two's complement: [Spec.TwosComplement]. *)
Definition item (v : pyval) (o : option bytes) : Prop :=
  match v with
  | VNone => o = None
  | VBool b => o = Some [if b then 1 else 0]
  | VInt z => exists bs, o = Some bs /\ denotes bs z /\ forall bs', denotes bs' z -> blen bs <= blen bs'
  | VStr s => exists bs, o = Some bs /\ utf8_encode s = Some bs
  | VBytes bs => o = Some bs
  | VAddr a => o = Some (match a_prefix a with EOA => 0 | CONTRACT => 1 end :: a_body a)
  | _ => False
  end.
(** "Name(type1,type2,...)": [comma] puts commas between. *)
Definition comma (l : list pystr) : pystr := match l with [] => [] | s :: r => s ++ flat_map (fun t => 44 :: t) r end.
Definition signature_text (f : func) (sig : pystr) : Prop :=
  exists tys, Forall2 (fun p t => type_text p = Some t) (tl (fn_params f)) tys /\ sig = fn_name f ++ 40 :: comma tys ++ [41].
(** The size that is paid for. *)
Definition item_size (o : option bytes) : Z := match o with Some bs => blen bs | None => 0 end.
Definition items_size (l : list (option bytes)) : Z := fold_right Z.add 0 (map item_size l).
