(** SCORE classes: decorators, flag checks, signatures and the dispatch of a call.
    pyee/pyexec/iconscore/icon_score_base.py, icon_score_constant.py, typing/element.py, typing/__init__.py. *)
From Verif Require Import Model.Bytes Model.Utf8 Model.Exn Model.Address Model.Typed.

(** icon_score_constant.py:39-54 [ScoreFlag]. *)
Definition READONLY := 1. Definition EXTERNAL := 2. Definition PAYABLE := 4. Definition FALLBACK := 8.
Definition ISOLATED := 16. Definition FUNC := 255. Definition EVENTLOG := 256. Definition INTERFACE := 512.
Definition ALL := 65535.

(** utils/__init__.py:82-87 [is_any_flag_on], [is_all_flag_on]. *)
Definition any_flag_on (flags f : Z) : bool := negb (Z.land flags f =? 0).
Definition all_flag_on (flags f : Z) : bool := Z.land flags f =? f.

Fixpoint str_eqb (a b : pystr) : bool :=
  match a, b with
  | [], [] => true
  | x :: a', y :: b' => (x =? y) && str_eqb a' b'
  | _, _ => false
  end.
Fixpoint str_prefix (p s : pystr) : bool :=
  match p, s with
  | [], _ => true
  | x :: p', y :: s' => (x =? y) && str_prefix p' s'
  | _ :: _, [] => false
  end.

(** "fallback", "on_install", "on_update", "self", "Address", "__" *)
Definition STR_FALLBACK : pystr := [102; 97; 108; 108; 98; 97; 99; 107].
Definition STR_ON_INSTALL : pystr := [111; 110; 95; 105; 110; 115; 116; 97; 108; 108].
Definition STR_ON_UPDATE : pystr := [111; 110; 95; 117; 112; 100; 97; 116; 101].
Definition STR_SELF : pystr := [115; 101; 108; 102].
Definition STR_ADDRESS : pystr := [65; 100; 100; 114; 101; 115; 115].
Definition STR_DUNDER : pystr := [95; 95].

(** ** Type hints *)

(** typing/__init__.py:28 [BASE_TYPES]. *)
Inductive base := BBool | BInt | BStr | BBytes | BAddress.
(** A type annotation.  [HName s] is the string [s]; [HStruct id fields] a [TypedDict] class with its identity;
    [HList args] is [list] or [List[..]] with its arguments; [HOther] anything the code does not recognise
    (forward references included). *)
Inductive hint :=
| HBase (b : base)
| HName (s : pystr)
| HStruct (id : Z) (fields : list (pystr * hint))
| HList (args : list hint)
| HDict
| HUnion (args : list hint)
| HNoneType
| HOther.

(** [inspect.Parameter]: [pa_plain] is kind POSITIONAL_OR_KEYWORD. *)
Record param := mk_param { pa_name : pystr; pa_plain : bool; pa_hint : option hint; pa_default : option pyval }.

(** A function object of a class body with its decorations: [fn_name] its [__name__], [fn_flags] and [fn_indexed]
    the attributes [__score_flag] and [__indexed_args_count], [fn_abstract] whether it has [__isabstractmethod__]. *)
Record func := mk_func {
  fn_name : pystr; fn_params : list param; fn_ret : option hint; fn_abstract : bool;
  fn_flags : Z; fn_indexed : option Z
}.
Definition set_flags (f : func) (fl : Z) : func := mk_func (fn_name f) (fn_params f) (fn_ret f) (fn_abstract f) fl (fn_indexed f).
Definition set_indexed (f : func) (n : Z) : func := mk_func (fn_name f) (fn_params f) (fn_ret f) (fn_abstract f) (fn_flags f) (Some n).

(** ** Decorators: icon_score_base.py:59-332 *)

(** icon_score_base.py:158-187 [__retrieve_event_signature]: the type names, for the parameters after the first. *)
Definition base_name (b : base) : pystr :=
  match b with
  | BBool => [98; 111; 111; 108]
  | BInt => [105; 110; 116]
  | BStr => [115; 116; 114]
  | BBytes => [98; 121; 116; 101; 115]
  | BAddress => STR_ADDRESS
  end.
Definition event_type (p : param) : pyres base :=
  match pa_hint p with
  | Some (HBase b) => Ok b
  | Some (HName s) => if str_eqb s STR_ADDRESS then Ok BAddress else Exc (EIcon IllegalFormat)
  | _ => Exc (EIcon IllegalFormat)
  end.
Fixpoint join_comma (l : list pystr) : pystr :=
  match l with [] => [] | [s] => s | s :: r => s ++ 44 :: join_comma r end.
Definition event_signature (f : func) : pyres pystr :=
  res_bind (map_res event_type (tl (fn_params f)))
    (fun tys => Ok (fn_name f ++ 40 :: join_comma (map base_name tys) ++ [41])).

Inductive decorator :=
| DExternal (readonly : bool) | DPayable | DIsolated | DInterface | DEventlog (indexed : Z).

(** [@wraps(func)] copies the name and the attributes, so the decorated function is [f] with the new flags. *)
Definition decorate (d : decorator) (f : func) : pyres func :=
  match d with
  | DInterface =>                                         (* lines 59-94 *)
      if any_flag_on (fn_flags f) INTERFACE then Exc (EIcon InvalidInterface)
      else Ok (set_flags f (Z.lor INTERFACE (fn_flags f)))
  | DEventlog indexed =>                                  (* lines 97-155 *)
      match fn_params f with
      | [] => Exc (EPy KIndexError)
      | p :: ps =>
          if negb (str_eqb (pa_name p) STR_SELF) then Exc (EIcon InvalidEventLog)
          else if 3 <? indexed then Exc (EIcon InvalidEventLog)
          else if Z.of_nat (length ps) <? indexed then Exc (EIcon InvalidEventLog)
          else if any_flag_on (fn_flags f) EVENTLOG then Exc (EIcon InvalidEventLog)
          else res_bind (event_signature f)
                 (fun _ => Ok (set_indexed (set_flags f (Z.lor EVENTLOG (fn_flags f))) indexed))
      end
  | DExternal readonly =>                                 (* lines 238-278 *)
      if str_eqb (fn_name f) STR_FALLBACK then Exc (EIcon InvalidExternal)
      else if any_flag_on (fn_flags f) EXTERNAL then Exc (EIcon InvalidExternal)
      else Ok (set_flags f (Z.lor (if readonly then Z.lor EXTERNAL READONLY else EXTERNAL) (fn_flags f)))
  | DPayable =>                                           (* lines 281-311 *)
      if any_flag_on (fn_flags f) PAYABLE then Exc (EIcon InvalidPayable)
      else Ok (set_flags f (Z.lor (if str_eqb (fn_name f) STR_FALLBACK then Z.lor PAYABLE FALLBACK else PAYABLE) (fn_flags f)))
  | DIsolated =>                                          (* lines 314-332 *)
      if any_flag_on (fn_flags f) ISOLATED then Exc (EIcon IllegalFormat)
      else Ok (set_flags f (Z.lor ISOLATED (fn_flags f)))
  end.
(** The decorators of a definition, the one next to [def] first. *)
Definition decorate_all (ds : list decorator) (f : func) : pyres func :=
  fold_left (fun r d => res_bind r (decorate d)) ds (Ok f).

(** A function as written: no flags yet. *)
Definition plain_func (name : pystr) (params : list param) (ret : option hint) : func := mk_func name params ret false 0 None.

(** ** Signatures: typing/element.py:55-217 *)

(** Lines 159-217 [normalize_type_hint], 431-437 and, with [field = true], the loop body of lines 440-470
    [check_if_struct_is_valid] for a struct member, which threads the set of structs seen so far.
    [None]: an exception (always IllegalFormatException from here). *)
Fixpoint norm (field : bool) (seen : list Z) (h : hint) {struct h} : option (hint * list Z) :=
  match h with
  | HBase b => Some (HBase b, seen)
  | HName s => if str_eqb s STR_ADDRESS then Some (HBase BAddress, seen) else None
  | HStruct id fields =>
      if field && existsb (Z.eqb id) seen then None
      else if 16 <? Z.of_nat (length fields) then None
      else
        match (fix loop (fs : list (pystr * hint)) (seen : list Z) : option (list Z) :=
                 match fs with
                 | [] => Some seen
                 | (_, fh) :: r => match norm true seen fh with Some (_, seen') => loop r seen' | None => None end
                 end) fields (id :: if field then seen else []) with
        | Some seen' => Some (h, if field then seen' else seen)
        | None => None
        end
  | HList [a] => match norm false [] a with Some (a', _) => Some (HList [a'], seen) | None => None end
  | HUnion [a; HNoneType] => match norm false [] a with Some (a', _) => Some (HUnion [a'; HNoneType], seen) | None => None end
  | HUnion [HNoneType; a] => match norm false [] a with Some (a', _) => Some (HUnion [a'; HNoneType], seen) | None => None end
  | _ => None
  end.
Definition normalize_type_hint (h : hint) : pyres hint :=
  match norm false [] h with Some (h', _) => Ok h' | None => Exc (EIcon IllegalFormat) end.

(** typing/__init__.py:80-87 [isinstance_ex] and Python's [isinstance] for a class. *)
Definition is_base (v : pyval) (b : base) : bool :=
  match v, b with
  | VBool _, BBool | VInt _, BInt | VStr _, BStr | VBytes _, BBytes | VAddr _, BAddress => true
  | VBool _, BInt => true
  | _, _ => false
  end.
Definition is_base_ex (v : pyval) (b : base) : bool :=
  is_base v b && match v, b with VBool _, BBool => true | VBool _, _ => false | _, _ => true end.

(** Lines 142-156 [check_parameter_default_type].  [isinstance] with a [TypedDict] or a [List[..]] raises
    TypeError. *)
Definition check_default (h : hint) (d : option pyval) : pyres unit :=
  match d with
  | None | Some VNone => Ok tt
  | Some v =>
      let against := match h with HUnion (a :: _) => a | HList _ => HList [] | _ => h end in
      match against with
      | HBase b => if is_base_ex v b then Ok tt else Exc (EIcon InvalidParams)
      | HList [] => match v with VList _ => Ok tt | _ => Exc (EIcon InvalidParams) end
      | _ => Exc (EPy KTypeError)
      end
  end.
(** Lines 110-132 [normalize_parameter]. *)
Definition normalize_parameter (p : param) : pyres param :=
  if negb (pa_plain p) then Exc (EIcon IllegalFormat)
  else
    res_bind (match pa_hint p with None => Ok (HBase BStr) | Some h => normalize_type_hint h end) (fun h =>
    let h := match pa_default p, h with
             | Some VNone, HUnion _ => h
             | Some VNone, _ => HUnion [h; HNoneType]
             | _, _ => h
             end in
    res_bind (check_default h (pa_default p)) (fun _ =>
    Ok (mk_param (pa_name p) true (Some h) (pa_default p)))).
(** Lines 55-107 [normalize_signature]: without a leading [self]. *)
Definition normalize_signature (f : func) : pyres (list param) :=
  map_res normalize_parameter
    (match fn_params f with
     | p :: ps => if str_eqb (pa_name p) STR_SELF then ps else p :: ps
     | [] => []
     end).
(** Lines 135-139 [normalize_return_annotation]. *)
Definition normalize_return (f : func) : option hint :=
  match fn_ret f with Some HNoneType => None | r => r end.

(** ** Elements: typing/element.py:220-405 *)

(** Lines 43-50, 220-232 [verify_score_flag]. *)
Definition valid_flags : list Z :=
  [EXTERNAL; Z.lor EXTERNAL PAYABLE; Z.lor EXTERNAL READONLY; Z.lor FALLBACK PAYABLE; EVENTLOG; INTERFACE].
Definition verify_score_flag (flag : Z) : pyres unit :=
  if existsb (Z.eqb flag) valid_flags then Ok tt
  else if flag =? PAYABLE then Ok tt
  else Exc (EIcon IllegalFormat).

Inductive ekind := KFunction | KEvent.
Record element := mk_element { el_kind : ekind; el_func : func; el_sig : list param }.
Definition el_flags (e : element) : Z := fn_flags (el_func e).

(** Lines 257-297 [FunctionMetadata]. *)
Definition function_metadata (f : func) : pyres element :=
  res_bind (normalize_signature f) (fun sig =>
  if all_flag_on (fn_flags f) (Z.lor FALLBACK PAYABLE) then
    match sig, normalize_return f with
    | [], None => Ok (mk_element KFunction f sig)
    | _, _ => Exc (EIcon IllegalFormat)
    end
  else Ok (mk_element KFunction f sig)).
(** Lines 300-309 [EventLogMetadata]. *)
Definition event_metadata (f : func) : pyres element :=
  res_bind (normalize_signature f) (fun sig => Ok (mk_element KEvent f sig)).

(** Lines 372-405 [create_score_element_metadata], for one member of the class. *)
Definition is_hook (name : pystr) : bool := str_eqb name STR_ON_INSTALL || str_eqb name STR_ON_UPDATE.
Definition member_element (m : pystr * func) : pyres (list (pystr * element)) :=
  let '(name, f) := m in
  if str_prefix STR_DUNDER name then Ok []
  else if is_hook name then
    if fn_abstract f then Ok []
    else if any_flag_on (fn_flags f) ALL then Exc (EIcon IllegalFormat)
    else res_bind (function_metadata f) (fun e => Ok [(name, e)])
  else if any_flag_on (fn_flags f) (Z.lor FUNC EVENTLOG) then
    res_bind (verify_score_flag (fn_flags f)) (fun _ =>
    res_bind (if any_flag_on (fn_flags f) EVENTLOG then event_metadata f else function_metadata f) (fun e =>
    Ok [(name, e)]))
  else Ok [].
(** A class is its function members as [inspect.getmembers] lists them: every name once, inherited ones included. *)
Definition class_def := list (pystr * func).
Definition elements_of (cls : class_def) : pyres (list (pystr * element)) :=
  res_bind (map_res member_element cls) (fun l => Ok (concat l)).

(** ** Dispatch: icon_score_base.py:435-479 *)
Fixpoint lookup {A} (name : pystr) (l : list (pystr * A)) : option A :=
  match l with [] => None | (n, a) :: r => if str_eqb n name then Some a else lookup name r end.
Definition flagged (els : list (pystr * element)) (name : pystr) (flag : Z) : bool :=
  match lookup name els with
  | Some e => match el_kind e with KFunction => any_flag_on (el_flags e) flag | KEvent => false end
  | None => false
  end.

(** Lines 421-464 [__call], [__check_payable]: the function whose body is entered.  The attribute is
    looked up on the class ([getattr]); a missing one raises AttributeError. *)
Definition get_attr (cls : class_def) (name : pystr) : pyres func :=
  match lookup name cls with Some f => Ok f | None => Exc (EPy KKeyError) end.
Definition call_method (cls : class_def) (els : list (pystr * element)) (name : pystr) (value : Z) : pyres func :=
  if negb (str_eqb name STR_FALLBACK) && negb (is_hook name) && negb (flagged els name EXTERNAL)
  then Exc (EIcon MethodNotFound)
  else if str_eqb name STR_FALLBACK then
    if flagged els name PAYABLE then get_attr cls name else Exc (EIcon MethodNotFound)
  else if (0 <? value) && negb (flagged els name PAYABLE) then Exc (EIcon MethodNotPayable)
  else get_attr cls name.
(** Lines 476-479 [__is_func_readonly], icon_score_context.py:110-118. *)
Definition func_readonly (els : list (pystr * element)) (name : pystr) : bool := flagged els name READONLY.
