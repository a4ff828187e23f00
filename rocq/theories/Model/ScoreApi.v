(** The API description of a SCORE, from the class to the node.
    pyee/pyexec/iconscore/typing/definition.py, pyexec.py, ipc/proxy.py; node: service/scoreapi/method.go, info.go,
    service/contract/callhandler.go, service/state/eetype.go. *)
From Verif Require Import Model.Bytes Model.IntCodec Model.Utf8 Model.Exn Model.Address Model.Typed Model.ScoreClass.

(** ** typing/definition.py *)

(** The dictionaries of lines 138-157, 201-224: name, type name, default if any, fields if any. *)
Inductive input := mk_input (name type : pystr) (default : option pyval) (fields : option (list input)).

(** Lines 160-198 [_split_type_hint], [_type_hints_to_name] and the last origin.  [None]: IllegalFormatException.
    Origins that are neither base types, structs, lists nor unions add nothing to the name. *)
Definition STR_STRUCT : pystr := [115; 116; 114; 117; 99; 116].
Fixpoint type_name (h : hint) : option (pystr * hint) :=
  match h with
  | HList [a] => match type_name a with Some (n, l) => Some (91 :: 93 :: n, l) | None => None end
  | HList _ => None
  | HUnion [a; HNoneType] => type_name a
  | HUnion _ => None
  | HBase b => Some (base_name b, h)
  | HName s => if str_eqb s STR_ADDRESS then Some (base_name BAddress, h) else Some ([], h)
  | HStruct _ _ => Some (STR_STRUCT, h)
  | HDict | HNoneType | HOther => Some ([], h)
  end.

(** Lines 201-224 [_get_fields] for a type hint: the fields of the struct at its core, if it is one. *)
Fixpoint hint_fields (h : hint) : option (option (list input)) :=
  match h with
  | HStruct _ fields =>
      match (fix loop (fs : list (pystr * hint)) : option (list input) :=
               match fs with
               | [] => Some []
               | (n, fh) :: r =>
                   match type_name fh, hint_fields fh, loop r with
                   | Some (t, _), Some f, Some l => Some (mk_input n t None f :: l)
                   | _, _, _ => None
                   end
               end) fields with
      | Some l => Some (Some l)
      | None => None
      end
  | HList [a] => hint_fields a
  | HUnion [a; HNoneType] => hint_fields a
  | _ => Some None
  end.

Section Version.
(** Whether [isinstance(x, Optional[T])] works (Python 3.10 and later) or raises TypeError. *)
Context (py310 : bool).

(** Python's [isinstance(v, h)] for a normalised hint. *)
Definition isinstance_hint (v : pyval) (h : hint) : pyres bool :=
  match h with
  | HBase b => Ok (is_base v b)
  | HUnion (HBase b :: _) => if py310 then Ok (is_base v b || match v with VNone => true | _ => false end) else Exc (EPy KTypeError)
  | _ => Exc (EPy KTypeError)
  end.

(** Lines 138-157 [_get_input]. *)
Definition get_input (p : param) : pyres input :=
  let h := match pa_hint p with Some h => h | None => HBase BStr end in
  res_bind (match pa_default p with
            | None | Some VNone => Ok tt
            | Some v => res_bind (isinstance_hint v h) (fun ok => if ok then Ok tt else Exc (EIcon InvalidParams))
            end) (fun _ =>
  match type_name h, hint_fields h with
  | Some (t, _), Some f => Ok (mk_input (pa_name p) t (pa_default p) f)
  | _, _ => Exc (EIcon IllegalFormat)
  end).

(** Lines 227-240 [_get_outputs], with ["dict"] and ["list"]. *)
Definition STR_DICT : pystr := [100; 105; 99; 116].
Definition STR_LIST : pystr := [108; 105; 115; 116].
Definition get_outputs (r : option hint) : list pystr :=
  match r with
  | Some (HBase b) => [base_name b]
  | Some (HName s) => if str_eqb s STR_ADDRESS then [base_name BAddress] else []
  | Some (HStruct _ _) | Some HDict => [STR_DICT]
  | Some (HList _) => [STR_LIST]
  | _ => []
  end.

(** ipc/proxy.py:158-170. *)
Definition A_FUNCTION := 0. Definition A_FALLBACK := 1. Definition A_EVENT := 2.

(** An item of the list of lines 43-67: [type, name, flags or indexed count, inputs, outputs]. *)
Record api := mk_api { ap_type : Z; ap_name : pystr; ap_flags : Z; ap_inputs : list input; ap_outputs : list pystr }.

(** Lines 106-110. *)
Definition proxy_flag (flag : Z) : Z :=
  let flags := Z.land flag 7 in if any_flag_on flag ISOLATED then Z.lor flags 8 else flags.

(** Lines 70-83, 113-123 [_get_function], [_is_fallback]. *)
Definition get_function (e : element) : pyres api :=
  let f := el_func e in
  res_bind (if str_eqb (fn_name f) STR_FALLBACK && any_flag_on (fn_flags f) PAYABLE
            then if 1 <? Z.of_nat (length (el_sig e)) then Exc (EIcon InvalidParams)
                 else match normalize_return f with None => Ok A_FALLBACK | Some _ => Exc (EIcon InvalidParams) end
            else Ok A_FUNCTION) (fun ty =>
  res_bind (map_res get_input (el_sig e)) (fun inputs =>
  Ok (mk_api ty (fn_name f) (proxy_flag (fn_flags f)) inputs
        (if any_flag_on (fn_flags f) READONLY then get_outputs (normalize_return f) else [])))).

(** Lines 86-103 [_get_eventlog]. *)
Definition get_eventlog (e : element) : pyres api :=
  res_bind (map_res get_input (el_sig e)) (fun inputs =>
  Ok (mk_api A_EVENT (fn_name (el_func e)) (match fn_indexed (el_func e) with Some n => n | None => 0 end) inputs [])).

(** Lines 43-67 [get_score_api]. *)
Definition element_api (e : element) : pyres (list api) :=
  match el_kind e with
  | KFunction => if el_flags e =? PAYABLE then Ok [] else res_bind (get_function e) (fun a => Ok [a])
  | KEvent => res_bind (get_eventlog e) (fun a => Ok [a])
  end.
Definition get_score_api (els : list (pystr * element)) : pyres (list api) :=
  res_bind (map_res (fun ne => element_api (snd ne)) els) (fun l => Ok (concat l)).

(** ** pyexec.py, ipc/proxy.py *)

(** ipc/proxy.py:171-180 [DataType]; pyexec.py:62-88. *)
Definition D_INTEGER := 1. Definition D_STRING := 2. Definition D_BYTES := 3. Definition D_BOOL := 4.
Definition D_ADDRESS := 5. Definition D_LIST := 6. Definition D_DICT := 7. Definition D_STRUCT := 8.
Fixpoint convert_data_type (typ : pystr) : pyres Z :=
  if str_eqb typ (base_name BInt) then Ok D_INTEGER
  else if str_eqb typ (base_name BStr) then Ok D_STRING
  else if str_eqb typ (base_name BBytes) then Ok D_BYTES
  else if str_eqb typ (base_name BBool) then Ok D_BOOL
  else if str_eqb typ (base_name BAddress) then Ok D_ADDRESS
  else if str_eqb typ STR_STRUCT then Ok D_STRUCT
  else match typ with
       | 91 :: 93 :: r => res_bind (convert_data_type r) (fun n => Ok (16 + n))
       | _ => Exc (EPy KUnknownType)
       end.
Definition convert_output_data_type (typ : pystr) : pyres Z :=
  if str_eqb typ STR_LIST then Ok D_LIST
  else if str_eqb typ STR_DICT then Ok D_DICT
  else convert_data_type typ.

(** pyexec.py:90-106 [convert_inputs]: the number of optional parameters and (name, type, default, fields). *)
Inductive cinput := mk_cinput (name : pystr) (code : Z) (default : pyval) (fields : option (list cinput)).
Fixpoint convert_input (i : input) : pyres cinput :=
  match i with
  | mk_input name type default fields =>
      res_bind (convert_data_type type) (fun code =>
      let d := match default with Some v => v | None => VNone end in
      match fields with
      | Some fs => res_bind (map_res convert_input fs) (fun cs => Ok (mk_cinput name code d (Some cs)))
      | None => Ok (mk_cinput name code d None)
      end)
  end.
Definition has_default (i : input) : bool := match i with mk_input _ _ (Some _) _ => true | _ => false end.
Definition optional_count (is : list input) : Z := Z.of_nat (length (filter has_default is)).

(** ipc/proxy.py:294-310 [encode]. *)
Definition proxy_encode (o : pyval) : pyres (option bytes) :=
  match o with
  | VNone => Ok None
  | VStr s => res_bind (lift_opt KUnicode (utf8_encode s)) (fun bs => Ok (Some bs))
  | VBytes bs => Ok (Some bs)
  | VBool b => Ok (Some [if b then 1 else 0])
  | VInt z => res_bind (lift_opt KOverflow (int_to_bytes z)) (fun bs => Ok (Some bs))
  | VAddr a => Ok (Some (address_to_bytes a))
  | VList _ | VTuple _ | VDict _ | VOther => Exc (EPy KUnknownType)
  end.

(** ipc/proxy.py:191-205 [__encode_inputs].  The fields of a struct parameter are sent as they are: name, type,
    None and their fields. *)
Inductive winput := mk_winput (name : pystr) (code : Z) (default : option bytes) (fields : list winput).
Fixpoint wire_field (c : cinput) : winput :=
  match c with
  | mk_cinput name code _ fields =>
      mk_winput name code None (match fields with Some fs => map wire_field fs | None => [] end)
  end.
Definition encode_input (mandatory i : Z) (c : cinput) : pyres winput :=
  match c with
  | mk_cinput name code default fields =>
      res_bind (if i <? mandatory then Ok None else proxy_encode default) (fun d =>
      Ok (mk_winput name code d (match fields with Some fs => map wire_field fs | None => [] end)))
  end.
Fixpoint encode_inputs_from (mandatory i : Z) (l : list cinput) : pyres (list winput) :=
  match l with
  | [] => Ok []
  | c :: r => res_bind (encode_input mandatory i c) (fun w => res_bind (encode_inputs_from mandatory (i + 1) r) (fun ws => Ok (w :: ws)))
  end.
Definition encode_inputs (l : list cinput) (optional : Z) : pyres (list winput) :=
  encode_inputs_from (Z.of_nat (length l) - optional) 0 l.

(** ipc/proxy.py:207-244: an entry of the GETAPI result; also the node's view, service/scoreapi/method.go:640-647. *)
Record wmethod := mk_wmethod {
  wm_type : Z; wm_name : pystr; wm_flags : Z; wm_indexed : Z; wm_inputs : list winput; wm_outputs : list Z
}.

(** pyexec.py:150-165 [api_handler], for one item. *)
Definition add_api (a : api) : pyres (list wmethod) :=
  res_bind (map_res convert_input (ap_inputs a)) (fun inputs =>
  let optional := optional_count (ap_inputs a) in
  if ap_type a =? A_FUNCTION then
    res_bind (map_res convert_output_data_type (ap_outputs a)) (fun outs =>
    res_bind (encode_inputs inputs optional) (fun ws =>
    Ok [mk_wmethod A_FUNCTION (ap_name a) (ap_flags a) (Z.of_nat (length inputs) - optional) ws outs]))
  else if ap_type a =? A_FALLBACK then
    if 0 <? Z.of_nat (length inputs) then Ok []
    else if Z.land (ap_flags a) 4 =? 0 then Ok []
    else Ok [mk_wmethod A_FALLBACK (ap_name a) (ap_flags a) 0 [] []]
  else if ap_type a =? A_EVENT then
    if Z.of_nat (length inputs) <? ap_flags a then Exc (EPy KValueError)
    else res_bind (encode_inputs inputs 0) (fun ws => Ok [mk_wmethod A_EVENT (ap_name a) 0 (ap_flags a) ws []])
  else Ok []).

(** The whole way: icon_score_base.py:347-365 and pyexec.py:150-165. *)
Definition class_api (cls : class_def) : pyres (list wmethod) :=
  res_bind (elements_of cls) (fun els =>
  res_bind (get_score_api els) (fun apis =>
  res_bind (map_res add_api apis) (fun l => Ok (concat l)))).
End Version.

(** ** The node *)

(** service/scoreapi/method.go:230-248: a type code is a base tag and a list depth. *)
Definition go_tag (t : Z) : Z := Z.land t 15.
Definition go_list_depth (t : Z) : Z := Z.land (Z.shiftr t 4) 15.

(** service/scoreapi/method.go:649-675. *)
Definition go_IsPayable (m : wmethod) : bool := negb (wm_type m =? A_EVENT) && negb (Z.land (wm_flags m) 4 =? 0).
Definition go_IsReadOnly (m : wmethod) : bool := (wm_type m =? A_FUNCTION) && negb (Z.land (wm_flags m) 1 =? 0).
Definition go_IsExternal (m : wmethod) : bool := (wm_type m =? A_FUNCTION) && negb (Z.land (wm_flags m) 3 =? 0).
Definition go_IsCallable (m : wmethod) : bool := negb (wm_type m =? A_EVENT).
Definition go_IsFallback (m : wmethod) : bool := wm_type m =? A_FALLBACK.
Definition go_IsEvent (m : wmethod) : bool := wm_type m =? A_EVENT.

(** method.go:250-253, 71-92, 818-824: type names and the signature, which is an event's key. *)
Definition go_tag_name (t : Z) : pystr :=
  match t with
  | 1 => base_name BInt | 2 => base_name BStr | 3 => base_name BBytes | 4 => base_name BBool | 5 => base_name BAddress
  | 6 => STR_LIST | 7 => STR_DICT | 8 => STR_STRUCT
  | _ => []  (* "unknown(n)" *)
  end.
Fixpoint brackets (n : nat) : pystr := match n with O => [] | S n' => 91 :: 93 :: brackets n' end.
Definition go_type_name (t : Z) : pystr := brackets (Z.to_nat (go_list_depth t)) ++ go_tag_name (go_tag t).
Definition wi_code (w : winput) : Z := match w with mk_winput _ c _ _ => c end.
Definition go_Signature (m : wmethod) : pystr :=
  wm_name m ++ 40 :: join_comma (map (fun w => go_type_name (wi_code w)) (wm_inputs m)) ++ [41].

(** service/scoreapi/info.go:41-63 [buildMethodMap], [GetMethod]: later entries replace earlier ones. *)
Definition go_key (m : wmethod) : option pystr :=
  if go_IsEvent m then Some (go_Signature m)
  else if go_IsFallback m then Some []
  else match wm_name m with [] => None | n => Some n end.
Fixpoint go_GetMethod (ms : list wmethod) (name : pystr) : option wmethod :=
  match ms with
  | [] => None
  | m :: r =>
      match go_GetMethod r name with
      | Some x => Some x
      | None => match go_key m with Some k => if str_eqb k name then Some m else None | None => None end
      end
  end.

(** service/contract/callhandler.go:312-350 [ensureMethodAndParams] up to the parameters, for a Python SCORE; gives
    the method and whether the execution is read-only from here.  [external]: the call comes from a transaction's
    data. *)
Definition go_ensure_method (ms : list wmethod) (name : pystr) (forDeploy external readOnlyMode : bool) : res Z (wmethod * bool) :=
  match go_GetMethod ms name with
  | None => Exc METHOD_NOT_FOUND
  | Some m =>
      if negb (go_IsCallable m) then Exc METHOD_NOT_FOUND
      else if forDeploy then Ok (m, readOnlyMode)
      else if go_IsFallback m && external then Exc METHOD_NOT_FOUND
      else if negb (go_IsFallback m) && is_hook name then Exc METHOD_NOT_FOUND
      else if negb (go_IsFallback m) && negb (go_IsExternal m) then Exc METHOD_NOT_FOUND
      else if Bool.eqb (go_IsReadOnly m) readOnlyMode then Ok (m, readOnlyMode)
      else if go_IsReadOnly m then Ok (m, true)
      else Exc ACCESS_DENIED
  end.

(** callhandler.go:665-714 [TransferAndCallHandler.DoExecuteAsync] after the transfer, without the legacy fallback
    check.  Go's nil receiver is [None]. *)
Definition go_transfer_and_call (ms : list wmethod) (name : pystr) (external readOnlyMode : bool) : res Z (wmethod * bool) :=
  let m := go_GetMethod ms name in
  let payable := match m with Some m => go_IsPayable m | None => false end in
  match name with
  | [] => if negb payable then Exc METHOD_NOT_FOUND else go_ensure_method ms name false external readOnlyMode
  | _ =>
      match m with
      | None => Exc METHOD_NOT_FOUND
      | Some m =>
          if negb (go_IsPayable m) then Exc METHOD_NOT_PAYABLE
          else if go_IsReadOnly m then Exc ACCESS_DENIED
          else go_ensure_method ms name false external readOnlyMode
      end
  end.

(** service/contract/contractmanager.go:178-236: what a message becomes. *)
Inductive message := Transfer | Call (name : pystr).
Definition go_dispatch (ms : list wmethod) (m : message) (value : Z) (external readOnlyMode : bool) : res Z (wmethod * bool) :=
  match m with
  | Transfer => go_transfer_and_call ms [] false readOnlyMode
  | Call name => if 0 <? value then go_transfer_and_call ms name external readOnlyMode
                 else go_ensure_method ms name false external readOnlyMode
  end.
