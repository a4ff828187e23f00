(** Event logs: pyee/pyexec/iconscore/icon_score_base.py:97-235, icon_score_eventlog.py; node:
    service/scoreapi/info.go:81-91, method.go:396-459, 835-860. *)
From Verif Require Import Model.Bytes Model.IntCodec Model.Utf8 Model.Exn Model.Monad Model.Address Model.Typed Model.EE Model.ScoreClass Model.ScoreApi.

(** icon_score_base.py:216-234, one parameter: [args] the positional arguments from here on, [kw] the keyword
    arguments.  The parameter's type is a base type ([event_type], checked when the class was made); for it
    utils/__init__.py:64-79 [get_main_type_from_annotations_type] gives the type itself. *)
Definition pick (args : list pyval) (kw : list (pystr * pyval)) (p : param) : pyres pyval :=
  match args with
  | v :: _ => match lookup (pa_name p) kw with Some _ => Exc (EIcon IllegalFormat) | None => Ok v end
  | [] =>
      match lookup (pa_name p) kw with
      | Some v => Ok v
      | None => match pa_default p with Some d => Ok d | None => Exc (EIcon IllegalFormat) end
      end
  end.
Definition check_type (p : param) (v : pyval) : pyres unit :=
  res_bind (event_type p) (fun b =>
  match v with VNone => Ok tt | _ => if is_base v b then Ok tt else Exc (EIcon IllegalFormat) end).
Fixpoint resolve_from (args : list pyval) (kw : list (pystr * pyval)) (ps : list param) : pyres (list pyval) :=
  match ps with
  | [] => Ok []
  | p :: r =>
      res_bind (pick args kw p) (fun v =>
      res_bind (check_type p v) (fun _ =>
      res_bind (resolve_from (tl args) kw r) (fun vs => Ok (v :: vs))))
  end.
(** Lines 194-235 [__resolve_arguments]. *)
Definition resolve_arguments (ps : list param) (args : list pyval) (kw : list (pystr * pyval)) : pyres (list pyval) :=
  if Z.of_nat (length (tl ps)) <? Z.of_nat (length args) + Z.of_nat (length kw) then Exc (EIcon IllegalFormat)
  else resolve_from args kw (tl ps).

(** icon_score_constant.py [ICX_TRANSFER_EVENT_LOG]: "ICXTransfer(Address,Address,int)". *)
Definition ICX_TRANSFER : pystr :=
  [73; 67; 88; 84; 114; 97; 110; 115; 102; 101; 114] ++ 40 :: join_comma [STR_ADDRESS; STR_ADDRESS; [105; 110; 116]] ++ [41].

(** icon_score_eventlog.py:124-143 [__get_byte_length], [__get_bytes_from_base_type]. *)
Definition event_bytes_len (v : pyval) : pyres Z :=
  match v with
  | VNone => Ok 0
  | VInt z => Ok (byte_length_of_int z)
  | VBool b => Ok (byte_length_of_int (if b then 1 else 0))
  | VStr s => res_bind (lift_opt KUnicode (utf8_encode s)) (fun bs => Ok (blen bs))
  | VAddr a => Ok (blen (address_to_bytes a))
  | VBytes bs => Ok (blen bs)
  | VList _ | VTuple _ | VDict _ | VOther => Exc (EPy KTypeError)
  end.
Definition total_size (l : list Z) : Z := fold_left Z.add l 0.

(** icon_score_base.py:138-154 and icon_score_eventlog.py:74-122, up to the step charge: the size that is charged and
    the two lists of values. *)
Definition to_invalid {A} (r : pyres A) : pyres A :=
  match r with Exc (EIcon IllegalFormat) => Exc (EIcon InvalidEventLog) | _ => r end.
Definition split_at {A} (n : Z) (l : list A) : list A * list A := (firstn (Z.to_nat n) l, skipn (Z.to_nat n) l).
Definition event_values (f : func) (args : list pyval) (kw : list (pystr * pyval)) : pyres (pystr * Z * list pyval) :=
  res_bind (to_invalid (resolve_arguments (fn_params f) args kw)) (fun vs =>
  res_bind (event_signature f) (fun sig =>
  if str_eqb sig ICX_TRANSFER then Exc (EIcon InvalidEventLog)
  else Ok (sig, match fn_indexed f with Some n => n | None => 0 end, vs))).
Definition event_sizes (sig : pystr) (n : Z) (vs : list pyval) : pyres Z :=
  if Z.of_nat (length vs) <? n then Exc (EIcon InvalidEventLog)
  else res_bind (map_res event_bytes_len (VStr sig :: vs)) (fun sizes => Ok (total_size sizes)).

(** The whole call.  ipc/proxy.py:524-530 encodes the values when sending, and not at all when read-only; encoding
    cannot fail where [event_sizes] succeeded, so it may come first. *)
Definition event_call (sha3 : bytes -> bytes) (f : func) (args : list pyval) (kw : list (pystr * pyval)) : M unit :=
  e <- mlift (event_values f args kw) ;;
  let '(sig, n, vs) := e in
  c <- get_ctx ;;
  (if cx_query c || match cx_func c with Some true => true | _ => false end
   then mraise (EIcon InvalidEventLog)
   else
     size <- mlift (event_sizes sig n vs) ;;
     ind <- mlift (map_res proxy_encode (VStr sig :: fst (split_at n vs))) ;;
     data <- mlift (map_res proxy_encode (snd (split_at n vs))) ;;
     emit_event sha3 size ind data).

(** ** The node *)

(** method.go:396-459 [ValidateEvent], [UsableForEvent]; [None] is nil. *)
Definition go_valid_event (code : Z) (bs : option bytes) : bool :=
  if negb (go_list_depth code =? 0) then false
  else
    let t := go_tag code in
    if negb ((1 <=? t) && (t <=? 5)) then false
    else match bs with
    | None => true
    | Some bs =>
        if t =? 1 then negb (blen bs =? 0)
        else if t =? 4 then match bs with [b] => b <=? 1 | _ => false end
        else if t =? 5 then (if blen bs =? 21 then match bs with b :: _ => (b =? 0) || (b =? 1) | [] => false end else blen bs =? 20)
        else if t =? 2 then match utf8_decode bs with Some _ => true | None => false end
        else true
    end.
(** method.go:835-860 [CheckEventData]; the sum of the lengths was checked, so the items of [indexed] after the first
    and those of [data] are the values of the inputs in order. *)
Definition go_check_method (m : wmethod) (indexed data : list (option bytes)) : bool :=
  (length indexed + length data =? length (wm_inputs m) + 1)%nat &&
  (Z.of_nat (length indexed) =? wm_indexed m + 1) &&
  forallb (fun wv => go_valid_event (wi_code (fst wv)) (snd wv)) (combine (wm_inputs m) (tl indexed ++ data)).
(** info.go:81-91. *)
Definition go_check_event (ms : list wmethod) (indexed data : list (option bytes)) : bool :=
  match indexed with
  | Some s :: _ =>
      match utf8_decode s with
      | Some name => match go_GetMethod ms name with Some m => go_check_method m indexed data | None => false end
      | None => false
      end
  | _ => false
  end.
