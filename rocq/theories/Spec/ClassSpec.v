(** What a SCORE class declares, independently of how it is checked. *)
From Verif Require Import Model.Bytes Model.Utf8 Model.Exn Model.Typed Model.ScoreClass Model.ScoreApi.

(** A function of the class body, written with some decorators. *)
Definition declared (f : func) : Prop :=
  exists ds g, fn_flags g = 0 /\ fn_indexed g = None /\ decorate_all ds g = Ok f.

Definition is_external (f : func) : Prop := Z.land (fn_flags f) EXTERNAL <> 0.
Definition is_payable (f : func) : Prop := Z.land (fn_flags f) PAYABLE <> 0.
Definition is_readonly (f : func) : Prop := Z.land (fn_flags f) READONLY <> 0.
Definition is_event (f : func) : Prop := Z.land (fn_flags f) EVENTLOG <> 0.

(** The decorator lists a SCORE may use, the one next to [def] first. *)
Inductive allowed_decorators : list decorator -> Prop :=
| al_none : allowed_decorators []
| al_external ro : allowed_decorators [DExternal ro]
| al_external_payable : allowed_decorators [DExternal false; DPayable]
| al_payable_external : allowed_decorators [DPayable; DExternal false]
| al_payable : allowed_decorators [DPayable]
| al_event n : allowed_decorators [DEventlog n]
| al_interface : allowed_decorators [DInterface].

(** Members are defined under their own name and once. *)
Definition own_names (cls : class_def) : Prop :=
  NoDup (map fst cls) /\ Forall (fun m => fn_name (snd m) = fst m /\ declared (snd m)) cls.

(** The parameters without a leading [self]. *)
Definition own_params (f : func) : list param :=
  match fn_params f with
  | p :: ps => if str_eqb (pa_name p) STR_SELF then ps else p :: ps
  | [] => []
  end.
(** Parameters with a default come last (Python syntax). *)
Inductive defaults_last : list param -> Prop :=
| dl_opt ps : Forall (fun p => pa_default p <> None) ps -> defaults_last ps
| dl_req p ps : pa_default p = None -> defaults_last ps -> defaults_last (p :: ps).

(** The type code that describes a type hint, with the description of the fields of a struct. *)
Definition base_code (b : base) : Z := match b with BInt => 1 | BStr => 2 | BBytes => 3 | BBool => 4 | BAddress => 5 end.
Inductive described : hint -> Z -> list winput -> Prop :=
| de_base b : described (HBase b) (base_code b) []
| de_address : described (HName STR_ADDRESS) 5 []
| de_struct id fs ws :
    Forall2 (fun nf w => exists code sub, w = mk_winput (fst nf) code None sub /\ described (snd nf) code sub) fs ws ->
    described (HStruct id fs) 8 ws
| de_list a code ws : described a code ws -> described (HList [a]) (16 + code) ws
| de_optional a code ws : described a code ws -> described (HUnion [a; HNoneType]) code ws
| de_optional' a code ws : described a code ws -> described (HUnion [HNoneType; a]) code ws.

(** One parameter: no annotation means [str]; a default is sent as its bytes ([None] as nothing). *)
Definition described_param (with_default : bool) (p : param) (w : winput) : Prop :=
  exists code d fields, w = mk_winput (pa_name p) code d fields /\
    described (match pa_hint p with Some h => h | None => HBase BStr end) code fields /\
    match pa_default p with
    | Some v => if with_default then proxy_encode v = Ok d else d = None
    | None => d = None
    end.

Definition required (ps : list param) : Z :=
  Z.of_nat (length (filter (fun p => match pa_default p with None => true | Some _ => false end) ps)).

(** The entry for a function. *)
Definition output_codes (f : func) : list Z :=
  if Z.land (fn_flags f) READONLY =? 0 then []
  else match fn_ret f with
       | Some (HBase b) => [base_code b]
       | Some (HName s) => if str_eqb s STR_ADDRESS then [5] else []
       | Some (HStruct _ _) | Some HDict => [7]
       | Some (HList _) => [6]
       | _ => []
       end.
Definition describes (f : func) (m : wmethod) : Prop :=
  wm_name m = fn_name f /\
  if negb (Z.land (fn_flags f) EVENTLOG =? 0) then
    wm_type m = 2 /\ wm_flags m = 0 /\ fn_indexed f = Some (wm_indexed m) /\ wm_outputs m = [] /\
    Forall2 (described_param false) (own_params f) (wm_inputs m)
  else if negb (Z.land (fn_flags f) FALLBACK =? 0) then
    wm_type m = 1 /\ wm_flags m = 4 /\ wm_indexed m = 0 /\ wm_inputs m = [] /\ wm_outputs m = [] /\ own_params f = []
  else
    wm_type m = 0 /\ wm_flags m = Z.land (fn_flags f) 7 /\ wm_indexed m = required (own_params f) /\
    wm_outputs m = output_codes f /\ Forall2 (described_param true) (own_params f) (wm_inputs m).

(** Which members have an entry: the two hooks, and what is external, an event or a payable fallback. *)
Definition exposed (m : pystr * func) : bool :=
  let '(name, f) := m in
  if str_prefix STR_DUNDER name then false
  else if is_hook name then negb (fn_abstract f)
  else negb (Z.land (fn_flags f) (Z.lor EXTERNAL (Z.lor EVENTLOG FALLBACK)) =? 0).
