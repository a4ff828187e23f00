(** pyee/pyexec/iconscore/icon_score_base2.py:155-387: the charged API functions. *)
From Verif Require Import Model.Bytes Model.Utf8 Model.Exn Model.Monad Model.Address Model.Typed Model.EE.

(** Lines 155-162 [ScoreApiStepRatio]. *)
Definition R_SHA3_256 := 1000.
Definition R_COMPRESSED_KEY := 15000.
Definition R_UNCOMPRESSED_KEY := 1500.
Definition R_JSON_DUMPS := 5000.
Definition R_JSON_LOADS := 4000.
Definition R_RECOVER_KEY := 70000.
(** icon_constant.py:28. *)
Definition REVISION_COMPACT_JSON := 256.

(** Lines 165-178 [_get_api_call_step_cost]. *)
Definition api_call_step_cost (c : ctx) (ratio : Z) : Z := cx_costs c API_CALL * ratio / R_SHA3_256.

Section WithLibraries.
(** The libraries behind the API, any functions: hashlib, json and coincurve. *)
Context (sha3 sha2 : bytes -> bytes) (dumps : bool -> pyval -> pyres pystr) (loads : pystr -> pyres pyval)
  (decompress : bytes -> pyres bytes) (recover : bytes -> bytes -> bool -> pyres bytes).
(** [context.revision]. *)
Context (revision : Z).

Inductive hash_name := SHA3_256 | SHA_256.
(** Lines 222-249 [_hash], called with the two names by lines 202-219. *)
Definition api_hash (name : hash_name) (data : pyval) : M bytes :=
  match data with
  | VBytes bs =>
      c <- get_ctx ;;
      let size := blen bs in
      let chunks := size / 32 + (if 0 <? size mod 32 then 1 else 0) in
      let step_cost := cx_costs c API_CALL in
      consume_step API_CALL (step_cost + step_cost * chunks / 10) ;;;
      mret (match name with SHA3_256 => sha3 bs | SHA_256 => sha2 bs end)
  | _ => mraise (EIcon InvalidParams)
  end.

Definition compact_json : bool := negb (Z.land revision REVISION_COMPACT_JSON =? 0).
Definition encoded_size (s : pystr) : pyres Z := res_bind (lift_opt KUnicode (utf8_encode s)) (fun b => Ok (blen b)).

(** Lines 252-272 [json_dumps]. *)
Definition json_dumps (obj : pyval) : M pystr :=
  c <- get_ctx ;;
  (if compact_json then
     ret <- mlift (dumps true obj) ;;
     n <- mlift (encoded_size ret) ;;
     let step_cost := api_call_step_cost c R_JSON_DUMPS in
     consume_step API_CALL (step_cost + step_cost * n / 100) ;;;
     mret ret
   else mlift (dumps false obj)).

(** Lines 275-294 [json_loads]; Python's [None] for an argument that is not a [str]. *)
Definition json_loads (src : pyval) : M pyval :=
  match src with
  | VStr s =>
      c <- get_ctx ;;
      (if compact_json then
         n <- mlift (encoded_size s) ;;
         let step_cost := api_call_step_cost c R_JSON_LOADS in
         consume_step API_CALL (step_cost + step_cost * n / 100) ;;;
         mlift (loads s)
       else mlift (loads s))
  | _ => mret VNone
  end.

(** Lines 330-345 [_create_address_with_key]; the asserts hold by the caller's checks. *)
Definition address_with_key (key : bytes) : pyres (option address) :=
  let size := blen key in
  let prefix := hd 0 key in
  if (size =? 33) && ((prefix =? 2) || (prefix =? 3)) then
    res_bind (decompress key) (fun u =>
      let h := sha3 (tl u) in Ok (Some (mk_address EOA (skipn (length h - 20) h))))
  else if (size =? 65) && (prefix =? 4) then
    let h := sha3 (tl key) in Ok (Some (mk_address EOA (skipn (length h - 20) h)))
  else Ok None.
(** Lines 297-327 [create_address_with_key]. *)
Definition create_address_with_key (public_key : pyval) : M (option address) :=
  match public_key with
  | VBytes key =>
      if negb ((blen key =? 33) || (blen key =? 65)) then mret None
      else
        c <- get_ctx ;;
        let ratio := if blen key =? 33 then R_COMPRESSED_KEY else R_UNCOMPRESSED_KEY in
        consume_step API_CALL (api_call_step_cost c ratio) ;;;
        mret (match address_with_key key with Ok a => a | _ => None end)
  | _ => mret None
  end.

(** Lines 380-387 [_recover_key]. *)
Definition recovered (msg_hash signature : pyval) (compressed : bool) : pyres (option bytes) :=
  match msg_hash, signature with
  | VBytes h, VBytes s =>
      if (blen h =? 32) && (blen s =? 65) then res_bind (recover s h compressed) (fun k => Ok (Some k)) else Ok None
  | _, _ => Ok None
  end.
(** Lines 358-377 [recover_key]: charged whatever the arguments are. *)
Definition recover_key (msg_hash signature : pyval) (compressed : bool) : M (option bytes) :=
  c <- get_ctx ;;
  consume_step API_CALL (api_call_step_cost c R_RECOVER_KEY) ;;;
  mret (match recovered msg_hash signature compressed with Ok k => k | _ => None end).
End WithLibraries.
