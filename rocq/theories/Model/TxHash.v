(* What the ID of a transaction is computed from (service/transaction/serialize.go,
   transaction_json.go, transaction_v3.go, transaction_v2.go), and the two forms a
   version 3 transaction travels in. *)
From Coq Require Import String Ascii ZArith List Bool Arith DecimalString HexadecimalString.
Import ListNotations.

Definition bytes := list ascii.
Definition txt (s : string) : bytes := list_ascii_of_string s.

(* What encoding/json makes of a document.  An object is a map: its members have
   different keys and no order.  [F] stands for float64. *)
Inductive json (F : Type) :=
| JNull | JBool (b : bool) | JStr (s : bytes) | JNum (f : F)
| JList (l : list (json F)) | JDict (d : list (bytes * json F)).
Arguments JNull {F}. Arguments JBool {F}. Arguments JStr {F}. Arguments JNum {F}.
Arguments JList {F}. Arguments JDict {F}.

(* serialize.go 19-42 (serializeString). *)
Definition special (c : ascii) : bool :=
  existsb (Ascii.eqb c) ["\"; "{"; "}"; "["; "]"; "."]%char.
Definition esc (s : bytes) : bytes := flat_map (fun c => if special c then ["\"%char; c] else [c]) s.

Definition dot (b : bytes) : bytes := match b with [] => [] | _ => b ++ ["."%char] end.

(* serialize.go 44-58 (serializeList), on the elements' bytes. *)
Definition join_list (fs : list bytes) : bytes := fold_left (fun buf f => dot buf ++ f) fs [].

(* serialize.go 98-123 (serializeDict), on the members' bytes in order. *)
Definition join_dict (fs : list (bytes * bytes)) : bytes :=
  fold_left (fun buf e => dot buf ++ esc (fst e) ++ ["."%char] ++ snd e) fs [].

(* sort.Strings: bytewise order. *)
Fixpoint bleb (a b : bytes) : bool :=
  match a, b with
  | [], _ => true
  | _ :: _, [] => false
  | x :: a', y :: b' =>
      if Nat.ltb (nat_of_ascii x) (nat_of_ascii y) then true
      else if Nat.eqb (nat_of_ascii x) (nat_of_ascii y) then bleb a' b' else false
  end.
Fixpoint insert {A : Type} (e : bytes * A) (l : list (bytes * A)) : list (bytes * A) :=
  match l with
  | [] => [e]
  | e' :: l' => if bleb (fst e) (fst e') then e :: l else e' :: insert e l'
  end.
Fixpoint sort {A : Type} (l : list (bytes * A)) : list (bytes * A) :=
  match l with [] => [] | e :: l' => insert e (sort l') end.

(* strconv.FormatInt(_, 10). *)
Definition decimal (z : Z) : bytes := txt (DecimalString.NilZero.string_of_int (Z.to_int z)).

Fixpoint all {A : Type} (l : list (option A)) : option (list A) :=
  match l with
  | [] => Some []
  | Some x :: l' => match all l' with Some r => Some (x :: r) | None => None end
  | None :: _ => None
  end.
Definition tagged {A : Type} (e : bytes * option A) : option (bytes * A) :=
  match snd e with Some x => Some (fst e, x) | None => None end.

Section Serialize.
Variable F : Type.
Variable int64 : F -> Z.          (* the conversion int64(f) *)

(* serialize.go 60-96 (serializeValue); None is the error.  Simplified: the
   members of a map are serialized first and then sorted. *)
Fixpoint serialize (v : json F) : option bytes :=
  match v with
  | JNull => Some (txt "\0")
  | JDict d =>
      match all (map tagged (map (fun e => (fst e, serialize (snd e))) d)) with
      | Some fs => Some (txt "{" ++ join_dict (sort fs) ++ txt "}")
      | None => None
      end
  | JList l =>
      match all (map serialize l) with
      | Some fs => Some (txt "[" ++ join_list fs ++ txt "]")
      | None => None
      end
  | JStr s => Some (esc s)
  | JNum f => Some (decimal (int64 f))
  | JBool _ => None
  end.

(* serialize.go 98-132 (serializeDict with the excluded keys, SerializeMap). *)
Definition serialize_map (ex : list bytes) (d : list (bytes * json F)) : option bytes :=
  let keep := filter (fun e => negb (existsb (fun k => if list_eq_dec ascii_dec k (fst e) then true else false) ex)) d in
  match all (map tagged (map (fun e => (fst e, serialize (snd e))) keep)) with
  | Some fs => Some (join_dict (sort fs))
  | None => None
  end.

(* transaction_json.go 26-45 (transactionFields). *)
Definition excluded (version : nat) : list bytes :=
  if Nat.eqb version 2 then [txt "method"; txt "signature"; txt "tx_hash"] else [txt "signature"; txt "txHash"].

(* transaction_json.go 56-69 (calcHashOfTransactionJSMap): the bytes that are
   hashed. *)
Definition preimage_map (version : nat) (d : list (bytes * json F)) : option bytes :=
  match serialize_map (excluded version) d with
  | Some b => Some (txt "icx_sendTransaction." ++ b)
  | None => None
  end.

(* common/intconv/string.go 41-54 (encodeHexNumber) under HexInt.String etc. *)
Definition hexnum (z : Z) : bytes :=
  (if Z.ltb z 0 then txt "-0x" else txt "0x") ++
  txt (HexadecimalString.NilZero.string_of_uint (N.to_hex_uint (Z.abs_N z))).

(* common/address.go 27-33 (Address.String); [a_contract] is a[0] == 1. *)
Record addr := mkAddr { a_contract : bool; a_body : bytes }.
Definition hexdigit (n : nat) : ascii := nth n (txt "0123456789abcdef") "0"%char.
Definition hexbytes (b : bytes) : bytes :=
  flat_map (fun c => [hexdigit (nat_of_ascii c / 16); hexdigit (nat_of_ascii c mod 16)]) b.
Definition addr_text (a : addr) : bytes := (if a_contract a then txt "cx" else txt "hx") ++ hexbytes (a_body a).

(* transaction_v3.go 24-36 (transactionV3Data) without the signature.  Data is
   raw JSON: nil, empty, or a document. *)
Record v3 := mkV3 {
  d_version : Z; d_from : addr; d_to : addr; d_value : option Z; d_step : Z; d_ts : Z;
  d_nid : option Z; d_nonce : option Z; d_type : option bytes; d_data : option (option (json F))
}.

Definition field (name : string) (b : bytes) : bytes := txt name ++ b.
Definition opt_field (name : string) (o : option bytes) : bytes :=
  match o with Some b => field name b | None => [] end.

(* transaction_v3.go 38-101 (transactionV3Data.calcHash): the bytes that are
   hashed. *)
Definition preimage_v3 (d : v3) : option bytes :=
  let tail :=
    opt_field ".dataType." (d_type d) ++
    field ".from." (addr_text (d_from d)) ++
    opt_field ".nid." (option_map hexnum (d_nid d)) ++
    opt_field ".nonce." (option_map hexnum (d_nonce d)) ++
    field ".stepLimit." (hexnum (d_step d)) ++
    field ".timestamp." (hexnum (d_ts d)) ++
    field ".to." (addr_text (d_to d)) ++
    opt_field ".value." (option_map hexnum (d_value d)) ++
    field ".version." (hexnum (d_version d)) in
  match d_data d with
  | None => Some (txt "icx_sendTransaction" ++ tail)
  | Some None => Some (txt "icx_sendTransaction" ++ txt ".data." ++ tail)
  | Some (Some v) =>
      match serialize v with
      | Some b => Some (txt "icx_sendTransaction" ++ txt ".data." ++ b ++ tail)
      | None => None
      end
  end.

Variable sha3 : bytes -> bytes.

(* transaction_v3.go 105-110 (transactionV3).  [t_raw] holds the JSON document
   when the transaction is kept as such. *)
Record tx := mkTx { t_data : v3; t_raw : option (list (bytes * json F)) }.

(* transaction_v3.go 128-145 (calcHash, TxHash); an error gives the empty ID. *)
Definition tx_id (t : tx) : bytes :=
  match (match t_raw t with Some d => preimage_map 3 d | None => preimage_v3 (t_data t) end) with
  | Some b => sha3 b
  | None => []
  end.

(* transaction_v3.go 405-430 (parseV3JSON): [parse] is the decoding of the
   document into the fields. *)
Definition parse_json (parse : list (bytes * json F) -> option v3) (d : list (bytes * json F)) (raw : bool) : option tx :=
  match parse d with
  | None => None
  | Some x =>
      if raw then Some (mkTx x (Some d))
      else match preimage_map 3 d with
           | None => None
           | Some b => if list_eq_dec ascii_dec (sha3 b) (tx_id (mkTx x None)) then Some (mkTx x None) else Some (mkTx x (Some d))
           end
  end.

(* transaction_v3.go 304-330, 436-442, factory.go 64-77 (Bytes,
   SetBytes, newTransaction): what another node makes of the transaction's bytes.
   Simplified: decoding gives back the encoded fields; raw documents begin with
   a brace. *)
Definition resend (parse : list (bytes * json F) -> option v3) (t : tx) : option tx :=
  match t_raw t with
  | Some d => parse_json parse d true
  | None => Some (mkTx (t_data t) None)
  end.
End Serialize.
