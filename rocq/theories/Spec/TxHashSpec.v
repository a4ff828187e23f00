(* What a signature covers: the content of a JSON value as far as the hashed bytes
   show it. *)
From Coq Require Import String Ascii ZArith List Bool Arith.
From Verif Require Import Model.TxHash.
Import ListNotations.

Inductive content :=
| CNull
| CStr (s : bytes)
| CList (l : list content)
| CDict (d : list (bytes * content)).

(* Empty strings at the front of an array do not count. *)
Fixpoint skip_empty (l : list content) : list content :=
  match l with
  | CStr [] :: l' => skip_empty l'
  | _ => l
  end.

Section Content.
Variable F : Type.
Variable int64 : F -> Z.

(* A number counts as the string of its integer part, a truth value has no
   content, an object is taken in the order of its keys. *)
Fixpoint content_of (v : json F) : option content :=
  match v with
  | JNull => Some CNull
  | JBool _ => None
  | JStr s => Some (CStr s)
  | JNum f => Some (CStr (decimal (int64 f)))
  | JList l => match all (map content_of l) with Some cs => Some (CList (skip_empty cs)) | None => None end
  | JDict d =>
      match all (map tagged (map (fun e => (fst e, content_of (snd e))) d)) with
      | Some cs => Some (CDict (sort cs))
      | None => None
      end
  end.

(* Values for which the content is everything: strings, nulls, arrays that do not
   begin with an empty string, and objects, listed in the order of their keys. *)
Fixpoint plain (v : json F) : Prop :=
  match v with
  | JNull => True
  | JStr _ => True
  | JBool _ | JNum _ => False
  | JList l => (match l with JStr [] :: _ => False | _ => True end) /\
               (fix go (l : list (json F)) : Prop := match l with [] => True | x :: l' => plain x /\ go l' end) l
  | JDict d => sort d = d /\
               (fix go (d : list (bytes * json F)) : Prop := match d with [] => True | e :: d' => plain (snd e) /\ go d' end) d
  end.

(* The content of a document without some of its members. *)
Definition content_map (ex : list bytes) (d : list (bytes * json F)) : option (list (bytes * content)) :=
  match content_of (JDict (filter (fun e => negb (existsb (fun k => if list_eq_dec ascii_dec k (fst e) then true else false) ex)) d)) with
  | Some (CDict c) => Some c
  | _ => None
  end.

(* The content of the data field: absent, or a value (empty bytes count as the
   empty string). *)
Definition content_data (o : option (option (json F))) : option (option content) :=
  match o with
  | None => Some None
  | Some None => Some (Some (CStr []))
  | Some (Some v) => match content_of v with Some c => Some (Some c) | None => None end
  end.

(* The document a transaction is shown as (ToJSON, transaction_v3.go 345-382) with
   its signature and ID. *)
Definition str_member (name : string) (o : option bytes) : list (bytes * json F) :=
  match o with Some b => [(txt name, JStr b)] | None => [] end.
Definition document (x : v3 F) (sig id : json F) : list (bytes * json F) :=
  [(txt "version", JStr (hexnum (d_version F x))); (txt "from", JStr (addr_text (d_from F x)));
   (txt "to", JStr (addr_text (d_to F x))); (txt "stepLimit", JStr (hexnum (d_step F x)));
   (txt "timestamp", JStr (hexnum (d_ts F x))); (txt "signature", sig);
   (txt "txHash", id)] ++
  str_member "value" (option_map hexnum (d_value F x)) ++
  str_member "nid" (option_map hexnum (d_nid F x)) ++
  str_member "nonce" (option_map hexnum (d_nonce F x)) ++
  str_member "dataType" (d_type F x) ++
  match d_data F x with Some (Some v) => [(txt "data", v)] | _ => [] end.
End Content.

(* A truth value occurs somewhere in the value. *)
Inductive has_bool {F : Type} : json F -> Prop :=
| hb_bool : forall b, has_bool (JBool b)
| hb_list : forall l x, In x l -> has_bool x -> has_bool (JList l)
| hb_dict : forall d k x, In (k, x) d -> has_bool x -> has_bool (JDict d).
