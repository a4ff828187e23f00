(** Containers seen as cells, maps and lists of stored encodings. *)
From Verif Require Import Model.Bytes Model.IntCodec Model.DbKey Model.Exn Model.Monad Model.Typed Model.EE Model.Containers
  Spec.EagerEE Spec.Running Spec.Slots.

(** A stored encoding; the store holds no empty values, so an empty one is absent. *)
Definition enc_cell (b : bytes) : option bytes := match b with [] => None | _ => Some b end.

(** Why an operation may fail although its arguments are fine: the code is read-only, or there are not enough
    steps (impossible when nothing costs anything). *)
Definition free (k : costs) : Prop := forall t n, 0 <= n -> price k t n <= 0.
Definition short (w : world) (e : exn) : Prop := out_of_step e /\ ~ free (cost_table w).
Definition denied (w : world) (e : exn) : Prop := e = EIcon Database /\ readonly w = true.

Section WithHash.
Context (sha3 : bytes -> bytes).

(** The slots of an ArrayDB: its size and its elements. *)
Definition size_slot (d : array_db) : bytes := hash_key sha3 (arr_sdb d) None.
Definition elem_slot (d : array_db) (i : Z) : bytes :=
  hash_key sha3 (arr_sdb d) (match int_to_bytes i with Some k => Some k | None => Some [] end).

(** The array holds the list [l] of encodings. *)
Definition array_holds (w : world) (d : array_db) (l : list bytes) : Prop :=
  match cell w (size_slot d) with Some b => bytes_to_int b | None => 0 end = blen l /\
  forall i, (i < length l)%nat -> cell w (elem_slot d (Z.of_nat i)) = enc_cell (nth i l []).

(** The hash does not collide on the slots of the first [n + 1] positions. *)
Definition slots_distinct (d : array_db) (n : nat) : Prop :=
  (forall i, (i <= n)%nat -> size_slot d <> elem_slot d (Z.of_nat i)) /\
  (forall i j, (i <= n)%nat -> (j <= n)%nat -> i <> j -> elem_slot d (Z.of_nat i) <> elem_slot d (Z.of_nat j)).
End WithHash.

(** Python's reading of an index: [i] counts from the start, a negative one from the end. *)
Definition position (i : Z) (n : nat) : option nat :=
  if (0 <=? i) && (i <? Z.of_nat n) then Some (Z.to_nat i)
  else if (i <? 0) && (- Z.of_nat n <=? i) then Some (Z.to_nat (i + Z.of_nat n))
  else None.
Fixpoint replace_nth {A} (n : nat) (x : A) (l : list A) : list A :=
  match l, n with
  | [], _ => []
  | _ :: r, O => x :: r
  | y :: r, S n' => y :: replace_nth n' x r
  end.

(** ** Histories *)

(** Any container operation, results dropped. *)
Inductive cop :=
| OVarSet (d : var_db) (v : pyval) | OVarGet (d : var_db) | OVarRemove (d : var_db)
| ODictSet (d : dict_db) (k v : pyval) | ODictGet (d : dict_db) (k : pyval)
| ODictIn (d : dict_db) (k : pyval) | ODictRemove (d : dict_db) (k : pyval)
| OArrPut (d : array_db) (v : pyval) | OArrPop (d : array_db) | OArrGet (d : array_db) (i : pyval)
| OArrSet (d : array_db) (i v : pyval) | OArrLen (d : array_db) | OArrList (d : array_db) | OArrIn (d : array_db) (v : pyval).

Definition op_db (o : cop) : score_db :=
  match o with
  | OVarSet d _ | OVarGet d | OVarRemove d => var_sdb d
  | ODictSet d _ _ | ODictGet d _ | ODictIn d _ | ODictRemove d _ => dict_sdb d
  | OArrPut d _ | OArrPop d | OArrGet d _ | OArrSet d _ _ | OArrLen d | OArrList d | OArrIn d _ => arr_sdb d
  end.

Section Histories.
Context (sha3 : bytes -> bytes).
Definition run_op (o : cop) : M unit :=
  match o with
  | OVarSet d v => var_set sha3 d v
  | OVarGet d => var_get sha3 d ;;; mret tt
  | OVarRemove d => var_remove sha3 d
  | ODictSet d k v => dict_setitem sha3 d k v
  | ODictGet d k => dict_getitem sha3 d k ;;; mret tt
  | ODictIn d k => dict_contains sha3 d k ;;; mret tt
  | ODictRemove d k => dict_remove sha3 d k
  | OArrPut d v => arr_put sha3 d v
  | OArrPop d => arr_pop sha3 d ;;; mret tt
  | OArrGet d i => arr_getitem sha3 d i ;;; mret tt
  | OArrSet d i v => arr_setitem sha3 d i v
  | OArrLen d => arr_len sha3 d ;;; mret tt
  | OArrList d => arr_list sha3 d ;;; mret tt
  | OArrIn d v => arr_contains sha3 d v ;;; mret tt
  end.

(** A history: operations with whether they returned (or raised). *)
Inductive history : world -> list (cop * bool) -> world -> Prop :=
| hist_nil w : history w [] w
| hist_ok o w w1 h w' : run_op o w = (Ok tt, w1) -> history w1 h w' -> history w ((o, true) :: h) w'
| hist_exc o e w w1 h w' : run_op o w = (Exc e, w1) -> history w1 h w' -> history w ((o, false) :: h) w'.

(** The elements of its database an operation may write, in the state it starts in. *)
Definition array_size (w : world) (d : array_db) : Z :=
  match cell w (size_slot sha3 d) with Some b => bytes_to_int b | None => 0 end.
Definition may_write (o : cop) (w : world) (elem : option bytes) : Prop :=
  match o with
  | OVarSet _ _ | OVarRemove _ => elem = None
  | ODictSet _ k _ | ODictRemove _ k => exists kb, encode_key k = Ok kb /\ elem = Some kb
  | OArrPut d _ => elem = None \/ elem = int_to_bytes (array_size w d)
  | OArrPop d => elem = None \/ elem = int_to_bytes (array_size w d - 1)
  | OArrSet d _ _ => exists i, 0 <= i < array_size w d /\ elem = int_to_bytes i
  | _ => False
  end.
End Histories.

(** Histories around one VarDB: its own operations ([inl]) and operations of other containers ([inr]); and
    the encoding its cell has afterwards, from what it had before. *)
Inductive vop := VSet (v : pyval) | VGet | VRemove.
Definition var_op (d : var_db) (x : vop + cop) : cop :=
  match x with inl (VSet v) => OVarSet d v | inl VGet => OVarGet d | inl VRemove => OVarRemove d | inr o => o end.
Definition var_after (cur : option bytes) (x : (vop + cop) * bool) : option bytes :=
  match x with
  | (inl (VSet v), true) => match encode_value v with Ok b => enc_cell b | _ => cur end
  | (inl VRemove, true) => None
  | _ => cur
  end.

(** The same for the entry [kb] of one DictDB. *)
Inductive dop := DSet (k v : pyval) | DGet (k : pyval) | DIn (k : pyval) | DRemove (k : pyval).
Definition dict_op (d : dict_db) (x : dop + cop) : cop :=
  match x with
  | inl (DSet k v) => ODictSet d k v | inl (DGet k) => ODictGet d k
  | inl (DIn k) => ODictIn d k | inl (DRemove k) => ODictRemove d k
  | inr o => o
  end.
Definition dop_key (o : dop) : pyval := match o with DSet k _ | DGet k | DIn k | DRemove k => k end.
Definition dict_after (kb : bytes) (cur : option bytes) (x : (dop + cop) * bool) : option bytes :=
  match x with
  | (inl (DSet k v), true) =>
      match encode_key k, encode_value v with
      | Ok kb', Ok b => if bytes_eqb kb' kb then enc_cell b else cur
      | _, _ => cur
      end
  | (inl (DRemove k), true) =>
      match encode_key k with Ok kb' => if bytes_eqb kb' kb then None else cur | _ => cur end
  | _ => cur
  end.

(** The same for one ArrayDB: the list of encodings it holds afterwards. *)
Inductive aop := APut (v : pyval) | APop | AGet (i : pyval) | ASet (i v : pyval) | ALen | AList | AIn (v : pyval).
Definition arr_op (d : array_db) (x : aop + cop) : cop :=
  match x with
  | inl (APut v) => OArrPut d v | inl APop => OArrPop d | inl (AGet i) => OArrGet d i | inl (ASet i v) => OArrSet d i v
  | inl ALen => OArrLen d | inl AList => OArrList d | inl (AIn v) => OArrIn d v
  | inr o => o
  end.
Definition arr_after (l : list bytes) (x : aop + cop) : list bytes :=
  match x with
  | inl (APut v) => match encode_value v with Ok b => l ++ [b] | _ => l end
  | inl APop => removelast l
  | inl (ASet i v) =>
      match as_index i, encode_value v with
      | Some z, Ok b => match position z (length l) with Some p => replace_nth p b l | None => l end
      | _, _ => l
      end
  | _ => l
  end.
(** An operation that raised changes nothing, except that a [pop] may have blanked the last element. *)
Inductive arr_steps : list bytes -> list ((aop + cop) * bool) -> list bytes -> Prop :=
| steps_nil l : arr_steps l [] l
| steps_ok l x h l' : arr_steps (arr_after l x) h l' -> arr_steps l ((x, true) :: h) l'
| steps_raised l x h l' : arr_steps l h l' -> arr_steps l ((x, false) :: h) l'
| steps_blanked l y h l' : arr_steps (l ++ [[]]) h l' -> arr_steps (l ++ [y]) ((inl APop, false) :: h) l'.

(** ** Membership in an ArrayDB *)
(** A stored (non-empty) encoding equal to the one looked for. *)
Definition finds (value b : bytes) : bool := match b with [] => false | _ => bytes_eqb b value end.
(** What a membership scan reads: the elements up to and including the first match, all of them if there is none;
    and the number of bytes in them. *)
Fixpoint scanned (value : bytes) (l : list bytes) : list bytes :=
  match l with [] => [] | b :: r => b :: (if finds value b then [] else scanned value r) end.
Fixpoint sizes (l : list bytes) : Z := match l with [] => 0 | b :: r => blen b + sizes r end.
(** Cost tables under which the node's running total of a scan is what the executor charges for it:
    [base_step] is zero unless SCHEMA is set (icon_score_step.py). *)
Definition scan_costs (k : costs) : Prop := 0 <= k GET /\ 0 <= k GET_BASE /\ base_step k GET = k GET_BASE.
