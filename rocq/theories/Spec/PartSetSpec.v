(** Blocks sent in parts, said without tries. *)
From Verif Require Import Model.Bytes Model.PartSet.
Open Scope Z_scope.

(** [data] cut into parts of [size] bytes: only the last one may be shorter, and none is empty. *)
Definition cut_into (size : nat) (data : bytes) (parts : list bytes) : Prop :=
  concat parts = data
  /\ forall i p, nth_error parts i = Some p -> (0 < length p <= size)%nat /\ ((S i < length parts)%nat -> length p = size).

(** What is written with some calls of [Write]. *)
Fixpoint write_all (size : nat) (b : buffer) (chunks : list bytes) : buffer :=
  match chunks with [] => b | c :: r => write_all size (write size b c) r end.
(** The parts made of it. *)
Definition buffer_parts (b : buffer) : list bytes := fst b ++ match snd b with Some c => [c] | None => [] end.

(** What is offered to one who waits for the parts of an ID, one after the other, and the answers. *)
Fixpoint offered (calcHash : bytes -> bytes) (r : received) (l : list part) : received * list answer :=
  match l with
  | [] => (r, [])
  | p :: l => let (r1, a) := add_part calcHash r p in let (r2, x) := offered calcHash r1 l in (r2, a :: x)
  end.
Definition pieces (p : part) : list bytes := match p_proof p with Some l => l | None => [] end.
(** No two different pieces of the proofs have the same digest. *)
Definition distinct (calcHash : bytes -> bytes) (l : list part) : Prop :=
  forall p q a b, In p l -> In q l -> In a (pieces p) -> In b (pieces q) -> calcHash a = calcHash b -> a = b.

(** Calls of [Read] with buffers of these sizes: what each gives. *)
Fixpoint reads (parts : list (option bytes)) (at_ : nat * nat) (sizes : list nat) : option (list bytes) :=
  match sizes with
  | [] => Some []
  | n :: r =>
      match read parts at_ n with
      | None => None
      | Some (b, at') => match reads parts at' r with Some l => Some (b :: l) | None => None end
      end
  end.

(** All parts of a set, by the one who made it. *)
Definition made_all (m : made) : list part :=
  flat_map (fun i => match made_part m i with Some p => [p] | None => [] end) (seq 0 (length (m_parts m))).

(** Data that fits: at most 65535 parts. *)
Definition sane_data (size : nat) (data : bytes) : Prop :=
  (2 <= size)%nat /\ Z.of_nat size < 2 ^ 32 /\ wf_bytes data /\ Z.of_nat (length data) <= 65535 * Z.of_nat size.
