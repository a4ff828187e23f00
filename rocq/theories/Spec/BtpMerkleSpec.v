(** Merkle trees, without buffers. *)
From Verif Require Import Model.Bytes Model.BtpMerkle.
Open Scope nat_scope.

Section WithHash.
Variable H : bytes -> bytes.

(** The level above: two neighbours are hashed together; one without a
    neighbour goes up as it is. *)
Fixpoint above (l : list bytes) : list bytes :=
  match l with
  | a :: b :: r => H (a ++ b) :: above r
  | _ => l
  end.

(** [r] is on top of [l]. *)
Inductive on_top : list bytes -> bytes -> Prop :=
| top_one x : on_top [x] x
| top_more l r : 2 <= length l -> on_top (above l) r -> on_top l r.

(** What the receiver of a proof computes from an item and its path. *)
Fixpoint climb (x : bytes) (p : path) : bytes :=
  match p with
  | [] => x
  | (DirRight, Some v) :: r => climb (H (x ++ v)) r
  | (DirLeft, Some v) :: r => climb (H (v ++ x)) r
  | (_, None) :: r => climb x r
  end.

(** The strings hashed on the way from an item to the top. *)
Fixpoint climbed (x : bytes) (p : path) : list bytes :=
  match p with
  | [] => []
  | (DirRight, Some v) :: r => (x ++ v) :: climbed (H (x ++ v)) r
  | (DirLeft, Some v) :: r => (v ++ x) :: climbed (H (v ++ x)) r
  | (_, None) :: r => climbed x r
  end.

(** The strings hashed in the tree of a list. *)
Fixpoint pairs (l : list bytes) : list bytes :=
  match l with
  | a :: b :: r => (a ++ b) :: pairs r
  | _ => []
  end.
Inductive in_tree : list bytes -> bytes -> Prop :=
| here l s : In s (pairs l) -> in_tree l s
| higher l s : 2 <= length l -> in_tree (above l) s -> in_tree l s.

End WithHash.

(** Digests of 32 bytes. *)
Definition all32 (l : list bytes) : Prop := Forall (fun x => length x = 32) l.
Definition hash32 (H : bytes -> bytes) : Prop := forall s, length (H s) = 32.

(** The way of a path: which steps there are, without the hashes. *)
Definition way (p : path) : list (dir * bool) :=
  map (fun x => (fst x, match snd x with Some _ => true | None => false end)) p.
Definition path32 (p : path) : Prop := forall d v, In (d, Some v) p -> length v = 32.
