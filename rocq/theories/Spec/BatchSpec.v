(** What nested calls do to what is visible. *)
From Verif Require Import Model.Bytes Model.Batch.

(** The history of one call: writes, inner calls (then the rest), and giving up what it has written so far. *)
Inductive history := Done | Put (k : bytes) (v : option bytes) (rest : history) | Call (body rest : history) | Drop (rest : history).
Definition view := bytes -> option (option bytes).
Definition put (m : view) (k : bytes) (v : option bytes) : view := fun k' => if bytes_eqb k k' then Some v else m k'.
(** [base] is what the call saw when it began, [cur] what it sees now. *)
Fixpoint visible (h : history) (base cur : view) : view :=
  match h with
  | Done => cur
  | Put k v r => visible r base (put cur k v)
  | Call body r => visible r base (visible body cur cur)
  | Drop r => visible r base base
  end.
(** The operations it stands for. *)
Fixpoint ops (h : history) : list tb_op :=
  match h with
  | Done => []
  | Put k v r => OpSet k v :: ops r
  | Call body r => OpEnter :: ops body ++ OpLeave :: ops r
  | Drop r => OpRevert :: ops r
  end.
