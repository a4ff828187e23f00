(** What a user of the write-ahead log relies on: records, no bytes.

    The log is a list of closed files and one open file, each a list of records.
    The first [safe] records of the open file, and all those of the closed ones,
    are safe from a crash. *)
Require Import ZArith List Bool.
From Verif Require Import Model.Wal.
Import ListNotations.
Open Scope Z_scope.

Record log := mkLog { closed : list (list bytes); open : list bytes; safe : nat }.

Definition empty_log : log := mkLog [] [] 0.

Definition records (l : log) : list bytes := concat (closed l) ++ open l.
Definition safe_records (l : log) : list bytes := concat (closed l) ++ firstn (safe l) (open l).

(** A record takes eight bytes more than its payload. *)
Definition space (rs : list bytes) : Z := fold_right (fun p n => 8 + Z.of_nat (length p) + n) 0 rs.

(** How many whole records are in the first [n] bytes of a file. *)
Fixpoint whole (rs : list bytes) (n : Z) : nat :=
  match rs with
  | [] => O
  | p :: r => if 8 + Z.of_nat (length p) <=? n then S (whole r (n - (8 + Z.of_nat (length p)))) else O
  end.

(** The crash left a piece of a record behind the whole ones. *)
Definition piece (rs : list bytes) (n : Z) : Z := n - space (firstn (whole rs n) rs).

(** The two kinds of pieces the code does not cope with: exactly the header of
    a record, and a piece of the first record of a file which is not the only
    one. *)
Definition bad_tear (l : log) (n : Z) : Prop :=
  piece (open l) n = 8 \/
  (piece (open l) n <> 0 /\ whole (open l) n = O /\ closed l <> []).

(** What a step does to the log, and what a start reads ([None] after a bad
    tear, or a housekeeping with limits which make no sense: nothing is
    promised). *)
Inductive log_step : option log -> op -> list bytes -> option log -> Prop :=
| s_write l p :
    log_step (Some l) (Write p) [] (Some (mkLog (closed l) (open l ++ [p]) (safe l)))
| s_flush l k :
    log_step (Some l) (Flush k) [] (Some l)
| s_sync l :
    log_step (Some l) Sync [] (Some (mkLog (closed l) (open l) (length (open l))))
| s_shift l :
    log_step (Some l) Shift [] (Some (mkLog (closed l ++ [open l]) [] 0))
| s_housekeep l l' f t d :
    (* it closes the open file if it has more than [f] bytes *)
    (l' = l \/ (l' = mkLog (closed l ++ [open l]) [] 0 /\ f < space (open l))) ->
    (* and forgets the [d] oldest closed files, not more than needed and enough
       for the safe records *)
    (d <= length (closed l'))%nat ->
    (forall i, (i < d)%nat -> t < space (concat (skipn i (closed l')) ++ open l')) ->
    space (safe_records l) - space (concat (firstn d (closed l'))) <= t ->
    log_step (Some l) (Housekeep f t) [] (Some (mkLog (skipn d (closed l')) (open l') (safe l')))
| s_limits l f t :
    t < f \/ t < 0 -> log_step (Some l) (Housekeep f t) [] None
| s_crash l n m :
    (* a start reads all but the last few records, and at least the safe ones *)
    ~ bad_tear l n -> m = whole (open l) n -> (safe l <= m <= length (open l))%nat ->
    log_step (Some l) (Crash n) (concat (closed l) ++ firstn m (open l))
             (Some (mkLog (closed l) (firstn m (open l)) (safe l)))
| s_torn l n m :
    (* the same, but the disk is left in a state in which nothing is promised *)
    bad_tear l n -> m = whole (open l) n -> (safe l <= m <= length (open l))%nat ->
    log_step (Some l) (Crash n) (concat (closed l) ++ firstn m (open l)) None
| s_lost o r :
    log_step None o r None.

Inductive log_run : option log -> list op -> list (list bytes) -> option log -> Prop :=
| r_nil l : log_run l [] [] l
| r_crash l n r l1 ops rs l2 :
    log_step l (Crash n) r l1 -> log_run l1 ops rs l2 -> log_run l (Crash n :: ops) (r :: rs) l2
| r_other l o r l1 ops rs l2 :
    (forall n, o <> Crash n) -> log_step l o r l1 -> log_run l1 ops rs l2 ->
    log_run l (o :: ops) rs l2.

(** A record fits if its length, with the header, is a number of 32 bits. *)
Definition fits (o : op) : Prop :=
  match o with Write p => 8 + Z.of_nat (length p) < 2 ^ 32 | _ => True end.
