(** What is dropped and what is committed in a history.

    Specification of /repo/service/txidmanager.go and /repo/service/txidcache.go. *)
From Verif Require Import Model.Bytes Model.TxDropped.
Open Scope Z_scope.

(** A node after [h], with slots of [dur] microseconds for [size] IDs. *)
Definition after (dur size th0 : Z) (h : list action) : mgr := fold_left act h (new_mgr dur size th0).

(** Timestamps of the same period. *)
Definition same_period (dur ts ts' : Z) : Prop := Z.quot ts dur = Z.quot ts' dur.
(** The drops of the period of [ts]. *)
Fixpoint drops_in (dur ts : Z) (h : list action) : nat :=
  match h with
  | [] => O
  | Drop _ ts' :: r => if Z.quot ts' dur =? Z.quot ts dur then S (drops_in dur ts r) else drops_in dur ts r
  | _ :: r => drops_in dur ts r
  end.
(** The time of the last block, and the threshold set last. *)
Definition last_block (h : list action) : Z := fold_left (fun x a => match a with Commit ts _ => ts | _ => x end) h 0.
Definition threshold (th0 : Z) (h : list action) : Z := fold_left (fun x a => match a with SetThreshold th => th | _ => x end) h th0.
(** No block of the history ended its window later than the node ends it now. *)
Definition window_never_back (th0 : Z) (h : list action) : Prop :=
  forall c th, In (Commit c th) h -> c - th <= last_block h - threshold th0 h.
Definition refused (a : answer) : Prop := a = Expired \/ a = Future \/ a = AlreadyDropped.
