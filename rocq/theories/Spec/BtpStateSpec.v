(** What the BTP state should be after blocks of any operations. *)
From Verif Require Import Model.Bytes Model.BtpSection Spec.BtpSectionSpec Model.BtpState.
From Coq Require Import Sorting.Permutation.
Open Scope Z_scope.

(** A chain without networks, types and public keys. *)
Definition fresh (s : st) : Prop :=
  (forall n, s_net s n = None) /\ s_nid s = 0 /\ (forall t, s_type s t = None) /\ s_ntid s = 0
  /\ (forall u, s_by_uid s u = 0) /\ s_active s = [] /\ forall a name, s_key s a name = None.

(** The block sets other validators in the end, or never did. *)
Definition settled (s : st) (ops : list op) (s' : st) : Prop :=
  s_validators s' <> s_validators s \/ forall l, In (Validators l) ops -> l = s_validators s.
Definition any (s : st) (ops : list op) (s' : st) : Prop := True.

(** The maps are walked in some order. *)
Definition orders (nets : list Z -> list Z) (walk : entries -> entries) (shuffle : by_type -> by_type) : Prop :=
  (forall l, Permutation l (nets l)) /\ (forall m, Permutation m (walk m)) /\ (forall m, Permutation m (shuffle m)).

Section With.
Variable modules : list bytes.
Variable dsa_of : bytes -> Z.
Variable dsa_known : Z -> bool.
Variable canonical : Z -> bytes -> option bytes.
Variable key_for : bytes -> bytes -> option bytes.
Variable context_of : bytes -> list (option bytes) -> option bytes.
Variable key_hash : bytes -> bytes.
Variable H : bytes -> bytes -> bytes.
Variable pc_hash : bytes -> option bytes -> option (option bytes).

(** A block of these operations was executed. *)
Definition block (s : st) (ops : list op) (s' : st) (b : blk) (out : list type_section) : Prop :=
  exists nets walk shuffle, orders nets walk shuffle
    /\ run_block modules dsa_of dsa_known canonical key_for context_of key_hash H pc_hash s ops nets walk shuffle = Some (s', b, out).

(** The states after blocks that keep to [ok]. *)
Inductive reaches (ok : st -> list op -> st -> Prop) : st -> Prop :=
  | r_fresh s : fresh s -> reaches ok s
  | r_block s ops s' b out : reaches ok s -> block s ops s' b out -> ok s ops s' -> reaches ok s'.

(** The proof context of the present keys of the present validators. *)
Definition right_context (s : st) (uid : bytes) : option bytes :=
  context_of uid (map (fun a => match s_key s a (dsa_of uid) with Some k => key_for uid k | None => None end) (s_validators s)).
End With.

Definition context_in (s : st) (t : Z) : option bytes := match s_type s t with Some nt => t_pc nt | None => None end.
(** What a network had when the block began: nothing if it is new. *)
Definition sn_in (s : st) (n : Z) : Z := match s_net s n with Some w => n_sn w | None => 0 end.
Definition last_in (s : st) (n : Z) : option bytes := match s_net s n with Some w => n_last w | None => None end.
Definition messages_to (n : Z) (msgs : list (Z * bytes)) : list bytes := map snd (filter (fun x => fst x =? n) msgs).
