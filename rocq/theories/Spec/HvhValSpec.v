(** What the validator properties talk about. *)
From Verif Require Import Model.HvhState Model.HvhValidator.
From Coq Require Import ZArith List Bool Arith Permutation.
Import ListNotations.
Open Scope nat_scope.

(** The node an owner validates with, as getValidatorInfo reports it. *)
Definition node (w : vworld) (o : addr) : option addr := option_map vi_node (v_info w o).
Definition registered (w : vworld) (o : addr) : Prop := v_info w o <> None.
Definition disqualified (w : vworld) (o : addr) : Prop := exists s, v_stat w o = Some s /\ vs_disq s = true.
Definition disabled (w : vworld) (o : addr) : Prop := exists s, v_stat w o = Some s /\ vs_disabled s = true.
Definition has_grade (w : vworld) (o : addr) (g : grade) : Prop := exists i, v_info w o = Some i /\ vi_grade i = g.

(** ** Choosing sub validators in turn *)
(** A standby validator that may be seated: enabled, holding the needed keys, and not among [seated]. *)
Definition ready (w : vworld) (seated : list addr) (o : addr) : bool :=
  match v_info w o, v_stat w o with
  | Some i, Some s => negb (has (vi_node i) seated) && negb (vs_disabled s) && negb (vs_disq s) && v_keyed w (vi_node i)
  | _, _ => false
  end.
Definition nodes (w : vworld) (l : list addr) : list addr :=
  flat_map (fun o => match v_info w o with Some i => [vi_node i] | None => [] end) l.
Definition rotation (l : list addr) (i : nat) : list addr := skipn i l ++ firstn i l.
(** [chosen] are the first [count] ready ones, starting at the index; the index moves past what was visited. *)
Definition turn (w : vworld) (seated : list addr) (count : nat) (chosen : list addr) (index : nat) : Prop :=
  exists visited rest start,
    start = (if Nat.leb (length (v_sub w)) (v_index w) then 0 else v_index w) /\
    rotation (v_sub w) start = visited ++ rest /\
    chosen = nodes w (filter (ready w seated) visited) /\
    length chosen <= count /\ (rest <> [] -> length chosen = count) /\
    (length chosen = count -> visited = [] \/ exists v o, visited = v ++ [o] /\ ready w seated o = true) /\
    (v_sub w = [] -> index = v_index w) /\
    (v_sub w <> [] -> index = Nat.modulo (start + length visited) (length (v_sub w))).

(** ** Events.  Following the events from a set of nodes and a count *)
Fixpoint replay (evs : list vevent) (now : addr -> Prop) : addr -> Prop :=
  match evs with
  | [] => now
  | EvRemoved _ n _ :: r => replay r (fun x => now x /\ x <> n)
  | EvAdded _ n :: r => replay r (fun x => now x \/ x = n)
  | _ :: r => replay r now
  end.
Fixpoint recount (evs : list vevent) (c : Z) : option Z :=
  match evs with
  | [] => Some c
  | EvCount a b :: r => if Z.eqb a c then recount r b else None
  | _ :: r => recount r c
  end.

(** ** Histories *)
Definition start (rev : Z) (gov : addr) (active : list addr) (keyed : addr -> bool) : vworld :=
  mkVW rev gov (fun _ => None) (fun _ => None) (fun _ => None) [] [] [] 0 0 None None (mkNet false 0 0 0) active keyed [].
(** Go iterates a map in any order, but visits each entry once. *)
Definition fair (op : vop) : Prop :=
  match op with OBase ix _ order => (0 <= ix)%Z /\ forall l, Permutation (order l) l | _ => True end.
Inductive reached (account_of : list Z -> option Z) : vworld -> list vop -> vworld -> Prop :=
| R_none w : reached account_of w [] w
| R_more w ops w1 op : reached account_of w ops w1 -> fair op -> reached account_of w (ops ++ [op]) (snd (vexec account_of op w1)).

(** ** Votes *)
(** The votes of a block about the nodes an owner has or had. *)
Definition votes_for (w : vworld) (o : addr) (votes : list (addr * bool)) : list bool :=
  map snd (filter (fun p => match v_nto w (fst p) with Some q => addr_eqb q o | None => false end) votes).
(** What an operation lets the network hear about an owner: the votes of a block, if voting is checked at it. *)
Definition heard (account_of : list Z -> option Z) (w : vworld) (op : vop) (o : addr) : list bool :=
  match op with
  | OBase ix votes _ =>
      let period := ns_period (v_net w) in
      match vexec account_of op w with
      | (None, w') => if ns_decent (v_net w') && (0 <? period)%Z && (ix mod period =? 0)%Z then votes_for w o votes else []
      | (Some _, _) => []
      end
  | _ => []
  end.
(** After [before] misses in a row, [bs] is heard: does a run of more than [allow] misses end in it? *)
Definition struck (allow : Z) (before : nat) (bs : list bool) : Prop :=
  exists pre k post, repeat false before ++ bs = pre ++ repeat false k ++ post /\ (allow < Z.of_nat k)%Z /\ length post < length bs.
(** A history in which nobody enables [o] and the allowance stays, and all that is heard about [o] in it *)
Inductive watched (account_of : list Z -> option Z) (o : addr) (allow : Z) : vworld -> list bool -> vworld -> Prop :=
| W_none w : watched account_of o allow w [] w
| W_more w bs w1 op w2 : watched account_of o allow w bs w1 -> fair op -> (forall from, op <> OEnable from o) ->
    w2 = snd (vexec account_of op w1) -> ns_allow (v_net w2) = allow ->
    watched account_of o allow w (bs ++ heard account_of w1 op o) w2.
(** A history in which governance does not enable [o], and how often [o] got enabled in it *)
Inductive revived (account_of : list Z -> option Z) (o : addr) : vworld -> nat -> vworld -> Prop :=
| V_none w : revived account_of o w 0 w
| V_more w k w1 op w2 again : revived account_of o w k w1 -> fair op -> op <> OEnable (v_gov w1) o ->
    w2 = snd (vexec account_of op w1) -> (again = 1 <-> disabled w1 o /\ ~ disabled w2 o) -> again <= 1 ->
    revived account_of o w (k + again) w2.
