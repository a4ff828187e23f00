(** The BTP state: networks, network types and public keys, and what becomes of
    them at the end of a block.

    Source: /repo/service/state/btp.go, with the calls of /repo/service/transition.go
    and /repo/havah/chainscore_btp.go; Update and NewProofContextMap of
    /repo/btp/proofcontextmap.go.

    Simplifications, once for the file.  The databases of the system SCORE are
    functions from their keys.  Addresses are numbers.  The masks of DSA modules are left out.
    Modules, their canonical keys, their keys of a DSA key and their proof
    contexts are parameters.  A call that fails changes nothing: its frame is
    reset (C61, C62), so calls inside reset frames do not appear. *)
From Verif Require Import Model.Bytes Model.BtpSection Spec.BtpSectionSpec.
Open Scope Z_scope.

(** btp.go:945-955, without name and height *)
Record net := mk_net { n_type : Z; n_owner : Z; n_open : bool; n_sn : Z; n_changed : bool; n_prev : option bytes; n_last : option bytes }.
(** btp.go:862-867 *)
Record ntype := mk_ntype { t_uid : bytes; t_pc : option bytes; t_open : list Z }.

(** btp.go:36-50: the databases; and the validators of the world state. *)
Record st := mk_st {
  s_net : Z -> option net; s_nid : Z;
  s_type : Z -> option ntype; s_ntid : Z;
  s_by_uid : bytes -> Z; s_active : list Z;
  s_key : Z -> Z -> option bytes; s_owner : bytes -> option Z; s_dsas : list Z;
  s_validators : list Z }.
(** btp.go:246-254, and the messages of the receipts so far: what is new in the block. *)
Record blk := mk_blk {
  b_validators : list Z; b_keys : list (Z * Z);
  b_types : list Z; b_pc : Z -> bool; b_inactive : Z -> bool;
  b_nets : list Z; b_msgs : list (Z * bytes) }.

Definition put {A} (f : Z -> A) (k : Z) (v : A) : Z -> A := fun x => if x =? k then v else f x.
Definition put_b {A} (f : bytes -> A) (k : bytes) (v : A) : bytes -> A := fun x => if bytes_eqb x k then v else f x.
Definition add (l : list Z) (x : Z) : list Z := if existsb (Z.eqb x) l then l else l ++ [x].

Section With.
(** ntm.Modules: the modules and the DSA of each. *)
Variable modules : list bytes.
Variable dsa_of : bytes -> Z.
Variable dsa_known : Z -> bool.
Variable canonical : Z -> bytes -> option bytes.
Variable key_for : bytes -> bytes -> option bytes.
Variable context_of : bytes -> list (option bytes) -> option bytes.
Variable key_hash : bytes -> bytes.

Definition known_module (uid : bytes) : bool := existsb (bytes_eqb uid) modules.

(** btp.go:420-439, [getPubKeysOfValidators]. *)
Definition key_of (s : st) (uid : bytes) (a : Z) : option bytes :=
  match s_key s a (dsa_of uid) with Some k => key_for uid k | None => None end.
Definition keys_of (s : st) (uid : bytes) : list (option bytes) := map (key_of s uid) (s_validators s).
Definition all_keys (l : list (option bytes)) : bool := forallb (fun k => match k with Some _ => true | None => false end) l.

(** btp.go:372-396, 408-416: the flags of types and networks. *)
Definition flag_pc (b : blk) (t : Z) : blk :=
  mk_blk (b_validators b) (b_keys b) (add (b_types b) t) (put (b_pc b) t true) (b_inactive b) (b_nets b) (b_msgs b).
Definition flag_inactive (b : blk) (t : Z) (yn : bool) : blk :=
  mk_blk (b_validators b) (b_keys b) (add (b_types b) t) (b_pc b) (put (b_inactive b) t yn) (b_nets b) (b_msgs b).
Definition flag_net (b : blk) (n : Z) : blk :=
  mk_blk (b_validators b) (b_keys b) (b_types b) (b_pc b) (b_inactive b) (add (b_nets b) n) (b_msgs b).

(** btp.go:441-526, [OpenNetwork]: the type, then the network. *)
Definition type_to_open (s : st) (b : blk) (uid : bytes) : option (st * blk * Z * ntype) :=
  if known_module uid then
    let t := s_by_uid s uid in
    if t =? 0 then
      let t := s_ntid s + 1 in
      if existsb (Z.eqb (dsa_of uid)) (s_dsas s) then
        let keys := keys_of s uid in
        if all_keys keys then
          match context_of uid keys with
          | None => None
          | Some pc => Some (mk_st (s_net s) (s_nid s) (s_type s) t (put_b (s_by_uid s) uid t) (s_active s ++ [t])
                                   (s_key s) (s_owner s) (s_dsas s) (s_validators s), b, t, mk_ntype uid (Some pc) [])
          end
        else None
      else None
    else
      match s_type s t with
      | None => None
      | Some nt => Some (s, match t_open nt with [] => flag_pc b t | _ => b end, t, nt)
      end
  else None.
Definition do_open (s : st) (b : blk) (uid : bytes) (owner : Z) : option (st * blk) :=
  match type_to_open s b uid with
  | None => None
  | Some (s, b, t, nt) =>
      let n := s_nid s + 1 in
      Some (mk_st (put (s_net s) n (Some (mk_net t owner true 0 true None None))) n
                  (put (s_type s) t (Some (mk_ntype (t_uid nt) (t_pc nt) (t_open nt ++ [n])))) (s_ntid s)
                  (s_by_uid s) (s_active s) (s_key s) (s_owner s) (s_dsas s) (s_validators s),
            flag_inactive (flag_net b n) t false)
  end.

(** btp.go:899-909, [RemoveOpenNetworkID]. *)
Fixpoint remove_first (l : list Z) (x : Z) : option (list Z) :=
  match l with
  | [] => None
  | y :: r => if y =? x then Some r else match remove_first r x with Some r' => Some (y :: r') | None => None end
  end.
(** btp.go:528-559, [CloseNetwork]. *)
Definition do_close (s : st) (b : blk) (n : Z) : option (st * blk) :=
  match s_net s n with
  | None => None
  | Some w =>
      match s_type s (n_type w) with
      | None => None
      | Some nt =>
          match remove_first (t_open nt) n with
          | None => None
          | Some l =>
              Some (mk_st (put (s_net s) n (Some (mk_net (n_type w) (n_owner w) false (n_sn w) (n_changed w) (n_prev w) (n_last w)))) (s_nid s)
                          (put (s_type s) (n_type w) (Some (mk_ntype (t_uid nt) (t_pc nt) l))) (s_ntid s)
                          (s_by_uid s) (s_active s) (s_key s) (s_owner s) (s_dsas s) (s_validators s),
                    match l with [] => flag_inactive b (n_type w) true | _ => b end)
          end
      end
  end.

(** btp.go:561-583, [HandleMessage], and chainscore_btp.go:88-115: the message of the receipt. *)
Definition do_send (s : st) (b : blk) (from n : Z) (msg : bytes) : option (st * blk) :=
  match s_net s n with
  | None => None
  | Some w =>
      if n_open w then
        if from =? n_owner w then
          let b := flag_net b n in
          Some (mk_st (put (s_net s) n (Some (mk_net (n_type w) (n_owner w) (n_open w) (n_sn w + 1) (n_changed w) (n_prev w) (n_last w)))) (s_nid s)
                      (s_type s) (s_ntid s) (s_by_uid s) (s_active s) (s_key s) (s_owner s) (s_dsas s) (s_validators s),
                mk_blk (b_validators b) (b_keys b) (b_types b) (b_pc b) (b_inactive b) (b_nets b) (b_msgs b ++ [(n, msg)]))
        else None
      else None
  end.

(** btp.go:633-651: for each module of the DSA. *)
Fixpoint note_change (s : st) (from name : Z) (mods : list bytes) (l : list (Z * Z)) : option (list (Z * Z)) :=
  match mods with
  | [] => Some l
  | uid :: r =>
      if dsa_of uid =? name then
        let t := s_by_uid s uid in
        if t =? 0 then note_change s from name r l
        else match s_type s t with
             | None => None
             | Some nt => note_change s from name r (match t_open nt with [] => l | _ => l ++ [(from, t)] end)
             end
      else note_change s from name r l
  end.
(** btp.go:585-655, [SetPublicKey]. *)
Definition store_key (s : st) (from name : Z) (k : option bytes) : st :=
  let owner := match s_key s from name with Some old => put_b (s_owner s) (key_hash old) None | None => s_owner s end in
  let owner := match k with Some k => put_b owner (key_hash k) (Some from) | None => owner end in
  mk_st (s_net s) (s_nid s) (s_type s) (s_ntid s) (s_by_uid s) (s_active s)
    (put (s_key s) from (put (s_key s from) name k)) owner
    (match k with Some _ => add (s_dsas s) name | None => s_dsas s end) (s_validators s).
Definition do_set_key (s : st) (b : blk) (from name : Z) (pub : bytes) : option (st * blk) :=
  if dsa_known name then
    match (match pub with [] => Some None | _ => match canonical name pub with Some k => Some (Some k) | None => None end end) with
    | None => None
    | Some k =>
        if match k with Some k => match s_owner s (key_hash k) with Some a => negb (a =? from) | None => false end | None => false end then None
        else if match s_key s from name, k with Some o, Some k => bytes_eqb o k | Some o, None => bytes_eqb o [] | None, _ => false end then Some (s, b)
        else
          let s' := store_key s from name k in
          match note_change s' from name modules (b_keys b) with
          | None => None
          | Some l => Some (s', mk_blk (b_validators b) l (b_types b) (b_pc b) (b_inactive b) (b_nets b) (b_msgs b))
          end
    end
  else None.

Inductive op := Open (uid : bytes) (owner : Z) | Close (n : Z) | SendTo (from n : Z) (msg : bytes)
  | SetKey (from name : Z) (pub : bytes) | Validators (l : list Z).
Definition do_op (s : st) (b : blk) (o : op) : option (st * blk) :=
  match o with
  | Open uid owner => do_open s b uid owner
  | Close n => do_close s b n
  | SendTo from n msg => do_send s b from n msg
  | SetKey from name pub => do_set_key s b from name pub
  | Validators l => Some (mk_st (s_net s) (s_nid s) (s_type s) (s_ntid s) (s_by_uid s) (s_active s) (s_key s) (s_owner s) (s_dsas s) l, b)
  end.
Definition step (w : st * blk) (o : op) : st * blk := match do_op (fst w) (snd w) o with Some w' => w' | None => w end.

(** transition.go:735-748: a new world state, and [StoreValidators]. *)
Definition begin (s : st) : blk := mk_blk (s_validators s) [] [] (fun _ => false) (fun _ => false) [] [].

(** btp.go:358-370 *)
Fixpoint same_list (a b : list Z) : bool :=
  match a, b with [], [] => true | x :: a, y :: b => (x =? y) && same_list a b | _, _ => false end.
(** btp.go:769-804, [checkAndApplyValidatorChange]. *)
Definition changed_types (s : st) (b : blk) : list Z :=
  if same_list (b_validators b) (s_validators s)
  then flat_map (fun a => map snd (filter (fun x => fst x =? a) (b_keys b))) (b_validators b)
  else s_active s.
Fixpoint flag_all (s : st) (b : blk) (l : list Z) : option blk :=
  match l with
  | [] => Some b
  | t :: r =>
      match s_type s t with
      | None => None
      | Some nt => flag_all s (fold_left flag_net (t_open nt) (flag_pc b t)) r
      end
  end.

(** btp.go:665-697, [update] of types.  The loop over the map changes each type
    on its own, so it is a change of all at once. *)
Definition flagged (b : blk) (t : Z) : bool := b_pc b t || b_inactive b t.
Definition new_context (s : st) (nt : ntype) : option (option bytes) :=
  match t_open nt with
  | [] => Some None
  | _ => match context_of (t_uid nt) (keys_of s (t_uid nt)) with Some pc => Some (Some pc) | None => None end
  end.
Definition update_ok (s : st) (b : blk) : bool :=
  forallb (fun t => negb (flagged b t) || match s_type s t with Some nt => match new_context s nt with Some _ => true | None => false end | None => false end) (b_types b).
Definition update_type (s : st) (b : blk) (t : Z) : option ntype :=
  match s_type s t with
  | Some nt => if flagged b t then match new_context s nt with Some pc => Some (mk_ntype (t_uid nt) pc (t_open nt)) | None => Some nt end else Some nt
  | None => None
  end.
(** btp.go:699-713, of networks. *)
Definition update_net (s : st) (b : blk) (n : Z) : option net :=
  match s_net s n with
  | Some w =>
      if existsb (Z.eqb n) (b_nets b)
      then Some (mk_net (n_type w) (n_owner w) (n_open w) (n_sn w)
                   (match n_last w with Some (_ :: _) => flagged b (n_type w) | _ => true end) (n_prev w) (n_last w))
      else Some w
  | None => None
  end.
Definition update (s : st) (b : blk) : st :=
  mk_st (update_net s b) (s_nid s) (update_type s b) (s_ntid s) (s_by_uid s) (s_active s) (s_key s) (s_owner s) (s_dsas s) (s_validators s).

(** What the builder of sections sees (btp.go:95-113). *)
Definition view_of (s : st) : view :=
  mk_view (fun n => match s_net s n with Some w => Some (mk_nw (n_type w) (n_sn w) (n_changed w) (n_last w)) | None => None end)
          (fun t => match s_type s t with Some nt => Some (mk_nt (t_uid nt) (t_pc nt)) | None => None end).

(** btp.go:715-767, [applyBTPSection]. *)
Definition section_for (out : list type_section) (n : Z) : option section :=
  find (fun x => ns_nid x =? n) (flat_map nts_sections out).
Definition apply_net (s : st) (b : blk) (out : list type_section) (n : Z) : option net :=
  match s_net s n with
  | Some w =>
      if existsb (Z.eqb n) (b_nets b)
      then match section_for out n with
           | Some x => Some (mk_net (n_type w) (n_owner w) (n_open w) (n_sn w) (n_changed w) (n_last w) (Some (ns_hash x)))
           | None => Some w
           end
      else Some w
  | None => None
  end.
Definition apply_sections (s : st) (b : blk) (out : list type_section) : st :=
  mk_st (apply_net s b out) (s_nid s) (s_type s) (s_ntid s) (s_by_uid s) (s_active s) (s_key s) (s_owner s) (s_dsas s) (s_validators s).

Variable H : bytes -> bytes -> bytes.
Variable pc_hash : bytes -> option bytes -> option (option bytes).

(** btp.go:806-841, [BuildAndApplySection]: the calls of the builder, in the order
    of the walk over the map of networks. *)
Definition calls_of (nets : list Z) (msgs : list (Z * bytes)) : list call := map Ensure nets ++ map (fun x => Send (fst x) (snd x)) msgs.
Definition finish (s : st) (b : blk) (nets : list Z -> list Z) (walk : entries -> entries) (shuffle : by_type -> by_type) : option (st * blk * list type_section) :=
  match flag_all s b (changed_types s b) with
  | None => None
  | Some b =>
      if update_ok s b then
        let s := update s b in
        match build H pc_hash (view_of s) (walk (after (calls_of (nets (b_nets b)) (b_msgs b)))) shuffle with
        | None => None
        | Some out => Some (apply_sections s b out, b, out)
        end
      else None
  end.

(** A block: its operations, then the end. *)
Definition run_block (s : st) (ops : list op) nets walk shuffle : option (st * blk * list type_section) :=
  let w := fold_left step ops (s, begin s) in finish (fst w) (snd w) nets walk shuffle.

(** proofcontextmap.go:55-85, [Update] with the section of the builder: the
    contexts of types whose section changed them, without those inactivated. *)
Definition update_contexts (m : Z -> option bytes) (s : st) (b : blk) (out : list type_section) : Z -> option bytes :=
  fun t => if b_inactive b t then None
           else match find (fun x => nts_id x =? t) out with
                | Some x => if nts_changed x then match s_type s t with Some nt => Some (match t_pc nt with Some pc => pc | None => [] end) | None => Some [] end else m t
                | None => m t
                end.
(** proofcontextmap.go:144-167, [NewProofContextMap] of the state. *)
Definition contexts_of (s : st) : Z -> option bytes :=
  fun t => match s_type s t with Some nt => t_pc nt | None => None end.
End With.
