(** Double signs: which messages accuse, how a node finds them, and how they are reported.

    Source: /repo/consensus/doublesigndata.go, /repo/consensus/dsmlog.go,
    /repo/common/cache/costerrandom.go, /repo/service/dsrmanager.go.

    Simplifications, once for the file.  Messages are those whose signature is
    valid, so they have a signer.  Locks make each call one step. *)
From Verif Require Import Model.Bytes.
Open Scope Z_scope.

(** consensus/votebase.go:48-53 with the time stamp (message.go:259-272): what a vote signs. *)
Record vote_body := mk_vote_body {
  v_type : Z; v_height : Z; v_round : Z; v_bid : bytes;
  v_bps : option (bytes * Z);     (** part set ID and application data *)
  v_ts : Z }.
(** message.go:98-103, what a proposal signs. *)
Record prop_body := mk_prop_body { p_height : Z; p_round : Z; p_bps : bytes; p_pol : Z; p_nid : Z }.
(** A signed message: message.go:274-279 and :148-151; the last number is the size of what is not signed. *)
Inductive msg :=
  | Vote (b : vote_body) (sig : bytes) (more : Z)
  | Prop_ (b : prop_body) (sig : bytes).

(** dsmlog.go:25-31 *)
Record key := mk_key { k_prop : bool; k_type : Z; k_addr : bytes; k_height : Z; k_round : Z }.
Definition key_eqb (a b : key) : bool :=
  Bool.eqb (k_prop a) (k_prop b) && (k_type a =? k_type b) && bytes_eqb (k_addr a) (k_addr b)
  && (k_height a =? k_height b) && (k_round a =? k_round b).

(** doublesigndata.go:28-33 *)
Definition match_nid (a b : Z) : bool := if (a =? 0) || (b =? 0) then true else a =? b.

Section Crypto.
(** Hashes, signers (signedbase.go:32-49) and networks: votebase.go:134-145, 0 if unreadable. *)
Variable vhash : vote_body -> bytes.
Variable phash : prop_body -> bytes.
Variable signer : bytes -> bytes -> bytes.
Variable nid_app : Z -> Z.
Variable nid_bid : bytes -> Z.
(** message.go:281-288 and :159-161 *)
Variable cost : msg -> Z.

(** votebase.go:134-145 *)
Definition vote_nid (b : vote_body) : Z := match v_bps b with None => nid_bid (v_bid b) | Some (_, app) => nid_app app end.
(** signedbase.go:24-30 *)
Definition hash_of (m : msg) : bytes := match m with Vote b _ _ => vhash b | Prop_ b _ => phash b end.
Definition sig_of (m : msg) : bytes := match m with Vote _ s _ => s | Prop_ _ s => s end.
(** signedbase.go:43-49 *)
Definition signer_of (m : msg) : bytes := signer (hash_of m) (sig_of m).
Definition height_of (m : msg) : Z := match m with Vote b _ _ => v_height b | Prop_ b _ => p_height b end.
(** dsmlog.go:43-55 *)
Definition key_of (m : msg) : key :=
  match m with
  | Vote b _ _ => mk_key false (v_type b) (signer_of m) (v_height b) (v_round b)
  | Prop_ b _ => mk_key true 0 (signer_of m) (p_height b) (p_round b)
  end.

(** doublesigndata.go:59-80 and :115-132, [IsConflictWith]; the network of a
    vote is compared to itself (lines 67 and 68). *)
Definition conflict (m1 m2 : msg) : bool :=
  match m1, m2 with
  | Vote b1 _ _, Vote b2 _ _ =>
      if negb (match_nid (vote_nid b1) (vote_nid b1)) then false
      else if negb (v_type b2 =? v_type b1) || negb (v_height b2 =? v_height b1) || negb (v_round b2 =? v_round b1)
              || negb (bytes_eqb (signer_of m2) (signer_of m1)) then false
      else negb (bytes_eqb (hash_of m1) (hash_of m2))
  | Prop_ b1 _, Prop_ b2 _ =>
      if negb (match_nid (p_nid b1) (p_nid b2)) then false
      else if negb (p_height b1 =? p_height b2) || negb (p_round b1 =? p_round b2)
              || negb (bytes_eqb (signer_of m2) (signer_of m1)) then false
      else negb (bytes_eqb (hash_of m1) (hash_of m2))
  | _, _ => false
  end.

(** costerrandom.go:27-33 *)
Record cache := mk_cache { c_cap : Z; c_sum : Z; c_kv : key -> option msg; c_keys : list key }.
(** costerrandom.go:36-45 *)
Definition new_cache (cap : Z) : cache := mk_cache cap 0 (fun _ => None) [].
Definition upd (f : key -> option msg) (k : key) (v : option msg) : key -> option msg := fun x => if key_eqb x k then v else f x.
Fixpoint set_nth (l : list key) (i : nat) (k : key) : list key :=
  match l, i with [], _ => [] | _ :: r, O => k :: r | x :: r, S j => x :: set_nth r j k end.
(** costerrandom.go:70-85: the loop; [r] has the random numbers, one for each
    number of keys; [None] is a panic (division by zero, index out of range, no
    value).  The loop ends when the sum is in the cap; [fuel] is the number of keys. *)
Fixpoint evict (fuel : nat) (r : nat -> nat) (k : key) (c : cache) : option cache :=
  if c_sum c <=? c_cap c then Some c
  else match fuel with
  | O => None
  | S f =>
      let n := length (c_keys c) in
      if (n <=? 1)%nat then None
      else
        let ei := Nat.modulo (r n) (n - 1) in
        let ek := nth ei (c_keys c) k in
        let last := nth (n - 1) (c_keys c) k in
        let (victim, ks) := if key_eqb ek k then (last, c_keys c) else (ek, set_nth (c_keys c) ei last) in
        match c_kv c victim with
        | None => None
        | Some v => evict f r k (mk_cache (c_cap c) (c_sum c - cost v) (upd (c_kv c) victim None) (firstn (n - 1) ks))
        end
  end.
(** costerrandom.go:58-86, [Put]. *)
Definition put (r : nat -> nat) (c : cache) (k : key) (v : msg) : option cache :=
  if c_cap c <? cost v then Some c
  else
    let (s, ks) := match c_kv c k with Some o => (c_sum c - cost o, c_keys c) | None => (c_sum c, c_keys c ++ [k]) end in
    evict (length ks) r k (mk_cache (c_cap c) (s + cost v) (upd (c_kv c) k (Some v)) ks).

(** dsmlog.go:77-105: the cache after the message, and the report; the type
    assertions of lines 64 and 74 hold as a key has the kind of its message. *)
Definition log_and_check (r : nat -> nat) (c : cache) (m : msg) : option (cache * option (msg * msg)) :=
  match c_kv c (key_of m) with
  | Some o =>
      if conflict o m then Some (c, Some (o, m))
      else match m with
           | Prop_ _ _ => Some (c, None)
           | Vote _ _ _ => match put r c (key_of m) m with Some c' => Some (c', None) | None => None end
           end
  | None => match put r c (key_of m) m with Some c' => Some (c', None) | None => None end
  end.

(** All messages in turn, each with its random numbers; the reports in order. *)
Fixpoint log_all (c : cache) (l : list (msg * (nat -> nat))) : option (cache * list (msg * msg)) :=
  match l with
  | [] => Some (c, [])
  | (m, r) :: rest =>
      match log_and_check r c m with
      | None => None
      | Some (c', rep) =>
          match log_all c' rest with
          | None => None
          | Some (c'', reps) => Some (c'', match rep with Some p => p :: reps | None => reps end)
          end
      end
  end.
End Crypto.

(** dsrmanager.go:111-118; the data is that of the report. *)
Record report := mk_report { r_height : Z; r_signer : bytes; r_data : msg * msg }.
(** dsrmanager.go:121-127; the map [reports] has the reports of both lists. *)
Record manager := mk_manager { g_todo : list report; g_done : list (Z * bytes); g_first : Z }.
Definition new_manager : manager := mk_manager [] [] (-1).
(** dsrmanager.go:130-138; the list is given backwards. *)
Fixpoint insert_back {A} (h : A -> Z) (rev_l : list A) (x : A) : list A :=
  match rev_l with [] => [x] | y :: r => if h y <=? h x then x :: y :: r else y :: insert_back h r x end.
Definition add_in_order {A} (h : A -> Z) (l : list A) (x : A) : list A := rev (insert_back h (rev l) x).
(** dsrmanager.go:34-36 *)
Definition same_report (h : Z) (s : bytes) (h' : Z) (s' : bytes) : bool := (h =? h') && bytes_eqb s s'.
Definition in_todo (g : manager) (h : Z) (s : bytes) : bool := existsb (fun x => same_report h s (r_height x) (r_signer x)) (g_todo g).
Definition in_done (g : manager) (h : Z) (s : bytes) : bool := existsb (fun x => same_report h s (fst x) (snd x)) (g_done g).

(** dsrmanager.go:140-180, [Add]: [None] is an error. *)
Definition add_report (conflicts : bool) (g : manager) (h : Z) (s : option bytes) (d : msg * msg) : option manager :=
  if (g_first g =? -1) || (h <? g_first g) then None
  else if negb conflicts then None
  else match s with
  | None => None
  | Some a =>
      if in_todo g h a || in_done g h a then Some g
      else Some (mk_manager (add_in_order r_height (g_todo g) (mk_report h a d)) (g_done g) (g_first g))
  end.
(** dsrmanager.go:182-210, [Candidate]: the reports of the transactions; [has] is the tracker. *)
Definition candidates (g : manager) (has : Z -> bytes -> bool) (first height : Z) : list report :=
  filter (fun r => negb ((r_height r <? first) || (height <? r_height r)) && negb (has (r_height r) (r_signer r))) (g_todo g).
(** dsrmanager.go:241-263, [Commit], for one. *)
Definition commit_one (g : manager) (x : Z * bytes) : manager :=
  if in_todo g (fst x) (snd x) then
    mk_manager (filter (fun r => negb (same_report (fst x) (snd x) (r_height r) (r_signer r))) (g_todo g)) (add_in_order fst (g_done g) x) (g_first g)
  else if in_done g (fst x) (snd x) then g
  else mk_manager (g_todo g) (add_in_order fst (g_done g) x) (g_first g).
(** dsrmanager.go:212-239, [setFirstHeightInLock]. *)
Definition set_first (g : manager) (h : Z) : manager :=
  if h <=? g_first g then g
  else mk_manager (filter (fun r => negb (r_height r <? h)) (g_todo g)) (filter (fun x => negb (fst x <? h)) (g_done g)) h.

(** What a node does. *)
Inductive op :=
  | Add (conflicts : bool) (h : Z) (s : option bytes) (d : msg * msg)
  | Commit (l : list (Z * bytes))
  | Finalize (first : option Z).     (** dsrmanager.go:278-291 *)
Definition step (g : manager) (o : op) : manager :=
  match o with
  | Add c h s d => match add_report c g h s d with Some g' => g' | None => g end
  | Commit l => fold_left commit_one l g
  | Finalize (Some h) => set_first g h
  | Finalize None => g
  end.
