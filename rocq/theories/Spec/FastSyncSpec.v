(** Histories of the client which fetches blocks, and what is wanted of them.

    The caller begins and cancels requests and answers, once, each block it is
    notified of; peers come and go, send what they like and when they like, and
    timers fire.  Messages to peers are sent, put off or fail as [net] says,
    which each step is given. *)
From Coq Require Import ZArith List Bool Arith.
From Verif Require Import Model.Bytes Model.FastSync.
Import ListNotations.
Open Scope Z_scope.

Inductive op :=
| Fetch (net : peer_id -> outcome) (first last : Z) (ids : list peer_id)
| Join (net : peer_id -> outcome) (i : peer_id)
| Leave (net : peer_id -> outcome) (i : peer_id)
| Receive (net : peer_id -> outcome) (i : peer_id) (m : message)
| Timer (net : peer_id -> outcome) (i : peer_id) (no : nat)
| Consume (net : peer_id -> outcome) (n : nat)  (* the [n]-th block which is not answered yet *)
| Reject (net : peer_id -> outcome) (n : nat)
| Cancel.

(** What can be seen from outside; requests have numbers. *)
Inductive event :=
| EBegin (of : nat) (first last : Z)
| EBlock (r : result)
| EConsumed (r : result)
| ERejected (r : result)
| EEnd (of : nat) (err : bool)
| ECancel (of : nat).

(** The client, and the blocks it has notified the caller of which are not
    answered. *)
Record sys := mkSys { s_client : client; s_out : list result }.
Definition start : sys := mkSys (mkClient 0 0 None) [].

Definition event_of (o : output) : event :=
  match o with OnBlock r => EBlock r | OnEnd n err => EEnd n err end.
Definition blocks_of (l : list output) : list result :=
  flat_map (fun o => match o with OnBlock r => [r] | OnEnd _ _ => [] end) l.

(** The request after a step, and what was called. *)
Definition settle (s : sys) (before : list event) (d : done) : option (sys * list event) :=
  match d with
  | None => None
  | Some (q, out) => Some (mkSys (mkClient (c_fetch (s_client s)) (c_next (s_client s)) q) (s_out s ++ blocks_of out),
                           before ++ map event_of out)
  end.

Definition with_req (s : sys) (f : request -> done) : option (sys * list event) :=
  match c_req (s_client s) with
  | None => Some (s, [])
  | Some q => settle s [] (f q)
  end.

Section Sys.
  Variable parse : bytes -> option Z.

  (** [None]: a panic. *)
  Definition step (s : sys) (o : op) : option (sys * list event) :=
    match o with
    | Fetch net b e ids =>
        match c_req (s_client s) with
        | Some _ => Some (s, [])  (* "already in use" *)
        | None => match fetch_blocks net (s_client s) b e ids with
                  | None => None
                  | Some c => Some (mkSys c (s_out s), [EBegin (c_next (s_client s)) b e])
                  end
        end
    | Join net i => with_req s (fun q => go_on (on_join net q i))
    | Leave net i => with_req s (fun q => go_on (on_leave net q i))
    | Receive net i m => with_req s (fun q => on_receive parse net q i m)
    | Timer net i no => with_req s (fun q => on_timer net q i no)
    | Consume net n =>
        match nth_error (s_out s) n with
        | None => Some (s, [])
        | Some r =>
            let s' := mkSys (s_client s) (drop_nth n (s_out s)) in
            match c_req (s_client s) with
            | Some q => if Nat.eqb (q_no q) (r_of r) then settle s' [EConsumed r] (consume net q) else Some (s', [EConsumed r])
            | None => Some (s', [EConsumed r])
            end
        end
    | Reject net n =>
        match nth_error (s_out s) n with
        | None => Some (s, [])
        | Some r =>
            let s' := mkSys (s_client s) (drop_nth n (s_out s)) in
            match c_req (s_client s) with
            | Some q => if Nat.eqb (q_no q) (r_of r) then settle s' [ERejected r] (reject net q r) else Some (s', [ERejected r])
            | None => Some (s', [ERejected r])
            end
        end
    | Cancel =>
        match c_req (s_client s) with
        | None => Some (s, [])
        | Some q => Some (mkSys (mkClient (c_fetch (s_client s)) (c_next (s_client s)) None) (s_out s), [ECancel (q_no q)])
        end
    end.

  Fixpoint run (s : sys) (l : list op) : option (sys * list event) :=
    match l with
    | [] => Some (s, [])
    | o :: rest =>
        match step s o with
        | None => None
        | Some (s1, e1) => match run s1 rest with
                           | None => None
                           | Some (s2, e2) => Some (s2, e1 ++ e2)
                           end
        end
    end.

  (** ** What one request may be seen to do *)

  Inductive phase :=
  | NotYet
  | Running (waiting : option result) (next last : Z)  (* a block to be answered; the height to come *)
  | Over (waiting : option result).

  Inductive moves (n : nat) : phase -> event -> phase -> Prop :=
  | m_begin b e : moves n NotYet (EBegin n b e) (Running None b e)
  | m_block r e : r_of r = n -> parse (r_data r) = Some (r_height r) -> r_height r <= e ->
      moves n (Running None (r_height r) e) (EBlock r) (Running (Some r) (r_height r) e)
  | m_consumed r h e : r_of r = n -> moves n (Running (Some r) h e) (EConsumed r) (Running None (h + 1) e)
  | m_rejected r h e : r_of r = n -> moves n (Running (Some r) h e) (ERejected r) (Running None h e)
  | m_end h e err : moves n (Running None h e) (EEnd n err) (Over None)
  | m_cancel w h e : moves n (Running w h e) (ECancel n) (Over w)
  | m_late r ev : r_of r = n -> ev = EConsumed r \/ ev = ERejected r -> moves n (Over (Some r)) ev (Over None).

  Definition number (e : event) : nat :=
    match e with
    | EBegin n _ _ | EEnd n _ | ECancel n => n
    | EBlock r | EConsumed r | ERejected r => r_of r
    end.

  Inductive follows (n : nat) : phase -> list event -> phase -> Prop :=
  | f_nil p : follows n p [] p
  | f_other p e l p' : number e <> n -> follows n p l p' -> follows n p (e :: l) p'
  | f_move p e p1 l p' : moves n p e p1 -> follows n p1 l p' -> follows n p (e :: l) p'.
End Sys.

(** The heights of the blocks of a request which were taken, in order. *)
Definition taken (n : nat) (l : list event) : list Z :=
  flat_map (fun e => match e with EConsumed r => if Nat.eqb (r_of r) n then [r_height r] else [] | _ => [] end) l.

Fixpoint upwards (h : Z) (n : nat) : list Z :=
  match n with O => [] | S k => h :: upwards (h + 1) k end.

(** The network names each of its peers once. *)
Definition plain (o : op) : Prop := match o with Fetch _ _ _ ids => NoDup ids | _ => True end.

(** ** Where nothing goes wrong *)

(** A peer which is fetching. *)
Definition busy (q : request) (i : peer_id) : Prop := exists p f, In p (q_peers q) /\ p_id p = i /\ p_f p = Some f.

Definition never_fails (net : peer_id -> outcome) : Prop := forall i, net i <> Failed.

(** No request fails to be sent to a peer, and no block is rejected whose peer
    is fetching another. *)
Definition mild (s : sys) (o : op) : Prop :=
  match o with
  | Fetch net b e _ => never_fails net /\ b <= e
  | Join net _ | Leave net _ | Receive net _ _ | Consume net _ => never_fails net
  | Timer net i _ => forall j, j <> i -> net j <> Failed
  | Reject net n =>
      never_fails net /\
      forall r q, nth_error (s_out s) n = Some r -> c_req (s_client s) = Some q -> q_no q = r_of r -> ~ busy q (r_peer r)
  | Cancel => True
  end.

Fixpoint mild_all (parse : bytes -> option Z) (s : sys) (l : list op) : Prop :=
  match l with
  | [] => True
  | o :: rest => mild s o /\ forall s' e, step parse s o = Some (s', e) -> mild_all parse s' rest
  end.

(** The peer's request can time out. *)
Definition armed (q : request) (i : peer_id) (no : nat) : Prop :=
  exists p f, In p (q_peers q) /\ p_id p = i /\ p_f p = Some f /\ f_no f = no /\ f_timer f <> None.

Definition wants (q : request) (h : Z) : Prop :=
  In h (additional (q_hs q))
  \/ (exists p f, In p (q_peers q) /\ p_f p = Some f /\ f_height f = h)
  \/ (exists r, In (Some r) (q_pending q) /\ r_height r = h).
