(** Catching up: the client which fetches blocks from peers.

    Models [consensus/fastsync/client.go] and [heightset.go].  Every method and
    every timer runs under the mutex of the client, so each is one step.  A
    fetcher is kept in its peer: one which is in no peer has no timer and is sent
    nothing.  The message which tells a peer to cancel is left out (the code
    repeats it with the lock held until it is sent or fails).  Messages are given
    decoded; what cannot be decoded is ignored.  [parse] reads a block and gives
    its height, or fails.  How a message to a peer is sent is given with each
    step ([net]). *)
From Coq Require Import ZArith List Bool Arith.
From Verif Require Import Model.Bytes.
Import ListNotations.
Open Scope Z_scope.

(** ** heightset.go *)

Record heights := mkHeights { h_begin : Z; h_end : Z; additional : list Z }.

(** The least of a list, and its place: the first one. *)
Fixpoint least (m : Z) (mi i : nat) (l : list Z) : Z * nat :=
  match l with
  | [] => (m, mi)
  | v :: r => if v <? m then least v i (S i) r else least m mi (S i) r
  end.

Fixpoint drop_nth {A} (n : nat) (l : list A) : list A :=
  match n, l with
  | O, _ :: r => r
  | S k, x :: r => x :: drop_nth k r
  | _, [] => []
  end.

(** heightset.go:38-52 [getLowest]. *)
Definition get_lowest (hs : heights) : option Z :=
  match additional hs with
  | v :: r => Some (fst (least v 0 1 r))
  | [] => if h_begin hs <=? h_end hs then Some (h_begin hs) else None
  end.

(** heightset.go:16-36 [popLowest]. *)
Definition pop_lowest (hs : heights) : heights :=
  match additional hs with
  | v :: r => mkHeights (h_begin hs) (h_end hs) (drop_nth (snd (least v 0 1 r)) (v :: r))
  | [] => if h_begin hs <=? h_end hs then mkHeights (h_begin hs + 1) (h_end hs) [] else hs
  end.

(** heightset.go:54-59 [add]; [None]: a panic. *)
Definition hs_add (hs : heights) (h : Z) : option heights :=
  if h_begin hs <=? h then None else Some (mkHeights (h_begin hs) (h_end hs) (additional hs ++ [h])).

(** ** client.go *)

Definition peer_id := nat.
Inductive outcome := Sent | Temporary | Failed.
Inductive fstep := FSend | FWaitResp | FWaitData | FFin.
Inductive timer := ForSend | ForResponse.

(** client.go:347-359 [fetcher]. *)
Record fetcher := mkFetcher {
  f_no : nat; f_height : Z; f_req : Z; f_step : fstep; f_timer : option timer;
  f_left : Z; f_votes : bytes; f_data : list bytes
}.

(** client.go:110-114 [peer]. *)
Record peer := mkPeer { p_id : peer_id; p_req : Z; p_f : option fetcher }.

(** client.go:33-39 [blockResult]; [r_of]: the request. *)
Record result := mkResult { r_of : nat; r_peer : peer_id; r_height : Z; r_data : bytes; r_votes : bytes }.

(** client.go:116-126 [fetchRequest]. *)
Record request := mkReq {
  q_no : nat; q_fetch : Z; q_hs : heights; q_peers : list peer; q_active : Z; q_offset : Z;
  q_pending : list (option result); q_fresh : nat
}.

(** client.go:23-31 [client]. *)
Record client := mkClient { c_fetch : Z; c_next : nat; c_req : option request }.

Inductive output := OnBlock (r : result) | OnEnd (of : nat) (err : bool).

Definition with_peers q ps act := mkReq (q_no q) (q_fetch q) (q_hs q) ps act (q_offset q) (q_pending q) (q_fresh q).
Definition with_hs q hs := mkReq (q_no q) (q_fetch q) hs (q_peers q) (q_active q) (q_offset q) (q_pending q) (q_fresh q).
Definition with_pending q pd := mkReq (q_no q) (q_fetch q) (q_hs q) (q_peers q) (q_active q) (q_offset q) pd (q_fresh q).

(** client.go:361-374, 399-441 [newFetcher], [_doSend].  If sending fails, [onResult] is
    called before the peer has the fetcher, so it finds none and does nothing. *)
Definition new_fetcher (net : outcome) (no : nat) (h req : Z) : fetcher :=
  match net with
  | Sent => mkFetcher no h req FWaitResp (Some ForResponse) 0 [] []
  | Temporary => mkFetcher no h req FSend (Some ForSend) 0 [] []
  | Failed => mkFetcher no h req FFin None 0 [] []
  end.

(** client.go:238-243: the first peer without a fetcher is given one. *)
Fixpoint give (f : peer -> fetcher) (l : list peer) : option (list peer) :=
  match l with
  | [] => None
  | p :: r => match p_f p with
              | None => Some (mkPeer (p_id p) ((p_req p + 1) mod 65536) (Some (f p)) :: r)
              | Some _ => option_map (cons p) (give f r)
              end
  end.

(** client.go:225-255 [_reschedule]; configMaxActive is 3 and the loop ends
    there.  [None]: a panic. *)
Fixpoint reschedule (fuel : nat) (net : peer_id -> outcome) (q : request) : option request :=
  match fuel with
  | O => Some q
  | S k =>
      if 3 <=? q_active q then Some q
      else if Z.of_nat (length (q_peers q)) =? q_active q then Some q
      else match get_lowest (q_hs q) with
           | None => Some q
           | Some l =>
               if q_offset q + Z.of_nat (length (q_pending q)) <=? l then Some q
               else match give (fun p => new_fetcher (net (p_id p)) (q_fresh q) l (q_fetch q * 65536 + p_req p)) (q_peers q) with
                    | None => None
                    | Some ps =>
                        reschedule k net (mkReq (q_no q) (q_fetch q) (pop_lowest (q_hs q)) ps (q_active q + 1)
                          (q_offset q) (q_pending q) (S (q_fresh q)))
                    end
           end
  end.
Definition resched (net : peer_id -> outcome) (q : request) : option request := reschedule 4 net q.

(** client.go:134-165 [fetchBlocks]; configMaxPendingResults is 10.  [None]: a
    panic. *)
Definition fetch_blocks (net : peer_id -> outcome) (c : client) (begin last : Z) (ids : list peer_id) : option client :=
  match c_req c with
  | Some _ => Some c
  | None =>
      let fid := (c_fetch c + 1) mod 65536 in
      match resched net (mkReq (c_next c) fid (mkHeights begin last []) (map (fun i => mkPeer i 0 None) ids) 0 begin
                           (repeat None 10) 0) with
      | Some q => Some (mkClient fid (S (c_next c)) (Some q))
      | None => None
      end
  end.

Definition has_id (i : peer_id) (p : peer) : bool := Nat.eqb (p_id p) i.

Fixpoint find_peer (f : peer -> bool) (l : list peer) : option (nat * peer) :=
  match l with
  | [] => None
  | p :: r => if f p then Some (O, p) else option_map (fun '(i, p) => (S i, p)) (find_peer f r)
  end.

Fixpoint set_nth {A} (n : nat) (x : A) (l : list A) : list A :=
  match n, l with
  | O, _ :: r => x :: r
  | S k, y :: r => y :: set_nth k x r
  | _, [] => []
  end.

(** The last one takes the place of the [i]-th. *)
Definition remove_peer (i : nat) (l : list peer) : list peer :=
  match rev l with
  | [] => l
  | z :: _ => removelast (set_nth i z l)
  end.

(** client.go:184-200 [onJoin]. *)
Definition on_join (net : peer_id -> outcome) (q : request) (i : peer_id) : option request :=
  if existsb (has_id i) (q_peers q) then Some q
  else resched net (with_peers q (q_peers q ++ [mkPeer i 0 None]) (q_active q)).

(** client.go:202-223 [onLeave]. *)
Definition on_leave (net : peer_id -> outcome) (q : request) (i : peer_id) : option request :=
  match find_peer (has_id i) (q_peers q) with
  | None => Some q
  | Some (k, p) =>
      match p_f p with
      | None => Some (with_peers q (remove_peer k (q_peers q)) (q_active q))
      | Some f => match hs_add (q_hs q) (f_height f) with
                  | None => None
                  | Some hs => resched net (with_hs (with_peers q (remove_peer k (q_peers q)) (q_active q - 1)) hs)
                  end
      end
  end.

(** The pending results of a peer, but the first, are given up. *)
Fixpoint give_up (i : peer_id) (l : list (option result)) (hs : heights) : option (list (option result) * heights) :=
  match l with
  | [] => Some ([], hs)
  | Some r :: rest =>
      if Nat.eqb (r_peer r) i then
        match hs_add hs (r_height r) with
        | None => None
        | Some hs' => option_map (fun '(l', h') => (None :: l', h')) (give_up i rest hs')
        end
      else option_map (fun '(l', h') => (Some r :: l', h')) (give_up i rest hs)
  | None :: rest => option_map (fun '(l', h') => (None :: l', h')) (give_up i rest hs)
  end.

Definition hd_pending (q : request) : option result := hd None (q_pending q).

Definition done := option (option request * list output).
Definition go_on (x : option request) : done := match x with Some q => Some (Some q, []) | None => None end.

(** client.go:267-311, the result of the fetcher of the [k]-th peer, without a
    block.  [None]: a panic; the request ends when there is [None] of it left. *)
Definition on_error (net : peer_id -> outcome) (q : request) (k : nat) (i : peer_id) (f : fetcher) (no_block : bool) : done :=
  match hs_add (q_hs q) (f_height f) with
  | None => None
  | Some hs =>
      let q1 := with_hs (with_peers q (remove_peer k (q_peers q)) (q_active q - 1)) hs in
      match (if no_block then Some (q_pending q1, q_hs q1)
             else match q_pending q1 with
                  | [] => Some ([], q_hs q1)
                  | x :: rest => option_map (fun '(l, h) => (x :: l, h)) (give_up i rest (q_hs q1))
                  end) with
      | None => None
      | Some (pd, hs2) =>
          let q2 := with_hs (with_pending q1 pd) hs2 in
          match q_peers q2 with
          | _ :: _ => go_on (resched net q2)
          | [] => match hd_pending q2 with
                  | None => Some (None, [OnEnd (q_no q2) true])
                  | Some _ => Some (Some q2, [])
                  end
          end
      end
  end.

(** client.go:312-335, with a block. *)
Definition on_block (net : peer_id -> outcome) (q : request) (k : nat) (i : peer_id) (f : fetcher) (data votes : bytes) : done :=
  match nth_error (q_peers q) k with
  | None => None
  | Some p =>
      let offset := f_height f - q_offset q in
      if (offset <? 0) || (Z.of_nat (length (q_pending q)) <=? offset) then None
      else
        let r := mkResult (q_no q) i (f_height f) data votes in
        let q1 := with_pending (with_peers q (set_nth k (mkPeer (p_id p) (p_req p) None) (q_peers q)) (q_active q - 1))
                    (set_nth (Z.to_nat offset) (Some r) (q_pending q)) in
        match resched net q1 with
        | None => None
        | Some q2 => Some (Some q2, if offset =? 0 then match hd_pending q2 with Some r => [OnBlock r] | None => [] end else [])
        end
  end.

Inductive message := Metadata (req len : Z) (proof : bytes) | Data (req : Z) (data : bytes).

Section Client.
  Variable parse : bytes -> option Z.

  Definition set_fetcher (q : request) (k : nat) (p : peer) (f : fetcher) : request :=
    with_peers q (set_nth k (mkPeer (p_id p) (p_req p) (Some f)) (q_peers q)) (q_active q).

  (** client.go:167-182, 459-545 [onReceive]. *)
  Definition on_receive (net : peer_id -> outcome) (q : request) (i : peer_id) (m : message) : done :=
    match find_peer (fun p => has_id i p && match p_f p with Some _ => true | None => false end) (q_peers q) with
    | Some (k, mkPeer pi pr (Some f)) =>
        match f_step f, m with
        | FWaitResp, Metadata req len proof =>
            if negb (req =? f_req f) then Some (Some q, [])
            else if len <? 0 then on_error net q k i f true
            else Some (Some (set_fetcher q k (mkPeer pi pr (Some f))
                   (mkFetcher (f_no f) (f_height f) (f_req f) FWaitData (f_timer f) len proof (f_data f))), [])
        | FWaitData, Data req data =>
            if negb (req =? f_req f) then Some (Some q, [])
            else
              let left' := f_left f - Z.of_nat (length data) in
              let all := f_data f ++ [data] in
              if left' =? 0 then
                match parse (concat all) with
                | None => on_error net q k i f false
                | Some h => if h =? f_height f then on_block net q k i f (concat all) (f_votes f)
                            else on_error net q k i f false
                end
              else if left' <? 0 then on_error net q k i f false
              else Some (Some (set_fetcher q k (mkPeer pi pr (Some f))
                     (mkFetcher (f_no f) (f_height f) (f_req f) FWaitData (f_timer f) left' (f_votes f) all)), [])
        | _, _ => Some (Some q, [])
        end
    | _ => Some (Some q, [])
    end.
End Client.

(** client.go:413-441: the timer of the fetcher of a peer. *)
Definition on_timer (net : peer_id -> outcome) (q : request) (i : peer_id) (no : nat) : done :=
  match find_peer (fun p => has_id i p && match p_f p with Some f => Nat.eqb (f_no f) no | None => false end) (q_peers q) with
  | Some (k, mkPeer pi pr (Some f)) =>
      match f_timer f with
      | None => Some (Some q, [])
      | Some ForResponse => on_error net q k i f false
      | Some ForSend =>
          match net i with
          | Sent => Some (Some (set_fetcher q k (mkPeer pi pr (Some f))
                      (mkFetcher no (f_height f) (f_req f) FWaitResp (Some ForResponse) (f_left f) (f_votes f) (f_data f))), [])
          | Temporary => Some (Some q, [])
          | Failed => on_error net q k i f false
          end
      end
  | _ => Some (Some q, [])
  end.

(** client.go:49-74 [Consume], for a result of this request. *)
Definition consume (net : peer_id -> outcome) (q : request) : done :=
  let q1 := mkReq (q_no q) (q_fetch q) (q_hs q) (q_peers q) (q_active q) (q_offset q + 1) (tl (q_pending q) ++ [None]) (q_fresh q) in
  match resched net q1 with
  | None => None
  | Some q2 =>
      if (h_end (q_hs q2) <? q_offset q2)
         || ((match q_peers q2 with [] => true | _ => false end)
             && match hd_pending q2 with None => true | Some _ => false end)
      then Some (None, [OnEnd (q_no q2) false])
      else Some (Some q2, match hd_pending q2 with Some r => [OnBlock r] | None => [] end)
  end.

(** client.go:76-118 [Reject].  The height of the fetcher which is cancelled is
    not given back. *)
Definition reject (net : peer_id -> outcome) (q : request) (r : result) : done :=
  match (match find_peer (has_id (r_peer r)) (q_peers q) with
         | None => Some q
         | Some (k, p) =>
             match p_f p with
             | None => Some (with_peers q (remove_peer k (q_peers q)) (q_active q))
             | Some _ => resched net (with_peers q (remove_peer k (q_peers q)) (q_active q - 1))
             end
         end) with
  | None => None
  | Some q1 =>
      match hs_add (q_hs q1) (r_height r) with
      | None => None
      | Some hs =>
          match give_up (r_peer r) (tl (q_pending q1)) hs with
          | None => None
          | Some (pd, hs2) =>
              let q2 := with_hs (with_pending q1 (None :: pd)) hs2 in
              match q_peers q2 with
              | _ :: _ => go_on (resched net q2)
              | [] => Some (None, [OnEnd (q_no q2) true])
              end
          end
      end
  end.
