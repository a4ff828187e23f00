(** What a node sends to a peer that lags behind: [peer.doSync] of consensus/syncer.go, with [getVoteListForMask] of
    consensus/voteset.go and [RoundStateMessage.Verify] of consensus/message.go.  [None] is a panic.  The loop of [sync] (wake-ups,
    encoding, the limit on bytes per second, which is off) and logs are left out: each turn of it is one call of [do_sync]. *)
From Verif Require Import Model.Bytes Model.IntCodec Model.Mpt Model.BitArray Model.PartSet.
Open Scope Z_scope.

(** message.go:527-533 [peerRoundState]; the masks are pointers. *)
Record prs := mk_prs { q_height : Z; q_round : Z; q_prevotes : option bitarray; q_precommits : option bitarray; q_parts : option bitarray; q_sync : bool }.

(** message.go:74-82 [_HR.verify] and 555-575 [RoundStateMessage.Verify]; true is no error. *)
Definition prs_verify (q : prs) : bool :=
  if q_height q <=? 0 then false else if q_round q <? 0 then false
  else match q_prevotes q, q_precommits q with
       | Some pv, Some pc => ba_verify pv && ba_verify pc && match q_parts q with Some bp => ba_verify bp | None => true end
       | _, _ => false
       end.

(** partset.go:16-30: what the syncer uses of a [PartSet]. *)
Record pset := mk_pset { ps_count : Z; ps_mask : bitarray; ps_part : Z -> option part }.

Section Votes.
Variable vote : Type.

(** syncer.go:30-44 [Engine], as far as it is asked here: [e_votes r t] are the votes of round [r] of type [t] (prevotes: false,
    precommits: true) by validator, 2036-2058 of consensus.go. *)
Record engine := mk_engine {
  e_height : Z; e_round : Z; e_step : Z;
  e_votes : Z -> bool -> list (option vote);
  e_commit_votes : Z -> option (list vote);
  e_commit_parts : Z -> option pset }.

(** step.go:7-17. *)
Definition step_prevote_wait : Z := 5.
Definition step_commit : Z := 8.

(** voteset.go:246-250 (and 252-256): the loop over the votes of a type, from validator [i] on.  A nil mask panics. *)
Fixpoint lacking (l : list (option vote)) (mask : option bitarray) (i : Z) : option (list vote) :=
  match l with
  | [] => Some []
  | v :: r =>
      match mask with
      | None => None
      | Some b =>
          match ba_get b i with
          | None => None
          | Some g =>
              match lacking r mask (i + 1) with
              | None => None
              | Some x => Some (match v with Some w => if negb g then w :: x else x | None => x end)
              end
          end
      end
  end.
(** voteset.go:243-258 [getVoteListForMask]. *)
Definition votes_for_mask (e : engine) (r : Z) (pv pc : option bitarray) : option (list vote) :=
  match lacking (e_votes e r false) pv 0, lacking (e_votes e r true) pc 0 with
  | Some a, Some b => Some (a ++ b)
  | _, _ => None
  end.

(** What is sent. *)
Inductive act := Nothing | SendVotes (l : list vote) | SendPart (height index : Z) (b : bytes) | Fetch (from : Z).

Definition with_parts (q : prs) (b : bitarray) : prs := mk_prs (q_height q) (q_round q) (q_prevotes q) (q_precommits q) (Some b) (q_sync q).

(** syncer.go:119-137: a part the peer lacks; [rnd] is [rand.Intn]. *)
Definition send_part (rnd : Z -> Z) (q : prs) (mask : bitarray) (ps : pset) : option (option prs * act) :=
  match ba_copy mask with
  | None => None
  | Some c =>
      match ba_and (ba_flip c) (ps_mask ps) with
      | None => None
      | Some want =>
          match ba_pick want (rnd (ba_count want)) with
          | None => None
          | Some idx =>
              if idx <? 0 then Some (Some q, Nothing)
              else match ps_part ps idx with
                   | None => None                                  (* 134: a nil [Part] *)
                   | Some p =>
                       match ba_set mask idx with
                       | None => None
                       | Some m' => Some (Some (with_parts q m'), SendPart (q_height q) (idx mod 65536) (part_bytes p))
                       end
                   end
          end
      end
  end.

(** syncer.go:83-174 [doSync]; [fetching]: there is a [fetchCanceler]. *)
Definition do_sync (e : engine) (fetching : bool) (rnd : Z -> Z) (p : option prs) : option (option prs * act) :=
  match p with
  | None => Some (p, Nothing)
  | Some q =>
      if negb (q_sync q) then Some (p, Nothing)
      else if (q_height q <? e_height e) || ((q_height q =? e_height e) && (step_commit <=? e_step e)) then
        match q_parts q with
        | None =>                                                   (* 96-116 *)
            match (if q_height q =? e_height e then
                     match votes_for_mask e (e_round e) (q_prevotes q) (q_precommits q) with Some l => Some (Some l) | None => None end
                   else Some (e_commit_votes e (q_height q))) with
            | None => None
            | Some None => Some (p, Nothing)
            | Some (Some vl) =>
                match e_commit_parts e (q_height q) with
                | None => Some (p, Nothing)
                | Some ps => match new_ba (ps_count ps) with None => None | Some b => Some (Some (with_parts q b), SendVotes vl) end
                end
            end
        | Some mask =>
            match e_commit_parts e (q_height q) with
            | None => Some (p, Nothing)
            | Some ps => send_part rnd q mask ps
            end
        end
      else if e_height e <? q_height q then                          (* 139-145 *)
        if (e_height e + 4 <? q_height q) && negb fetching then Some (p, Fetch (e_height e)) else Some (p, Nothing)
      else if (q_round q <? e_round e) && (step_prevote_wait <=? e_step e) then   (* 147-153 *)
        match votes_for_mask e (e_round e) (q_prevotes q) (q_precommits q) with None => None | Some l => Some (None, SendVotes l) end
      else if q_round q <? e_round e then                            (* 154-160 *)
        match votes_for_mask e (e_round e - 1) (q_prevotes q) (q_precommits q) with None => None | Some l => Some (None, SendVotes l) end
      else if q_round q =? e_round e then                            (* 161-170 *)
        match votes_for_mask e (e_round e) (q_prevotes q) (q_precommits q) with
        | None => None
        | Some [] => Some (p, Nothing)
        | Some l => Some (None, SendVotes l)
        end
      else Some (p, Nothing)
  end.
End Votes.
Arguments mk_engine {vote}. Arguments e_height {vote}. Arguments e_round {vote}. Arguments e_step {vote}. Arguments e_votes {vote}.
Arguments e_commit_votes {vote}. Arguments e_commit_parts {vote}. Arguments lacking {vote}. Arguments votes_for_mask {vote}.
Arguments Nothing {vote}. Arguments SendVotes {vote}. Arguments SendPart {vote}. Arguments Fetch {vote}. Arguments send_part {vote}. Arguments do_sync {vote}.

(** The sets of parts which a node has: one it made, or one it collects. *)
Definition pset_made (m : made) : pset :=
  mk_pset (Z.of_nat (length (m_parts m))) (m_mask m) (fun i => if i <? 0 then None else made_part m (Z.to_nat i)).
Definition pset_received (r : received) : pset :=
  mk_pset (Z.of_nat (length (r_parts r))) (r_mask r) (fun i => if i <? 0 then None else rec_part r (Z.to_nat i)).
