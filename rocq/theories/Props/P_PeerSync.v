(** C72: what a node sends to a peer that lags behind. *)
From Verif Require Import Model.Bytes Model.IntCodec Model.DbKey Model.Mpt Model.MptRun Model.MptProof Model.BitArray Model.PartSet Model.PeerSync Spec.TrieSpec Spec.PartSetSpec Spec.PeerSyncSpec
  Proof.BitArrayFacts Proof.PartSetFacts Proof.PeerSyncFacts Proof.PeerSyncRun Props.P_PartSet.
Open Scope Z_scope.

(** Whatever state a peer tells (if it passes the check and its mask of parts has no number of bits below -126), whatever the node's own
    state and however it changes: no panic. *)
Theorem C72_no_panic : forall vote (q : prs) (l : list (engine vote * bool * (Z -> Z))),
  prs_verify q = true -> any_masks q -> (forall b, q_parts q = Some b -> -126 <= ba_bits b) ->
  (forall e f rnd, In (e, f, rnd) l -> engine_ok e /\ fair rnd) ->
  exists q' acts, turns (Some q) l = Some (q', acts).
Proof.
  intros vote q l V A Lo G. destruct (turns_ok l (Some q) G) as (q' & acts & E & _); [|eauto].
  intros x X. injection X as <-. split; [exact V|]. split; [exact A|]. destruct (q_parts q) as [b|]; [|exact Logic.I]. specialize (Lo b eq_refl). lia.
Qed.
Print Assumptions C72_no_panic.

(** A part that is sent is of the block of the peer's height; the node has it, the peer does not, and from then on it is noted that
    the peer has it, and nothing else. *)
Theorem C72_part : forall vote (e : engine vote) f rnd q q' h i b,
  prs_verify q = true -> any_masks q -> (forall b, q_parts q = Some b -> -126 <= ba_bits b) -> engine_ok e -> fair rnd ->
  do_sync e f rnd (Some q) = Some (q', SendPart h i b) ->
  h = q_height q /\ behind e h /\ q_sync q = true
  /\ exists ps p mask mask', e_commit_parts e h = Some ps /\ q_parts q = Some mask /\ 0 <= i < ba_bits mask
       /\ ba_get mask i = Some false /\ marked (ps_mask ps) i /\ ps_part ps i = Some p /\ b = part_bytes p
       /\ q' = Some (mk_prs (q_height q) (q_round q) (q_prevotes q) (q_precommits q) (Some mask') true) /\ ba_bits mask' = ba_bits mask
       /\ forall j, 0 <= j -> ba_get mask' j = if j =? i then Some true else ba_get mask j.
Proof.
  intros vote e f rnd q q' h i b V A Lo Ee Fr E. destruct (verified q V A) as (pv & pc & _ & _ & _ & _ & _ & _ & V3). cbn [do_sync] in E.
  destruct (q_sync q) eqn:Sy; cbn [negb] in E; [|injection E as _ X; discriminate X].
  destruct ((q_height q <? e_height e) || (q_height q =? e_height e) && (step_commit <=? e_step e)) eqn:B.
  - assert (Be : behind e (q_height q)).
    { unfold behind. apply orb_true_iff in B as [B|B]; [left; now apply Z.ltb_lt|right]. apply andb_true_iff in B as [B1 B2]. split; [now apply Z.eqb_eq|]. now apply Z.leb_le in B2. }
    destruct (q_parts q) as [mask|] eqn:Ep.
    + destruct (e_commit_parts e (q_height q)) as [ps|] eqn:Eb; [|injection E as _ X; discriminate X]. destruct (V3 mask eq_refl) as [Am Vm].
      destruct (send_part_ok (vote := vote) rnd q mask ps Fr (Ee _ _ Eb) Am Vm ltac:(specialize (Lo mask eq_refl); lia)) as [[E1 _]|(k & p & m' & ((W1 & W1') & W2 & W3 & _) & Pp & _ & E1 & Am' & Vm' & Bm & Gm)];
        rewrite E1 in E; injection E; [intros X; discriminate X|]. intros <- <- <- <-. split; [reflexivity|]. split; [exact Be|]. split; [reflexivity|].
      exists ps, p, mask, m'. repeat (split; [first [reflexivity|assumption|lia]|]). split; [unfold with_parts; rewrite Sy; reflexivity|]. auto.
    + destruct (if q_height q =? e_height e then _ else _) as [[vl|]|]; [|injection E as _ X; discriminate X|discriminate E].
      destruct (e_commit_parts e (q_height q)) as [ps|]; [|injection E as _ X; discriminate X]. destruct (new_ba (ps_count ps)); [|discriminate E]. injection E as _ X. discriminate X.
  - destruct (e_height e <? q_height q); [destruct ((e_height e + 4 <? q_height q) && negb f); injection E as _ X; discriminate X|].
    destruct ((q_round q <? e_round e) && _); [destruct (votes_for_mask _ _ _ _); [|discriminate E]; injection E as _ X; discriminate X|].
    destruct (q_round q <? e_round e); [destruct (votes_for_mask _ _ _ _); [|discriminate E]; injection E as _ X; discriminate X|].
    destruct (q_round q =? e_round e); [|injection E as _ X; discriminate X].
    destruct (votes_for_mask _ _ _ _) as [[|v vl]|]; [| |discriminate E]; injection E as _ X; discriminate X.
Qed.
Print Assumptions C72_part.

(** While the peer tells nothing new and lacks a block which the node has: no part is sent twice, and all that can be sent are, each as
    the node has it, once the node could read that block in more turns than it has parts. *)
Theorem C72_parts : forall vote (ps : pset) (q : prs) (l : list (engine vote * bool * (Z -> Z))),
  prs_verify q = true -> any_masks q -> (forall b, q_parts q = Some b -> -126 <= ba_bits b) -> q_sync q = true -> honest_parts ps ->
  (forall e f rnd, In (e, f, rnd) l -> fair rnd /\ behind e (q_height q)
     /\ (e_commit_parts e (q_height q) = None \/ (e_commit_parts e (q_height q) = Some ps /\ e_commit_votes e (q_height q) <> None))) ->
  exists q' acts, turns (Some q) l = Some (q', acts) /\ NoDup (indices acts)
    /\ (forall h i b, In (SendPart h i b) acts -> h = q_height q /\ sendable (q_parts q) ps i /\ exists p, ps_part ps i = Some p /\ b = part_bytes p)
    /\ (ps_count ps < Z.of_nat (length (filter (has_block (q_height q)) l)) -> forall i, sendable (q_parts q) ps i -> In i (indices acts)).
Proof.
  intros vote ps q l V A Lo Sy Hp G.
  destruct (sending_any ps (q_height q) Hp l q) as (q' & acts & E & R1 & R2 & R3 & R4); auto.
  - split; [exact V|]. split; [exact A|]. destruct (q_parts q) as [b|]; [|exact Logic.I]. specialize (Lo b eq_refl). lia.
  - intros e f rnd Hi. destruct (G e f rnd Hi) as (Fr & Be & [Pa|[Pa Cv]]); auto. split; [exact Fr|]. split; [exact Be|]. split; [now left|]. intro X. congruence.
  - exists (Some q'), acts. split; [exact E|]. split; [exact R1|]. split.
    + intros h i b Hi. destruct (R3 h i b Hi) as [-> Hpp]. split; [reflexivity|]. split; [|exact Hpp]. apply R2. apply in_flat_map. exists (SendPart (q_height q) i b). split; [exact Hi|now left].
    + intros L i Si. destruct R4 as [R4|R4]; [now apply R4|].
      assert (Bd : forall m j, sendable m ps j -> 0 <= j < ps_count ps).
      { intros m j (J & Mk & _). destruct Hp as (_ & Mo & _). destruct (marked_bound _ _ j Mo ltac:(lia) Mk). lia. }
      apply covering with (n := ps_count ps).
      * destruct Hp as (_ & (N & _) & _). lia.
      * exact R1.
      * intros j Hj. eapply Bd, R2, Hj.
      * unfold avail in R4. lia.
      * eapply Bd, Si.
Qed.
Print Assumptions C72_parts.

(** Votes: those of a round which the peer's masks do not mention, all of them and in order; or the votes for the block it lacks.  In the
    first case nothing more is sent until it tells another state; in the second the parts follow, all of them being missed. *)
Theorem C72_votes : forall vote (e : engine vote) f rnd q q' vl,
  prs_verify q = true -> any_masks q -> do_sync e f rnd (Some q) = Some (q', SendVotes vl) ->
  exists pv pc, q_prevotes q = Some pv /\ q_precommits q = Some pc
  /\ ((q_height q = e_height e /\ e_step e < 8 /\ q' = None
        /\ ((q_round q = e_round e /\ vl = round_votes e (e_round e) pv pc /\ vl <> [])
            \/ (q_round q < e_round e /\ vl = round_votes e (if 5 <=? e_step e then e_round e else e_round e - 1) pv pc)))
      \/ (behind e (q_height q) /\ q_parts q = None
          /\ (exists ps mask, e_commit_parts e (q_height q) = Some ps /\ q' = Some (mk_prs (q_height q) (q_round q) (Some pv) (Some pc) (Some mask) true)
               /\ ba_bits mask = ps_count ps /\ (0 <= ps_count ps < 65536 -> forall i, 0 <= i -> ba_get mask i = Some false))
          /\ (if q_height q =? e_height e then vl = round_votes e (e_round e) pv pc else e_commit_votes e (q_height q) = Some vl))).
Proof.
  intros vote e f rnd q q' vl V A E. destruct (verified q V A) as (pv & pc & E1 & E2 & A1 & A2 & V1 & V2 & _). exists pv, pc. split; [exact E1|]. split; [exact E2|].
  cbn [do_sync] in E. destruct (q_sync q) eqn:Sy; cbn [negb] in E; [|injection E as _ X; discriminate X].
  destruct ((q_height q <? e_height e) || (q_height q =? e_height e) && (step_commit <=? e_step e)) eqn:B.
  - right. assert (Be : behind e (q_height q)).
    { unfold behind. apply orb_true_iff in B as [B|B]; [left; now apply Z.ltb_lt|right]. apply andb_true_iff in B as [B1 B2]. split; [now apply Z.eqb_eq|]. now apply Z.leb_le in B2. }
    split; [exact Be|]. destruct (q_parts q) as [mask|] eqn:Ep.
    + exfalso. destruct (e_commit_parts e (q_height q)) as [ps|]; [|injection E as _ X; discriminate X]. unfold send_part in E.
      destruct (ba_copy mask); [|discriminate E]. destruct (ba_and _ _) as [w|]; [|discriminate E]. destruct (ba_pick _ _) as [idx|]; [|discriminate E].
      destruct (idx <? 0); [injection E as _ X; discriminate X|]. destruct (ps_part ps idx); [|discriminate E]. destruct (ba_set mask idx); [|discriminate E]. injection E as _ X. discriminate X.
    + split; [reflexivity|]. rewrite E1, E2, votes_ok in E by auto.
      assert (K : exists vl0, (if q_height q =? e_height e then Some (Some (round_votes e (e_round e) pv pc)) else Some (e_commit_votes e (q_height q))) = Some (Some vl0)
        /\ exists ps b, e_commit_parts e (q_height q) = Some ps /\ new_ba (ps_count ps) = Some b /\ q' = Some (with_parts q b) /\ vl = vl0).
      { destruct (if q_height q =? e_height e then _ else _) as [[vl0|]|]; [|injection E as _ X; discriminate X|discriminate E].
        destruct (e_commit_parts e (q_height q)) as [ps|]; [|injection E as _ X; discriminate X]. destruct (new_ba (ps_count ps)) as [b|] eqn:Eb; [|discriminate E].
        injection E as <- <-. eauto 10. }
      destruct K as (vl0 & K1 & ps & b & K2 & K3 & K4 & ->). split.
      * exists ps, b. split; [exact K2|]. split; [rewrite K4; unfold with_parts; rewrite E1, E2, Sy; reflexivity|]. split.
        -- unfold new_ba in K3. destruct (_ <? 0); [discriminate K3|]. injection K3 as <-. reflexivity.
        -- intro N. destruct (new_any _ N) as (b' & E' & _ & _ & _ & Z'). rewrite K3 in E'. injection E' as <-. exact Z'.
      * destruct (q_height q =? e_height e); congruence.
  - left. apply orb_false_iff in B as [B1 B2]. apply Z.ltb_ge in B1.
    destruct (Z.ltb_spec (e_height e) (q_height q)) as [L|L]; [destruct ((e_height e + 4 <? q_height q) && negb f); injection E as _ X; discriminate X|].
    assert (Hh : q_height q = e_height e) by lia. rewrite Hh, Z.eqb_refl in B2. cbn [andb] in B2. apply Z.leb_gt in B2. unfold step_commit in B2.
    split; [exact Hh|]. split; [exact B2|]. rewrite E1, E2, !votes_ok in E by auto. unfold step_prevote_wait in E.
    destruct (Z.ltb_spec (q_round q) (e_round e)) as [R|R]; cbn [andb] in E.
    + destruct (Z.leb_spec 5 (e_step e)); injection E as <- <-; (split; [reflexivity|]); right; auto.
    + destruct (Z.eqb_spec (q_round q) (e_round e)) as [R'|R']; [|injection E as _ X; discriminate X].
      destruct (round_votes e (e_round e) pv pc) as [|v w]; [injection E as _ X; discriminate X|]. injection E as <- <-. split; [reflexivity|]. left. split; [exact R'|]. split; [reflexivity|discriminate].
Qed.
Print Assumptions C72_votes.

(** At most one list of votes for each state told, as long as the node does not fall behind again. *)
Theorem C72_once : forall vote (q : prs) (l : list (engine vote * bool * (Z -> Z))) q' acts,
  (forall i j a b, (i < j)%nat -> nth_error l i = Some a -> nth_error l j = Some b -> behind (fst (fst a)) (q_height q) -> behind (fst (fst b)) (q_height q)) ->
  turns (Some q) l = Some (q', acts) -> (length (has_votes acts) <= 1)%nat.
Proof.
  intros vote q l q' acts Fo E. eapply (one_list (q_height q)); [|exact Fo|exact E]. intros x X. injection X as <-. reflexivity.
Qed.
Print Assumptions C72_once.

(** Fetching blocks is started for a peer that says it is more than four blocks ahead, and never twice at a time; it starts at the
    node's own height. *)
Theorem C72_fetch : forall vote (e : engine vote) f rnd q q' h,
  do_sync e f rnd (Some q) = Some (q', Fetch h) <-> (q_sync q = true /\ e_height e + 4 < q_height q /\ f = false /\ h = e_height e /\ q' = Some q).
Proof.
  intros vote e f rnd q q' h. cbn [do_sync]. split.
  - intro E. destruct (q_sync q); cbn [negb] in E; [|injection E as _ X; discriminate X].
    destruct ((q_height q <? e_height e) || (q_height q =? e_height e) && (step_commit <=? e_step e)) eqn:B.
    + exfalso. destruct (q_parts q) as [mask|].
      * destruct (e_commit_parts e (q_height q)) as [ps|]; [|injection E as _ X; discriminate X]. unfold send_part in E.
        destruct (ba_copy mask); [|discriminate E]. destruct (ba_and _ _) as [w|]; [|discriminate E]. destruct (ba_pick _ _) as [idx|]; [|discriminate E].
        destruct (idx <? 0); [injection E as _ X; discriminate X|]. destruct (ps_part ps idx); [|discriminate E]. destruct (ba_set mask idx); [|discriminate E]. injection E as _ X. discriminate X.
      * destruct (if q_height q =? e_height e then _ else _) as [[vl|]|]; [|injection E as _ X; discriminate X|discriminate E].
        destruct (e_commit_parts e (q_height q)) as [ps|]; [|injection E as _ X; discriminate X]. destruct (new_ba (ps_count ps)); [|discriminate E]. injection E as _ X. discriminate X.
    + destruct (e_height e <? q_height q).
      * destruct (Z.ltb_spec (e_height e + 4) (q_height q)), f; cbn [andb negb] in E; try (injection E as _ X; discriminate X). injection E as <- <-. auto.
      * exfalso. destruct ((q_round q <? e_round e) && _); [destruct (votes_for_mask _ _ _ _); [|discriminate E]; injection E as _ X; discriminate X|].
        destruct (q_round q <? e_round e); [destruct (votes_for_mask _ _ _ _); [|discriminate E]; injection E as _ X; discriminate X|].
        destruct (q_round q =? e_round e); [|injection E as _ X; discriminate X].
        destruct (votes_for_mask _ _ _ _) as [[|v vl]|]; [| |discriminate E]; injection E as _ X; discriminate X.
  - intros (-> & L & -> & -> & ->). cbn [negb]. destruct (Z.ltb_spec (q_height q) (e_height e)); [lia|]. destruct (Z.eqb_spec (q_height q) (e_height e)); [lia|].
    cbn [orb andb]. destruct (Z.ltb_spec (e_height e) (q_height q)); [|lia]. destruct (Z.ltb_spec (e_height e + 4) (q_height q)); [reflexivity|lia].
Qed.
Print Assumptions C72_fetch.

Lemma proofs_len H : forall l t i x, proofs H t i l = Some x -> length x = length l.
Proof.
  induction l as [|p l IH]; intros t i x E; cbn [proofs] in E; [injection E as <-; reflexivity|]. destruct (MptProof.mpt_proof H t (part_key i)) as [o|]; [|discriminate E].
  destruct (proofs H t (i + 1) l) eqn:Ep; [|discriminate E]. injection E as <-. cbn [length]. f_equal. eauto.
Qed.
(** The sets of parts that nodes have are as assumed: those they made and those they collect. *)
Theorem C72_sets : forall calcHash,
  (forall size chunks m, sane_data size (concat chunks) -> part_set calcHash (write_all size ([], None) chunks) = Some m -> honest_parts (pset_made m))
  /\ (forall count h l, 0 <= count < 65536 -> honest_parts (pset_received (fst (offered calcHash (from_id (count, h)) l)))).
Proof.
  intro H. split.
  - intros size chunks m Sa E. pose proof (sane_count size chunks Sa) as L.
    assert (Em : m_mask m = full_mask (length (m_parts m)) /\ m_parts m = buffer_parts (write_all size ([], None) chunks) /\ length (m_proofs m) = length (m_parts m)).
    { unfold part_set, buffer_parts in *. destruct (write_all size ([], None) chunks) as [parts [c|]]; cbn [fst snd] in *.
      - destruct (proofs H _ 0 (parts ++ [c])) eqn:Ep; [|discriminate E]. injection E as <-. cbn [m_mask m_parts m_proofs]. split; [reflexivity|]. split; [reflexivity|]. eapply proofs_len. exact Ep.
      - injection E as <-. cbn [m_mask m_parts m_proofs]. rewrite app_nil_r, map_length. auto. }
    destruct Em as (Em & Ep & El). rewrite <- Ep in L. unfold honest_parts, pset_made. cbn [ps_count ps_mask ps_part]. rewrite Em. unfold full_mask.
    destruct (new_ok (Z.of_nat (length (m_parts m))) ltac:(lia)) as (b & -> & Sb & Cb & Bb & Zb). destruct (flip_ok b Sb) as (Sf & Cf & Bf & F). split; [exact L|]. split.
    + rewrite <- Bb, <- Bf. apply shaped_mask; auto. lia.
    + intros i N Mk. destruct (Z.ltb_spec i 0); [lia|].
      unfold marked in Mk. destruct (Z.lt_ge_cases i (ba_bits (ba_flip b))) as [X|X]; [|rewrite get_out in Mk by exact X; discriminate Mk].
      unfold made_part. destruct (nth_error (m_proofs m) (Z.to_nat i)) as [x|] eqn:En; [eauto|]. apply nth_error_None in En. lia.
  - intros count h l N. assert (Ec : exists c, count = Z.of_nat c) by (exists (Z.to_nat count); lia). destruct Ec as [c ->].
    pose proof (winv_offered H h c l _ (winv_start H h c ltac:(lia))) as (L1 & L2 & _ & (Sh & Bb & Bt) & _ & Pf).
    set (r := fst (offered H (from_id (Z.of_nat c, h)) l)) in *. unfold honest_parts, pset_received. cbn [ps_count ps_mask ps_part]. rewrite L1. split; [lia|]. split.
    + rewrite <- Bb. apply shaped_mask; [exact Sh| |lia]. intros i Hi. rewrite <- (Z2Nat.id i) by lia. rewrite Bt.
      rewrite (proj2 (nth_error_None (r_parts r) (Z.to_nat i))) by lia. reflexivity.
    + intros i I Mk. destruct (Z.ltb_spec i 0); [lia|]. destruct (Z.lt_ge_cases i (ba_bits (r_mask r))) as [X|X]; [|unfold marked in Mk; rewrite get_out in Mk by exact X; discriminate Mk].
      unfold marked in Mk. rewrite get_bit in Mk by (auto; lia). rewrite <- (Z2Nat.id i) in Mk by lia. rewrite Bt, Pf in Mk.
      unfold rec_part. destruct (nth_error (r_proofs r) (Z.to_nat i)) as [[x|]|]; try discriminate Mk. eauto.
Qed.
Print Assumptions C72_sets.

(** What the peer gets of the messages. *)
Definition got_parts {vote} (l : list (act vote)) : list part :=
  flat_map (fun a => match a with SendPart _ _ b => match new_part b with Some p => [p] | None => [] end | _ => [] end) l.

(** From one who made a block to one who knows its ID only: the block arrives, whatever parts are picked first. *)
Theorem C72_delivers : forall vote calcHash size chunks m (q : prs) (l : list (engine vote * bool * (Z -> Z))),
  digest32 calcHash -> sane_data size (concat chunks) -> (length (concat chunks) mod size <> 0)%nat ->
  part_set calcHash (write_all size ([], None) chunks) = Some m -> distinct calcHash (made_all m) ->
  (forall i p, made_part m i = Some p -> new_part (part_bytes p) = Some p) ->
  Z.of_nat (length (m_parts m)) mod 64 <> 0 ->
  prs_verify q = true -> any_masks q -> q_parts q = None -> q_sync q = true ->
  (forall e f rnd, In (e, f, rnd) l -> fair rnd /\ behind e (q_height q)
     /\ (e_commit_parts e (q_height q) = None \/ (e_commit_parts e (q_height q) = Some (pset_made m) /\ e_commit_votes e (q_height q) <> None))) ->
  Z.of_nat (length (m_parts m)) < Z.of_nat (length (filter (has_block (q_height q)) l)) ->
  exists q' acts, turns (Some q) l = Some (q', acts)
    /\ let r := fst (offered calcHash (from_id (made_id calcHash m)) (got_parts acts)) in
       rec_complete r = true /\ r_parts r = map Some (m_parts m) /\ concat (m_parts m) = concat chunks.
Proof.
  intros vote H size chunks m q l HH Sa N E D Tr M64 V A Ep Sy G Av.
  destruct (C72_parts vote (pset_made m) q l V A ltac:(rewrite Ep; discriminate) Sy (proj1 (C72_sets H) size chunks m Sa E) G) as (q' & acts & Et & _ & R2 & R3).
  exists q', acts. split; [exact Et|]. cbv zeta.
  assert (Gp : forall p, In p (got_parts acts) -> exists i, made_part m i = Some p).
  { intros p Hp. apply in_flat_map in Hp as (a & Ha & Hp). destruct a as [| |h i b|]; try (destruct Hp; fail). destruct (R2 h i b Ha) as (_ & _ & p' & Pp & ->).
    cbn [pset_made ps_part] in Pp. destruct (i <? 0); [discriminate Pp|]. rewrite (Tr _ _ Pp) in Hp. destruct Hp as [<-|[]]. eauto. }
  assert (Al : forall i p, made_part m i = Some p -> In p (made_all m)).
  { intros i p Hp. unfold made_all. apply in_flat_map. exists i. rewrite Hp. split; [|now left]. apply in_seq. 
    destruct (honest_set H size chunks m HH Sa N E) as (h & c & prf & _ & _ & Lc & _ & _ & _ & _).
    unfold made_part in Hp. assert (Lp : length (m_proofs m) = length (m_parts m)).
    { unfold part_set in E. destruct (write_all size ([], None) chunks) as [parts [cur|]]; [|injection E as <-; cbn; apply map_length].
      destruct (proofs H _ 0 (parts ++ [cur])) eqn:Epp; [|discriminate E]. injection E as <-. cbn [m_proofs m_parts].
      eapply proofs_len. exact Epp. }
    assert (X : (i < length (m_proofs m))%nat) by (apply nth_error_Some; destruct (nth_error (m_proofs m) i); [discriminate|discriminate Hp]). lia. }
  assert (D' : distinct H (got_parts acts ++ made_all m)).
  { intros p1 p2 a b H1 H2. apply D; [apply in_app_or in H1 as [H1|H1]|apply in_app_or in H2 as [H2|H2]]; auto; [destruct (Gp _ H1) as [i Hi]|destruct (Gp _ H2) as [i Hi]]; eauto. }
  assert (C : rec_complete (fst (offered H (from_id (made_id H m)) (got_parts acts))) = true).
  { apply (C71_completes H size chunks m _ HH Sa N E D'). intros i p Hp.
    assert (Li : (i < length (m_parts m))%nat). { pose proof (Al _ _ Hp) as X. destruct (honest_set H size chunks m HH Sa N E) as (h & c & prf & _ & _ & Lc & _ & _ & _ & _).
      unfold made_all in X. apply in_flat_map in X as (k & Hk & X). apply in_seq in Hk. destruct (made_part m k) eqn:Ek; [|destruct X]. destruct X as [->|[]].
      unfold made_part in Hp, Ek. destruct (nth_error (m_proofs m) i); [|discriminate Hp]. destruct (nth_error (m_proofs m) k); [|discriminate Ek]. injection Hp as <-. injection Ek as X _. lia. }
    assert (Si : sendable (q_parts q) (pset_made m) (Z.of_nat i)).
    { rewrite Ep. unfold sendable. cbn [pset_made ps_count ps_mask]. split; [lia|]. split; [exact (C71_mask H size chunks m i Sa E Li M64)|]. split; [exact Logic.I|]. intros [X _]. contradiction. }
    pose proof (R3 Av _ Si) as Hi. apply in_flat_map in Hi as (a & Ha & Hi). destruct a as [| |h k b|]; try (destruct Hi; fail). destruct Hi as [->|[]].
    destruct (R2 h _ b Ha) as (_ & _ & p' & Pp & ->). cbn [pset_made ps_part] in Pp. destruct (Z.ltb_spec (Z.of_nat i) 0); [lia|]. rewrite Nat2Z.id in Pp. rewrite Hp in Pp. injection Pp as <-.
    apply in_flat_map. exists (SendPart h (Z.of_nat i) (part_bytes p)). split; [exact Ha|]. rewrite (Tr _ _ Hp). now left. }
  split; [exact C|]. exact (C71_whole H size chunks m _ HH Sa N E D' C).
Qed.
Print Assumptions C72_delivers.

(** Findings. *)

(** Whoever may send a round state can make any node panic which has a block to give. *)
Theorem C72_violated_negative : forall vote (e : engine vote) f rnd h ps, 0 < h -> behind e h -> e_commit_parts e h = Some ps ->
  exists q, q_height q = h /\ prs_verify q = true /\ any_masks q /\ do_sync e f rnd (Some q) = None.
Proof.
  intros vote e f rnd h ps Hh Be Ep. exists (mk_prs h 0 (Some (mk_ba 0 [])) (Some (mk_ba 0 [])) (Some (mk_ba (-127) [])) true).
  split; [reflexivity|]. split; [unfold prs_verify; cbn [q_height q_round]; destruct (Z.leb_spec h 0); [lia|reflexivity]|].
  split; [intros b [X|[X|[X|[]]]]; injection X as <-; (split; [cbn; lia|split; [constructor|cbn; lia]])|].
  cbn [do_sync q_sync negb q_height q_parts]. assert (B : (h <? e_height e) || (h =? e_height e) && (step_commit <=? e_step e) = true).
  { destruct Be as [B|[B1 B2]].
    - now rewrite (proj2 (Z.ltb_lt _ _) B).
    - rewrite (proj2 (Z.eqb_eq _ _) B1). unfold step_commit. rewrite (proj2 (Z.leb_le _ _) B2). apply orb_true_r. }
  rewrite B, Ep. reflexivity.
Qed.
Print Assumptions C72_violated_negative.

(** A block of a multiple of 64 parts: its last 64 parts are never sent to one who tells no mask. *)
Theorem C72_violated_multiple : forall vote (ps : pset) (q : prs) (l : list (engine vote * bool * (Z -> Z))) q' acts h i b,
  prs_verify q = true -> any_masks q -> q_parts q = None -> q_sync q = true -> honest_parts ps -> ps_count ps mod 64 = 0 ->
  (forall e f rnd, In (e, f, rnd) l -> fair rnd /\ behind e (q_height q)
     /\ (e_commit_parts e (q_height q) = None \/ (e_commit_parts e (q_height q) = Some ps /\ e_commit_votes e (q_height q) <> None))) ->
  turns (Some q) l = Some (q', acts) -> In (SendPart h i b) acts -> i + 64 < ps_count ps.
Proof.
  intros vote ps q l q' acts h i b V A Ep Sy Hp M G E Hi.
  destruct (C72_parts vote ps q l V A ltac:(rewrite Ep; discriminate) Sy Hp G) as (q2 & a2 & E2 & _ & R & _). rewrite E in E2. injection E2 as <- <-.
  destruct (R h i b Hi) as (_ & (I & _ & _ & Nn) & _). rewrite Ep in *. destruct (Z.lt_ge_cases (i + 64) (ps_count ps)); auto. exfalso. apply Nn. auto.
Qed.
Print Assumptions C72_violated_multiple.

(** A case: the block of [C71_session], for a peer two heights behind; a turn comes when the block cannot be read. *)
Definition ex_engine (ok : bool) : engine Z :=
  mk_engine 12 0 3 (fun r t => if t then [Some 1; None; Some 3] else [Some 4; Some 5; Some 6]) (fun h => if h <? 12 then Some [7; 8; 9] else None)
    (fun h => if ok && (h =? 10) then Some (pset_made ex_set) else None).
Definition ex_rnd (k n : Z) : Z := k mod n.
Lemma ex_fair k : fair (ex_rnd k).
Proof. intros n N. apply Z.mod_pos_bound. exact N. Qed.
Definition ex_peer : prs := mk_prs 10 0 (Some (mk_ba 3 [1])) (Some (mk_ba 3 [0])) None true.
Definition ex_turns : list (engine Z * bool * (Z -> Z)) :=
  [(ex_engine false, false, ex_rnd 1); (ex_engine true, false, ex_rnd 5); (ex_engine true, false, ex_rnd 3); (ex_engine true, false, ex_rnd 7); (ex_engine false, true, ex_rnd 2);
   (ex_engine true, false, ex_rnd 1); (ex_engine true, false, ex_rnd 2); (ex_engine true, false, ex_rnd 0); (ex_engine true, false, ex_rnd 11)].
Example C72_session : match turns (Some ex_peer) ex_turns with
  | Some (_, acts) => indices acts = [3; 4; 1; 0; 2] /\ has_votes acts = [[7; 8; 9]]
      /\ rec_complete (fst (offered quick_digest (from_id (made_id quick_digest ex_set)) (got_parts acts))) = true
  | None => False
  end.
Proof. vm_compute. auto. Qed.
Example C72_hypotheses : prs_verify ex_peer = true /\ any_masks ex_peer /\ honest_parts (pset_made ex_set)
  /\ (forall e f rnd, In (e, f, rnd) ex_turns -> engine_ok e /\ fair rnd /\ behind e 10
        /\ (e_commit_parts e 10 = None \/ (e_commit_parts e 10 = Some (pset_made ex_set) /\ e_commit_votes e 10 <> None)))
  /\ Z.of_nat (length (m_parts ex_set)) < Z.of_nat (length (filter (has_block 10) ex_turns)).
Proof.
  assert (Hs : honest_parts (pset_made ex_set)).
  { eapply (proj1 (C72_sets quick_digest) 40%nat ex_data); [apply C71_hypotheses|]. vm_compute. reflexivity. }
  assert (Ee : forall ok, engine_ok (ex_engine ok)).
  { intros ok h ps E. cbn [ex_engine e_commit_parts] in E. destruct (ok && (h =? 10)); [|discriminate E]. injection E as <-. exact Hs. }
  split; [reflexivity|]. split; [intros b [X|[X|[X|[]]]]; try discriminate X; injection X as <-; (split; [cbn; lia|split; [repeat constructor; lia|cbn; lia]])|]. split; [exact Hs|]. split; [|vm_compute; reflexivity].
  assert (K : forall ok k, engine_ok (ex_engine ok) /\ fair (ex_rnd k) /\ behind (ex_engine ok) 10 /\ (e_commit_parts (ex_engine ok) 10 = None \/ (e_commit_parts (ex_engine ok) 10 = Some (pset_made ex_set) /\ e_commit_votes (ex_engine ok) 10 <> None))).
  { intros ok k. split; [apply Ee|]. split; [apply ex_fair|]. split; [left; reflexivity|]. destruct ok; [right; split; [reflexivity|discriminate]|left; reflexivity]. }
  intros e f rnd Hi. unfold ex_turns in Hi. repeat (destruct Hi as [Hi|Hi]; [injection Hi as <- <- <-; apply K|]). destruct Hi.
Qed.
Example C72_transport_meets : forall i p, made_part ex_set i = Some p -> new_part (part_bytes p) = Some p.
Proof.
  intros i p Hp. do 5 (destruct i as [|i]; [vm_compute in Hp; injection Hp as <-; vm_compute; reflexivity|]).
  exfalso. assert (L : length (m_proofs ex_set) = 5%nat) by (vm_compute; reflexivity). unfold made_part in Hp.
  rewrite (proj2 (nth_error_None (m_proofs ex_set) _)) in Hp by (rewrite L; lia). discriminate Hp.
Qed.
(** Votes at the same height: the peer has the first prevote and lacks the rest. *)
Definition ex_same : engine Z := mk_engine 10 2 4 (fun r t => if r =? 2 then if t then [Some 1; None; Some 3] else [Some 4; Some 5; Some 6] else [Some 20; None; None]) (fun _ => None) (fun _ => None).
Example C72_votes_case :
  do_sync ex_same false (ex_rnd 0) (Some (mk_prs 10 2 (Some (mk_ba 3 [1])) (Some (mk_ba 3 [4])) None true)) = Some (None, SendVotes [5; 6; 1])
  /\ do_sync ex_same false (ex_rnd 0) (Some (mk_prs 10 1 (Some (mk_ba 3 [0])) (Some (mk_ba 3 [0])) None true)) = Some (None, SendVotes [20; 20])
  /\ do_sync ex_same false (ex_rnd 0) (Some (mk_prs 15 0 (Some (mk_ba 3 [0])) (Some (mk_ba 3 [0])) None true)) = Some (Some (mk_prs 15 0 (Some (mk_ba 3 [0])) (Some (mk_ba 3 [0])) None true), Fetch 10).
Proof. vm_compute. auto. Qed.
(** A set of 64 parts: nothing is sent. *)
Definition ex_sixty_four : pset := mk_pset 64 (mk_ba 64 [2 ^ 64 - 1]) (fun i => Some (mk_part i None)).
Example C72_multiple_meets : honest_parts ex_sixty_four /\ ps_count ex_sixty_four mod 64 = 0.
Proof.
  split; [|reflexivity]. split; [reflexivity|]. split; [|intros; eexists; reflexivity]. split; [cbn; lia|]. split; [reflexivity|]. split; [reflexivity|]. split; [repeat constructor; lia|].
  intros [|[|k]] w j E J T; try discriminate E. injection E as <-. destruct (Z.lt_ge_cases j 64); [cbn; lia|]. exfalso.
  assert (W : word 18446744073709551615) by (unfold word; lia). apply word_lt in W. rewrite (proj2 W j H) in T. discriminate T.
Qed.
