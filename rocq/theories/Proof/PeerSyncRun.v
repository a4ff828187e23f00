(** Turns of the loop that sends to a peer. *)
From Verif Require Import Model.Bytes Model.IntCodec Model.Mpt Model.BitArray Model.PartSet Model.PeerSync Spec.PeerSyncSpec Proof.BitArrayFacts Proof.PeerSyncFacts.
Open Scope Z_scope.

Lemma get_total b i : any_mask b -> ba_verify b = true -> 0 <= i -> exists g, ba_get b i = Some g.
Proof.
  intros (A1 & A2 & A3) V I. unfold ba_verify in V. apply Z.leb_le in V. destruct (Z.lt_ge_cases i (ba_bits b)) as [L|L].
  - rewrite get_in; [eauto|split; [lia|exact A2]|lia].
  - rewrite get_out by lia. eauto.
Qed.

Lemma fm_map {A B C} (f : B -> list C) (g : A -> B) l : flat_map f (map g l) = flat_map (fun x => f (g x)) l.
Proof. induction l as [|x l IH]; cbn; [reflexivity|now rewrite IH]. Qed.

Section S.
Context {vote : Type}.

Definition unmarked_from (l : list (option vote)) (mask : bitarray) (i : Z) : list vote :=
  flat_map (fun k => match nth_error l k with
                     | Some (Some v) => match ba_get mask (i + Z.of_nat k) with Some true => [] | _ => [v] end
                     | _ => []
                     end) (seq 0 (length l)).
Lemma lacking_ok b : any_mask b -> ba_verify b = true -> forall (l : list (option vote)) i, 0 <= i -> lacking l (Some b) i = Some (unmarked_from l b i).
Proof.
  intros A V. induction l as [|v l IH]; intros i I; cbn [lacking]; [reflexivity|].
  destruct (get_total b i A V I) as [g G]. rewrite G. rewrite IH by lia. f_equal. unfold unmarked_from. cbn [length seq flat_map nth_error].
  rewrite Z.add_0_r, G. rewrite <- seq_shift, fm_map.
  assert (E : flat_map (fun k => match nth_error l k with Some (Some w) => match ba_get b (i + 1 + Z.of_nat k) with Some true => [] | _ => [w] end | _ => [] end) (seq 0 (length l))
    = flat_map (fun k => match nth_error (v :: l) (S k) with Some (Some w) => match ba_get b (i + Z.of_nat (S k)) with Some true => [] | _ => [w] end | _ => [] end) (seq 0 (length l))).
  { apply flat_map_ext. intro k. cbn [nth_error]. replace (i + Z.of_nat (S k)) with (i + 1 + Z.of_nat k) by lia. reflexivity. }
  rewrite E. destruct v as [w|]; [destruct g|]; reflexivity.
Qed.
Lemma votes_ok (e : engine vote) r pv pc : any_mask pv -> any_mask pc -> ba_verify pv = true -> ba_verify pc = true ->
  votes_for_mask e r (Some pv) (Some pc) = Some (round_votes e r pv pc).
Proof.
  intros A1 A2 V1 V2. unfold votes_for_mask. rewrite (lacking_ok pv A1 V1 _ 0), (lacking_ok pc A2 V2 _ 0) by lia. reflexivity.
Qed.

Definition state_ok (q : prs) : Prop :=
  prs_verify q = true /\ any_masks q /\ match q_parts q with Some b => -127 < ba_bits b | None => True end.

Lemma verified q : prs_verify q = true -> any_masks q -> exists pv pc, q_prevotes q = Some pv /\ q_precommits q = Some pc
  /\ any_mask pv /\ any_mask pc /\ ba_verify pv = true /\ ba_verify pc = true /\ forall b, q_parts q = Some b -> any_mask b /\ ba_verify b = true.
Proof.
  unfold prs_verify, any_masks. intros V A. destruct (q_height q <=? 0); [discriminate V|]. destruct (q_round q <? 0); [discriminate V|].
  destruct (q_prevotes q) as [pv|]; [|discriminate V]. destruct (q_precommits q) as [pc|]; [|discriminate V].
  apply andb_true_iff in V as [V V3]. apply andb_true_iff in V as [V1 V2]. exists pv, pc. split; [reflexivity|]. split; [reflexivity|].
  split; [apply A; cbn; auto|]. split; [apply A; cbn; auto|]. split; [exact V1|]. split; [exact V2|].
  intros b E. rewrite E in *. split; [apply A; cbn; auto|exact V3].
Qed.

Lemma with_parts_ok q b : state_ok q -> any_mask b -> ba_verify b = true -> -127 < ba_bits b -> state_ok (with_parts q b).
Proof.
  intros (V & A & _) Ab Vb Lb. split; [|split].
  - unfold prs_verify in *. cbn [with_parts q_height q_round q_prevotes q_precommits q_parts]. destruct (q_height q <=? 0); [discriminate V|]. destruct (q_round q <? 0); [discriminate V|].
    destruct (q_prevotes q) as [pv|]; [|discriminate V]. destruct (q_precommits q) as [pc|]; [|discriminate V].
    apply andb_true_iff in V as [V _]. now rewrite V, Vb.
  - intros x [E|[E|[E|[]]]]; cbn [with_parts q_prevotes q_precommits q_parts] in E.
    + apply A. rewrite <- E. cbn. auto.
    + apply A. rewrite <- E. cbn. auto.
    + injection E as <-. exact Ab.
  - exact Lb.
Qed.

Lemma new_any n : 0 <= n < 65536 -> exists b, new_ba n = Some b /\ any_mask b /\ ba_verify b = true /\ ba_bits b = n /\ forall i, 0 <= i -> ba_get b i = Some false.
Proof.
  intro N. destruct (new_ok n ltac:(lia)) as (b & E & Sh & Cl & B & Zr). exists b. split; [exact E|]. destruct Sh as (S1 & S2 & S3).
  pose proof (Z.div_mod (ba_bits b + 63) 64 ltac:(lia)). pose proof (Z.mod_pos_bound (ba_bits b + 63) 64 ltac:(lia)).
  split; [split; [lia|split; [exact S3|lia]]|]. split; [apply Z.leb_le; lia|]. split; [exact B|].
  intros i I. rewrite get_clean; auto; [now rewrite Zr|split; auto].
Qed.

(** No turn panics, and the state stays a good one. *)
Lemma turn_ok (e : engine vote) f rnd p : engine_ok e -> fair rnd -> (forall q, p = Some q -> state_ok q) ->
  exists p' a, do_sync e f rnd p = Some (p', a) /\ forall q, p' = Some q -> state_ok q.
Proof.
  intros Ee Fr St. destruct p as [q|]; cbn [do_sync]; [|eauto]. specialize (St q eq_refl). pose proof St as (V & A & Lo).
  destruct (verified q V A) as (pv & pc & E1 & E2 & A1 & A2 & V1 & V2 & V3).
  assert (Same : forall q0, Some q = Some q0 -> state_ok q0) by (intros q0 X; injection X as <-; exact St).
  assert (Gone : forall q0 : prs, None = Some q0 -> state_ok q0) by (intros q0 X; discriminate X).
  destruct (q_sync q); cbn [negb]; [|eauto]. destruct (_ || _).
  - destruct (q_parts q) as [mask|] eqn:Ep.
    + destruct (e_commit_parts e (q_height q)) as [ps|] eqn:Eb; [|eauto]. destruct (V3 mask eq_refl) as [Am Vm].
      destruct (send_part_ok (vote := vote) rnd q mask ps Fr (Ee _ _ Eb) Am Vm Lo) as [[-> _]|(i & p & m' & _ & _ & _ & -> & Am' & Vm' & Bm & _)]; [eauto|].
      do 2 eexists. split; [reflexivity|]. intros q0 X. injection X as <-. apply with_parts_ok; auto. lia.
    + rewrite E1, E2. rewrite votes_ok by auto.
      assert (G : exists p' a, match e_commit_parts e (q_height q) with None => Some (Some q, Nothing) | Some ps => match new_ba (ps_count ps) with None => None | Some b => Some (Some (with_parts q b), SendVotes (@nil vote)) end end = Some (p', a) /\ forall q, p' = Some q -> state_ok q).
      { destruct (e_commit_parts e (q_height q)) as [ps|] eqn:Eb; [|eauto]. destruct (Ee _ _ Eb) as (Pc & (N & _) & _). destruct (new_any (ps_count ps) ltac:(lia)) as (b & -> & Ab & Vb & Bb & _).
        do 2 eexists. split; [reflexivity|]. intros q0 X. injection X as <-. apply with_parts_ok; auto. lia. }
      destruct (e_commit_parts e (q_height q)) as [ps|].
      * destruct (new_ba (ps_count ps)) as [b|]; [|destruct G as (? & ? & X & _); discriminate X].
        destruct G as (p' & a & X & Gs). injection X as <- <-. destruct (q_height q =? e_height e); [|destruct (e_commit_votes e (q_height q))]; eauto.
      * destruct (q_height q =? e_height e); [|destruct (e_commit_votes e (q_height q))]; eauto.
  - destruct (e_height e <? q_height q).
    + destruct (_ && _); eauto.
    + rewrite E1, E2. rewrite !votes_ok by auto. destruct (_ && _); [eauto|]. destruct (q_round q <? e_round e); [eauto|]. destruct (q_round q =? e_round e); [|eauto].
      destruct (round_votes e (e_round e) pv pc); eauto.
Qed.
Lemma turns_ok : forall (l : list (engine vote * bool * (Z -> Z))) p, (forall e f rnd, In (e, f, rnd) l -> engine_ok e /\ fair rnd) -> (forall q, p = Some q -> state_ok q) ->
  exists p' acts, turns p l = Some (p', acts) /\ forall q, p' = Some q -> state_ok q.
Proof.
  induction l as [|[[e f] rnd] l IH]; intros p G St; cbn [turns]; [eauto|]. destruct (G e f rnd (or_introl eq_refl)) as [G1 G2].
  destruct (turn_ok e f rnd p G1 G2 St) as (p1 & a & -> & St1). destruct (IH p1 ltac:(intros; eapply G; right; eauto) St1) as (p2 & x & -> & St2). eauto.
Qed.

(** Sending the parts. *)
Definition avail (h : Z) (l : list (engine vote * bool * (Z -> Z))) : nat := length (filter (has_block h) l).

Lemma wanted_sendable mask ps i : any_mask mask -> ba_verify mask = true -> wanted mask ps i <-> sendable (Some mask) ps i.
Proof.
  intros A V. unfold wanted, sendable, marked. split.
  - intros (I & G & M & N). repeat split; auto; try lia. rewrite G. discriminate.
  - intros (I & M & G & N). repeat split; auto; try lia. destruct (get_total mask i A V ltac:(lia)) as [g Eg]. rewrite Eg in *. destruct g; congruence.
Qed.

Lemma sending ps h : honest_parts ps -> forall (l : list (engine vote * bool * (Z -> Z))) q mask,
  state_ok q -> q_sync q = true -> q_height q = h -> q_parts q = Some mask ->
  (forall e f rnd, In (e, f, rnd) l -> fair rnd /\ behind e h /\ (e_commit_parts e h = None \/ e_commit_parts e h = Some ps)) ->
  exists q' mask' acts, turns (Some q) l = Some (Some q', acts) /\ q_parts q' = Some mask' /\ state_ok q'
    /\ NoDup (indices acts) /\ has_votes acts = []
    /\ (forall i, In i (indices acts) -> sendable (Some mask) ps i)
    /\ (forall h' i b, In (SendPart h' i b) acts -> h' = h /\ exists p, ps_part ps i = Some p /\ b = part_bytes p)
    /\ ((forall i, sendable (Some mask) ps i -> In i (indices acts)) \/ length (indices acts) = avail h l).
Proof.
  intros Hp. induction l as [|[[e f] rnd] l IH]; intros q mask St Sy Hh Ep G; cbn [turns].
  - exists q, mask, []. split; [reflexivity|]. split; [exact Ep|]. split; [exact St|]. split; [constructor|]. split; [reflexivity|]. split; [intros i []|]. split; [intros h' i b []|]. right. reflexivity.
  - destruct (G e f rnd (or_introl eq_refl)) as (Fr & Be & Pa). assert (G' : forall e0 f0 rnd0, In (e0, f0, rnd0) l -> fair rnd0 /\ behind e0 h /\ (e_commit_parts e0 h = None \/ e_commit_parts e0 h = Some ps)) by (intros; eapply G; right; eauto).
    pose proof St as (V & A & Lo). destruct (verified q V A) as (pv & pc & _ & _ & _ & _ & _ & _ & V3). destruct (V3 mask Ep) as [Am Vm]. rewrite Ep in Lo.
    assert (Ed : do_sync e f rnd (Some q) = match e_commit_parts e h with None => Some (Some q, Nothing) | Some ps => send_part rnd q mask ps end).
    { cbn [do_sync]. rewrite Sy. cbn [negb]. rewrite Ep. assert (B : (q_height q <? e_height e) || (q_height q =? e_height e) && (step_commit <=? e_step e) = true).
      { unfold behind in Be. rewrite <- Hh in Be. destruct Be as [B|[B1 B2]].
        - now rewrite (proj2 (Z.ltb_lt _ _) B).
        - rewrite (proj2 (Z.eqb_eq _ _) B1). unfold step_commit. rewrite (proj2 (Z.leb_le _ _) B2). apply orb_true_r. }
      rewrite B, Hh. reflexivity. }
    rewrite Ed. unfold avail. cbn [filter]. unfold has_block at 1. cbn [fst]. destruct Pa as [Pa|Pa]; rewrite Pa.
    + destruct (IH q mask St Sy Hh Ep G') as (q' & m' & x & Et & R1 & R2 & R3 & R4 & R5 & R6 & R7). rewrite Et. exists q', m', (Nothing :: x).
      split; [reflexivity|]. split; [exact R1|]. split; [exact R2|]. split; [exact R3|]. split; [exact R4|]. split; [exact R5|].
      split; [intros h' i b [X|X]; [discriminate X|]; apply (R6 h' i b X)|exact R7].
    + destruct (send_part_ok (vote := vote) rnd q mask ps Fr Hp Am Vm Lo) as [[-> Nw]|(i & p & m1 & Wi & Pi & Li & -> & Am1 & Vm1 & Bm1 & Gm1)].
      * destruct (IH q mask St Sy Hh Ep G') as (q' & m' & x & Et & R1 & R2 & R3 & R4 & R5 & R6 & R7). rewrite Et. exists q', m', (Nothing :: x).
        split; [reflexivity|]. split; [exact R1|]. split; [exact R2|]. split; [exact R3|]. split; [exact R4|]. split; [exact R5|].
        split; [intros h' i b [X|X]; [discriminate X|]; apply (R6 h' i b X)|]. left. intros i Si. apply wanted_sendable in Si; auto. elim (Nw i Si).
      * assert (St1 : state_ok (with_parts q m1)) by (apply with_parts_ok; auto; lia).
        destruct (IH (with_parts q m1) m1 St1 Sy Hh eq_refl G') as (q' & m' & x & Et & R1 & R2 & R3 & R4 & R5 & R6 & R7). rewrite Et.
        assert (Mk : marked m1 i) by (unfold marked; rewrite Gm1 by (destruct Wi; lia); now rewrite Z.eqb_refl).
        assert (Sd : forall j, sendable (Some m1) ps j <-> (sendable (Some mask) ps j /\ j <> i)).
        { intro j. rewrite <- !wanted_sendable by auto. unfold wanted. rewrite Bm1. split.
          - intros (I & Gj & M & N). rewrite Gm1 in Gj by lia. destruct (Z.eqb_spec j i); [discriminate Gj|]. auto.
          - intros ((I & Gj & M & N) & Nj). rewrite Gm1 by lia. destruct (Z.eqb_spec j i); [congruence|]. auto. }
        exists q', m', (SendPart (q_height q) i (part_bytes p) :: x). split; [reflexivity|]. split; [exact R1|]. split; [exact R2|].
        change (indices (SendPart (q_height q) i (part_bytes p) :: x)) with (i :: indices x).
        split; [constructor; [|exact R3]; intro X; apply R5, Sd in X; destruct X; congruence|]. split; [exact R4|].
        split; [intros j [<-|Hj]; [now apply wanted_sendable|]; apply R5, Sd in Hj; tauto|].
        split; [intros h' j b [X|X]; [injection X as <- <- <-; split; [exact Hh|eauto]|apply (R6 h' j b X)]|].
        destruct R7 as [R7|R7].
        -- left. intros j Sj. destruct (Z.eq_dec i j) as [->|Nj]; [now left|]. right. apply R7. apply Sd. auto.
        -- right. cbn [length]. rewrite R7. reflexivity.
Qed.

(** From a peer which told no mask. *)
Lemma sending_any ps h : honest_parts ps -> forall (l : list (engine vote * bool * (Z -> Z))) q,
  state_ok q -> q_sync q = true -> q_height q = h ->
  (forall e f rnd, In (e, f, rnd) l -> fair rnd /\ behind e h /\ (e_commit_parts e h = None \/ e_commit_parts e h = Some ps)
     /\ (e_commit_parts e h <> None -> e_commit_votes e h <> None)) ->
  exists q' acts, turns (Some q) l = Some (Some q', acts)
    /\ NoDup (indices acts)
    /\ (forall i, In i (indices acts) -> sendable (q_parts q) ps i)
    /\ (forall h' i b, In (SendPart h' i b) acts -> h' = h /\ exists p, ps_part ps i = Some p /\ b = part_bytes p)
    /\ ((forall i, sendable (q_parts q) ps i -> In i (indices acts)) \/ (avail h l <= S (length (indices acts)))%nat).
Proof.
  intros Hp. induction l as [|[[e f] rnd] l IH]; intros q St Sy Hh G.
  - cbn [turns]. exists q, []. split; [reflexivity|]. split; [constructor|]. split; [intros i []|]. split; [intros h' i b []|]. right. cbn. lia.
  - destruct (q_parts q) as [mask|] eqn:Ep.
    { destruct (sending ps h Hp ((e, f, rnd) :: l) q mask St Sy Hh Ep) as (q' & m' & acts & E & _ & _ & R1 & _ & R2 & R3 & R4).
      - intros e0 f0 r0 Hi. destruct (G e0 f0 r0 Hi) as (X1 & X2 & X3 & _). auto.
      - exists q', acts. split; [exact E|]. split; [exact R1|]. split; [exact R2|]. split; [exact R3|]. destruct R4 as [R4|R4]; [now left|right; rewrite R4; lia]. }
    destruct (G e f rnd (or_introl eq_refl)) as (Fr & Be & Pa & Cv).
    assert (G' : forall e0 f0 rnd0, In (e0, f0, rnd0) l -> fair rnd0 /\ behind e0 h /\ (e_commit_parts e0 h = None \/ e_commit_parts e0 h = Some ps) /\ (e_commit_parts e0 h <> None -> e_commit_votes e0 h <> None)) by (intros; eapply G; right; eauto).
    pose proof St as (V & A & _). destruct (verified q V A) as (pv & pc & E1 & E2 & A1 & A2 & V1 & V2 & _).
    assert (B : (q_height q <? e_height e) || (q_height q =? e_height e) && (step_commit <=? e_step e) = true).
    { unfold behind in Be. rewrite <- Hh in Be. destruct Be as [B|[B1 B2]].
      - now rewrite (proj2 (Z.ltb_lt _ _) B).
      - rewrite (proj2 (Z.eqb_eq _ _) B1). unfold step_commit. rewrite (proj2 (Z.leb_le _ _) B2). apply orb_true_r. }
    destruct Pa as [Pa|Pa].
    + assert (Ed : do_sync e f rnd (Some q) = Some (Some q, Nothing)).
      { cbn [do_sync]. rewrite Sy. cbn [negb]. rewrite B, Ep, E1, E2, votes_ok, Hh, Pa by auto. destruct (h =? e_height e); [reflexivity|]. destruct (e_commit_votes e h); reflexivity. }
      cbn [turns]. rewrite Ed. destruct (IH q St Sy Hh G') as (q' & x & Et & R1 & R2 & R3 & R4). rewrite Et. rewrite Ep in R2, R4. exists q', (Nothing :: x).
      split; [reflexivity|]. split; [exact R1|]. split; [exact R2|]. split; [intros h' i b [X|X]; [discriminate X|]; apply (R3 h' i b X)|].
      unfold avail in *. cbn [filter]. unfold has_block at 1. cbn [fst]. rewrite Pa. exact R4.
    + pose proof Hp as (Pc & (N & _) & _). destruct (new_any (ps_count ps) ltac:(lia)) as (b & Eb & Ab & Vb & Bb & Gb).
      assert (Ed : exists vl, do_sync e f rnd (Some q) = Some (Some (with_parts q b), SendVotes vl)).
      { cbn [do_sync]. rewrite Sy. cbn [negb]. rewrite B, Ep, E1, E2, votes_ok, Hh, Pa, Eb by auto. destruct (h =? e_height e); [eauto|].
        destruct (e_commit_votes e h); [eauto|]. elim Cv; congruence. }
      destruct Ed as [vl Ed]. cbn [turns]. rewrite Ed. assert (St1 : state_ok (with_parts q b)) by (apply with_parts_ok; auto; lia).
      destruct (sending ps h Hp l (with_parts q b) b St1 Sy Hh eq_refl) as (q' & m' & x & Et & _ & _ & R1 & _ & R2 & R3 & R4).
      { intros e0 f0 r0 Hi. destruct (G' e0 f0 r0 Hi) as (X1 & X2 & X3 & _). auto. }
      assert (Sd : forall i, sendable (Some b) ps i <-> sendable None ps i).
      { intro i. unfold sendable, marked. rewrite Bb. split; intros (I & M & K & L); repeat split; auto; try lia. rewrite Gb by lia. discriminate. }
      rewrite Et. exists q', (SendVotes vl :: x). split; [reflexivity|]. split; [exact R1|]. split; [intros i Hi; apply Sd; now apply R2|].
      split; [intros h' i b0 [X|X]; [discriminate X|]; apply (R3 h' i b0 X)|].
      unfold avail in *. cbn [filter]. unfold has_block at 1. cbn [fst]. rewrite Pa. cbn [length]. destruct R4 as [R4|R4]; [left; intros i Hi; apply R4, Sd, Hi|right].
      change (indices (SendVotes vl :: x)) with (indices x). rewrite R4. lia.
Qed.

Lemma covering (l : list Z) n : 0 <= n -> NoDup l -> (forall i, In i l -> 0 <= i < n) -> n <= Z.of_nat (length l) -> forall i, 0 <= i < n -> In i l.
Proof.
  intros N Nd B L i I. set (all := map Z.of_nat (seq 0 (Z.to_nat n))).
  assert (Hall : In i all) by (apply in_map_iff; exists (Z.to_nat i); split; [lia|apply in_seq; lia]).
  apply (NoDup_length_incl Nd (l' := all)); [|intros x Hx; apply B in Hx; apply in_map_iff; exists (Z.to_nat x); split; [lia|apply in_seq; lia]|exact Hall].
  unfold all. rewrite map_length, seq_length. lia.
Qed.

Lemma quiet : forall (l : list (engine vote * bool * (Z -> Z))), turns None l = Some (None, map (fun _ => Nothing) l).
Proof. induction l as [|[[e f] rnd] l IH]; [reflexivity|]. cbn [turns do_sync map]. now rewrite IH. Qed.
Lemma quiet_votes (l : list (engine vote * bool * (Z -> Z))) : has_votes (map (fun _ => @Nothing vote) l) = [].
Proof. induction l; auto. Qed.

Lemma hv_cons (a : act vote) x : has_votes (a :: x) = match a with SendVotes v => [v] | _ => [] end ++ has_votes x.
Proof. reflexivity. Qed.
(** At most one list of votes. *)
Definition follows (h : Z) (l : list (engine vote * bool * (Z -> Z))) : Prop :=
  forall i j a b, (i < j)%nat -> nth_error l i = Some a -> nth_error l j = Some b -> behind (fst (fst a)) h -> behind (fst (fst b)) h.
Lemma follows_tail h a l : follows h (a :: l) -> follows h l.
Proof. intros F i j x y L Ei Ej. apply (F (S i) (S j)); auto. lia. Qed.
Lemma no_more_votes h : forall (l : list (engine vote * bool * (Z -> Z))) q mask q' acts, q_height q = h -> q_parts q = Some mask ->
  (forall a, In a l -> behind (fst (fst a)) h) -> turns (Some q) l = Some (q', acts) -> has_votes acts = [].
Proof.
  induction l as [|[[e f] rnd] l IH]; intros q mask q' acts Hh Ep Be E; cbn [turns] in E; [injection E as _ <-; reflexivity|].
  assert (B : (q_height q <? e_height e) || (q_height q =? e_height e) && (step_commit <=? e_step e) = true).
  { specialize (Be _ (or_introl eq_refl)). cbn [fst] in Be. unfold behind in Be. rewrite <- Hh in Be. destruct Be as [B|[B1 B2]].
    - now rewrite (proj2 (Z.ltb_lt _ _) B).
    - rewrite (proj2 (Z.eqb_eq _ _) B1). unfold step_commit. rewrite (proj2 (Z.leb_le _ _) B2). apply orb_true_r. }
  assert (Be' : forall a, In a l -> behind (fst (fst a)) h) by (intros a Ha; apply Be; now right).
  destruct (do_sync e f rnd (Some q)) as [[q1 a]|] eqn:Ed; [|discriminate E]. destruct (turns q1 l) as [[q2 x]|] eqn:Et; [|discriminate E]. injection E as _ <-.
  assert (K : (forall v, a <> SendVotes v) /\ exists q1' m1, q1 = Some q1' /\ q_height q1' = h /\ q_parts q1' = Some m1).
  { cbn [do_sync] in Ed. destruct (q_sync q); cbn [negb] in Ed; [|injection Ed as <- <-; split; [discriminate|eauto]]. rewrite B, Ep in Ed.
    destruct (e_commit_parts e (q_height q)) as [ps|]; [|injection Ed as <- <-; split; [discriminate|eauto]]. unfold send_part in Ed.
    destruct (ba_copy mask); [|discriminate Ed]. destruct (ba_and _ _) as [w|]; [|discriminate Ed]. destruct (ba_pick _ _) as [idx|]; [|discriminate Ed].
    destruct (idx <? 0); [injection Ed as <- <-; split; [discriminate|eauto]|]. destruct (ps_part ps idx); [|discriminate Ed]. destruct (ba_set mask idx); [|discriminate Ed].
    injection Ed as <- <-. split; [discriminate|]. do 2 eexists. split; [reflexivity|]. split; [exact Hh|reflexivity]. }
  destruct K as (Na & q1' & m1 & -> & Hh1 & Ep1). pose proof (IH q1' m1 q2 x Hh1 Ep1 Be' Et) as R.
  rewrite hv_cons. destruct a; auto. elim (Na l0 eq_refl).
Qed.
Lemma one_list h : forall (l : list (engine vote * bool * (Z -> Z))) q q' acts, (forall x, q = Some x -> q_height x = h) -> follows h l ->
  turns q l = Some (q', acts) -> (length (has_votes acts) <= 1)%nat.
Proof.
  induction l as [|[[e f] rnd] l IH]; intros q q' acts Hh Fo E; cbn [turns] in E; [injection E as _ <-; cbn; lia|].
  destruct (do_sync e f rnd q) as [[q1 a]|] eqn:Ed; [|discriminate E]. destruct (turns q1 l) as [[q2 x]|] eqn:Et; [|discriminate E]. injection E as _ <-.
  destruct q as [q|]; [specialize (Hh q eq_refl)|injection Ed as <- <-; rewrite quiet in Et; injection Et as _ <-; rewrite hv_cons, quiet_votes; cbn; lia].
  assert (Nv : (forall v, a <> SendVotes v) -> (forall y, q1 = Some y -> q_height y = h) -> (length (has_votes (a :: x)) <= 1)%nat).
  { intros Na H1. pose proof (IH q1 q2 x H1 (follows_tail _ _ _ Fo) Et) as R. rewrite hv_cons. destruct a; auto. elim (Na l0 eq_refl). }
  assert (Vv : forall v, a = SendVotes v -> (q1 = None \/ exists y m, q1 = Some y /\ q_height y = h /\ q_parts y = Some m /\ behind e h) -> (length (has_votes (a :: x)) <= 1)%nat).
  { intros v -> [->|(y & m & -> & Hy & Py & Be)].
    - rewrite quiet in Et. injection Et as _ <-. rewrite hv_cons, quiet_votes. cbn. lia.
    - rewrite hv_cons, (no_more_votes h l y m q2 x Hy Py).
      + cbn. lia.
      + intros b Hb. apply In_nth_error in Hb as [k Hk]. apply (Fo 0%nat (S k) (e, f, rnd) b); auto. lia.
      + exact Et. }
  cbn [do_sync] in Ed. destruct (q_sync q); cbn [negb] in Ed; [|injection Ed as <- <-; apply Nv; [discriminate|intros y X; injection X as <-; exact Hh]].
  destruct ((q_height q <? e_height e) || (q_height q =? e_height e) && (step_commit <=? e_step e)) eqn:B.
  - assert (Be : behind e h).
    { unfold behind. rewrite <- Hh. apply orb_true_iff in B as [B|B]; [left; now apply Z.ltb_lt|right]. apply andb_true_iff in B as [B1 B2]. split; [now apply Z.eqb_eq|]. now apply Z.leb_le in B2. }
    destruct (q_parts q) as [mask|].
    + destruct (e_commit_parts e (q_height q)) as [ps|]; [|injection Ed as <- <-; apply Nv; [discriminate|intros y X; injection X as <-; exact Hh]]. unfold send_part in Ed.
      destruct (ba_copy mask); [|discriminate Ed]. destruct (ba_and _ _) as [w|]; [|discriminate Ed]. destruct (ba_pick _ _) as [idx|]; [|discriminate Ed].
      destruct (idx <? 0); [injection Ed as <- <-; apply Nv; [discriminate|intros y X; injection X as <-; exact Hh]|]. destruct (ps_part ps idx); [|discriminate Ed]. destruct (ba_set mask idx); [|discriminate Ed].
      injection Ed as <- <-. apply Nv; [discriminate|intros y X; injection X as <-; exact Hh].
    + destruct (if q_height q =? e_height e then _ else _) as [[vl|]|]; [|injection Ed as <- <-; apply Nv; [discriminate|intros y X; injection X as <-; exact Hh]|discriminate Ed].
      destruct (e_commit_parts e (q_height q)) as [ps|]; [|injection Ed as <- <-; apply Nv; [discriminate|intros y X; injection X as <-; exact Hh]].
      destruct (new_ba (ps_count ps)) as [b|]; [|discriminate Ed]. injection Ed as <- <-. eapply Vv; [reflexivity|]. right. do 2 eexists. split; [reflexivity|]. split; [exact Hh|]. split; [reflexivity|exact Be].
  - destruct (e_height e <? q_height q).
    + destruct ((e_height e + 4 <? q_height q) && negb f); injection Ed as <- <-; (apply Nv; [discriminate|intros y X; injection X as <-; exact Hh]).
    + destruct ((q_round q <? e_round e) && (step_prevote_wait <=? e_step e)); [destruct (votes_for_mask _ _ _ _); [|discriminate Ed]; injection Ed as <- <-; eapply Vv; [reflexivity|now left]|].
      destruct (q_round q <? e_round e); [destruct (votes_for_mask _ _ _ _); [|discriminate Ed]; injection Ed as <- <-; eapply Vv; [reflexivity|now left]|].
      destruct (q_round q =? e_round e); [|injection Ed as <- <-; apply Nv; [discriminate|intros y X; injection X as <-; exact Hh]].
      destruct (votes_for_mask _ _ _ _) as [[|v vl]|]; [| |discriminate Ed]; injection Ed as <- <-; [apply Nv; [discriminate|intros y X; injection X as <-; exact Hh]|eapply Vv; [reflexivity|now left]].
Qed.
End S.
