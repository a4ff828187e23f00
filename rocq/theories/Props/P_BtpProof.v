(** C76: the proofs of BTP decisions. *)
From Coq Require Import ZArith List Bool Lia Arith Sorting.Permutation.
From Verif Require Import Model.Bytes Model.CommitVotes Model.BtpProof Spec.BtpProofSpec Proof.BtpProofFacts.
Import ListNotations.
Open Scope Z_scope.

(** A proof is accepted if and only if every signature in it is one of its seat,
    and there are those of more than two thirds of the seats.  It never panics. *)
Theorem C76_accepts : forall recover pc h p, real_addresses recover ->
  verify_proof recover pc h p <> Panics
  /\ (verify_proof recover pc h p = Ok tt <->
      (forall i s, nth_error p i = Some (Some s) -> signs recover pc h s i) /\ 3 * blen (seats_of p) > 2 * blen pc).
Proof. intros. split; [apply verify_proof_no_panic|now apply verify_proof_ok]. Qed.
Print Assumptions C76_accepts.

(** Two accepted proofs of the same validators have signatures of more than a
    third of the seats in common, each for both. *)
Theorem C76_overlap : forall recover pc h h' p p', real_addresses recover -> verify_proof recover pc h p = Ok tt -> verify_proof recover pc h' p' = Ok tt ->
  exists l, NoDup l /\ 3 * blen l > blen pc
  /\ forall i, In i l -> exists a s s', nth_error pc i = Some (Some a) /\ recover s h = Some a /\ recover s' h' = Some a.
Proof.
  intros recover pc h h' p p' RA V V'. pose proof V as W. pose proof V' as W'. apply verify_proof_ok in W as [A Q], W' as [A' Q']; try exact RA.
  destruct (overlap (length pc) (seats_of p) (seats_of p')) as (l & N & I & L); [apply seats_from_nodup|apply seats_from_nodup|intros i; now apply (seats_bound recover RA pc h)|intros i; now apply (seats_bound recover RA pc h')|exact Q|exact Q'|].
  exists l. split; [exact N|]. split; [exact L|]. intros i Ii. destruct (I i Ii) as [I1 I2]. apply seats_of_in in I1 as (s & E), I2 as (s' & E').
  destruct (A _ _ E) as (_ & a & R & P), (A' _ _ E') as (_ & a' & R' & P'). exists a, s, s'. assert (a' = a) by congruence. subst a'. auto.
Qed.
Print Assumptions C76_overlap.

(** If no two seats have the same key, more than two thirds of them are that many keys. *)
Theorem C76_keys : forall recover pc h p, real_addresses recover ->
  (forall i j a, nth_error pc i = Some (Some a) -> nth_error pc j = Some (Some a) -> i = j) ->
  verify_proof recover pc h p = Ok tt ->
  exists l, NoDup l /\ 3 * blen l > 2 * blen pc /\ forall a, In a l -> In (Some a) pc /\ exists s, recover s h = Some a.
Proof.
  intros recover pc h p RA U V. apply verify_proof_ok in V as [A Q]; [|exact RA].
  set (f := fun i => match nth_error pc i with Some (Some a) => a | _ => [] end).
  assert (F : forall i, In i (seats_of p) -> nth_error pc i = Some (Some (f i)) /\ exists s, recover s h = Some (f i)).
  { intros i I. apply seats_of_in in I as (s & E). destruct (A _ _ E) as (_ & a & R & P). unfold f. rewrite P. split; [reflexivity|]. now exists s. }
  exists (map f (seats_of p)). split; [|split].
  - assert (ND : NoDup (seats_of p)) by apply seats_from_nodup. clear Q A. induction (seats_of p) as [|i l IH]; [constructor|]. apply NoDup_cons_iff in ND as [N ND]. cbn [map]. constructor; [|apply IH; [|exact ND]; intros; apply F; now right].
    intro I. apply in_map_iff in I as (j & E & I). apply N. destruct (F j (or_intror I)) as [E1 _]. destruct (F i (or_introl eq_refl)) as [E2 _]. rewrite E in E1. rewrite (U _ _ _ E2 E1). exact I.
  - unfold blen in *. now rewrite map_length.
  - intros a I. apply in_map_iff in I as (i & <- & I). destruct (F i I) as [E1 E2]. split; [now apply (nth_error_In pc i)|exact E2].
Qed.
Print Assumptions C76_keys.

(** A certificate is accepted if and only if it has one good proof for each type
    of the digest that had a proof context, in the order of the digest. *)
Theorem C76_checked : forall recover decision pcm height round digests ps, real_addresses recover ->
  verify_proofs recover decision pcm height round digests ps <> Panics
  /\ (verify_proofs recover decision pcm height round digests ps = Ok tt <->
      exists l, ps = map Some l /\ Forall2 (fun e p => exists pc, pcm (fst e) = Some pc /\ verify_proof recover pc (decision (fst e) height round (snd e)) p = Ok tt) (filter (known pcm) digests) l).
Proof. intros. split; [now apply verify_proofs_no_panic|now apply verify_proofs_ok]. Qed.
Print Assumptions C76_checked.

(** Who is at one seat of each context casts votes that everybody lets pass at that seat. *)
Lemma seat_of_ok a seat : forall pc i, nth_error pc seat = Some (Some a) -> (forall j, nth_error pc j = Some (Some a) -> j = seat) -> seat_of i pc a = Some (i + Z.of_nat seat).
Proof.
  induction seat as [|seat IH]; intros [|s pc] i E U; try discriminate E; cbn [seat_of].
  - cbn in E. injection E as ->. assert (N : forall r k, (forall j, nth_error r j <> Some (Some a)) -> seat_of k r a = None).
    { induction r as [|x r IHr]; intros k A; cbn [seat_of]; [reflexivity|]. rewrite IHr by (intro j; apply (A (Datatypes.S j))). destruct x as [b|]; [|reflexivity]. destruct (bytes_eqb b a) eqn:B; [|reflexivity]. apply bytes_eqb_eq in B. subst b. exfalso. apply (A O). reflexivity. }
    rewrite N by (intros j Ej; specialize (U (Datatypes.S j) Ej); discriminate U). rewrite bytes_eqb_refl. f_equal. lia.
  - cbn [nth_error] in E. rewrite (IH pc (i + 1) E) by (intros j Ej; specialize (U (Datatypes.S j) Ej); lia). f_equal. lia.
Qed.
Theorem C76_cast : forall recover decision pcm height round a sign entries seat, real_addresses recover ->
  (forall h, exists s, sign h = Some s /\ blen s = 65 /\ recover s h = Some a) ->
  (forall t pc, pcm t = Some pc -> nth_error pc seat = Some (Some a) /\ forall j, nth_error pc j = Some (Some a) -> j = seat) ->
  exists v, cast decision pcm height round (Some a) sign entries [] [] = Some v
  /\ counted recover decision pcm height round (filter (known pcm) entries) (seat, v).
Proof.
  intros recover decision pcm height round a sign entries seat RA Sg St.
  set (part_for := fun (e : Z * bytes) (x : option part) => exists pc s, pcm (fst e) = Some pc /\ x = Some (mk_part (Z.of_nat seat) (Some s)) /\ signs recover pc (decision (fst e) height round (snd e)) s seat).
  assert (G : forall es bases parts, Forall2 part_for bases parts -> exists v, cast decision pcm height round (Some a) sign es bases parts = Some v
            /\ nv_height v = height /\ nv_round v = round /\ nv_bases v = bases ++ filter (known pcm) es /\ Forall2 part_for (nv_bases v) (nv_parts v)).
  { induction es as [|[t h] es IH]; intros bases parts F; cbn [cast filter].
    - eexists. split; [reflexivity|]. cbn. rewrite app_nil_r. auto.
    - destruct (known pcm (t, h)) eqn:Ek; unfold known in Ek; cbn [fst] in Ek; destruct (pcm t) as [pc|] eqn:Et; try discriminate Ek; [|now apply IH].
      destruct (Sg (decision t height round h)) as (s & Es & L & R). destruct (St t pc Et) as [P U]. unfold new_part. rewrite Es. unfold index_of_address. rewrite (seat_of_ok a seat pc 0 P U), Z.add_0_l.
      destruct (IH (bases ++ [(t, h)]) (parts ++ [Some (mk_part (Z.of_nat seat) (Some s))])) as (v & E & H1 & H2 & H3 & H4).
      + apply Forall2_app; [exact F|]. constructor; [|constructor]. exists pc, s. split; [exact Et|]. split; [reflexivity|]. split; [exact L|]. exists a. auto.
      + exists v. rewrite H3, <- app_assoc in *. auto. }
  destruct (G entries [] [] (Forall2_nil _)) as (v & E & H1 & H2 & H3 & H4). exists v. split; [exact E|]. cbn [app] in H3. unfold counted. cbn [fst snd]. split; [exact H1|]. split; [exact H2|]. split; [exact H3|]. split.
  - unfold parts_counted, blen. apply Z.eqb_eq. f_equal. clear - H4. induction H4; cbn; congruence.
  - apply verify_bases_ok; [exact RA|]. rewrite H1, H2. intros i t h Ei. clear - H4 Ei. cbn [Nat.add]. revert i Ei. induction H4 as [|e x l l' (pc & s & P1 & -> & P3) F IH]; intros [|i] Ei; try discriminate Ei; [|now apply IH].
    cbn in Ei. injection Ei as ->. cbn [fst snd] in *. exists pc, s. auto.
Qed.
Print Assumptions C76_cast.

Lemma counted_parts recover decision pcm height round bases vs : real_addresses recover -> Forall (counted recover decision pcm height round bases) vs ->
  forall e, In e vs -> forall i t h, nth_error bases i = Some (t, h) -> exists pc s, pcm t = Some pc /\ part_at (0 + i) e s /\ signs recover pc (decision t height round h) s (fst e).
Proof.
  intros RA F e I i t h E. rewrite Forall_forall in F. destruct (F e I) as (H1 & H2 & H3 & _ & V). unfold verify_vote in V. pose proof (proj1 (verify_bases_ok recover decision RA pcm (snd e) (fst e) _ 0) V) as V'. clear V. rename V' into V. rewrite H1, H2, H3 in *. exact (V i t h E).
Qed.

(** From the votes of a quorum a certificate is made which everybody accepts, and
    the same one in whatever order they come. *)
Theorem C76_certificate : forall recover decision pcm height round digests vs, real_addresses recover ->
  quorum recover decision pcm height round (filter (known pcm) digests) vs ->
  exists ps, certificate_proofs pcm (map snd vs) = Ok ps
  /\ verify_proofs recover decision pcm height round digests (map Some ps) = Ok tt
  /\ forall vs', Permutation vs vs' -> certificate_proofs pcm (map snd vs') = Ok ps.
Proof.
  intros recover decision pcm height round digests vs RA (ND & F & Q). remember (filter (known pcm) digests) as bases eqn:Eb.
  assert (K : forall t h, In (t, h) bases -> exists pc, pcm t = Some pc) by (intros t h I; rewrite Eb in I; apply filter_In in I as [_ X]; unfold known in X; cbn [fst] in X; destruct (pcm t) as [pc|]; [now exists pc|discriminate X]).
  assert (C : forall vs0, Permutation vs vs0 -> exists ps, certificate_proofs pcm (map snd vs0) = Ok ps /\ length ps = length bases
             /\ forall i t h, nth_error bases i = Some (t, h) -> exists pc p, pcm t = Some pc /\ nth_error ps i = Some p /\ made_of p (0 + i) (length pc) vs0).
  { intros vs0 P. assert (ND0 : NoDup (map fst vs0)) by (eapply Permutation_NoDup; [apply Permutation_map, P|exact ND]). assert (F0 : Forall (counted recover decision pcm height round bases) vs0) by (eapply Permutation_Forall; eassumption).
    destruct (collect_ok recover decision pcm height round vs0 ND0 bases 0 (counted_parts _ _ _ _ _ _ _ RA F0) K) as (ps & E & L & M). exists ps. split; [|auto].
    destruct vs0 as [|e vs0]; cbn [map certificate_proofs].
    - destruct bases as [|[t h] bases]; [cbn in E; exact E|exfalso]. apply Permutation_sym, Permutation_nil in P. subst vs. destruct (K t h (or_introl eq_refl)) as (pc & Et). specialize (Q t h pc (or_introl eq_refl) Et). unfold blen in Q. cbn [length Z.of_nat] in Q. lia.
    - apply Forall_inv in F0. destruct F0 as (_ & _ & -> & _). exact E. }
  destruct (C vs (Permutation_refl _)) as (ps & E & L & M). exists ps. split; [exact E|]. split.
  - apply verify_proofs_ok. exists ps. split; [reflexivity|]. rewrite <- Eb.
    assert (G : forall i e p, nth_error bases i = Some e -> nth_error ps i = Some p -> good recover decision pcm height round e p).
    { intros i [t h] p Ee Ep. destruct (M i t h Ee) as (pc & p' & Et & Ep' & Mp). assert (p' = p) by congruence. subst p'. exists pc. cbn [fst snd]. split; [exact Et|]. apply verify_proof_ok; [exact RA|].
      assert (Sg : forall e, In e vs -> exists s, part_at i e s /\ signs recover pc (decision t height round h) s (fst e)) by (intros e I; destruct (counted_parts _ _ _ _ _ _ _ RA F e I i t h Ee) as (pc' & s & Et' & P & X); exists s; split; [exact P|]; congruence).
      assert (Bd : forall e, In e vs -> (fst e < length pc)%nat) by (intros e I; destruct (Sg e I) as (s & _ & _ & a & _ & X); apply nth_error_Some; congruence).
      pose proof (made_seats p _ _ vs Mp ND Bd) as PS. split.
      - intros j s Ej. assert (I : In j (map fst vs)) by (apply (Permutation_in _ PS), seats_of_in; now exists s). apply in_map_iff in I as (e & <- & I). destruct Mp as (_ & A & _). destruct (A e I) as (s' & P' & E'). destruct (Sg e I) as (s2 & P2 & X). unfold part_at in P', P2. rewrite Ej in E'. injection E' as <-. cbn [Nat.add] in P', P2. rewrite P' in P2. injection P2 as <-. exact X.
      - apply nth_error_In in Ee. specialize (Q t h pc Ee Et). unfold blen in *. rewrite (Permutation_length PS), map_length. exact Q. }
    clear - G L. revert ps L G. induction bases as [|e bases IH]; intros [|p ps] L G; try discriminate L; constructor; [apply (G O); reflexivity|]. apply IH; [now injection L|]. intros i e' p' E1 E2. now apply (G (Datatypes.S i)).
  - intros vs' P. destruct (C vs' P) as (ps' & E' & L' & M'). rewrite E'. f_equal. apply (nth_ext _ _ [] []); [exact (eq_trans L' (eq_sym L))|]. intros j Lj. destruct (nth_error bases j) as [[t h]|] eqn:Ej; [|apply nth_error_None in Ej; rewrite <- L' in Ej; exfalso; exact (proj1 (Nat.lt_nge _ _) Lj Ej)].
    destruct (M j t h Ej) as (pc & p & Et & Ep & Mp). destruct (M' j t h Ej) as (pc' & p' & Et' & Ep' & Mp'). assert (pc' = pc) by congruence. subst pc'. rewrite (nth_error_nth _ _ [] Ep), (nth_error_nth _ _ [] Ep'). symmetry. exact (made_same p p' _ _ vs vs' Mp Mp' P).
Qed.
Print Assumptions C76_certificate.

(** From that certificate one gets back exactly these votes. *)
Theorem C76_back : forall recover decision pcm height round digests vs ps seats, real_addresses recover ->
  quorum recover decision pcm height round (filter (known pcm) digests) vs ->
  (forall t pc, pcm t = Some pc -> length pc = seats) ->
  certificate_proofs pcm (map snd vs) = Ok ps ->
  exists r, certificate_parts (fun t => known pcm (t, [])) seats digests (map Some ps) = Some r
  /\ forall e, In e vs -> vote_again height round r (fst e) = snd e.
Proof.
  intros recover decision pcm height round digests vs ps seats RA (ND & F & Q) Hs E. remember (filter (known pcm) digests) as bases eqn:Eb.
  assert (K : forall t h, In (t, h) bases -> exists pc, pcm t = Some pc) by (intros t h I; rewrite Eb in I; apply filter_In in I as [_ X]; unfold known in X; cbn [fst] in X; destruct (pcm t) as [pc|]; [now exists pc|discriminate X]).
  destruct (collect_ok recover decision pcm height round vs ND bases 0 (counted_parts _ _ _ _ _ _ _ RA F) K) as (ps' & E' & L & M).
  assert (ps' = ps).
  { destruct vs as [|e vs]; cbn [map certificate_proofs] in E.
    - destruct bases as [|[t h] bases]; [cbn in E'; congruence|exfalso]. destruct (K t h (or_introl eq_refl)) as (pc & Et). specialize (Q t h pc (or_introl eq_refl) Et). unfold blen in Q. cbn [length Z.of_nat] in Q. lia.
    - pose proof (Forall_inv F) as F0. destruct F0 as (_ & _ & X & _). rewrite X in E. cbn [map] in E'. congruence. }
  subst ps'. assert (Fe : filter (fun e : Z * bytes => known pcm (fst e, [])) digests = bases) by (rewrite Eb; apply filter_ext; intros [t h]; reflexivity).
  destruct (take_apart_ok (fun t => known pcm (t, [])) seats digests [] ps (repeat [] seats) []) as (g & Eg & N).
  { apply repeat_length. } { cbn beta. rewrite Fe. exact L. }
  { intros p I. apply In_nth_error in I as (j & Ej). destruct (nth_error bases j) as [[t h]|] eqn:Eh; [|exfalso; apply nth_error_None in Eh; rewrite <- L in Eh; apply (proj1 (Nat.le_ngt _ _) Eh); apply nth_error_Some; intro Y; pose proof (eq_trans (eq_sym Y) Ej) as Y'; discriminate Y'].
    destruct (M j t h Eh) as (pc & p' & Et & Ep & (Lp & _)). assert (p' = p) by (pose proof (eq_trans (eq_sym Ep) Ej) as Y; injection Y; auto). subst p'. rewrite Lp. eapply Hs; exact Et. }
  cbn [length app] in Eg. exists (g, bases). split; [exact (eq_trans Eg (f_equal (fun b => Some (g, b)) Fe))|].
  intros e I. unfold vote_again. cbn [fst snd]. rewrite N. assert (X : nth (fst e) (repeat (@nil (option part)) seats) [] = []) by (destruct (nth_in_or_default (fst e) (repeat (@nil (option part)) seats) []) as [J|J]; [now apply repeat_spec in J|exact J]). rewrite X. cbn [app].
  rewrite Forall_forall in F. destruct (F e I) as (H1 & H2 & H3 & H4 & _). unfold parts_counted in H4. apply Z.eqb_eq in H4. unfold blen in H4. rewrite H3 in H4.
  assert (P : parts_of (fst e) ps = nv_parts (snd e)).
  { assert (A : forall i p, nth_error ps i = Some p -> exists s, nth_error p (fst e) = Some (Some s) /\ nth_error (nv_parts (snd e)) i = Some (Some (mk_part (Z.of_nat (fst e)) (Some s)))).
    { intros i p Ei. destruct (nth_error bases i) as [[t h]|] eqn:Eh; [|exfalso; apply nth_error_None in Eh; rewrite <- L in Eh; apply (proj1 (Nat.le_ngt _ _) Eh); apply nth_error_Some; intro Y; pose proof (eq_trans (eq_sym Y) Ei) as Y'; discriminate Y'].
      destruct (M i t h Eh) as (pc & p' & _ & Ep & (_ & B & _)). assert (p' = p) by (pose proof (eq_trans (eq_sym Ep) Ei) as Y; injection Y; auto). subst p'. destruct (B e I) as (s & P & E2). exists s. split; [exact E2|exact P]. }
    assert (L2 : length (nv_parts (snd e)) = length ps) by lia. clear - A L2. revert A L2. generalize (nv_parts (snd e)). induction ps as [|p ps IH]; intros [|x l] A L2; try discriminate L2; [reflexivity|].
    destruct (A O p eq_refl) as (s & E1 & E2). cbn in E2. injection E2 as ->. cbn [parts_of flat_map]. rewrite E1. cbn [app]. f_equal. apply IH; [|now injection L2]. intros i q Eq. apply (A (Datatypes.S i) q Eq). }
  rewrite P. destruct (snd e) as [h0 r0 b0 p0]. cbn in *. congruence.
Qed.
Print Assumptions C76_back.

(** Found: a part without a signature panics whoever checks the vote. *)
Theorem C76_violated_nil : forall recover decision pcm v t h r i rest expected pc, nv_bases v = (t, h) :: r -> nv_parts v = Some (mk_part i None) :: rest ->
  pcm t = Some pc -> 0 <= i < blen pc -> verify_vote recover decision pcm v expected = Panics.
Proof.
  intros recover decision pcm v t h r i rest expected pc Eb Ep Et B. unfold verify_vote. rewrite Eb. cbn [verify_bases]. rewrite Et, Ep. cbn [nth_error]. unfold verify_part. cbn [pt_index pt_sig part_recover].
  replace (i <? 0) with false by (symmetry; apply Z.ltb_ge; lia). replace (blen pc <=? i) with false by (symmetry; apply Z.leb_gt; lia). reflexivity.
Qed.
Print Assumptions C76_violated_nil.

(** Found: the proofs of a certificate need not be of those who voted.  Without
    the signature of one voter, the certificate is accepted, the vote that is
    made again from it has no part and is refused for that, and to make a
    certificate of these votes panics. *)
Theorem C76_violated_split : forall recover decision pcm height round t h p pc seat before after, real_addresses recover ->
  pcm t = Some pc -> length p = length pc -> (seat < length pc)%nat -> verify_proof recover pc (decision t height round h) p = Ok tt ->
  nth_error p seat = Some None -> (forall i, In i before -> In i (seats_of p)) -> NoDup before ->
  verify_proofs recover decision pcm height round [(t, h)] [Some p] = Ok tt
  /\ exists r, certificate_parts (fun t => known pcm (t, [])) (length pc) [(t, h)] [Some p] = Some r
  /\ parts_counted (vote_again height round r seat) = false
  /\ certificate_proofs pcm (map (vote_again height round r) (before ++ seat :: after)) = Panics.
Proof.
  intros recover decision pcm height round t h p pc seat before after RA Et Lp Ls V En Bs ND.
  split. { apply verify_proofs_ok. exists [p]. split; [reflexivity|]. unfold known. cbn [filter fst]. rewrite Et. constructor; [|constructor]. exists pc. auto. }
  assert (G := give_parts_ok p 0 (repeat [] (length pc)) ltac:(rewrite repeat_length; congruence)). cbn [Z.of_nat] in G. destruct G as [_ G].
  assert (X : forall j, nth j (repeat (@nil (option part)) (length pc)) [] = []) by (intro j; destruct (nth_in_or_default j (repeat (@nil (option part)) (length pc)) []) as [J|J]; [now apply repeat_spec in J|exact J]).
  eexists. split. { unfold certificate_parts. cbn [take_apart]. unfold known. cbn [fst]. rewrite Et. cbn [nth_error]. rewrite Lp, Nat.eqb_refl. reflexivity. }
  cbn [app]. set (g := give_parts 0 p (repeat [] (length pc))) in *. unfold vote_again. cbn [fst snd].
  assert (Gs : nth seat g [] = []) by (rewrite G, X, En; reflexivity). split; [unfold parts_counted; cbn [nv_bases nv_parts]; rewrite Gs; reflexivity|].
  set (f := fun j => mk_nv height round [(t, h)] (nth j g [])).
  assert (C : forall l q, (forall i, In i l -> In i (seats_of p)) -> length q = length pc -> collect_parts q 0 (map f (l ++ seat :: after)) = Panics).
  { induction l as [|i l IH]; intros q Il Lq; cbn [app map collect_parts]; unfold f at 1; cbn [nv_parts].
    - rewrite Gs. reflexivity.
    - destruct (proj1 (seats_of_in p i) (Il i (or_introl eq_refl))) as (s & Es). rewrite G, X, Es. cbn [nth_error app Nat.add].
      assert (Li : (i < length q)%nat) by (rewrite Lq, <- Lp; apply nth_error_Some; congruence). destruct (add_part_ok q i (Some s) Li) as (q' & -> & Lq' & _). apply IH; [intros; apply Il; now right|congruence]. }
  assert (D : exists m ms, map f (before ++ seat :: after) = m :: ms /\ nv_bases m = [(t, h)]) by (destruct before as [|b before]; cbn [app map]; eexists; eexists; split; reflexivity).
  destruct D as (m & ms & D & Bm). unfold certificate_proofs. change (map (fun j => mk_nv height round [(t, h)] (nth j g [])) (before ++ seat :: after)) with (map f (before ++ seat :: after)).
  rewrite D, Bm. cbn [collect_proofs]. rewrite Et, <- D. rewrite C; [reflexivity|exact Bs|]. unfold new_proof. apply repeat_length.
Qed.
Print Assumptions C76_violated_split.

(** Found: behind the signatures a proof may have empty seats that do not exist.
    It is accepted with them, but the votes are not made again from it, so who
    fetches the block with this certificate refuses it. *)
Theorem C76_violated_padded : forall recover decision pcm height round t h p pc, real_addresses recover ->
  pcm t = Some pc -> length p = length pc -> verify_proof recover pc (decision t height round h) p = Ok tt ->
  verify_proofs recover decision pcm height round [(t, h)] [Some (p ++ [None])] = Ok tt
  /\ certificate_parts (fun t => known pcm (t, [])) (length pc) [(t, h)] [Some (p ++ [None])] = None.
Proof.
  intros recover decision pcm height round t h p pc RA Et Lp V. split.
  - apply verify_proofs_ok. exists [p ++ [None]]. split; [reflexivity|]. unfold known. cbn [filter fst]. rewrite Et. constructor; [|constructor]. exists pc. split; [exact Et|]. cbn [fst snd].
    apply verify_proof_ok in V as [A Q]; [|exact RA]. apply verify_proof_ok; [exact RA|]. split.
    + intros i s E. destruct (Nat.lt_ge_cases i (length p)) as [L|L]; [rewrite nth_error_app1 in E by exact L; now apply A|]. rewrite nth_error_app2 in E by exact L. destruct (i - length p)%nat as [|[|n]]; discriminate E.
    + assert (S1 : forall q n, seats_from n (q ++ [None]) = seats_from n q) by (induction q as [|x q IH]; intro n; cbn [app seats_from]; [reflexivity|now rewrite IH]). unfold seats_of. rewrite S1. exact Q.
  - unfold certificate_parts. cbn [take_apart]. unfold known. cbn [fst]. rewrite Et. cbn [nth_error]. replace (Nat.eqb (length (p ++ [None])) (length pc)) with false; [reflexivity|]. symmetry. apply Nat.eqb_neq. rewrite app_length. cbn. lia.
Qed.
Print Assumptions C76_violated_padded.

(** A case: four validators, one of them without a key, and two types. *)
Definition ex_recover (s h : bytes) : option bytes := match s with x :: r => if bytes_eqb r (repeat 0 62 ++ h) then Some [x] else None | [] => None end.
Definition ex_sign (x : Z) (h : bytes) : option bytes := Some (x :: repeat 0 62 ++ h).
Definition ex_decision (t height round : Z) (h : bytes) : bytes := [t; height + round + nth 0 h 0].
Definition ex_pc : context := [Some [11]; Some [22]; None; Some [33]].
Definition ex_pcm : contexts := fun t => if t =? 1 then Some ex_pc else if t =? 3 then Some ex_pc else None.
Definition ex_digests : list (Z * bytes) := [(1, [5]); (2, [6]); (3, [7])].
Definition ex_vote (x : Z) : nts_vote := match cast ex_decision ex_pcm 9 0 (Some [x]) (ex_sign x) ex_digests [] [] with Some v => v | None => mk_nv 0 0 [] [] end.
Definition ex_votes : list (nat * nts_vote) := [(3%nat, ex_vote 33); (0%nat, ex_vote 11); (1%nat, ex_vote 22)].
Example C76_real : real_addresses ex_recover.
Proof. intros [|x r] h a; cbn [ex_recover]; [discriminate|]. destruct (bytes_eqb _ _); [intros [= <-]; discriminate|discriminate]. Qed.
Example C76_meets : quorum ex_recover ex_decision ex_pcm 9 0 (filter (known ex_pcm) ex_digests) ex_votes.
Proof.
  split; [repeat constructor; cbn; intuition discriminate|]. split; [repeat constructor|].
  intros t h pc I E. cbn in I. destruct I as [I|[I|[]]]; injection I as <- <-; cbn in E; injection E as <-; reflexivity.
Qed.
Example C76_seat : forall t pc, ex_pcm t = Some pc -> nth_error pc 1 = Some (Some [22]) /\ forall j, nth_error pc j = Some (Some [22]) -> j = 1%nat.
Proof.
  intros t pc E. unfold ex_pcm in E. destruct (t =? 1); [|destruct (t =? 3); [|discriminate E]]; injection E as <-; (split; [reflexivity|]); intros [|[|[|[|j]]]] X; try reflexivity; try discriminate X; destruct j; discriminate X.
Qed.
Example C76_proof : forall ps, certificate_proofs ex_pcm (map snd ex_votes) = Ok ps -> exists p q, ps = [p; q] /\ verify_proof ex_recover ex_pc (ex_decision 1 9 0 [5]) p = Ok tt /\ length p = length ex_pc /\ nth_error p 2 = Some None.
Proof. intros ps E. vm_compute in E. injection E as <-. eexists. eexists. split; [reflexivity|]. vm_compute. auto. Qed.
Definition ex_pc4 : context := [Some [11]; Some [22]; Some [33]; Some [44]].
Definition ex_p4 : proof := [ex_sign 11 (ex_decision 1 9 0 [5]); ex_sign 22 (ex_decision 1 9 0 [5]); None; ex_sign 44 (ex_decision 1 9 0 [5])].
Example C76_split_meets : verify_proof ex_recover ex_pc4 (ex_decision 1 9 0 [5]) ex_p4 = Ok tt /\ length ex_p4 = length ex_pc4 /\ nth_error ex_p4 2 = Some None /\ seats_of ex_p4 = [0; 1; 3]%nat.
Proof. vm_compute. auto. Qed.
