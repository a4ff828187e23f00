(** Facts about checking and collecting proofs of BTP decisions. *)
From Coq Require Import ZArith List Bool Lia Arith Sorting.Permutation.
From Verif Require Import Model.Bytes Model.CommitVotes Model.BtpProof Spec.BtpProofSpec.
Import ListNotations.
Open Scope Z_scope.

Section With.
Variable recover : bytes -> bytes -> option bytes.
Variable decision : Z -> Z -> Z -> bytes -> bytes.
Hypothesis RA : real_addresses recover.

Lemma seat_is_ok pc i a : a <> [] -> seat_is (nth i pc None) a = true <-> nth_error pc i = Some (Some a).
Proof.
  intro N. destruct (nth_error pc i) as [[b|]|] eqn:E.
  - rewrite (nth_error_nth _ _ None E). unfold seat_is. rewrite bytes_eqb_eq. split; [intros ->; reflexivity|intro X; injection X; auto].
  - rewrite (nth_error_nth _ _ None E). unfold seat_is. rewrite bytes_eqb_eq. split; [intros <-; contradiction|discriminate].
  - rewrite nth_overflow by now apply nth_error_None. unfold seat_is. rewrite bytes_eqb_eq. split; [intros <-; contradiction|discriminate].
Qed.

Lemma verify_part_ok pc h i s k : verify_part recover pc h (mk_part i (Some s)) = Ok k <-> k = i /\ 0 <= i /\ signs recover pc h s (Z.to_nat i).
Proof.
  unfold verify_part, signs. cbn [pt_index pt_sig part_recover]. unfold has_v. destruct ((i <? 0) || (blen pc <=? i)) eqn:B.
  - split; [discriminate|]. intros (-> & P & _ & a & _ & Ea). apply orb_true_iff in B. rewrite Z.ltb_lt, Z.leb_le in B.
    assert (X : (Z.to_nat i < length pc)%nat) by (apply nth_error_Some; congruence). unfold blen in B. lia.
  - apply orb_false_iff in B. rewrite Z.ltb_ge, Z.leb_gt in B. destruct (blen s =? 65) eqn:L.
    + apply Z.eqb_eq in L. destruct (recover s h) as [a|] eqn:R.
      * destruct (seat_is (nth (Z.to_nat i) pc None) a) eqn:E.
        -- apply seat_is_ok in E; [|eapply RA; exact R]. split; [intros [= <-]|intros (-> & _); reflexivity]. split; [reflexivity|]. split; [lia|]. split; [exact L|]. exists a. auto.
        -- split; [discriminate|]. intros (-> & _ & _ & a' & [= <-] & Ea). apply seat_is_ok in Ea; [congruence|eapply RA; exact R].
      * split; [discriminate|]. intros (-> & _ & _ & a' & [=] & _).
    + split; [discriminate|]. intros (-> & _ & X & _). apply Z.eqb_neq in L. contradiction.
Qed.
Lemma verify_part_some pc h i s : verify_part recover pc h (mk_part i (Some s)) <> Panics.
Proof. unfold verify_part. cbn [pt_index pt_sig part_recover]. destruct (_ || _); [discriminate|]. destruct (has_v s); [|discriminate]. destruct (recover s h); [|discriminate]. destruct (seat_is _ _); discriminate. Qed.
Lemma verify_part_none pc h i k : verify_part recover pc h (mk_part i None) <> Ok k.
Proof. unfold verify_part. cbn [pt_index pt_sig part_recover]. destruct (_ || _); discriminate. Qed.

Lemma loop_no_panic pc h p : forall i seen valid, verify_loop recover pc h i p seen valid <> Panics.
Proof.
  induction p as [|[s|] p IH]; intros i seen valid; cbn [verify_loop]; [discriminate| |apply IH].
  destruct (verify_part recover pc h (mk_part i (Some s))) eqn:E; [|discriminate|exfalso; revert E; apply verify_part_some].
  destruct (existsb _ _); [discriminate|apply IH].
Qed.
Lemma loop_ok pc h p : forall n seen valid v, (forall k, In k seen -> k < Z.of_nat n) ->
  verify_loop recover pc h (Z.of_nat n) p seen valid = Ok v
  <-> (forall i s, nth_error p i = Some (Some s) -> signs recover pc h s (n + i)) /\ v = valid + blen (seats_from n p).
Proof.
  induction p as [|[s|] p IH]; intros n seen valid v Hs; cbn [verify_loop seats_from].
  - split; [intros [= <-]; split; [intros [|i] s E; discriminate E|cbn; lia]|intros [_ ->]; f_equal; cbn; lia].
  - destruct (verify_part recover pc h (mk_part (Z.of_nat n) (Some s))) as [k| |] eqn:E.
    + apply verify_part_ok in E as (-> & _ & Sg). rewrite Nat2Z.id in Sg. destruct (existsb (Z.eqb (Z.of_nat n)) seen) eqn:X.
      { exfalso. apply existsb_exists in X as (k & Ik & Ek). apply Z.eqb_eq in Ek. subst k. specialize (Hs _ Ik). lia. }
      replace (Z.of_nat n + 1) with (Z.of_nat (S n)) by lia. rewrite IH by (intros k [<-|Ik]; [lia|specialize (Hs _ Ik); lia]).
      assert (B : blen ([n] ++ seats_from (S n) p) = 1 + blen (seats_from (S n) p)) by (unfold blen; cbn [app length]; lia). rewrite B.
      split; intros [A Ev]; (split; [|lia]).
      * intros [|i] s' Ei; [cbn in Ei; injection Ei as <-; rewrite Nat.add_0_r; exact Sg|]. replace (n + S i)%nat with (S n + i)%nat by lia. now apply A.
      * intros i s' Ei. replace (S n + i)%nat with (n + S i)%nat by lia. now apply A.
    + split; [discriminate|]. intros [A _]. specialize (A O s eq_refl). rewrite Nat.add_0_r in A. assert (X : verify_part recover pc h (mk_part (Z.of_nat n) (Some s)) = Ok (Z.of_nat n)) by (apply verify_part_ok; rewrite Nat2Z.id; split; [reflexivity|]; split; [lia|exact A]). congruence.
    + exfalso. revert E. apply verify_part_some.
  - replace (Z.of_nat n + 1) with (Z.of_nat (S n)) by lia. rewrite IH by (intros k Ik; specialize (Hs _ Ik); lia). cbn [app].
    split; intros [A Ev]; (split; [|lia]).
    + intros [|i] s' Ei; [discriminate Ei|]. replace (n + S i)%nat with (S n + i)%nat by lia. now apply A.
    + intros i s' Ei. replace (S n + i)%nat with (n + S i)%nat by lia. now apply A.
Qed.
Lemma verify_proof_no_panic pc h p : verify_proof recover pc h p <> Panics.
Proof. unfold verify_proof. destruct (verify_loop recover pc h 0 p [] 0) eqn:E; [destruct (_ <=? _); discriminate|discriminate|exfalso; revert E; apply loop_no_panic]. Qed.
Lemma verify_proof_ok pc h p : verify_proof recover pc h p = Ok tt
  <-> (forall i s, nth_error p i = Some (Some s) -> signs recover pc h s i) /\ 3 * blen (seats_of p) > 2 * blen pc.
Proof.
  unfold verify_proof. pose proof (loop_ok pc h p 0 [] 0) as L. cbn [Z.of_nat] in L. assert (Q : forall x, x <=? 2 * blen pc / 3 = false <-> 3 * x > 2 * blen pc).
  { intro x. rewrite Z.leb_gt. pose proof (Z.div_mod (2 * blen pc) 3 ltac:(lia)). pose proof (Z.mod_pos_bound (2 * blen pc) 3 ltac:(lia)). lia. }
  destruct (verify_loop recover pc h 0 p [] 0) as [v| |] eqn:E.
  - destruct (proj1 (L v ltac:(intros k [])) eq_refl) as [A V]. rewrite Z.add_0_l in V. fold (seats_of p) in V. rewrite <- V. rewrite <- Q. destruct (v <=? 2 * blen pc / 3); split; try discriminate; auto; intros [_ X]; discriminate X.
  - split; [discriminate|]. intros [A _]. assert (X := proj2 (L (0 + blen (seats_from 0 p)) ltac:(intros k [])) (conj A eq_refl)). discriminate X.
  - exfalso. revert E. apply loop_no_panic.
Qed.

Lemma seats_from_in p : forall n i, In i (seats_from n p) <-> exists k s, i = (n + k)%nat /\ nth_error p k = Some (Some s).
Proof.
  induction p as [|s p IH]; intros n i; cbn [seats_from]; [split; [intros []|intros (k & s & _ & E); destruct k; discriminate E]|].
  rewrite in_app_iff, IH. split.
  - intros [I|(k & s' & -> & E)]; [|exists (S k), s'; split; [lia|exact E]]. destruct s as [s|]; [|destruct I]. destruct I as [<-|[]]. exists O, s. split; [lia|reflexivity].
  - intros (k & s' & -> & E). destruct k as [|k]; [cbn in E; injection E as ->; left; left; lia|right; exists k, s'; split; [lia|exact E]].
Qed.
Lemma seats_of_in p i : In i (seats_of p) <-> exists s, nth_error p i = Some (Some s).
Proof. unfold seats_of. rewrite seats_from_in. split; [intros (k & s & -> & E); exists s; exact E|intros (s & E); exists i, s; auto]. Qed.
Lemma seats_from_nodup p : forall n, NoDup (seats_from n p).
Proof.
  induction p as [|s p IH]; intro n; cbn [seats_from]; [constructor|]. destruct s as [s|]; [|apply IH]. cbn [app]. constructor; [|apply IH].
  rewrite seats_from_in. intros (k & s' & E & _). lia.
Qed.
Lemma seats_bound pc h p i : verify_proof recover pc h p = Ok tt -> In i (seats_of p) -> (i < length pc)%nat.
Proof. intros V I. apply verify_proof_ok in V as [A _]. apply seats_of_in in I as (s & E). destruct (A _ _ E) as (_ & a & _ & X). apply nth_error_Some. congruence. Qed.

(** Two sets of seats, each of more than two thirds. *)
Lemma overlap (n : nat) l l' : NoDup l -> NoDup l' -> (forall i, In i l -> (i < n)%nat) -> (forall i, In i l' -> (i < n)%nat) ->
  3 * blen l > 2 * Z.of_nat n -> 3 * blen l' > 2 * Z.of_nat n ->
  exists k, NoDup k /\ (forall i, In i k -> In i l /\ In i l') /\ 3 * blen k > Z.of_nat n.
Proof.
  intros N N' B B' Q Q'. exists (filter (fun i => if in_dec Nat.eq_dec i l' then true else false) l). split; [now apply NoDup_filter|]. split.
  { intros i I. apply filter_In in I as [I E]. destruct (in_dec Nat.eq_dec i l'); [auto|discriminate E]. }
  set (k := filter _ l). assert (X : (length (l' ++ filter (fun i => if in_dec Nat.eq_dec i l' then false else true) l) <= length (seq 0 n))%nat).
  { apply NoDup_incl_length.
    - clear - N N'. induction l as [|x l IH]; cbn [filter]; [now rewrite app_nil_r|]. apply NoDup_cons_iff in N as [Nx N]. specialize (IH N). destruct (in_dec Nat.eq_dec x l') as [I|I]; [exact IH|]. apply (Permutation_NoDup (Permutation_middle _ _ _)). constructor; [|exact IH]. rewrite in_app_iff. intros [J|J]; [exact (I J)|]. apply filter_In in J as [J _]. exact (Nx J).
    - intros i I. apply in_seq. apply in_app_iff in I as [I|I]; [specialize (B' _ I)|apply filter_In in I as [I _]; specialize (B _ I)]; lia. }
  rewrite app_length, seq_length in X.
  assert (Y : (length k + length (filter (fun i => if in_dec Nat.eq_dec i l' then false else true) l) = length l)%nat).
  { subst k. clear. induction l as [|x l IH]; [reflexivity|]. cbn [filter]. destruct (in_dec Nat.eq_dec x l'); cbn [length]; lia. }
  unfold blen in *. lia.
Qed.

(** * Votes *)
Lemma verify_bases_ok pcm v seat bases : forall k, verify_bases recover decision pcm v (Z.of_nat seat) bases k = Ok tt
  <-> forall i t h, nth_error bases i = Some (t, h) -> exists pc s, pcm t = Some pc
        /\ nth_error (nv_parts v) (k + i) = Some (Some (mk_part (Z.of_nat seat) (Some s))) /\ signs recover pc (decision t (nv_height v) (nv_round v) h) s seat.
Proof.
  induction bases as [|[t h] r IH]; intro k; cbn [verify_bases]; [split; [intros _ [|i] t h E; discriminate E|reflexivity]|]. split.
  - intro V. destruct (pcm t) as [pc|] eqn:Et; [|discriminate V]. destruct (nth_error (nv_parts v) k) as [[[i s]|]|] eqn:Ep; [|discriminate V|discriminate V].
    destruct (verify_part recover pc (decision t (nv_height v) (nv_round v) h) (mk_part i s)) as [j| |] eqn:Ev; [|discriminate V|discriminate V].
    destruct (j =? Z.of_nat seat) eqn:Ej; [|discriminate V]. apply Z.eqb_eq in Ej. subst j. destruct s as [s|]; [|exfalso; revert Ev; apply verify_part_none].
    apply verify_part_ok in Ev as (Ei & _ & Sg). subst i. rewrite Nat2Z.id in Sg. replace (k + 1)%nat with (S k) in V by lia. pose proof (proj1 (IH (S k)) V) as G.
    intros [|n] t' h' E.
    + cbn in E. injection E as <- <-. exists pc, s. rewrite Nat.add_0_r. auto.
    + replace (k + S n)%nat with (S k + n)%nat by lia. now apply G.
  - intro A. destruct (A O t h eq_refl) as (pc & s & -> & Ep & Sg). rewrite Nat.add_0_r in Ep. rewrite Ep.
    assert (X : verify_part recover pc (decision t (nv_height v) (nv_round v) h) (mk_part (Z.of_nat seat) (Some s)) = Ok (Z.of_nat seat)) by (apply verify_part_ok; rewrite Nat2Z.id; split; [reflexivity|]; split; [lia|exact Sg]).
    rewrite X, Z.eqb_refl. replace (k + 1)%nat with (S k) by lia. apply IH. intros i t' h' E. replace (S k + i)%nat with (k + S i)%nat by lia. now apply A.
Qed.

Lemma add_part_ok p j s : (j < length p)%nat -> exists p', add_part p (mk_part (Z.of_nat j) s) = Ok p' /\ length p' = length p
  /\ nth_error p' j = Some s /\ forall i, i <> j -> nth_error p' i = nth_error p i.
Proof.
  intro L. unfold add_part. cbn [pt_index pt_sig]. destruct ((Z.of_nat j <? 0) || (blen p <=? Z.of_nat j)) eqn:B.
  { apply orb_true_iff in B. rewrite Z.ltb_lt, Z.leb_le in B. unfold blen in B. lia. }
  rewrite Nat2Z.id. assert (F : length (firstn j p) = j) by (rewrite firstn_length; lia). eexists. split; [reflexivity|]. split.
  { rewrite app_length. cbn [length]. rewrite skipn_length, F. lia. }
  split; [rewrite nth_error_app2, F, Nat.sub_diag by lia; reflexivity|].
  intros i N. rewrite <- (firstn_skipn j p) at 3. destruct (Nat.lt_ge_cases i j) as [Li|Li].
  - rewrite !nth_error_app1 by lia. reflexivity.
  - rewrite !nth_error_app2 by lia. rewrite F. destruct (skipn j p) as [|x r] eqn:Es; [apply (f_equal (@length _)) in Es; rewrite skipn_length in Es; cbn in Es; lia|].
    assert (Er : skipn (j + 1) p = r). { clear - Es. revert p Es. induction j as [|j IH]; intros [|y p] Es; try discriminate Es; cbn in *; [now injection Es|now apply IH]. }
    rewrite Er. destruct (i - j)%nat eqn:Ei; [lia|reflexivity].
Qed.

Definition part_at (i : nat) (e : nat * nts_vote) (s : bytes) : Prop := nth_error (nv_parts (snd e)) i = Some (Some (mk_part (Z.of_nat (fst e)) (Some s))).
(** The proof with exactly the signatures of the votes. *)
Definition made_of (p : proof) (i n : nat) (vs : list (nat * nts_vote)) : Prop :=
  length p = n /\ (forall e, In e vs -> exists s, part_at i e s /\ nth_error p (fst e) = Some (Some s))
  /\ forall j, (j < n)%nat -> ~ In j (map fst vs) -> nth_error p j = Some None.

Lemma collect_parts_ok i vs : forall p, NoDup (map fst vs) -> (forall e, In e vs -> exists s, part_at i e s /\ (fst e < length p)%nat) ->
  exists p', collect_parts p i (map snd vs) = Ok p' /\ length p' = length p
  /\ (forall e, In e vs -> exists s, part_at i e s /\ nth_error p' (fst e) = Some (Some s))
  /\ forall j, ~ In j (map fst vs) -> nth_error p' j = nth_error p j.
Proof.
  induction vs as [|e vs IH]; intros p ND A; cbn [map collect_parts]; [exists p; split; [reflexivity|]; split; [reflexivity|]; split; [intros e []|reflexivity]|].
  cbn [map] in ND. apply NoDup_cons_iff in ND as [Ne ND]. destruct (A e (or_introl eq_refl)) as (s & Pe & Le). unfold part_at in Pe. rewrite Pe.
  destruct (add_part_ok p (fst e) (Some s) Le) as (p1 & -> & L1 & G1 & G2). destruct (IH p1 ND) as (p' & -> & L' & B & C).
  { intros e' I. rewrite L1. apply A. now right. }
  exists p'. split; [reflexivity|]. split; [congruence|]. split.
  - intros e' [<-|I]; [|now apply B]. exists s. split; [exact Pe|]. rewrite C by exact Ne. exact G1.
  - intros j N. cbn [map In] in N. rewrite C by tauto. apply G2. intros ->. apply N. now left.
Qed.

Lemma made_same p p' i n vs vs' : made_of p i n vs -> made_of p' i n vs' -> Permutation vs vs' -> p = p'.
Proof.
  intros (L & A & B) (L' & A' & B') P. apply (nth_ext _ _ None None); [congruence|]. intros j Lj.
  assert (E : nth_error p j = nth_error p' j).
  { destruct (in_dec Nat.eq_dec j (map fst vs)) as [I|N].
    - apply in_map_iff in I as (e & <- & I). destruct (A e I) as (s & P1 & ->). destruct (A' e (Permutation_in _ P I)) as (s' & P2 & ->). unfold part_at in *. congruence.
    - rewrite B, B'; [reflexivity|lia| |lia|exact N]. intro I. apply N. apply (Permutation_in _ (Permutation_sym (Permutation_map fst P)) I). }
  destruct (nth_error p j) as [x|] eqn:Ex; [|apply nth_error_None in Ex; lia]. rewrite (nth_error_nth _ _ None Ex). symmetry in E. rewrite (nth_error_nth _ _ None E). reflexivity.
Qed.

Lemma made_seats p i n vs : made_of p i n vs -> NoDup (map fst vs) -> (forall e, In e vs -> (fst e < n)%nat) -> Permutation (seats_of p) (map fst vs).
Proof.
  intros (L & A & B) ND Bd. apply NoDup_Permutation; [apply seats_from_nodup|exact ND|]. intro j. rewrite seats_of_in. split.
  - intros (s & E). destruct (in_dec Nat.eq_dec j (map fst vs)) as [I|N]; [exact I|exfalso]. assert (X : (j < length p)%nat) by (apply nth_error_Some; congruence). rewrite B in E; [discriminate E|lia|exact N].
  - intro I. apply in_map_iff in I as (e & <- & I). destruct (A e I) as (s & _ & E). now exists s.
Qed.

Section Quorum.
Variable pcm : contexts.
Variables height round : Z.
Variable vs : list (nat * nts_vote).
Hypothesis ND : NoDup (map fst vs).

(** What [collect_proofs] makes of verified votes. *)
Lemma collect_ok bases : forall k,
  (forall e, In e vs -> forall i t h, nth_error bases i = Some (t, h) -> exists pc s, pcm t = Some pc /\ part_at (k + i) e s /\ signs recover pc (decision t height round h) s (fst e)) ->
  (forall t h, In (t, h) bases -> exists pc, pcm t = Some pc) ->
  exists ps, collect_proofs pcm (map snd vs) bases k = Ok ps /\ length ps = length bases
  /\ forall i t h, nth_error bases i = Some (t, h) -> exists pc p, pcm t = Some pc /\ nth_error ps i = Some p /\ made_of p (k + i) (length pc) vs.
Proof.
  induction bases as [|[t h] r IH]; intros k A K; cbn [collect_proofs]; [exists []; split; [reflexivity|]; split; [reflexivity|]; intros [|i] t h E; discriminate E|].
  destruct (K t h (or_introl eq_refl)) as (pc & Et). rewrite Et.
  assert (A0 : forall e, In e vs -> exists s, part_at k e s /\ signs recover pc (decision t height round h) s (fst e)).
  { intros e I. destruct (A e I O t h eq_refl) as (pc' & s & Et' & P & Sg). rewrite Nat.add_0_r in P. exists s. split; [exact P|]. congruence. }
  assert (Ln : length (new_proof pc) = length pc) by apply repeat_length.
  assert (Bd : forall e, In e vs -> exists s, part_at k e s /\ (fst e < length (new_proof pc))%nat).
  { intros e I. destruct (A0 e I) as (s & P & _ & a & _ & X). exists s. split; [exact P|]. rewrite Ln. apply nth_error_Some. congruence. }
  destruct (collect_parts_ok k vs (new_proof pc) ND Bd) as (p & -> & L & B & C).
  assert (M : made_of p k (length pc) vs).
  { split; [congruence|]. split; [exact B|]. intros j Lj N. rewrite C by exact N. unfold new_proof. rewrite <- Ln in Lj. unfold new_proof in Lj. destruct (nth_error (repeat None (length pc)) j) eqn:E; [f_equal; apply (repeat_spec (length pc)); eapply nth_error_In; exact E|apply nth_error_None in E; lia]. }
  assert (W : writable p = true).
  { apply forallb_forall. intros [s|] I; [|reflexivity]. apply In_nth_error in I as (j & E). destruct M as (Lp & _ & N). destruct (in_dec Nat.eq_dec j (map fst vs)) as [Ij|Nj].
    - apply in_map_iff in Ij as (e & <- & Ie). destruct (B e Ie) as (s' & P & E'). assert (s' = s) by congruence. subst s'. destruct (A0 e Ie) as (s2 & P2 & (L65 & _)). unfold part_at in *. assert (s2 = s) by congruence. subst s2. unfold has_v. now rewrite L65.
    - assert (X : (j < length p)%nat) by (apply nth_error_Some; congruence). rewrite N in E; [discriminate E|lia|exact Nj]. }
  rewrite W. destruct (IH (k + 1)%nat) as (ps & -> & Lps & D).
  { intros e I i t' h' E. replace (k + 1 + i)%nat with (k + S i)%nat by lia. apply (A e I (S i) t' h' E). }
  { intros t' h' I. apply (K t' h'). now right. }
  exists (p :: ps). split; [reflexivity|]. split; [cbn; congruence|]. intros [|i] t' h' E.
  - cbn in E. injection E as <- <-. exists pc, p. rewrite Nat.add_0_r. auto.
  - destruct (D i t' h' E) as (pc' & p' & E1 & E2 & E3). exists pc', p'. replace (k + S i)%nat with (k + 1 + i)%nat by lia. auto.
Qed.
End Quorum.

(** * The check of all proofs *)
Definition good (pcm : contexts) (height round : Z) (e : Z * bytes) (p : proof) : Prop :=
  exists pc, pcm (fst e) = Some pc /\ verify_proof recover pc (decision (fst e) height round (snd e)) p = Ok tt.
Lemma verify_each_ok pcm height round digests : forall pre ps, length ps = length (filter (known pcm) digests) ->
  (verify_each recover decision pcm height round digests (length pre) (pre ++ ps) = Ok tt
   <-> exists l, ps = map Some l /\ Forall2 (good pcm height round) (filter (known pcm) digests) l).
Proof.
  induction digests as [|[t h] r IH]; intros pre ps L; cbn [verify_each filter] in *.
  - destruct ps; [|discriminate L]. split; [intros _; exists []; split; [reflexivity|constructor]|reflexivity].
  - destruct (known pcm (t, h)) eqn:Ek; unfold known in Ek; cbn [fst] in Ek; destruct (pcm t) as [pc|] eqn:Et; try discriminate Ek; [|now apply IH].
    destruct ps as [|p ps]; [discriminate L|]. cbn [length] in L. rewrite nth_error_app2, Nat.sub_diag by lia. cbn [nth_error].
    replace (length pre + 1)%nat with (length (pre ++ [p])) by (rewrite app_length; cbn; lia). replace (pre ++ p :: ps) with ((pre ++ [p]) ++ ps) by now rewrite <- app_assoc.
    specialize (IH (pre ++ [p]) ps ltac:(lia)). destruct p as [p|].
    + destruct (verify_proof recover pc (decision t height round h) p) as [[]| |] eqn:V.
      * rewrite IH. split.
        -- intros (l & -> & F). exists (p :: l). split; [reflexivity|]. constructor; [|exact F]. exists pc. auto.
        -- intros (l & E & F). destruct l as [|p' l]; [discriminate E|]. cbn [map] in E. injection E as <- ->. exists l. split; [reflexivity|]. now inversion F.
      * split; [discriminate|]. intros (l & E & F). destruct l as [|p' l]; [discriminate E|]. cbn [map] in E. injection E as <- ->. inversion F as [|? ? ? ? (pc' & E1 & E2) F']; subst. cbn [fst snd] in *. congruence.
      * exfalso. revert V. apply verify_proof_no_panic.
    + split; [discriminate|]. intros (l & E & F). destruct l; discriminate E.
Qed.
Lemma verify_proofs_ok pcm height round digests ps : verify_proofs recover decision pcm height round digests ps = Ok tt
  <-> exists l, ps = map Some l /\ Forall2 (good pcm height round) (filter (known pcm) digests) l.
Proof.
  unfold verify_proofs. destruct (blen (filter (known pcm) digests) =? blen ps) eqn:L.
  - apply Z.eqb_eq in L. apply (verify_each_ok pcm height round digests [] ps). unfold blen in L. lia.
  - split; [discriminate|]. intros (l & -> & F). apply Z.eqb_neq in L. exfalso. apply L. unfold blen. rewrite map_length. f_equal. clear - F. induction F; cbn; congruence.
Qed.
Lemma verify_proofs_no_panic pcm height round digests ps : verify_proofs recover decision pcm height round digests ps <> Panics.
Proof.
  unfold verify_proofs. destruct (blen (filter (known pcm) digests) =? blen ps) eqn:L; [|discriminate]. apply Z.eqb_eq in L. unfold blen in L.
  assert (G : forall ds k, (k + length (filter (known pcm) ds) <= length ps)%nat -> verify_each recover decision pcm height round ds k ps <> Panics).
  { induction ds as [|[t h] r IH]; intros k B; cbn [verify_each filter] in *; [discriminate|]. destruct (known pcm (t, h)) eqn:Ek; unfold known in Ek; cbn [fst] in Ek; destruct (pcm t) as [pc|] eqn:Et; try discriminate Ek; [|now apply IH]. cbn [length] in B.
    destruct (nth_error ps k) as [[p|]|] eqn:E; [|discriminate|apply nth_error_None in E; lia]. destruct (verify_proof recover pc (decision t height round h) p) as [[]| |] eqn:V; [apply IH; lia|discriminate|exfalso; revert V; apply verify_proof_no_panic]. }
  apply G. lia.
Qed.

(** * Back to votes *)
Definition parts_of (j : nat) (ps : list proof) : list (option part) :=
  flat_map (fun p => match nth_error p j with Some (Some s) => [Some (mk_part (Z.of_nat j) (Some s))] | _ => [] end) ps.
Lemma give_parts_ok p : forall n given, length given = length p -> length (give_parts (Z.of_nat n) p given) = length p
  /\ forall j, nth j (give_parts (Z.of_nat n) p given) [] = nth j given [] ++ match nth_error p j with Some (Some s) => [Some (mk_part (Z.of_nat (n + j)) (Some s))] | _ => [] end.
Proof.
  induction p as [|s p IH]; intros n given L; destruct given as [|g given]; try discriminate L; cbn [give_parts length] in *.
  - split; [reflexivity|]. intros [|j]; reflexivity.
  - replace (Z.of_nat n + 1) with (Z.of_nat (S n)) by lia. destruct (IH (S n) given ltac:(lia)) as [A B]. split; [lia|]. intros [|j]; cbn [nth nth_error].
    + rewrite Nat.add_0_r. destruct s; [reflexivity|now rewrite app_nil_r].
    + rewrite B. replace (S n + j)%nat with (n + S j)%nat by lia. reflexivity.
Qed.
Lemma take_apart_ok active seats entries : forall pre ps given bases, length given = seats -> length ps = length (filter (fun e => active (fst e)) entries) ->
  (forall p, In p ps -> length p = seats) ->
  exists given', take_apart active seats entries (pre ++ map Some ps) (length pre) given bases = Some (given', bases ++ filter (fun e => active (fst e)) entries)
  /\ forall j, nth j given' [] = nth j given [] ++ parts_of j ps.
Proof.
  induction entries as [|[t h] r IH]; intros pre ps given bases Lg Lp A; cbn [take_apart filter fst] in *.
  - destruct ps; [|discriminate Lp]. exists given. rewrite app_nil_r. split; [reflexivity|]. intro j. cbn. now rewrite app_nil_r.
  - destruct (active t); [|now apply IH]. destruct ps as [|p ps]; [discriminate Lp|]. cbn [length map] in *. rewrite nth_error_app2, Nat.sub_diag by lia. cbn [nth_error].
    rewrite (A p (or_introl eq_refl)), Nat.eqb_refl. replace (length pre + 1)%nat with (length (pre ++ [Some p])) by (rewrite app_length; cbn; lia). replace (pre ++ Some p :: map Some ps) with ((pre ++ [Some p]) ++ map Some ps) by now rewrite <- app_assoc.
    assert (Lp' : length p = length given) by (rewrite Lg; apply A; now left). destruct (give_parts_ok p 0 given (eq_sym Lp')) as [G1 G2]. cbn [Z.of_nat] in G1, G2. assert (G3 : length (give_parts 0 p given) = seats) by (rewrite G1; apply A; now left). assert (G4 : length ps = length (filter (fun e => active (fst e)) r)) by lia. assert (G5 : forall q, In q ps -> length q = seats) by (intros; apply A; now right).
    destruct (IH (pre ++ [Some p]) ps (give_parts 0 p given) (bases ++ [(t, h)]) G3 G4 G5) as (g' & E & N).
    exists g'. split; [rewrite E, <- app_assoc; reflexivity|]. intro j. rewrite N. rewrite G2. cbn [parts_of flat_map]. rewrite <- app_assoc. reflexivity.
Qed.
End With.
