(** C75: the BTP sections of a block. *)
From Verif Require Import Model.Bytes Model.IntCodec Model.Rlp Spec.RlpSpec Model.BtpMerkle Model.BtpSection Spec.BtpMerkleSpec Spec.BtpSectionSpec
  Proof.BtpMerkleFacts Proof.BtpSectionSort Proof.BtpSectionBuild Proof.BtpSectionFacts Proof.BtpSectionStore Props.P_PartSet Props.P_BtpMerkle.
From Coq Require Import Sorting.Sorted Sorting.Permutation.
Open Scope Z_scope.

(** In whatever order the maps are walked, the sections of a block are the
    right ones, and the same ones. *)
Theorem C75_sections : forall H pc_hash v calls walk shuffle out,
  Permutation (after calls) walk -> (forall m, Permutation m (shuffle m)) ->
  build H pc_hash v walk shuffle = Some out -> sections_of H pc_hash v calls out.
Proof. intros. eapply build_right; eassumption. Qed.
Print Assumptions C75_sections.

Theorem C75_same : forall H pc_hash v calls walk walk' shuffle shuffle',
  Permutation (after calls) walk -> Permutation (after calls) walk' ->
  (forall m, Permutation m (shuffle m)) -> (forall m, Permutation m (shuffle' m)) ->
  build H pc_hash v walk shuffle = build H pc_hash v walk' shuffle'.
Proof.
  intros H pc_hash v calls walk walk' sh sh' P P' S S'. apply build_same; [|eapply Permutation_trans; [apply Permutation_sym, P|exact P']|exact S|exact S'].
  eapply Permutation_NoDup; [apply Permutation_map, P|apply (entries_ok calls)].
Qed.
Print Assumptions C75_same.

(** It fails only if a network called, its type or the next proof context of
    the type cannot be read from the state. *)
Theorem C75_fails : forall H pc_hash v calls walk shuffle,
  Permutation (after calls) walk -> (forall m, Permutation m (shuffle m)) ->
  (build H pc_hash v walk shuffle = None <->
   exists c, In c calls /\ match v_network v (network_of c) with
                           | None => True
                           | Some nw => match v_type v (nw_type nw) with
                                        | None => True
                                        | Some nt => pc_hash (nt_uid nt) (nt_next_pc nt) = None
                                        end
                           end).
Proof. intros. now apply build_fails. Qed.
Print Assumptions C75_fails.

(** The messages of a section are those sent, in their order, and they have the
    last sequence numbers before the next one of the network. *)
Theorem C75_numbers : forall H pc_hash v calls out x s nw,
  sections_of H pc_hash v calls out -> In x out -> In s (nts_sections x) -> v_network v (ns_nid s) = Some nw ->
  blen (sent_to (ns_nid s) calls) <= nw_next_sn nw < 2 ^ 62 ->
  ns_messages s = sent_to (ns_nid s) calls /\ ns_prev s = nw_last nw
  /\ first_sn s + blen (ns_messages s) = nw_next_sn nw /\ context_changed s = nw_changed nw.
Proof.
  intros H pc_hash v calls out x s nw (_ & _ & S) Ix Is En L. destruct (S x Ix) as (_ & _ & C & _). apply C in Is as (nid & w & nt & _ & E1 & _ & _ & ->).
  cbn [ns_nid new_section ns_messages ns_prev] in *. assert (w = nw) by congruence. subst w.
  destruct (section_numbers H (nt_uid nt) nid nw (sent_to nid calls) L) as (_ & F & G). split; [reflexivity|]. split; [reflexivity|]. split; [rewrite F; lia|exact G].
Qed.
Print Assumptions C75_numbers.

(** Each message has proofs with which a receiver comes to the hash that the validators sign. *)
Theorem C75_chain : forall H pc_hash v calls out x s i msg src height round,
  sections_of H pc_hash v calls out -> In x out -> In s (nts_sections x) -> sane_hash (H (nts_uid x)) ->
  nth_error (ns_messages s) i = Some msg ->
  exists section_path, section_to_root H x (ns_nid s) = Some section_path
  /\ received_hash (H (nts_uid x)) src (nts_id x) height round (nts_pc x) (ns_nid s) (ns_update s) (ns_prev s) (blen (ns_messages s))
       msg (merkle_proof (H (nts_uid x)) (map (H (nts_uid x)) (ns_messages s)) i) section_path
     = decision_hash H x src height round.
Proof.
  intros H pc_hash v calls out x s i msg src height round (_ & _ & S) Ix Is HS Em. destruct (S x Ix) as (_ & As & C & _ & nt & Et & Eu & _ & Er & Eh).
  destruct (find_present ns_nid (nts_sections x) s As Is) as (k & Fk & Ek). pose proof Is as Is0. apply C in Is as (nid & w & nt' & _ & _ & _ & Et' & Es). assert (nt' = nt) by congruence. subst nt'.
  rewrite <- Eu in *. set (h := H (nts_uid x)) in *. assert (H32 : hash32 h) by (intro z; apply HS).
  unfold section_to_root. rewrite Fk. eexists. split; [reflexivity|]. fold h.
  assert (M : ns_messages s = sent_to nid calls) by (rewrite Es; reflexivity).
  assert (Cs : cat_items (ns_hashes s) = map h (ns_messages s)) by (rewrite M, Es; apply hashes_items; exact HS).
  assert (Rm : ns_root s = merkle_root h (cat_items (ns_hashes s))) by (rewrite Es; reflexivity). rewrite Cs in Rm.
  assert (Hs : ns_hash s = h (section_bytes (ns_nid s) (ns_update s) (ns_prev s) (blen (cat_items (ns_hashes s))) (ns_root s))) by (rewrite Es; reflexivity).
  rewrite Cs in Hs. assert (Bl : blen (map h (ns_messages s)) = blen (ns_messages s)) by (unfold blen; now rewrite map_length). rewrite Bl in Hs.
  assert (A1 : all32 (map h (ns_messages s))) by (apply Forall_forall; intros z I; apply in_map_iff in I as (m & <- & _); apply H32).
  assert (N1 : map h (ns_messages s) <> []) by (intro X; apply map_eq_nil in X; rewrite X in Em; destruct i; discriminate Em).
  destruct (C74_root h _ H32 A1 N1) as (r1 & R1 & _). assert (E1 : nth_error (map h (ns_messages s)) i = Some (h msg)) by (rewrite nth_error_map, Em; reflexivity).
  pose proof (C74_proof h _ i (h msg) r1 H32 A1 E1 R1) as P1.
  assert (A2 : all32 (map ns_hash (nts_sections x))).
  { apply Forall_forall. intros z I. apply in_map_iff in I as (s' & <- & I). apply C in I as (? & ? & nt' & _ & _ & _ & E' & ->). cbn [ns_hash new_section]. assert (nt' = nt) by congruence. subst nt'. rewrite <- Eu. apply H32. }
  assert (N2 : map ns_hash (nts_sections x) <> []) by (intro X; apply map_eq_nil in X; rewrite X in Is0; destruct Is0).
  destruct (C74_root h _ H32 A2 N2) as (r2 & R2 & _). assert (E2 : nth_error (map ns_hash (nts_sections x)) k = Some (ns_hash s)) by (rewrite nth_error_map, Ek; reflexivity).
  pose proof (C74_proof h _ k (ns_hash s) r2 H32 A2 E2 R2) as P2.
  unfold received_hash. cbv zeta. rewrite P1. rewrite R1 in Rm. rewrite <- Rm, <- Hs, P2. unfold decision_hash. fold h. rewrite Eh, Er, R2. reflexivity.
Qed.
Print Assumptions C75_chain.

(** Two sections with the same hash are the same, unless two different strings
    which are hashed for them have the same hash. *)
Theorem C75_binds : forall H uid nid nid' nw nw' ms ms', sane_hash (H uid) ->
  int64_range nid -> int64_range nid' -> sane_network nw -> sane_network nw' -> blen ms <= nw_next_sn nw -> blen ms' <= nw_next_sn nw' ->
  let s := new_section H nid nw ms uid in let s' := new_section H nid' nw' ms' uid in
  ns_hash s = ns_hash s' ->
  (nid = nid' /\ first_sn s = first_sn s' /\ nw_changed nw = nw_changed nw' /\ nw_last nw = nw_last nw' /\ ms = ms')
  \/ exists x y, hashed_for (H uid) s x /\ hashed_for (H uid) s' y /\ x <> y /\ H uid x = H uid y.
Proof.
  intros H uid nid nid' nw nw' ms ms' HS I1 I2 S1 S2 L1 L2 s s' E.
  destruct (section_numbers H uid nid nw ms) as (_ & _ & G1); [destruct S1; lia|]. destruct (section_numbers H uid nid' nw' ms') as (_ & _ & G2); [destruct S2; lia|].
  destruct (section_binds H uid HS s s') as [(E1 & E2 & E3 & E4)|C]; [exists nid, nw, ms; auto|exists nid', nw', ms'; auto|exact E|left|right; exact C].
  split; [exact E1|]. split; [unfold first_sn; now rewrite E2|]. split; [rewrite <- G1, <- G2; unfold context_changed; fold s s'; now rewrite E2|]. split; [exact E3|exact E4].
Qed.
Print Assumptions C75_binds.

(** What the validators sign says the source, the type, the height, the round,
    the next proof context and the root of the sections. *)
Theorem C75_decision : forall H x x' src src' height height' round round', nts_uid x = nts_uid x' -> sane_hash (H (nts_uid x)) ->
  nts_hash x = H (nts_uid x) (type_section_bytes (nts_pc x) (nts_root x)) -> nts_hash x' = H (nts_uid x) (type_section_bytes (nts_pc x') (nts_root x')) ->
  small_bytes src -> small_bytes src' -> int64_range (nts_id x) -> int64_range (nts_id x') -> int64_range height -> int64_range height' ->
  - 2 ^ 31 <= round < 2 ^ 31 -> - 2 ^ 31 <= round' < 2 ^ 31 -> small_opt (nts_pc x) -> small_opt (nts_pc x') -> small_opt (nts_root x) -> small_opt (nts_root x') ->
  decision_hash H x src height round = decision_hash H x' src' height' round' ->
  (src = src' /\ nts_id x = nts_id x' /\ height = height' /\ round = round' /\ nts_pc x = nts_pc x' /\ nts_root x = nts_root x')
  \/ (exists a b, In a [decision_bytes src (nts_id x) height round (nts_hash x); type_section_bytes (nts_pc x) (nts_root x)]
        /\ In b [decision_bytes src' (nts_id x') height' round' (nts_hash x'); type_section_bytes (nts_pc x') (nts_root x')]
        /\ a <> b /\ H (nts_uid x) a = H (nts_uid x) b).
Proof.
  intros H x x' src src' height height' round round' U HS E1 E2 A1 A2 A3 A4 A5 A6 A7 A8 A9 A10 A11 A12 E. unfold decision_hash in E. rewrite <- U in E.
  assert (G : forall y, nts_hash y = H (nts_uid x) (type_section_bytes (nts_pc y) (nts_root y)) -> small_bytes (nts_hash y)).
  { intros y ->. destruct (HS (type_section_bytes (nts_pc y) (nts_root y))) as [L W]. split; [exact W|]. unfold blen. rewrite L. reflexivity. }
  destruct (bytes_eq_dec (decision_bytes src (nts_id x) height round (nts_hash x)) (decision_bytes src' (nts_id x') height' round' (nts_hash x'))) as [D|N].
  - apply decision_bytes_inj in D; auto. destruct D as (D1 & D2 & D3 & D4 & D5).
    destruct (bytes_eq_dec (type_section_bytes (nts_pc x) (nts_root x)) (type_section_bytes (nts_pc x') (nts_root x'))) as [T|N].
    + apply type_section_bytes_inj in T; auto. destruct T. left. auto 10.
    + right. eexists. eexists. split; [right; left; reflexivity|]. split; [right; left; reflexivity|]. split; [exact N|]. rewrite <- E1, <- E2. exact D5.
  - right. eexists. eexists. split; [left; reflexivity|]. split; [left; reflexivity|]. split; [exact N|exact E].
Qed.
Print Assumptions C75_decision.

(** What is stored in the digest is read back: the types, the networks and the roots, each found by its ID. *)
Theorem C75_digest : forall H pc_hash v calls out sha3 d b, sections_of H pc_hash v calls out ->
  (forall x, In x out -> sane_hash (H (nts_uid x)) /\ wf_bytes (nts_uid x) /\ int64_range (nts_id x) /\ forall s, In s (nts_sections x) -> int64_range (ns_nid s)) ->
  digest_bytes out = Some b -> blen b < 2 ^ 63 -> one_value (flush sha3 out d) ->
  db_get (flush sha3 out d) Digests (sha3 b) = Some b
  /\ read_digest (Some b) = Some (map type_digest_is out)
  /\ (forall x s, In x out -> In s (nts_sections x) ->
        type_digest_for (map type_digest_is out) (nts_id x) = Some (type_digest_is x)
        /\ network_digest_for (type_digest_is x) (ns_nid s) = Some (network_digest_is s)).
Proof.
  intros H pc_hash v calls out sha3 d b (A & _ & S) W E L O. split; [apply get_in; [exact O|now apply flush_digest]|]. split.
  - apply digest_read; [|exact E|exact L]. apply Forall_forall. intros x Ix. destruct (W x Ix) as (HS & W1 & W2 & W3). destruct (S x Ix) as (_ & _ & C & _ & nt & Et & Eu & _ & Er & Eh).
    split; [exact W2|]. split; [exact W1|]. split; [rewrite Eh, <- Eu; apply HS|]. intros s Is. split; [now apply W3|]. apply C in Is as (nid & nw & nt' & _ & _ & _ & Et' & ->). assert (nt' = nt) by congruence. subst nt'. rewrite <- Eu. split; [apply HS|].
    pose proof (root_small H (nts_uid x) HS (sent_to nid calls)) as R. cbn [ns_root new_section]. rewrite (hashes_items H (nts_uid x) HS). destruct (merkle_root (H (nts_uid x)) (map (H (nts_uid x)) (sent_to nid calls))); [exact (proj1 R)|exact Logic.I].
  - intros x s Ix Is. destruct (S x Ix) as (_ & As & _). split.
    + unfold type_digest_for. rewrite (find_map type_digest_is nts_id ntd_id) by reflexivity. destruct (find_present nts_id out x A Ix) as (i & -> & Ei). rewrite nth_error_map, Ei. reflexivity.
    + unfold network_digest_for. cbn [ntd_networks type_digest_is]. rewrite (find_map network_digest_is ns_nid nd_nid) by reflexivity. destruct (find_present ns_nid (nts_sections x) s As Is) as (i & -> & Ei). rewrite nth_error_map, Ei. reflexivity.
Qed.
Print Assumptions C75_digest.

(** A block has no digest if and only if it has no sections, and no digest is read as no types. *)
Theorem C75_no_digest : forall out, (digest_bytes out = None <-> out = []) /\ (digest_bytes out = None -> read_digest (digest_bytes out) = Some (map type_digest_is out)).
Proof.
  intros out. assert (E : digest_bytes out = None <-> out = []) by (destruct out; cbn; split; intros H; try reflexivity; discriminate H).
  split; [exact E|]. intros N. rewrite N. apply E in N. now rewrite N.
Qed.
Print Assumptions C75_no_digest.

(** The type of a network of the digest is found, and of no other network. *)
Theorem C75_type_of : forall H pc_hash v calls out nid, sections_of H pc_hash v calls out ->
  (forall x s, In x out -> In s (nts_sections x) -> ns_nid s = nid -> type_of_network (map type_digest_is out) nid = Some (nts_id x))
  /\ ((forall x s, In x out -> In s (nts_sections x) -> ns_nid s <> nid) -> type_of_network (map type_digest_is out) nid = None).
Proof.
  intros H pc_hash v calls out nid (_ & _ & S).
  assert (G : forall y, existsb (fun n => nd_nid n =? nid) (ntd_networks (type_digest_is y)) = true <-> exists s, In s (nts_sections y) /\ ns_nid s = nid).
  { intro y. rewrite existsb_exists. cbn [ntd_networks type_digest_is]. split.
    - intros (n & I & E). apply in_map_iff in I as (s & <- & I). exists s. split; [exact I|]. now apply Z.eqb_eq.
    - intros (s & I & E). exists (network_digest_is s). split; [now apply in_map|]. now apply Z.eqb_eq. }
  split.
  - intros x s Ix Is En. unfold type_of_network. destruct (find _ _) as [d|] eqn:F.
    + apply find_some in F as [I E]. apply in_map_iff in I as (y & <- & Iy). apply G in E as (s' & Is' & En'). cbn [ntd_id type_digest_is]. f_equal.
      destruct (S x Ix) as (_ & _ & C & _). apply C in Is as (n1 & w1 & t1 & _ & V1 & T1 & _ & E1). destruct (S y Iy) as (_ & _ & C' & _). apply C' in Is' as (n2 & w2 & t2 & _ & V2 & T2 & _ & E2).
      subst s s'. cbn [ns_nid new_section] in En, En'. subst n1 n2. rewrite V1 in V2. injection V2 as <-. congruence.
    + pose proof (find_none _ _ F (type_digest_is x) (in_map _ _ _ Ix)) as X. assert (Y : existsb (fun n => nd_nid n =? nid) (ntd_networks (type_digest_is x)) = true) by (apply G; now exists s). cbn beta in X. congruence.
  - intro N. unfold type_of_network. destruct (find _ _) as [d|] eqn:F; [|reflexivity]. exfalso. apply find_some in F as [I E]. apply in_map_iff in I as (y & <- & Iy). apply G in E as (s' & Is' & En'). exact (N y s' Iy Is' En').
Qed.
Print Assumptions C75_type_of.

(** As long as no bucket gets two values for a key, the messages are read back, with their numbers. *)
Theorem C75_reread : forall H pc_hash v calls out x s nw sha3 d,
  sections_of H pc_hash v calls out -> In x out -> In s (nts_sections x) -> sane_hash (H (nts_uid x)) -> v_network v (ns_nid s) = Some nw ->
  one_value (flush sha3 out d) ->
  read_messages (flush sha3 out d) (nts_uid x) (network_digest_is s) = map Some (sent_to (ns_nid s) calls)
  /\ read_update (flush sha3 out d) (nts_uid x) nw (network_digest_is s) = ns_update s.
Proof.
  intros H pc_hash v calls out x s nw sha3 d (_ & _ & S) Ix Is HS En O. destruct (S x Ix) as (_ & _ & C & _ & nt & Et & Eu & _). pose proof Is as Is0.
  apply C in Is as (nid & w & nt' & _ & E1 & _ & Et' & ->). assert (nt' = nt) by congruence. subst nt'. rewrite <- Eu in *. cbn [ns_nid new_section] in En. assert (w = nw) by congruence. subst w.
  destruct (read_back sha3 H out d x nid nw (sent_to nid calls) HS Ix Is0 O) as [M R]. split; [exact R|]. unfold read_update. rewrite M, (hashes_items H (nts_uid x) HS). cbn [ns_update new_section]. unfold blen. rewrite map_length. reflexivity.
Qed.
Print Assumptions C75_reread.

(** Found: it can get two without any collision.  Who sends the message
    [h a ++ h b] in one block, and the messages [a] and [b] in a later one, or to
    another network of the type, changes what is read of the first block. *)
Theorem C75_violated_overwrite : forall H uid a b n1 n2 nw1 nw2 id1 id2 pc1 pc2 r1 r2 c1 c2 h1 h2 sha3 d, sane_hash (H uid) -> H uid a <> H uid b ->
  let s1 := new_section H n1 nw1 [H uid a ++ H uid b] uid in
  let s2 := new_section H n2 nw2 [a; b] uid in
  let first := flush sha3 [mk_nts id1 uid pc1 [s1] r1 c1 h1] d in
  let second := flush sha3 [mk_nts id2 uid pc2 [s2] r2 c2 h2] first in
  read_messages first uid (network_digest_is s1) = [Some (H uid a ++ H uid b)]
  /\ read_messages second uid (network_digest_is s1) = [Some a; Some b].
Proof.
  intros H uid a b n1 n2 nw1 nw2 id1 id2 pc1 pc2 r1 r2 c1 c2 h1 h2 sha3 d HS N s1 s2 first second.
  set (m := H uid a ++ H uid b) in *.
  assert (C1 : cat_items (ns_hashes s1) = [H uid m]) by (apply (hashes_items H uid HS [m])).
  assert (C2 : cat_items (ns_hashes s2) = [H uid a; H uid b]) by (apply (hashes_items H uid HS [a; b])).
  assert (R1 : ns_root s1 = Some (H uid m)) by (change (ns_root s1) with (merkle_root (H uid) (cat_items (ns_hashes s1))); rewrite C1; reflexivity).
  assert (R2 : ns_root s2 = Some (H uid m)).
  { change (ns_root s2) with (merkle_root (H uid) (cat_items (ns_hashes s2))). rewrite C2. assert (A : all32 [H uid a; H uid b]) by (constructor; [apply HS|constructor; [apply HS|constructor]]).
    destruct (C74_root (H uid) [H uid a; H uid b]) as (r & E & U); [intro z; apply HS|exact A|discriminate|]. rewrite E. f_equal. symmetry. apply U. apply top_more; [cbn; lia|]. cbn [above]. constructor. }
  assert (F1 : exists d1, first = (Bytes_of uid, H uid m, m) :: (Lists_of uid, H uid m, ns_hashes s1) :: d1).
  { eexists. unfold first, flush. cbn [digest_bytes map fold_left nts_sections nts_uid]. unfold flush_section. rewrite R1, C1. cbn [combine ns_messages s1 new_section fold_left fst snd]. reflexivity. }
  assert (F2 : exists d2, second = (Bytes_of uid, H uid b, b) :: (Bytes_of uid, H uid a, a) :: (Lists_of uid, H uid m, ns_hashes s2) :: d2).
  { eexists. unfold second, flush. cbn [digest_bytes map fold_left nts_sections nts_uid]. unfold flush_section. rewrite R2, C2. cbn [combine ns_messages s2 new_section fold_left fst snd]. reflexivity. }
  destruct F1 as (d1 & F1), F2 as (d2 & F2).
  assert (B : forall u u', bucket_eqb (Bytes_of u) (Lists_of u') = false) by reflexivity. assert (Bu : bytes_eqb uid uid = true) by apply bytes_eqb_refl.
  split.
  - unfold read_messages, message_hashes. cbn [network_digest_is nd_root]. rewrite R1, F1. unfold db_get at 2. cbn [find fst snd bucket_eqb andb]. rewrite Bu, bytes_eqb_refl. cbn [andb]. rewrite C1.
    cbn [map]. unfold db_get. cbn [find fst snd bucket_eqb andb]. rewrite Bu, bytes_eqb_refl. reflexivity.
  - unfold read_messages, message_hashes. cbn [network_digest_is nd_root]. rewrite R1, F2. unfold db_get at 2. cbn [find fst snd bucket_eqb andb]. rewrite Bu, bytes_eqb_refl. cbn [andb]. rewrite C2.
    cbn [map]. unfold db_get. cbn [find fst snd bucket_eqb andb]. rewrite Bu, !bytes_eqb_refl. cbn [andb].
    replace (bytes_eqb (H uid b) (H uid a)) with false by (symmetry; apply bytes_eqb_neq; congruence). reflexivity.
Qed.
Print Assumptions C75_violated_overwrite.

(** A case: four networks of two types, called in a mixed order. *)
Definition ex_H (uid : bytes) (s : bytes) : bytes := quick_digest (uid ++ s).
Definition ex_pc (uid : bytes) (b : option bytes) : option (option bytes) := Some (option_map (ex_H uid) b).
Definition ex_view : view := mk_view
  (fun n => if n =? 7 then Some (mk_nw 2 12 false (Some (quick_digest [9]))) else if n =? 3 then Some (mk_nw 1 2 true None)
            else if n =? 5 then Some (mk_nw 2 40 false None) else if n =? 4 then Some (mk_nw 2 0 true None) else None)
  (fun t => if t =? 1 then Some (mk_nt [101; 116; 104] (Some [1; 2])) else if t =? 2 then Some (mk_nt [105; 99; 111; 110] None) else None).
Definition ex_calls : list call := [Send 7 [1]; Send 3 [2; 2]; Ensure 4; Send 7 [3]; Send 5 [4]; Send 3 []; Ensure 7].
Definition ex_out : list type_section := match build ex_H ex_pc ex_view (after ex_calls) (fun m => m) with Some l => l | None => [] end.
Lemma ex_sane uid : sane_hash (ex_H uid).
Proof. intro s. destruct (quick_digest32 (uid ++ s)) as [L W]. split; [unfold blen in L; unfold ex_H; lia|exact W]. Qed.
Example C75_meets : build ex_H ex_pc ex_view (after ex_calls) (fun m => m) = Some ex_out
  /\ build ex_H ex_pc ex_view (rev (after ex_calls)) (@rev _) = Some ex_out
  /\ map (fun x => (nts_id x, map (fun s => (ns_nid s, first_sn s, ns_messages s, context_changed s)) (nts_sections x))) ex_out
     = [(1, [(3, 0, [[2; 2]; []], true)]); (2, [(4, 0, [], true); (5, 39, [[4]], false); (7, 10, [[1]; [3]], false)])].
Proof. vm_compute. auto. Qed.
Example C75_right : sections_of ex_H ex_pc ex_view ex_calls ex_out /\ forall x, In x ex_out -> sane_hash (ex_H (nts_uid x)).
Proof.
  split; [|intros; apply ex_sane]. apply (C75_sections ex_H ex_pc ex_view ex_calls (after ex_calls) (fun m => m)); [apply Permutation_refl|intro; apply Permutation_refl|exact (proj1 C75_meets)].
Qed.
Fixpoint one_value_b (d : db) : bool :=
  match d with [] => true | x :: r => forallb (fun y => negb (bucket_eqb (fst (fst x)) (fst (fst y)) && bytes_eqb (snd (fst x)) (snd (fst y))) || bytes_eqb (snd x) (snd y)) r && one_value_b r end.
Lemma one_value_ok d : one_value_b d = true -> one_value d.
Proof.
  induction d as [|[[b0 k0] v0] d IH]; intros E b k v v' I I'; [destruct I|]. cbn [one_value_b] in E. apply andb_true_iff in E as [E1 E2]. rewrite forallb_forall in E1.
  assert (X : forall w, In (b0, k0, w) d -> v0 = w).
  { intros w Iw. specialize (E1 _ Iw). cbn [fst snd] in E1. rewrite bytes_eqb_refl, (proj2 (bucket_eqb_eq b0 b0) eq_refl) in E1. cbn in E1. now apply bytes_eqb_eq. }
  destruct I as [I|I], I' as [I'|I']; [congruence| | |exact (IH E2 _ _ _ _ I I')].
  - injection I as -> -> ->. now apply X.
  - injection I' as -> -> ->. symmetry. now apply X.
Qed.
Example C75_stored : one_value (flush quick_digest ex_out []) /\ exists b, digest_bytes ex_out = Some b /\ blen b < 2 ^ 63.
Proof. split; [apply one_value_ok; vm_compute; reflexivity|]. eexists. split; [reflexivity|vm_compute; reflexivity]. Qed.
Example C75_overwrite_meets : ex_H [1] [5] <> ex_H [1] [6]. Proof. vm_compute. discriminate. Qed.
