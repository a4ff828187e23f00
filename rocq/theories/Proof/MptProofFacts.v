(** Proofs made from a trie are accepted, and accepted proofs tell the truth. *)
From Verif Require Import Model.Bytes Model.DbKey Model.Mpt Model.MptRun Model.MptProof Spec.TrieSpec Spec.ProofSpec
  Proof.BytesFacts Proof.MptRlpFacts Proof.MptTree Proof.MptStore Proof.MptOps Proof.MptRunFacts.
Open Scope nat_scope.

Lemma common_sym a : forall b, common_len a b = common_len b a.
Proof. induction a as [|x a IH]; intros [|y b]; cbn [common_len]; auto. rewrite IH, (Z.eqb_sym x y). reflexivity. Qed.
Lemma compare_sym a b : compareKeys a b = compareKeys b a.
Proof. unfold compareKeys. rewrite (common_sym a b). f_equal. apply andb_comm. Qed.

Section Facts.
Context (H : bytes -> bytes) (HH : digest32 H).
Notation ser := (serialize H).

(** A verifier's node: [db] is the prover's database. *)
Definition vrep (db : database) (root : bool) (n t : node) : Prop := if root then rrep H db n t else rep H db n t.

Definition own (root : bool) (t : node) : option bytes := if has_hash root (ser t) then Some (ser t) else None.

(** What [prove] does with a node that is not a hash. *)
Definition proven (f : nat) (own : option bytes) (n : node) (keys : list Z) (proof : list bytes) : node * option bytes * option perr :=
  match n with
  | NLeaf lk v =>
      if match own, proof with None, _ => false | Some s, [b] => negb (bytes_eqb b s) | Some _, _ => true end then (n, None, Some PIllegal)
      else if snd (compareKeys lk keys) then (n, Some v, None) else (n, None, Some PNotFound)
  | NExt ek next =>
      if match own, proof with None, _ => false | Some s, b :: _ => negb (bytes_eqb b s) | Some _, [] => true end then (n, None, Some PIllegal)
      else
        let rest := match own with Some _ => tl proof | None => proof end in
        let cnt := fst (compareKeys ek keys) in
        if Nat.ltb cnt (length ek) then (n, None, Some PNotFound)
        else let '(next', o, e) := node_prove H f false next (skipn cnt keys) rest in (NExt ek next', o, e)
  | NBranch cs v =>
      if match own, proof with None, _ => false | Some s, b :: _ => negb (bytes_eqb b s) | Some _, [] => true end then (n, None, Some PIllegal)
      else
        let rest := match own with Some _ => tl proof | None => proof end in
        match keys with
        | [] => (n, v, None)
        | k :: r =>
            match nth_error cs (Z.to_nat k) with
            | Some (Some c) => let '(c', o, e) := node_prove H f false c r rest in (NBranch (set_nth cs (Z.to_nat k) (Some c')) v, o, e)
            | _ => (n, None, Some PNotFound)
            end
        end
  | NHash _ => (n, None, Some PIllegal)
  end.

Lemma node_prove_hash f root s r n keys : deserialize s = Some n -> node_prove H (S f) root (NHash (H s)) keys (s :: r) = proven f (Some s) n keys (s :: r).
Proof. intro D. cbn [node_prove]. rewrite bytes_eqb_refl, D. reflexivity. Qed.

(** Either the node stays as it is and the proof is refused, or the node is there, with the serialization of [t]. *)
Lemma prove_unfold db t root n keys proof f : fine t -> vrep db root n t ->
  (forall b, In b proof -> forall s, In (H b, s) (flush_entries H root t) -> b = s) ->
  node_prove H (S f) root n keys proof = (n, None, Some PIllegal)
  \/ exists n1, rep H db n1 t /\ (forall h, n1 <> NHash h) /\ node_prove H (S f) root n keys proof = proven f (own root t) n1 keys proof
     /\ (n = NHash (H (ser t)) -> exists r, proof = ser t :: r).
Proof.
  intros F R Ok.
  assert (Hash : stored H db true t -> has_hash root (ser t) = true -> n = NHash (H (ser t)) ->
    node_prove H (S f) root n keys proof = (n, None, Some PIllegal)
    \/ exists n1, rep H db n1 t /\ (forall h, n1 <> NHash h) /\ node_prove H (S f) root n keys proof = proven f (own root t) n1 keys proof
       /\ (n = NHash (H (ser t)) -> exists r, proof = ser t :: r)).
  { intros St Hh ->. cbn [node_prove]. destruct proof as [|b r]; [now left|]. destruct (bytes_eqb (H (ser t)) (H b)) eqn:B; [|now left].
    apply bytes_eqb_eq in B. assert (E : b = ser t). { apply (Ok b (or_introl eq_refl)). rewrite <- B. destruct root; [now apply own_in|apply big_own; auto]. unfold has_hash in Hh. now apply Z.ltb_lt. }
    subst b. right. exists (shallow H t). split; [apply rep_shallow; auto; now apply stored_root|]. split; [intro; now apply shallow_not_hash|]. split; [|eauto].
    unfold deserialize. rewrite (deserialize_ok H HH t F) by (unfold blen; lia). unfold own. rewrite Hh. reflexivity. }
  assert (Plain : rep H db n t -> (forall h, n <> NHash h) ->
    exists n1, rep H db n1 t /\ (forall h, n1 <> NHash h) /\ node_prove H (S f) root n keys proof = proven f (own root t) n1 keys proof
       /\ (n = NHash (H (ser t)) -> exists r, proof = ser t :: r)).
  { intros R1 NH. exists n. split; auto. split; auto. split; [|intro X; exfalso; eapply NH; eauto].
    destruct (rep_ser H HH db t n F R1) as [_ E]. specialize (E NH). unfold own. rewrite <- E.
    destruct n; cbn [node_prove]; try reflexivity. exfalso. eapply NH. reflexivity. }
  assert (Rep : rep H db n t -> n = NHash (H (ser t)) /\ stored H db true t /\ has_hash root (ser t) = true \/ (forall h, n <> NHash h)).
  { intro R1. inversion R1; subst; try (right; discriminate). left. split; auto. split; [now apply stored_big|].
    unfold has_hash. apply Z.ltb_lt in H1. rewrite H1. apply orb_true_r. }
  destruct root; cbn [vrep] in R.
  - destruct R as [R|[E St]]; [|now apply Hash]. destruct (Rep R) as [(E & St & Hh)|NH]; [now apply Hash|right; now apply Plain].
  - destruct (Rep R) as [(E & St & Hh)|NH]; [now apply Hash|right; now apply Plain].
Qed.

Definition truth (t : node) (keys : list Z) (o : option bytes) (e : option perr) : Prop :=
  match e with
  | None => forall v, o = Some v <-> has t keys v
  | Some PNotFound => forall v, ~ has t keys v
  | Some PIllegal => True
  | Some PFuel => False
  end.

Lemma rep_v db root n t : rep H db n t -> vrep db root n t.
Proof. destruct root; cbn; auto. now left. Qed.

Lemma entries_ext root k t x : In x (flush_entries H false t) -> In x (flush_entries H root (NExt k t)).
Proof. intro X. cbn [flush_entries]. apply in_or_app. now left. Qed.
Lemma entries_child root cs v c x : In (Some c) cs -> In x (flush_entries H false c) -> In x (flush_entries H root (NBranch cs v)).
Proof. intros Hc X. rewrite entries_branch. apply in_or_app. left. apply in_flat_map. exists (Some c). auto. Qed.

Lemma in_rest {A} (o : option bytes) (l : list A) x : In x (match o with Some _ => tl l | None => l end) -> In x l.
Proof. destruct o; auto. destruct l; cbn; auto. Qed.

Theorem prove_sound db t : forall root n keys proof fuel, fine t -> vrep db root n t -> nibbles keys -> length keys < fuel ->
  (forall b, In b proof -> forall s, In (H b, s) (flush_entries H root t) -> b = s) ->
  exists n' o e, node_prove H fuel root n keys proof = (n', o, e) /\ vrep db root n' t /\ truth t keys o e.
Proof.
  induction t as [k v|k t IH|h|ts bv IH] using node_ind'; intros root n keys proof fuel F R N Hf Ok; (destruct fuel as [|f]; [lia|]);
    (destruct (prove_unfold db _ root n keys proof f F R Ok) as [E|(n1 & R1 & NH & E & _)]; [rewrite E; eexists _, _, _; split; [reflexivity|split; [exact R|exact I]]|]);
    rewrite E; fine_inv F; rep_inv R1; try (exfalso; eapply NH; reflexivity); cbn [proven]; set (ow := own root _); clearbody ow.
  - match goal with |- context [if ?c then _ else _] => destruct c end.
    { eexists _, _, _. split; [reflexivity|]. split; [apply rep_v; constructor|exact I]. }
    destruct (snd (compareKeys k keys)) eqn:M; eexists _, _, _; (split; [reflexivity|]); (split; [apply rep_v; constructor|]); cbn [truth]; intro w; rewrite has_leaf_iff.
    + apply compare_match in M. split; [intro X; injection X; auto|intros [_ ->]; auto].
    + intros [X _]. symmetry in X. apply compare_match in X. congruence.
  - match goal with |- context [if ?c then _ else _] => destruct c end.
    { eexists _, _, _. split; [reflexivity|]. split; [apply rep_v; now constructor|exact I]. }
    rewrite (compare_sym k keys). destruct (Nat.ltb_spec (fst (compareKeys keys k)) (length k)) as [L|L].
    + eexists _, _, _. split; [reflexivity|]. split; [apply rep_v; now constructor|]. cbn [truth]. intros w. rewrite has_ext_iff.
      intros (r & X & _). exfalso. eapply compare_less; eauto.
    + destruct (compare_all keys k ltac:(lia)) as [K1 K2]. set (r := skipn (fst (compareKeys keys k)) keys) in *. clearbody r. subst keys.
      apply nib_app in N as [_ N]. rewrite app_length in Hf.
      assert (length k <> 0) by (destruct k; [congruence|discriminate]).
      destruct (IH false m r (match ow with Some _ => tl proof | None => proof end) f Cn Rn N ltac:(lia)) as (n' & o & e & G & R' & V).
      { intros b Hb s Hs. apply in_rest in Hb. apply (Ok b Hb). now apply entries_ext. }
      rewrite G. eexists _, _, _. split; [reflexivity|]. split; [apply rep_v; now constructor|].
      destruct e as [[]|]; cbn [truth] in *; auto; intro w; [rewrite has_ext_iff; intros (r' & X & A); apply app_inv_head in X; subst; eapply V; eauto|].
      rewrite V, has_ext_iff. split; [eauto|]. intros (r' & X & A). apply app_inv_head in X. now subst.
  - match goal with |- context [if ?c then _ else _] => destruct c end.
    { eexists _, _, _. split; [reflexivity|]. split; [apply rep_v; now constructor|exact I]. }
    destruct keys as [|x r].
    + eexists _, _, _. split; [reflexivity|]. split; [apply rep_v; now constructor|]. cbn [truth]. intro w. rewrite has_nil_iff. tauto.
    + apply nib_tail in N as [Nx N]. destruct (kid_at H db cs ts (Z.to_nat x) Rc Cl (nib _ Nx)) as [[K1 K2]|(c & t & K1 & K2 & Rk)]; rewrite K1.
      * eexists _, _, _. split; [reflexivity|]. split; [apply rep_v; now constructor|]. cbn [truth]. intro w.
        rewrite has_cons_iff by (unfold nibble in Nx; lia). intros (c & X & _). congruence.
      * pose proof (nth_error_In _ _ K2) as Hin. cbn [length] in Hf.
        destruct (IH t Hin false c r (match ow with Some _ => tl proof | None => proof end) f (Cc _ Hin) Rk N ltac:(lia)) as (n' & o & e & G & R' & V).
        { intros b Hb s Hs. apply in_rest in Hb. apply (Ok b Hb). eapply entries_child; eauto. }
        rewrite G. eexists _, _, _. split; [reflexivity|]. split.
        { apply rep_v. constructor. rewrite <- (set_nth_id ts _ _ K2). apply forall2_set; auto. now constructor. }
        destruct e as [[]|]; cbn [truth] in *; auto; intro w; [rewrite has_cons_iff by (unfold nibble in Nx; lia); intros (c' & X & A); assert (c' = t) by congruence; subst; eapply V; eauto|].
        rewrite V, has_cons_iff by (unfold nibble in Nx; lia). split; [eauto|]. intros (c' & X & A). congruence.
Qed.
(** ** Completeness *)
Definition own_item (root : bool) (t : node) : list bytes := if has_hash root (ser t) then [ser t] else [].

Lemma prove_honest db t root n keys rest f : fine t -> vrep db root n t ->
  exists n1, rep H db n1 t /\ (forall h, n1 <> NHash h)
    /\ node_prove H (S f) root n keys (own_item root t ++ rest) = proven f (own root t) n1 keys (own_item root t ++ rest).
Proof.
  intros F R.
  assert (Sh : (rep H db n t /\ forall h, n <> NHash h) \/ (n = NHash (H (ser t)) /\ stored H db true t /\ has_hash root (ser t) = true)).
  { assert (Rep : rep H db n t -> (rep H db n t /\ forall h, n <> NHash h) \/ (n = NHash (H (ser t)) /\ stored H db true t /\ has_hash root (ser t) = true)).
    { intro R1. inversion R1; subst; try (left; split; [assumption|discriminate]). right. split; auto. split; [now apply stored_big|].
      unfold has_hash. apply Z.ltb_lt in H1. rewrite H1. apply orb_true_r. }
    destruct root; cbn [vrep] in R; auto. destruct R as [R|[E St]]; auto. }
  destruct Sh as [[R1 NH]|(-> & St & Hh)].
  - exists n. split; auto. split; auto. destruct (rep_ser H HH db t n F R1) as [_ E]. specialize (E NH). unfold own. rewrite <- E.
    destruct n; cbn [node_prove]; try reflexivity. exfalso. eapply NH. reflexivity.
  - exists (shallow H t). split; [apply rep_shallow; auto; now apply stored_root|]. split; [intro; now apply shallow_not_hash|].
    unfold own_item, own. rewrite Hh. cbn [app node_prove]. rewrite bytes_eqb_refl.
    unfold deserialize. rewrite (deserialize_ok H HH t F) by (unfold blen; lia). reflexivity.
Qed.

Lemma own_ok root t rest : match own root t, own_item root t ++ rest with None, _ => false | Some s, b :: _ => negb (bytes_eqb b s) | Some _, [] => true end = false
  /\ match own root t with Some _ => tl (own_item root t ++ rest) | None => own_item root t ++ rest end = rest.
Proof. unfold own, own_item. destruct (has_hash root (ser t)); cbn; [rewrite bytes_eqb_refl|]; auto. Qed.

Theorem proof_complete db t : forall root m keys v fuel, fine t -> vrep db root m t -> nibbles keys -> length keys < fuel -> has t keys v ->
  exists p, node_proof H db fuel root m keys = Some p
    /\ forall db' n, vrep db' root n t -> exists n', node_prove H fuel root n keys p = (n', Some v, None).
Proof.
  induction t as [k v|k t IH|h|ts bv IH] using node_ind'; intros root m keys w fuel F R N Hf A; (destruct fuel as [|f]; [lia|]);
    pose proof F as F0; (destruct (realize_root H HH db m _ F) as (m1 & E1 & R1 & NH); [destruct root; [exact R|left; exact R]|]); cbn [node_proof]; rewrite E1;
    destruct (rep_ser H HH db _ m1 F R1) as [_ Es]; specialize (Es NH); rewrite Es;
    fine_inv F; rep_inv R1; try (exfalso; eapply NH; reflexivity).
  - apply has_leaf_iff in A as [-> ->]. assert (M : snd (compareKeys k k) = true) by (now apply compare_match). rewrite M.
    eexists. split; [reflexivity|]. intros db' n Rn. destruct (prove_honest db' _ root n k [] f F0 Rn) as (n1 & R1 & NH1 & E).
    change (if has_hash root (ser (NLeaf k v)) then [ser (NLeaf k v)] else []) with (own_item root (NLeaf k v)).
    rewrite app_nil_r in E. rewrite E. rep_inv R1; [|exfalso; eapply NH1; reflexivity]. cbn [proven]. rewrite M.
    exists (NLeaf k v). unfold own, own_item. destruct (has_hash root (ser (NLeaf k v))); cbn; [rewrite bytes_eqb_refl|]; auto.
  - apply has_ext_iff in A as (r & -> & A).
    assert (Cm : fst (compareKeys k (k ++ r)) = length k).
    { rewrite compare_sym. unfold compareKeys. cbn [fst]. rewrite <- (app_nil_r k) at 2. apply compare_app. destruct r; auto. }
    rewrite Cm, Nat.ltb_irrefl. assert (Sk : skipn (length k) (k ++ r) = r) by (rewrite skipn_app, skipn_all, Nat.sub_diag; reflexivity). rewrite Sk.
    apply nib_app in N as [_ N]. rewrite app_length in Hf. assert (length k <> 0) by (destruct k; [congruence|discriminate]).
    destruct (IH false m0 r w f Cn Rn N ltac:(lia) A) as (p & E & V). rewrite E. eexists. split; [reflexivity|]. intros db' n Rv.
    match goal with |- context [(if has_hash root ?s then [?s] else []) ++ p] => change (if has_hash root s then [s] else []) with (own_item root (NExt k (NBranch cs bv))) end.
    destruct (prove_honest db' _ root n (k ++ r) p f F0 Rv) as (n1 & R1 & NH1 & E2). rewrite E2. rep_inv R1; [|exfalso; eapply NH1; reflexivity]. cbn [proven].
    destruct (own_ok root (NExt k (NBranch cs bv)) p) as [-> ->]. rewrite Cm, Nat.ltb_irrefl, Sk. destruct (V db' _ Rn0) as (n' & G). rewrite G. eauto.
  - destruct keys as [|x r].
    + apply has_nil_iff in A. subst bv. eexists. split; [reflexivity|]. intros db' n Rv.
      match goal with |- context [(if has_hash root ?s then [?s] else [])] => change (if has_hash root s then [s] else []) with (own_item root (NBranch ts (Some w))) end.
      destruct (prove_honest db' _ root n [] [] f F0 Rv) as (n1 & R1 & NH1 & E2). rewrite app_nil_r in E2. rewrite E2. rep_inv R1; [|exfalso; eapply NH1; reflexivity]. cbn [proven].
      destruct (own_ok root (NBranch ts (Some w)) []) as [X _]. rewrite app_nil_r in X. rewrite X. eauto.
    + apply nib_tail in N as [Nx N]. apply has_cons_iff in A as (t & K2 & A); [|unfold nibble in Nx; lia].
      destruct (kid_at H db cs ts (Z.to_nat x) Rc Cl (nib _ Nx)) as [[_ K2']|(c & t' & K1 & K2' & Rk)]; [congruence|]. rewrite K2 in K2'. injection K2' as <-.
      rewrite K1. pose proof (nth_error_In _ _ K2) as Hin. cbn [length] in Hf.
      destruct (IH t Hin false c r w f (Cc _ Hin) Rk N ltac:(lia) A) as (p & E & V). rewrite E. eexists. split; [reflexivity|]. intros db' n Rv.
      match goal with |- context [(if has_hash root ?s then [?s] else []) ++ p] => change (if has_hash root s then [s] else []) with (own_item root (NBranch ts bv)) end.
      destruct (prove_honest db' _ root n (x :: r) p f F0 Rv) as (n1 & R1 & NH1 & E2). rewrite E2. rep_inv R1; [|exfalso; eapply NH1; reflexivity]. cbn [proven].
      destruct (own_ok root (NBranch ts bv) p) as [-> ->].
      destruct (kid_at H db' cs0 ts (Z.to_nat x) Rc0 Cl (nib _ Nx)) as [[_ K3]|(c3 & t3 & K3 & K4 & Rk3)]; [congruence|]. rewrite K2 in K4. injection K4 as <-.
      rewrite K3. destruct (V db' c3 Rk3) as (n' & G). rewrite G. eauto.
Qed.
(** ** Sessions of a verifier *)
Lemma prove_call db t n k p : fine t -> vrep db true n t -> wf_bytes k ->
  (forall b, In b p -> forall s, In (H b, s) (flush_entries H true t) -> b = s) ->
  exists n' a, mpt_prove H (Some n) k p = (Some n', a) /\ vrep db true n' t /\ forall c, shows t c -> tells (c k) a.
Proof.
  intros F R W Ok. unfold mpt_prove.
  destruct (prove_sound db t true n (bytesToNibs k) p _ F R (unpack_nibbles k W) (fuel_ok k) Ok) as (n' & o & e & E & R' & T).
  rewrite E. eexists _, _. split; [reflexivity|]. split; auto. intros c Sh.
  assert (No : (forall v, ~ has t (bytesToNibs k) v) -> c k = None).
  { intro X. destruct (c k) as [v|] eqn:Ec; auto. apply Sh in Ec; auto. exfalso. eapply X. exact Ec. }
  destruct e as [[]|]; cbn [truth tells] in *; auto.
  destruct o as [v|]; cbn [tells]; [apply Sh; auto; now apply T|]. apply No. intros v A. apply T in A. discriminate.
Qed.

Lemma session db t : forall calls n, fine t -> vrep db true n t ->
  (forall k p, In (k, p) calls -> wf_bytes k /\ forall b, In b p -> forall s, In (H b, s) (flush_entries H true t) -> b = s) ->
  exists n' l, verifies H (Some n) calls = (Some n', l) /\ vrep db true n' t /\ forall c, shows t c -> Forall2 (fun kp a => tells (c (fst kp)) a) calls l.
Proof.
  induction calls as [|[k p] calls IH]; intros n F R Ok; cbn [verifies].
  - eexists _, _. split; [reflexivity|]. auto.
  - destruct (Ok k p (or_introl eq_refl)) as [W Okp]. destruct (prove_call db t n k p F R W Okp) as (n1 & a & E & R1 & T1). rewrite E.
    destruct (IH n1 F R1) as (n2 & l & E2 & R2 & T2); [intros; apply Ok; now right|]. rewrite E2.
    eexists _, _. split; [reflexivity|]. split; auto.
Qed.

Lemma verifier_some db h c : kinv H db h c -> (verifier h = None /\ forall b, wf_bytes b -> c b = None)
  \/ exists t, fine t /\ keyed t /\ shows t c /\ verifier h = Some (NHash (H (ser t))) /\ vrep db true (NHash (H (ser t))) t /\ stored H db true t.
Proof.
  intros [[-> Z0]|(t & F & Ky & -> & St & Sh)]; [left; auto|right]. exists t. split; auto. split; auto. split; auto. split.
  - unfold verifier, new_mpt. pose proof (proj1 (HH (ser t))) as L. destruct (H (ser t)) as [|b r] eqn:Eb; [discriminate L|reflexivity].
  - split; auto. right. auto.
Qed.

Lemma session_none : forall calls, verifies H None calls = (None, map (fun _ => Refused PIllegal) calls).
Proof. induction calls as [|[k p] calls IH]; cbn [verifies map mpt_prove]; [reflexivity|]. rewrite IH. reflexivity. Qed.

Theorem session_sound db log h c calls : knows db log -> kinv H db h c ->
  (forall k p, In (k, p) calls -> wf_bytes k /\ forall b, In b p -> forall s, In (H b, s) log -> b = s) ->
  Forall2 (fun kp a => tells (c (fst kp)) a) calls (snd (verifies H (verifier h) calls)).
Proof.
  intros K Kv Ok. destruct (verifier_some db h c Kv) as [[-> Z0]|(t & F & Ky & Sh & -> & R & St)].
  - rewrite session_none. cbn [snd]. clear. induction calls; cbn [map]; constructor; auto. exact I.
  - destruct (session db t calls _ F R) as (n' & l & E & _ & T).
    { intros k p Hin. destruct (Ok k p Hin) as [W X]. split; auto. intros b Hb s Hs. apply (X b Hb s). apply K, St, Hs. }
    rewrite E. auto.
Qed.

Theorem session_complete db0 r db log h c calls k x : knows db log -> tinv H db0 r c -> kinv H db h c ->
  (forall k p, In (k, p) calls -> wf_bytes k /\ forall b, In b p -> forall s, In (H b, s) log -> b = s) ->
  wf_bytes k -> c k = Some x ->
  exists p, mpt_proof H (mk_mpt db0 r) k = Some p /\ snd (mpt_prove H (fst (verifies H (verifier h) calls)) k p) = Proved x.
Proof.
  intros K T Kv Ok W Ex. destruct (verifier_some db h c Kv) as [[_ Z0]|(t & F & Ky & Sh & -> & R & St)]; [rewrite Z0 in Ex; [discriminate|auto]|].
  destruct r as [n|]; cbn [tinv] in T; [|rewrite T in Ex; [discriminate|auto]].
  destruct T as (t0 & F0 & Ky0 & R0 & Sh0).
  assert (t0 = t).
  { apply canon_unique; [apply F0|apply F|]. intros k' v. split; intro A.
    - destruct (Ky0 _ _ A) as (b & Wb & ->). apply Sh; auto. apply Sh0; auto.
    - destruct (Ky _ _ A) as (b & Wb & ->). apply Sh0; auto. apply Sh; auto. }
  subst t0. destruct (session db t calls _ F R) as (n' & l & E & R' & _).
  { intros k' p Hin. destruct (Ok k' p Hin) as [Wk X]. split; auto. intros b Hb s Hs. apply (X b Hb s). apply K, St, Hs. }
  rewrite E. cbn [fst]. apply Sh in Ex; auto.
  destruct (proof_complete db0 t true n (bytesToNibs k) x _ F R0 (unpack_nibbles k W) (fuel_ok k) Ex) as (p & Ep & V).
  exists p. unfold mpt_proof, mpt_prove. cbn [m_root m_db]. split; auto. destruct (V db n' R') as (n2 & G). rewrite G. reflexivity.
Qed.
End Facts.
