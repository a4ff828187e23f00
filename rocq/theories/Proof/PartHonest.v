(** Proofs that a trie makes are accepted by who holds its hash. *)
From Verif Require Import Model.Bytes Model.DbKey Model.Mpt Model.MptRun Model.MptProof Model.PartSet Spec.TrieSpec
  Proof.BytesFacts Proof.MptRlpFacts Proof.MptTree Proof.MptStore Proof.MptOps Proof.MptRunFacts Proof.MptProofFacts.
From Verif Require Proof.PartProve.
Open Scope nat_scope.

(** What was read, with the bytes it was read from. *)
Fixpoint plift (own : option bytes) (n : node) : pnode :=
  match n with
  | NHash h => PHash h
  | NLeaf k v => PLeaf own k v
  | NExt k n => PExt own k (Some (plift None n))
  | NBranch cs v => PBranch own (map (fun o => match o with Some c => Some (plift None c) | None => None end) cs) v
  end.

Section Facts.
Context (H : bytes -> bytes) (HH : digest32 H).
Notation ser := (serialize H).
Notation pprove := (pprove H).

Lemma plink_lift f b o : (forall own s n, deserialize_f f s = Some n -> pdeser_f f own s = DOk (plift own n)) ->
  from_link_f f b = Some o -> PartProve.plink f b = DOk (match o with Some c => Some (plift None c) | None => None end).
Proof.
  intros IH E. unfold from_link_f in E. unfold PartProve.plink. destruct (192 <=? nth 0 b 0)%Z.
  - destruct (deserialize_f f b) as [n|] eqn:D; [|discriminate E]. injection E as <-. rewrite (IH None b n D). reflexivity.
  - destruct (rlpParseBytes b) as [[|x r]|]; try discriminate E; injection E as <-; reflexivity.
Qed.
Lemma plinks_lift f : (forall own s n, deserialize_f f s = Some n -> pdeser_f f own s = DOk (plift own n)) ->
  forall l cs, links_f f l = Some cs -> PartProve.plinks f l = DOk (map (fun o => match o with Some c => Some (plift None c) | None => None end) cs).
Proof.
  intros IH. induction l as [|b l IHl]; intros cs E; cbn [links_f] in E; [injection E as <-; reflexivity|].
  destruct (from_link_f f b) as [c|] eqn:Eb; [|discriminate E]. destruct (links_f f l) as [cs'|]; [|discriminate E]. injection E as <-.
  cbn [PartProve.plinks map]. rewrite (plink_lift f b c IH Eb). change ((fix children (l0 : list bytes) : dres (list (option pnode)) := _) l) with (PartProve.plinks f l). rewrite (IHl cs' eq_refl). reflexivity.
Qed.
Lemma pdeser_lift : forall f own b n, deserialize_f f b = Some n -> pdeser_f f own b = DOk (plift own n).
Proof.
  induction f as [|f IH]; intros own b n E; [discriminate|]. rewrite PartProve.pdeser_unfold.
  destruct (rlpParseList b) as [l|] eqn:El.
  2:{ cbn [deserialize_f] in E. rewrite El in E. discriminate. }
  destruct (Nat.eq_dec (length l) 17) as [L|L].
  - rewrite (deser_branch f b l El L) in E. apply Nat.eqb_eq in L. destruct l as [|b0 [|b1 [|b2 l]]]; try discriminate L. rewrite L.
    destruct (links_f f (firstn 16 (b0 :: b1 :: b2 :: l))) as [cs|] eqn:Ec; [|discriminate E]. rewrite (plinks_lift f IH _ _ Ec).
    destruct (rlpParseBytes (nth 16 (b0 :: b1 :: b2 :: l) [])); [|discriminate E]. injection E as <-. reflexivity.
  - apply Nat.eqb_neq in L. destruct l as [|b0 [|b1 [|b2 l]]]; cbn [deserialize_f] in E; rewrite El in E; try discriminate E.
    + destruct (rlpParseBytes b0) as [[|k0 kr]|]; try discriminate E. destruct (Z.land k0 32 =? 0)%Z.
      * fold (from_link_f f b1) in E. destruct (from_link_f f b1) as [[x|]|] eqn:Ex; try discriminate E. injection E as <-. rewrite (plink_lift f b1 _ IH Ex). reflexivity.
      * destruct (rlpParseBytes b1); [|discriminate E]. injection E as <-. reflexivity.
    + rewrite L in E. discriminate E.
Qed.

(** What who knows nothing but links has of a node. *)
Definition fresh (root : bool) (t : node) : pnode := if has_hash root (ser t) then PHash (H (ser t)) else plift None (shallow H t).
Lemma fresh_hide t : plift None (hide H t) = fresh false t.
Proof. unfold fresh, hide, has_hash. cbn [orb]. destruct (32 <? blen (ser t))%Z; reflexivity. Qed.

Lemma opened_fresh root t p : fine t -> PartProve.opened H (fresh root t) (own_item H root t ++ p) = DOk (plift (own H root t) (shallow H t)).
Proof.
  intro F. unfold fresh, own_item, own. destruct (has_hash root (ser t)); cbn [app].
  - cbn [PartProve.opened]. rewrite bytes_eqb_refl. unfold pdeser. apply pdeser_lift. apply (deserialize_ok H HH t F). unfold blen. lia.
  - pose proof (fun h => shallow_not_hash H t h F) as N. destruct (shallow H t); try reflexivity. exfalso. eapply N. reflexivity.
Qed.

Lemma item_fresh root t p : item_ok (own H root t) (own_item H root t ++ p) = true /\ PartProve.rest (own H root t) (own_item H root t ++ p) = p.
Proof. unfold own, own_item. destruct (has_hash root (ser t)); cbn; [rewrite bytes_eqb_refl|]; auto. Qed.

Theorem honest db t : forall root m keys x fuel, fine t -> vrep H db root m t -> nibbles keys -> length keys < fuel -> has t keys x ->
  exists p, node_proof H db fuel root m keys = Some p
    /\ forall f, snd (pprove f (fresh root t) keys p) = PGot x \/ snd (pprove f (fresh root t) keys p) = PFuelOut.
Proof.
  induction t as [k v|k t IH|h|ts bv IH] using node_ind'; intros root m keys w fuel F R N Hf A; (destruct fuel as [|f]; [lia|]);
    pose proof F as F0; (destruct (realize_root H HH db m _ F) as (m1 & E1 & R1 & NH); [destruct root; [exact R|left; exact R]|]); cbn [node_proof]; rewrite E1;
    destruct (rep_ser H HH db _ m1 F R1) as [_ Es]; specialize (Es NH); rewrite Es;
    fine_inv F; rep_inv R1; try (exfalso; eapply NH; reflexivity).
  - apply has_leaf_iff in A as [-> ->]. assert (M : snd (compareKeys k k) = true) by (now apply compare_match). rewrite M.
    eexists. split; [reflexivity|]. intros [|g]; [now right|]. left. rewrite PartProve.pprove_unfold.
    change (if has_hash root (ser (NLeaf k v)) then [ser (NLeaf k v)] else []) with (own_item H root (NLeaf k v)).
    pose proof (opened_fresh root (NLeaf k v) [] F0) as O. rewrite app_nil_r in O. rewrite O. cbn [shallow plift PartProve.proven]. rewrite M.
    unfold own, own_item. destruct (has_hash root (ser (NLeaf k v))); cbn; [rewrite bytes_eqb_refl|]; auto.
  - apply has_ext_iff in A as (r & -> & A).
    assert (Cm : fst (compareKeys k (k ++ r)) = length k).
    { rewrite compare_sym. unfold compareKeys. cbn [fst]. rewrite <- (app_nil_r k) at 2. apply compare_app. destruct r; auto. }
    rewrite Cm, Nat.ltb_irrefl. assert (Sk : skipn (length k) (k ++ r) = r) by (rewrite skipn_app, skipn_all, Nat.sub_diag; reflexivity). rewrite Sk.
    apply nib_app in N as [_ N]. rewrite app_length in Hf. assert (length k <> 0) by (destruct k; [congruence|discriminate]).
    destruct (IH false m0 r w f Cn Rn N ltac:(lia) A) as (p & E & V). rewrite E. eexists. split; [reflexivity|]. intros [|g]; [now right|].
    match goal with |- context [(if has_hash root ?s then [?s] else []) ++ p] => change (if has_hash root s then [s] else []) with (own_item H root (NExt k (NBranch cs bv))) end.
    rewrite PartProve.pprove_unfold, (opened_fresh root _ p F0).
    change (plift (own H root (NExt k (NBranch cs bv))) (shallow H (NExt k (NBranch cs bv)))) with (PExt (own H root (NExt k (NBranch cs bv))) k (Some (plift None (hide H (NBranch cs bv))))).
    rewrite fresh_hide. unfold PartProve.proven. destruct (item_fresh root (NExt k (NBranch cs bv)) p) as [-> ->]. cbn [negb]. rewrite Cm, Nat.ltb_irrefl, Sk.
    specialize (V g). destruct (pprove g _ r p). exact V.
  - destruct keys as [|x r].
    + apply has_nil_iff in A. subst bv. eexists. split; [reflexivity|]. intros [|g]; [now right|]. left.
      match goal with |- context [(if has_hash root ?s then [?s] else [])] => change (if has_hash root s then [s] else []) with (own_item H root (NBranch ts (Some w))) end.
      rewrite PartProve.pprove_unfold. pose proof (opened_fresh root _ [] F0) as O. rewrite app_nil_r in O. rewrite O. cbn [shallow plift PartProve.proven].
      destruct (item_fresh root (NBranch ts (Some w)) []) as [X _]. rewrite app_nil_r in X. rewrite X. reflexivity.
    + apply nib_tail in N as [Nx N]. apply has_cons_iff in A as (t & K2 & A); [|unfold nibble in Nx; lia].
      destruct (kid_at H db cs ts (Z.to_nat x) Rc Cl (nib _ Nx)) as [[_ K2']|(c & t' & K1 & K2' & Rk)]; [congruence|]. rewrite K2 in K2'. injection K2' as <-.
      rewrite K1. pose proof (nth_error_In _ _ K2) as Hin. cbn [length] in Hf.
      destruct (IH t Hin false c r w f (Cc _ Hin) Rk N ltac:(lia) A) as (p & E & V). rewrite E. eexists. split; [reflexivity|]. intros [|g]; [now right|].
      match goal with |- context [(if has_hash root ?s then [?s] else []) ++ p] => change (if has_hash root s then [s] else []) with (own_item H root (NBranch ts bv)) end.
      rewrite PartProve.pprove_unfold, (opened_fresh root _ p F0).
      change (shallow H (NBranch ts bv)) with (NBranch (map (fun o => match o with Some c => Some (hide H c) | None => None end) ts) bv).
      cbn [plift PartProve.proven]. destruct (item_fresh root (NBranch ts bv) p) as [-> ->]. cbn [negb].
      rewrite map_map, nth_error_map, K2. cbn [option_map]. rewrite fresh_hide. specialize (V g). destruct (pprove g _ r p). exact V.
Qed.
End Facts.
