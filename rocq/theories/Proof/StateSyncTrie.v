(** Fetching a state: tries that have been fetched answer as before. *)
From Verif Require Import Model.Bytes Model.DbKey Model.Mpt Model.MptRun Model.StateSync Spec.TrieSpec Spec.StateSyncSpec Proof.BytesFacts Proof.MptRlpFacts Proof.MptTree Proof.MptStore Proof.MptRunFacts Proof.StateSyncFacts Proof.StateSyncInv.
Open Scope Z_scope.

Section Trie.
Context (H : bytes -> bytes) (HH : digest32 H) (account_refs : bytes -> option (list ref)) (api_ok : bytes -> bool).
Notation refs := (refs_of account_refs api_ok).
Notation ser := (serialize H).

Definition kid (c t : node) : Prop :=
  match t with
  | NExt _ n => c = n
  | NBranch cs _ => In (Some c) cs
  | _ => False
  end.

Lemma kid_fine c t : fine t -> kid c t -> fine c.
Proof. intros F K. destruct t; cbn in K; try contradiction; fine_inv F; subst; auto. Qed.
Lemma kid_entries c t x : fine t -> kid c t -> In x (flush_entries H false c) -> In x (flush_entries H true t) /\ In x (flush_entries H false t).
Proof.
  intros F K Hin. destruct t as [| |cs v|]; cbn in K; try contradiction.
  - subst. cbn [flush_entries]. split; apply in_or_app; now left.
  - rewrite !entries_branch. split; apply in_or_app; left; apply in_flat_map; exists (Some c); auto.
Qed.
Lemma entries_cases t x : fine t -> In x (flush_entries H true t) -> x = (H (ser t), ser t) \/ exists c, kid c t /\ In x (flush_entries H false c).
Proof.
  intros F Hin. destruct t as [k v|k n|cs v|h].
  - cbn [flush_entries own_entry orb] in Hin. destruct Hin as [<-|[]]. now left.
  - cbn [flush_entries own_entry orb] in Hin. apply in_app_iff in Hin as [Hin|[<-|[]]]; [right|now left]. exists n. split; [reflexivity|auto].
  - rewrite entries_branch in Hin. cbn [own_entry orb] in Hin. apply in_app_iff in Hin as [Hin|[<-|[]]]; [right|now left].
    apply in_flat_map in Hin as ([c|] & A & B); [|destruct B]. exists c. auto.
  - fine_inv F.
Qed.

Lemma big_entries c x : 32 < blen (ser c) -> In x (flush_entries H true c) -> In x (flush_entries H false c).
Proof.
  intros L Hx. apply Z.ltb_lt in L. destruct c; auto; [cbn [flush_entries] in *|cbn [flush_entries] in *|rewrite entries_branch in *]; unfold own_entry in *; rewrite L; exact Hx.
Qed.

(** Small nodes have small nodes below them and hold small values. *)
Lemma link_in c t : fine t -> kid c t -> blen (getLink H c) < blen (ser t).
Proof.
  intros F K. destruct t as [k v|k n|cs v|h]; cbn in K; try contradiction; fine_inv F.
  - subst. rewrite ser_ext. destruct (good_link H HH _ Cn (canon_good H HH _ Cn)) as (_ & _ & L). destruct (okk_key H HH 0 k (or_introl eq_refl) Ck) as (_ & _ & L1).
    set (items := [go_rlpEncodeBytes (encodeKeys 0 k); getLink H (NBranch cs bv)]).
    assert (Sm : small (concat items)) by (unfold items, small; cbn [concat]; rewrite app_nil_r, blen_app; lia).
    pose proof (list_len items Sm). assert (X : In (getLink H (NBranch cs bv)) items) by (right; now left). pose proof (in_concat_len _ _ X). lia.
  - destruct (branch_items H HH cs v F (fun c Hc => canon_good H HH c (Cc c Hc))) as (_ & _ & Lm). rewrite ser_branch.
    set (items := map (olink H) cs ++ [vlink v]) in *. assert (Sm : small (concat items)) by (unfold small, limit in *; lia).
    pose proof (list_len items Sm). assert (X : In (getLink H c) items) by (apply in_or_app; left; apply in_map_iff; exists (Some c); auto).
    pose proof (in_concat_len _ _ X). lia.
Qed.
Lemma kid_small c t : fine t -> kid c t -> blen (ser t) <= 32 -> blen (ser c) <= 32.
Proof.
  intros F K L. pose proof (link_in c t F K) as X. pose proof (kid_fine _ _ F K) as Fc.
  rewrite link_eq in X by (intro; now apply canon_not_hash). destruct (Z.ltb_spec 32 (blen (ser c))) as [B|B]; [|lia]. exfalso.
  destruct (HH (ser c)) as [E W]. assert (Sm : small (H (ser c))) by (unfold small; rewrite E; reflexivity).
  pose proof (enc_len _ Sm W). lia.
Qed.
Lemma small_entries t : fine t -> blen (ser t) <= 32 -> flush_entries H false t = [].
Proof.
  induction t as [k v|k n IH|h|cs bv IH] using node_ind'; intros F L.
  - cbn [flush_entries]. unfold own_entry. cbn [orb]. destruct (Z.ltb_spec 32 (blen (ser (NLeaf k v)))); [lia|reflexivity].
  - assert (Fn : fine n) by (fine_inv F; auto).
    cbn [flush_entries]. unfold own_entry. cbn [orb]. destruct (Z.ltb_spec 32 (blen (ser (NExt k n)))); [lia|]. rewrite app_nil_r. apply IH; auto.
    apply (kid_small n (NExt k n)); auto; reflexivity.
  - fine_inv F.
  - rewrite entries_branch. unfold own_entry. cbn [orb]. destruct (Z.ltb_spec 32 (blen (ser (NBranch cs bv)))); [lia|]. rewrite app_nil_r.
    assert (X : forall c, In (Some c) cs -> flush_entries H false c = []).
    { intros c Hc. apply IH; auto; [exact (kid_fine c (NBranch cs bv) F Hc)|apply (kid_small c (NBranch cs bv)); auto]. }
    clear - X. induction cs as [|[c|] cs IH]; cbn [flat_map]; auto; [rewrite (X c) by now left; cbn [app]|]; apply IH; intros; apply X; now right.
Qed.
Lemma has_cases t k v : has t k v -> (t = NLeaf k v \/ exists cs, t = NBranch cs (Some v)) \/ exists c k', kid c t /\ has c k' v.
Proof.
  intro A. inversion A; subst; [left; now left|right|left; right; eauto|right].
  - exists n, r. split; [reflexivity|auto].
  - exists c, r. split; [cbn; eapply nth_error_In; eauto|auto].
Qed.
Lemma small_value t : forall k v, fine t -> has t k v -> blen (ser t) <= 32 -> blen v <= 32.
Proof.
  assert (Own : forall u k v, fine u -> (u = NLeaf k v \/ exists cs, u = NBranch cs (Some v)) -> blen v <= blen (ser u)).
  { intros u k v F [->|(cs & ->)].
    - fine_inv F. destruct (okk_key H HH 32 k (or_intror eq_refl) Ck) as (_ & _ & L1). destruct (okv_val H HH v Cv) as (S2 & W2 & L2).
      cbn [serialize]. set (items := [go_rlpEncodeBytes (encodeKeys 32 k); go_rlpEncodeBytes v]).
      assert (Sm : small (concat items)) by (unfold items, small; cbn [concat]; rewrite app_nil_r, blen_app; lia).
      pose proof (list_len items Sm). assert (X : In (go_rlpEncodeBytes v) items) by (right; now left). pose proof (in_concat_len _ _ X). pose proof (enc_len v S2 W2). lia.
    - fine_inv F. destruct (branch_items H HH cs (Some v) F (fun c Hc => canon_good H HH c (Cc c Hc))) as (_ & _ & Lm). rewrite ser_branch.
      destruct (okv_val H HH v (Cv v eq_refl)) as (S2 & W2 & L2).
      set (items := map (olink H) cs ++ [vlink (Some v)]) in *. assert (Sm : small (concat items)) by (unfold small, limit in *; lia).
      pose proof (list_len items Sm). assert (X : In (go_rlpEncodeBytes v) items) by (apply in_or_app; right; now left).
      pose proof (in_concat_len _ _ X). pose proof (enc_len v S2 W2). lia. }
  induction t as [k0 v0|k0 n IH|h|cs bv IH] using node_ind'; intros k v F A L; apply has_cases in A as [A|(c & k' & K & A)];
    try (pose proof (Own _ _ _ F A); lia); cbn in K; try contradiction.
  - subst c. apply (IH k'); auto; [apply (kid_fine n (NExt k0 n)); auto; reflexivity|apply (kid_small n (NExt k0 n)); auto; reflexivity].
  - apply (IH c K k'); auto; [apply (kid_fine c (NBranch cs bv)); auto|apply (kid_small c (NBranch cs bv)); auto].
Qed.

(** What a stored node refers to. *)
Lemma refs_ser k t : fine t -> refs (QNode k) (ser t) = node_refs account_refs k (shallow H t).
Proof. intro F. cbn [refs_of]. unfold deserialize. rewrite (deserialize_ok H HH t F); [reflexivity|]. unfold blen. lia. Qed.
Lemma refs_kid k c t : fine t -> kid c t -> 32 < blen (ser c) -> In (QNode k, H (ser c)) (fst (refs (QNode k) (ser t))).
Proof.
  intros F K L. rewrite refs_ser by auto. apply Z.ltb_lt in L. destruct t as [|k0 n|cs v|]; cbn in K; try contradiction; cbn [shallow node_refs fst].
  - subst. rewrite L. cbn [child_refs]. now left.
  - destruct (match v with Some v0 => _ | None => _ end) as [l ok]. cbn [fst]. apply in_or_app. left. apply in_flat_map.
    exists (Some (NHash (H (ser c)))). split; [|now left]. apply in_map_iff. exists (Some c). rewrite L. auto.
Qed.
Lemma refs_value k t key v r : fine t -> (t = NLeaf key v \/ exists cs, t = NBranch cs (Some v)) -> In r (fst (value_refs account_refs k v)) ->
  In r (fst (refs (QNode k) (ser t))).
Proof.
  intros F A Hin. rewrite refs_ser by auto. destruct A as [->|(cs & ->)]; cbn [shallow node_refs]; auto.
  destruct (value_refs account_refs k v) as [l ok]. cbn [fst] in *. apply in_or_app. now right.
Qed.
(** ... and nothing else, for byte strings. *)
Lemma refs_only t r : fine t -> In r (fst (refs (QNode KBytes) (ser t))) -> exists c, kid c t /\ 32 < blen (ser c) /\ r = (QNode KBytes, H (ser c)).
Proof.
  intros F Hin. rewrite refs_ser in Hin by auto. destruct t as [k v|k n|cs v|h]; cbn [shallow node_refs value_refs fst] in Hin.
  - destruct Hin.
  - destruct (Z.ltb_spec 32 (blen (ser n))).
    + destruct Hin as [<-|[]]. exists n. repeat split; auto.
    + exfalso. assert (Fn : fine n) by (fine_inv F; auto). destruct (shallow H n) eqn:E; cbn in Hin; try contradiction. exact (shallow_not_hash _ _ _ Fn E).
  - assert (Hin' : In r (flat_map (child_refs KBytes) (map (fun o => match o with Some c => Some (if 32 <? blen (ser c) then NHash (H (ser c)) else shallow H c) | None => None end) cs))).
    { destruct v; cbn [fst] in Hin; rewrite app_nil_r in Hin; exact Hin. }
    clear Hin. apply in_flat_map in Hin' as (o & A & B). apply in_map_iff in A as (o' & E & A). destruct o' as [c|]; [|subst o; destruct B].
    destruct (Z.ltb_spec 32 (blen (ser c))); subst o.
    + destruct B as [<-|[]]. exists c. auto.
    + exfalso. assert (Fc : fine c) by (exact (kid_fine c (NBranch cs v) F A)). destruct (shallow H c) eqn:E; cbn in B; try contradiction. exact (shallow_not_hash _ _ _ Fc E).
  - fine_inv F.
Qed.
Lemma refs_fine t : fine t -> snd (refs (QNode KBytes) (ser t)) = true.
Proof. intro F. rewrite refs_ser by auto. destruct t as [k v|k n|cs [v|]|h]; try reflexivity. fine_inv F. Qed.

Section World.
Context (w : base) (roots : list ref).
Notation part := (part account_refs api_ok w roots).

Lemma trie_parts k t : fine t -> stored H (w MerkleTrie) true t -> part (QNode k, H (ser t)) ->
  (forall h s, In (h, s) (flush_entries H true t) -> part (QNode k, h)) /\
  (forall key v r, has t key v -> 32 < blen v -> In r (fst (value_refs account_refs k v)) -> part r).
Proof.
  assert (Down : forall c u, fine u -> stored H (w MerkleTrie) true u -> part (QNode k, H (ser u)) -> kid c u -> 32 < blen (ser c) ->
            fine c /\ stored H (w MerkleTrie) true c /\ part (QNode k, H (ser c))).
  { intros c u F S1 P K L. pose proof (kid_fine _ _ F K) as Fc. split; auto. split.
    - apply stored_big; auto. intros h s Hin. apply S1. exact (proj1 (kid_entries c u (h, s) F K Hin)).
    - apply (p_next account_refs api_ok w roots (QNode k) (H (ser u)) (ser u) (QNode k, H (ser c)) P); [apply S1, own_in, F|apply refs_kid; auto]. }
  induction t as [k0 v0|k0 n IH|h0|cs bv IH] using node_ind'; intros F S1 P.
  4: assert (Sub : forall c, kid c (NBranch cs bv) -> 32 < blen (ser c) ->
       (forall h s, In (h, s) (flush_entries H true c) -> part (QNode k, h)) /\
       (forall key v r, has c key v -> 32 < blen v -> In r (fst (value_refs account_refs k v)) -> part r))
     by (intros c K L; destruct (Down c _ F S1 P K L) as (A & B & C); apply IH; auto).
  3: fine_inv F.
  2: assert (Sub : forall c, kid c (NExt k0 n) -> 32 < blen (ser c) ->
       (forall h s, In (h, s) (flush_entries H true c) -> part (QNode k, h)) /\
       (forall key v r, has c key v -> 32 < blen v -> In r (fst (value_refs account_refs k v)) -> part r))
     by (intros c K L; destruct (Down c _ F S1 P K L) as (A & B & C); cbn in K; subst c; apply IH; auto).
  1: assert (Sub : forall c, kid c (NLeaf k0 v0) -> 32 < blen (ser c) ->
       (forall h s, In (h, s) (flush_entries H true c) -> part (QNode k, h)) /\
       (forall key v r, has c key v -> 32 < blen v -> In r (fst (value_refs account_refs k v)) -> part r))
     by (intros c []).
  all: split; [intros h s Hin; apply entries_cases in Hin as [E|(c & K & Hin)]; auto; [injection E as -> ->; exact P|]
              |intros key v r A L Hin; apply has_cases in A as [A|(c & key' & K & A)]].
  all: try (solve [eapply p_next; [exact P|cbn [bucket_of]; apply S1, own_in; exact F|eapply refs_value; [exact F|exact A|exact Hin]]]).
  all: try (destruct (Z.ltb_spec 32 (blen (ser c))) as [B|B];
            [apply (proj1 (Sub c K B) h s), entries_root, Hin
            |rewrite small_entries in Hin by (eauto using kid_fine); destruct Hin]).
  all: destruct (Z.ltb_spec 32 (blen (ser c))) as [B|B]; [exact (proj2 (Sub c K B) key' v r A L Hin)|].
  all: pose proof (small_value c key' v (kid_fine _ _ F K) A B); lia.
Qed.

Lemma fetched_stored k t d : fine t -> stored H (w MerkleTrie) true t -> part (QNode k, H (ser t)) -> fetched account_refs api_ok w roots d ->
  stored H (d MerkleTrie) true t.
Proof.
  intros F S1 P Fe h s Hin. pose proof (proj1 (trie_parts k t F S1 P) h s Hin) as Pp. etransitivity; [exact (Fe _ _ Pp)|exact (S1 h s Hin)].
Qed.
End World.

(** *** One trie of byte strings *)
Section One.
Context (w : base) (t : node) (F : fine t) (S1 : stored H (w MerkleTrie) true t).
Context (NC : no_collision (flush_entries H true t)).
Notation roots := [(QNode KBytes, H (ser t))].
Notation part := (part account_refs api_ok w roots).

Lemma one_parts r : part r -> exists c, r = (QNode KBytes, H (ser c)) /\ fine c /\ stored H (w MerkleTrie) true c /\ incl (flush_entries H true c) (flush_entries H true t).
Proof.
  intro P. induction P as [r [<-|[]]|q h v r P IH Ew Hin].
  - exists t. split; auto. split; auto. split; auto. apply incl_refl.
  - destruct IH as (c & E & Fc & Sc & Ic). injection E as -> ->. cbn [bucket_of] in Ew. rewrite (Sc _ _ (own_in H c Fc)) in Ew. injection Ew as <-.
    destruct (refs_only c r Fc Hin) as (c' & K & L & ->). pose proof (kid_fine _ _ Fc K) as Fc'.
    exists c'. split; auto. split; auto.
    assert (In1 : incl (flush_entries H true c') (flush_entries H true c)).
    { intros x Hx. apply (kid_entries c' c x Fc K). exact (big_entries c' x L Hx). }
    split; [intros h s X; apply Sc, In1, X|]. eapply incl_tran; eauto.
Qed.
Fixpoint size (n : node) : nat :=
  match n with
  | NExt _ n => S (size n)
  | NBranch cs _ => S ((fix all (l : list (option node)) : nat := match l with [] => O | o :: r => ((match o with Some c => size c | None => O end) + all r)%nat end) cs)
  | _ => 1%nat
  end.
Lemma kid_size c u : kid c u -> (size c < size u)%nat.
Proof.
  destruct u as [| |cs v|]; cbn [kid size]; try contradiction; [intros ->; lia|].
  induction cs as [|o cs IH]; [intros []|]. intros [->|X]; [lia|]. specialize (IH X). lia.
Qed.
Lemma one_whole : whole H account_refs api_ok w roots.
Proof.
  constructor.
  - intros q h P. destruct (one_parts _ P) as (c & E & Fc & Sc & _). injection E as -> ->. exists (ser c). split; [apply Sc, own_in; auto|].
    split; auto. apply refs_fine; auto.
  - intros q h v P Ew q' Hin. destruct (one_parts _ P) as (c & E & Fc & Sc & Ic). injection E as -> ->.
    cbn [bucket_of] in Ew. rewrite (Sc _ _ (own_in H c Fc)) in Ew. injection Ew as <-.
    destruct (refs_only c _ Fc Hin) as (c' & K & L & E). injection E as -> E. pose proof (kid_fine _ _ Fc K) as Fc'.
    assert (X : c = c').
    { apply (hash_binds H HH); auto. intros h s s' A B. apply (NC h); [apply Ic, A|apply Ic].
      apply (kid_entries c' c (h, s') Fc K). exact (big_entries c' (h, s') L B). }
    pose proof (kid_size _ _ K). subst c'. lia.
  - intros q q' h v P P' _ _. destruct (one_parts _ P) as (c & E & _). destruct (one_parts _ P') as (c' & E' & _). injection E as -> _. injection E' as -> _. reflexivity.
Qed.
End One.
End Trie.

(** *** A finite check that a world is whole *)
Definition asker_eqb (a b : asker) : bool :=
  match a, b with
  | QNode KBytes, QNode KBytes | QNode KAccount, QNode KAccount | QBytes, QBytes | QApi, QApi => true
  | _, _ => false
  end.
Lemma asker_spec a b : reflect (a = b) (asker_eqb a b).
Proof. destruct a as [[|]| |], b as [[|]| |]; cbn; constructor; congruence. Qed.
Definition ref_eqb (a b : ref) : bool := asker_eqb (fst a) (fst b) && bytes_eqb (snd a) (snd b).
Lemma ref_in r l : existsb (ref_eqb r) l = true -> In r l.
Proof.
  intro E. apply existsb_exists in E as (x & Hin & E). unfold ref_eqb in E. apply andb_true_iff in E as [E1 E2].
  destruct (asker_spec (fst r) (fst x)); [|discriminate E1]. destruct (beq_spec (snd r) (snd x)); [|discriminate E2].
  destruct r, x. cbn in *. subst. exact Hin.
Qed.
Definition refs_eqb (a b : list ref) : bool := Nat.eqb (length a) (length b) && forallb (fun p => ref_eqb (fst p) (snd p)) (combine a b).
Lemma refs_eqb_eq a : forall b, refs_eqb a b = true -> a = b.
Proof.
  unfold refs_eqb. induction a as [|x a IH]; intros [|y b] E; cbn in E; try discriminate E; auto.
  apply andb_true_iff in E as [E1 E]. apply andb_true_iff in E as [E2 E]. f_equal.
  - unfold ref_eqb in E2. apply andb_true_iff in E2 as [A B]. destruct (asker_spec (fst x) (fst y)); [|discriminate A]. destruct (beq_spec (snd x) (snd y)); [|discriminate B].
    destruct x, y. cbn in *. congruence.
  - apply IH. rewrite E1, E. reflexivity.
Qed.
Definition whole_check (H : bytes -> bytes) (account_refs : bytes -> option (list ref)) (api_ok : bytes -> bool) (w : base) (roots R : list ref) : bool :=
  forallb (fun r => existsb (ref_eqb r) R) roots &&
  forallb (fun r => match w (bucket_of (fst r)) (snd r) with
                    | None => false
                    | Some v => bytes_eqb (H v) (snd r) && snd (refs_of account_refs api_ok (fst r) v)
                                && forallb (fun r' => existsb (ref_eqb r') R && negb (bytes_eqb (snd r') (snd r))) (fst (refs_of account_refs api_ok (fst r) v))
                                && forallb (fun r' => negb (bucket_eqb (bucket_of (fst r)) (bucket_of (fst r')) && bytes_eqb (snd r) (snd r'))
                                                      || refs_eqb (fst (refs_of account_refs api_ok (fst r) v)) (fst (refs_of account_refs api_ok (fst r') v))) R
                    end) R.
Lemma whole_by_check H account_refs api_ok w roots R : whole_check H account_refs api_ok w roots R = true ->
  whole H account_refs api_ok w roots /\ forall r, part account_refs api_ok w roots r -> In r R.
Proof.
  intro E. apply andb_true_iff in E as [E1 E2]. rewrite forallb_forall in E1, E2.
  assert (X : forall q h v, In (q, h) R -> w (bucket_of q) h = Some v ->
    H v = h /\ snd (refs_of account_refs api_ok q v) = true /\
    (forall r', In r' (fst (refs_of account_refs api_ok q v)) -> In r' R /\ snd r' <> h) /\
    (forall q', In (q', h) R -> bucket_of q = bucket_of q' -> fst (refs_of account_refs api_ok q v) = fst (refs_of account_refs api_ok q' v))).
  { intros q h v Hin Ew. specialize (E2 _ Hin). cbn [fst snd] in E2. rewrite Ew in E2. apply andb_true_iff in E2 as [E2 E4].
    apply andb_true_iff in E2 as [E2 E3]. apply andb_true_iff in E2 as [E2 E5]. rewrite forallb_forall in E3, E4.
    split; [destruct (beq_spec (H v) h); [auto|discriminate E2]|]. split; [exact E5|]. split.
    - intros r' Hr. specialize (E3 _ Hr). apply andb_true_iff in E3 as [A B]. split; [apply ref_in, A|]. destruct (beq_spec (snd r') h); [discriminate B|auto].
    - intros q' Hq Eb. specialize (E4 _ Hq). cbn [fst snd] in E4. rewrite <- Eb, bk_refl, beq_refl in E4. cbn [andb negb orb] in E4. apply refs_eqb_eq, E4. }
  assert (C : forall r, part account_refs api_ok w roots r -> In r R).
  { intros r P. induction P as [r Hin|q h v r P IH Ew Hin]; [apply ref_in, E1, Hin|]. apply (X q h v IH Ew), Hin. }
  split; [|exact C]. constructor.
  - intros q h P. pose proof (E2 _ (C _ P)) as E3. cbn [fst snd] in E3. destruct (w (bucket_of q) h) as [v|] eqn:Ew; [|discriminate E3].
    exists v. destruct (X q h v (C _ P) Ew) as (A & B & _). auto.
  - intros q h v P Ew q' Hin. apply (X q h v (C _ P) Ew) in Hin as [_ N]. apply N. reflexivity.
  - intros q q' h v P P' Eb Ew. apply (X q h v (C _ P) Ew); auto.
Qed.
