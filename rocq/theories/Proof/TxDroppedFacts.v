(** The cache of dropped transactions: its slots are in order, and what they have. *)
From Verif Require Import Model.Bytes Model.TxDropped Spec.TxDroppedSpec.
From Coq Require Import Lia Sorting.Sorted.
Open Scope Z_scope.

Definition in_order (l : list (Z * list bytes)) : Prop := StronglySorted Z.lt (map fst l).
Definition ids_of (l : list (Z * list bytes)) (s : Z) : list bytes := match get_slot l s with Some ids => ids | None => [] end.
Fixpoint total (l : list (Z * list bytes)) : Z := match l with [] => 0 | x :: r => Z.of_nat (length (snd x)) + total r end.

Lemma has_id_in ids id : has_id ids id = true <-> In id ids.
Proof.
  unfold has_id. rewrite existsb_exists. split.
  - intros (x & Hi & E). apply bytes_eqb_eq in E. now subst x.
  - intros Hi. exists id. split; [exact Hi|apply bytes_eqb_refl].
Qed.
Lemma get_cons x l s : get_slot (x :: l) s = if fst x =? s then Some (snd x) else get_slot l s.
Proof. unfold get_slot. cbn. destruct (fst x =? s); reflexivity. Qed.
Lemma get_in l s ids : in_order l -> (get_slot l s = Some ids <-> In (s, ids) l).
Proof.
  intros O. induction l as [|[k v] r IH]; [split; [discriminate|intros []]|]. rewrite get_cons. cbn [fst snd].
  unfold in_order in O. cbn in O. inversion O as [|z zs O1 O2]; subst. destruct (Z.eqb_spec k s) as [->|N].
  - split.
    + intros E. injection E as ->. now left.
    + intros [E|Hi]; [now injection E as ->|]. rewrite Forall_forall in O2. assert (s < s); [|lia]. apply O2. apply in_map_iff. now exists (s, ids).
  - rewrite (IH O1). split; [now right|]. intros [E|Hi]; [injection E as E _; contradiction|exact Hi].
Qed.
Lemma get_none l s : get_slot l s = None <-> ~ In s (map fst l).
Proof.
  induction l as [|[k v] r IH]; [split; auto; intros _ []|]. rewrite get_cons. cbn [fst snd map In]. destruct (Z.eqb_spec k s) as [->|N].
  - split; [discriminate|]. intros H. exfalso. apply H. now left.
  - rewrite IH. tauto.
Qed.

(** A list in order, cut at a number. *)
Lemma sorted_app l1 l2 : StronglySorted Z.lt (l1 ++ l2) <-> StronglySorted Z.lt l1 /\ StronglySorted Z.lt l2 /\ forall a b, In a l1 -> In b l2 -> a < b.
Proof.
  induction l1 as [|x r IH]; cbn.
  - split; [intros H; split; [constructor|split; [exact H|intros a b []]]|tauto].
  - split.
    + intros H. inversion H as [|z zs H1 H2]; subst. apply IH in H1. destruct H1 as (A & B & C). rewrite Forall_forall in H2.
      split; [constructor; [exact A|apply Forall_forall; intros y Hy; apply H2; apply in_or_app; now left]|]. split; [exact B|].
      intros a b [<-|Ha] Hb; [apply H2; apply in_or_app; now right|now apply C].
    + intros (A & B & C). inversion A as [|z zs A1 A2]; subst. constructor.
      * apply IH. split; [exact A1|]. split; [exact B|]. intros a b Ha Hb. apply C; [now right|exact Hb].
      * rewrite Forall_forall in *. intros y Hy. apply in_app_or in Hy. destruct Hy as [Hy|Hy]; [now apply A2|apply C; [now left|exact Hy]].
Qed.

(** The new slot comes between the smaller and the larger. *)
Lemma new_slot_split s : forall rl, in_order (rev rl) -> ~ In s (map fst rl) ->
  exists a b, rev rl = a ++ b /\ rev (new_slot rl s) = a ++ (s, []) :: b /\ (forall x, In x (map fst a) -> x < s) /\ (forall x, In x (map fst b) -> s < x).
Proof.
  induction rl as [|x r IH]; intros O N; cbn in *.
  - exists [], []. repeat split; intros ? [].
  - destruct (Z.eqb_spec (fst x) s) as [E|E]; [exfalso; apply N; now left|].
    unfold in_order in O. rewrite map_app in O. apply sorted_app in O. destruct O as (O1 & _ & O2). destruct (Z.ltb_spec (fst x) s) as [L|L].
    + exists (rev r ++ [x]), []. cbn. rewrite app_nil_r. split; [reflexivity|]. split; [now rewrite <- app_assoc|]. split; [|intros ? []].
      intros y Hy. rewrite map_app in Hy. apply in_app_or in Hy. destruct Hy as [Hy|[<-|[]]]; [|exact L]. assert (y < fst x); [|lia]. apply O2; [exact Hy|now left].
    + destruct (IH O1 (fun H => N (or_intror H))) as (a & b & A & B & C & D). exists a, (b ++ [x]).
      split; [rewrite A; now rewrite <- app_assoc|]. split; [cbn; rewrite B; rewrite <- app_assoc; reflexivity|]. split; [exact C|].
      intros y Hy. rewrite map_app in Hy. apply in_app_or in Hy. destruct Hy as [Hy|[<-|[]]]; [now apply D|lia].
Qed.
Lemma with_slot_ok l s : in_order l -> in_order (with_slot l s) /\ (exists ids, get_slot (with_slot l s) s = Some ids /\ ids = ids_of l s)
  /\ (forall t, ids_of (with_slot l s) t = ids_of l t) /\ total (with_slot l s) = total l.
Proof.
  intros O. unfold with_slot. destruct (get_slot l s) as [ids|] eqn:E.
  - split; [exact O|]. split; [exists ids; split; [exact E|unfold ids_of; now rewrite E]|]. split; [reflexivity|reflexivity].
  - apply get_none in E. destruct (new_slot_split s (rev l)) as (a & b & A & B & C & D).
    { now rewrite rev_involutive. }
    { intros H. apply E. rewrite map_rev in H. now apply in_rev. }
    rewrite rev_involutive in A. rewrite B.
    assert (O' : in_order (a ++ (s, []) :: b)).
    { unfold in_order in *. rewrite A in O. rewrite map_app in *. cbn. apply sorted_app in O. destruct O as (O1 & O2 & O3). apply sorted_app.
      split; [exact O1|]. split; [constructor; [exact O2|apply Forall_forall; exact D]|]. intros x y Hx [<-|Hy]; [now apply C|now apply O3]. }
    assert (T : forall t ids, t <> s -> (get_slot (a ++ (s, []) :: b) t = Some ids <-> get_slot l t = Some ids)).
    { intros t ids N. rewrite (get_in _ _ _ O'), (get_in _ _ _ O), A, !in_app_iff. cbn. split; [intros [H|[H|H]]; [now left|injection H as <- _; contradiction|now right]|tauto]. }
    assert (S : get_slot (a ++ (s, []) :: b) s = Some []) by (apply (get_in _ _ _ O'); apply in_or_app; right; now left).
    assert (S0 : ids_of l s = []) by (unfold ids_of; now rewrite (proj2 (get_none l s) E)).
    split; [exact O'|]. split; [exists []; split; [exact S|now symmetry]|]. split.
    + intros t. destruct (Z.eq_dec t s) as [->|N]; [unfold ids_of at 1; now rewrite S, S0|].
      unfold ids_of. destruct (get_slot l t) as [x|] eqn:E1.
      * now rewrite (proj2 (T t x N) E1).
      * destruct (get_slot (a ++ (s, []) :: b) t) as [y|] eqn:E2; [|reflexivity]. apply (T t y N) in E2. congruence.
    + rewrite A. clear. induction a as [|x r IH]; cbn; [lia|now rewrite IH].
Qed.
Lemma set_slot_keys l s ids : map fst (set_slot l s ids) = map fst l.
Proof. unfold set_slot. rewrite map_map. apply map_ext. intros [k v]. cbn. destruct (Z.eqb_spec k s) as [->|]; reflexivity. Qed.
Lemma set_slot_get l s ids t : get_slot (set_slot l s ids) t = if t =? s then match get_slot l s with Some _ => Some ids | None => None end else get_slot l t.
Proof.
  induction l as [|[k v] r IH]; [destruct (t =? s); reflexivity|]. cbn [set_slot map fst snd]. fold (set_slot r s ids).
  destruct (Z.eqb_spec k s) as [->|N]; rewrite !get_cons; cbn [fst snd].
  - rewrite Z.eqb_refl. rewrite (Z.eqb_sym s t), IH. destruct (t =? s); reflexivity.
  - rewrite IH. destruct (Z.eqb_spec k s); [contradiction|]. destruct (Z.eqb_spec k t) as [->|]; [|destruct (Z.eqb_spec t s); reflexivity].
    destruct (Z.eqb_spec t s); [contradiction|reflexivity].
Qed.
Lemma set_slot_total l s ids old : in_order l -> get_slot l s = Some old -> total (set_slot l s ids) = total l - Z.of_nat (length old) + Z.of_nat (length ids).
Proof.
  intros O. induction l as [|[k v] r IH]; [discriminate|]. rewrite get_cons. cbn [set_slot map fst snd]. fold (set_slot r s ids).
  unfold in_order in O. cbn in O. inversion O as [|z zs O1 O2]; subst. destruct (Z.eqb_spec k s) as [->|N].
  - intros E. injection E as ->. cbn [total snd]. replace (set_slot r s ids) with r; [lia|].
    unfold set_slot. rewrite <- (map_id r) at 1. apply map_ext_in. intros [k v] Hi. cbn. destruct (Z.eqb_spec k s) as [->|]; [|reflexivity].
    exfalso. rewrite Forall_forall in O2. assert (s < s); [|lia]. apply O2. apply in_map_iff. now exists (s, v).
  - intros E. cbn [total snd]. rewrite (IH O1 E). lia.
Qed.

(** What [Add] and [RemoveOldTXsByTS] do to each slot. *)
Definition good (c : cache) : Prop :=
  0 < c_dur c /\ in_order (c_slots c) /\ c_count c = total (c_slots c) /\ 0 <= c_min c
  /\ (forall s, NoDup (ids_of (c_slots c) s)) /\ forall s, Z.of_nat (length (ids_of (c_slots c) s)) <= Z.max 1 (c_size c).
Lemma add_ok c id ts : good c -> let c' := add_id c id ts in good c' /\ c_dur c' = c_dur c /\ c_size c' = c_size c /\ c_min c' = c_min c
  /\ forall s, ids_of (c_slots c') s =
       if (c_min c <=? ts) && (s =? slot_of c ts) && negb (has_id (ids_of (c_slots c) s) id)
       then if c_size c <=? Z.of_nat (length (ids_of (c_slots c) s)) then [id] else ids_of (c_slots c) s ++ [id]
       else ids_of (c_slots c) s.
Proof.
  intros (G1 & G2 & G3 & G4 & G5 & G6). unfold add_id. destruct (Z.leb_spec (c_min c) ts) as [L|L]; cbn [andb]; [|repeat split; assumption].
  destruct (with_slot_ok (c_slots c) (slot_of c ts) G2) as (W1 & (ids & W2 & W3) & W4 & W5). cbv zeta. rewrite W2, W3.
  remember (with_slot (c_slots c) (slot_of c ts)) as l eqn:El. remember (slot_of c ts) as s0 eqn:Es. rewrite W3 in W2. clear ids W3 El.
  destruct (has_id (ids_of (c_slots c) s0) id) eqn:Eh.
  - cbn [c_dur c_size c_min c_slots]. split; [|split; [reflexivity|split; [reflexivity|split; [reflexivity|]]]].
    + unfold good. cbn [c_dur c_size c_min c_slots c_count]. repeat split; try assumption; [now rewrite W5| |]; intros s; rewrite W4; [apply G5|apply G6].
    + intros s. rewrite W4. destruct (Z.eqb_spec s s0) as [->|]; [now rewrite Eh|reflexivity].
  - cbn [c_dur c_size c_min c_slots]. set (new := if c_size c <=? Z.of_nat (length (ids_of (c_slots c) s0)) then [id] else ids_of (c_slots c) s0 ++ [id]).
    assert (I : forall s, ids_of (set_slot l s0 new) s = if s =? s0 then new else ids_of (c_slots c) s).
    { intros s. unfold ids_of at 1. rewrite set_slot_get, W2. destruct (Z.eqb_spec s s0) as [->|]; [reflexivity|]. exact (W4 s). }
    assert (Nd : NoDup new).
    { unfold new. destruct (c_size c <=? Z.of_nat (length (ids_of (c_slots c) s0))); [constructor; [intros []|constructor]|].
      apply NoDup_Add with (a := id) (l := ids_of (c_slots c) s0); [rewrite <- (app_nil_r (ids_of (c_slots c) s0)) at 1; apply Add_app|].
      split; [apply G5|]. intros H. apply has_id_in in H. congruence. }
    assert (Len : Z.of_nat (length new) <= Z.max 1 (c_size c)).
    { unfold new. destruct (Z.leb_spec (c_size c) (Z.of_nat (length (ids_of (c_slots c) s0)))); [cbn; lia|]. rewrite app_length. cbn. lia. }
    split; [|split; [reflexivity|split; [reflexivity|split; [reflexivity|]]]].
    + unfold good. cbn [c_dur c_size c_min c_slots c_count]. split; [exact G1|]. split; [unfold in_order in *; now rewrite set_slot_keys|].
      split; [|split; [exact G4|split]].
      * rewrite (set_slot_total l s0 new _ W1 W2), W5, <- G3. unfold new. destruct (c_size c <=? Z.of_nat (length (ids_of (c_slots c) s0))); [cbn; lia|]. rewrite app_length. cbn. lia.
      * intros s. rewrite I. destruct (s =? s0); [exact Nd|apply G5].
      * intros s. rewrite I. destruct (s =? s0); [exact Len|apply G6].
    + intros s. rewrite I. destruct (Z.eqb_spec s s0) as [->|]; [rewrite Eh; reflexivity|reflexivity].
Qed.
Lemma drop_old_ok l s : forall n, in_order l -> n = total l -> let (l', n') := drop_old l s n in
  in_order l' /\ n' = total l' /\ forall t, ids_of l' t = if t <? s then [] else ids_of l t.
Proof.
  induction l as [|[k v] r IH]; intros n O E; cbn [drop_old fst snd].
  - split; [exact O|]. split; [exact E|]. intros t. now destruct (t <? s).
  - unfold in_order in O. cbn in O. inversion O as [|z zs O1 O2]; subst. rewrite Forall_forall in O2. destruct (Z.leb_spec s k) as [L|L].
    + split; [exact O|]. split; [reflexivity|]. intros t. destruct (Z.ltb_spec t s) as [Lt|]; [|reflexivity].
      unfold ids_of. rewrite (proj2 (get_none ((k, v) :: r) t)); [reflexivity|]. cbn. intros [->|H]; [lia|]. specialize (O2 t H). lia.
    + specialize (IH (total ((k, v) :: r) - Z.of_nat (length v)) O1 ltac:(cbn [total snd]; lia)).
      destruct (drop_old r s (total ((k, v) :: r) - Z.of_nat (length v))) as [l' n']. destruct IH as (A & B & C). split; [exact A|]. split; [exact B|].
      intros t. rewrite C. destruct (Z.ltb_spec t s); [reflexivity|]. unfold ids_of. rewrite get_cons. cbn [fst snd]. destruct (Z.eqb_spec k t); [lia|reflexivity].
Qed.
Lemma remove_ok c ts : good c -> let c' := remove_old c ts in good c' /\ c_dur c' = c_dur c /\ c_size c' = c_size c /\ c_min c' = Z.max (c_min c) ts
  /\ forall s, ids_of (c_slots c') s = if (c_min c <? ts) && (s <? slot_of c ts) then [] else ids_of (c_slots c) s.
Proof.
  intros (G1 & G2 & G3 & G4 & G5 & G6). unfold remove_old. destruct (Z.leb_spec ts (c_min c)) as [L|L].
  - split; [repeat split; assumption|]. split; [reflexivity|]. split; [reflexivity|]. split; [lia|]. intros s. destruct (Z.ltb_spec (c_min c) ts); [lia|reflexivity].
  - pose proof (drop_old_ok (c_slots c) (slot_of c ts) (c_count c) G2 G3) as D. destruct (drop_old (c_slots c) (slot_of c ts) (c_count c)) as [l n]. destruct D as (A & B & C).
    cbn [c_dur c_size c_min c_slots]. split; [|split; [reflexivity|split; [reflexivity|split; [lia|]]]].
    + unfold good. cbn [c_dur c_size c_min c_slots c_count]. repeat split; try assumption; [lia| |]; intros s; rewrite C; destruct (s <? slot_of c ts); try constructor; auto. cbn. lia.
    + intros s. rewrite C. destruct (Z.ltb_spec (c_min c) ts); [reflexivity|lia].
Qed.
Lemma contains_ids c id ts : contains c id ts = (c_min c <=? ts) && has_id (ids_of (c_slots c) (slot_of c ts)) id.
Proof. unfold contains, ids_of. now destruct (get_slot (c_slots c) (slot_of c ts)). Qed.

(** Histories. *)
Lemma drops_in_app dur ts h1 h2 : drops_in dur ts (h1 ++ h2) = (drops_in dur ts h1 + drops_in dur ts h2)%nat.
Proof. induction h1 as [|[id t|c th|th] r IH]; cbn; auto. destruct (t ÷ dur =? ts ÷ dur); cbn; now rewrite IH. Qed.
Lemma after_snoc dur size th0 h a : after dur size th0 (h ++ [a]) = act (after dur size th0 h) a.
Proof. unfold after. now rewrite fold_left_app. Qed.

Definition keys_new (c : cache) : Prop := forall x, In x (map fst (c_slots c)) -> slot_of c (c_min c) <= x.
Lemma with_slot_keys l s x : in_order l -> In x (map fst (with_slot l s)) -> x = s \/ In x (map fst l).
Proof.
  intros O. unfold with_slot. destruct (get_slot l s) eqn:E; [now right|]. apply get_none in E.
  destruct (new_slot_split s (rev l)) as (a & b & A & B & _ & _).
  { now rewrite rev_involutive. }
  { intros H. apply E. rewrite map_rev in H. now apply in_rev. }
  rewrite rev_involutive in A. rewrite B, A, !map_app. cbn. rewrite !in_app_iff. cbn. intuition congruence.
Qed.
Lemma drop_old_keys l s : forall n, in_order l -> forall x, In x (map fst (fst (drop_old l s n))) -> s <= x.
Proof.
  induction l as [|[k v] r IH]; intros n O x; cbn [drop_old fst snd]; [intros []|].
  unfold in_order in O. cbn in O. inversion O as [|z zs O1 O2]; subst. rewrite Forall_forall in O2.
  destruct (Z.leb_spec s k); [|now apply IH]. cbn. intros [<-|H1]; [assumption|]. specialize (O2 _ H1). lia.
Qed.
Lemma add_keys c id ts : good c -> keys_new c -> keys_new (add_id c id ts).
Proof.
  intros G K. destruct G as (G1 & G2 & _). unfold add_id. destruct (Z.leb_spec (c_min c) ts) as [L|L]; [|exact K].
  cbv zeta. set (s := slot_of c ts). destruct (get_slot (with_slot (c_slots c) s) s) as [ids|]; [|exact K].
  assert (Le : slot_of c (c_min c) <= s) by (unfold s, slot_of; apply Z.quot_le_mono; lia).
  assert (W : forall x, In x (map fst (with_slot (c_slots c) s)) -> slot_of c (c_min c) <= x).
  { intros x Hx. apply with_slot_keys in Hx; [|exact G2]. destruct Hx as [->|Hx]; [exact Le|now apply K]. }
  destruct (has_id ids id); intros x; cbn [c_slots]; [|rewrite set_slot_keys]; intros Hx; apply W in Hx; exact Hx.
Qed.
Lemma remove_keys c ts : good c -> keys_new c -> keys_new (remove_old c ts).
Proof.
  intros G K. destruct G as (G1 & G2 & _). unfold remove_old. destruct (ts <=? c_min c); [exact K|].
  pose proof (drop_old_keys (c_slots c) (slot_of c ts) (c_count c) G2) as D. destruct (drop_old (c_slots c) (slot_of c ts) (c_count c)) as [l n].
  cbn [fst] in D. intros x Hx. cbn [c_slots] in Hx. apply D in Hx. exact Hx.
Qed.

(** What holds after any history. *)
Record held (dur size : Z) (h : list action) (c : cache) : Prop := {
  h_good : good c;
  h_keys : keys_new c;
  h_dur : c_dur c = dur;
  h_size : c_size c = size;
  h_min_le : forall x th, In (Commit x th) h -> x - th <= c_min c;
  h_min_is : c_min c = 0 \/ exists x th, In (Commit x th) h /\ c_min c = x - th;
  h_truth : forall s id, In id (ids_of (c_slots c) s) -> exists ts, In (Drop id ts) h /\ ts ÷ dur = s;
  h_len : forall ts, (length (ids_of (c_slots c) (ts ÷ dur)) <= drops_in dur ts h)%nat;
  h_total : c_count c <= Z.of_nat (length (filter (fun a => match a with Drop _ _ => true | _ => false end) h)) }.
Lemma add_count c id ts : c_count (add_id c id ts) <= c_count c + 1.
Proof.
  unfold add_id. destruct (c_min c <=? ts); [|lia]. cbv zeta. destruct (get_slot _ _) as [ids|]; [|lia].
  destruct (has_id ids id); cbn [c_count]; [lia|]. destruct (c_size c <=? Z.of_nat (length ids)); lia.
Qed.
Lemma total_nonneg l : 0 <= total l.
Proof. induction l as [|x r IH]; cbn; lia. Qed.
Lemma drop_old_count l s : forall n, snd (drop_old l s n) <= n.
Proof. induction l as [|x r IH]; intros n; cbn [drop_old]; [cbn; lia|]. destruct (s <=? fst x); [cbn; lia|]. specialize (IH (n - Z.of_nat (length (snd x)))). lia. Qed.
Lemma remove_count c ts : c_count (remove_old c ts) <= c_count c.
Proof.
  unfold remove_old. destruct (ts <=? c_min c); [lia|]. pose proof (drop_old_count (c_slots c) (slot_of c ts) (c_count c)).
  destruct (drop_old _ _ _). exact H.
Qed.

Lemma held_after dur size th0 h : 0 < dur -> held dur size h (m_cache (after dur size th0 h)).
Proof.
  intros P. induction h as [|a h IH] using rev_ind.
  - cbn. split; cbn; try reflexivity; try tauto; try lia.
    + unfold good. cbn. split; [exact P|]. split; [constructor|]. split; [reflexivity|]. split; [lia|]. split; intros s; unfold ids_of; cbn; [constructor|lia].
    + intros x [].
  - rewrite after_snoc. set (m := after dur size th0 h) in *. destruct IH as [I1 I2 I3 I4 I5 I6 I7 I8 I9]. destruct a as [id ts|c th|th]; cbn [act m_cache].
    + destruct (add_ok (m_cache m) id ts I1) as (A1 & A2 & A3 & A4 & A5). split; try assumption; try congruence.
      * now apply add_keys.
      * intros x th Hi. rewrite A4. apply in_app_or in Hi. destruct Hi as [Hi|[Hi|[]]]; [now apply (I5 x th)|discriminate].
      * rewrite A4. destruct I6 as [I6|(x & th & Hi & E)]; [now left|]. right. exists x, th. split; [apply in_or_app; now left|exact E].
      * intros s j Hj. rewrite A5 in Hj. unfold slot_of in Hj. rewrite I3 in Hj.
        assert (Old : In j (ids_of (c_slots (m_cache m)) s) -> exists t, In (Drop j t) (h ++ [Drop id ts]) /\ t ÷ dur = s).
        { intros H. destruct (I7 s j H) as (t & B & C). exists t. split; [apply in_or_app; now left|exact C]. }
        destruct ((c_min (m_cache m) <=? ts) && (s =? ts ÷ dur) && negb (has_id (ids_of (c_slots (m_cache m)) s) id)) eqn:E; [|now apply Old].
        apply andb_prop in E. destruct E as [E _]. apply andb_prop in E. destruct E as [_ E]. apply Z.eqb_eq in E.
        assert (New : j = id -> exists t, In (Drop j t) (h ++ [Drop id ts]) /\ t ÷ dur = s).
        { intros ->. exists ts. split; [apply in_or_app; right; now left|now symmetry]. }
        destruct (c_size (m_cache m) <=? Z.of_nat (length (ids_of (c_slots (m_cache m)) s))).
        -- destruct Hj as [<-|[]]. now apply New.
        -- apply in_app_or in Hj. destruct Hj as [Hj|[<-|[]]]; [now apply Old|now apply New].
      * intros t. rewrite A5, drops_in_app. specialize (I8 t). unfold slot_of. rewrite I3. cbn [drops_in].
        rewrite (Z.eqb_sym (t ÷ dur)).
        destruct (ts ÷ dur =? t ÷ dur); rewrite ?andb_true_r, ?andb_false_r; cbn [andb]; [|lia].
        destruct ((c_min (m_cache m) <=? ts) && negb (has_id (ids_of (c_slots (m_cache m)) (t ÷ dur)) id)); [|lia].
        destruct (c_size (m_cache m) <=? Z.of_nat (length (ids_of (c_slots (m_cache m)) (t ÷ dur)))); [cbn; lia|]. rewrite app_length. cbn. lia.
      * rewrite filter_app, app_length. cbn. pose proof (add_count (m_cache m) id ts). lia.
    + destruct (remove_ok (m_cache m) (c - th) I1) as (A1 & A2 & A3 & A4 & A5). split; try assumption; try congruence.
      * now apply remove_keys.
      * intros x t Hi. rewrite A4. apply in_app_or in Hi. destruct Hi as [Hi|[Hi|[]]]; [specialize (I5 x t Hi); lia|]. injection Hi as <- <-. lia.
      * rewrite A4. destruct (Z.max_spec (c_min (m_cache m)) (c - th)) as [[L E]|[L E]]; rewrite E.
        -- right. exists c, th. split; [apply in_or_app; right; now left|reflexivity].
        -- destruct I6 as [I6|(x & t & Hi & E')]; [now left|]. right. exists x, t. split; [apply in_or_app; now left|exact E'].
      * intros s j Hj. rewrite A5 in Hj. destruct ((c_min (m_cache m) <? c - th) && (s <? slot_of (m_cache m) (c - th))); [destruct Hj|].
        destruct (I7 s j Hj) as (t & B & C). exists t. split; [apply in_or_app; now left|exact C].
      * intros t. rewrite A5, drops_in_app. specialize (I8 t). cbn. destruct ((c_min (m_cache m) <? c - th) && _); cbn; lia.
      * rewrite filter_app, app_length. cbn. pose proof (remove_count (m_cache m) (c - th)). lia.
    + split; try assumption.
      * intros x t Hi. apply in_app_or in Hi. destruct Hi as [Hi|[Hi|[]]]; [now apply (I5 x t)|discriminate].
      * destruct I6 as [I6|(x & t & Hi & E)]; [now left|]. right. exists x, t. split; [apply in_or_app; now left|exact E].
      * intros s j Hj. destruct (I7 s j Hj) as (t & B & C). exists t. split; [apply in_or_app; now left|exact C].
      * intros t. rewrite drops_in_app. cbn. specialize (I8 t). lia.
      * rewrite filter_app, app_length. cbn. lia.
Qed.

(** A dropped transaction stays as long as its period is not full. *)
Lemma stays dur size th0 h1 id ts h2 : 0 < dur -> (Z.of_nat (drops_in dur ts (h1 ++ Drop id ts :: h2)) <= size) ->
  let c := m_cache (after dur size th0 (h1 ++ Drop id ts :: h2)) in c_min c <= ts -> In id (ids_of (c_slots c) (ts ÷ dur)).
Proof.
  intros P. induction h2 as [|a h2 IH] using rev_ind; intros B c; unfold c; clear c.
  - replace (h1 ++ [Drop id ts]) with (h1 ++ [Drop id ts]) by reflexivity. rewrite after_snoc. destruct (held_after dur size th0 h1 P) as [I1 _ I3 I4 _ _ _ _ _].
    cbn [act m_cache]. destruct (add_ok _ id ts I1) as (_ & _ & _ & A4 & A5). rewrite A4, A5. intros L. unfold slot_of. rewrite I3, Z.eqb_refl.
    destruct (Z.leb_spec (c_min (m_cache (after dur size th0 h1))) ts); [|lia]. cbn [andb].
    destruct (has_id _ id) eqn:E; cbn [negb]; [now apply has_id_in|]. destruct (_ <=? _); [now left|apply in_or_app; right; now left].
  - change (h1 ++ Drop id ts :: h2 ++ [a]) with (h1 ++ (Drop id ts :: h2) ++ [a]) in *. rewrite app_assoc in *. rewrite drops_in_app in B. rewrite after_snoc.
    assert (B' : Z.of_nat (drops_in dur ts (h1 ++ Drop id ts :: h2)) <= size) by lia. specialize (IH B'). cbv zeta in IH.
    destruct (held_after dur size th0 (h1 ++ Drop id ts :: h2) P) as [I1 _ I3 I4 _ _ _ I8 _]. specialize (I8 ts).
    set (m := after dur size th0 (h1 ++ Drop id ts :: h2)) in *. destruct a as [j t|c th|th]; cbn [act m_cache].
    + destruct (add_ok (m_cache m) j t I1) as (_ & _ & _ & A4 & A5). rewrite A4, A5. intros L. specialize (IH L). unfold slot_of. rewrite I3. cbn [drops_in] in B.
      rewrite (Z.eqb_sym (ts ÷ dur)). destruct (t ÷ dur =? ts ÷ dur); rewrite ?andb_true_r, ?andb_false_r; cbn [andb]; [|exact IH].
      destruct (_ && _); [|exact IH]. rewrite I4. destruct (Z.leb_spec size (Z.of_nat (length (ids_of (c_slots (m_cache m)) (ts ÷ dur))))); [lia|].
      apply in_or_app. now left.
    + destruct (remove_ok (m_cache m) (c - th) I1) as (_ & _ & _ & A4 & A5). rewrite A4, A5. intros L. specialize (IH ltac:(lia)).
      destruct (_ <? c - th); cbn [andb]; [|exact IH]. unfold slot_of. rewrite I3. destruct (Z.ltb_spec (ts ÷ dur) ((c - th) ÷ dur)); [|exact IH].
      assert ((c - th) ÷ dur <= ts ÷ dur) by (apply Z.quot_le_mono; lia). lia.
    + intros L. now apply IH.
Qed.

(** The window of the node is that of the last block and the threshold set last. *)
Lemma window_after dur size th0 h : m_commit (after dur size th0 h) = last_block h /\ m_th (after dur size th0 h) = threshold th0 h.
Proof.
  induction h as [|a h IH] using rev_ind; [split; reflexivity|]. rewrite after_snoc. unfold last_block, threshold in *. rewrite !fold_left_app.
  destruct IH as [A B]. destruct a; cbn; auto.
Qed.
