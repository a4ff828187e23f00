(** The BTP state over blocks: sections, sequence numbers, proof contexts of consensus, keys. *)
From Verif Require Import Model.Bytes Model.IntCodec Model.BtpSection Spec.BtpSectionSpec Model.BtpState Spec.BtpStateSpec
  Proof.BtpSectionBuild Proof.BtpSectionFacts Proof.BtpStateFacts Proof.BtpStateBlock.
From Coq Require Import Lia Sorting.Sorted Sorting.Permutation.
Open Scope Z_scope.

Local Arguments messages_to : simpl never.
Lemma sorted_head {A} (f : A -> Z) (l : list A) a b : ascending (map f l) -> In a l -> In b l -> f a = f b -> a = b.
Proof.
  intros S. induction l as [|x l IH]; intros Ha Hb E; [destruct Ha|]. cbn in S. inversion S as [|z zs S1 S2]; subst.
  rewrite Forall_forall in S2.
  assert (L : forall y, In y l -> f x < f y) by (intros y Hy; apply S2; now apply in_map).
  destruct Ha as [<-|Ha], Hb as [<-|Hb]; [reflexivity| | |exact (IH S1 Ha Hb E)].
  - pose proof (L b Hb). lia.
  - pose proof (L a Ha). lia.
Qed.
Lemma messages_to_app n l l' : messages_to n (l ++ l') = messages_to n l ++ messages_to n l'.
Proof. unfold messages_to. now rewrite filter_app, map_app. Qed.
Lemma messages_to_none n l : ~ In n (map fst l) -> messages_to n l = [].
Proof.
  unfold messages_to. induction l as [|[m x] r IH]; cbn; intros Hn; [reflexivity|].
  destruct (Z.eqb_spec m n) as [->|E]; [exfalso; apply Hn; now left|]. apply IH. intros Hi. apply Hn. now right.
Qed.

Section With.
Variable modules : list bytes.
Variable dsa_of : bytes -> Z.
Variable dsa_known : Z -> bool.
Variable canonical : Z -> bytes -> option bytes.
Variable key_for : bytes -> bytes -> option bytes.
Variable context_of : bytes -> list (option bytes) -> option bytes.
Variable key_hash : bytes -> bytes.
Variable H : bytes -> bytes -> bytes.
Variable pc_hash : bytes -> option bytes -> option (option bytes).
Notation step := (step modules dsa_of dsa_known canonical key_for context_of key_hash).
Notation do_op := (do_op modules dsa_of dsa_known canonical key_for context_of key_hash).
Notation block := (block modules dsa_of dsa_known canonical key_for context_of key_hash H pc_hash).
Notation reaches := (reaches modules dsa_of dsa_known canonical key_for context_of key_hash H pc_hash).
Notation update := (update dsa_of key_for context_of).
Notation parts := (parts modules dsa_of dsa_known canonical key_for context_of key_hash H pc_hash).

(** Sequence numbers and last sections in a block. *)
Record nums (s0 s : st) (b : blk) : Prop := {
  k_sn : forall n, sn_in s n = sn_in s0 n + blen (messages_to n (b_msgs b));
  k_last : forall n, last_in s n = last_in s0 n;
  k_new : forall n, s_net s n = None -> s_net s0 n = None;
  k_msgs : forall n, In n (map fst (b_msgs b)) -> exists w, s_net s n = Some w;
  k_some : forall t nt, s_type s t = Some nt -> flagged b t = false -> t_open nt <> [] -> t_pc nt <> None }.

Lemma nums_opened s0 s b t nt n owner act uids tid b1 : struct modules s -> nums s0 s b -> n = s_nid s + 1 ->
  b_msgs b1 = b_msgs b ->
  (forall x, x <> t -> flagged b1 x = flagged b x) ->
  (b_pc b1 t = false -> t_pc nt <> None) ->
  nums s0 (opened s t nt n owner act uids tid) (flag_inactive (flag_net b1 n) t false).
Proof.
  intros X K -> Hm Hf Hp. set (n := s_nid s + 1).
  assert (Hnone : s_net s n = None).
  { destruct (s_net s n) as [w|] eqn:E; [|reflexivity]. destruct (x_net modules s X n w E). subst n. lia. }
  pose proof (k_new s0 s b K n Hnone) as H0.
  split; cbn; rewrite ?Hm.
  - intros m. pose proof (k_sn s0 s b K m) as A. unfold sn_in in *. cbn.
    destruct (put_case (s_net s) n (Some (mk_net t owner true 0 true None None)) m) as [(-> & ->)|(E & ->)]; [|exact A].
    rewrite Hnone, H0 in A. cbn. rewrite H0. exact A.
  - intros m. pose proof (k_last s0 s b K m) as A. unfold last_in in *. cbn.
    destruct (put_case (s_net s) n (Some (mk_net t owner true 0 true None None)) m) as [(-> & ->)|(E & ->)]; [|exact A].
    now rewrite H0.
  - intros m. destruct (put_case (s_net s) n (Some (mk_net t owner true 0 true None None)) m) as [(-> & ->)|(E & ->)]; [discriminate|exact (k_new s0 s b K m)].
  - intros m Hi. destruct (put_case (s_net s) n (Some (mk_net t owner true 0 true None None)) m) as [(-> & ->)|(E & ->)]; [now eexists|exact (k_msgs s0 s b K m Hi)].
  - intros x nt'. destruct (put_case (s_type s) t (Some (mk_ntype (t_uid nt) (t_pc nt) (t_open nt ++ [n]))) x) as [(-> & ->)|(E & ->)].
    + intros H'. injection H' as <-. cbn. intros Hfl _. unfold flagged in Hfl. cbn in Hfl. apply Bool.orb_false_iff in Hfl. exact (Hp (proj1 Hfl)).
    + intros H' Hfl. apply (k_some s0 s b K x nt' H'). rewrite <- (Hf x E). unfold flagged in *. cbn in Hfl. rewrite put_other in Hfl by exact E. exact Hfl.
Qed.

Lemma nums_op s0 s b o s' b' : struct modules s -> inv s0 s b -> nums s0 s b -> do_op s b o = Some (s', b') -> nums s0 s' b'.
Proof.
  intros X V K. destruct o as [uid owner|n|from n msg|from name pub|l]; cbn.
  - intros E. destruct (open_cases modules dsa_of key_for context_of s b uid owner s' b' X E) as [(nt & Hm & Hne & Ht & Hu & -> & ->)|(pc & Hm & H0 & Hc & -> & ->)].
    + apply nums_opened with (b := b); auto.
      * destruct (t_open nt); reflexivity.
      * intros x Hx. destruct (t_open nt); [|reflexivity]. unfold flagged. cbn. now rewrite put_other by exact Hx.
      * destruct (t_open nt) as [|z r] eqn:Eo; [cbn; rewrite put_same; discriminate|]. intros Hp.
        apply (k_some s0 s b K _ nt Ht); [|rewrite Eo; discriminate]. unfold flagged. rewrite Hp. cbn.
        destruct (b_inactive b (s_by_uid s uid)) eqn:Ei; [|reflexivity]. pose proof (v_inactive s0 s b V _ nt Ht Ei) as Hx. rewrite Eo in Hx. discriminate Hx.
    + apply nums_opened with (b := b); auto. cbn. discriminate.
  - intros E. destruct (close_cases s b n s' b' E) as (w & nt & l & Hw & Ht & Hl & -> & ->).
    assert (Hm : b_msgs (match l with [] => flag_inactive b (n_type w) true | _ => b end) = b_msgs b) by (destruct l; reflexivity).
    set (w1 := mk_net (n_type w) (n_owner w) false (n_sn w) (n_changed w) (n_prev w) (n_last w)).
    split; cbn; rewrite ?Hm.
    + intros m. pose proof (k_sn s0 s b K m) as A. unfold sn_in in *. cbn. fold w1. destruct (put_case (s_net s) n (Some w1) m) as [(-> & ->)|(Ed & ->)]; [rewrite Hw in A|]; exact A.
    + intros m. pose proof (k_last s0 s b K m) as A. unfold last_in in *. cbn. fold w1. destruct (put_case (s_net s) n (Some w1) m) as [(-> & ->)|(Ed & ->)]; [rewrite Hw in A|]; exact A.
    + intros m. fold w1. destruct (put_case (s_net s) n (Some w1) m) as [(-> & ->)|(Ed & ->)]; [discriminate|exact (k_new s0 s b K m)].
    + intros m Hi. fold w1. destruct (put_case (s_net s) n (Some w1) m) as [(-> & ->)|(Ed & ->)]; [now eexists|exact (k_msgs s0 s b K m Hi)].
    + intros x nt'. destruct (put_case (s_type s) (n_type w) (Some (mk_ntype (t_uid nt) (t_pc nt) l)) x) as [(-> & ->)|(Ed & ->)].
      * intros H'. injection H' as <-. cbn. intros Hf Hn. destruct l as [|z r]; [contradiction|].
        apply (k_some s0 s b K (n_type w) nt Ht Hf). intros Eo. rewrite Eo in Hl. discriminate Hl.
      * intros H' Hf. apply (k_some s0 s b K x nt' H'). destruct l; [|exact Hf]. unfold flagged in *. cbn in Hf. rewrite put_other in Hf by exact Ed. exact Hf.
  - intros E. destruct (send_cases s b from n msg s' b' E) as (w & Hw & Ho & Hf & -> & ->).
    set (w1 := mk_net (n_type w) (n_owner w) (n_open w) (n_sn w + 1) (n_changed w) (n_prev w) (n_last w)).
    split; cbn.
    + intros m. pose proof (k_sn s0 s b K m) as A. unfold sn_in in *. cbn. fold w1. rewrite messages_to_app. unfold blen in *. rewrite app_length.
      destruct (put_case (s_net s) n (Some w1) m) as [(-> & ->)|(Ed & ->)].
      * rewrite Hw in A. subst w1. cbn [n_sn]. rewrite A. unfold messages_to at 3. cbn [filter fst map snd]. rewrite Z.eqb_refl. cbn [length map]. lia.
      * rewrite A. unfold messages_to at 3. cbn [filter fst map snd]. destruct (Z.eqb_spec n m); [exfalso; now apply Ed|]. cbn [length map]. lia.
    + intros m. pose proof (k_last s0 s b K m) as A. unfold last_in in *. cbn. fold w1. destruct (put_case (s_net s) n (Some w1) m) as [(-> & ->)|(Ed & ->)]; [rewrite Hw in A|]; exact A.
    + intros m. fold w1. destruct (put_case (s_net s) n (Some w1) m) as [(-> & ->)|(Ed & ->)]; [discriminate|exact (k_new s0 s b K m)].
    + intros m. rewrite map_app, in_app_iff. cbn. fold w1. intros Hi. destruct (put_case (s_net s) n (Some w1) m) as [(-> & ->)|(Ed & ->)]; [now eexists|].
      destruct Hi as [Hi|[Hi|[]]]; [exact (k_msgs s0 s b K m Hi)|exfalso; now apply Ed].
    + exact (k_some s0 s b K).
  - intros E. destruct (set_key_cases modules dsa_of dsa_known canonical key_hash s b from name pub s' b' E) as [(-> & ->)|(k & l & _ & _ & _ & -> & ->)]; [exact K|].
    split; cbn; apply K.
  - intros E. injection E as <- <-. split; cbn; apply K.
Qed.

Lemma ops_nums s0 ops : forall s b, struct modules s -> inv s0 s b -> nums s0 s b ->
  let w := fold_left step ops (s, b) in nums s0 (fst w) (snd w).
Proof.
  induction ops as [|o r IH]; intros s b X V K; cbn; [exact K|].
  unfold BtpState.step at 2 4. cbn. destruct (do_op s b o) as [(s', b')|] eqn:E.
  - apply IH; [exact (struct_op _ _ _ _ _ _ _ s b o s' b' X E)|exact (inv_op _ _ _ _ _ _ _ s0 s b o s' b' X V E)|exact (nums_op s0 s b o s' b' X V K E)].
  - apply IH; assumption.
Qed.

Definition open_has (s : st) : Prop := forall t nt, s_type s t = Some nt -> t_open nt <> [] -> t_pc nt <> None.
Lemma parts_nums s0 ops s' b' out s b : struct modules s0 -> begins_well s0 -> open_has s0 -> parts s0 ops s' b' out s b -> nums s0 s b'.
Proof.
  intros X0 G0 O0 (Ew & X & V & V' & Ef & _).
  assert (K0 : nums s0 s0 (begin s0)).
  { split; cbn.
    - intros n. unfold messages_to, blen. cbn [map filter length Z.of_nat b_msgs begin]. lia.
    - reflexivity.
    - auto.
    - intros n [].
    - intros t nt Ht _. exact (O0 t nt Ht). }
  pose proof (ops_nums s0 ops s0 (begin s0) X0 (inv_begin modules s0 X0 G0) K0) as K. cbv zeta in K. rewrite Ew in K. cbn in K.
  destruct (flag_all_spec dsa_of key_for context_of s _ b b' Ef) as (_ & _ & I & M & _ & F & _).
  split; rewrite ?M; try apply K.
  intros t nt Ht Hf. apply (k_some s0 s b K t nt Ht). unfold flagged in *. rewrite I in Hf. apply Bool.orb_false_iff in Hf. destruct Hf as (Hp & Hi).
  rewrite Hi. destruct (b_pc b t) eqn:E; [|reflexivity]. rewrite (proj2 (F t) (or_introl E)) in Hp. discriminate Hp.
Qed.
Lemma parts_open_has s0 ops s' b' out s b : struct modules s0 -> begins_well s0 -> open_has s0 -> parts s0 ops s' b' out s b -> open_has s'.
Proof.
  intros X0 G0 O0 P. pose proof (parts_nums _ _ _ _ _ _ _ X0 G0 O0 P) as K. destruct P as (_ & X & _ & V & _ & U & _ & ->).
  intros t nt' Ht Ho. destruct (type_before dsa_of key_for context_of s0 s b' out t nt' V U Ht) as (nt & A & B & C & D & _ & F). rewrite C in Ho.
  destruct (flagged b' t) eqn:Ef; [destruct (F eq_refl Ho) as (pc & _ & ->); discriminate|]. rewrite (D eq_refl). exact (k_some s0 s b' K t nt A Ef Ho).
Qed.
Lemma reaches_open_has ok s : reaches ok s -> open_has s.
Proof.
  induction 1 as [s F|s ops s' b out R IH B _].
  - intros t nt Ht. destruct F as (_ & _ & F & _). rewrite F in Ht. discriminate Ht.
  - destruct (reaches_struct _ _ _ _ _ _ _ _ _ ok s R) as (X & G). destruct (block_parts _ _ _ _ _ _ _ _ _ s ops s' b out X G B) as (s1 & b1 & P).
    exact (parts_open_has s ops s' b out s1 b1 X G IH P).
Qed.

(** A network whose context is another one after the block has a section that says so. *)
Lemma changed_section ok s0 ops s' b' out t nt' n : reaches ok s0 -> block s0 ops s' b' out ->
  s_type s' t = Some nt' -> In n (t_open nt') -> context_in s' t <> context_in s0 t ->
  exists x y, In x out /\ nts_id x = t /\ In y (nts_sections x) /\ ns_nid y = n /\ context_changed y = true /\ nts_changed x = true.
Proof.
  intros R B Ht Hn Hc. destruct (reaches_struct _ _ _ _ _ _ _ _ _ ok s0 R) as (X0 & G0).
  destruct (block_parts _ _ _ _ _ _ _ _ _ s0 ops s' b' out X0 G0 B) as (s & b & P).
  destruct P as (_ & X & _ & V & _ & U & (nets & Pn & S) & ->).
  destruct (type_before dsa_of key_for context_of s0 s b' out t nt' V U Ht) as (nt & A & Bu & C & D & _ & F). rewrite C in Hn.
  unfold context_in in Hc. rewrite Ht in Hc. destruct (x_open modules s X t nt n A Hn) as (w & Hw & Et & _).
  assert (Hi : In n (b_nets b') /\ match n_last w with Some (_ :: _) => flagged b' (n_type w) | _ => true end = true).
  { destruct (flagged b' t) eqn:Ef.
    - split; [|rewrite Et, Ef; destruct (n_last w) as [[|]|]; reflexivity].
      apply (v_nets s0 s b' V t nt n A); [|exact Hn]. left. unfold flagged in Ef. destruct (b_pc b' t); [reflexivity|]. cbn in Ef.
      rewrite (v_inactive s0 s b' V t nt A Ef) in Hn. destruct Hn.
    - rewrite (D eq_refl) in Hc. destruct (s_type s0 t) as [nt0|] eqn:E0.
      + destruct (v_pc s0 s b' V t nt nt0 A E0) as (Hp & _). contradiction.
      + split; [exact (v_nets s0 s b' V t nt n A (or_intror E0) Hn)|]. rewrite (v_last s0 s b' V n w Hw); [reflexivity|now rewrite Et]. }
  destruct Hi as (Hi & Hb).
  destruct (has_section dsa_of key_for context_of H pc_hash s0 s b' nets out n w V U Pn S Hi Hw) as (x & y & Ix & Ex & Iy & Ey & Ec & _); [exists nt; now rewrite Et|].
  exists x, y. rewrite Ex, Et. rewrite Hb in Ec. repeat split; try assumption.
  destruct S as (_ & _ & S3). destruct (S3 x Ix) as (_ & _ & _ & -> & _). apply existsb_exists. now exists y.
Qed.

(** The sections of a network make a chain. *)
Lemma link_section ok s0 ops s' b' out x y : reaches ok s0 -> block s0 ops s' b' out -> In x out -> In y (nts_sections x) ->
  ns_prev y = last_in s0 (ns_nid y) /\ last_in s' (ns_nid y) = Some (ns_hash y)
  /\ ns_messages y = messages_to (ns_nid y) (b_msgs b')
  /\ sn_in s' (ns_nid y) = sn_in s0 (ns_nid y) + blen (ns_messages y)
  /\ (0 <= sn_in s0 (ns_nid y) -> sn_in s' (ns_nid y) < 2 ^ 62 -> first_sn y = sn_in s0 (ns_nid y)).
Proof.
  intros R B Ix Iy. destruct (reaches_struct _ _ _ _ _ _ _ _ _ ok s0 R) as (X0 & G0). pose proof (reaches_open_has ok s0 R) as O0.
  destruct (block_parts _ _ _ _ _ _ _ _ _ s0 ops s' b' out X0 G0 B) as (s & b & P). pose proof (parts_nums _ _ _ _ _ _ _ X0 G0 O0 P) as K.
  destruct P as (_ & X & _ & V & _ & U & (nets & Pn & S) & ->).
  destruct (of_section dsa_of dsa_known canonical key_for context_of H pc_hash s b' nets out x y Pn S (v_sends s0 s b' V) Ix Iy) as (w & Hi & Hw & Et & _ & Hm & Hp & Hs).
  set (n := ns_nid y) in *. destruct (net_after dsa_of key_for context_of s b' out n w Hw) as (w' & A & _ & _ & C & D & _).
  pose proof (k_sn s0 s b' K n) as Ks. pose proof (k_last s0 s b' K n) as Kl. unfold sn_in at 1 in Ks. unfold last_in at 1 in Kl. rewrite Hw in Ks, Kl.
  assert (E1 : sn_in (apply_sections (update s b') b' out) n = n_sn w) by (unfold sn_in; rewrite A; exact C).
  assert (Hbit : existsb (Z.eqb n) (b_nets b') = true) by (apply existsb_exists; exists n; split; [exact Hi|apply Z.eqb_refl]).
  assert (Hsec : section_for out n = Some y).
  { unfold section_for. destruct (find (fun z => ns_nid z =? n) (flat_map nts_sections out)) as [z|] eqn:Ef.
    - apply find_some in Ef. destruct Ef as (Iz & Ez). apply Z.eqb_eq in Ez. apply in_flat_map in Iz. destruct Iz as (x' & Ix' & Iz).
      destruct (of_section dsa_of dsa_known canonical key_for context_of H pc_hash s b' nets out x' z Pn S (v_sends s0 s b' V) Ix' Iz) as (wz & _ & Hwz & Etz & _).
      rewrite Ez, Hw in Hwz. injection Hwz as <-. destruct S as (S1 & _ & S3).
      assert (x' = x) by (apply (sorted_head nts_id out x' x S1 Ix' Ix); now rewrite <- Et, <- Etz). subst x'.
      destruct (S3 x Ix) as (_ & S4 & _). f_equal. apply (sorted_head ns_nid _ z y S4 Iz Iy). exact Ez.
    - exfalso. assert (Iy' : In y (flat_map nts_sections out)) by (apply in_flat_map; now exists x).
      pose proof (find_none _ _ Ef y Iy') as Hc. cbn in Hc. subst n. now rewrite Z.eqb_refl in Hc. }
  split; [rewrite Hp; exact Kl|]. split; [unfold last_in; rewrite A, D, Hbit, Hsec; reflexivity|]. split; [exact Hm|].
  rewrite E1, Hm. split; [exact Ks|]. intros H0 H62. rewrite Hm in Hs. 
  assert (0 <= blen (messages_to n (b_msgs b'))) by (unfold blen; lia).
  pose proof (Hs ltac:(lia)). lia.
Qed.

(** A network without section had no messages, and keeps its last section. *)
Lemma idle_network ok s0 ops s' b' out n : reaches ok s0 -> block s0 ops s' b' out ->
  (forall x y, In x out -> In y (nts_sections x) -> ns_nid y <> n) ->
  last_in s' n = last_in s0 n /\ sn_in s' n = sn_in s0 n /\ messages_to n (b_msgs b') = [].
Proof.
  intros R B No. destruct (reaches_struct _ _ _ _ _ _ _ _ _ ok s0 R) as (X0 & G0). pose proof (reaches_open_has ok s0 R) as O0.
  destruct (block_parts _ _ _ _ _ _ _ _ _ s0 ops s' b' out X0 G0 B) as (s & b & P). pose proof (parts_nums _ _ _ _ _ _ _ X0 G0 O0 P) as K.
  destruct P as (_ & X & _ & V & _ & U & (nets & Pn & S) & ->).
  assert (Hn : ~ In n (b_nets b')).
  { intros Hi. destruct (v_has s0 s b' V n (or_introl Hi)) as (w & Hw). destruct (x_net modules s X n w Hw) as (_ & Ht).
    destruct (has_section dsa_of key_for context_of H pc_hash s0 s b' nets out n w V U Pn S Hi Hw Ht) as (x & y & Ix & _ & Iy & Ey & _).
    exact (No x y Ix Iy Ey). }
  assert (Hm : messages_to n (b_msgs b') = []) by (apply messages_to_none; intros Hi; apply Hn; exact (v_sends s0 s b' V n Hi)).
  pose proof (k_sn s0 s b' K n) as Ks. pose proof (k_last s0 s b' K n) as Kl. rewrite Hm in Ks. change (blen (@nil bytes)) with 0 in Ks.
  assert (Hbit : existsb (Z.eqb n) (b_nets b') = false).
  { destruct (existsb (Z.eqb n) (b_nets b')) eqn:E; [|reflexivity]. apply existsb_exists in E. destruct E as (z & Iz & Ez). apply Z.eqb_eq in Ez. now subst z. }
  split; [|split; [|exact Hm]].
  - rewrite <- Kl. unfold last_in at 1 2. destruct (s_net s n) as [w|] eqn:Hw.
    + destruct (net_after dsa_of key_for context_of s b' out n w Hw) as (w' & -> & _ & _ & _ & D & _). rewrite Hbit in D. exact D.
    + now rewrite (no_net_after dsa_of key_for context_of s b' out n Hw).
  - rewrite Z.add_0_r in Ks. rewrite <- Ks. unfold sn_in at 1 2. destruct (s_net s n) as [w|] eqn:Hw.
    + destruct (net_after dsa_of key_for context_of s b' out n w Hw) as (w' & -> & _ & _ & C & _). exact C.
    + now rewrite (no_net_after dsa_of key_for context_of s b' out n Hw).
Qed.

(** The contexts that consensus keeps follow the state. *)
Lemma contexts_follow ok s0 ops s' b' out t : reaches ok s0 -> block s0 ops s' b' out ->
  update_contexts (contexts_of s0) s' b' out t = contexts_of s' t.
Proof.
  intros R B. destruct (reaches_struct _ _ _ _ _ _ _ _ _ ok s0 R) as (X0 & G0). pose proof (reaches_open_has ok s0 R) as O0.
  destruct (block_parts _ _ _ _ _ _ _ _ _ s0 ops s' b' out X0 G0 B) as (s & b & P). pose proof (parts_nums _ _ _ _ _ _ _ X0 G0 O0 P) as K.
  pose proof (parts_open_has _ _ _ _ _ _ _ X0 G0 O0 P) as O'. destruct (parts_struct _ _ _ _ _ _ _ _ _ _ _ _ _ _ _ _ P) as (X' & G').
  destruct P as (_ & X & _ & V & _ & U & (nets & Pn & S) & Es').
  unfold update_contexts, contexts_of.
  assert (Hopen : forall nt', s_type s' t = Some nt' -> exists nt, s_type s t = Some nt /\ t_open nt' = t_open nt /\ (flagged b' t = false -> t_pc nt' = t_pc nt)
     /\ (forall nt0, s_type s0 t = Some nt0 -> t_pc nt = t_pc nt0)).
  { intros nt' Ht. rewrite Es' in Ht. destruct (type_before dsa_of key_for context_of s0 s b' out t nt' V U Ht) as (nt & A & Bu & C & D & _ & F).
    exists nt. repeat split; try assumption. intros nt0 E0. exact (proj1 (v_pc s0 s b' V t nt nt0 A E0)). }
  destruct (b_inactive b' t) eqn:Ei.
  - destruct (s_type s' t) as [nt'|] eqn:Et; [|reflexivity]. destruct (Hopen nt' eq_refl) as (nt & A & C & _). symmetry. apply (G' t nt' Et). rewrite C.
    exact (v_inactive s0 s b' V t nt A Ei).
  - destruct (find (fun x => nts_id x =? t) out) as [x|] eqn:Ef.
    + apply find_some in Ef. destruct Ef as (Ix & Ex). apply Z.eqb_eq in Ex.
      assert (Hy : exists y, In y (nts_sections x)).
      { destruct S as (_ & _ & S3). destruct (S3 x Ix) as (S4 & _). destruct (nts_sections x) as [|y r]; [contradiction|]. exists y. now left. }
      destruct Hy as (y & Iy).
      destruct (of_section dsa_of dsa_known canonical key_for context_of H pc_hash s b' nets out x y Pn S (v_sends s0 s b' V) Ix Iy) as (w & Hi & Hw & Etw & Ec & _). rewrite Ex in Etw.
      destruct (x_net modules s X _ w Hw) as (_ & nt & Hnt). rewrite Etw in Hnt.
      destruct (type_after dsa_of key_for context_of s0 s b' out t nt V U Hnt) as (nt' & Ht' & _ & C & D & _). rewrite <- Es' in Ht'.
      assert (Ho : t_open nt <> []).
      { destruct (v_live s0 s b' V _ w nt Hw (or_introl Hi)) as [Ho|Ho]; [now rewrite Etw|exact Ho|]. rewrite Etw, Ei in Ho. discriminate Ho. }
      destruct (nts_changed x) eqn:Ech.
      * rewrite Ht'. rewrite <- C in Ho. pose proof (O' t nt' Ht' Ho). destruct (t_pc nt'); [reflexivity|contradiction].
      * destruct S as (_ & _ & S3). destruct (S3 x Ix) as (_ & _ & _ & S4 & _). rewrite Ech in S4.
        assert (Hcy : context_changed y = false).
        { destruct (context_changed y) eqn:E; [|reflexivity]. assert (existsb context_changed (nts_sections x) = true) by (apply existsb_exists; now exists y). congruence. }
        rewrite Hcy in Ec. rewrite Etw in Ec. destruct (n_last w) as [[|z r]|] eqn:El; try discriminate Ec.
        rewrite Ht', (D (eq_sym Ec)). destruct (s_type s0 t) as [nt0|] eqn:E0.
        -- symmetry. exact (proj1 (v_pc s0 s b' V t nt nt0 Hnt E0)).
        -- rewrite (v_last s0 s b' V _ w Hw) in El; [discriminate El|now rewrite Etw].
    + assert (Hno : forall nt n, s_type s t = Some nt -> In n (t_open nt) -> ~ In n (b_nets b')).
      { intros nt n Hnt Ho Hi. destruct (x_open modules s X t nt n Hnt Ho) as (w & Hw & Et & _).
        destruct (has_section dsa_of key_for context_of H pc_hash s0 s b' nets out n w V U Pn S Hi Hw) as (x & y & Ix & Ex & _); [exists nt; now rewrite Et|].
        pose proof (find_none _ _ Ef x Ix) as Hc. cbn in Hc. rewrite Ex, Et, Z.eqb_refl in Hc. discriminate Hc. }
      destruct (s_type s' t) as [nt'|] eqn:Et.
      * destruct (Hopen nt' eq_refl) as (nt & A & C & D & E). destruct (t_open nt) as [|n r] eqn:Eo.
        -- rewrite (G' t nt' Et C). destruct (s_type s0 t) as [nt0|] eqn:E0; [|reflexivity]. rewrite <- (E nt0 eq_refl). exact (v_none s0 s b' V t nt A Ei Eo).
        -- assert (Hf : flagged b' t = false).
           { unfold flagged. rewrite Ei. destruct (b_pc b' t) eqn:Ep; [|reflexivity]. exfalso. apply (Hno nt n A); [rewrite Eo; now left|].
             apply (v_nets s0 s b' V t nt n A (or_introl Ep)). rewrite Eo. now left. }
           rewrite (D Hf). destruct (s_type s0 t) as [nt0|] eqn:E0; [symmetry; exact (E nt0 eq_refl)|].
           exfalso. apply (Hno nt n A); [rewrite Eo; now left|]. apply (v_nets s0 s b' V t nt n A (or_intror E0)). rewrite Eo. now left.
      * destruct (s_type s0 t) as [nt0|] eqn:E0; [|reflexivity]. destruct (v_old s0 s b' V t nt0 E0) as (nt & A).
        destruct (type_after dsa_of key_for context_of s0 s b' out t nt V U A) as (nt' & Ht' & _). rewrite <- Es', Et in Ht'. discriminate Ht'.
Qed.

(** Keys. *)
Definition one_dsa : Prop := forall a b, dsa_known a = true -> dsa_known b = true -> a = b.
Definition keys_owned (s : st) : Prop := forall a name k, s_key s a name = Some k -> dsa_known name = true /\ s_owner s (key_hash k) = Some a.
Lemma owned_op s b o s' b' : one_dsa -> struct modules s -> keys_owned s -> do_op s b o = Some (s', b') -> keys_owned s'.
Proof.
  intros One X K. destruct o as [uid owner|n|from n msg|from name pub|l]; cbn.
  - intros E. destruct (open_cases modules dsa_of key_for context_of s b uid owner s' b' X E) as [(nt & _ & _ & _ & _ & -> & _)|(pc & _ & _ & _ & -> & _)]; exact K.
  - intros E. destruct (close_cases s b n s' b' E) as (w & nt & l & _ & _ & _ & -> & _). exact K.
  - intros E. destruct (send_cases s b from n msg s' b' E) as (w & _ & _ & _ & -> & _). exact K.
  - intros E. destruct (set_key_cases modules dsa_of dsa_known canonical key_hash s b from name pub s' b' E) as [(-> & ->)|(k & l & Kn & Ho & _ & -> & _)]; [exact K|].
    intros a nm k' Hk. cbn in *.
    destruct (Z.eq_dec a from) as [->|Ea].
    + rewrite put_same in Hk. destruct (Z.eq_dec nm name) as [->|En].
      * rewrite put_same in Hk. subst k. split; [exact Kn|]. apply put_b_same.
      * rewrite put_other in Hk by exact En. destruct (K from nm k' Hk) as (Kn' & _). exfalso. apply En. exact (One nm name Kn' Kn).
    + rewrite put_other in Hk by exact Ea. destruct (K a nm k' Hk) as (Kn' & Hown). split; [exact Kn'|].
      assert (H1 : (match s_key s from name with Some old => put_b (s_owner s) (key_hash old) None | None => s_owner s end) (key_hash k') = Some a).
      { destruct (s_key s from name) as [old|] eqn:Eo; [|exact Hown]. rewrite put_b_other; [exact Hown|]. intros Eh.
        destruct (K from name old Eo) as (_ & Hown'). rewrite <- Eh, Hown in Hown'. injection Hown' as ->. now apply Ea. }
      destruct k as [k|]; [|exact H1]. rewrite put_b_other; [exact H1|]. intros Eh. apply Ea.
      apply (Ho k a eq_refl). rewrite <- Eh. exact Hown.
  - intros E. injection E as <- <-. exact K.
Qed.
Lemma ops_owned ops : one_dsa -> forall s b, struct modules s -> keys_owned s ->
  let w := fold_left step ops (s, b) in keys_owned (fst w).
Proof.
  intros One. induction ops as [|o r IH]; intros s b X K; cbn; [exact K|].
  unfold BtpState.step at 2. cbn. destruct (do_op s b o) as [(s', b')|] eqn:E.
  - apply IH; [exact (struct_op _ _ _ _ _ _ _ s b o s' b' X E)|exact (owned_op s b o s' b' One X K E)].
  - apply IH; assumption.
Qed.
Lemma reaches_owned ok s : one_dsa -> reaches ok s -> keys_owned s.
Proof.
  intros One. induction 1 as [s F|s ops s' b out R IH B _].
  - intros a name k Hk. destruct F as (_ & _ & _ & _ & _ & _ & F). rewrite F in Hk. discriminate Hk.
  - destruct (reaches_struct _ _ _ _ _ _ _ _ _ ok s R) as (X & G). destruct (block_parts _ _ _ _ _ _ _ _ _ s ops s' b out X G B) as (s1 & b1 & P).
    destruct P as (Ew & _ & _ & _ & _ & _ & _ & ->). pose proof (ops_owned ops One s (begin s) X IH) as K. cbv zeta in K. rewrite Ew in K. exact K.
Qed.
End With.
