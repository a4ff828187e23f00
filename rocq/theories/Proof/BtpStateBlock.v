(** The BTP state over blocks. *)
From Verif Require Import Model.Bytes Model.IntCodec Model.BtpSection Spec.BtpSectionSpec Model.BtpState Spec.BtpStateSpec
  Proof.BtpSectionBuild Proof.BtpSectionFacts Proof.BtpStateFacts.
From Coq Require Import Lia Sorting.Sorted Sorting.Permutation.
Open Scope Z_scope.

Lemma context_changed_new H uid nid nw ms : context_changed (new_section H nid nw ms uid) = nw_changed nw.
Proof.
  unfold context_changed, new_section. cbn [ns_update]. set (y := wrap64 (nw_next_sn nw - blen ms)).
  assert (E : Z.testbit (wrap64 (y * 2)) 0 = false).
  { rewrite Z.bit0_odd. unfold wrap64. rewrite <- Z.negb_even. apply Bool.negb_false_iff. rewrite Z.even_sub.
    rewrite Z.mod_eq by lia. rewrite Z.even_sub, Z.even_add, !Z.even_mul. cbn. now rewrite Bool.orb_true_r. }
  destruct (nw_changed nw); [rewrite Z.lor_spec; cbn; apply Bool.orb_true_r|exact E].
Qed.

Section With.
Variable modules : list bytes.
Variable dsa_of : bytes -> Z.
Variable dsa_known : Z -> bool.
Variable canonical : Z -> bytes -> option bytes.
Variable key_for : bytes -> bytes -> option bytes.
Variable context_of : bytes -> list (option bytes) -> option bytes.
Variable key_hash : bytes -> bytes.
Variable H : bytes -> bytes -> bytes.
Variable pc_hash : bytes -> option bytes -> option (option bytes).
Notation step := (step modules dsa_of dsa_known canonical key_for context_of key_hash).
Notation do_op := (do_op modules dsa_of dsa_known canonical key_for context_of key_hash).
Notation block := (block modules dsa_of dsa_known canonical key_for context_of key_hash H pc_hash).
Notation reaches := (reaches modules dsa_of dsa_known canonical key_for context_of key_hash H pc_hash).
Notation update := (update dsa_of key_for context_of).
Notation right_context := (right_context dsa_of key_for context_of).

(** A block, taken apart. *)
Definition parts (s0 : st) (ops : list op) (s' : st) (b' : blk) (out : list type_section) (s : st) (b : blk) : Prop :=
  fold_left step ops (s0, begin s0) = (s, b) /\ struct modules s /\ inv s0 s b /\ inv s0 s b'
  /\ flag_all s b (changed_types s b) = Some b' /\ BtpState.update_ok dsa_of key_for context_of s b' = true
  /\ (exists nets, (forall l, Permutation l (nets l)) /\ sections_of H pc_hash (view_of (update s b')) (calls_of (nets (b_nets b')) (b_msgs b')) out)
  /\ s' = apply_sections (update s b') b' out.
Lemma block_parts s0 ops s' b' out : struct modules s0 -> begins_well s0 -> block s0 ops s' b' out -> exists s b, parts s0 ops s' b' out s b.
Proof.
  intros X G (nets & walk & shuffle & (O1 & O2 & O3) & R). unfold run_block in R. cbv zeta in R.
  destruct (fold_left step ops (s0, begin s0)) as [s b] eqn:Ew. exists s, b. cbn [fst snd] in R. unfold finish in R.
  destruct (flag_all s b (changed_types s b)) as [b1|] eqn:Ef; [|discriminate R].
  destruct (BtpState.update_ok dsa_of key_for context_of s b1) eqn:Eu; [|discriminate R]. cbv zeta in R.
  destruct (build H pc_hash (view_of (update s b1)) (walk (after (calls_of (nets (b_nets b1)) (b_msgs b1)))) shuffle) as [o|] eqn:Eb; [|discriminate R].
  injection R as <- <- <-.
  destruct (ops_inv modules dsa_of dsa_known canonical key_for context_of key_hash s0 ops s0 (begin s0) X (inv_begin modules s0 X G)) as (A & B).
  rewrite Ew in A, B. cbn in A, B.
  split; [first [exact Ew|reflexivity]|]. split; [exact A|]. split; [exact B|]. split; [eapply inv_flag_all; eassumption|].
  split; [exact Ef|]. split; [exact Eu|]. split; [|reflexivity].
  exists nets. split; [exact O1|]. eapply build_right; [apply O2|exact O3|exact Eb].
Qed.

Lemma net_after s b out n w : s_net s n = Some w -> exists w', s_net (apply_sections (update s b) b out) n = Some w'
  /\ n_type w' = n_type w /\ n_open w' = n_open w /\ n_sn w' = n_sn w
  /\ n_last w' = match (if existsb (Z.eqb n) (b_nets b) then section_for out n else None) with Some x => Some (ns_hash x) | None => n_last w end
  /\ n_prev w' = match (if existsb (Z.eqb n) (b_nets b) then section_for out n else None) with Some x => n_last w | None => n_prev w end.
Proof.
  intros E. cbn. unfold apply_net. cbn. unfold update_net. rewrite E. destruct (existsb (Z.eqb n) (b_nets b)).
  - destruct (section_for out n); eexists; cbn; repeat split; reflexivity.
  - exists w. repeat split.
Qed.
Lemma no_net_after s b out n : s_net s n = None -> s_net (apply_sections (update s b) b out) n = None.
Proof. intros E. cbn. unfold apply_net. cbn. unfold update_net. now rewrite E. Qed.

Lemma type_after s0 s b out t nt : inv s0 s b -> BtpState.update_ok dsa_of key_for context_of s b = true -> s_type s t = Some nt ->
  exists nt', s_type (apply_sections (update s b) b out) t = Some nt' /\ t_uid nt' = t_uid nt /\ t_open nt' = t_open nt
    /\ (flagged b t = false -> t_pc nt' = t_pc nt)
    /\ (flagged b t = true -> t_open nt = [] -> t_pc nt' = None)
    /\ (flagged b t = true -> t_open nt <> [] -> exists pc, context_of (t_uid nt) (keys_of dsa_of key_for s (t_uid nt)) = Some pc /\ t_pc nt' = Some pc).
Proof. intros V U E. cbn. exact (update_type_spec dsa_of key_for context_of s b t nt E U (v_flag s0 s b V t)). Qed.
Lemma no_type_after s b out t : s_type s t = None -> s_type (apply_sections (update s b) b out) t = None.
Proof. intros E. cbn. unfold update_type. now rewrite E. Qed.
Lemma type_before s0 s b out t nt' : inv s0 s b -> BtpState.update_ok dsa_of key_for context_of s b = true ->
  s_type (apply_sections (update s b) b out) t = Some nt' ->
  exists nt, s_type s t = Some nt /\ t_uid nt' = t_uid nt /\ t_open nt' = t_open nt
    /\ (flagged b t = false -> t_pc nt' = t_pc nt)
    /\ (flagged b t = true -> t_open nt = [] -> t_pc nt' = None)
    /\ (flagged b t = true -> t_open nt <> [] -> exists pc, context_of (t_uid nt) (keys_of dsa_of key_for s (t_uid nt)) = Some pc /\ t_pc nt' = Some pc).
Proof.
  intros V U E. destruct (s_type s t) as [nt|] eqn:Et; [|rewrite (no_type_after s b out t Et) in E; discriminate E].
  destruct (type_after s0 s b out t nt V U Et) as (x & A & B). rewrite E in A. injection A as <-. now exists nt.
Qed.

Lemma parts_struct s0 ops s' b' out s b : parts s0 ops s' b' out s b -> struct modules s' /\ begins_well s'.
Proof.
  intros (_ & X & _ & V & _ & U & _ & ->). split.
  - eapply struct_like; [exact X|reflexivity|reflexivity|reflexivity|reflexivity| | | |].
    + intros t nt E. destruct (type_after s0 s b' out t nt V U E) as (nt' & A & B & C & _). now exists nt'.
    + intros t. apply no_type_after.
    + intros n w E. destruct (net_after s b' out n w E) as (w' & A & B & C & _). now exists w'.
    + intros n. apply no_net_after.
  - intros t nt' E Ho. destruct (type_before s0 s b' out t nt' V U E) as (nt & A & B & C & D & F & _). rewrite C in Ho.
    destruct (flagged b' t) eqn:Ef; [exact (F eq_refl Ho)|]. rewrite (D eq_refl). apply Bool.orb_false_iff in Ef. exact (v_none s0 s b' V t nt A (proj2 Ef) Ho).
Qed.
Lemma fresh_struct s : fresh s -> struct modules s /\ begins_well s.
Proof.
  intros (A & B & C & D & E & F & G). split.
  - split.
    + lia.
    + lia.
    + intros u Hu. exfalso. apply Hu. apply E.
    + intros t nt Ht. rewrite C in Ht. discriminate Ht.
    + intros n w Hn. rewrite A in Hn. discriminate Hn.
    + intros t nt n Ht. rewrite C in Ht. discriminate Ht.
    + intros n w nt Hn. rewrite A in Hn. discriminate Hn.
    + intros t nt Ht. rewrite C in Ht. discriminate Ht.
  - intros t nt Ht. rewrite C in Ht. discriminate Ht.
Qed.
Lemma reaches_struct ok s : reaches ok s -> struct modules s /\ begins_well s.
Proof.
  induction 1 as [s F|s ops s' b out _ (X & G) B _]; [exact (fresh_struct s F)|].
  destruct (block_parts s ops s' b out X G B) as (s1 & b1 & P). exact (parts_struct s ops s' b out s1 b1 P).
Qed.

(** Contexts. *)
Definition contexts_right (s : st) : Prop := forall t nt, s_type s t = Some nt -> t_open nt <> [] ->
  exists pc, right_context s (t_uid nt) = Some pc /\ t_pc nt = Some pc.
Lemma block_contexts s0 ops s' b' out : struct modules s0 -> begins_well s0 -> contexts_right s0 ->
  block s0 ops s' b' out -> settled s0 ops s' -> contexts_right s'.
Proof.
  intros X0 G0 C0 B S. destruct (block_parts s0 ops s' b' out X0 G0 B) as (s & b & P).
  destruct P as (Ew & X & V & V' & Ef & U & _ & ->).
  assert (K : s_validators s = b_validators b -> context_kept dsa_of key_for context_of s b).
  { intros Hv. destruct S as [S|S]; [exfalso; apply S; cbn; rewrite Hv; exact (v_val s0 s b V)|].
    pose proof (ops_kept modules dsa_of dsa_known canonical key_for context_of key_hash s0 ops s0 (begin s0) X0 (inv_begin modules s0 X0 G0)) as Hk.
    cbv zeta in Hk. rewrite Ew in Hk. apply Hk; [|reflexivity|exact S].
    intros t nt Ht _ Ho. destruct (C0 t nt Ht Ho) as (pc & A & A'). eexists. exists pc. split; [exact A|]. split; [exact A'|]. intros a. right. reflexivity. }
  intros t nt' Ht Ho. destruct (type_before s0 s b' out t nt' V' U Ht) as (nt & A & Bu & Co & D & _ & F). rewrite Co in Ho. rewrite Bu.
  destruct (flagged b' t) eqn:Fl; [exact (F eq_refl Ho)|]. rewrite (D eq_refl).
  exact (kept_end modules dsa_of key_for context_of s0 s b b' X V K Ef t nt A Fl Ho).
Qed.
Lemma reaches_contexts s : reaches settled s -> contexts_right s.
Proof.
  induction 1 as [s F|s ops s' b out R C B S].
  - intros t nt Ht. destruct F as (_ & _ & F & _). rewrite F in Ht. discriminate Ht.
  - destruct (reaches_struct settled s R) as (X & G). exact (block_contexts s ops s' b out X G C B S).
Qed.

(** Sections. *)
Lemma in_calls nets b n : (forall l, Permutation l (nets l)) -> In n (b_nets b) -> In (Ensure n) (calls_of (nets (b_nets b)) (b_msgs b)).
Proof. intros P Hi. unfold calls_of. apply in_or_app. left. apply in_map. eapply Permutation_in; [apply P|exact Hi]. Qed.
Lemma calls_in nets b n : (forall l, Permutation l (nets l)) -> In n (map network_of (calls_of (nets (b_nets b)) (b_msgs b))) -> In n (b_nets b) \/ In n (map fst (b_msgs b)).
Proof.
  intros P Hi. unfold calls_of in Hi. rewrite map_app, !map_map in Hi. cbn in Hi. rewrite map_id in Hi. apply in_app_or in Hi.
  destruct Hi as [Hi|Hi]; [left|now right]. eapply Permutation_in; [apply Permutation_sym, P|exact Hi].
Qed.
Lemma sent_calls n nets msgs : sent_to n (calls_of nets msgs) = messages_to n msgs.
Proof.
  unfold calls_of, sent_to, messages_to. rewrite flat_map_app.
  assert (E : flat_map (fun c : call => match c with Send n0 m => if n0 =? n then [m] else [] | Ensure _ => [] end) (map Ensure nets) = []) by (induction nets; cbn; auto).
  rewrite E. cbn. induction msgs as [|[m x] r IH]; cbn; [reflexivity|]. destruct (m =? n); cbn; now rewrite IH.
Qed.

(** A network of the block has a section. *)
Lemma has_section s0 s b nets out n w : inv s0 s b -> BtpState.update_ok dsa_of key_for context_of s b = true ->
  (forall l, Permutation l (nets l)) -> sections_of H pc_hash (view_of (update s b)) (calls_of (nets (b_nets b)) (b_msgs b)) out ->
  In n (b_nets b) -> s_net s n = Some w -> (exists nt, s_type s (n_type w) = Some nt) ->
  exists x y, In x out /\ nts_id x = n_type w /\ In y (nts_sections x) /\ ns_nid y = n
    /\ context_changed y = match n_last w with Some (_ :: _) => flagged b (n_type w) | _ => true end
    /\ ns_messages y = messages_to n (b_msgs b) /\ ns_prev y = n_last w.
Proof.
  intros V U P (S1 & S2 & S3) Hi Hw (nt & Ht).
  pose proof (in_calls nets b n P Hi) as Hc. destruct (S2 _ Hc) as (nw & Hv & Hx). cbn [network_of] in Hv.
  assert (Hbit : existsb (Z.eqb n) (b_nets b) = true) by (apply existsb_exists; exists n; split; [exact Hi|apply Z.eqb_refl]).
  assert (Hnw : nw = mk_nw (n_type w) (n_sn w) (match n_last w with Some (_ :: _) => flagged b (n_type w) | _ => true end) (n_last w)).
  { cbn in Hv. unfold update_net in Hv. rewrite Hw, Hbit in Hv. cbn in Hv. now injection Hv as <-. }
  subst nw. cbn [nw_type] in Hx. apply in_map_iff in Hx. destruct Hx as (x & Ex & Hx).
  destruct (S3 x Hx) as (_ & _ & C & _).
  destruct (update_type_spec dsa_of key_for context_of s b _ nt Ht U (v_flag s0 s b V _)) as (nt' & T & _).
  set (nw := mk_nw (n_type w) (n_sn w) (match n_last w with Some (_ :: _) => flagged b (n_type w) | _ => true end) (n_last w)) in *.
  set (calls := calls_of (nets (b_nets b)) (b_msgs b)) in *.
  exists x, (new_section H n nw (sent_to n calls) (t_uid nt')). split; [exact Hx|]. split; [exact Ex|]. split.
  - apply C. exists n, nw, (mk_nt (t_uid nt') (t_pc nt')). repeat split.
    + apply in_map_iff. exists (Ensure n). now split.
    + exact Hv.
    + now symmetry.
    + rewrite Ex. cbn. unfold update_type in *. cbn in *. rewrite T. reflexivity.
  - split; [reflexivity|]. split; [apply context_changed_new|]. split; [|reflexivity]. unfold calls. cbn [new_section ns_messages]. apply sent_calls.
Qed.

(** And a section is that of a network of the block. *)
Lemma of_section s b nets out x y : (forall l, Permutation l (nets l)) -> sections_of H pc_hash (view_of (update s b)) (calls_of (nets (b_nets b)) (b_msgs b)) out ->
  (forall n, In n (map fst (b_msgs b)) -> In n (b_nets b)) ->
  In x out -> In y (nts_sections x) -> exists w, In (ns_nid y) (b_nets b) /\ s_net s (ns_nid y) = Some w /\ n_type w = nts_id x
    /\ context_changed y = match n_last w with Some (_ :: _) => flagged b (n_type w) | _ => true end
    /\ ns_messages y = messages_to (ns_nid y) (b_msgs b) /\ ns_prev y = n_last w
    /\ (blen (ns_messages y) <= n_sn w < 2 ^ 62 -> first_sn y + blen (ns_messages y) = n_sn w).
Proof.
  intros P (S1 & S2 & S3) Hm Hx Hy. destruct (S3 x Hx) as (_ & _ & C & _). apply C in Hy. destruct Hy as (n & nw & nt & Hn & Hv & Ht & _ & ->).
  assert (Hi : In n (b_nets b)) by (destruct (calls_in nets b n P Hn); auto).
  assert (Hbit : existsb (Z.eqb n) (b_nets b) = true) by (apply existsb_exists; exists n; split; [exact Hi|apply Z.eqb_refl]).
  cbn [ns_nid new_section]. cbn in Hv. unfold update_net in Hv. destruct (s_net s n) as [w|] eqn:Ew; [|discriminate Hv]. rewrite Hbit in Hv. injection Hv as <-.
  cbn [nw_type] in Ht. exists w. split; [exact Hi|]. split; [reflexivity|]. split; [exact Ht|]. split; [apply (context_changed_new H)|].
  split; [cbn [ns_messages]; apply sent_calls|]. split; [reflexivity|].
  intros L. match goal with |- first_sn (new_section H n ?nw ?ms ?u) + _ = _ =>
    destruct (section_numbers H u n nw ms L) as (_ & A & _); eapply eq_trans; [apply (f_equal2 Z.add); [exact A|reflexivity]|];
    change (n_sn w - blen ms + blen ms = n_sn w) end. lia.
Qed.
End With.
