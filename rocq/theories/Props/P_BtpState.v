(** C77: the BTP state over the blocks of a chain. *)
From Verif Require Import Model.Bytes Model.IntCodec Model.BtpSection Spec.BtpSectionSpec Model.BtpState Spec.BtpStateSpec
  Proof.BtpSectionBuild Proof.BtpStateFacts Proof.BtpStateBlock Proof.BtpStateMain.
From Coq Require Import Lia Sorting.Permutation.
Open Scope Z_scope.

(** With one DSA, which the code has, no two addresses ever have the same public key. *)
Theorem C77_keys : forall modules dsa_of dsa_known canonical key_for context_of key_hash H pc_hash ok s,
  (forall a b, dsa_known a = true -> dsa_known b = true -> a = b) ->
  reaches modules dsa_of dsa_known canonical key_for context_of key_hash H pc_hash ok s ->
  forall a a' name name' k, s_key s a name = Some k -> s_key s a' name' = Some k -> a = a' /\ name = name'.
Proof.
  intros m d dk c kf co kh H ph ok s One R a a' name name' k E E'.
  pose proof (reaches_owned _ _ _ _ _ _ _ _ _ ok s One R) as K.
  destruct (K a name k E) as (A & B). destruct (K a' name' k E') as (A' & B'). rewrite B in B'. injection B' as ->.
  split; [reflexivity|exact (One name name' A A')].
Qed.
Print Assumptions C77_keys.

(** So the seats of a proof context have distinct keys, as C76 needs, if the
    validators are distinct and so are their keys in the module. *)
Theorem C77_distinct : forall modules dsa_of dsa_known canonical key_for context_of key_hash H pc_hash ok s uid,
  (forall a b, dsa_known a = true -> dsa_known b = true -> a = b) ->
  (forall k k' x, key_for uid k = Some x -> key_for uid k' = Some x -> k = k') ->
  reaches modules dsa_of dsa_known canonical key_for context_of key_hash H pc_hash ok s ->
  NoDup (s_validators s) ->
  forall i j x, nth_error (keys_of dsa_of key_for s uid) i = Some (Some x) -> nth_error (keys_of dsa_of key_for s uid) j = Some (Some x) -> i = j.
Proof.
  intros m d dk c kf co kh H ph ok s uid One Inj R Nd i j x Ei Ej. unfold keys_of in *.
  rewrite nth_error_map in Ei, Ej. destruct (nth_error (s_validators s) i) as [a|] eqn:Ai; [|discriminate Ei].
  destruct (nth_error (s_validators s) j) as [a'|] eqn:Aj; [|discriminate Ej]. cbn in Ei, Ej. injection Ei as Ei. injection Ej as Ej.
  unfold key_of in Ei, Ej. destruct (s_key s a (d uid)) as [k|] eqn:K; [|discriminate Ei]. destruct (s_key s a' (d uid)) as [k'|] eqn:K'; [|discriminate Ej].
  pose proof (Inj k k' x Ei Ej) as <-.
  destruct (C77_keys m d dk c kf co kh H ph ok s One R a a' (d uid) (d uid) k K K') as (-> & _).
  apply (proj1 (NoDup_nth_error (s_validators s)) Nd); [apply nth_error_Some; rewrite Ai; discriminate|now rewrite Ai, Aj].
Qed.
Print Assumptions C77_distinct.

(** A network type with open networks has the proof context of the keys its
    validators have, if each block that set validators left others than it found. *)
Theorem C77_contexts : forall modules dsa_of dsa_known canonical key_for context_of key_hash H pc_hash s t nt,
  reaches modules dsa_of dsa_known canonical key_for context_of key_hash H pc_hash settled s ->
  s_type s t = Some nt -> t_open nt <> [] ->
  exists pc, right_context dsa_of key_for context_of s (t_uid nt) = Some pc /\ t_pc nt = Some pc.
Proof. intros m d dk c kf co kh H ph s t nt R. exact (reaches_contexts _ _ _ _ _ _ _ _ _ s R t nt). Qed.
Print Assumptions C77_contexts.

(** A type without open networks has none, one with open networks has one, in any chain. *)
Theorem C77_closed : forall modules dsa_of dsa_known canonical key_for context_of key_hash H pc_hash ok s t nt,
  reaches modules dsa_of dsa_known canonical key_for context_of key_hash H pc_hash ok s ->
  s_type s t = Some nt -> (t_pc nt = None <-> t_open nt = []).
Proof.
  intros m d dk c kf co kh H ph ok s t nt R E. split.
  - intros Hp. destruct (t_open nt) as [|n r] eqn:Eo; [reflexivity|]. exfalso.
    apply (reaches_open_has _ _ _ _ _ _ _ _ _ ok s R t nt E); [rewrite Eo; discriminate|exact Hp].
  - exact (proj2 (reaches_struct _ _ _ _ _ _ _ _ _ ok s R) t nt E).
Qed.
Print Assumptions C77_closed.

(** The open networks of a type are the networks of that type that are open, each once,
    and a module has one type at most. *)
Theorem C77_networks : forall modules dsa_of dsa_known canonical key_for context_of key_hash H pc_hash ok s,
  reaches modules dsa_of dsa_known canonical key_for context_of key_hash H pc_hash ok s ->
  (forall t nt, s_type s t = Some nt ->
     NoDup (t_open nt) /\ (forall n, In n (t_open nt) <-> exists w, s_net s n = Some w /\ n_open w = true /\ n_type w = t))
  /\ (forall n w, s_net s n = Some w -> exists nt, s_type s (n_type w) = Some nt)
  /\ (forall t t' nt nt', s_type s t = Some nt -> s_type s t' = Some nt' -> t_uid nt = t_uid nt' -> t = t')
  /\ (forall t nt, s_type s t = Some nt -> In t (s_active s) /\ In (t_uid nt) modules).
Proof.
  intros m d dk c kf co kh H ph ok s R. destruct (reaches_struct _ _ _ _ _ _ _ _ _ ok s R) as (X & _).
  split; [|split; [|split]].
  - intros t nt E. split; [exact (x_nodup m s X t nt E)|]. intros n. split.
    + intros Hn. destruct (x_open m s X t nt n E Hn) as (w & A & B & C). now exists w.
    + intros (w & A & B & C). subst t. exact (x_in m s X n w nt A B E).
  - intros n w E. exact (proj2 (x_net m s X n w E)).
  - intros t t' nt nt' E E' Eu. destruct (x_type m s X t nt E) as (_ & A & _). destruct (x_type m s X t' nt' E') as (_ & A' & _). congruence.
  - intros t nt E. destruct (x_type m s X t nt E) as (A & _ & B & _). now split.
Qed.
Print Assumptions C77_networks.

(** When the context of a type is another one after a block, each of its open
    networks has a section that says so. *)
Theorem C77_sections : forall modules dsa_of dsa_known canonical key_for context_of key_hash H pc_hash ok s ops s' b out t nt n,
  reaches modules dsa_of dsa_known canonical key_for context_of key_hash H pc_hash ok s ->
  block modules dsa_of dsa_known canonical key_for context_of key_hash H pc_hash s ops s' b out ->
  s_type s' t = Some nt -> In n (t_open nt) -> context_in s' t <> context_in s t ->
  exists x y, In x out /\ nts_id x = t /\ In y (nts_sections x) /\ ns_nid y = n /\ context_changed y = true /\ nts_changed x = true.
Proof. intros. eapply changed_section; eassumption. Qed.
Print Assumptions C77_sections.

(** The sections of a network make a chain: each has the hash of the one before,
    all the messages since, and the sequence numbers that follow. *)
Theorem C77_chain : forall modules dsa_of dsa_known canonical key_for context_of key_hash H pc_hash ok s ops s' b out x y,
  reaches modules dsa_of dsa_known canonical key_for context_of key_hash H pc_hash ok s ->
  block modules dsa_of dsa_known canonical key_for context_of key_hash H pc_hash s ops s' b out ->
  In x out -> In y (nts_sections x) ->
  ns_prev y = last_in s (ns_nid y) /\ last_in s' (ns_nid y) = Some (ns_hash y)
  /\ ns_messages y = messages_to (ns_nid y) (b_msgs b)
  /\ sn_in s' (ns_nid y) = sn_in s (ns_nid y) + blen (ns_messages y)
  /\ (0 <= sn_in s (ns_nid y) -> sn_in s' (ns_nid y) < 2 ^ 62 -> first_sn y = sn_in s (ns_nid y)).
Proof. intros. eapply link_section; eassumption. Qed.
Print Assumptions C77_chain.
Theorem C77_idle : forall modules dsa_of dsa_known canonical key_for context_of key_hash H pc_hash ok s ops s' b out n,
  reaches modules dsa_of dsa_known canonical key_for context_of key_hash H pc_hash ok s ->
  block modules dsa_of dsa_known canonical key_for context_of key_hash H pc_hash s ops s' b out ->
  (forall x y, In x out -> In y (nts_sections x) -> ns_nid y <> n) ->
  last_in s' n = last_in s n /\ sn_in s' n = sn_in s n /\ messages_to n (b_msgs b) = [].
Proof. intros. eapply idle_network; eassumption. Qed.
Print Assumptions C77_idle.

(** The contexts that consensus brings forward from sections are those of the state. *)
Theorem C77_follow : forall modules dsa_of dsa_known canonical key_for context_of key_hash H pc_hash ok s ops s' b out t,
  reaches modules dsa_of dsa_known canonical key_for context_of key_hash H pc_hash ok s ->
  block modules dsa_of dsa_known canonical key_for context_of key_hash H pc_hash s ops s' b out ->
  update_contexts (contexts_of s) s' b out t = contexts_of s' t.
Proof. intros. eapply contexts_follow; eassumption. Qed.
Print Assumptions C77_follow.

(** In whatever order the maps are walked, the block has the same result. *)
Lemma after_perm l l' msgs : Permutation l l' -> Permutation (after (calls_of l msgs)) (after (calls_of l' msgs)).
Proof.
  intros P. destruct (entries_ok (calls_of l msgs)) as (D & K & M). destruct (entries_ok (calls_of l' msgs)) as (D' & K' & M').
  assert (N : forall n, In n (map network_of (calls_of l msgs)) <-> In n (map network_of (calls_of l' msgs))).
  { intros n. unfold calls_of. rewrite !map_app, !map_map. cbn. rewrite !map_id, !in_app_iff.
    split; (intros [Hi|Hi]; [left|now right]); [exact (Permutation_in n P Hi)|exact (Permutation_in n (Permutation_sym P) Hi)]. }
  assert (S : forall n, sent_to n (calls_of l msgs) = sent_to n (calls_of l' msgs)) by (intros n; now rewrite !sent_calls).
  apply NoDup_Permutation; [exact (NoDup_map_inv _ _ D)|exact (NoDup_map_inv _ _ D')|].
  intros [n ms]. split; intros Hi.
  - assert (Hk : In n (map fst (after (calls_of l' msgs)))) by (apply K', N, K, in_map_iff; now exists (n, ms)).
    apply in_map_iff in Hk. destruct Hk as ([n' ms'] & E & Hi'). cbn in E. subst n'. rewrite (M n ms Hi), S, <- (M' n ms' Hi'). exact Hi'.
  - assert (Hk : In n (map fst (after (calls_of l msgs)))) by (apply K, N, K', in_map_iff; now exists (n, ms)).
    apply in_map_iff in Hk. destruct Hk as ([n' ms'] & E & Hi'). cbn in E. subst n'. rewrite (M' n ms Hi), <- S, <- (M n ms' Hi'). exact Hi'.
Qed.
Theorem C77_same : forall modules dsa_of dsa_known canonical key_for context_of key_hash H pc_hash s ops nets walk shuffle nets' walk' shuffle',
  orders nets walk shuffle -> orders nets' walk' shuffle' ->
  run_block modules dsa_of dsa_known canonical key_for context_of key_hash H pc_hash s ops nets walk shuffle
  = run_block modules dsa_of dsa_known canonical key_for context_of key_hash H pc_hash s ops nets' walk' shuffle'.
Proof.
  intros m d dk c kf co kh H ph s ops nets walk sh nets' walk' sh' (P1 & P2 & P3) (Q1 & Q2 & Q3).
  unfold run_block. cbv zeta. unfold finish.
  destruct (flag_all _ _ _) as [b|]; [|reflexivity]. destruct (update_ok _ _ _ _ b); [|reflexivity]. cbv zeta.
  set (e := after (calls_of (nets (b_nets b)) (b_msgs b))). set (e' := after (calls_of (nets' (b_nets b)) (b_msgs b))).
  assert (Pe : Permutation e e').
  { apply after_perm. eapply Permutation_trans; [apply Permutation_sym, P1|apply Q1]. }
  rewrite (build_same H ph _ (walk e) (walk' e') sh sh'); [reflexivity| | |exact P3|exact Q3].
  - eapply Permutation_NoDup; [apply Permutation_map, P2|]. apply (entries_ok (calls_of (nets (b_nets b)) (b_msgs b))).
  - eapply Permutation_trans; [apply Permutation_sym, P2|]. eapply Permutation_trans; [exact Pe|apply Q2].
Qed.
Print Assumptions C77_same.

(** A concrete chain. *)
Definition ex_modules : list bytes := [[1]; [2]].
Definition ex_dsa_of (_ : bytes) : Z := 1.
Definition ex_known (name : Z) : bool := name =? 1.
Definition ex_canonical (_ : Z) (k : bytes) : option bytes := Some k.
Definition ex_key_for (_ k : bytes) : option bytes := Some k.
Definition ex_context (uid : bytes) (l : list (option bytes)) : option bytes :=
  Some (uid ++ concat (map (fun k => match k with Some k => 7 :: k | None => [0] end) l)).
Definition ex_hash (k : bytes) : bytes := k.
Definition ex_H (uid b : bytes) : bytes := uid ++ b.
Definition ex_pc_hash (uid : bytes) (pc : option bytes) : option (option bytes) := Some pc.
Definition ex_start (l : list Z) : st := mk_st (fun _ => None) 0 (fun _ => None) 0 (fun _ => 0) [] (fun _ _ => None) (fun _ => None) [] l.
Definition ex_run (s : st) (ops : list op) : option (st * blk * list type_section) :=
  run_block ex_modules ex_dsa_of ex_known ex_canonical ex_key_for ex_context ex_hash ex_H ex_pc_hash s ops (fun l => l) (fun m => m) (fun m => m).
Notation ex_reaches := (reaches ex_modules ex_dsa_of ex_known ex_canonical ex_key_for ex_context ex_hash ex_H ex_pc_hash).
Notation ex_block := (block ex_modules ex_dsa_of ex_known ex_canonical ex_key_for ex_context ex_hash ex_H ex_pc_hash).
Lemma ex_fresh l : fresh (ex_start l).
Proof. repeat split. Qed.
Lemma ex_is_block s ops s' b out : ex_run s ops = Some (s', b, out) -> ex_block s ops s' b out.
Proof. intros E. exists (fun l => l), (fun m => m), (fun m => m). split; [|exact E]. repeat split; intros; apply Permutation_refl. Qed.

(** Keys, a network, messages, another key, another network of the type, a validator less, and all closed. *)
Definition ex_chain : list (list op) :=
  [[SetKey 10 1 [5]; SetKey 11 1 [6]; SetKey 11 1 [5]; Open [1] 99; Open [3] 99; SendTo 99 1 [70]; SendTo 98 1 [71]];
   [SetKey 11 1 [8]; SendTo 99 1 [72]; SendTo 99 1 [73]]; [Open [1] 99; SendTo 99 2 [74]]; [Validators [11]]; [SetKey 10 1 [6]];
   [Close 1; SendTo 99 1 [75]; Close 2]; [Open [1] 97]].
Fixpoint ex_states (s : st) (l : list (list op)) : option (list (st * list type_section)) :=
  match l with
  | [] => Some []
  | ops :: r => match ex_run s ops with
                | Some (s', _, out) => match ex_states s' r with Some rest => Some ((s', out) :: rest) | None => None end
                | None => None
                end
  end.
Definition ex_settled (s : st) (ops : list op) (s' : st) : bool :=
  negb (same_list (s_validators s') (s_validators s)) || forallb (fun o => match o with Validators l => same_list l (s_validators s) | _ => true end) ops.
Fixpoint ex_all_settled (s : st) (l : list (list op)) : bool :=
  match l with
  | [] => true
  | ops :: r => match ex_run s ops with Some (s', _, _) => ex_settled s ops s' && ex_all_settled s' r | None => false end
  end.
Lemma ex_settled_ok s ops s' : ex_settled s ops s' = true -> settled s ops s'.
Proof.
  unfold ex_settled. intros E. apply Bool.orb_true_iff in E. destruct E as [E|E].
  - left. intros Eq. apply same_list_eq in Eq. rewrite Eq in E. discriminate E.
  - right. intros l Hi. rewrite forallb_forall in E. specialize (E _ Hi). cbn in E. now apply same_list_eq.
Qed.
Lemma ex_reaches_all l : forall s x, ex_reaches settled s -> ex_all_settled s l = true ->
  (exists r, ex_states s l = Some r /\ In x (map fst r)) -> ex_reaches settled x.
Proof.
  induction l as [|ops r IH]; intros s x R E (res & Es & Hi); cbn in *.
  - injection Es as <-. destruct Hi.
  - destruct (ex_run s ops) as [[[s' b] out]|] eqn:Er; [|discriminate E]. apply andb_prop in E. destruct E as (E1 & E2).
    assert (R' : ex_reaches settled s') by (eapply r_block; [exact R|exact (ex_is_block _ _ _ _ _ Er)|exact (ex_settled_ok _ _ _ E1)]).
    destruct (ex_states s' r) as [rest|] eqn:Es'; [|discriminate Es]. injection Es as <-. cbn in Hi. destruct Hi as [<-|Hi]; [exact R'|].
    apply (IH s' x R' E2). now exists rest.
Qed.
Definition ex_see (x : st * list type_section) :=
  let s := fst x in
  (match s_type s 1 with Some nt => Some (t_pc nt, t_open nt, right_context ex_dsa_of ex_key_for ex_context s [1]) | None => None end,
   map (fun y => (ns_nid y, first_sn y, context_changed y, ns_messages y)) (flat_map nts_sections (snd x))).
Example ex_chain_settled : ex_all_settled (ex_start [10; 11]) ex_chain = true.
Proof. vm_compute. reflexivity. Qed.
Example ex_chain_states : match ex_states (ex_start [10; 11]) ex_chain with Some r => Some (map ex_see r) | None => None end =
  Some [(Some (Some [1; 7; 5; 7; 6], [1], Some [1; 7; 5; 7; 6]), [(1, 0, true, [[70]])]);
        (Some (Some [1; 7; 5; 7; 8], [1], Some [1; 7; 5; 7; 8]), [(1, 1, true, [[72]; [73]])]);
        (Some (Some [1; 7; 5; 7; 8], [1; 2], Some [1; 7; 5; 7; 8]), [(2, 0, true, [[74]])]);
        (Some (Some [1; 7; 8], [1; 2], Some [1; 7; 8]), [(1, 3, true, []); (2, 1, true, [])]);
        (Some (Some [1; 7; 8], [1; 2], Some [1; 7; 8]), []);
        (Some (None, [], Some [1; 7; 8]), []);
        (Some (Some [1; 7; 8], [3], Some [1; 7; 8]), [(3, 0, true, [])])].
Proof. vm_compute. reflexivity. Qed.

(** A block that sets other validators, opens the first network of a type, and sets
    the validators back leaves the type with the context of the others; the blocks after it do not mend it. *)
Theorem C77_violated_stale : exists s1 b1 out1 s2 b2 out2 nt,
  ex_block (ex_start [10]) [SetKey 10 1 [5]; SetKey 11 1 [6]; Validators [11]; Open [1] 99; Validators [10]] s1 b1 out1
  /\ ex_block s1 [SendTo 99 1 [70]] s2 b2 out2
  /\ s_validators s2 = s_validators (ex_start [10])
  /\ s_type s2 1 = Some nt /\ t_open nt = [1] /\ t_pc nt = Some [1; 7; 6]
  /\ right_context ex_dsa_of ex_key_for ex_context s2 (t_uid nt) = Some [1; 7; 5].
Proof.
  destruct (ex_run (ex_start [10]) [SetKey 10 1 [5]; SetKey 11 1 [6]; Validators [11]; Open [1] 99; Validators [10]]) as [[[s1 b1] out1]|] eqn:E1; [|vm_compute in E1; discriminate E1].
  destruct (ex_run s1 [SendTo 99 1 [70]]) as [[[s2 b2] out2]|] eqn:E2.
  - exists s1, b1, out1, s2, b2, out2, (mk_ntype [1] (Some [1; 7; 6]) [1]).
    split; [exact (ex_is_block _ _ _ _ _ E1)|]. split; [exact (ex_is_block _ _ _ _ _ E2)|].
    vm_compute in E1. injection E1 as <- _ _. vm_compute in E2. injection E2 as <- _ _. vm_compute. repeat split.
  - exfalso. vm_compute in E1. injection E1 as <- _ _. vm_compute in E2. discriminate E2.
Qed.
Print Assumptions C77_violated_stale.

(** With two DSAs the owner of a key is forgotten when it is removed from one of
    them, and another address can set it. *)
Theorem C77_two_dsas : exists s b out,
  block ex_modules ex_dsa_of (fun n => (n =? 1) || (n =? 2)) ex_canonical ex_key_for ex_context ex_hash ex_H ex_pc_hash (ex_start [])
    [SetKey 10 1 [5]; SetKey 10 2 [5]; SetKey 10 2 []; SetKey 11 1 [5]] s b out
  /\ s_key s 10 1 = Some [5] /\ s_key s 11 1 = Some [5].
Proof.
  destruct (run_block ex_modules ex_dsa_of (fun n => (n =? 1) || (n =? 2)) ex_canonical ex_key_for ex_context ex_hash ex_H ex_pc_hash (ex_start [])
    [SetKey 10 1 [5]; SetKey 10 2 [5]; SetKey 10 2 []; SetKey 11 1 [5]] (fun l => l) (fun m => m) (fun m => m)) as [[[s b] out]|] eqn:E; [|vm_compute in E; discriminate E].
  exists s, b, out. split.
  - exists (fun l => l), (fun m => m), (fun m => m). split; [|exact E]. repeat split; intros; apply Permutation_refl.
  - vm_compute in E. injection E as <- _ _. now split.
Qed.
Print Assumptions C77_two_dsas.
