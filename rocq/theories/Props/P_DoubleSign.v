(** C79: double signs.

    Source: /repo/consensus/doublesigndata.go, /repo/consensus/dsmlog.go,
    /repo/common/cache/costerrandom.go, /repo/service/dsrmanager.go. *)
From Verif Require Import Model.Bytes Model.DoubleSign Spec.DoubleSignSpec Proof.DoubleSignFacts Proof.DoubleSignReports.
From Coq Require Import Lia Permutation Sorting.Sorted.
Open Scope Z_scope.

(** The log never panics, whatever messages come and whatever is evicted, and
    each report has two messages that came, the first before the second, that
    were signed twice. *)
Theorem C79_evidence vhash phash signer nid_app nid_bid cost cap l : 0 <= cap ->
  exists c reps, log_all vhash phash signer nid_app nid_bid cost (new_cache cap) l = Some (c, reps)
  /\ c_sum c <= cap
  /\ forall m1 m2, In (m1, m2) reps -> double_signed vhash phash signer m1 m2
       /\ exists l1 r l2, l = l1 ++ (m2, r) :: l2 /\ In m1 (map fst l1).
Proof.
  intros P. destruct (log_all_ok vhash phash signer nid_app nid_bid cost l _ [] (known_new vhash phash signer cost cap P)) as (c & reps & A & B).
  exists c, reps. split; [exact A|]. split; [|].
  - revert A. assert (K : known vhash phash signer cost (new_cache cap) []) by now apply known_new.
    assert (Cap : c_cap (new_cache cap) = cap) by reflexivity. revert K Cap. generalize (new_cache cap) as c0. generalize (@nil msg) as seen. clear B P. revert reps.
    induction l as [|[m r] l IH]; intros reps seen c0 K Cap A.
    + cbn in A. injection A as <- _. destruct K as (_ & S & _). lia.
    + destruct (log_step vhash phash signer nid_app nid_bid cost r c0 m seen K) as (c1 & rep & A1 & K1 & Cap1 & _). cbn [log_all] in A. rewrite A1 in A.
      destruct (log_all vhash phash signer nid_app nid_bid cost c1 l) as [[c2 reps']|] eqn:E; [|discriminate]. injection A as <- _.
      apply (IH reps' _ c1 K1); [now rewrite Cap1|exact E].
  - intros m1 m2 H. destruct (B _ H) as (C & l1 & r & l2 & E & I). split; [exact (conflict_true _ _ _ _ _ _ _ C)|]. exists l1, r, l2. auto.
Qed.
Print Assumptions C79_evidence.

(** A signer that signs one thing only for each turn is never reported. *)
Theorem C79_honest vhash phash signer nid_app nid_bid cost cap l a c reps : 0 <= cap ->
  (forall m1 m2, In m1 (map fst l) -> In m2 (map fst l) -> signer_of vhash phash signer m1 = a -> signer_of vhash phash signer m2 = a ->
     same_turn m1 m2 -> hash_of vhash phash m1 = hash_of vhash phash m2) ->
  log_all vhash phash signer nid_app nid_bid cost (new_cache cap) l = Some (c, reps) ->
  forall m1 m2, In (m1, m2) reps -> signer_of vhash phash signer m1 <> a /\ signer_of vhash phash signer m2 <> a.
Proof.
  intros P H E m1 m2 Hi. destruct (C79_evidence vhash phash signer nid_app nid_bid cost cap l P) as (c' & reps' & E' & _ & Q). rewrite E' in E. injection E as -> ->.
  destruct (Q m1 m2 Hi) as ((D1 & D2 & D3) & l1 & r & l2 & El & I). assert (N : signer_of vhash phash signer m1 <> a).
  { intros S. apply D3. apply H; [rewrite El, map_app; apply in_or_app; now left|rewrite El, map_app; apply in_or_app; right; now left|exact S|congruence|exact D1]. }
  split; [exact N|congruence].
Qed.
Print Assumptions C79_honest.

(** With room for all messages, everyone who signed twice is reported, in any
    order of the messages. *)
Theorem C79_found vhash phash signer nid_app nid_bid cost cap l n m1 m2 c reps :
  (forall m, 0 <= cost m) -> total_cost cost (map fst l) <= cap -> proposals_of n (map fst l) ->
  In m1 (map fst l) -> In m2 (map fst l) -> double_signed vhash phash signer m1 m2 ->
  log_all vhash phash signer nid_app nid_bid cost (new_cache cap) l = Some (c, reps) ->
  exists r1 r2, In (r1, r2) reps /\ same_turn r2 m1 /\ signer_of vhash phash signer r2 = signer_of vhash phash signer m1.
Proof.
  intros Cp T Nn H1 H2 (D1 & D2 & D3) E.
  assert (P : 0 <= cap).
  { assert (0 <= total_cost cost (map fst l)); [|lia]. clear -Cp. induction (map fst l) as [|x y IH]; cbn; [lia|]. specialize (Cp x). lia. }
  destruct (log_all_found vhash phash signer nid_app nid_bid cost Cp l (new_cache cap) [] [] (known_new vhash phash signer cost cap P)) as (c' & reps' & E' & Q).
  - cbn [app]. intros [?|b1 s1] [?|b2 s2] A B; cbn; auto. destruct (Nn b1 s1 A) as [->| ->]; [reflexivity|]. destruct (Nn b2 s2 B) as [->| ->]; [|apply match_self].
    unfold match_nid. rewrite Z.eqb_refl, Bool.orb_true_r. reflexivity.
  - cbn. exact T.
  - intros m [].
  - rewrite E' in E. injection E as -> ->. cbn [app] in Q.
    assert (K : key_of vhash phash signer m1 = key_of vhash phash signer m2).
    { destruct m1 as [b1 s1 e1|b1 s1], m2 as [b2 s2 e2|b2 s2]; cbn [same_turn] in D1; try contradiction; cbn [key_of].
      - destruct D1 as (-> & -> & ->). now rewrite D2.
      - destruct D1 as (-> & ->). now rewrite D2. }
    assert (Tell : forall m, key_of vhash phash signer m = key_of vhash phash signer m1 -> told vhash phash signer reps m ->
      exists r1 r2, In (r1, r2) reps /\ same_turn r2 m1 /\ signer_of vhash phash signer r2 = signer_of vhash phash signer m1).
    { intros m Km ([r1 r2] & Hp & Ek). cbn [snd] in Ek. exists r1, r2. split; [exact Hp|]. rewrite Km in Ek. clear -Ek.
      destruct r2 as [b s e|b s], m1 as [b1 s1 e1|b1 s1]; cbn [key_of] in Ek; try discriminate Ek; injection Ek; cbn [same_turn]; intros; repeat split; congruence. }
    destruct (Q m1 H1) as (o1 & O1 & [R1|R1]); [|now apply (Tell m1)]. destruct (Q m2 H2) as (o2 & O2 & [R2|R2]); [|apply (Tell m2); [now symmetry|exact R2]].
    rewrite <- K, O1 in O2. injection O2 as <-. exfalso. apply D3. congruence.
Qed.
Print Assumptions C79_found.

(** Two proposals of one turn of two networks are no double sign. *)
Theorem C79_networks vhash phash signer nid_app nid_bid b1 s1 b2 s2 :
  p_nid b1 <> 0 -> p_nid b2 <> 0 -> p_nid b1 <> p_nid b2 ->
  conflict vhash phash signer nid_app nid_bid (Prop_ b1 s1) (Prop_ b2 s2) = false.
Proof.
  intros N1 N2 N. cbn [conflict]. unfold match_nid. destruct (Z.eqb_spec (p_nid b1) 0); [contradiction|]. destruct (Z.eqb_spec (p_nid b2) 0); [contradiction|].
  cbn [orb]. destruct (Z.eqb_spec (p_nid b1) (p_nid b2)); [contradiction|reflexivity].
Qed.
Print Assumptions C79_networks.

(** Finding: two votes of one turn of two networks are one, for all votes,
    whatever their networks: one who has the same key on two networks is accused. *)
Theorem C79_violated_networks vhash phash signer nid_app nid_bid b1 s1 e1 b2 s2 e2 :
  double_signed vhash phash signer (Vote b1 s1 e1) (Vote b2 s2 e2) ->
  conflict vhash phash signer nid_app nid_bid (Vote b1 s1 e1) (Vote b2 s2 e2) = true.
Proof.
  intros ((E1 & E2 & E3) & Es & Eh). cbn [conflict]. rewrite match_self, E1, E2, E3, !Z.eqb_refl. cbn [negb orb]. rewrite Es, bytes_eqb_refl. cbn [negb].
  destruct (bytes_eqb _ _) eqn:E; [|reflexivity]. apply bytes_eqb_eq in E. contradiction.
Qed.
Print Assumptions C79_violated_networks.

(** The manager of reports, after any operations: each name once; a report is a
    candidate only if it was added with messages that conflict, its height is
    known to the chain and not above the block, and it is not yet in a block; what
    was committed is never a candidate again. *)
Theorem C79_reports l has first height :
  let g := manager_after l in
  let cs := candidates g has first height in
  NoDup (map name_of cs)
  /\ (forall r, In r cs -> In (Add true (r_height r) (Some (r_signer r)) (r_data r)) l
        /\ first <= r_height r <= height /\ has (r_height r) (r_signer r) = false
        /\ ~ committed l (r_height r) (r_signer r)).
Proof.
  intros g cs. destruct (clean_after l) as [I1 I2 I3 I4 I5 I6 I7 I8]. fold g in I1, I2, I3, I4, I5, I6, I7, I8. split.
  - unfold cs, candidates. now apply filter_nodup.
  - intros r Hr. unfold cs, candidates in Hr. apply filter_In in Hr. destruct Hr as [Hr F]. apply andb_prop in F. destruct F as [F1 F2].
    apply Bool.negb_true_iff in F1, F2. apply Bool.orb_false_iff in F1. destruct F1 as [F1 F3]. apply Z.ltb_ge in F1, F3.
    split; [now apply I6|]. split; [lia|]. split; [exact F2|]. intros C. destruct (I4 _ _ C) as [H|H]; [|specialize (I7 r Hr); lia].
    apply (I3 (name_of r)); [apply in_map_iff; now exists r|exact H].
Qed.
Print Assumptions C79_reports.

(** They are offered in order of their heights. *)
Theorem C79_order l has first height : StronglySorted (fun a b => r_height a <= r_height b) (candidates (manager_after l) has first height).
Proof. exact (filter_asc _ _ (asc_after l)). Qed.
Print Assumptions C79_order.

(** A report that was taken is a candidate until it is committed or too old. *)
Theorem C79_reported l1 h s d l2 has first height :
  let l := l1 ++ Add true h (Some s) d :: l2 in
  0 <= g_first (manager_after l1) <= h -> g_first (manager_after l) <= h -> ~ committed l h s ->
  first <= h <= height -> has h s = false ->
  In (h, s) (map name_of (candidates (manager_after l) has first height)).
Proof.
  intros l F1 F2 N R Hs. pose proof (waits l1 h s d l2 F1 N F2) as W. apply in_map_iff in W. destruct W as (r & E & Hr). apply in_map_iff. exists r. split; [exact E|].
  unfold candidates. apply filter_In. split; [exact Hr|]. unfold name_of in E. injection E as -> ->. rewrite Hs.
  destruct (Z.ltb_spec h first); [lia|]. destruct (Z.ltb_spec height h); [lia|]. reflexivity.
Qed.
Print Assumptions C79_reported.

(** Finding: with a proposal that is not of the network first, two proposals of
    one turn and network are not found. *)
Definition hv (b : vote_body) : bytes := [v_type b; v_height b; v_round b; v_ts b; match v_bps b with Some (_, a) => a | None => 0 end] ++ v_bid b.
Definition hp (b : prop_body) : bytes := [p_height b; p_round b; p_pol b; p_nid b] ++ p_bps b.
Definition sg (_ sig : bytes) : bytes := sig.
Definition one : msg -> Z := fun _ => 1.
Theorem C79_violated_first : exists l m1 m2 c,
  double_signed hv hp sg m1 m2 /\ conflict hv hp sg (fun x => x) (fun _ => 0) m1 m2 = true /\ In m1 (map fst l) /\ In m2 (map fst l)
  /\ total_cost one (map fst l) <= 100 /\ log_all hv hp sg (fun x => x) (fun _ => 0) one (new_cache 100) l = Some (c, []).
Proof.
  exists [(Prop_ (mk_prop_body 5 0 [1] (-1) 7) [9], fun _ => O); (Prop_ (mk_prop_body 5 0 [1] (-1) 3) [9], fun _ => O); (Prop_ (mk_prop_body 5 0 [2] (-1) 3) [9], fun _ => O)],
    (Prop_ (mk_prop_body 5 0 [1] (-1) 3) [9]), (Prop_ (mk_prop_body 5 0 [2] (-1) 3) [9]). eexists.
  split; [repeat split; discriminate|]. split; [reflexivity|]. split; [right; now left|]. split; [right; right; now left|]. split; [vm_compute; discriminate|]. cbn. reflexivity.
Qed.
Print Assumptions C79_violated_first.

(** Non-triviality: votes of two networks at one turn, a repeated vote, another
    signer; a small cache that evicts; reports that wait, are committed, get old. *)
Definition vote (h : Z) (bid : bytes) (net : Z) (sig : bytes) : msg := Vote (mk_vote_body 1 h 0 bid (Some ([8], net)) 0) sig 0.
Example ex_two : double_signed hv hp sg (vote 5 [1] 3 [9]) (vote 5 [1] 4 [9]).
Proof. repeat split; discriminate. Qed.
Example ex_log : exists c, log_all hv hp sg (fun x => x) (fun _ => 0) one (new_cache 100)
  [(vote 5 [1] 3 [9], fun _ => O); (vote 5 [2] 3 [7], fun _ => O); (vote 5 [1] 3 [9], fun _ => O); (vote 5 [2] 3 [9], fun _ => O)]
  = Some (c, [(vote 5 [1] 3 [9], vote 5 [2] 3 [9])]).
Proof. eexists. cbn. reflexivity. Qed.
Example ex_evict : match log_all hv hp sg (fun x => x) (fun _ => 0) one (new_cache 2)
  [(vote 5 [1] 3 [9], fun _ => O); (vote 6 [2] 3 [9], fun _ => O); (vote 7 [1] 3 [9], fun _ => O); (vote 5 [2] 3 [9], fun _ => O)] with
  | Some (c, reps) => reps = [] /\ c_sum c = 2 /\ length (c_keys c) = 2%nat | None => False end.
Proof. vm_compute. repeat split. Qed.
Definition d0 : msg * msg := (vote 5 [1] 3 [9], vote 5 [2] 3 [9]).
Definition some_ops : list op := [Finalize (Some 3); Add true 8 (Some [9]) d0; Add true 5 (Some [9]) d0; Add true 5 (Some [9]) d0; Add false 6 (Some [9]) d0; Add true 2 (Some [9]) d0; Add true 6 (Some [7]) d0; Commit [(6, [7]); (4, [1])]].
Example ex_candidates : map name_of (candidates (manager_after some_ops) (fun _ _ => false) 3 9) = [(5, [9]); (8, [9])].
Proof. reflexivity. Qed.
Example ex_waits : 0 <= g_first (manager_after [Finalize (Some 3)]) <= 8 /\ g_first (manager_after some_ops) <= 8.
Proof. vm_compute. repeat split; discriminate. Qed.
