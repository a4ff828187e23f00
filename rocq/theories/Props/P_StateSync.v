(** C73: fetching a state by its hashes. *)
From Verif Require Import Model.Bytes Model.DbKey Model.Mpt Model.MptRun Model.StateSync Spec.TrieSpec Spec.StateSyncSpec Proof.BytesFacts Proof.MptTree Proof.MptStore
  Proof.MptRunFacts Proof.StateSyncFacts Proof.StateSyncInv Proof.StateSyncRun Proof.StateSyncTrie Props.P_PartSet.
Open Scope Z_scope.

(** Whatever is delivered, by whomever: a value in the store was there before, or it was delivered and is kept under its hash. *)
Theorem C73_under_hash calcHash account_refs api_ok b l bk k v :
  s_get (b_store (deliver calcHash account_refs api_ok b l)) bk k = Some v ->
  s_get (b_store b) bk k = Some v \/ (calcHash v = k /\ exists id, In (id, v) l).
Proof. apply deliver_sound. Qed.
Print Assumptions C73_under_hash.

(** Data that nobody has asked for is refused and changes nothing; data that is asked for goes to the buckets it was asked for. *)
Theorem C73_unasked calcHash account_refs api_ok b id v :
  (forall r, In r (b_requests b) -> r_key r <> calcHash v) ->
  fst (on_data calcHash account_refs api_ok b id v) = b /\ snd (on_data calcHash account_refs api_ok b id v) <> None.
Proof.
  intro N. apply on_data_unasked. intro X. apply in_map_iff in X as (r & E & Hin). exact (N r Hin E).
Qed.
Print Assumptions C73_unasked.

(** Once nothing is outstanding, all of the state is there, as it is in the world: whatever was delivered, in whatever order. *)
Theorem C73_complete calcHash account_refs api_ok w roots b0 l :
  digest32 calcHash -> whole calcHash account_refs api_ok w roots ->
  b_requests b0 = [] -> b_mark b0 = None -> closed account_refs api_ok w roots (s_get (b_store b0)) ->
  (forall id v, In (id, v) l -> no_forgery calcHash account_refs api_ok w roots v) ->
  let b := deliver calcHash account_refs api_ok (start b0 roots) l in
  unresolved b = 0%nat -> fetched account_refs api_ok w roots (s_get (b_store b)).
Proof.
  intros D Wh E M C F b U. assert (Hne : forall v, calcHash v <> []) by (intros v X; destruct (D v) as [L _]; rewrite X in L; discriminate L).
  apply (inv_done _ _ w roots); [|unfold unresolved in U; destruct (b_requests b); [reflexivity|discriminate U]].
  apply (deliver_inv calcHash account_refs api_ok w roots Hne Wh); [now apply (start_inv calcHash)|]. apply Forall_forall. intros [id v] Hin. exact (F id v Hin).
Qed.
Print Assumptions C73_complete.

(** Until then: what is outstanding is a missing part of the state, it is asked for once, and its data is taken from whoever brings it. *)
Theorem C73_progress calcHash account_refs api_ok w roots b0 l :
  digest32 calcHash -> whole calcHash account_refs api_ok w roots ->
  b_requests b0 = [] -> b_mark b0 = None -> closed account_refs api_ok w roots (s_get (b_store b0)) ->
  (forall id v, In (id, v) l -> no_forgery calcHash account_refs api_ok w roots v) ->
  (forall q h v, part account_refs api_ok w roots (q, h) -> w (bucket_of q) h = Some v -> no_forgery calcHash account_refs api_ok w roots v) ->
  let b := deliver calcHash account_refs api_ok (start b0 roots) l in
  NoDup (map r_key (b_requests b)) /\
  forall r, In r (b_requests b) ->
    exists q v, In (bucket_of q, q) (r_askers r) /\ part account_refs api_ok w roots (q, r_key r) /\ w (bucket_of q) (r_key r) = Some v /\
      s_get (b_store b) (bucket_of q) (r_key r) = None /\
      forall id, has_hasher id = true ->
        snd (on_data calcHash account_refs api_ok b id v) = None /\
        s_get (b_store (fst (on_data calcHash account_refs api_ok b id v))) (bucket_of q) (r_key r) = Some v.
Proof.
  intros D Wh E M C F FP b. assert (Hne : forall v, calcHash v <> []) by (intros v X; destruct (D v) as [L _]; rewrite X in L; discriminate L).
  assert (Iv : inv account_refs api_ok w roots b).
  { apply (deliver_inv calcHash account_refs api_ok w roots Hne Wh); [now apply (start_inv calcHash)|]. apply Forall_forall. intros [id v] Hin. exact (F id v Hin). }
  split; [exact (i_nodup _ _ _ _ _ Iv)|]. intros r Hr.
  assert (Fr : find_request (r_key r) (b_requests b) = Some (r_askers r)).
  { pose proof (i_nodup _ _ _ _ _ Iv) as N. unfold keys_of in N. clear - N Hr. unfold find_request. induction (b_requests b) as [|x l0 IH]; [destruct Hr|].
    cbn [find map] in *. inversion N as [|? ? A B]; subst. destruct (beq_spec (r_key x) (r_key r)) as [E|NE].
    - destruct Hr as [->|Hr]; [reflexivity|]. exfalso. apply A. rewrite E. apply in_map. exact Hr.
    - destruct Hr as [->|Hr]; [congruence|auto]. }
  pose proof (i_some _ _ _ _ _ Iv _ _ Fr) as Ne. destruct (r_askers r) as [|[bk q] rest] eqn:Ea; [congruence|].
  assert (A : asked b bk q (r_key r)) by (exists ((bk, q) :: rest); split; [exact Fr|now left]).
  destruct (i_pend _ _ _ _ _ Iv _ _ _ A) as (P & -> & Sn). destruct (wh_has _ _ _ _ _ Wh _ _ P) as (v & Ev & Eh & _).
  exists q, v. split; [now left|]. split; [exact P|]. split; [exact Ev|]. split; [exact Sn|]. intros id Hid.
  destruct (on_data_inv calcHash account_refs api_ok w roots Hne Wh b id v Iv (FP _ _ _ P Ev)) as (_ & O & _). rewrite Eh in O.
  destruct O as (O1 & _ & O3); auto; [unfold keys_of; apply in_map; exact Hr|]. split; [exact O1|exact (O3 _ _ A)].
Qed.
Print Assumptions C73_progress.

(** A copy that reports success is complete, whatever the source. *)
Theorem C73_copy_success calcHash account_refs api_ok w roots src b0 rounds b :
  digest32 calcHash -> whole calcHash account_refs api_ok w roots ->
  b_requests b0 = [] -> b_mark b0 = None -> closed account_refs api_ok w roots (s_get (b_store b0)) ->
  (forall id k v, src id k = Some v -> no_forgery calcHash account_refs api_ok w roots v) ->
  run calcHash account_refs api_ok rounds src (start b0 roots) = (b, None) ->
  fetched account_refs api_ok w roots (s_get (b_store b)).
Proof.
  intros D Wh E M C F R. assert (Hne : forall v, calcHash v <> []) by (intros v X; destruct (D v) as [L _]; rewrite X in L; discriminate L).
  destruct (run_inv calcHash account_refs api_ok w roots Hne Wh src F rounds (start b0 roots)) as [I1 I2]; [now apply (start_inv calcHash)|].
  rewrite R in I1, I2. cbn [fst snd] in *. apply (inv_done _ _ w roots); auto.
Qed.
Print Assumptions C73_copy_success.

(** A copy from a source that has the state ends, and with success: after at most as many rounds as the state has parts. *)
Theorem C73_copy_ends calcHash account_refs api_ok w roots src b0 all :
  digest32 calcHash -> whole calcHash account_refs api_ok w roots ->
  b_requests b0 = [] -> b_mark b0 = None -> closed account_refs api_ok w roots (s_get (b_store b0)) ->
  fetched account_refs api_ok w roots src ->
  (forall q h v, part account_refs api_ok w roots (q, h) -> w (bucket_of q) h = Some v -> no_forgery calcHash account_refs api_ok w roots v) ->
  (forall r, part account_refs api_ok w roots r -> In r all) ->
  exists b, run calcHash account_refs api_ok (length all) src (start b0 roots) = (b, None) /\ fetched account_refs api_ok w roots (s_get (b_store b)).
Proof.
  intros D Wh E M C Fs FP Cov. assert (Hne : forall v, calcHash v <> []) by (intros v X; destruct (D v) as [L _]; rewrite X in L; discriminate L).
  destruct (run_full calcHash account_refs api_ok w roots Hne Wh src Fs FP all Cov (length all) (start b0 roots)) as (b & R & I1 & I2).
  - now apply (start_inv calcHash).
  - clear. induction all as [|r l IH]; cbn [missing length]; [lia|]. destruct (s_get _ _ _); lia.
  - exists b. split; [exact R|]. apply (inv_done _ _ w roots); auto.
Qed.
Print Assumptions C73_copy_ends.

(** Until the flush the database is as it was; the flush writes what has been fetched. *)
Theorem C73_disk calcHash account_refs api_ok d roots l bk k :
  let s := b_store (deliver calcHash account_refs api_ok (start (new_builder d) roots) l) in
  s_base s bk k = d bk k /\ s_base (s_flush s false) bk k = d bk k /\ s_base (s_flush s true) bk k = s_get s bk k.
Proof.
  intros s. destruct (grown_wants roots (new_builder d)) as [G _].
  assert (Es : b_store (start (new_builder d) roots) = mk_store d (Some [])) by (unfold start; rewrite (g_store _ _ _ G); reflexivity).
  destruct (deliver_disk calcHash account_refs api_ok l (start (new_builder d) roots)) as [[D1 D2] N]; [rewrite Es; discriminate|rewrite Es; constructor|].
  fold s in D1, D2, N. rewrite Es in D1. cbn [s_base] in D1. split; [rewrite D1; reflexivity|]. split; [|apply flush_get; exact N].
  unfold s_flush. destruct (s_layer s); cbn [s_base]; rewrite D1; reflexivity.
Qed.
Print Assumptions C73_disk.

(** Tries: every version that any history has flushed is a whole state, and where it has been fetched it answers every lookup as it
    did in the database it came from. *)
Theorem C73_trie calcHash account_refs api_ok l s h :
  digest32 calcHash -> steps calcHash st_init l s -> Forall (fun ox => sane_op (fst ox)) l -> no_collision (st_log s) ->
  In h (st_roots s) -> h <> [] ->
  let w := trie_world (st_db s) in
  let roots := [(QNode KBytes, h)] in
  whole calcHash account_refs api_ok w roots /\
  (exists all, forall r, part account_refs api_ok w roots r -> In r all) /\
  (forall q k v, part account_refs api_ok w roots (q, k) -> w (bucket_of q) k = Some v -> no_forgery calcHash account_refs api_ok w roots v) /\
  forall d, fetched account_refs api_ok w roots d -> forall k, wf_bytes k ->
    snd (fst (mpt_get (new_mpt (d MerkleTrie) h) k)) = snd (fst (mpt_get (new_mpt (st_db s) h) k)) /\
    snd (mpt_get (new_mpt (d MerkleTrie) h) k) = None.
Proof.
  intros D Q Sa N Hh Hn w roots. destruct (runs_refine calcHash D l s Q Sa N) as (a & _ & K & Kr & _).
  apply In_nth_error in Hh as [i Hi]. destruct (forall2_at _ _ _ _ _ Kr Hi) as (c & _ & [[E _]|(t & F & Ky & Eh & St & Sh)]); [contradiction|].
  subst h. assert (NC : no_collision (flush_entries calcHash true t)).
  { eapply no_collision_sub; [|exact N]. pose proof (entries_known calcHash D (st_db s) (st_log s) (NHash (calcHash (serialize calcHash t))) t F (or_intror (conj eq_refl St)) K) as X.
    cbn [flush_entries] in X. rewrite app_nil_r in X. exact X. }
  assert (St' : stored calcHash (w MerkleTrie) true t) by exact St.
  pose proof (one_parts calcHash D account_refs api_ok w t F St') as OP.
  split; [exact (one_whole calcHash D account_refs api_ok w t F St' NC)|]. split; [|split].
  - exists (map (fun e => (QNode KBytes, fst e)) (flush_entries calcHash true t)). intros r P. destruct (OP r P) as (c' & -> & Fc & _ & Ic).
    apply in_map_iff. exists (calcHash (serialize calcHash c'), serialize calcHash c'). split; [reflexivity|]. apply Ic, own_in, Fc.
  - intros q k v P Ew q' h' v0 P' Ew' E. destruct (OP _ P) as (c1 & E1 & F1 & S1 & I1). injection E1 as -> ->.
    destruct (OP _ P') as (c2 & E2 & F2 & S2 & I2). injection E2 as -> ->. cbn [bucket_of] in Ew, Ew'.
    pose proof (S1 _ _ (own_in calcHash c1 F1)) as X1. pose proof (S2 _ _ (own_in calcHash c2 F2)) as X2.
    assert (Y1 : v = serialize calcHash c1) by congruence. assert (Y2 : v0 = serialize calcHash c2) by congruence. subst v v0.
    apply (NC (calcHash (serialize calcHash c1))); [apply I1, own_in, F1|rewrite E; apply I2, own_in, F2].
  - intros d Fd k Wk. assert (Sd : stored calcHash (d MerkleTrie) true t).
    { apply (fetched_stored calcHash D account_refs api_ok w roots KBytes); auto. apply p_root. now left. }
    assert (T : forall db, stored calcHash db true t -> tinv calcHash db (m_root (new_mpt db (calcHash (serialize calcHash t)))) c).
    { intros db Sdb. unfold new_mpt. cbn [m_root]. destruct (calcHash (serialize calcHash t)) eqn:Eh; [congruence|]. rewrite <- Eh. exists t. repeat split; auto; try apply F; try apply Ky; try apply Sh; auto. right. auto. }
    assert (G : forall db, stored calcHash db true t -> snd (fst (mpt_get (new_mpt db (calcHash (serialize calcHash t))) k)) = c k /\ snd (mpt_get (new_mpt db (calcHash (serialize calcHash t))) k) = None).
    { intros db Sdb. exact (get_value calcHash D db _ c k Wk (T db Sdb)). }
    destruct (G _ Sd) as [G1 G2]. destruct (G _ St) as [G3 _]. rewrite G1, G3. auto.
Qed.
Print Assumptions C73_trie.

(** Worlds of accounts: a trie that is part of a fetched state answers as before, and what its accounts refer to - a store, code, an
    API, an object graph - is there too. *)
Theorem C73_world calcHash account_refs api_ok w roots d l s k h :
  digest32 calcHash -> whole calcHash account_refs api_ok w roots -> fetched account_refs api_ok w roots d ->
  steps calcHash st_init l s -> Forall (fun ox => sane_op (fst ox)) l -> no_collision (st_log s) ->
  (forall x, w MerkleTrie x = st_db s x) -> In h (st_roots s) -> part account_refs api_ok w roots (QNode k, h) ->
  forall key, wf_bytes key ->
    snd (fst (mpt_get (new_mpt (d MerkleTrie) h) key)) = snd (fst (mpt_get (new_mpt (st_db s) h) key)) /\
    snd (mpt_get (new_mpt (d MerkleTrie) h) key) = None /\
    forall v rs q h', snd (fst (mpt_get (new_mpt (d MerkleTrie) h) key)) = Some v -> k = KAccount -> account_refs v = Some rs -> 32 < blen v ->
      In (q, h') rs -> d (bucket_of q) h' = w (bucket_of q) h' /\ d (bucket_of q) h' <> None /\ part account_refs api_ok w roots (q, h').
Proof.
  intros D Wh Fd Q Sa N Ew Hh P key Wk. destruct (runs_refine calcHash D l s Q Sa N) as (a & _ & _ & Kr & _).
  assert (Hn : h <> []) by (destruct (wh_has _ _ _ _ _ Wh _ _ P) as (v & _ & E & _); subst h; intro X; destruct (D v) as [L _]; rewrite X in L; discriminate L).
  apply In_nth_error in Hh as [i Hi]. destruct (forall2_at _ _ _ _ _ Kr Hi) as (c & _ & [[E _]|(t & F & Ky & Eh & St & Sh)]); [contradiction|]. subst h.
  assert (St' : stored calcHash (w MerkleTrie) true t) by (intros x y Hin; rewrite Ew; exact (St x y Hin)).
  pose proof (fetched_stored calcHash D account_refs api_ok w roots k t d F St' P Fd) as Sd.
  assert (G : forall db, stored calcHash db true t -> snd (fst (mpt_get (new_mpt db (calcHash (serialize calcHash t))) key)) = c key /\ snd (mpt_get (new_mpt db (calcHash (serialize calcHash t))) key) = None).
  { intros db Sdb. apply (get_value calcHash D db _ c key Wk). destruct (calcHash (serialize calcHash t)) eqn:Eh; [congruence|]. rewrite <- Eh.
    exists t. repeat split; auto; try apply F; try apply Ky; try apply Sh; auto. right. auto. }
  destruct (G _ Sd) as [G1 G2]. destruct (G _ St) as [G3 _]. rewrite G1, G3. split; [reflexivity|]. split; [exact G2|].
  intros v rs q h' Ev -> Er L Hin. apply (Sh key v Wk) in Ev.
  assert (P' : part account_refs api_ok w roots (q, h')).
  { apply (proj2 (trie_parts calcHash D account_refs api_ok w roots KAccount t F St' P) (unpack key) v (q, h') Ev L). cbn [value_refs]. rewrite Er. exact Hin. }
  destruct (wh_has _ _ _ _ _ Wh _ _ P') as (v' & Ev' & _). rewrite (Fd _ _ P'). split; [reflexivity|]. split; [congruence|exact P'].
Qed.
Print Assumptions C73_world.

(** *** A concrete world *)
(** An account with a store and code, one with nothing, over a toy digest. *)
Definition ex_account_refs (v : bytes) : option (list ref) :=
  match v with
  | 65 :: r => Some [(QNode KBytes, firstn 32 r); (QBytes, skipn 32 r)]
  | 66 :: _ => Some []
  | _ => None
  end.
Definition ex_api_ok (v : bytes) : bool := true.
Definition ex_code : bytes := [1; 2; 3; 4].
Definition qexec1 (s : st) (o : op) : option (out * st) :=
  match o with
  | ONew => Some (Quiet, mk_st (st_db s) (st_log s) (st_roots s) (st_tries s ++ [m_root (new_mpt (st_db s) [])]))
  | OSet j k v => match trie_of s j with Some m => let '(m', old, e) := mpt_set m k v in Some (Value old e, with_trie s j (m_root m')) | None => None end
  | OFlush j => match trie_of s j with
                | Some m => Some (Quiet, mk_st (m_db (mpt_flush quick_digest m)) (st_log s ++ match m_root m with Some n => flush_entries quick_digest true n | None => [] end)
                                     (st_roots s ++ [mpt_hash quick_digest m]) (set_nth (st_tries s) j (m_root (mpt_flush quick_digest m))))
                | None => None end
  | _ => None
  end.
Fixpoint qexec (s : st) (l : list op) : option (list (op * out) * st) :=
  match l with
  | [] => Some ([], s)
  | o :: r => match qexec1 s o with
              | Some (x, s') => match qexec s' r with Some (t, s2) => Some ((o, x) :: t, s2) | None => None end
              | None => None end
  end.
Lemma qexec1_step s o x s' : qexec1 s o = Some (x, s') -> step quick_digest s o x s'.
Proof.
  destruct o; cbn [qexec1]; intro E; try discriminate.
  - injection E as <- <-. constructor.
  - destruct (trie_of s j) as [m|] eqn:E1; [|discriminate]. destruct (mpt_set m k v) as [[m' v'] e] eqn:G. injection E as <- <-. econstructor; eauto.
  - destruct (trie_of s j) as [m|] eqn:E1; [|discriminate]. injection E as <- <-. econstructor; eauto.
Qed.
Lemma qexec_steps l : forall s0 l0 s t s', steps quick_digest s0 l0 s -> qexec s l = Some (t, s') -> steps quick_digest s0 (l0 ++ t) s'.
Proof.
  induction l as [|o l IH]; intros s0 l0 s t s' Q E; cbn [qexec] in E; [injection E as <- <-; now rewrite app_nil_r|].
  destruct (qexec1 s o) as [[x s1]|] eqn:E1; [|discriminate]. destruct (qexec s1 l) as [[t1 s2]|] eqn:E2; [|discriminate]. injection E as <- <-.
  replace (l0 ++ (o, x) :: t1) with ((l0 ++ [(o, x)]) ++ t1) by (rewrite <- app_assoc; reflexivity).
  eapply IH; [|exact E2]. econstructor; [exact Q|]. now apply qexec1_step.
Qed.
Definition ex_value : bytes := [7; 7; 7; 7; 7; 7; 7; 7; 7; 7; 7; 7; 7; 7; 7; 7; 7; 7; 7; 7; 7; 7; 7; 7; 7; 7; 7; 7; 7; 7; 7; 7; 7; 7; 7; 7; 7; 7; 7; 7].
Definition ex_store_calls : list op := [ONew; OSet 0 [18; 52] ex_value; OSet 0 [18; 86] (9 :: ex_value); OFlush 0].
Definition ex_store_root : bytes := Eval vm_compute in match qexec st_init ex_store_calls with Some (_, s) => nth 0 (st_roots s) [] | None => [] end.
Definition ex_account : bytes := Eval vm_compute in 65 :: ex_store_root ++ quick_digest ex_code.
Definition ex_calls : list op := ex_store_calls ++ [ONew; OSet 1 [33; 67] ex_account; OSet 1 [33; 101] [66; 5]; OSet 1 [33] (66 :: ex_value); OFlush 1].
Definition ex_log : list (bytes * bytes) := Eval vm_compute in match qexec st_init ex_calls with Some (_, s) => st_log s | None => [] end.
Definition ex_root : bytes := Eval vm_compute in match qexec st_init ex_calls with Some (_, s) => nth 1 (st_roots s) [] | None => [] end.
Definition ex_items : list item := Eval vm_compute in map (fun e => (MerkleTrie, fst e, snd e)) ex_log ++ [(BytesByHash, quick_digest ex_code, ex_code)].
Definition ex_w : base := table ex_items.
Definition ex_roots : list ref := [(QNode KAccount, ex_root)].
Fixpoint ex_reach (n : nat) (l : list ref) : list ref :=
  match n with
  | O => l
  | S n' => ex_reach n' (l ++ flat_map (fun r => match ex_w (bucket_of (fst r)) (snd r) with Some v => fst (refs_of ex_account_refs ex_api_ok (fst r) v) | None => [] end) l)
  end.
Fixpoint ex_once (l : list ref) : list ref :=
  match l with [] => [] | r :: l' => if existsb (ref_eqb r) l' then ex_once l' else r :: ex_once l' end.
Definition ex_all : list ref := Eval vm_compute in ex_once (ex_reach 5 ex_roots).
Definition ex_deliveries : list (bucket * bytes) := map (fun i => (fst (fst i), snd i)) (rev ex_items ++ rev ex_items ++ ex_items ++ rev ex_items).

Lemma ex_whole : whole quick_digest ex_account_refs ex_api_ok ex_w ex_roots /\ forall r, part ex_account_refs ex_api_ok ex_w ex_roots r -> In r ex_all.
Proof. apply whole_by_check. vm_compute. reflexivity. Qed.
Lemma ex_fair v : In v (map snd ex_items) -> no_forgery quick_digest ex_account_refs ex_api_ok ex_w ex_roots v.
Proof.
  intros Hin q h v0 P Ew E. destruct (wh_has _ _ _ _ _ (proj1 ex_whole) _ _ P) as (v1 & Ew1 & E1 & _). assert (v1 = v0) by congruence. subst v1.
  assert (In0 : In v0 (map snd ex_items)).
  { clear - Ew. unfold ex_w in Ew. revert Ew. generalize (bucket_of q). intro b. induction ex_items as [|i l IH]; cbn [table map]; [discriminate|].
    destruct (item_is b h i); [intro X; injection X as <-; now left|intro X; right; auto]. }
  apply (distinct_b_ok (map snd ex_items)); [vm_compute; reflexivity|exact Hin|exact In0|congruence].
Qed.

Example C73_world_nonvacuous : digest32 quick_digest /\ whole quick_digest ex_account_refs ex_api_ok ex_w ex_roots /\
  length ex_all = 8%nat /\ length ex_items = 8%nat /\
  closed ex_account_refs ex_api_ok ex_w ex_roots (s_get (b_store (new_builder nothing))) /\
  (forall id v, In (id, v) ex_deliveries -> no_forgery quick_digest ex_account_refs ex_api_ok ex_w ex_roots v) /\
  (forall q h v, part ex_account_refs ex_api_ok ex_w ex_roots (q, h) -> ex_w (bucket_of q) h = Some v -> no_forgery quick_digest ex_account_refs ex_api_ok ex_w ex_roots v) /\
  unresolved (start (new_builder nothing) ex_roots) = 1%nat /\
  unresolved (deliver quick_digest ex_account_refs ex_api_ok (start (new_builder nothing) ex_roots) (firstn 6 ex_deliveries)) = 3%nat /\
  unresolved (deliver quick_digest ex_account_refs ex_api_ok (start (new_builder nothing) ex_roots) ex_deliveries) = 0%nat /\
  snd (run quick_digest ex_account_refs ex_api_ok 8 ex_w (start (raw_builder nothing) ex_roots)) = None.
Proof.
  split; [exact quick_digest32|]. split; [exact (proj1 ex_whole)|]. split; [reflexivity|]. split; [reflexivity|]. split; [intros q h v _ E; discriminate E|].
  split.
  { intros id v Hin. apply ex_fair. unfold ex_deliveries in Hin. apply in_map_iff in Hin as (i & E & Hin). injection E as _ <-. apply in_map.
    repeat rewrite in_app_iff in Hin. rewrite <- !in_rev in Hin. tauto. }
  split.
  { intros q h v _ Ew. apply ex_fair. revert Ew. unfold ex_w. generalize (bucket_of q). intro b. induction ex_items as [|i l IH]; cbn [table map]; [discriminate|].
    destruct (item_is b h i); [intro X; injection X as <-; now left|intro X; right; auto]. }
  vm_compute. repeat split; reflexivity.
Qed.
Example C73_trie_nonvacuous : exists l s, steps quick_digest st_init l s /\ Forall (fun ox => sane_op (fst ox)) l /\ no_collision (st_log s) /\
  In ex_root (st_roots s) /\ In ex_store_root (st_roots s) /\ (forall x, In x (map fst ex_log) -> ex_w MerkleTrie x = st_db s x) /\
  snd (fst (mpt_get (new_mpt (st_db s) ex_root) [33; 67])) = Some ex_account /\ snd (fst (mpt_get (new_mpt (st_db s) ex_store_root) [18; 52])) = Some ex_value.
Proof.
  destruct (qexec st_init ex_calls) as [[l s]|] eqn:E; [|vm_compute in E; discriminate E].
  exists l, s. split; [apply (qexec_steps ex_calls st_init [] st_init); [constructor|exact E]|].
  assert (F : option_map (fun x => map fst (fst x)) (qexec st_init ex_calls) = Some ex_calls) by (vm_compute; reflexivity). rewrite E in F. injection F as F.
  split.
  { apply Forall_forall. intros [o x] Hin. apply (in_map fst) in Hin. rewrite F in Hin. cbn [fst] in *.
    revert o Hin. apply Forall_forall. repeat constructor; try discriminate; try (cbn; lia). }
  assert (G : option_map (fun x => (st_log (snd x), st_roots (snd x), snd (fst (mpt_get (new_mpt (st_db (snd x)) ex_root) [33; 67])),
      snd (fst (mpt_get (new_mpt (st_db (snd x)) ex_store_root) [18; 52])))) (qexec st_init ex_calls)
     = Some (ex_log, [ex_store_root; ex_root], Some ex_account, Some ex_value)) by (vm_compute; reflexivity).
  assert (G5 : match qexec st_init ex_calls with
               | Some x => forallb (fun k => match st_db (snd x) k, ex_w MerkleTrie k with Some a, Some b => bytes_eqb a b | _, _ => false end) (map fst ex_log)
               | None => false
               end = true) by (vm_compute; reflexivity).
  rewrite E in G, G5. cbn [option_map snd] in G, G5. injection G as G1 G2 G3 G4. rewrite G1, G2. split.
  - intros h a b A B. apply (distinct_b_ok (map snd ex_log)); [vm_compute; reflexivity|apply (in_map snd) in A; exact A|apply (in_map snd) in B; exact B|].
    assert (X : forall e, In e ex_log -> fst e = quick_digest (snd e)).
    { assert (Y : forallb (fun e => bytes_eqb (fst e) (quick_digest (snd e))) ex_log = true) by (vm_compute; reflexivity).
      rewrite forallb_forall in Y. intros e He. apply bytes_eqb_eq, Y, He. }
    exact (eq_trans (eq_sym (X _ A)) (X _ B)).
  - split; [right; now left|]. split; [now left|]. split; [|auto].
    rewrite forallb_forall in G5. intros x Hin. specialize (G5 x Hin). destruct (st_db s x), (ex_w MerkleTrie x); try discriminate G5.
    apply bytes_eqb_eq in G5. now subst.
Qed.


Lemma ex_reach_parts n : forall l, (forall r, In r l -> part ex_account_refs ex_api_ok ex_w ex_roots r) -> forall r, In r (ex_reach n l) -> part ex_account_refs ex_api_ok ex_w ex_roots r.
Proof.
  induction n as [|n IH]; intros l A; cbn [ex_reach]; [exact A|]. apply IH. intros r Hin. apply in_app_iff in Hin as [Hin|Hin]; [auto|].
  apply in_flat_map in Hin as ([q h] & Hq & Hr). cbn [fst snd] in Hr. destruct (ex_w (bucket_of q) h) as [v|] eqn:E; [|destruct Hr]. eapply p_next; eauto.
Qed.
Lemma ex_last : part ex_account_refs ex_api_ok ex_w ex_roots (nth 7 ex_all (QBytes, [])).
Proof.
  apply (ex_reach_parts 5 ex_roots); [intros r Hr; apply p_root, Hr|]. apply ref_in. vm_compute. reflexivity.
Qed.

(** A copy that stopped because the source lacked a value leaves nodes whose children are missing; a second copy takes a node's
    presence for that of everything below it and reports success. *)
Theorem C73_violated_resume : exists account_refs api_ok w roots src b1 b2 q h,
  whole quick_digest account_refs api_ok w roots /\
  run quick_digest account_refs api_ok 100 src (start (raw_builder nothing) roots) = (b1, Some NotFound) /\
  run quick_digest account_refs api_ok 100 w (start (raw_builder (s_base (b_store b1))) roots) = (b2, None) /\
  part account_refs api_ok w roots (q, h) /\ s_get (b_store b2) (bucket_of q) h = None.
Proof.
  set (first := run quick_digest ex_account_refs ex_api_ok 100 (table (tl ex_items)) (start (raw_builder nothing) ex_roots)).
  set (second := run quick_digest ex_account_refs ex_api_ok 100 ex_w (start (raw_builder (s_base (b_store (fst first)))) ex_roots)).
  exists ex_account_refs, ex_api_ok, ex_w, ex_roots, (table (tl ex_items)), (fst first), (fst second), (fst (nth 7 ex_all (QBytes, []))), (snd (nth 7 ex_all (QBytes, []))).
  split; [exact (proj1 ex_whole)|].
  assert (E1 : snd first = Some NotFound) by (vm_compute; reflexivity). assert (E2 : snd second = None) by (vm_compute; reflexivity).
  split; [rewrite <- E1; apply surjective_pairing|]. split; [rewrite <- E2; apply surjective_pairing|].
  split; [rewrite <- surjective_pairing; exact ex_last|vm_compute; reflexivity].
Qed.
Print Assumptions C73_violated_resume.

(** The flush writes parents before their children.  If the process dies in the middle of it, the next attempt finds the root in the
    database, asks for nothing, and the state stays incomplete. *)
Theorem C73_violated_crash : exists account_refs api_ok w roots l n q h,
  whole quick_digest account_refs api_ok w roots /\
  let b := deliver quick_digest account_refs api_ok (start (new_builder nothing) roots) l in
  unresolved b = 0%nat /\ fetched account_refs api_ok w roots (s_get (b_store b)) /\
  let again := start (new_builder (s_crash (b_store b) n)) roots in
  unresolved again = 0%nat /\ part account_refs api_ok w roots (q, h) /\ s_get (b_store again) (bucket_of q) h = None.
Proof.
  exists ex_account_refs, ex_api_ok, ex_w, ex_roots, ex_deliveries, 1%nat, (fst (nth 7 ex_all (QBytes, []))), (snd (nth 7 ex_all (QBytes, []))).
  destruct C73_world_nonvacuous as (D & Wh & _ & _ & C & Fr & _ & _ & _ & U & _).
  split; [exact Wh|]. cbv zeta. split; [exact U|]. split; [apply (C73_complete quick_digest ex_account_refs ex_api_ok ex_w ex_roots (new_builder nothing) ex_deliveries D Wh eq_refl eq_refl C Fr U)|].
  split; [vm_compute; reflexivity|]. split; [rewrite <- surjective_pairing; exact ex_last|vm_compute; reflexivity].
Qed.
Print Assumptions C73_violated_crash.
