(** C74: the Merkle trees of BTP. *)
From Verif Require Import Model.Bytes Model.BtpMerkle Spec.BtpMerkleSpec Proof.BtpMerkleFacts Props.P_PartSet.
Open Scope nat_scope.

(** The root of digests is what is on top of the tree of them, and nothing else is. *)
Theorem C74_root : forall H items, hash32 H -> all32 items -> items <> [] ->
  exists r, merkle_root H items = Some r /\ forall r', on_top H items r' <-> r' = r.
Proof.
  intros H items H32 A N. destruct (root_ok H H32 items A N) as (r & E & T). exists r. split; [exact E|]. intro r'. split; [|intros ->; exact T].
  intro T'. exact (on_top_fun H items r' T' r T).
Qed.
Print Assumptions C74_root.
Theorem C74_nothing : forall H items, merkle_root H items = None <-> items = [].
Proof. intros H [|x [|y r]]; cbn; split; congruence. Qed.
Print Assumptions C74_nothing.

(** Who climbs from an item by the proof of its place comes to the root. *)
Theorem C74_proof : forall H items k x r, hash32 H -> all32 items ->
  nth_error items k = Some x -> merkle_root H items = Some r -> climb H x (merkle_proof H items k) = r.
Proof.
  intros H items k x r H32 A E R. assert (N : items <> []) by (intros ->; destruct k; discriminate E).
  destruct (root_ok H H32 items A N) as (r' & E' & T). assert (r' = r) by congruence. subst r'.
  assert (L : k < length items) by (apply nth_error_Some; congruence).
  exact (climb_ok H items k _ (proof_ok H H32 items k A L) x r E T).
Qed.
Print Assumptions C74_proof.

(** As many digests with the same root are the same digests, unless two
    different strings which are hashed in the two trees have the same hash. *)
Theorem C74_binds : forall H items items' r, hash32 H -> all32 items -> all32 items' -> length items = length items' ->
  merkle_root H items = Some r -> merkle_root H items' = Some r ->
  items = items' \/ exists s t, in_tree H items s /\ in_tree H items' t /\ s <> t /\ H s = H t.
Proof.
  intros H items items' r H32 A B L R R'.
  assert (N : items <> []) by (intros ->; discriminate R). assert (N' : items' <> []) by (intros ->; discriminate R').
  destruct (root_ok H H32 items A N) as (x & E & T). destruct (root_ok H H32 items' B N') as (y & E' & T').
  assert (x = r) by congruence. assert (y = r) by congruence. subst x y.
  exact (top_inj H H32 items r T items' A B L T').
Qed.
Print Assumptions C74_binds.

(** A path that goes the way of the place [k] to the root proves only the item
    at [k], with the hashes of its proof, unless there are two such strings. *)
Theorem C74_item : forall H items k x r y p, hash32 H -> all32 items ->
  nth_error items k = Some x -> merkle_root H items = Some r ->
  length y = 32 -> path32 p -> way p = way (merkle_proof H items k) -> climb H y p = r ->
  (y = x /\ p = merkle_proof H items k) \/ exists s t, In s (climbed H y p) /\ in_tree H items t /\ s <> t /\ H s = H t.
Proof.
  intros H items k x r y p H32 A E R Ly P W C. assert (L : k < length items) by (apply nth_error_Some; congruence).
  pose proof (C74_proof H items k x r H32 A E R) as C'. pose proof (proof_ok H H32 items k A L) as Po.
  assert (Lx : length x = 32) by (apply nth_error_In in E; exact (proj1 (Forall_forall _ _) A x E)).
  destruct (climb_inj H H32 p (merkle_proof H items k) y x W P (path_of_32 H H32 _ _ _ Po A) Ly Lx) as [[-> Em]|(s & t & I1 & I2 & N & Eh)]; [congruence|left|right].
  - split; [reflexivity|]. revert W Em. generalize (merkle_proof H items k) as q. clear. induction p as [|[d v] p IH]; intros [|[d' v'] q] W Em; try discriminate W; [reflexivity|].
    unfold way in W. cbn in W, Em. inversion W; subst. inversion Em; subst. f_equal. now apply IH.
  - exists s, t. split; [exact I1|]. split; [exact (climbed_in H _ _ _ Po x E t I2)|auto].
Qed.
Print Assumptions C74_item.

(** The bucket of lists by their roots: the stored concatenation is found by its root. *)
Theorem C74_stored : forall H items, all32 items -> cat_items (concat items) = items /\ root_hasher H (concat items) = merkle_root H items.
Proof.
  intros H items A. assert (X : cat_items (concat items) = items).
  { rewrite <- (app_nil_r (concat items)). apply cat_items_ok; [exact A|cbn; lia]. }
  split; [exact X|]. unfold root_hasher. now rewrite X.
Qed.
Print Assumptions C74_stored.

(** Found: the root does not say how many items there are: the level above has the same root. *)
Theorem C74_violated_length : forall H items, hash32 H -> all32 items -> 2 <= length items ->
  above H items <> items /\ merkle_root H (above H items) = merkle_root H items.
Proof.
  intros H items H32 A L. split; [intro E; pose proof (above_short H items L) as X; rewrite E in X; lia|].
  destruct (root_ok H H32 items A) as (r & E & T); [intros ->; cbn in L; lia|].
  destruct (root_ok H H32 (above H items) (above_all32 H H32 items A)) as (r' & E' & T').
  { intro X. pose proof (above_one H items L) as Y. rewrite X in Y. cbn in Y. lia. }
  inversion T; subst; [cbn in L; lia|]. rewrite E, E'. f_equal. eapply on_top_fun; eassumption.
Qed.
Print Assumptions C74_violated_length.

(** Found: who asks others for the list of a root, and checks what comes with
    the hasher of the bucket, takes the root itself for the list, and takes the
    list with up to 31 bytes more. *)
Theorem C74_violated_stored : forall H items r junk, hash32 H -> all32 items -> 2 <= length items -> merkle_root H items = Some r -> length junk < 32 ->
  root_hasher H r = Some r /\ cat_items r <> items /\ root_hasher H (concat items ++ junk) = Some r.
Proof.
  intros H items r junk H32 A L R J.
  assert (Lr : length r = 32).
  { destruct (root_ok H H32 items A) as (r' & E & T); [intros ->; cbn in L; lia|]. assert (r' = r) by congruence. subst r'. clear - T A H32.
    induction T as [x|l r Ll T IH]; [exact (Forall_inv A)|]. apply IH. now apply above_all32. }
  assert (X : cat_items r = [r]).
  { pose proof (cat_items_ok [r] []) as Y. cbn [concat] in Y. rewrite !app_nil_r in Y. apply Y; [constructor; [exact Lr|constructor]|cbn; lia]. }
  split; [unfold root_hasher; rewrite X; reflexivity|]. split; [rewrite X; intros <-; cbn in L; lia|].
  unfold root_hasher. rewrite cat_items_ok by assumption. exact R.
Qed.
Print Assumptions C74_violated_stored.

(** A case: five digests. *)
Definition ex_items : list bytes := map (fun i => quick_digest [i]) [1; 2; 3; 4; 5]%Z.
Example C74_meets : hash32 quick_digest /\ all32 ex_items /\ (exists r, merkle_root quick_digest ex_items = Some r)
  /\ way (merkle_proof quick_digest ex_items 2) = [(DirRight, true); (DirLeft, true); (DirRight, true)]
  /\ way (merkle_proof quick_digest ex_items 4) = [(DirRight, false); (DirRight, false); (DirLeft, true)]
  /\ (forall k, k < 5 -> exists x, nth_error ex_items k = Some x /\ Some (climb quick_digest x (merkle_proof quick_digest ex_items k)) = merkle_root quick_digest ex_items).
Proof.
  assert (H32 : hash32 quick_digest) by (intro s; pose proof (proj1 (quick_digest32 s)) as X; unfold blen in X; lia).
  assert (A : all32 ex_items) by (repeat (apply Forall_cons; [apply H32|]); apply Forall_nil).
  split; [exact H32|]. split; [exact A|]. split; [eexists; reflexivity|].
  split; [vm_compute; reflexivity|]. split; [vm_compute; reflexivity|]. intros k L. destruct (nth_error ex_items k) as [x|] eqn:E.
  - exists x. split; [reflexivity|]. destruct (C74_root quick_digest ex_items H32 A) as (r & R & _); [discriminate|]. rewrite R. f_equal. exact (C74_proof _ _ _ _ _ H32 A E R).
  - apply nth_error_None in E. cbn in E. lia.
Qed.
