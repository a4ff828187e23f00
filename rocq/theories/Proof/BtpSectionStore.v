From Verif Require Import Model.Bytes Model.IntCodec Model.Rlp Spec.RlpSpec Proof.RlpFacts Model.BtpMerkle Model.BtpSection Spec.BtpMerkleSpec Spec.BtpSectionSpec Proof.BtpMerkleFacts Proof.BtpSectionSort Proof.BtpSectionFacts.
From Coq Require Import Sorting.Sorted Sorting.Permutation.
Open Scope Z_scope.

Lemma bucket_eqb_eq a b : bucket_eqb a b = true <-> a = b.
Proof.
  destruct a, b; cbn; split; intro E; try discriminate E; try reflexivity; try (apply bytes_eqb_eq in E; congruence); try (apply bytes_eqb_eq; congruence).
Qed.
Lemma get_in d b k v : one_value d -> In (b, k, v) d -> db_get d b k = Some v.
Proof.
  intros O I. unfold db_get. destruct (find _ d) as [[[b' k'] v']|] eqn:F.
  - apply find_some in F as [I' E]. cbn [fst snd] in E. apply andb_true_iff in E as [E1 E2]. apply bucket_eqb_eq in E1. apply bytes_eqb_eq in E2. subst. f_equal. exact (O _ _ _ _ I' I).
  - exfalso. pose proof (find_none _ _ F _ I) as X. cbn [fst snd] in X. rewrite bytes_eqb_refl, andb_true_r in X. assert (Y : bucket_eqb b b = true) by now apply bucket_eqb_eq. congruence.
Qed.
Lemma cons_keeps {A B} (f : A -> B) l : forall d y, In y d -> In y (fold_left (fun d x => f x :: d) l d).
Proof. induction l as [|a l IH]; intros d y I; cbn [fold_left]; [exact I|]. apply IH. now right. Qed.
Lemma cons_adds {A B} (f : A -> B) l : forall d x, In x l -> In (f x) (fold_left (fun d x => f x :: d) l d).
Proof. induction l as [|a l IH]; intros d x I; [destruct I|]. cbn [fold_left]. destruct I as [->|I]; [apply (cons_keeps f); now left|now apply IH]. Qed.

Section Store.
Variable sha3 : bytes -> bytes.
Lemma flush_section_keeps uid s d y : In y d -> In y (flush_section uid s d).
Proof. intro I. unfold flush_section. destruct (ns_root s); [|exact I]. apply (cons_keeps (fun x => (Bytes_of uid, fst x, snd x))). now right. Qed.
Lemma sections_keep uid l : forall d y, In y d -> In y (fold_left (fun d s => flush_section uid s d) l d).
Proof. induction l as [|s l IH]; intros d y I; cbn [fold_left]; [exact I|]. apply IH. now apply flush_section_keeps. Qed.
Lemma sections_add uid l : forall d s y, In s l -> (forall d, In y (flush_section uid s d)) -> In y (fold_left (fun d s => flush_section uid s d) l d).
Proof. induction l as [|a l IH]; intros d s y I F; [destruct I|]. cbn [fold_left]. destruct I as [->|I]; [apply sections_keep, F|now apply (IH _ s)]. Qed.
Lemma flush_has l d x s y : In x l -> In s (nts_sections x) -> (forall d, In y (flush_section (nts_uid x) s d)) -> In y (flush sha3 l d).
Proof.
  intros Ix Is F. unfold flush. destruct (digest_bytes l) as [b|] eqn:E; [|destruct l; [destruct Ix|discriminate E]].
  generalize ((Digests, sha3 b, b) :: d) as d0. clear E.
  assert (K : forall m d0 z, In z d0 -> In z (fold_left (fun d x => fold_left (fun d s => flush_section (nts_uid x) s d) (nts_sections x) d) m d0)).
  { induction m as [|a m IH]; intros d0 z I; cbn [fold_left]; [exact I|]. apply IH. now apply sections_keep. }
  induction l as [|a l IH]; intros d0; [destruct Ix|]. cbn [fold_left]. destruct Ix as [->|Ix]; [apply K; now apply (sections_add _ _ _ s)|now apply IH].
Qed.
Lemma flush_digest l d b : digest_bytes l = Some b -> In (Digests, sha3 b, b) (flush sha3 l d).
Proof.
  intro E. unfold flush. rewrite E. generalize ((Digests, sha3 b, b) :: d), (or_introl eq_refl : In (Digests, sha3 b, b) ((Digests, sha3 b, b) :: d)). clear E.
  induction l as [|a l IH]; intros d0 I; cbn [fold_left]; [exact I|]. apply IH. now apply sections_keep.
Qed.

Variable H : bytes -> bytes -> bytes.
Lemma section_list uid s d root : ns_root s = Some root -> In (Lists_of uid, root, ns_hashes s) (flush_section uid s d).
Proof. intro E. unfold flush_section. rewrite E. apply (cons_keeps (fun x => (Bytes_of uid, fst x, snd x))). now left. Qed.
Lemma section_message uid nid nw ms d m : sane_hash (H uid) -> In m ms -> In (Bytes_of uid, H uid m, m) (flush_section uid (new_section H nid nw ms uid) d).
Proof.
  intros HS I. unfold flush_section. assert (C : cat_items (ns_hashes (new_section H nid nw ms uid)) = map (H uid) ms) by now apply hashes_items. rewrite C.
  assert (R : ns_root (new_section H nid nw ms uid) = merkle_root (H uid) (map (H uid) ms)) by (rewrite <- C; reflexivity). rewrite R.
  destruct (merkle_root (H uid) (map (H uid) ms)) eqn:E; [|destruct ms as [|? [|? ?]]; [destruct I|discriminate E|discriminate E]].
  apply (cons_adds (fun x => (Bytes_of uid, fst x, snd x)) _ _ (H uid m, m)). cbn [ns_messages]. clear - I. induction ms as [|a ms IH]; [destruct I|]. cbn [map combine]. destruct I as [->|I]; [now left|right; now apply IH].
Qed.
Lemma read_back l d x nid nw ms : sane_hash (H (nts_uid x)) -> In x l -> In (new_section H nid nw ms (nts_uid x)) (nts_sections x) -> one_value (flush sha3 l d) ->
  message_hashes (flush sha3 l d) (nts_uid x) (network_digest_is (new_section H nid nw ms (nts_uid x))) = concat (map (H (nts_uid x)) ms)
  /\ read_messages (flush sha3 l d) (nts_uid x) (network_digest_is (new_section H nid nw ms (nts_uid x))) = map Some ms.
Proof.
  intros HS Ix Is O. set (uid := nts_uid x) in *. set (s := new_section H nid nw ms uid) in *.
  assert (C : cat_items (ns_hashes s) = map (H uid) ms) by now apply hashes_items.
  assert (R : ns_root s = merkle_root (H uid) (map (H uid) ms)) by (rewrite <- C; reflexivity).
  assert (M : message_hashes (flush sha3 l d) uid (network_digest_is s) = concat (map (H uid) ms)).
  { unfold message_hashes, network_digest_is. cbn [nd_root]. destruct (ns_root s) as [r|] eqn:E.
    - rewrite (get_in _ _ _ (ns_hashes s) O); [reflexivity|]. apply (flush_has l d x s); [exact Ix|exact Is|]. intro d0. now apply section_list.
    - destruct ms as [|m [|m' ms]]; [reflexivity|discriminate R|discriminate R]. }
  split; [exact M|]. unfold read_messages. rewrite M. rewrite hashes_items by exact HS. rewrite map_map. apply map_ext_in. intros m I. apply get_in; [exact O|].
  apply (flush_has l d x s); [exact Ix|exact Is|]. intro d0. now apply section_message.
Qed.
End Store.

(** ** The digest *)
Definition sane_digest (x : type_section) : Prop :=
  int64_range (nts_id x) /\ wf_bytes (nts_uid x) /\ wf_bytes (nts_hash x)
  /\ forall s, In s (nts_sections x) -> int64_range (ns_nid s) /\ wf_bytes (ns_hash s) /\ match ns_root s with Some r => wf_bytes r | None => True end.
Lemma digest_read l b : Forall sane_digest l -> digest_bytes l = Some b -> blen b < 2 ^ 63 -> read_digest (Some b) = Some (map type_digest_is l).
Proof.
  intros F E L. assert (E' : b = enc digest_ty (VList (Some [VList (Some (map type_digest_val l))]))) by (unfold digest_bytes in E; destruct l as [|x0 l0]; [discriminate E|symmetry; apply (f_equal (fun o => match o with Some y => y | None => [] end)) in E; exact E]). clear E. subst b.
  unfold read_digest. rewrite <- (app_nil_r (enc digest_ty _)). rewrite unmarshal_enc; [| |exact L].
  - f_equal. rewrite map_map. apply map_ext_in. intros x I. unfold type_digest_val, type_digest_is. cbn [type_digest_of]. f_equal. rewrite map_map. reflexivity.
  - constructor. apply Forall2_cons; [|constructor]. constructor. apply Forall_forall. intros y I. apply in_map_iff in I as (x & <- & I). rewrite Forall_forall in F. destruct (F x I) as (A & B & C & D).
    constructor. apply Forall2_cons; [now apply has_i64|]. apply Forall2_cons; [now constructor|]. apply Forall2_cons; [now constructor|]. apply Forall2_cons; [|constructor].
    constructor. apply Forall_forall. intros z Iz. apply in_map_iff in Iz as (s & <- & Iz). destruct (D s Iz) as (X & Y & Z1). constructor. apply Forall2_cons; [now apply has_i64|]. apply Forall2_cons; [now constructor|]. apply Forall2_cons; [|constructor].
    destruct (ns_root s); now constructor.
Qed.
Lemma find_map {A B} (f : A -> B) (ida : A -> Z) (idb : B -> Z) l n : (forall x, idb (f x) = ida x) -> find_id idb (map f l) n = find_id ida l n.
Proof.
  intro E. unfold find_id. rewrite map_length. cbv zeta.
  assert (G : forall fuel lo hi, search fuel (fun k => match nth_error (map f l) k with Some y => n <=? idb y | None => false end) lo hi = search fuel (fun k => match nth_error l k with Some y => n <=? ida y | None => false end) lo hi).
  { induction fuel as [|k IH]; intros lo hi; cbn [search]; [reflexivity|]. destruct (lo <? hi)%nat; [|reflexivity]. cbv zeta. rewrite nth_error_map. destruct (nth_error l (Nat.div2 (lo + hi))) as [y|]; cbn [option_map]; [rewrite E; destruct (n <=? ida y); apply IH|apply IH]. }
  unfold sort_search. rewrite G. rewrite nth_error_map. destruct (nth_error l _) as [y|]; cbn [option_map]; [rewrite E|]; reflexivity.
Qed.
Lemma find_present {A} (id : A -> Z) l x : ascending (map id l) -> In x l -> exists i, find_id id l (id x) = Some i /\ nth_error l i = Some x.
Proof.
  intros S I. pose proof (find_id_ok id l (id x) S) as F. destruct (find_id id l (id x)) as [i|]; [|exfalso; exact (F x I eq_refl)]. exists i. split; [reflexivity|].
  destruct F as (y & E & Ey). assert (y = x); [|congruence]. apply In_nth_error in I as [k Ek]. destruct (Nat.lt_trichotomy k i) as [K|[K|K]].
  - pose proof (asc_nth id l S k i x y K Ek E). lia.
  - subst k. congruence.
  - pose proof (asc_nth id l S i k y x K E Ek). lia.
Qed.
