From Verif Require Import Model.Bytes Model.IntCodec Model.Rlp Spec.RlpSpec Proof.RlpFacts Model.BtpMerkle Model.BtpSection Spec.BtpMerkleSpec Spec.BtpSectionSpec Proof.BtpMerkleFacts Proof.BtpSectionSort.
From Coq Require Import Sorting.Sorted Sorting.Permutation.
Open Scope Z_scope.

Lemma i64_loop_len f : forall z t acc, blen (go_i64_loop f z t acc) <= Z.of_nat f + blen acc.
Proof.
  induction f as [|f IH]; intros z t acc; cbn [go_i64_loop]; [lia|]. cbv zeta. destruct (_ =? _).
  - unfold blen. cbn [length]. lia.
  - eapply Z.le_trans; [apply IH|]. unfold blen. cbn [length]. lia.
Qed.
Lemma i64_bytes_len z : blen (go_Int64ToBytes z) <= 8.
Proof. unfold go_Int64ToBytes. destruct (z =? 0); [unfold blen; cbn; lia|]. eapply Z.le_trans; [apply i64_loop_len|]. unfold blen. cbn. lia. Qed.
Lemma write_bytes_up b : blen b < 2 ^ 63 -> blen (write_bytes b) <= blen b + 9.
Proof.
  intro L. assert (0 <= blen b) by (unfold blen; lia). unfold write_bytes. cbv zeta. destruct (_ =? _) eqn:E; [unfold blen; cbn [length]; lia|]. destruct (_ && _); [lia|]. destruct (_ <=? _).
  - unfold blen. cbn [length]. lia.
  - destruct (size_ok (blen b)) as (_ & X & _); [lia|]. unfold blen in *. cbn [length]. rewrite app_length. lia.
Qed.
Lemma write_list_up b : blen b < 2 ^ 63 -> blen (write_list b) <= blen b + 9.
Proof.
  intro L. assert (0 <= blen b) by (unfold blen; lia). unfold write_list. cbv zeta. destruct (_ =? _) eqn:E; [unfold blen; cbn [length]; lia|]. destruct (_ <=? _).
  - unfold blen. cbn [length]. lia.
  - destruct (size_ok (blen b)) as (_ & X & _); [lia|]. unfold blen in *. cbn [length]. rewrite app_length. lia.
Qed.
Definition opt_enc (b : option bytes) : bytes := match b with None => write_null | Some b => write_bytes b end.
Lemma opt_up b : small_opt b -> blen (opt_enc b) <= 2 ^ 32 + 9.
Proof. destruct b as [b|]; cbn [small_opt opt_enc]; [intros [_ L]; pose proof (write_bytes_up b); lia|intros _; unfold blen; cbn; lia]. Qed.
Lemma num_up z : blen (write_bytes (go_Int64ToBytes z)) <= 17.
Proof. pose proof (i64_bytes_len z). pose proof (write_bytes_up (go_Int64ToBytes z)). lia. Qed.
Lemma has_opt b : small_opt b -> has TBytes (VBytes b).
Proof. destruct b as [b|]; [intros [W _]; now constructor|constructor]. Qed.
Lemma has_i64 z : int64_range z -> has (TInt 64) (VNum z).
Proof. intro R. constructor; [cbn; tauto|exact R]. Qed.
Lemma enc_inj t v v' : has t v -> has t v' -> blen (enc t v) < 2 ^ 63 -> enc t v = enc t v' -> v = v'.
Proof.
  intros X Y L E. pose proof (unmarshal_enc t v [] X L) as A. assert (L' : blen (enc t v') < 2 ^ 63) by (rewrite <- E; exact L). pose proof (unmarshal_enc t v' [] Y L') as B. rewrite E in A. congruence.
Qed.
Lemma blen_app2 (a b : bytes) : blen (a ++ b) = blen a + blen b.
Proof. unfold blen. rewrite app_length. lia. Qed.

Lemma section_bytes_inj n u p c r n' u' p' c' r' :
  int64_range n -> int64_range u -> small_opt p -> int64_range c -> small_opt r ->
  int64_range n' -> int64_range u' -> small_opt p' -> int64_range c' -> small_opt r' ->
  section_bytes n u p c r = section_bytes n' u' p' c' r' -> n = n' /\ u = u' /\ p = p' /\ c = c' /\ r = r'.
Proof.
  intros A1 A2 A3 A4 A5 B1 B2 B3 B4 B5 E. unfold section_bytes in E. apply enc_inj in E.
  - inversion E. auto.
  - constructor. repeat (apply Forall2_cons || apply Forall2_nil); auto using has_i64, has_opt.
  - constructor. repeat (apply Forall2_cons || apply Forall2_nil); auto using has_i64, has_opt.
  - unfold section_ty. cbn [enc]. fold (opt_enc p). fold (opt_enc r). rewrite app_nil_r.
    set (body := write_bytes (go_Int64ToBytes n) ++ _). assert (L : blen body <= 3 * 17 + 2 * (2 ^ 32 + 9)).
    { subst body. rewrite !blen_app2. pose proof (num_up n). pose proof (num_up u). pose proof (num_up c). pose proof (opt_up p A3). pose proof (opt_up r A5). lia. }
    pose proof (write_list_up body). lia.
Qed.
Lemma decision_bytes_inj s n h r x s' n' h' r' x' :
  small_bytes s -> int64_range n -> int64_range h -> - 2 ^ 31 <= r < 2 ^ 31 -> small_bytes x ->
  small_bytes s' -> int64_range n' -> int64_range h' -> - 2 ^ 31 <= r' < 2 ^ 31 -> small_bytes x' ->
  decision_bytes s n h r x = decision_bytes s' n' h' r' x' -> s = s' /\ n = n' /\ h = h' /\ r = r' /\ x = x'.
Proof.
  intros A1 A2 A3 A4 A5 B1 B2 B3 B4 B5 E. unfold decision_bytes in E.
  assert (G : forall s n h r x, small_bytes s -> int64_range n -> int64_range h -> - 2 ^ 31 <= r < 2 ^ 31 -> small_bytes x ->
    has decision_ty (VList (Some [VBytes (Some s); VNum n; VNum h; VNum r; VBytes (Some x)]))).
  { intros. constructor. apply Forall2_cons; [apply (has_opt (Some _)); assumption|]. apply Forall2_cons; [now apply has_i64|]. apply Forall2_cons; [now apply has_i64|].
    apply Forall2_cons; [constructor; [cbn; tauto|assumption]|]. apply Forall2_cons; [apply (has_opt (Some _)); assumption|constructor]. }
  apply enc_inj in E; [inversion E; auto|now apply G|now apply G|].
  unfold decision_ty. cbn [enc]. rewrite app_nil_r. set (body := write_bytes s ++ _). assert (L : blen body <= 3 * 17 + 2 * (2 ^ 32 + 9)).
  { subst body. rewrite !blen_app2. pose proof (num_up n). pose proof (num_up h). pose proof (num_up r). pose proof (opt_up (Some s) A1) as X. pose proof (opt_up (Some x) A5) as Y. cbn [opt_enc] in X, Y. lia. }
  pose proof (write_list_up body). lia.
Qed.
Lemma type_section_bytes_inj p r p' r' : small_opt p -> small_opt r -> small_opt p' -> small_opt r' -> type_section_bytes p r = type_section_bytes p' r' -> p = p' /\ r = r'.
Proof.
  intros A1 A2 B1 B2 E. unfold type_section_bytes in E. apply enc_inj in E.
  - inversion E. auto.
  - constructor. repeat (apply Forall2_cons || apply Forall2_nil); auto using has_opt.
  - constructor. repeat (apply Forall2_cons || apply Forall2_nil); auto using has_opt.
  - unfold type_section_ty. cbn [enc]. fold (opt_enc p). fold (opt_enc r). rewrite app_nil_r.
    set (body := opt_enc p ++ _). assert (L : blen body <= 2 * (2 ^ 32 + 9)) by (subst body; rewrite !blen_app2; pose proof (opt_up p A1); pose proof (opt_up r A2); lia).
    pose proof (write_list_up body). lia.
Qed.

(** ** Sections *)
Section Facts.
Variable H : bytes -> bytes -> bytes.
Variable uid : bytes.
Hypothesis HS : sane_hash (H uid).

Lemma h32 : hash32 (H uid). Proof. intro s. apply HS. Qed.
Lemma hashes_32 ms : all32 (map (H uid) ms).
Proof. apply Forall_forall. intros x I. apply in_map_iff in I as (m & <- & _). apply h32. Qed.
Lemma hashes_items ms : cat_items (concat (map (H uid) ms)) = map (H uid) ms.
Proof. rewrite <- (app_nil_r (concat (map (H uid) ms))). apply cat_items_ok; [apply hashes_32|cbn; lia]. Qed.
Lemma root_top ms r : merkle_root (H uid) (map (H uid) ms) = Some r -> on_top (H uid) (map (H uid) ms) r.
Proof.
  intro E. destruct (root_ok (H uid) h32 (map (H uid) ms) (hashes_32 ms)) as (r' & E' & T); [intro X; rewrite X in E; discriminate E|]. assert (r' = r) by congruence. now subst r'.
Qed.
Lemma top_small l r : on_top (H uid) l r -> Forall (fun x => length x = 32%nat /\ wf_bytes x) l -> length r = 32%nat /\ wf_bytes r.
Proof.
  induction 1 as [x|l r L T IH]; intro F; [exact (Forall_inv F)|]. apply IH. clear - F HS. revert l F. fix IH 1. intros [|a [|b l]] F; [exact F|exact F|]. cbn [above]. constructor; [apply HS|]. apply IH. exact (Forall_inv_tail (Forall_inv_tail F)).
Qed.
Lemma root_small ms : small_opt (merkle_root (H uid) (map (H uid) ms)).
Proof.
  destruct (merkle_root (H uid) (map (H uid) ms)) as [r|] eqn:E; [|exact Logic.I]. destruct (top_small _ _ (root_top ms r E)) as [L W].
  - apply Forall_forall. intros x I. apply in_map_iff in I as (m & <- & _). apply HS.
  - split; [exact W|]. unfold blen. rewrite L. lia.
Qed.

Lemma wrap_id z : - 2 ^ 63 <= z < 2 ^ 63 -> wrap64 z = z.
Proof. intro R. unfold wrap64. rewrite Z.mod_small by lia. lia. Qed.
Lemma update_ok sn k (c : bool) : 0 <= k <= sn -> sn < 2 ^ 62 ->
  (if c then Z.lor (wrap64 (wrap64 (sn - k) * 2)) 1 else wrap64 (wrap64 (sn - k) * 2)) = 2 * (sn - k) + Z.b2z c.
Proof.
  intros A B. rewrite (wrap_id (sn - k)) by lia. rewrite wrap_id by lia. destruct c; cbn [Z.b2z]; [|lia].
  replace ((sn - k) * 2) with (2 * (sn - k)) by lia. set (q := sn - k).
  assert (q = 0 \/ 0 < q) as [-> |Q] by (unfold q; lia); [reflexivity|]. destruct q; try lia. reflexivity.
Qed.
Lemma section_numbers nid nw ms : blen ms <= nw_next_sn nw < 2 ^ 62 ->
  let s := new_section H nid nw ms uid in
  ns_update s = 2 * (nw_next_sn nw - blen ms) + Z.b2z (nw_changed nw) /\ first_sn s = nw_next_sn nw - blen ms /\ context_changed s = nw_changed nw.
Proof.
  intros A s. assert (0 <= blen ms) by (unfold blen; lia). assert (E : ns_update s = 2 * (nw_next_sn nw - blen ms) + Z.b2z (nw_changed nw)) by (unfold s, new_section; cbn [ns_update]; apply update_ok; lia).
  split; [exact E|]. unfold first_sn, context_changed. rewrite E. split.
  - rewrite Z.shiftr_div_pow2 by lia. change (2 ^ 1) with 2. rewrite Z.mul_comm, Z.div_add_l by lia. destruct (nw_changed nw); cbn [Z.b2z]; [change (1 / 2) with 0|change (0 / 2) with 0]; lia.
  - apply Z.testbit_0_r.
Qed.

Definition sane_section (s : section) : Prop := exists nid nw ms, int64_range nid /\ sane_network nw /\ blen ms <= nw_next_sn nw /\ s = new_section H nid nw ms uid.
Lemma map_H_inj ms ms' : map (H uid) ms = map (H uid) ms' -> ms = ms' \/ exists x y, In x ms /\ In y ms' /\ x <> y /\ H uid x = H uid y.
Proof.
  revert ms'. induction ms as [|a ms IH]; intros [|b ms'] E; try discriminate E; [auto|]. cbn [map] in E. injection E as E1 E2. destruct (bytes_eq_dec a b) as [->|N].
  - destruct (IH ms' E2) as [->|(x & y & X & Y & Z1)]; [auto|]. right. exists x, y. cbn [In]. auto.
  - right. exists a, b. cbn [In]. auto.
Qed.
Lemma section_binds s s' : sane_section s -> sane_section s' -> ns_hash s = ns_hash s' ->
  (ns_nid s = ns_nid s' /\ ns_update s = ns_update s' /\ ns_prev s = ns_prev s' /\ ns_messages s = ns_messages s')
  \/ exists x y, hashed_for (H uid) s x /\ hashed_for (H uid) s' y /\ x <> y /\ H uid x = H uid y.
Proof.
  intros (n & w & ms & A1 & A2 & A3 & ->) (n' & w' & ms' & B1 & B2 & B3 & ->) E.
  destruct (section_numbers n w ms) as (U & _ & _); [destruct A2; lia|]. destruct (section_numbers n' w' ms') as (U' & _ & _); [destruct B2; lia|].
  set (s := new_section H n w ms uid) in *. set (s' := new_section H n' w' ms' uid) in *.
  set (str := section_bytes (ns_nid s) (ns_update s) (ns_prev s) (blen (cat_items (ns_hashes s))) (ns_root s)). set (str' := section_bytes (ns_nid s') (ns_update s') (ns_prev s') (blen (cat_items (ns_hashes s'))) (ns_root s')).
  assert (C : cat_items (ns_hashes s) = map (H uid) ms) by apply hashes_items. assert (C' : cat_items (ns_hashes s') = map (H uid) ms') by apply hashes_items.
  assert (R : ns_root s = merkle_root (H uid) (map (H uid) ms)) by (rewrite <- C; reflexivity). assert (R' : ns_root s' = merkle_root (H uid) (map (H uid) ms')) by (rewrite <- C'; reflexivity).
  destruct (bytes_eq_dec str str') as [Es|Ns].
  2: { right. exists str, str'. split; [right; right; reflexivity|]. split; [right; right; reflexivity|]. split; [exact Ns|exact E]. }
  assert (0 <= blen ms) by (unfold blen; lia). assert (0 <= blen ms') by (unfold blen; lia).
  assert (M : blen (map (H uid) ms) = blen ms) by (unfold blen; now rewrite map_length). assert (M' : blen (map (H uid) ms') = blen ms') by (unfold blen; now rewrite map_length).
  destruct A2 as [A2 A4], B2 as [B2 B4].
  apply section_bytes_inj in Es; [|exact A1|rewrite U; unfold int64_range; destruct (nw_changed w); cbn [Z.b2z]; lia|exact A4|rewrite C, M; unfold int64_range; lia|rewrite R; apply root_small
     |exact B1|rewrite U'; unfold int64_range; destruct (nw_changed w'); cbn [Z.b2z]; lia|exact B4|rewrite C', M'; unfold int64_range; lia|rewrite R'; apply root_small].
  destruct Es as (E1 & E2 & E3 & E4 & E5). rewrite C, C', M, M' in E4. rewrite R, R' in E5.
  assert (G : map (H uid) ms = map (H uid) ms' \/ clash (H uid) (in_tree (H uid) (map (H uid) ms)) (in_tree (H uid) (map (H uid) ms'))).
  { destruct (merkle_root (H uid) (map (H uid) ms)) as [r|] eqn:Er.
    - apply (top_inj (H uid) h32 _ r (root_top ms r Er)); [apply hashes_32|apply hashes_32|rewrite !map_length; unfold blen in E4; lia|apply root_top; congruence].
    - destruct ms; [|cbn in Er; destruct (map _ ms); discriminate Er]. destruct ms'; [auto|]. unfold blen in E4. cbn in E4. lia. }
  destruct G as [G|(x & y & X & Y & N & Ex)].
  - destruct (map_H_inj ms ms' G) as [Em|(x & y & X & Y & N & Ex)]; [left; auto|]. right. exists x, y. split; [left; exact X|]. split; [left; exact Y|auto].
  - right. exists x, y. split; [right; left; rewrite C; exact X|]. split; [right; left; rewrite C'; exact Y|auto].
Qed.
End Facts.
