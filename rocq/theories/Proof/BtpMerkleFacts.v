From Verif Require Import Model.Bytes Model.BtpMerkle Spec.BtpMerkleSpec.
Open Scope nat_scope.

Section Facts.
Variable H : bytes -> bytes.
Hypothesis H32 : hash32 H.

Lemma put_at_len j x b : j + length x <= length b -> length (put_at j x b) = length b.
Proof. intro L. unfold put_at. rewrite !app_length, firstn_length, skipn_length. lia. Qed.
Lemma put_at_front j x b : j + length x <= length b -> firstn (j + length x) (put_at j x b) = firstn j b ++ x.
Proof.
  intro L. unfold put_at. rewrite app_assoc. replace (j + length x) with (length (firstn j b ++ x)) at 1 by (rewrite app_length, firstn_length; lia).
  rewrite firstn_app. rewrite firstn_all, Nat.sub_diag. cbn. apply app_nil_r.
Qed.
Lemma put_at_behind j x b k : j + length x <= k -> j + length x <= length b -> skipn k (put_at j x b) = skipn k b.
Proof.
  intros L L'. unfold put_at. rewrite app_assoc, skipn_app. rewrite skipn_all2 by (rewrite app_length, firstn_length; lia). cbn [app].
  rewrite app_length, firstn_length. replace (Nat.min j (length b)) with j by lia.
  assert (G : forall (a c : nat) (l : bytes), skipn a (skipn c l) = skipn (c + a) l).
  { intros a c l. revert a l. induction c; intros a l; cbn [skipn Nat.add]; [reflexivity|]. destruct l; [apply skipn_nil|apply IHc]. }
  rewrite G. f_equal. lia.
Qed.
Lemma all32_concat l : all32 l -> length (concat l) = 32 * length l.
Proof. induction 1 as [|x l E A IH]; [reflexivity|]. cbn [concat length]. rewrite app_length, IH, E. lia. Qed.
Lemma slice_skip i j b x r : skipn i b = x ++ r -> length x = j - i -> slice i j b = x.
Proof. intros E L. unfold slice. rewrite E. rewrite <- L. rewrite firstn_app, firstn_all, Nat.sub_diag. cbn. apply app_nil_r. Qed.
Lemma skipn_more k (b x r : bytes) i : skipn i b = x ++ r -> length x = k -> skipn (i + k) b = r.
Proof.
  intros E L.
  assert (G : forall (a c : nat) (l : bytes), skipn a (skipn c l) = skipn (c + a) l).
  { intros a c l. revert a l. induction c; intros a l; cbn [skipn Nat.add]; [reflexivity|]. destruct l; [apply skipn_nil|apply IHc]. }
  rewrite <- G, E, skipn_app, <- L, skipn_all, Nat.sub_diag. reflexivity.
Qed.

Lemma above_all32 : forall l, all32 l -> all32 (above H l).
Proof.
  fix IH 1. intros [|a [|b r]] A; [exact A|exact A|]. cbn [above]. constructor; [apply H32|]. apply IH. exact (Forall_inv_tail (Forall_inv_tail A)).
Qed.
Lemma above_len : forall l, length (above H l) = (length l + 1) / 2.
Proof.
  fix IH 1. intros [|a [|b r]]; [reflexivity|reflexivity|]. cbn [above length]. rewrite IH.
  replace (S (S (length r)) + 1) with (length r + 1 + 1 * 2) by lia. rewrite Nat.div_add by lia. lia.
Qed.
Lemma above_short l : 2 <= length l -> length (above H l) < length l.
Proof.
  intro L. rewrite above_len. apply Nat.div_lt_upper_bound; lia.
Qed.
Lemma above_one l : 2 <= length l -> 1 <= length (above H l).
Proof. intro L. rewrite above_len. apply Nat.div_le_lower_bound; lia. Qed.

(** The state in a pass: [done] written, [rest] to read, [tail] behind the length. *)
Definition at_ (done rest : list bytes) (tail : bytes) (i j n : nat) (b : bytes) : Prop :=
  all32 done /\ all32 rest /\ j = 32 * length done /\ j <= i /\ n = i + 32 * length rest
  /\ firstn j b = concat done /\ skipn i b = concat rest ++ tail /\ i <= length b.

Lemma step_pair done a c r tail i j n b : at_ done (a :: c :: r) tail i j n b ->
  i < n /\ i + 64 <= n /\ slice i (i + 64) b = a ++ c /\ slice i (i + 32) b = a /\ slice (i + 32) (i + 64) b = c
  /\ at_ (done ++ [H (a ++ c)]) r tail (i + 64) (j + 32) n (put_at j (H (slice i (i + 64) b)) b).
Proof.
  intros (D & R & Ej & Ji & En & F & K & Ib). pose proof (Forall_inv R) as La. pose proof (Forall_inv (Forall_inv_tail R)) as Lc. cbn beta in La, Lc.
  pose proof (Forall_inv_tail (Forall_inv_tail R)) as Rr. cbn [length] in En. cbn [concat] in K.
  assert (K2 : skipn i b = (a ++ c) ++ concat r ++ tail) by (rewrite K, <- !app_assoc; reflexivity).
  assert (K1 : skipn i b = a ++ (c ++ concat r) ++ tail) by (rewrite K, <- !app_assoc; reflexivity).
  assert (Lb : i + 64 <= length b).
  { assert (X : length (skipn i b) = length b - i) by apply skipn_length. rewrite K2 in X. rewrite !app_length in X. lia. }
  assert (S2 : slice i (i + 64) b = a ++ c) by (eapply slice_skip; [exact K2|rewrite app_length; lia]).
  split; [lia|]. split; [lia|]. split; [exact S2|]. split; [eapply slice_skip; [exact K1|lia]|].
  split.
  { pose proof (skipn_more 32 b a _ i K1 La) as K3. rewrite <- app_assoc in K3. eapply slice_skip; [exact K3|lia]. }
  rewrite S2. assert (LH : length (H (a ++ c)) = 32) by apply H32. unfold at_.
  split; [apply Forall_app; split; [exact D|constructor; [exact LH|constructor]]|]. split; [exact Rr|].
  split; [rewrite app_length; cbn [length]; lia|]. split; [lia|]. split; [lia|]. split.
  { rewrite <- LH at 1. rewrite put_at_front by lia. rewrite F, concat_app. cbn [concat]. now rewrite app_nil_r. }
  split; [rewrite put_at_behind by lia; apply (skipn_more 64 b (a ++ c) _ i K2); rewrite app_length; lia|].
  rewrite put_at_len; lia.
Qed.
Lemma step_last done a tail i j n b : at_ done [a] tail i j n b ->
  i < n /\ ~ i + 64 <= n
  /\ exists tail', at_ (done ++ [a]) [] tail' (i + 32) (j + 32) n (put_at j (slice i (i + 32) b) b).
Proof.
  intros (D & R & Ej & Ji & En & F & K & Ib). pose proof (Forall_inv R) as La. cbn beta in La. cbn [length] in En. cbn [concat] in K. rewrite app_nil_r in K.
  assert (Lb : i + 32 <= length b).
  { assert (X : length (skipn i b) = length b - i) by apply skipn_length. rewrite K in X. rewrite !app_length in X. lia. }
  assert (S2 : slice i (i + 32) b = a) by (eapply slice_skip; [exact K|lia]).
  split; [lia|]. split; [lia|]. exists (skipn (i + 32) b). rewrite S2. unfold at_.
  split; [apply Forall_app; split; [exact D|constructor; [exact La|constructor]]|]. split; [constructor|].
  split; [rewrite app_length; cbn [length]; lia|]. split; [lia|]. split; [cbn; lia|]. split.
  { rewrite <- La at 1. rewrite put_at_front by lia. rewrite F, concat_app. cbn [concat]. now rewrite app_nil_r. }
  split; [rewrite put_at_behind by lia; reflexivity|]. rewrite put_at_len; lia.
Qed.

Lemma pass_ok : forall fuel done rest tail i j n b, at_ done rest tail i j n b -> length rest < fuel ->
  exists b', pass H fuel i j n b = (32 * length (done ++ above H rest), b') /\ firstn (32 * length (done ++ above H rest)) b' = concat (done ++ above H rest).
Proof.
  induction fuel as [|f IH]; intros done rest tail i j n b A L; [lia|]. cbn [pass]. destruct rest as [|a [|c r]].
  - destruct A as (D & R & Ej & Ji & En & F & K & Ib). cbn [length] in En. replace (i <? n) with false by (symmetry; apply Nat.ltb_ge; lia).
    cbn [above]. rewrite app_nil_r. exists b. rewrite <- Ej. auto.
  - destruct (step_last _ _ _ _ _ _ _ A) as (X1 & X2 & tail' & A'). replace (i <? n) with true by (symmetry; apply Nat.ltb_lt; exact X1).
    replace (i + 64 <=? n) with false by (symmetry; apply Nat.leb_gt; lia).
    destruct A' as (D & R & Ej & Ji & En & F & K & Ib). cbn [length] in En.
    destruct f as [|f]; [cbn [length] in L; lia|]. cbn [pass]. replace (i + 64 <? n) with false by (symmetry; apply Nat.ltb_ge; lia).
    cbn [above]. eexists. rewrite <- Ej. split; [reflexivity|exact F].
  - destruct (step_pair _ _ _ _ _ _ _ _ _ A) as (X1 & X2 & _ & _ & _ & A'). replace (i <? n) with true by (symmetry; apply Nat.ltb_lt; exact X1).
    replace (i + 64 <=? n) with true by (symmetry; apply Nat.leb_le; exact X2). cbn [length] in L.
    destruct (IH _ _ _ _ _ _ _ A') as (b' & E & F); [lia|]. cbn [above].
    rewrite <- app_assoc in E, F. cbn [app] in E, F. eauto.
Qed.

Lemma start_at l b : all32 l -> firstn (32 * length l) b = concat l -> 32 * length l <= length b ->
  exists tail, at_ [] l tail 0 0 (32 * length l) b.
Proof.
  intros A F L. exists (skipn (32 * length l) b). unfold at_. split; [constructor|]. split; [exact A|]. split; [reflexivity|]. split; [lia|]. split; [lia|].
  split; [reflexivity|]. split; [|lia]. cbn [skipn]. rewrite <- F. symmetry. apply firstn_skipn.
Qed.
Lemma front_len (l : list bytes) (b : bytes) : all32 l -> firstn (32 * length l) b = concat l -> 32 * length l <= length b.
Proof. intros A F. assert (X : length (firstn (32 * length l) b) = length (concat l)) by now rewrite F. rewrite firstn_length, all32_concat in X by exact A. lia. Qed.

Lemma root_loop_ok : forall fuel l b, all32 l -> 1 <= length l -> firstn (32 * length l) b = concat l -> length l <= fuel ->
  on_top H l (root_loop H fuel (32 * length l) b).
Proof.
  induction fuel as [|f IH]; intros l b A L F K; [lia|]. cbn [root_loop]. destruct (32 <? 32 * length l) eqn:E.
  - apply Nat.ltb_lt in E. destruct (start_at l b A F (front_len _ _ A F)) as (tail & At).
    destruct (pass_ok (32 * length l) _ _ _ _ _ _ _ At) as (b' & Ep & Fp); [lia|]. rewrite Ep. cbn [app] in *.
    apply top_more; [lia|]. apply IH; [now apply above_all32|apply above_one; lia|exact Fp|].
    pose proof (above_short l). lia.
  - apply Nat.ltb_ge in E. destruct l as [|x [|y r]]; cbn [length] in *; try lia. cbn [concat] in F. rewrite app_nil_r in F.
    replace (32 * 1) with 32 in F by reflexivity. rewrite F. constructor.
Qed.
Lemma root_ok l : all32 l -> l <> [] -> exists r, merkle_root H l = Some r /\ on_top H l r.
Proof.
  intros A N. destruct l as [|x [|y r]]; [contradiction|exists x; split; [reflexivity|constructor]|]. eexists. split; [reflexivity|]. cbv zeta.
  rewrite all32_concat at 2 by exact A.
  apply root_loop_ok; [exact A|cbn; lia|rewrite <- all32_concat by exact A; apply firstn_all|rewrite all32_concat by exact A; lia].
Qed.
Lemma on_top_fun l r : on_top H l r -> forall r', on_top H l r' -> r = r'.
Proof.
  induction 1 as [x|l r L T IH]; intros r' T'; inversion T'; subst; try reflexivity; try (cbn in *; lia). auto.
Qed.

(** ** Proofs *)
Definition stepp (l : list bytes) (k : nat) : dir * option bytes :=
  if Nat.even k then (DirRight, nth_error l (S k)) else (DirLeft, nth_error l (pred k)).

Lemma even_SS k : Nat.even (S (S k)) = Nat.even k. Proof. reflexivity. Qed.
Lemma proof_pass_found : forall fuel done rest tail i j n b idx p, at_ done rest tail i j n b -> length rest < fuel -> idx < i ->
  exists b', proof_pass H fuel i j n b idx p = (32 * length (done ++ above H rest), b', idx, p) /\ firstn (32 * length (done ++ above H rest)) b' = concat (done ++ above H rest).
Proof.
  induction fuel as [|f IH]; intros done rest tail i j n b idx p A L Hx; [lia|]. cbn [proof_pass]. destruct rest as [|a [|c r]].
  - destruct A as (D & R & Ej & Ji & En & F & K & Ib). cbn [length] in En. replace (i <? n) with false by (symmetry; apply Nat.ltb_ge; lia).
    cbn [above]. rewrite app_nil_r. exists b. rewrite <- Ej. auto.
  - destruct (step_last _ _ _ _ _ _ _ A) as (X1 & X2 & tail' & A'). replace (i <? n) with true by (symmetry; apply Nat.ltb_lt; exact X1).
    replace (i + 64 <=? n) with false by (symmetry; apply Nat.leb_gt; lia). replace (idx =? i) with false by (symmetry; apply Nat.eqb_neq; lia).
    destruct A' as (D & R & Ej & Ji & En & F & K & Ib). cbn [length] in En.
    destruct f as [|f]; [cbn [length] in L; lia|]. cbn [proof_pass]. replace (i + 64 <? n) with false by (symmetry; apply Nat.ltb_ge; lia).
    cbn [above]. eexists. rewrite <- Ej. split; [reflexivity|exact F].
  - destruct (step_pair _ _ _ _ _ _ _ _ _ A) as (X1 & X2 & _ & _ & _ & A'). replace (i <? n) with true by (symmetry; apply Nat.ltb_lt; exact X1).
    replace (i + 64 <=? n) with true by (symmetry; apply Nat.leb_le; exact X2). replace (idx =? i) with false by (symmetry; apply Nat.eqb_neq; lia).
    replace (idx =? i + 32) with false by (symmetry; apply Nat.eqb_neq; lia). cbn [length] in L.
    destruct (IH _ _ _ _ _ _ _ idx p A') as (b' & E & F); [lia|lia|]. cbn [above].
    rewrite <- app_assoc in E, F. cbn [app] in E, F. eauto.
Qed.
Lemma half_SS k : (S (S k)) / 2 = S (k / 2).
Proof. replace (S (S k)) with (k + 1 * 2) by lia. rewrite Nat.div_add by lia. lia. Qed.
Lemma stepp_SS a c r k : stepp (a :: c :: r) (S (S k)) = stepp r k.
Proof. unfold stepp. rewrite even_SS. destruct (Nat.even k) eqn:E; [reflexivity|]. f_equal. destruct k as [|k]; [discriminate E|]. reflexivity. Qed.
Lemma proof_pass_ok : forall fuel done rest tail i j n b k p, at_ done rest tail i j n b -> length rest < fuel -> k < length rest ->
  exists b', proof_pass H fuel i j n b (i + 32 * k) p = (32 * length (done ++ above H rest), b', 32 * (length done + k / 2), p ++ [stepp rest k])
    /\ firstn (32 * length (done ++ above H rest)) b' = concat (done ++ above H rest).
Proof.
  induction fuel as [|f IH]; intros done rest tail i j n b k p A L Hk; [lia|]. cbn [proof_pass]. destruct rest as [|a [|c r]].
  - cbn [length] in Hk. lia.
  - cbn [length] in Hk. assert (k = 0) by lia; subst k. replace (i + 32 * 0) with i by lia.
    assert (Ej0 : j = 32 * length done) by apply A.
    destruct (step_last _ _ _ _ _ _ _ A) as (X1 & X2 & tail' & A'). replace (i <? n) with true by (symmetry; apply Nat.ltb_lt; exact X1).
    replace (i + 64 <=? n) with false by (symmetry; apply Nat.leb_gt; lia). rewrite Nat.eqb_refl.
    destruct A' as (D & R & Ej & Ji & En & F & K & Ib). cbn [length] in En.
    destruct f as [|f]; [cbn [length] in L; lia|]. cbn [proof_pass]. replace (i + 64 <? n) with false by (symmetry; apply Nat.ltb_ge; lia).
    cbn [above]. eexists. rewrite <- Ej. split; [|exact F]. replace (32 * (length done + 0 / 2)) with j by (cbn [Nat.div Nat.divmod fst]; lia). reflexivity.
  - assert (Ej0 : j = 32 * length done) by apply A. assert (Ji : j <= i) by apply A.
    destruct (step_pair _ _ _ _ _ _ _ _ _ A) as (X1 & X2 & _ & Sa & Sc & A'). replace (i <? n) with true by (symmetry; apply Nat.ltb_lt; exact X1).
    replace (i + 64 <=? n) with true by (symmetry; apply Nat.leb_le; exact X2). cbn [length] in L.
    destruct k as [|[|k]].
    + replace (i + 32 * 0) with i by lia. rewrite Nat.eqb_refl.
      destruct (proof_pass_found f _ _ _ _ _ _ _ j (p ++ [(DirRight, Some (slice (i + 32) (i + 64) b))]) A') as (b' & E & F); [lia|lia|].
      cbn [above]. rewrite <- app_assoc in E, F. cbn [app] in E, F. exists b'. split; [|exact F].
      rewrite Sc in *. replace (32 * (length done + 0 / 2)) with j by (cbn [Nat.div Nat.divmod fst]; lia). exact E.
    + replace (i + 32 * 1 =? i) with false by (symmetry; apply Nat.eqb_neq; lia). replace (i + 32 * 1 =? i + 32) with true by (symmetry; apply Nat.eqb_eq; lia).
      destruct (proof_pass_found f _ _ _ _ _ _ _ j (p ++ [(DirLeft, Some (slice i (i + 32) b))]) A') as (b' & E & F); [lia|lia|].
      cbn [above]. rewrite <- app_assoc in E, F. cbn [app] in E, F. exists b'. split; [|exact F].
      rewrite Sa in *. replace (32 * (length done + 1 / 2)) with j by (cbn [Nat.div Nat.divmod fst]; lia). exact E.
    + replace (i + 32 * S (S k) =? i) with false by (symmetry; apply Nat.eqb_neq; lia). replace (i + 32 * S (S k) =? i + 32) with false by (symmetry; apply Nat.eqb_neq; lia).
      cbn [length] in Hk. destruct (IH _ _ _ _ _ _ _ k p A') as (b' & E & F); [lia|lia|]. cbn [above]. replace (i + 64 + 32 * k) with (i + 32 * S (S k)) in E by lia.
      rewrite <- app_assoc in E, F. cbn [app] in E, F. exists b'. split; [|exact F]. rewrite stepp_SS, half_SS.
      replace (length (done ++ [H (a ++ c)])) with (length done + 1) in E by (rewrite app_length; reflexivity). replace (length done + 1 + k / 2) with (length done + S (k / 2)) in E by lia. exact E.
Qed.

(** The path of an item, by levels. *)
Inductive path_of : list bytes -> nat -> path -> Prop :=
| po_one x : path_of [x] 0 []
| po_more l k p : 2 <= length l -> k < length l -> path_of (above H l) (k / 2) p -> path_of l k (stepp l k :: p).

Lemma half_above l k : k < length l -> k / 2 < length (above H l).
Proof.
  intro L. rewrite above_len. apply Nat.div_lt_upper_bound; [lia|]. pose proof (Nat.div_mod (length l + 1) 2). pose proof (Nat.mod_upper_bound (length l + 1) 2). lia.
Qed.
Lemma proof_loop_ok : forall fuel l b k p, all32 l -> k < length l -> firstn (32 * length l) b = concat l -> length l <= fuel ->
  exists q, proof_loop H fuel (32 * length l) b (32 * k) p = p ++ q /\ path_of l k q.
Proof.
  induction fuel as [|f IH]; intros l b k p A L F K; [lia|]. cbn [proof_loop]. destruct (32 <? 32 * length l) eqn:E.
  - apply Nat.ltb_lt in E. destruct (start_at l b A F (front_len _ _ A F)) as (tail & At).
    destruct (proof_pass_ok (32 * length l) _ _ _ _ _ _ _ k p At) as (b' & Ep & Fp); [lia|lia|]. rewrite Nat.add_0_l in Ep. rewrite Ep. cbn [app length Nat.add] in *.
    destruct (IH (above H l) b' (k / 2) (p ++ [stepp l k])) as (q & Eq & Pq); [now apply above_all32|now apply half_above|exact Fp|pose proof (above_short l); lia|].
    exists (stepp l k :: q). split; [rewrite Eq, <- app_assoc; reflexivity|]. constructor; [lia|exact L|exact Pq].
  - apply Nat.ltb_ge in E. destruct l as [|x [|y r]]; cbn [length] in *; try lia. assert (k = 0) by lia; subst k. exists []. split; [symmetry; apply app_nil_r|constructor].
Qed.
Lemma proof_ok l k : all32 l -> k < length l -> path_of l k (merkle_proof H l k).
Proof.
  intros A L. destruct l as [|x [|y r]]; cbn [length] in L; [lia|assert (k = 0) by lia; subst k; constructor|].
  unfold merkle_proof. set (l := x :: y :: r) in *. cbv zeta. rewrite all32_concat at 2 by exact A. replace (k * 32) with (32 * k) by lia.
  destruct (proof_loop_ok (length (concat l)) l (concat l) k []) as (q & E & P); [exact A|exact L|rewrite <- all32_concat by exact A; apply firstn_all|rewrite all32_concat by exact A; lia|].
  rewrite E. exact P.
Qed.

(** One step of the climb goes to the level above. *)
Lemma above_nth : forall l k x, nth_error l k = Some x ->
  nth_error (above H l) (k / 2) = Some (match stepp l k with
    | (DirRight, Some v) => H (x ++ v) | (DirLeft, Some v) => H (v ++ x) | (_, None) => x end).
Proof.
  fix IH 1. intros [|a [|b r]] k x E.
  - destruct k; discriminate E.
  - destruct k as [|[|k]]; try discriminate E. cbn in *. congruence.
  - destruct k as [|[|k]]; [cbn in *; congruence|cbn in *; congruence|]. rewrite half_SS, stepp_SS. cbn [above nth_error]. apply IH. exact E.
Qed.
Lemma climb_ok l k p : path_of l k p -> forall x r, nth_error l k = Some x -> on_top H l r -> climb H x p = r.
Proof.
  induction 1 as [y|l k p L K P IH]; intros x r E T.
  - inversion T; subst; [cbn in *; congruence|cbn in *; lia].
  - inversion T; subst; [cbn in L; lia|]. pose proof (above_nth l k x E) as N.
    specialize (IH _ _ N H1). cbn [climb]. destruct (stepp l k) as [[|] [v|]]; exact IH.
Qed.

(** ** Binding *)
Definition clash (a b : bytes -> Prop) : Prop := exists s t, a s /\ b t /\ s <> t /\ H s = H t.
Lemma app32 (a b c d : bytes) : a ++ b = c ++ d -> length a = length c -> a = c /\ b = d.
Proof.
  revert c. induction a as [|x a IH]; intros [|y c] E L; try discriminate L; [auto|]. cbn in E, L. inversion E; subst. destruct (IH c H2) as [-> ->]; [lia|]. auto.
Qed.
Lemma above_inj : forall l m, all32 l -> all32 m -> length l = length m -> above H l = above H m ->
  l = m \/ exists s t, In s (pairs l) /\ In t (pairs m) /\ s <> t /\ H s = H t.
Proof.
  fix IH 1. intros [|a [|b r]] m A B L E.
  - destruct m; [left; reflexivity|discriminate L].
  - destruct m as [|c [|d m]]; try discriminate L. cbn in E. left; exact E.
  - destruct m as [|c [|d m]]; try discriminate L. cbn [above] in E. injection E as E1 E2. cbn [length] in L.
    destruct (bytes_eq_dec (a ++ b) (c ++ d)) as [X|X].
    + destruct (app32 _ _ _ _ X) as [-> ->]; [rewrite (Forall_inv A), (Forall_inv B); reflexivity|].
      destruct (IH r m) as [->|(s & t & I1 & I2 & N & Eh)]; [exact (Forall_inv_tail (Forall_inv_tail A))|exact (Forall_inv_tail (Forall_inv_tail B))|lia|exact E2|left; reflexivity|].
      right. exists s, t. cbn [pairs In]. split; [right; exact I1|]. split; [right; exact I2|]. split; [exact N|exact Eh].
    + right. exists (a ++ b), (c ++ d). cbn [pairs In]. split; [left; reflexivity|]. split; [left; reflexivity|]. split; [exact X|exact E1].
Qed.
Lemma top_inj l r : on_top H l r -> forall m, all32 l -> all32 m -> length l = length m -> on_top H m r ->
  l = m \/ clash (in_tree H l) (in_tree H m).
Proof.
  induction 1 as [x|l r L T IH]; intros m A B Le T'.
  - inversion T'; subst; [auto|cbn in *; lia].
  - inversion T'; subst; [cbn in *; lia|].
    destruct (IH (above H m)) as [E|(s & t & I1 & I2 & N & Eh)]; [now apply above_all32|now apply above_all32|rewrite !above_len; congruence|assumption|..].
    + destruct (above_inj l m A B Le E) as [->|(s & t & I1 & I2 & N & Eh)]; [auto|]. right. exists s, t. split; [now constructor|]. split; [now constructor|auto].
    + right. exists s, t. split; [now apply higher|]. split; [now apply higher|auto].
Qed.
Lemma climb_inj p : forall q x y, way p = way q -> path32 p -> path32 q -> length x = 32 -> length y = 32 -> climb H x p = climb H y q ->
  (x = y /\ map snd p = map snd q) \/ clash (fun s => In s (climbed H x p)) (fun s => In s (climbed H y q)).
Proof.
  induction p as [|[d v] p IH]; intros q x y W P Q Lx Ly E; destruct q as [|[d' v'] q]; try discriminate W; [cbn in E; auto|].
  unfold way in W. cbn [map fst snd] in W. injection W as Wd Wv W. subst d'.
  assert (P' : path32 p) by (intros e u I; exact (P e u (or_intror I))). assert (Q' : path32 q) by (intros e u I; exact (Q e u (or_intror I))).
  assert (V : forall u, v = Some u -> length u = 32) by (intros u ->; exact (P d u (or_introl eq_refl))).
  assert (V' : forall u, v' = Some u -> length u = 32) by (intros u ->; exact (Q d u (or_introl eq_refl))).
  assert (G : forall a b, length a = 64 -> length b = 64 -> climb H (H a) p = climb H (H b) q ->
     (a = b /\ map snd p = map snd q) \/ clash (fun s => In s (a :: climbed H (H a) p)) (fun s => In s (b :: climbed H (H b) q))).
  { intros a b La Lb Ea. destruct (IH q (H a) (H b) W P' Q' (H32 a) (H32 b) Ea) as [[Eh Em]|(s & t & I1 & I2 & N & Eh)].
    - destruct (bytes_eq_dec a b) as [->|N]; [auto|]. right. exists a, b. cbn [In]. auto.
    - right. exists s, t. cbn [In]. auto. }
  destruct v as [v|], v' as [v'|]; try discriminate Wv; [specialize (V _ eq_refl); specialize (V' _ eq_refl)|].
  - destruct d; cbn [climb climbed map snd] in *.
    + destruct (G (v ++ x) (v' ++ y)) as [[Ea Em]|C]; [rewrite app_length; lia|rewrite app_length; lia|exact E|..|auto].
      destruct (app32 _ _ _ _ Ea) as [-> ->]; [lia|]. left. now rewrite Em.
    + destruct (G (x ++ v) (y ++ v')) as [[Ea Em]|C]; [rewrite app_length; lia|rewrite app_length; lia|exact E|..|auto].
      destruct (app32 _ _ _ _ Ea) as [-> ->]; [lia|]. left. now rewrite Em.
  - destruct d; cbn [climb climbed map snd] in *; (destruct (IH q x y W P' Q' Lx Ly E) as [[-> Em]|C]; [left; now rewrite Em|auto]).
Qed.
Lemma path_of_32 l k p : path_of l k p -> all32 l -> path32 p.
Proof.
  induction 1 as [|l k p L K P IH]; intros A; [intros d v []|]. intros d v [E|I]; [|apply (IH (above_all32 l A) d v I)].
  assert (Y : exists m, nth_error l m = Some v).
  { unfold stepp in E. destruct (Nat.even k); [exists (S k)|exists (pred k)]; injection E as _ E2; exact E2. }
  destruct Y as (m & Em). apply nth_error_In in Em. exact (proj1 (Forall_forall _ _) A v Em).
Qed.
Lemma pairs_nth : forall l k x v, nth_error l k = Some x ->
  (stepp l k = (DirRight, Some v) -> In (x ++ v) (pairs l)) /\ (stepp l k = (DirLeft, Some v) -> In (v ++ x) (pairs l)).
Proof.
  fix IH 1. intros [|a [|b r]] k x v E.
  - destruct k; discriminate E.
  - destruct k as [|[|k]]; try discriminate E. cbn. split; discriminate.
  - destruct k as [|[|k]].
    + cbn in E |- *. inversion E; subst. clear IH; split; intro X; inversion X; auto.
    + cbn in E |- *. inversion E; subst. clear IH; split; intro X; inversion X; auto.
    + rewrite stepp_SS. cbn [pairs]. destruct (IH r k x v E) as [X1 X2]. clear IH; split; intro X; right; auto.
Qed.
Lemma climbed_in l k p : path_of l k p -> forall x, nth_error l k = Some x -> forall s, In s (climbed H x p) -> in_tree H l s.
Proof.
  induction 1 as [y|l k p L K P IH]; intros x E s I; [destruct I|]. pose proof (above_nth l k x E) as N. cbn [climbed] in I.
  destruct (stepp l k) as [[|] [v|]] eqn:Es.
  - destruct I as [<-|I]; [apply here; apply (proj2 (pairs_nth l k x v E) Es)|apply higher; [exact L|eapply IH; eassumption]].
  - apply higher; [exact L|eapply IH; eassumption].
  - destruct I as [<-|I]; [apply here; apply (proj1 (pairs_nth l k x v E) Es)|apply higher; [exact L|eapply IH; eassumption]].
  - apply higher; [exact L|eapply IH; eassumption].
Qed.

(** ** The concatenation *)
Lemma slice_concat : forall l k x tail, all32 l -> nth_error l k = Some x -> slice (k * 32) (k * 32 + 32) (concat l ++ tail) = x.
Proof.
  induction l as [|y l IH]; intros k x tail A E; [destruct k; discriminate E|]. pose proof (Forall_inv A) as Ly. cbn beta in Ly. cbn [concat]. rewrite <- app_assoc. destruct k as [|k].
  - cbn in E. inversion E; subst. apply (slice_skip 0 32 (x ++ concat l ++ tail) x (concat l ++ tail)); [reflexivity|lia].
  - cbn [nth_error] in E. rewrite <- (IH k x tail (Forall_inv_tail A) E). unfold slice. replace (S k * 32 + 32 - S k * 32) with 32 by lia. replace (k * 32 + 32 - k * 32) with 32 by lia.
    f_equal. rewrite skipn_app. rewrite skipn_all2 by lia. cbn [app]. f_equal. lia.
Qed.
Lemma cat_items_ok l tail : all32 l -> length tail < 32 -> cat_items (concat l ++ tail) = l.
Proof.
  intros A L. unfold cat_items. rewrite app_length, all32_concat by exact A. replace (32 * length l + length tail) with (length tail + length l * 32) by lia.
  rewrite Nat.div_add by lia. rewrite Nat.div_small by exact L. cbn [Nat.add].
  assert (X : forall m pre, l = pre ++ m -> map (fun i => slice (i * 32) (i * 32 + 32) (concat l ++ tail)) (seq (length pre) (length m)) = m).
  { induction m as [|x m IH]; intros pre E; [reflexivity|]. cbn [length seq map]. f_equal.
    - apply slice_concat; [exact A|]. rewrite E, nth_error_app2, Nat.sub_diag; [reflexivity|lia].
    - specialize (IH (pre ++ [x])). rewrite app_length in IH. cbn [length] in IH. replace (S (length pre)) with (length pre + 1) by lia. apply IH. rewrite E, <- app_assoc. reflexivity. }
  apply (X l []). reflexivity.
Qed.
End Facts.
