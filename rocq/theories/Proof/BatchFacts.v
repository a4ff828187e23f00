From Verif Require Import Model.Bytes Model.Exn Model.Batch Spec.BatchSpec Proof.BytesFacts.

Lemma get_set d k v k' : od_get (od_set d k v) k' = if bytes_eqb k k' then Some v else od_get d k'.
Proof.
  induction d as [|(a, b) d IH]; cbn; [reflexivity|]. destruct (bytes_eqb a k) eqn:E; cbn.
  - apply bytes_eqb_eq in E. subst. destruct (bytes_eqb k k'); reflexivity.
  - rewrite IH. destruct (bytes_eqb a k') eqn:F; [|reflexivity]. apply bytes_eqb_eq in F. subst. destruct (bytes_eqb k k') eqn:G; [|reflexivity].
    apply bytes_eqb_eq in G. subst. rewrite bytes_eqb_refl in E. discriminate.
Qed.
Lemma set_keys d k v : NoDup (map fst d) -> NoDup (map fst (od_set d k v)) /\ (forall x, In x (map fst (od_set d k v)) <-> x = k \/ In x (map fst d)).
Proof.
  induction d as [|(a, b) d IH]; cbn; intros H.
  - split; [repeat constructor; tauto|]. intros x. intuition.
  - inversion H as [|? ? Na Nd]; subst. destruct (IH Nd) as (I1 & I2). destruct (bytes_eqb a k) eqn:E; cbn.
    + apply bytes_eqb_eq in E. subst. split; [exact H|]. intros x. intuition.
    + apply bytes_eqb_neq in E. split; [|intros x; rewrite I2; intuition]. constructor; [|exact I1]. rewrite I2. intros [->|Q]; auto.
Qed.
Lemma get_update e : forall d k, NoDup (map fst e) -> od_get (od_update d e) k = match od_get e k with Some v => Some v | None => od_get d k end.
Proof.
  unfold od_update. induction e as [|(a, b) e IH]; intros d k ND; cbn; [reflexivity|]. inversion ND as [|? ? Na Nd]; subst. rewrite IH, get_set by exact Nd.
  destruct (bytes_eqb a k) eqn:E; [|reflexivity]. apply bytes_eqb_eq in E. subst.
  assert (N : od_get e k = None). { clear - Na. induction e as [|(a, b) e IH]; cbn in *; [reflexivity|]. destruct (bytes_eqb a k) eqn:E; [apply bytes_eqb_eq in E; tauto|tauto]. }
  rewrite N. reflexivity.
Qed.
Lemma update_keys e : forall d, NoDup (map fst d) -> NoDup (map fst (od_update d e)).
Proof. unfold od_update. induction e as [|(a, b) e IH]; intros d H; cbn; [exact H|]. apply IH, set_keys, H. Qed.

Definition distinct (b : tbatch) : Prop := Forall (fun d => NoDup (map fst d)) b.
Lemma run_app l m b : tb_run (l ++ m) b = res_bind (tb_run l b) (tb_run m).
Proof.
  unfold tb_run. rewrite fold_left_app. destruct (fold_left _ l (Ok b)) as [b'|e|]; [reflexivity| |].
  - cbn [res_bind]. induction m as [|o m IH]; [reflexivity|exact IH].
  - cbn [res_bind]. induction m as [|o m IH]; [reflexivity|exact IH].
Qed.
Lemma visible_ext h : forall base base' cur cur', (forall k, base k = base' k) -> (forall k, cur k = cur' k) -> forall k, visible h base cur k = visible h base' cur' k.
Proof.
  induction h as [|a v r IH|body IHb r IH|r IH]; intros base base' cur cur' HB HC k; cbn; auto.
  - apply IH; [exact HB|]. intros k'. unfold put. rewrite HC. reflexivity.
Qed.
Theorem run_history h : forall d rest, distinct (d :: rest) -> exists d',
  tb_run (ops h) (d :: rest) = Ok (d' :: rest) /\ NoDup (map fst d') /\ forall k, tb_find (d' :: rest) k = visible h (tb_find rest) (tb_find (d :: rest)) k.
Proof.
  induction h as [|a v r IH|body IHb r IH|r IH]; intros d rest D; inversion D as [|? ? Dd Dr]; subst; cbn [ops].
  - exists d. split; [reflexivity|]. split; [exact Dd|reflexivity].
  - destruct (IH (od_set d a v) rest) as (d' & R & N & V). { constructor; [apply set_keys, Dd|exact Dr]. }
    exists d'. split; [exact R|]. split; [exact N|]. intros k. rewrite V. cbn [visible]. apply visible_ext; [reflexivity|]. intros k'. cbn [tb_find]. rewrite get_set. unfold put. destruct (bytes_eqb a k'); reflexivity.
  - destruct (IHb [] (d :: rest)) as (e & R & N & V). { constructor; [constructor|exact D]. }
    assert (exists d1, tb_step OpLeave (e :: d :: rest) = Ok (d1 :: rest) /\ NoDup (map fst d1) /\ forall k, tb_find (d1 :: rest) k = tb_find (e :: d :: rest) k) as (d1 & R1 & N1 & V1).
    { cbn [tb_step]. destruct e as [|x e]; [exists d; split; [reflexivity|split; [exact Dd|reflexivity]]|]. exists (od_update d (x :: e)). split; [reflexivity|]. split; [apply update_keys, Dd|].
      intros k. cbn [tb_find]. rewrite get_update by exact N. destruct (od_get (x :: e) k); reflexivity. }
    destruct (IH d1 rest) as (d' & R2 & N2 & V2). { constructor; [exact N1|exact Dr]. }
    exists d'. split; [|split; [exact N2|]].
    + change (tb_run (ops body ++ OpLeave :: ops r) ([] :: d :: rest) = Ok (d' :: rest)). rewrite run_app. match goal with |- res_bind ?x _ = _ => replace x with (Ok (e :: d :: rest) : pyres tbatch) by (symmetry; exact R) end. cbn [res_bind].
      change (tb_run ([OpLeave] ++ ops r) (e :: d :: rest) = Ok (d' :: rest)). rewrite run_app.
      change (tb_run [OpLeave] (e :: d :: rest)) with (tb_step OpLeave (e :: d :: rest)). rewrite R1. exact R2.
    + intros k. rewrite V2. cbn [visible]. apply visible_ext; [reflexivity|]. intros k'. rewrite V1, V. cbn [tb_find od_get]. apply visible_ext; reflexivity.
  - destruct (IH [] rest) as (d' & R & N & V). { constructor; [constructor|exact Dr]. } exists d'. split; [exact R|]. split; [exact N|]. intros k. rewrite V. cbn [visible]. apply visible_ext; reflexivity.
Qed.

(** ** Digests *)
Lemma join_cons s l : l <> [] -> join_bar (s :: l) = s ++ 124 :: join_bar l.
Proof. destruct l; [congruence|reflexivity]. Qed.
Lemma split_bar a b s t : ~ In 124 a -> ~ In 124 b -> a ++ 124 :: s = b ++ 124 :: t -> a = b /\ s = t.
Proof.
  revert b. induction a as [|x a IH]; intros [|y b] Na Nb H; cbn in *.
  - injection H as H. auto.
  - injection H as H1 H2. exfalso. auto.
  - injection H as H1 H2. exfalso. auto.
  - injection H as -> H. destruct (IH b) as (-> & ->); auto.
Qed.
Lemma join_inj l : forall m, l <> [] -> m <> [] -> Forall (fun s => ~ In 124 s) l -> Forall (fun s => ~ In 124 s) m -> join_bar l = join_bar m -> l = m.
Proof.
  assert (B : forall a s t, ~ In 124 a -> a <> s ++ 124 :: t) by (intros a s t N ->; apply N, in_or_app; cbn; auto).
  induction l as [|a l IH]; intros [|b m] Nl Nm Fl Fm E; try congruence. inversion Fl as [|? ? Fa Fl']; inversion Fm as [|? ? Fb Fm']; subst.
  destruct l as [|a' l], m as [|b' m].
  - cbn in E. congruence.
  - rewrite (join_cons b) in E by discriminate. cbn [join_bar] in E. exfalso. eapply (B a b); [|exact E]; assumption.
  - rewrite (join_cons a) in E by discriminate. cbn [join_bar] in E. exfalso. symmetry in E. eapply (B b a); [|exact E]; assumption.
  - rewrite (join_cons a), (join_cons b) in E by discriminate. apply split_bar in E; [|assumption|assumption]. destruct E as (-> & E). f_equal. apply IH; auto; discriminate.
Qed.
Lemma parts_inj (is_key : bytes -> Prop) d : forall e,
  Forall (fun kv => is_key (fst kv) /\ forall v, snd kv = Some v -> ~ is_key v) d -> Forall (fun kv => is_key (fst kv) /\ forall v, snd kv = Some v -> ~ is_key v) e ->
  digest_parts d = digest_parts e -> d = e.
Proof.
  induction d as [|(k, v) d IH]; intros [|(k', v') e] Fd Fe E; cbn in E; try (destruct v; discriminate); try (destruct v'; discriminate); [reflexivity|].
  inversion Fd as [|? ? (K & V) Fd']; inversion Fe as [|? ? (K' & V') Fe']; subst. cbn [fst snd] in *.
  destruct v as [v|], v' as [v'|].
  - injection E as -> -> E. f_equal. auto.
  - injection E as -> E. destruct e as [|(k2, v2) e]; cbn in E; [discriminate|]. inversion Fe' as [|? ? (K2 & _) _]; subst. exfalso. apply (V v eq_refl). destruct v2; injection E as -> E; exact K2.
  - injection E as -> E. destruct d as [|(k2, v2) d]; cbn in E; [discriminate|]. inversion Fd' as [|? ? (K2 & _) _]; subst. exfalso. apply (V' v' eq_refl). destruct v2; injection E as <- E; exact K2.
  - injection E as -> E. f_equal. auto.
Qed.

(** ** Blocks *)
Lemma firstn_pad (bs : bytes) : length bs = SIZE -> firstn SIZE (bs ++ repeat 0 SIZE) = bs.
Proof. intros H. rewrite <- H, firstn_app, firstn_all, Nat.sub_diag. cbn. apply app_nil_r. Qed.
Lemma pad_len (bs : bytes) : length (firstn SIZE (bs ++ repeat 0 SIZE)) = SIZE.
Proof. rewrite firstn_length, app_length, repeat_length. lia. Qed.
Lemma slices v h a t p : length h = SIZE -> length a = SIZE -> length t = SIZE -> length p = SIZE ->
  let buf := v :: h ++ a ++ t ++ p in blen buf = 129 /\ slice buf 1 SIZE = h /\ slice buf 33 SIZE = a /\ slice buf 65 SIZE = t /\ slice buf 97 SIZE = p.
Proof.
  intros Hh Ha Ht Hp buf. split; [unfold blen, buf; cbn [length]; rewrite !app_length, Hh, Ha, Ht, Hp; reflexivity|].
  assert (K : forall (x y : bytes) n, length x = n -> skipn n (x ++ y) = y) by (intros x y n <-; rewrite skipn_app, skipn_all, Nat.sub_diag; reflexivity).
  assert (F : forall (x y : bytes), length x = SIZE -> firstn SIZE (x ++ y) = x) by (intros x y <-; rewrite firstn_app, firstn_all, Nat.sub_diag; cbn; apply app_nil_r).
  assert (S : forall n (x y : bytes), (SIZE <= n)%nat -> length x = SIZE -> skipn n (x ++ y) = skipn (n - SIZE) y).
  { intros n x y L E. rewrite skipn_app, E. rewrite (skipn_all2 x) by lia. reflexivity. }
  split; [apply F, Hh|]. split; [change (firstn SIZE (skipn SIZE (h ++ a ++ t ++ p)) = a); rewrite (K h) by exact Hh; apply F, Ha|]. split.
  - change (firstn SIZE (skipn (SIZE + SIZE) (h ++ a ++ t ++ p)) = t). rewrite S; [|lia|exact Hh]. rewrite Nat.add_sub. rewrite (K a) by exact Ha. apply F, Ht.
  - change (firstn SIZE (skipn (SIZE + SIZE + SIZE) (h ++ a ++ t ++ p)) = p). rewrite S; [|lia|exact Hh]. rewrite Nat.add_sub. rewrite S; [|lia|exact Ha]. rewrite Nat.add_sub.
    rewrite (K t) by exact Ht. rewrite <- (app_nil_r p) at 1. apply F, Hp.
Qed.
Lemma be_val_zero bs : wf_bytes bs -> be_val bs = 0 <-> bs = repeat 0 (length bs).
Proof.
  intros W. split.
  - intros H. apply be_val_inj; [exact W| |rewrite repeat_length; reflexivity|].
    + apply Forall_forall. intros x Hx. apply repeat_spec in Hx. subst. unfold wf_byte. lia.
    + rewrite H. clear. induction (length bs); [reflexivity|]. cbn [repeat]. rewrite be_val_cons, <- IHn. lia.
  - intros ->. clear. induction (length bs); [reflexivity|]. cbn [repeat]. rewrite be_val_cons, IHn. lia.
Qed.
Lemma skipn_skipn {A} x y (l : list A) : skipn x (skipn y l) = skipn (x + y) l.
Proof.
  revert l. induction y as [|y IH]; intros l; [rewrite Nat.add_0_r; reflexivity|]. rewrite Nat.add_succ_r. destruct l as [|a l]; [rewrite !skipn_nil; reflexivity|]. cbn [skipn]. apply IH.
Qed.
