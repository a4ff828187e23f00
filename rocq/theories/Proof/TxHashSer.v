(* serialize shows exactly the content (for C58). *)
From Coq Require Import String Ascii ZArith List Bool Arith Lia DecimalString Permutation.
From Verif Require Import Model.TxHash Spec.TxHashSpec Proof.TxHashFacts.
Import ListNotations.
#[local] Arguments special : simpl never.

(* ---- joining ---- *)
Lemma fold_dotted : forall fs buf, buf <> [] -> fold_left (fun buf f => dot buf ++ f) fs buf = buf ++ dotted fs.
Proof.
  induction fs as [|f fs IH]; intros buf N; cbn [fold_left]; [rewrite app_nil_r; reflexivity|].
  assert (E : dot buf ++ f = buf ++ "."%char :: f) by (destruct buf; [contradiction|cbn; rewrite <- app_assoc; reflexivity]).
  rewrite E, IH by (destruct buf; discriminate). rewrite <- app_assoc. reflexivity.
Qed.

Fixpoint skip_nil (fs : list bytes) : list bytes := match fs with [] :: fs' => skip_nil fs' | _ => fs end.

Lemma join_list_eq : forall fs, join_list fs = join (skip_nil fs).
Proof.
  unfold join_list. induction fs as [|f fs IH]; [reflexivity|]. cbn [fold_left dot app skip_nil]. destruct f as [|c f].
  - exact IH.
  - rewrite fold_dotted by discriminate. reflexivity.
Qed.

Lemma fold_dict : forall fs buf, buf <> [] ->
  fold_left (fun buf e => dot buf ++ esc (fst e) ++ ["."%char] ++ snd e) fs buf =
  buf ++ dotted (map (fun e => esc (fst e) ++ "."%char :: snd e) fs).
Proof.
  induction fs as [|(k, f) fs IH]; intros buf N; cbn [fold_left fst snd map]; [rewrite app_nil_r; reflexivity|].
  assert (E : dot buf ++ esc k ++ ["."%char] ++ f = buf ++ "."%char :: esc k ++ "."%char :: f).
  { destruct buf; [contradiction|]. cbn. rewrite <- app_assoc. reflexivity. }
  rewrite E, IH by (destruct buf; discriminate). rewrite <- app_assoc. reflexivity.
Qed.

Lemma join_dict_eq : forall fs, join_dict fs = join (map (fun e => esc (fst e) ++ "."%char :: snd e) fs).
Proof.
  intros [|(k, f) fs]; [reflexivity|]. unfold join_dict. cbn [fold_left dot app fst snd map join].
  rewrite fold_dict by (destruct (esc k); discriminate). reflexivity.
Qed.

(* ---- sorting ---- *)
Lemma insert_map : forall A B (g : A -> B) e l,
  insert (fst e, g (snd e)) (map (fun x => (fst x, g (snd x))) l) = map (fun x => (fst x, g (snd x))) (insert e l).
Proof.
  intros A B g e. induction l as [|x l IH]; [reflexivity|]. cbn [insert map fst]. destruct (bleb (fst e) (fst x)); [reflexivity|].
  cbn [map]. rewrite IH. reflexivity.
Qed.
Lemma sort_map : forall A B (g : A -> B) l, sort (map (fun x => (fst x, g (snd x))) l) = map (fun x => (fst x, g (snd x))) (sort l).
Proof. intros A B g. induction l as [|x l IH]; [reflexivity|]. cbn [sort map]. rewrite IH. apply insert_map. Qed.

Lemma insert_perm : forall A (e : bytes * A) l, Permutation (insert e l) (e :: l).
Proof.
  intros A e. induction l as [|x l IH]; [reflexivity|]. cbn [insert]. destruct (bleb (fst e) (fst x)); [reflexivity|].
  rewrite IH. apply perm_swap.
Qed.
Lemma sort_perm : forall A (l : list (bytes * A)), Permutation (sort l) l.
Proof. intros A. induction l as [|x l IH]; [reflexivity|]. cbn [sort]. rewrite insert_perm. apply perm_skip. exact IH. Qed.

Lemma bleb_total : forall a b, bleb a b = true \/ bleb b a = true.
Proof.
  induction a as [|x a IH]; intros [|y b]; cbn [bleb]; auto.
  destruct (Nat.ltb_spec (nat_of_ascii x) (nat_of_ascii y)) as [L|L]; [auto|].
  destruct (Nat.eqb_spec (nat_of_ascii x) (nat_of_ascii y)) as [E|N].
  - rewrite E, Nat.ltb_irrefl, Nat.eqb_refl. apply IH.
  - right. assert (X : (nat_of_ascii y < nat_of_ascii x)%nat) by lia. apply Nat.ltb_lt in X. rewrite X. reflexivity.
Qed.
Lemma bleb_antisym : forall a b, bleb a b = true -> bleb b a = true -> a = b.
Proof.
  induction a as [|x a IH]; intros [|y b] H1 H2; cbn [bleb] in *; try discriminate; [reflexivity|].
  destruct (Nat.ltb_spec (nat_of_ascii x) (nat_of_ascii y)) as [L|L].
  - exfalso. destruct (Nat.ltb_spec (nat_of_ascii y) (nat_of_ascii x)); [lia|].
    destruct (Nat.eqb_spec (nat_of_ascii y) (nat_of_ascii x)); [lia|discriminate].
  - destruct (Nat.eqb_spec (nat_of_ascii x) (nat_of_ascii y)) as [E|N]; [|discriminate].
    rewrite E, Nat.ltb_irrefl, Nat.eqb_refl in H2. f_equal; [|auto].
    rewrite <- (ascii_nat_embedding x), <- (ascii_nat_embedding y), E. reflexivity.
Qed.
Lemma bleb_trans : forall a b c, bleb a b = true -> bleb b c = true -> bleb a c = true.
Proof.
  induction a as [|x a IH]; intros [|y b] [|z c] H1 H2; cbn [bleb] in *; try discriminate; auto.
  destruct (Nat.ltb_spec (nat_of_ascii x) (nat_of_ascii y)) as [L1|L1], (Nat.ltb_spec (nat_of_ascii y) (nat_of_ascii z)) as [L2|L2].
  - destruct (Nat.ltb_spec (nat_of_ascii x) (nat_of_ascii z)); [reflexivity|lia].
  - destruct (Nat.eqb_spec (nat_of_ascii y) (nat_of_ascii z)) as [E|]; [|discriminate].
    destruct (Nat.ltb_spec (nat_of_ascii x) (nat_of_ascii z)); [reflexivity|lia].
  - destruct (Nat.eqb_spec (nat_of_ascii x) (nat_of_ascii y)) as [E|]; [|discriminate].
    destruct (Nat.ltb_spec (nat_of_ascii x) (nat_of_ascii z)); [reflexivity|lia].
  - destruct (Nat.eqb_spec (nat_of_ascii x) (nat_of_ascii y)) as [E|]; [|discriminate].
    destruct (Nat.eqb_spec (nat_of_ascii y) (nat_of_ascii z)) as [E'|]; [|discriminate].
    destruct (Nat.ltb_spec (nat_of_ascii x) (nat_of_ascii z)); [reflexivity|].
    destruct (Nat.eqb_spec (nat_of_ascii x) (nat_of_ascii z)); [eauto|congruence].
Qed.

(* with different keys the order of the members does not matter *)
Lemma insert_comm : forall A (x y : bytes * A) l, fst x <> fst y -> insert x (insert y l) = insert y (insert x l).
Proof.
  intros A x y l N. induction l as [|z l IH].
  - cbn. destruct (bleb (fst x) (fst y)) eqn:E1, (bleb (fst y) (fst x)) eqn:E2; auto.
    + exfalso. apply N. apply bleb_antisym; auto.
    + destruct (bleb_total (fst x) (fst y)); congruence.
  - cbn [insert]. destruct (bleb (fst y) (fst z)) eqn:Eyz, (bleb (fst x) (fst z)) eqn:Exz; cbn [insert]; rewrite ?Eyz, ?Exz.
    + destruct (bleb (fst x) (fst y)) eqn:E1, (bleb (fst y) (fst x)) eqn:E2; cbn [insert]; rewrite ?Eyz, ?Exz; auto.
      * exfalso. apply N. apply bleb_antisym; auto.
      * destruct (bleb_total (fst x) (fst y)); congruence.
    + destruct (bleb (fst x) (fst y)) eqn:E1; [|reflexivity]. rewrite (bleb_trans _ _ _ E1 Eyz) in Exz. discriminate.
    + destruct (bleb (fst y) (fst x)) eqn:E1; [|reflexivity]. rewrite (bleb_trans _ _ _ E1 Exz) in Eyz. discriminate.
    + rewrite IH. reflexivity.
Qed.

Lemma sort_order : forall A (l l' : list (bytes * A)), Permutation l l' -> NoDup (map fst l) -> sort l = sort l'.
Proof.
  intros A l l' P. induction P as [|x l l' P IH|x y l|l1 l2 l3 P1 IH1 P2 IH2]; intros ND.
  - reflexivity.
  - cbn [sort]. cbn in ND. inversion ND. rewrite IH; auto.
  - cbn [sort]. apply insert_comm. cbn in ND. inversion ND as [|? ? N1 N2]. intros F. apply N1. left. congruence.
  - rewrite IH1 by exact ND. apply IH2. apply (Permutation_NoDup (l := map fst l1)); [|exact ND]. apply Permutation_map. exact P1.
Qed.

(* ---- errors ---- *)
Lemma all_map : forall A B C (f : A -> option B) (g : B -> C) l,
  all (map (fun x => option_map g (f x)) l) = option_map (map g) (all (map f l)).
Proof.
  intros A B C f g. induction l as [|x l IH]; [reflexivity|]. cbn [map all]. destruct (f x) as [y|]; [|reflexivity].
  cbn [option_map]. rewrite IH. destruct (all (map f l)); reflexivity.
Qed.
Lemma all_ext : forall A B (f g : A -> option B) l, Forall (fun x => f x = g x) l -> all (map f l) = all (map g l).
Proof. intros A B f g l H. f_equal. apply map_ext_Forall. exact H. Qed.

(* ---- numbers ---- *)
Lemma digits_plain : forall d, Forall (fun c => special c = false) (txt (DecimalString.NilEmpty.string_of_uint d)).
Proof. induction d; cbn; constructor; auto. Qed.
Lemma decimal_plain : forall z, Forall (fun c => special c = false) (decimal z).
Proof.
  intros z. unfold decimal, DecimalString.NilZero.string_of_int. destruct (Z.to_int z) as [d|d]; unfold DecimalString.NilZero.string_of_uint.
  - destruct d; try apply digits_plain. cbn. constructor; auto.
  - cbn. constructor; [reflexivity|]. destruct d; try apply digits_plain. cbn. constructor; auto.
Qed.
Lemma esc_plain : forall s, Forall (fun c => special c = false) s -> esc s = s.
Proof. induction s as [|c s IH]; intros H; [reflexivity|]. inversion H as [|? ? E H']. cbn. rewrite E. cbn. f_equal. apply IH. exact H'. Qed.

(* ---- the content ---- *)
Lemma cser_nil : forall c, cser c = [] <-> c = CStr [].
Proof.
  intros c. split; [|intros ->; reflexivity]. intros E. pose proof (cser_first c []) as X. rewrite app_nil_r, E in X. apply X.
Qed.

Lemma skip_map : forall l, skip_nil (map cser l) = map cser (skip_empty l).
Proof.
  induction l as [|c l IH]; [reflexivity|]. cbn [map skip_nil]. destruct (cser c) as [|x s] eqn:E.
  - apply cser_nil in E. subst c. exact IH.
  - destruct c as [|[|y s']|l0|d0]; cbn in E; try discriminate E; cbn [skip_empty map]; rewrite <- E; reflexivity.
Qed.

Section Ser.
Variable F : Type.
Variable int64 : F -> Z.
Notation serialize := (serialize F int64).
Notation content_of := (content_of F int64).

Theorem serialize_content : forall v, serialize v = option_map cser (content_of v).
Proof.
  intros v. induction v as [|b|s|f|l IH|d IH] using json_rect'; cbn [TxHash.serialize TxHashSpec.content_of option_map]; auto.
  - cbn [cser]. rewrite esc_plain by apply decimal_plain. reflexivity.
  - rewrite (all_ext _ _ serialize (fun x => option_map cser (content_of x)) l IH), all_map.
    destruct (all (map content_of l)) as [cs|]; [|reflexivity]. cbn [option_map cser]. rewrite join_list_eq, skip_map. reflexivity.
  - set (f1 := fun e : bytes * json F => tagged (fst e, serialize (snd e))).
    set (f2 := fun e : bytes * json F => tagged (fst e, content_of (snd e))).
    rewrite !map_map. change (all (map f1 d)) with (all (map f1 d)).
    assert (E : all (map f1 d) = option_map (map (fun x => (fst x, cser (snd x)))) (all (map f2 d))).
    { rewrite <- all_map. apply all_ext. apply Forall_forall. rewrite Forall_forall in IH. intros e He. unfold f1, f2, tagged.
      cbn [fst snd]. rewrite (IH e He). destruct (content_of (snd e)); reflexivity. }
    fold f1 f2. rewrite E. destruct (all (map f2 d)) as [cs|]; [|reflexivity]. cbn [option_map cser].
    rewrite join_dict_eq, sort_map, map_map. reflexivity.
Qed.

Lemma gol_Forall : forall l, gol l <-> Forall cwf l.
Proof.
  induction l as [|x l IH]; cbn; [split; auto|]. change (cwf x /\ gol l <-> Forall cwf (x :: l)). rewrite IH. split.
  - intros (A & B). constructor; auto.
  - intros H. inversion H. auto.
Qed.
Lemma god_Forall : forall d, god d <-> Forall (fun e => cwf (snd e)) d.
Proof.
  induction d as [|x d IH]; cbn; [split; auto|]. change (cwf (snd x) /\ god d <-> Forall (fun e => cwf (snd e)) (x :: d)). rewrite IH. split.
  - intros (A & B). constructor; auto.
  - intros H. inversion H. auto.
Qed.

Lemma all_Forall : forall A B (f : A -> option B) (P : B -> Prop) l r,
  Forall (fun x => forall y, f x = Some y -> P y) l -> all (map f l) = Some r -> Forall P r.
Proof.
  intros A B f P. induction l as [|x l IH]; intros r H E; cbn in E; [injection E as <-; constructor|].
  inversion H as [|? ? Hx Hl]. destruct (f x) as [y|] eqn:Ef; [|discriminate]. destruct (all (map f l)) as [r'|]; [|discriminate].
  injection E as <-. constructor; auto.
Qed.

Lemma skip_sub : forall l, exists p, l = p ++ skip_empty l.
Proof.
  induction l as [|c l (p & E)]; [exists []; reflexivity|]. destruct c as [|[|x s]|l0|d0]; try (exists []; reflexivity).
  exists (CStr [] :: p). cbn. rewrite <- E. reflexivity.
Qed.
Lemma skip_head : forall l, match skip_empty l with CStr [] :: _ => False | _ => True end.
Proof. induction l as [|c l IH]; cbn; [exact I|]. destruct c as [|[|x s]|l0|d0]; auto. Qed.

Lemma content_wf : forall v c, content_of v = Some c -> cwf c.
Proof.
  intros v. induction v as [|b|s|f|l IH|d IH] using json_rect'; intros c E; cbn [TxHashSpec.content_of] in E;
    try (injection E as <-; exact I); try discriminate.
  - destruct (all (map content_of l)) as [cs|] eqn:Ea; [|discriminate]. injection E as <-. split; [apply skip_head|].
    apply gol_Forall. pose proof (all_Forall _ _ content_of cwf l cs IH Ea) as H. destruct (skip_sub cs) as (p & Ep).
    rewrite Ep in H. apply Forall_app in H. apply H.
  - rewrite map_map in E. destruct (all _) as [cs|] eqn:Ea in E; [|discriminate]. injection E as <-. apply god_Forall.
    assert (H : Forall (fun e => cwf (snd e)) cs).
    { apply (all_Forall _ _ _ (fun e => cwf (snd e)) d cs) in Ea; [exact Ea|]. apply Forall_forall. rewrite Forall_forall in IH.
      intros e He (k, c) Ef. unfold tagged in Ef. cbn [fst snd] in Ef. destruct (content_of (snd e)) as [c'|] eqn:Ec; [|discriminate].
      injection Ef as <- <-. exact (IH e He c' Ec). }
    rewrite Forall_forall in *. intros e He. apply H. apply (Permutation_in e (sort_perm _ cs)). exact He.
Qed.

(* the bytes are the same exactly when the contents are *)
Theorem serialize_iff : forall v1 v2 b1 b2, serialize v1 = Some b1 -> serialize v2 = Some b2 ->
  (b1 = b2 <-> content_of v1 = content_of v2).
Proof.
  intros v1 v2 b1 b2 E1 E2. rewrite serialize_content in E1, E2.
  destruct (content_of v1) as [c1|] eqn:C1; [|discriminate]. destruct (content_of v2) as [c2|] eqn:C2; [|discriminate].
  cbn in E1, E2. injection E1 as <-. injection E2 as <-. split; [|congruence]. intros E.
  assert (X : cser c1 ++ [] = cser c2 ++ []) by (rewrite !app_nil_r; exact E).
  destruct (cser_inj c1 c2 [] [] (content_wf v1 c1 C1) (content_wf v2 c2 C2) I I X) as (-> & _). reflexivity.
Qed.

(* ---- plain values ---- *)
Lemma plain_list : forall l, plain F (JList l) -> Forall (plain F) l.
Proof.
  intros l (_ & G). induction l as [|x l IH]; constructor; [apply G|]. apply IH. apply G.
Qed.
Lemma plain_dict : forall d, plain F (JDict d) -> Forall (fun e => plain F (snd e)) d.
Proof.
  intros d (_ & G). induction d as [|x d IH]; constructor; [apply G|]. apply IH. apply G.
Qed.

Fixpoint back (c : content) : json F :=
  match c with
  | CNull => JNull
  | CStr s => JStr s
  | CList l => JList (map back l)
  | CDict d => JDict (map (fun e => (fst e, back (snd e))) d)
  end.

Lemma all_back : forall A B (f : A -> option B) (g : B -> A) l,
  Forall (fun x => exists y, f x = Some y /\ g y = x) l -> exists r, all (map f l) = Some r /\ map g r = l.
Proof.
  intros A B f g. induction l as [|x l IH]; intros H; [exists []; auto|]. inversion H as [|? ? (y & E1 & E2) Hl].
  destruct (IH Hl) as (r & R1 & R2). exists (y :: r). cbn [map all]. rewrite E1, R1, E2, R2. auto.
Qed.

Lemma plain_back : forall v, plain F v -> exists c, content_of v = Some c /\ back c = v.
Proof.
  intros v. induction v as [|b|s|f|l IH|d IH] using json_rect'; intros P; try (destruct P; fail).
  - exists CNull. auto.
  - exists (CStr s). auto.
  - pose proof (plain_list l P) as PL.
    destruct (all_back _ _ content_of back l) as (r & R1 & R2).
    { rewrite Forall_forall in *. intros x Hx. apply IH; auto. }
    exists (CList (skip_empty r)). cbn [TxHashSpec.content_of]. rewrite R1. split; [reflexivity|]. cbn [back].
    assert (E : skip_empty r = r).
    { destruct P as (N & _). destruct r as [|c r]; [reflexivity|]. cbn in R2. subst l. destruct c as [|[|x s]|l0|d0]; try reflexivity. destruct N. }
    rewrite E, R2. reflexivity.
  - pose proof (plain_dict d P) as PD.
    set (f2 := fun e : bytes * json F => tagged (fst e, content_of (snd e))).
    destruct (all_back _ _ f2 (fun e => (fst e, back (snd e))) d) as (r & R1 & R2).
    { rewrite Forall_forall in *. intros (k, v) Hx. destruct (IH (k, v) Hx (PD (k, v) Hx)) as (c & C1 & C2). exists (k, c).
      unfold f2, tagged. cbn [fst snd] in *. rewrite C1, C2. auto. }
    exists (CDict (sort r)). cbn [TxHashSpec.content_of]. rewrite map_map. fold f2. rewrite R1. split; [reflexivity|]. cbn [back].
    rewrite <- sort_map, R2. destruct P as (E & _). rewrite E. reflexivity.
Qed.

Theorem plain_inj : forall v1 v2 b, plain F v1 -> plain F v2 -> serialize v1 = Some b -> serialize v2 = Some b -> v1 = v2.
Proof.
  intros v1 v2 b P1 P2 E1 E2. destruct (plain_back v1 P1) as (c1 & C1 & B1). destruct (plain_back v2 P2) as (c2 & C2 & B2).
  pose proof (proj1 (serialize_iff v1 v2 b b E1 E2) eq_refl) as E. rewrite C1, C2 in E. injection E as ->. congruence.
Qed.

Theorem plain_total : forall v, plain F v -> serialize v <> None.
Proof. intros v P. destruct (plain_back v P) as (c & C & _). rewrite serialize_content, C. discriminate. Qed.

(* ---- whole documents ---- *)
Theorem map_iff : forall ex d1 d2 b1 b2, serialize_map F int64 ex d1 = Some b1 -> serialize_map F int64 ex d2 = Some b2 ->
  (b1 = b2 <-> content_map F int64 ex d1 = content_map F int64 ex d2).
Proof.
  intros ex d1 d2 b1 b2 E1 E2.
  assert (K : forall d b, serialize_map F int64 ex d = Some b -> exists c, content_map F int64 ex d = Some c /\ god c /\ b = join (map member c)).
  { intros d b E. unfold serialize_map in E. unfold content_map.
    set (keep := fun e : bytes * json F => negb (existsb (fun k => if list_eq_dec ascii_dec k (fst e) then true else false) ex)) in *.
    set (k := filter keep d) in *.
    change (match all (map tagged (map (fun e => (fst e, serialize (snd e))) k)) with Some fs => Some (join_dict (sort fs)) | None => None end = Some b) in E.
    change (exists c, match content_of (JDict k) with Some (CDict c) => Some c | _ => None end = Some c /\ god c /\ b = join (map member c)).
    pose proof (serialize_content (JDict k)) as HS. cbn [TxHash.serialize] in HS.
    destruct (all (map tagged (map (fun e => (fst e, serialize (snd e))) k))) as [fs|]; [|discriminate]. injection E as <-.
    destruct (content_of (JDict k)) as [c|] eqn:Ec; [|discriminate HS]. cbn [option_map] in HS. injection HS as HS.
    pose proof (content_wf _ _ Ec) as W. cbn [TxHashSpec.content_of] in Ec.
    destruct (all (map tagged (map (fun e => (fst e, content_of (snd e))) k))) as [cs|]; [|discriminate]. injection Ec as <-.
    exists (sort cs). split; [reflexivity|]. split; [exact W|]. cbn [cser txt list_ascii_of_string app] in HS. injection HS as HS.
    apply app_inj_tail in HS. destruct HS as (HS & _). exact HS. }
  destruct (K d1 b1 E1) as (c1 & -> & W1 & ->). destruct (K d2 b2 E2) as (c2 & -> & W2 & ->). split; [|congruence].
  intros E. assert (X : join (map member c1) ++ [] = join (map member c2) ++ []) by (rewrite !app_nil_r; exact E).
  destruct (join_dict_inj c1 c2 [] []) as (-> & _); auto.
  - apply Forall_forall. intros e _. apply cser_inj.
  - exact I.
  - exact I.
Qed.

Theorem map_order : forall ex d d', Permutation d d' -> NoDup (map fst d) -> serialize_map F int64 ex d = serialize_map F int64 ex d'.
Proof.
  intros ex d d' P ND. unfold serialize_map. set (keep := fun e : bytes * json F => negb (existsb (fun k => if list_eq_dec ascii_dec k (fst e) then true else false) ex)).
  assert (P' : Permutation (filter keep d) (filter keep d')).
  { clear ND. induction P; cbn; auto.
    - destruct (keep x); auto.
    - destruct (keep x), (keep y); auto. apply perm_swap.
    - eapply perm_trans; eauto. }
  assert (ND' : NoDup (map fst (filter keep d))).
  { clear P P'. induction d as [|x d IH]; cbn; [constructor|]. cbn in ND. inversion ND as [|? ? N1 N2]. destruct (keep x); [|auto].
    cbn. constructor; [|auto]. intros F0. apply N1. apply in_map_iff in F0. destruct F0 as (y & <- & Hy). apply filter_In in Hy.
    apply in_map. apply Hy. }
  rewrite !map_map. set (f := fun x : bytes * json F => tagged (fst x, serialize (snd x))).
  change (match all (map f (filter keep d)) with Some fs => Some (join_dict (sort fs)) | None => None end =
          match all (map f (filter keep d')) with Some fs => Some (join_dict (sort fs)) | None => None end).
  generalize dependent (filter keep d). intros l. generalize (filter keep d'). intros l' P' ND'. clear - P' ND' f.
  assert (K : forall r, all (map f l) = Some r -> exists r', all (map f l') = Some r' /\ Permutation r r').
  { revert ND'. induction P' as [|x l l' P IH|x y l|l1 l2 l3 P1 IH1 P2 IH2]; intros ND' r E.
    - exists r. split; [exact E|]. reflexivity.
    - cbn in E |- *. destruct (f x); [|discriminate]. destruct (all (map f l)) as [r0|]; [|discriminate]. injection E as <-.
      cbn in ND'. inversion ND' as [|? ? N1 N2]. destruct (IH N2 r0 eq_refl) as (r' & -> & P'). exists (p :: r'). split; [reflexivity|]. auto.
    - cbn in E |- *. destruct (f y); [|discriminate]. destruct (f x); [|discriminate]. destruct (all (map f l)) as [r0|]; [|discriminate].
      injection E as <-. eexists. split; [reflexivity|]. apply perm_swap.
    - destruct (IH1 ND' r E) as (r2 & E2 & Q2). destruct (IH2) with (r := r2) as (r3 & E3 & Q3); auto.
      { apply (Permutation_NoDup (l := map fst l1)); [|exact ND']. apply Permutation_map. exact P1. }
      exists r3. split; [exact E3|]. eapply perm_trans; eauto. }
  assert (Ks : forall l r, all (map f l) = Some r -> map fst r = map fst l).
  { clear. induction l as [|x l IH]; intros r E; cbn in E; [injection E as <-; reflexivity|]. unfold f at 1 in E. unfold tagged in E. cbn [fst snd] in E.
    destruct (serialize (snd x)); [|discriminate]. destruct (all (map f l)) as [r0|]; [|discriminate]. injection E as <-. cbn. rewrite (IH r0 eq_refl). reflexivity. }
  destruct (all (map f l)) as [r|] eqn:E1.
  - destruct (K r eq_refl) as (r' & -> & Pr). rewrite (sort_order _ r r' Pr); [reflexivity|]. rewrite (Ks l r E1). exact ND'.
  - destruct (all (map f l')) as [r'|] eqn:E2; [|reflexivity]. exfalso.
    assert (N : forall l, all (map f l) = None -> exists x, In x l /\ f x = None).
    { clear. induction l as [|x l IH]; intros E; cbn in E; [discriminate|]. destruct (f x) eqn:Ef; [|exists x; split; [left; reflexivity|exact Ef]].
      destruct (all (map f l)); [discriminate|]. destruct (IH eq_refl) as (y & Hy & Ey). exists y. split; [right; exact Hy|exact Ey]. }
    assert (S : forall l r, all (map f l) = Some r -> forall x, In x l -> f x <> None).
    { clear. induction l as [|y l IH]; intros r E x Hx; [destruct Hx|]. cbn in E. destruct (f y) eqn:Ef; [|discriminate].
      destruct (all (map f l)) as [r0|]; [|discriminate]. destruct Hx as [<-|Hx]; [congruence|exact (IH r0 eq_refl x Hx)]. }
    destruct (N l E1) as (x & Hx & Ex). exact (S l' r' E2 x (Permutation_in x P' Hx) Ex).
Qed.

(* ---- refused values ---- *)
Lemma all_none : forall A B (f : A -> option B) l, all (map f l) = None <-> exists x, In x l /\ f x = None.
Proof.
  intros A B f. induction l as [|x l IH]; cbn [map all].
  - split; [discriminate|intros (x & [] & _)].
  - destruct (f x) as [y|] eqn:E.
    + destruct (all (map f l)) as [r|].
      * split; [discriminate|]. intros (z & [<-|Hz] & Ez); [congruence|]. assert (X : Some r = None) by (apply IH; eauto). discriminate X.
      * split; [|reflexivity]. intros _. destruct (proj1 IH eq_refl) as (z & Hz & Ez). exists z. split; [right; exact Hz|exact Ez].
    + split; [|reflexivity]. intros _. exists x. split; [left; reflexivity|exact E].
Qed.

Theorem refused_iff : forall v, serialize v = None <-> has_bool v.
Proof.
  intros v. induction v as [|b|s|f|l IH|d IH] using json_rect'; cbn [TxHash.serialize].
  - split; [discriminate|]. intros H. inversion H.
  - split; [constructor|reflexivity].
  - split; [discriminate|]. intros H. inversion H.
  - split; [discriminate|]. intros H. inversion H.
  - rewrite Forall_forall in IH. transitivity (all (map serialize l) = None).
    { destruct (all (map serialize l)); split; intros H; (reflexivity || discriminate H). }
    rewrite all_none. split.
    + intros (x & Hx & Ex). apply hb_list with x; [exact Hx|]. apply IH; assumption.
    + intros H. inversion H as [|l' x Hx Hb|]; subst. exists x. split; [exact Hx|]. apply IH; assumption.
  - rewrite Forall_forall in IH. rewrite map_map. set (f := fun x : bytes * json F => tagged (fst x, serialize (snd x))).
    transitivity (all (map f d) = None).
    { destruct (all (map f d)); split; intros H; (reflexivity || discriminate H). }
    rewrite all_none. unfold f, tagged. cbn [fst snd]. split.
    + intros ((k, x) & Hx & Ex). cbn [fst snd] in Ex. apply hb_dict with k x; [exact Hx|]. apply (IH (k, x) Hx). cbn [snd].
      destruct (serialize x); [discriminate Ex|reflexivity].
    + intros H. inversion H as [| |d' k x Hx Hb]; subst. exists (k, x). split; [exact Hx|]. cbn [fst snd].
      apply (IH (k, x) Hx) in Hb. cbn [snd] in Hb. rewrite Hb. reflexivity.
Qed.
End Ser.
