(** Checking proofs against a root that anyone may have made. *)
From Verif Require Import Model.Bytes Model.DbKey Model.Mpt Model.MptProof Model.PartSet Proof.BytesFacts Proof.MptOps.
Open Scope nat_scope.

Section Facts.
Context (H : bytes -> bytes).

Lemma pnode_ind' (P : pnode -> Prop)
  (HH : forall h, P (PHash h)) (HL : forall o k v, P (PLeaf o k v))
  (HE : forall o k n, (forall x, n = Some x -> P x) -> P (PExt o k n))
  (HB : forall o cs v, (forall c, In (Some c) cs -> P c) -> P (PBranch o cs v)) : forall n, P n.
Proof.
  fix IH 1. intros [h|o k v|o k [n|]|o cs v].
  - apply HH.
  - apply HL.
  - apply HE. intros x E. injection E as <-. apply IH.
  - apply HE. discriminate.
  - apply HB. induction cs as [|[c|] cs IHc]; intros x Hin.
    + destruct Hin.
    + destruct Hin as [E|Hin]; [injection E as <-; apply IH|now apply IHc].
    + destruct Hin as [E|Hin]; [discriminate E|now apply IHc].
Qed.

(** The node with its hash looked up. *)
Definition opened (n : pnode) (proof : list bytes) : dres pnode :=
  match n with
  | PHash h => match proof with [] => DErr | b :: _ => if bytes_eqb h (H b) then pdeser b else DErr end
  | _ => DOk n
  end.
Definition rest (own : option bytes) (proof : list bytes) : list bytes := match own with Some _ => tl proof | None => proof end.
Definition proven (f : nat) (n : pnode) (keys : list Z) (proof : list bytes) : pnode * pout :=
  match n with
  | PLeaf own lk v =>
      if match own, proof with None, _ => false | Some s, [b] => negb (bytes_eqb b s) | Some _, _ => true end then (n, PRefused)
      else if snd (compareKeys lk keys) then (n, PGot v) else (n, PRefused)
  | PExt own ek next =>
      if negb (item_ok own proof) then (n, PRefused)
      else if Nat.ltb (fst (compareKeys ek keys)) (length ek) then (n, PRefused)
           else match next with
                | None => (n, PCrash)
                | Some nx => let (nx', o) := pprove H f nx (skipn (fst (compareKeys ek keys)) keys) (rest own proof) in (PExt own ek (Some nx'), o)
                end
  | PBranch own cs v =>
      if negb (item_ok own proof) then (n, PRefused)
      else
        match keys with
        | [] => (n, match v with Some v => PGot v | None => PCrash end)
        | k :: r =>
            match nth_error cs (Z.to_nat k) with
            | Some (Some c) => let (c', o) := pprove H f c r (rest own proof) in (PBranch own (set_nth cs (Z.to_nat k) (Some c')) v, o)
            | _ => (n, PRefused)
            end
        end
  | PHash _ => (n, PRefused)
  end.
Lemma pprove_unfold f n keys proof : pprove H (S f) n keys proof =
  match opened n proof with DErr => (n, PRefused) | DCrash => (n, PCrash) | DOk n1 => proven f n1 keys proof end.
Proof.
  destruct n; cbn [opened]; try reflexivity. cbn [pprove]. destruct proof as [|b r]; [reflexivity|]. destruct (bytes_eqb h (H b)); [|reflexivity].
  destruct (pdeser b); reflexivity.
Qed.

(** What is read is no bare hash, and keeps the bytes. *)
Definition top (n : pnode) : option bytes := match n with PHash _ => None | PLeaf o _ _ | PExt o _ _ | PBranch o _ _ => o end.
Definition plink (f : nat) (b : bytes) : dres (option pnode) :=
  if (192 <=? nth 0 b 0)%Z then match pdeser_f f None b with DOk n => DOk (Some n) | DErr => DErr | DCrash => DCrash end
  else match rlpParseBytes b with
       | None => DErr
       | Some [] => DOk None
       | Some v => DOk (Some (PHash v))
       end.
Definition plinks (f : nat) : list bytes -> dres (list (option pnode)) :=
  fix children (l : list bytes) : dres (list (option pnode)) :=
  match l with
  | [] => DOk []
  | b :: r => match plink f b with DOk c => match children r with DOk cs => DOk (c :: cs) | DErr => DErr | DCrash => DCrash end | DErr => DErr | DCrash => DCrash end
  end.
Lemma pdeser_unfold f own b : pdeser_f (S f) own b =
  match rlpParseList b with
  | None => DErr
  | Some l =>
      match l with
      | [b0; b1] =>
          match rlpParseBytes b0 with
          | None => DErr
          | Some [] => DCrash
          | Some (k0 :: kr) =>
              if (Z.land k0 32 =? 0)%Z then match plink f b1 with DOk o => DOk (PExt own (decodeKeys (k0 :: kr)) o) | DErr => DErr | DCrash => DCrash end
              else match rlpParseBytes b1 with Some v => DOk (PLeaf own (decodeKeys (k0 :: kr)) v) | None => DErr end
          end
      | _ =>
          if Nat.eqb (length l) 17 then
            match plinks f (firstn 16 l) with
            | DErr => DErr
            | DCrash => DCrash
            | DOk cs => match rlpParseBytes (nth 16 l []) with None => DErr | Some v => DOk (PBranch own cs (match v with [] => None | _ => Some v end)) end
            end
          else DErr
      end
  end.
Proof. destruct (rlpParseList b) as [[|b0 [|b1 [|b2 l]]]|] eqn:E; cbn [pdeser_f]; rewrite E; reflexivity. Qed.

Lemma pdeser_top f own b n : pdeser_f f own b = DOk n -> (forall h, n <> PHash h) /\ top n = own.
Proof.
  destruct f as [|f]; [discriminate|]. rewrite pdeser_unfold. intro E. destruct (rlpParseList b) as [l|]; [|discriminate E].
  assert (Br : match plinks f (firstn 16 l) with DErr => DErr | DCrash => DCrash
     | DOk cs => match rlpParseBytes (nth 16 l []) with None => DErr | Some v => DOk (PBranch own cs (match v with [] => None | _ => Some v end)) end end = DOk n -> (forall h, n <> PHash h) /\ top n = own).
  { intro X. destruct (plinks f (firstn 16 l)); try discriminate X. destruct (rlpParseBytes (nth 16 l [])); try discriminate X. injection X as <-. split; [discriminate|reflexivity]. }
  destruct l as [|b0 [|b1 [|b2 l]]].
  - discriminate E.
  - discriminate E.
  - destruct (rlpParseBytes b0) as [[|k0 kr]|]; try discriminate E. destruct (Z.land k0 32 =? 0)%Z.
    + destruct (plink f b1); try discriminate E. injection E as <-. split; [discriminate|reflexivity].
    + destruct (rlpParseBytes b1); try discriminate E. injection E as <-. split; [discriminate|reflexivity].
  - destruct (Nat.eqb (length (b0 :: b1 :: b2 :: l)) 17); [|discriminate E]. now apply Br.
Qed.

(** Nodes inside what is read have no bytes of their own, and there are at most as many levels as steps. *)
Lemma plinks_in f : forall l cs c, plinks f l = DOk cs -> In (Some c) cs -> exists b, plink f b = DOk (Some c).
Proof.
  induction l as [|b l IH]; intros cs c E Hin; cbn [plinks] in E; [injection E as <-; destruct Hin|].
  destruct (plink f b) as [o| |] eqn:El; try discriminate E. destruct (plinks f l) as [cs'| |] eqn:Er; try discriminate E. injection E as <-.
  destruct Hin as [->|Hin]; [eauto|]. eapply IH; eauto.
Qed.
Definition deepest (l : list (option pnode)) : nat := fold_right (fun o a => match o with Some c => Nat.max (pdepth c) a | None => a end) 0 l.
Lemma pdepth_branch o cs v : pdepth (PBranch o cs v) = S (deepest cs).
Proof. reflexivity. Qed.
Lemma deepest_in c cs : In (Some c) cs -> pdepth c <= deepest cs.
Proof.
  induction cs as [|[x|] cs IH]; intros Hin; [destruct Hin| |]; cbn; fold (deepest cs).
  - destruct Hin as [E|Hin]; [injection E as ->; lia|]. specialize (IH Hin). lia.
  - destruct Hin as [E|Hin]; [discriminate E|]. exact (IH Hin).
Qed.
Lemma deepest_le cs m : (forall c, In (Some c) cs -> pdepth c <= m) -> deepest cs <= m.
Proof.
  induction cs as [|[x|] cs IH]; intro Hc; cbn; [lia| |].
  - assert (pdepth x <= m) by (apply Hc; now left). assert (deepest cs <= m) by (apply IH; intros; apply Hc; now right). unfold deepest in *. lia.
  - apply IH. intros. apply Hc. now right.
Qed.
Lemma pdeser_depth : forall f own b n, pdeser_f f own b = DOk n -> pdepth n <= S f.
Proof.
  induction f as [|f IH]; intros own b n E; [discriminate|]. rewrite pdeser_unfold in E. destruct (rlpParseList b) as [l|]; [|discriminate E].
  assert (Lk : forall b' c, plink f b' = DOk (Some c) -> pdepth c <= S f).
  { intros b' c X. unfold plink in X. destruct (192 <=? nth 0 b' 0)%Z.
    - destruct (pdeser_f f None b') eqn:D; try discriminate X. injection X as <-. eapply IH; eauto.
    - destruct (rlpParseBytes b') as [[|x r]|]; try discriminate X. injection X as <-. cbn. lia. }
  assert (Br : match plinks f (firstn 16 l) with DErr => DErr | DCrash => DCrash
     | DOk cs => match rlpParseBytes (nth 16 l []) with None => DErr | Some v => DOk (PBranch own cs (match v with [] => None | _ => Some v end)) end end = DOk n -> pdepth n <= S (S f)).
  { intro X. destruct (plinks f (firstn 16 l)) as [cs| |] eqn:L; try discriminate X. destruct (rlpParseBytes (nth 16 l [])); try discriminate X. injection X as <-.
    rewrite pdepth_branch. apply le_n_S. apply deepest_le. intros c Hc. destruct (plinks_in _ _ _ _ L Hc) as (b' & Eb). eapply Lk; eauto. }
  destruct l as [|b0 [|b1 [|b2 l]]].
  - discriminate E.
  - discriminate E.
  - destruct (rlpParseBytes b0) as [[|k0 kr]|]; try discriminate E. destruct (Z.land k0 32 =? 0)%Z.
    + destruct (plink f b1) as [[c|]| |] eqn:L; try discriminate E; injection E as <-; cbn [pdepth]; [specialize (Lk _ _ L); lia|lia].
    + destruct (rlpParseBytes b1); try discriminate E. injection E as <-. cbn. lia.
  - destruct (Nat.eqb (length (b0 :: b1 :: b2 :: l)) 17); [|discriminate E]. now apply Br.
Qed.

Definition weight (proof : list bytes) : nat := fold_right (fun b a => S (length b) + a) 0 proof.
Lemma weight_rest o proof : weight (rest o proof) <= weight proof.
Proof. destruct o as [s|]; cbn [rest]; [|lia]. destruct proof as [|b r]; [reflexivity|]. change (weight (b :: r)) with (S (length b) + weight r). cbn [tl]. lia. Qed.

(** The steps suffice. *)
Lemma enough : forall f n keys proof, pdepth n + weight proof <= f -> snd (pprove H f n keys proof) <> PFuelOut.
Proof.
  induction f as [|f IH]; intros n keys proof L; [destruct n as [| |? ? []|]; cbn in L; lia|]. rewrite pprove_unfold.
  destruct (opened n proof) as [n1| |] eqn:E; try discriminate.
  assert (Kid : forall c, (match n1 with PExt _ _ (Some x) => c = x | PBranch _ cs _ => In (Some c) cs | _ => False end) -> pdepth c + weight (rest (top n1) proof) <= f).
  { intros c Hc. destruct n as [h|o k v|o k nx|o cs v]; cbn [opened] in E.
    - destruct proof as [|b r]; [discriminate E|]. destruct (bytes_eqb h (H b)); [|discriminate E]. unfold pdeser in E.
      pose proof (pdeser_depth _ _ _ _ E) as D. destruct (pdeser_top _ _ _ _ E) as [_ T]. rewrite T. cbn [rest tl]. change (weight (b :: r)) with (S (length b) + weight r) in L. cbn [pdepth] in L.
      destruct n1 as [h1|o k v|o k [x|]|o cs v]; try destruct Hc.
      + cbn [pdepth] in D. lia.
      + rewrite pdepth_branch in D. pose proof (deepest_in _ _ Hc). lia.
    - injection E as <-. destruct Hc.
    - injection E as <-. pose proof (weight_rest o proof). cbn [top]. destruct nx as [x|]; [|destruct Hc]. subst c. cbn [pdepth] in L. lia.
    - injection E as <-. pose proof (weight_rest o proof). cbn [top]. rewrite pdepth_branch in L. pose proof (deepest_in _ _ Hc). lia. }
  destruct n1 as [h1|o k v|o k nx|o cs v]; cbn [proven].
  - discriminate.
  - destruct (match o with Some s => _ | None => _ end); [discriminate|]. destruct (snd (compareKeys k keys)); discriminate.
  - destruct (negb (item_ok o proof)); [discriminate|]. destruct (Nat.ltb _ _); [discriminate|]. destruct nx as [x|]; [|discriminate].
    specialize (IH x (skipn (fst (compareKeys k keys)) keys) (rest o proof) (Kid x eq_refl)). destruct (pprove H f x _ _). exact IH.
  - destruct (negb (item_ok o proof)); [discriminate|]. destruct keys as [|x r]; [destruct v; discriminate|].
    destruct (nth_error cs (Z.to_nat x)) as [[c|]|] eqn:N; try discriminate.
    specialize (IH c r (rest o proof) (Kid c (nth_error_In _ _ N))). destruct (pprove H f c _ _). exact IH.
Qed.

(** ** What a node becomes when hashes in it are looked up among pieces [P] *)
Section Pieces.
Context (P : bytes -> Prop) (Inj : forall a b, P a -> P b -> H a = H b -> a = b).

Inductive ex : pnode -> pnode -> Prop :=
| ex_hash h : ex (PHash h) (PHash h)
| ex_open b n1 n : P b -> pdeser b = DOk n1 -> ex n1 n -> ex (PHash (H b)) n
| ex_leaf o k v : ex (PLeaf o k v) (PLeaf o k v)
| ex_none o k : ex (PExt o k None) (PExt o k None)
| ex_ext o k n n' : ex n n' -> ex (PExt o k (Some n)) (PExt o k (Some n'))
| ex_branch o cs cs' v : Forall2 oex cs cs' -> ex (PBranch o cs v) (PBranch o cs' v)
with oex : option pnode -> option pnode -> Prop :=
| oex_none : oex None None
| oex_some c c' : ex c c' -> oex (Some c) (Some c').

Lemma ex_refl n : ex n n.
Proof.
  induction n as [h|o k v|o k [n|] IH|o cs v IH] using pnode_ind'; try constructor.
  - now apply IH.
  - induction cs as [|[c|] cs IHc]; constructor; try (constructor; apply IH; now left); try constructor; apply IHc; intros; apply IH; now right.
Qed.
Lemma ex_solid n0 n : ex n0 n -> (forall h, n0 <> PHash h) -> (forall h, n <> PHash h) /\ top n = top n0.
Proof. intros E S. inversion E; subst; try (exfalso; eapply S; reflexivity); split; try discriminate; reflexivity. Qed.

Lemma kid_ex cs cs' i : Forall2 oex cs cs' ->
  (nth_error cs i = None /\ nth_error cs' i = None) \/ (nth_error cs i = Some None /\ nth_error cs' i = Some None)
  \/ exists c c', nth_error cs i = Some (Some c) /\ nth_error cs' i = Some (Some c') /\ ex c c'.
Proof.
  intro F. revert i. induction F as [|a b l l' Hab F IH]; intros [|i]; cbn [nth_error]; auto.
  inversion Hab; subst; eauto 10.
Qed.

Lemma opened_ex n0 n proof n1 : ex n0 n -> (forall b, In b proof -> P b) -> opened n proof = DOk n1 ->
  exists n2, ex n2 n1 /\ (n0 = n2 \/ exists b, P b /\ n0 = PHash (H b) /\ pdeser b = DOk n2) /\ (forall h, n2 <> PHash h).
Proof.
  intros E Pp O. inversion E; subst; cbn [opened] in O.
  - destruct proof as [|b r]; [discriminate O|]. destruct (bytes_eqb h (H b)) eqn:Eh; [|discriminate O]. apply bytes_eqb_eq in Eh. subst h.
    exists n1. split; [apply ex_refl|]. split; [right; exists b; split; auto; apply Pp; now left|]. unfold pdeser in O. now apply pdeser_top in O.
  - pose proof H1 as Hd. unfold pdeser in H1. apply pdeser_top in H1 as [S1 _]. destruct (ex_solid _ _ H2 S1) as [S2 _].
    exists n2. split; [|split; [right; eauto|auto]]. destruct n; cbn [opened] in O; try (exfalso; eapply S2; reflexivity); injection O as <-; auto.
  - injection O as <-. eexists. split; [exact E|]. split; [now left|discriminate].
  - injection O as <-. eexists. split; [exact E|]. split; [now left|discriminate].
  - injection O as <-. eexists. split; [exact E|]. split; [now left|discriminate].
  - injection O as <-. eexists. split; [exact E|]. split; [now left|discriminate].
Qed.

Lemma pieces_rest o proof : (forall b, In b proof -> P b) -> forall b, In b (rest o proof) -> P b.
Proof. intros A b Hb. apply A. destruct o; auto. destruct proof; cbn in *; auto. Qed.

Lemma oex_set cs cs' i c' c : Forall2 oex cs cs' -> nth_error cs i = Some (Some c) -> ex c c' -> Forall2 oex cs (set_nth cs' i (Some c')).
Proof.
  intro F. revert i. induction F as [|a b l l' Hab F IH]; intros [|i] N E; cbn [nth_error set_nth] in *; try discriminate.
  - injection N as ->. constructor; [now constructor|exact F].
  - constructor; auto.
Qed.

(** What is found later is found in what was there at first. *)
Lemma grows : forall f n0 n keys proof, ex n0 n -> (forall b, In b proof -> P b) -> ex n0 (fst (pprove H f n keys proof)).
Proof.
  induction f as [|f IH]; intros n0 n keys proof E Pp; [exact E|]. rewrite pprove_unfold.
  destruct (opened n proof) as [n1| |] eqn:O; try exact E.
  destruct (opened_ex n0 n proof n1 E Pp O) as (n2 & E2 & Src & S2).
  assert (K : ex n2 (fst (proven f n1 keys proof))).
  { inversion E2; subst; try (exfalso; eapply S2; reflexivity); cbn [proven].
    - destruct (match o with Some s => _ | None => _ end); [apply ex_refl|]. destruct (snd (compareKeys k keys)); apply ex_refl.
    - destruct (negb (item_ok o proof)); [apply ex_refl|]. destruct (Nat.ltb _ _); apply ex_refl.
    - destruct (negb (item_ok o proof)); [exact E2|]. destruct (Nat.ltb _ _); [exact E2|].
      specialize (IH n3 n' (skipn (fst (compareKeys k keys)) keys) (rest o proof) H0 (pieces_rest o proof Pp)). destruct (pprove H f n' _ _). cbn [fst] in *. now constructor.
    - destruct (negb (item_ok o proof)); [exact E2|]. destruct keys as [|x r]; [exact E2|].
      destruct (kid_ex cs cs' (Z.to_nat x) H0) as [[_ N]|[[_ N]|(c & c' & N & N' & Ec)]]; [rewrite N; exact E2|rewrite N; exact E2|]. rewrite N'.
      specialize (IH c c' r (rest o proof) Ec (pieces_rest o proof Pp)). destruct (pprove H f c' _ _). cbn [fst] in *. constructor. eapply oex_set; eauto. }
  destruct Src as [->|(b & Pb & -> & D)]; [exact K|]. econstructor; eauto.
Qed.

Lemma proven_other f n keys proof b : top n = Some b -> (forall h, n <> PHash h) -> (match proof with x :: _ => x <> b | [] => True end) -> snd (proven f n keys proof) = PRefused.
Proof.
  intros T S Ne. assert (I : item_ok (Some b) proof = false).
  { destruct proof as [|x r]; [reflexivity|]. cbn [item_ok]. now apply bytes_eqb_neq. }
  destruct n as [h|o k v|o k nx|o cs v]; cbn [top] in T; subst; cbn [proven]; try reflexivity; try (rewrite I; reflexivity).
  destruct proof as [|x [|y r]]; try reflexivity. apply bytes_eqb_neq in Ne. rewrite Ne. reflexivity.
Qed.

(** The answer does not depend on what was found before. *)
Lemma same_answer : forall f n0 n keys proof, ex n0 n -> (forall b, In b proof -> P b) -> snd (pprove H f n0 keys proof) = snd (pprove H f n keys proof).
Proof.
  induction f as [|f IH]; intros n0 n keys proof E Pp; [reflexivity|].
  assert (Pr : forall n1 n, ex n1 n -> (forall h, n1 <> PHash h) -> snd (proven f n1 keys proof) = snd (proven f n keys proof)).
  { clear n0 n E. intros n1 n E S. inversion E; subst; try (exfalso; eapply S; reflexivity); try reflexivity; cbn [proven].
    - destruct (negb (item_ok o proof)); [reflexivity|]. destruct (Nat.ltb _ _); [reflexivity|].
      specialize (IH n0 n' (skipn (fst (compareKeys k keys)) keys) (rest o proof) H0 (pieces_rest o proof Pp)).
      destruct (pprove H f n0 _ _), (pprove H f n' _ _). exact IH.
    - destruct (negb (item_ok o proof)); [reflexivity|]. destruct keys as [|x r]; [reflexivity|].
      destruct (kid_ex cs cs' (Z.to_nat x) H0) as [[N N']|[[N N']|(c & c' & N & N' & Ec)]]; rewrite N, N'; try reflexivity.
      specialize (IH c c' r (rest o proof) Ec (pieces_rest o proof Pp)). destruct (pprove H f c _ _), (pprove H f c' _ _). exact IH. }
  rewrite !pprove_unfold. inversion E; subst; try reflexivity.
  - pose proof H1 as D. unfold pdeser in D. apply pdeser_top in D as [S1 T1]. destruct (ex_solid _ _ H2 S1) as [S2 T2].
    assert (On : opened n proof = DOk n) by (destruct n; try reflexivity; exfalso; eapply S2; reflexivity). rewrite On.
    cbn [opened]. destruct proof as [|x r].
    + symmetry. rewrite T1 in T2. apply (proven_other f n keys [] b T2 S2). exact Logic.I.
    + destruct (bytes_eqb (H b) (H x)) eqn:Eh.
      * apply bytes_eqb_eq in Eh. assert (x = b) by (symmetry; apply Inj; auto; apply Pp; now left). subst x. rewrite H1. now apply Pr.
      * symmetry. rewrite T1 in T2. apply (proven_other f n keys (x :: r) b T2 S2). intro X. subst x. rewrite bytes_eqb_refl in Eh. discriminate.
  - cbn [opened]. apply Pr; auto. discriminate.
  - cbn [opened]. apply Pr; auto. discriminate.
Qed.

(** Two proofs for one key never show different values, nor does one of them panic if the other shows a value. *)
Lemma one_value : forall f1 f2 n keys p1 p2 x, (forall b, In b p1 -> P b) -> (forall b, In b p2 -> P b) ->
  snd (pprove H f1 n keys p1) = PGot x ->
  match snd (pprove H f2 n keys p2) with PGot y => y = x | PCrash => False | _ => True end.
Proof.
  induction f1 as [|f1 IH]; intros f2 n keys p1 p2 x P1 P2 E; [discriminate E|]. destruct f2 as [|f2]; [exact Logic.I|].
  rewrite pprove_unfold in *. destruct (opened n p1) as [n1| |] eqn:O1; try discriminate E.
  assert (O2 : opened n p2 = DOk n1 \/ opened n p2 = DErr).
  { destruct n as [h|o k v|o k nx|o cs v]; cbn [opened] in *; auto. destruct p1 as [|b1 r1]; [discriminate O1|]. destruct p2 as [|b2 r2]; [now right|].
    destruct (bytes_eqb h (H b1)) eqn:E1; [|discriminate O1]. destruct (bytes_eqb h (H b2)) eqn:E2; [|now right].
    apply bytes_eqb_eq in E1. apply bytes_eqb_eq in E2. assert (b1 = b2) by (apply Inj; [apply P1; now left|apply P2; now left|congruence]). subst b2. now left. }
  destruct O2 as [O2|O2]; rewrite O2; [|exact Logic.I].
  destruct n1 as [h1|o k v|o k nx|o cs v]; cbn [proven] in *; [discriminate E| | |].
  - destruct (match o with Some s => match p1 with [] => _ | _ => _ end | None => _ end) in E; [discriminate E|].
    destruct (match o with Some s => _ | None => _ end); [exact Logic.I|]. destruct (snd (compareKeys k keys)); [|discriminate E]. now injection E.
  - destruct (negb (item_ok o p1)); [discriminate E|]. destruct (negb (item_ok o p2)); [exact Logic.I|]. destruct (Nat.ltb _ _); [discriminate E|].
    destruct nx as [nx|]; [|discriminate E].
    specialize (IH f2 nx (skipn (fst (compareKeys k keys)) keys) (rest o p1) (rest o p2) x (pieces_rest o p1 P1) (pieces_rest o p2 P2)).
    destruct (pprove H f1 nx _ _), (pprove H f2 nx _ _). now apply IH.
  - destruct (negb (item_ok o p1)); [discriminate E|]. destruct (negb (item_ok o p2)); [exact Logic.I|]. destruct keys as [|y r].
    + destruct v; [|discriminate E]. now injection E.
    + destruct (nth_error cs (Z.to_nat y)) as [[c|]|]; try discriminate E.
      specialize (IH f2 c r (rest o p1) (rest o p2) x (pieces_rest o p1 P1) (pieces_rest o p2 P2)).
      destruct (pprove H f1 c _ _), (pprove H f2 c _ _). now apply IH.
Qed.

Lemma hash_stays h n : ex (PHash h) n -> p_hash H (Some n) = h.
Proof.
  intro E. inversion E; subst; [reflexivity|]. pose proof H2 as D. unfold pdeser in D. apply pdeser_top in D as [S1 T1].
  destruct (ex_solid _ _ H3 S1) as [S2 T2]. rewrite T1 in T2. destruct n; cbn [p_hash top] in *; try (rewrite T2; reflexivity). exfalso. eapply S2. reflexivity.
Qed.
End Pieces.

(** More steps than needed change nothing. *)
Lemma more : forall f g n keys proof, f <= g -> snd (pprove H f n keys proof) <> PFuelOut -> pprove H g n keys proof = pprove H f n keys proof.
Proof.
  induction f as [|f IH]; intros g n keys proof L N; [now contradiction N|]. destruct g as [|g]; [lia|]. rewrite !pprove_unfold in *.
  destruct (opened n proof) as [n1| |]; auto. destruct n1 as [h1|o k v|o k nx|o cs v]; cbn [proven] in *; auto.
  - destruct (negb (item_ok o proof)); auto. destruct (Nat.ltb _ _); auto. destruct nx as [nx|]; auto.
    rewrite (IH g nx (skipn (fst (compareKeys k keys)) keys) (rest o proof)); auto; [lia|]. destruct (pprove H f nx _ _). exact N.
  - destruct (negb (item_ok o proof)); auto. destruct keys as [|y r]; auto. destruct (nth_error cs (Z.to_nat y)) as [[c|]|]; auto.
    rewrite (IH g c r (rest o proof)); auto; [lia|]. destruct (pprove H f c _ _). exact N.
Qed.
End Facts.
