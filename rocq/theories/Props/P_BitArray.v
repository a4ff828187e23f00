(** C71: the bit arrays of part sets and votes. *)
From Verif Require Import Model.Bytes Model.IntCodec Model.BitArray Proof.BitArrayFacts.
From Coq Require Import Lia.
Open Scope Z_scope.

(** A new array after some calls of [Put]. *)
Fixpoint puts (b : bitarray) (l : list (Z * bool)) : option bitarray :=
  match l with [] => Some b | (i, v) :: r => match ba_put b i v with Some b' => puts b' r | None => None end end.
Definition array_of (n : Z) (l : list (Z * bool)) : option bitarray := match new_ba n with Some b => puts b l | None => None end.
(** The value put last. *)
Definition last_put (l : list (Z * bool)) (i : Z) : bool :=
  fold_left (fun v x => if fst x =? i then snd x else v) l false.

Lemma put_ok b i v : shaped b -> clean b -> 0 <= i -> exists b', ba_put b i v = Some b' /\ shaped b' /\ clean b' /\ ba_bits b' = ba_bits b
  /\ forall j, 0 <= j -> bit b' j = if (j =? i) && (i <? ba_bits b) then v else bit b j.
Proof.
  intros S C I. unfold ba_put. destruct (Z.leb_spec (ba_bits b) i) as [L|L].
  - exists b. repeat split; try apply S; try assumption. intros j J. destruct (Z.ltb_spec i (ba_bits b)); [lia|]. now rewrite andb_false_r.
  - destruct S as (S0 & S1 & S2). assert (Sh : shaped b) by (split; [exact S0|split; assumption]).
    assert (W : exists b', (if v then ba_set b i else ba_unset b i) = Some b' /\ shaped b' /\ ba_bits b' = ba_bits b
      /\ forall j, 0 <= j -> bit b' j = if (j =? i) && (i <? ba_bits b) then v else bit b j).
    { destruct v.
      - destruct (set_ok b i Sh I) as (b' & E & A & B & D). exists b'. repeat split; try assumption; try apply A. intros j J. rewrite D, (Z.eqb_sym i j) by exact J.
        destruct (Z.ltb_spec i (ba_bits b)); [|lia]. destruct (Z.eqb_spec j i), (bit b j); reflexivity.
      - destruct (unset_ok b i Sh I) as (b' & E & A & B & D). exists b'. repeat split; try assumption; try apply A. intros j J. rewrite D, (Z.eqb_sym i j) by exact J.
        destruct (Z.ltb_spec i (ba_bits b)); [|lia]. destruct (Z.eqb_spec j i), (bit b j); reflexivity. }
    destruct W as (b' & E & A & B & D). exists b'. split; [exact E|]. split; [exact A|]. split; [|split; [exact B|exact D]].
    intros j J. rewrite B in J. rewrite D by lia. destruct (Z.eqb_spec j i); [lia|]. cbn. now apply C.
Qed.

Lemma puts_ok l : forall b, shaped b -> clean b -> Forall (fun x => 0 <= fst x) l -> exists b', puts b l = Some b' /\ shaped b' /\ clean b' /\ ba_bits b' = ba_bits b
  /\ forall j, 0 <= j < ba_bits b -> bit b' j = fold_left (fun v x => if fst x =? j then snd x else v) l (bit b j).
Proof.
  induction l as [|[i v] r IH]; intros b S C F; cbn [puts].
  - exists b. now repeat split; try apply S.
  - pose proof (Forall_inv F) as I. cbn in I. destruct (put_ok b i v S C I) as (b1 & E & S1 & C1 & B1 & D1). rewrite E.
    destruct (IH b1 S1 C1 (Forall_inv_tail F)) as (b2 & E2 & S2 & C2 & B2 & D2). exists b2.
    split; [exact E2|]. split; [exact S2|]. split; [exact C2|]. split; [congruence|]. intros j J. rewrite D2 by lia. cbn [fold_left fst snd]. f_equal.
    rewrite D1 by lia. rewrite (Z.eqb_sym i j). destruct (Z.eqb_spec j i) as [->|N]; [|reflexivity]. destruct (Z.ltb_spec i (ba_bits b)); [reflexivity|lia].
Qed.
Lemma array_ok n l : 0 <= n < 2 ^ 62 -> Forall (fun x => 0 <= fst x) l -> exists b, array_of n l = Some b /\ shaped b /\ clean b /\ ba_bits b = n
  /\ forall j, 0 <= j < n -> bit b j = last_put l j.
Proof.
  intros N F. destruct (new_ok n N) as (b0 & E & S & C & B & D). unfold array_of. rewrite E.
  destruct (puts_ok l b0 S C F) as (b & E' & S' & C' & B' & D'). exists b. split; [exact E'|]. split; [exact S'|]. split; [exact C'|]. split; [congruence|].
  intros j J. rewrite D' by lia. now rewrite D.
Qed.

(** [Get] gives what was put last, and false beyond the end. *)
Theorem C71_bits : forall n l, 0 <= n < 2 ^ 62 -> Forall (fun x => 0 <= fst x) l ->
  exists b, array_of n l = Some b /\ forall i, 0 <= i -> ba_get b i = Some (if i <? n then last_put l i else false).
Proof.
  intros n l N F. destruct (array_ok n l N F) as (b & E & S & C & B & D). exists b. split; [exact E|]. intros i I.
  destruct (Z.ltb_spec i n) as [L|L]; [rewrite get_bit by (auto; lia); f_equal; apply D; lia|apply get_out; lia].
Qed.
Print Assumptions C71_bits.

Lemma equal_words_eq l : forall l2, length l = length l2 -> equal_words l l2 = Some (if list_eq_dec Z.eq_dec l l2 then true else false).
Proof.
  induction l as [|w r IH]; intros [|w2 r2] L; try discriminate L; cbn [equal_words]; [reflexivity|].
  injection L as L. destruct (Z.eqb_spec w w2) as [->|N].
  - rewrite IH by exact L. destruct (list_eq_dec Z.eq_dec r r2) as [E|E], (list_eq_dec Z.eq_dec (w2 :: r) (w2 :: r2)) as [E'|E']; try reflexivity; exfalso; congruence.
  - destruct (list_eq_dec Z.eq_dec (w :: r) (w2 :: r2)) as [E|E]; [exfalso; apply N; congruence|reflexivity].
Qed.
Lemma bits_words b b2 : shaped b -> shaped b2 -> ba_bits b = ba_bits b2 -> (forall j, 0 <= j -> bit b j = bit b2 j) -> ba_words b = ba_words b2.
Proof.
  intros (S0 & S1 & S2) (T0 & T1 & T2) B D. apply nth_ext with (d := 0) (d' := 0); [rewrite B in S1; lia|]. intros k K.
  apply Z.bits_inj'. intros i I.
  assert (W : forall x, shaped x -> forall m, word (nth m (ba_words x) 0)).
  { intros x (_ & _ & X) m. destruct (nth_in_or_default m (ba_words x) 0) as [Hi| ->]; [exact (proj1 (Forall_forall _ _) X _ Hi)|unfold word; lia]. }
  destruct (Z.lt_ge_cases i 64) as [L|L].
  - pose proof (D (64 * Z.of_nat k + i) ltac:(lia)) as E. unfold bit in E.
    assert (Q : (64 * Z.of_nat k + i) / 64 = Z.of_nat k) by (rewrite Z.mul_comm, Z.div_add_l by lia; rewrite Z.div_small by lia; lia).
    assert (R : (64 * Z.of_nat k + i) mod 64 = i) by (rewrite Z.add_comm, Z.mul_comm, Z.mod_add by lia; apply Z.mod_small; lia).
    rewrite Q, R, Nat2Z.id in E. exact E.
  - rewrite (proj2 (proj1 (word_lt _) (W b (conj S0 (conj S1 S2)) k)) i L), (proj2 (proj1 (word_lt _) (W b2 (conj T0 (conj T1 T2)) k)) i L). reflexivity.
Qed.

(** [Equal] is true for arrays of the same length and the same bits, and false for others. *)
Theorem C71_equal : forall n l n2 l2 b b2, 0 <= n < 2 ^ 62 -> 0 <= n2 < 2 ^ 62 -> Forall (fun x => 0 <= fst x) l -> Forall (fun x => 0 <= fst x) l2 ->
  array_of n l = Some b -> array_of n2 l2 = Some b2 ->
  exists yn, ba_equal b b2 = Some yn /\ (yn = true <-> n = n2 /\ forall i, 0 <= i < n -> last_put l i = last_put l2 i).
Proof.
  intros n l n2 l2 b b2 N N2 F F2 E E2. destruct (array_ok n l N F) as (x & E' & S & C & B & D). rewrite E in E'. injection E' as <-.
  destruct (array_ok n2 l2 N2 F2) as (x & E' & S2 & C2 & B2 & D2). rewrite E2 in E'. injection E' as <-.
  unfold ba_equal. rewrite B, B2. destruct (Z.eqb_spec n n2) as [<-|Nn]; cbn [negb].
  - assert (L : length (ba_words b) = length (ba_words b2)) by (destruct S as (_ & S & _), S2 as (_ & S2 & _); rewrite B in S; rewrite B2 in S2; lia).
    rewrite (equal_words_eq _ _ L). eexists. split; [reflexivity|]. destruct (list_eq_dec Z.eq_dec (ba_words b) (ba_words b2)) as [Ew|Nw].
    + split; [intros _|reflexivity]. split; [reflexivity|]. intros i I. rewrite <- D, <- D2 by lia. unfold bit. now rewrite Ew.
    + split; [discriminate|]. intros (_ & H). exfalso. apply Nw. apply bits_words; try assumption; [congruence|]. intros j J.
      destruct (Z.lt_ge_cases j n) as [Lj|Lj]; [rewrite D, D2 by lia; apply H; lia|]. rewrite C, C2 by lia. reflexivity.
  - eexists. split; [reflexivity|]. split; [discriminate|]. intros (H & _). contradiction.
Qed.
Print Assumptions C71_equal.

Example C71_bits_case : match array_of 70 [(3, true); (69, true); (3, false); (80, true); (5, true)] with
  | Some b => (map (ba_get b) [3; 5; 69; 80], ba_equal b b) | None => ([], None) end = ([Some false; Some true; Some true; Some false], Some true).
Proof. vm_compute. reflexivity. Qed.
