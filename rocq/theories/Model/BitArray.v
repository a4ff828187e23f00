(** Sets of small numbers as words of 64 bits: consensus/bitarray.go.  [None] is a panic. *)
From Verif Require Import Model.Bytes Model.IntCodec Model.Mpt.
Open Scope Z_scope.

(** bitarray.go:11-18 [BitArray]: [NumBits] is a signed 64-bit number, the words are unsigned ones. *)
Record bitarray := mk_ba { ba_bits : Z; ba_words : list Z }.

(** bitarray.go:136-138 [NewBitArray]: [make] with a negative length panics. *)
Definition new_ba (n : Z) : option bitarray :=
  let k := Z.quot (wrap64 (n + 63)) 64 in
  if k <? 0 then None else Some (mk_ba n (repeat 0 (Z.to_nat k))).

(** bitarray.go:20-25 [Verify]: true is no error. *)
Definition ba_verify (b : bitarray) : bool := ba_bits b <=? Z.of_nat (length (ba_words b)) * 64.

(** bitarray.go:27-29 [Len]. *)
Definition ba_len (b : bitarray) : Z := ba_bits b.

(** [ba.Words[idx/wordBits]] changed by [f]; an index out of range panics.  Indices are not negative where this is used. *)
Definition ba_change (b : bitarray) (i : Z) (f : Z -> Z) : option bitarray :=
  let j := Z.to_nat (i / 64) in
  match nth_error (ba_words b) j with
  | Some w => Some (mk_ba (ba_bits b) (set_nth (ba_words b) j (f w)))
  | None => None
  end.
(** bitarray.go:31-36 [Set]. *)
Definition ba_set (b : bitarray) (i : Z) : option bitarray :=
  if ba_bits b <=? i then Some b else ba_change b i (fun w => Z.lor w (Z.shiftl 1 (i mod 64))).
(** bitarray.go:38-43 [Unset]. *)
Definition ba_unset (b : bitarray) (i : Z) : option bitarray :=
  if ba_bits b <=? i then Some b else ba_change b i (fun w => Z.ldiff w (Z.shiftl 1 (i mod 64))).
(** bitarray.go:45-54 [Put]. *)
Definition ba_put (b : bitarray) (i : Z) (v : bool) : option bitarray :=
  if ba_bits b <=? i then Some b else if v then ba_set b i else ba_unset b i.
(** bitarray.go:56-61 [Get]. *)
Definition ba_get (b : bitarray) (i : Z) : option bool :=
  if ba_bits b <=? i then Some false
  else match nth_error (ba_words b) (Z.to_nat (i / 64)) with
       | Some w => Some (negb (Z.land w (Z.shiftl 1 (i mod 64)) =? 0))
       | None => None
       end.

(** The words with the last one changed. *)
Fixpoint on_last (f : Z -> Z) (l : list Z) : list Z :=
  match l with
  | [] => []
  | [w] => [f w]
  | w :: r => w :: on_last f r
  end.
Definition all_ones : Z := 2 ^ 64 - 1.
(** bitarray.go:63-71 [Flip]: [uint(NumBits%64)] of a negative rest is a huge shift, which leaves 0. *)
Definition ba_flip (b : bitarray) : bitarray :=
  let r := Z.rem (ba_bits b) 64 in
  let low := if r <? 0 then all_ones else 2 ^ r - 1 in
  mk_ba (ba_bits b) (on_last (fun w => Z.land w low) (map (fun w => Z.lxor w all_ones) (ba_words b))).

(** bitarray.go:73-84 [AssignAnd]. *)
Fixpoint and_words (l l2 : list Z) : option (list Z) :=
  match l, l2 with
  | [], _ => Some []
  | w :: r, w2 :: r2 => match and_words r r2 with Some x => Some (Z.land w w2 :: x) | None => None end
  | _ :: _, [] => None
  end.
Definition ba_and (b b2 : bitarray) : option bitarray :=
  let cut := ba_bits b2 <? ba_bits b in
  if cut && Nat.ltb (length (ba_words b)) (length (ba_words b2)) then None   (* beyond the capacity *)
  else
    let ws := if cut then firstn (length (ba_words b2)) (ba_words b) else ba_words b in
    match and_words ws (ba_words b2) with
    | Some x => Some (mk_ba (if cut then ba_bits b2 else ba_bits b) x)
    | None => None
    end.

(** [bits.OnesCount64]. *)
Definition ones_count (w : Z) : Z := Z.of_nat (length (filter (fun i => Z.testbit w (Z.of_nat i)) (seq 0 64))).
(** bitarray.go:86-111 [PickRandom]; [pick] is what [rand.Intn(count)] gives. *)
Definition ba_count (b : bitarray) : Z := fold_right (fun w a => ones_count w + a) 0 (ba_words b).
(** 98-105: the inner loop, from index [i] on; [inr]: the loop ends with this [pick]. *)
Fixpoint pick_bit (b : bitarray) (fuel : nat) (i pick : Z) : option (Z + Z) :=
  match fuel with
  | O => Some (inr pick)
  | S f =>
      if i <? ba_bits b then
        match ba_get b i with
        | None => None
        | Some true => if pick =? 0 then Some (inl i) else pick_bit b f (i + 1) (pick - 1)
        | Some false => pick_bit b f (i + 1) pick
        end
      else Some (inr pick)
  end.
(** 95-110: the outer loop over the words [ws], from number [j] on. *)
Fixpoint pick_word (b : bitarray) (ws : list Z) (j pick : Z) : option Z :=
  match ws with
  | [] => None
  | w :: r =>
      let c := ones_count w in
      if pick <? c then
        match pick_bit b (Z.to_nat (ba_bits b - j * 64)) (j * 64) pick with
        | None => None
        | Some (inl i) => Some i
        | Some (inr p) => pick_word b r (j + 1) (p - c)
        end
      else pick_word b r (j + 1) (pick - c)
  end.
Definition ba_pick (b : bitarray) (pick : Z) : option Z :=
  if ba_count b =? 0 then Some (-1) else pick_word b (ba_words b) 0 pick.

(** bitarray.go:117-128 [Equal]. *)
Fixpoint equal_words (l l2 : list Z) : option bool :=
  match l, l2 with
  | [], _ => Some true
  | w :: r, w2 :: r2 => if w =? w2 then equal_words r r2 else Some false
  | _ :: _, [] => None
  end.
Definition ba_equal (b b2 : bitarray) : option bool :=
  if negb (ba_bits b =? ba_bits b2) then Some false else equal_words (ba_words b) (ba_words b2).

(** bitarray.go:130-134 [Copy]: [copy] takes as many words as both have. *)
Definition ba_copy (b : bitarray) : option bitarray :=
  match new_ba (ba_bits b) with
  | None => None
  | Some n => let k := length (ba_words n) in Some (mk_ba (ba_bits b) (firstn k (ba_words b) ++ skipn (length (ba_words b)) (ba_words n)))
  end.
