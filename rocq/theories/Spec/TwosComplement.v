(** What the bytes of an integer mean, independently of how either implementation computes it: bit [i]
    of the integer is bit [i mod 8] of the byte [i / 8] places from the end, and the sign bit extends
    forever. *)
From Verif Require Import Model.Bytes.

Definition byte_from_end (bs : bytes) (k : Z) : Z := nth (Z.to_nat (blen bs - 1 - k)) bs 0.

Definition bit_of (bs : bytes) (i : Z) : bool :=
  if i <? 8 * blen bs then Z.testbit (byte_from_end bs (i / 8)) (i mod 8)
  else Z.testbit (byte_from_end bs (blen bs - 1)) 7.

Definition denotes (bs : bytes) (v : Z) : Prop :=
  wf_bytes bs /\ bs <> [] /\ forall i, 0 <= i -> Z.testbit v i = bit_of bs i.
