(** Bytes and Python-style results.

    Byte strings (Python [bytes], Go [[]byte]) are [list Z]; a string that can exist in the program
    satisfies [wf_bytes].  Nothing in this file models project code. *)
From Coq Require Export ZArith List Bool Lia.
From Coq Require Import ZifyBool.
Export ListNotations.
Open Scope Z_scope.

Definition bytes := list Z.
Definition wf_byte (b : Z) : Prop := 0 <= b < 256.
Definition wf_bytes (bs : bytes) : Prop := Forall wf_byte bs.
Definition is_byte (b : Z) : bool := (0 <=? b) && (b <? 256).

(** Python [len(bs)]. *)
Definition blen {A} (bs : list A) : Z := Z.of_nat (length bs).

(** Python [==] on bytes. *)
Fixpoint bytes_eqb (a b : bytes) : bool :=
  match a, b with
  | [], [] => true
  | x :: a', y :: b' => (x =? y) && bytes_eqb a' b'
  | _, _ => false
  end.

(** Unsigned big-endian value of a byte string: Python [int.from_bytes(bs, "big")], Go [big.Int.SetBytes]. *)
Definition be_val (bs : bytes) : Z := fold_left (fun a b => a * 256 + b) bs 0.

(** The [n] low-order bytes of [v], big endian. *)
Fixpoint be_bytes (n : nat) (v : Z) : bytes :=
  match n with
  | O => []
  | S n' => be_bytes n' (v / 256) ++ [v mod 256]
  end.

Lemma wf_is_byte b : is_byte b = true <-> wf_byte b.
Proof. unfold is_byte, wf_byte; rewrite andb_true_iff; lia. Qed.

Lemma bytes_eqb_eq a b : bytes_eqb a b = true <-> a = b.
Proof.
  revert b; induction a as [|x a IH]; intros [|y b]; simpl; split; try congruence; intros H.
  - apply andb_true_iff in H as [H1 H2]. apply Z.eqb_eq in H1. apply IH in H2. congruence.
  - inversion H; subst. rewrite Z.eqb_refl. simpl. now apply IH.
Qed.

Lemma bytes_eqb_refl a : bytes_eqb a a = true.
Proof. now apply bytes_eqb_eq. Qed.

Lemma bytes_eqb_neq a b : bytes_eqb a b = false <-> a <> b.
Proof.
  split; intros H.
  - intros E; apply bytes_eqb_eq in E; congruence.
  - destruct (bytes_eqb a b) eqn:E; auto. apply bytes_eqb_eq in E; contradiction.
Qed.

Lemma bytes_eq_dec (a b : bytes) : {a = b} + {a <> b}.
Proof. apply list_eq_dec, Z.eq_dec. Qed.

(** Results of Python code: a value, a raised exception, or blocked forever on the connection. *)
Inductive res (E A : Type) : Type :=
| Ok (a : A)
| Exc (e : E)
| Stuck.
Arguments Ok {E A} _.
Arguments Exc {E A} _.
Arguments Stuck {E A}.

Definition res_bind {E A B} (x : res E A) (f : A -> res E B) : res E B :=
  match x with Ok a => f a | Exc e => Exc e | Stuck => Stuck end.

Definition opt_bind {A B} (x : option A) (f : A -> option B) : option B :=
  match x with Some a => f a | None => None end.
