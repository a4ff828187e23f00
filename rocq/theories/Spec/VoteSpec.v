(* What a vote set should do, in terms of the votes handed to it.

   [n] validators; votes arrive in some order, each under the index of the
   validator that signed it.  Everything is read off that history. *)
From Coq Require Import ZArith List Bool Arith.
From Verif Require Import Model.Votes.
Import ListNotations.
Open Scope nat_scope.

(* What is done to a vote set: a vote is handed in, or the winner is asked
   for (the code remembers the answer, so asking must be shown harmless). *)
Inductive vop := Hand (i : nat) (v : vote) | Ask.

(* Two votes say the same: height, round, type, decision digest, time. *)
Definition same_content (digest : decision -> list Z) (a b : vote) : Prop :=
  v_height a = v_height b /\ v_round a = v_round b /\ v_type a = v_type b /\
  digest (v_dec a) = digest (v_dec b) /\ v_ts a = v_ts b.

(* How many of the first [n] validators back the digest, [f] giving the vote
   on record for each. *)
Definition backers (digest : decision -> list Z) (f : nat -> option vote) (n : nat) (dg : list Z) : nat :=
  List.length
    (filter (fun i => match f i with
                      | Some v => if list_eq_dec Z.eq_dec (digest (v_dec v)) dg then true else false
                      | None => false
                      end) (seq 0 n)).

(* More than two thirds of the validators back the digest. *)
Definition wins (digest : decision -> list Z) (f : nat -> option vote) (n : nat) (dg : list Z) : Prop :=
  2 * n < 3 * backers digest f n dg.

(* The rule for a new vote [v] of validator [i] when [f] is on record: it is
   taken if there is none, or if the old one says something else and its
   decision has not won. *)
Definition taken (digest : decision -> list Z) (f : nat -> option vote) (n i : nat) (v : vote) : Prop :=
  i < n /\
  match f i with
  | None => True
  | Some o => ~ same_content digest o v /\ ~ wins digest f n (digest (v_dec o))
  end.

(* The votes on record after a history, oldest operation first. *)
Inductive on_record (digest : decision -> list Z) (n : nat) :
  list vop -> (nat -> option vote) -> Prop :=
| rec_start : on_record digest n [] (fun _ => None)
| rec_ask : forall h f, on_record digest n h f -> on_record digest n (h ++ [Ask]) f
| rec_taken : forall h f i v,
    on_record digest n h f -> taken digest f n i v ->
    on_record digest n (h ++ [Hand i v]) (fun j => if Nat.eqb j i then Some v else f j)
| rec_left : forall h f i v,
    on_record digest n h f -> ~ taken digest f n i v ->
    on_record digest n (h ++ [Hand i v]) f.

(* The vote set after a history. *)
Definition vstep (digest : decision -> list Z) (vs : voteset) (o : vop) : voteset :=
  match o with
  | Hand i v => snd (vs_add digest i v vs)
  | Ask => snd (vs_get vs)
  end.

Definition vrun (digest : decision -> list Z) (h : list vop) (vs : voteset) : voteset :=
  fold_left (vstep digest) h vs.
