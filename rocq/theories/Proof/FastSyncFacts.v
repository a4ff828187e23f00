(** Lists and sets of heights, for the client which fetches blocks. *)
From Coq Require Import ZArith List Bool Arith Lia Permutation.
From Verif Require Import Model.Bytes Model.FastSync Spec.FastSyncSpec.
Import ListNotations.
Open Scope Z_scope.

Definition sumf {A} (g : A -> nat) (l : list A) : nat := fold_right (fun x a => (g x + a)%nat) O l.

Lemma sumf_app : forall A (g : A -> nat) a b, sumf g (a ++ b) = (sumf g a + sumf g b)%nat.
Proof. induction a as [|x a IH]; intros b; cbn; [reflexivity|]. fold (sumf g (a ++ b)) (sumf g a). rewrite IH. lia. Qed.

Lemma sumf_cons : forall A (g : A -> nat) x l, sumf g (x :: l) = (g x + sumf g l)%nat.
Proof. reflexivity. Qed.

Lemma sumf_perm : forall A (g : A -> nat) a b, Permutation a b -> sumf g a = sumf g b.
Proof. intros A g a b H. induction H; rewrite ?sumf_cons; try lia; reflexivity. Qed.

Lemma sumf_in : forall A (g : A -> nat) x l, In x l -> (g x <= sumf g l)%nat.
Proof.
  induction l as [|y l IH]; [intros []|]. intros [-> |H]; rewrite sumf_cons; [lia|]. specialize (IH H). lia.
Qed.

Lemma sumf_pos : forall A (g : A -> nat) l, (0 < sumf g l)%nat -> exists x, In x l /\ (0 < g x)%nat.
Proof.
  induction l as [|y l IH]; [cbn; lia|]. rewrite sumf_cons. intros H.
  destruct (g y) as [|k] eqn:E.
  - destruct IH as (x & I1 & P1); [lia|]. exists x. split; [right; exact I1|exact P1].
  - exists y. split; [left; reflexivity|lia].
Qed.

Lemma sumf_le : forall A (g k : A -> nat) l, (forall x, In x l -> (g x <= k x)%nat) -> (sumf g l <= sumf k l)%nat.
Proof.
  induction l as [|y l IH]; intros H; [cbn; lia|]. rewrite !sumf_cons.
  specialize (IH (fun x I => H x (or_intror I))). specialize (H y (or_introl eq_refl)). lia.
Qed.

Lemma sumf_ext : forall A (g k : A -> nat) l, (forall x, In x l -> g x = k x) -> sumf g l = sumf k l.
Proof.
  induction l as [|y l IH]; intros H; [reflexivity|]. rewrite !sumf_cons.
  rewrite (IH (fun x I => H x (or_intror I))), (H y (or_introl eq_refl)). reflexivity.
Qed.

Lemma sumf_all_one : forall A (g : A -> nat) l, (forall x, In x l -> (g x <= 1)%nat) -> (sumf g l <= length l)%nat.
Proof.
  induction l as [|y l IH]; intros H; [cbn; lia|]. rewrite !sumf_cons. cbn [length].
  specialize (IH (fun x I => H x (or_intror I))). specialize (H y (or_introl eq_refl)). lia.
Qed.

Lemma nth_split' : forall A k (l : list A) x, nth_error l k = Some x ->
  exists a b, l = a ++ x :: b /\ length a = k.
Proof. intros A k l x H. destruct (nth_error_split l k H) as (a & b & E & L). exists a, b. auto. Qed.

Lemma set_nth_split : forall A (a : list A) x y b, set_nth (length a) y (a ++ x :: b) = a ++ y :: b.
Proof. induction a as [|z a IH]; intros x y b; [reflexivity|]. cbn [length app set_nth]. rewrite IH. reflexivity. Qed.

Lemma drop_nth_split : forall A (a : list A) x b, drop_nth (length a) (a ++ x :: b) = a ++ b.
Proof. induction a as [|z a IH]; intros x b; [reflexivity|]. cbn [length app drop_nth]. rewrite IH. reflexivity. Qed.

Lemma drop_nth_perm : forall A k (l : list A) x, nth_error l k = Some x -> Permutation l (x :: drop_nth k l).
Proof.
  intros A k l x H. destruct (nth_split' _ _ _ _ H) as (a & b & -> & <-). rewrite drop_nth_split.
  symmetry. apply Permutation_middle.
Qed.

Lemma remove_perm : forall k l p, nth_error l k = Some p -> Permutation l (p :: remove_peer k l).
Proof.
  intros k l p H. destruct (nth_split' _ _ _ _ H) as (a & b & -> & <-).
  unfold remove_peer. destruct b as [|z b] using rev_ind.
  - rewrite rev_app_distr. cbn [rev app]. rewrite set_nth_split, removelast_last.
    symmetry. apply Permutation_cons_append.
  - clear IHb. assert (E : rev (a ++ p :: b ++ [z]) = z :: rev (a ++ p :: b)).
    { replace (a ++ p :: b ++ [z]) with ((a ++ p :: b) ++ [z]) by (rewrite <- app_assoc; reflexivity).
      rewrite rev_app_distr. reflexivity. }
    rewrite E, set_nth_split.
    replace (a ++ z :: b ++ [z]) with ((a ++ z :: b) ++ [z]) by (rewrite <- app_assoc; reflexivity).
    rewrite removelast_last. rewrite <- Permutation_middle. constructor.
    replace (b ++ [z]) with (b ++ [z]) by reflexivity.
    rewrite <- (Permutation_cons_append b z). reflexivity.
Qed.

Lemma find_peer_spec : forall f l k p, find_peer f l = Some (k, p) -> nth_error l k = Some p /\ f p = true.
Proof.
  induction l as [|x l IH]; cbn [find_peer]; [discriminate|]. intros k p H.
  destruct (f x) eqn:E.
  - injection H as <- <-. split; [reflexivity|exact E].
  - destruct (find_peer f l) as [[j y]|]; [|discriminate]. cbn in H. injection H as <- <-.
    exact (IH j y eq_refl).
Qed.

Lemma find_peer_none : forall f l, find_peer f l = None -> forall p, In p l -> f p = false.
Proof.
  induction l as [|x l IH]; cbn [find_peer]; [intros _ p []|]. intros H p [<- |I].
  - destruct (f x); [discriminate|reflexivity].
  - destruct (f x); [discriminate|]. destruct (find_peer f l) as [[j y]|]; [discriminate|]. exact (IH eq_refl p I).
Qed.

Lemma give_spec : forall g l ps, give g l = Some ps ->
  exists a p b, l = a ++ p :: b /\ p_f p = None /\ ps = a ++ mkPeer (p_id p) ((p_req p + 1) mod 65536) (Some (g p)) :: b.
Proof.
  induction l as [|x l IH]; cbn [give]; [discriminate|]. intros ps H.
  destruct (p_f x) eqn:E.
  - destruct (give g l) as [ps'|]; [|discriminate]. cbn in H. injection H as <-.
    destruct (IH ps' eq_refl) as (a & p & b & -> & N & ->). exists (x :: a), p, b. auto.
  - injection H as <-. exists [], x, l. auto.
Qed.

Lemma give_none : forall g l, give g l = None -> forall p, In p l -> p_f p <> None.
Proof.
  induction l as [|x l IH]; cbn [give]; [intros _ p []|]. intros H p.
  destruct (p_f x) eqn:E; [|discriminate].
  destruct (give g l); [discriminate|]. intros [<- |I]; [rewrite E; discriminate|exact (IH eq_refl p I)].
Qed.

(** ** heightset.go *)

Lemma least_spec : forall l m mi i (pre : list Z), nth_error (pre ++ l) mi = Some m -> length pre = i ->
  (forall x, In x pre -> m <= x) ->
  let (v, vi) := least m mi i l in
  nth_error (pre ++ l) vi = Some v /\ forall x, In x (pre ++ l) -> v <= x.
Proof.
  induction l as [|y l IH]; intros m mi i pre N L Le; cbn [least].
  - split; [exact N|]. rewrite app_nil_r. exact Le.
  - assert (EQ : pre ++ y :: l = (pre ++ [y]) ++ l) by (rewrite <- app_assoc; reflexivity).
    destruct (y <? m) eqn:E.
    + apply Z.ltb_lt in E. rewrite EQ. apply IH.
      * rewrite <- app_assoc. cbn [app]. rewrite nth_error_app2; [|lia]. rewrite L, Nat.sub_diag. reflexivity.
      * rewrite app_length. cbn. lia.
      * intros x I1. apply in_app_iff in I1. destruct I1 as [I1|[<- |[]]]; [|lia]. specialize (Le x I1). lia.
    + apply Z.ltb_ge in E. rewrite EQ. apply IH.
      * rewrite <- EQ. exact N.
      * rewrite app_length. cbn. lia.
      * intros x I1. apply in_app_iff in I1. destruct I1 as [I1|[<- |[]]]; [|lia]. exact (Le x I1).
Qed.

Lemma lowest_spec : forall hs l, get_lowest hs = Some l ->
  (Permutation (additional hs) (l :: additional (pop_lowest hs)) /\ h_begin (pop_lowest hs) = h_begin hs
   /\ h_end (pop_lowest hs) = h_end hs /\ forall x, In x (additional hs) -> l <= x)
  \/ (additional hs = [] /\ additional (pop_lowest hs) = [] /\ l = h_begin hs /\ l <= h_end hs
      /\ h_begin (pop_lowest hs) = h_begin hs + 1 /\ h_end (pop_lowest hs) = h_end hs).
Proof.
  intros [b e a] l H. unfold get_lowest, pop_lowest in *. cbn [additional h_begin h_end] in *.
  destruct a as [|v r].
  - right. destruct (b <=? e) eqn:E; [|discriminate]. injection H as <-. apply Z.leb_le in E. cbn. auto 10.
  - left. pose proof (least_spec r v 0%nat 1%nat [v] eq_refl eq_refl) as LS.
    destruct (least v 0 1 r) as [m mi] eqn:E. cbn [fst snd] in *. injection H as <-.
    destruct LS as (N & Le); [intros x [<- |[]]; lia|]. cbn [app] in N, Le. cbn [h_begin h_end additional].
    split; [apply drop_nth_perm; exact N|]. split; [reflexivity|]. split; [reflexivity|]. exact Le.
Qed.

Lemma lowest_none : forall hs, get_lowest hs = None -> additional hs = [] /\ h_end hs < h_begin hs.
Proof.
  intros [b e a]. unfold get_lowest. cbn. destruct a; [|discriminate]. destruct (b <=? e) eqn:E; [discriminate|].
  intros _. apply Z.leb_gt in E. split; [reflexivity|lia].
Qed.
