(* The bytes of a value determine its content (for C58, C59). *)
From Coq Require Import String Ascii ZArith List Bool Arith Lia DecimalString Permutation.
From Verif Require Import Model.TxHash Spec.TxHashSpec.
Import ListNotations.

#[local] Arguments special : simpl never.

(* ---- bytes of a content ---- *)
Definition dotted (fs : list bytes) : bytes := flat_map (fun f => "."%char :: f) fs.
Definition join (fs : list bytes) : bytes := match fs with [] => [] | f :: r => f ++ dotted r end.

Fixpoint cser (c : content) : bytes :=
  match c with
  | CNull => ["\"; "0"]%char
  | CStr s => esc s
  | CList l => ["["]%char ++ join (map cser l) ++ ["]"]%char
  | CDict d => ["{"]%char ++ join (map (fun e => esc (fst e) ++ "."%char :: cser (snd e)) d) ++ ["}"]%char
  end.

Fixpoint cwf (c : content) : Prop :=
  match c with
  | CNull | CStr _ => True
  | CList l => (match l with CStr [] :: _ => False | _ => True end) /\
               (fix go l := match l with [] => True | x :: l' => cwf x /\ go l' end) l
  | CDict d => (fix go (d : list (bytes * content)) := match d with [] => True | e :: d' => cwf (snd e) /\ go d' end) d
  end.

Section ContentInd.
Variable P : content -> Prop.
Hypothesis HN : P CNull.
Hypothesis HS : forall s, P (CStr s).
Hypothesis HL : forall l, Forall P l -> P (CList l).
Hypothesis HD : forall d, Forall (fun e => P (snd e)) d -> P (CDict d).
Fixpoint content_rect' (c : content) : P c :=
  match c with
  | CNull => HN
  | CStr s => HS s
  | CList l => HL l ((fix go l : Forall P l := match l with [] => Forall_nil _ | x :: l' => Forall_cons x (content_rect' x) (go l') end) l)
  | CDict d => HD d ((fix go d : Forall (fun e => P (snd e)) d := match d with [] => Forall_nil _ | e :: d' => Forall_cons e (content_rect' (snd e)) (go d') end) d)
  end.
End ContentInd.

Section JsonInd.
Variable F : Type.
Variable P : json F -> Prop.
Hypothesis HN : P JNull.
Hypothesis HB : forall b, P (JBool b).
Hypothesis HS : forall s, P (JStr s).
Hypothesis HF : forall f, P (JNum f).
Hypothesis HL : forall l, Forall P l -> P (JList l).
Hypothesis HD : forall d, Forall (fun e => P (snd e)) d -> P (JDict d).
Fixpoint json_rect' (c : json F) : P c :=
  match c with
  | JNull => HN
  | JBool b => HB b
  | JStr s => HS s
  | JNum f => HF f
  | JList l => HL l ((fix go l : Forall P l := match l with [] => Forall_nil _ | x :: l' => Forall_cons x (json_rect' x) (go l') end) l)
  | JDict d => HD d ((fix go d : Forall (fun e => P (snd e)) d := match d with [] => Forall_nil _ | e :: d' => Forall_cons e (json_rect' (snd e)) (go d') end) d)
  end.
End JsonInd.

(* ---- strings ---- *)
Definition stop (r : bytes) : Prop := match r with [] => True | c :: _ => c = "."%char \/ c = "]"%char \/ c = "}"%char end.

Lemma stop_special : forall c r, stop (c :: r) -> special c = true /\ c <> "\"%char.
Proof. intros c r [->|[->| ->]]; split; try reflexivity; discriminate. Qed.

Lemma esc_inj : forall s1 s2 r1 r2, stop r1 -> stop r2 -> esc s1 ++ r1 = esc s2 ++ r2 -> s1 = s2 /\ r1 = r2.
Proof.
  induction s1 as [|c s1 IH]; intros [|d s2] r1 r2 P1 P2 E; cbn [esc flat_map app] in E.
  - auto.
  - exfalso. destruct (special d) eqn:Sd; cbn in E; subst r1; apply stop_special in P1; destruct P1 as (A & B); congruence.
  - exfalso. destruct (special c) eqn:Sc; cbn in E; subst r2; apply stop_special in P2; destruct P2 as (A & B); congruence.
  - destruct (special c) eqn:Sc, (special d) eqn:Sd; cbn in E.
    + injection E as -> E. destruct (IH s2 r1 r2 P1 P2 E) as (-> & ->). auto.
    + exfalso. injection E as <- E. cbn in Sd. discriminate.
    + exfalso. injection E as -> E. cbn in Sc. discriminate.
    + injection E as -> E. destruct (IH s2 r1 r2 P1 P2 E) as (-> & ->). auto.
Qed.

(* the first byte of a value *)
Lemma cser_first : forall c r, match cser c ++ r with
  | [] => c = CStr [] /\ r = []
  | x :: _ => (x = "."%char \/ x = "]"%char \/ x = "}"%char) -> c = CStr []
  end.
Proof.
  intros c r. destruct c as [|s|l|d]; cbn.
  - intros [F|[F|F]]; discriminate F.
  - destruct s as [|x s]; cbn; [destruct r; auto|]. destruct (special x) eqn:Sx; cbn.
    + intros [F|[F|F]]; discriminate F.
    + intros [F|[F|F]]; subst x; discriminate Sx.
  - intros [F|[F|F]]; discriminate F.
  - intros [F|[F|F]]; discriminate F.
Qed.

Definition inj_at (c1 : content) : Prop := forall c2 r1 r2, cwf c1 -> cwf c2 -> stop r1 -> stop r2 ->
  cser c1 ++ r1 = cser c2 ++ r2 -> c1 = c2 /\ r1 = r2.

Definition gol (l : list content) : Prop := (fix go l := match l with [] => True | x :: l' => cwf x /\ go l' end) l.
Definition god (d : list (bytes * content)) : Prop :=
  (fix go (d : list (bytes * content)) := match d with [] => True | e :: d' => cwf (snd e) /\ go d' end) d.
Definition member (e : bytes * content) : bytes := esc (fst e) ++ "."%char :: cser (snd e).

Lemma dotted_stop : forall fs r, stop r -> stop (dotted fs ++ r).
Proof. intros [|f fs] r H; cbn; auto. Qed.

Lemma dotted_list_inj : forall l1 l2 r1 r2, Forall inj_at l1 -> gol l1 -> gol l2 ->
  dotted (map cser l1) ++ "]"%char :: r1 = dotted (map cser l2) ++ "]"%char :: r2 -> l1 = l2 /\ r1 = r2.
Proof.
  induction l1 as [|x l1 IH]; intros [|y l2] r1 r2 HF G1 G2 E; cbn in E.
  - injection E as <-. auto.
  - discriminate E.
  - discriminate E.
  - injection E as E. rewrite <- !app_assoc in E. inversion HF as [|? ? Hx HF']. subst. destruct G1 as (W1 & G1), G2 as (W2 & G2).
    destruct (Hx y _ _ W1 W2 (dotted_stop _ ("]"%char :: r1) ltac:(cbn; auto)) (dotted_stop _ ("]"%char :: r2) ltac:(cbn; auto)) E) as (-> & E').
    destruct (IH l2 r1 r2 HF' G1 G2 E') as (-> & ->). auto.
Qed.

Definition dend (r : bytes) : Prop := match r with [] => True | c :: _ => c = "}"%char end.
Lemma dend_stop : forall r, dend r -> stop r.
Proof. intros [|c r] H; cbn in *; auto. Qed.

Lemma member_inj : forall e1 e2 r1 r2, inj_at (snd e1) -> cwf (snd e1) -> cwf (snd e2) -> stop r1 -> stop r2 ->
  member e1 ++ r1 = member e2 ++ r2 -> e1 = e2 /\ r1 = r2.
Proof.
  intros (k1, v1) (k2, v2) r1 r2 H W1 W2 P1 P2 E. unfold member in E. cbn [fst snd] in *. rewrite <- !app_assoc in E.
  assert (S1 : stop (("."%char :: cser v1) ++ r1)) by (cbn; auto).
  assert (S2 : stop (("."%char :: cser v2) ++ r2)) by (cbn; auto).
  destruct (esc_inj k1 k2 _ _ S1 S2 E) as (-> & E'). cbn [app] in E'. injection E' as E'.
  destruct (H v2 r1 r2 W1 W2 P1 P2 E') as (-> & ->). auto.
Qed.

Lemma dotted_dict_inj : forall d1 d2 r1 r2, Forall (fun e => inj_at (snd e)) d1 -> god d1 -> god d2 -> dend r1 -> dend r2 ->
  dotted (map member d1) ++ r1 = dotted (map member d2) ++ r2 -> d1 = d2 /\ r1 = r2.
Proof.
  induction d1 as [|x d1 IH]; intros [|y d2] r1 r2 HF G1 G2 Q1 Q2 E; cbn in E.
  - auto.
  - exfalso. subst r1. cbn in Q1. discriminate Q1.
  - exfalso. subst r2. cbn in Q2. discriminate Q2.
  - injection E as E. rewrite <- !app_assoc in E. inversion HF as [|? ? Hx HF']. subst. destruct G1 as (W1 & G1), G2 as (W2 & G2).
    destruct (member_inj x y _ _ Hx W1 W2 (dotted_stop _ r1 (dend_stop _ Q1)) (dotted_stop _ r2 (dend_stop _ Q2)) E) as (-> & E').
    destruct (IH d2 r1 r2 HF' G1 G2 Q1 Q2 E') as (-> & ->). auto.
Qed.

Lemma member_nonempty : forall e r, match member e ++ r with [] => False | c :: _ => c <> "}"%char end.
Proof.
  intros (k, v) r. unfold member. cbn [fst snd]. rewrite <- app_assoc. destruct k as [|c k]; cbn; [discriminate|].
  destruct (special c) eqn:Sc; cbn; [discriminate|]. intros ->. discriminate Sc.
Qed.

Lemma join_dict_inj : forall d1 d2 r1 r2, Forall (fun e => inj_at (snd e)) d1 -> god d1 -> god d2 -> dend r1 -> dend r2 ->
  join (map member d1) ++ r1 = join (map member d2) ++ r2 -> d1 = d2 /\ r1 = r2.
Proof.
  intros [|x d1] [|y d2] r1 r2 HF G1 G2 Q1 Q2 E; cbn [map join] in E.
  - auto.
  - exfalso. cbn [app] in E. pose proof (member_nonempty y (dotted (map member d2) ++ r2)) as X. rewrite app_assoc in X.
    rewrite <- E in X. destruct r1; [exact X|]. cbn in Q1. contradiction.
  - exfalso. cbn [app] in E. pose proof (member_nonempty x (dotted (map member d1) ++ r1)) as X. rewrite app_assoc in X.
    rewrite E in X. destruct r2; [exact X|]. cbn in Q2. contradiction.
  - rewrite <- !app_assoc in E. inversion HF as [|? ? Hx HF']. subst. destruct G1 as (W1 & G1), G2 as (W2 & G2).
    destruct (member_inj x y _ _ Hx W1 W2 (dotted_stop _ r1 (dend_stop _ Q1)) (dotted_stop _ r2 (dend_stop _ Q2)) E) as (-> & E').
    destruct (dotted_dict_inj d1 d2 r1 r2 HF' G1 G2 Q1 Q2 E') as (-> & ->). auto.
Qed.

Lemma str_head : forall s r c, special c = true -> c <> "\"%char -> ~ stop (c :: r) ->
  forall r', stop r' -> esc s ++ r' = c :: r -> False.
Proof.
  intros [|x s] r c Sc Nc Ns r' P E; cbn in E; [subst r'; contradiction|].
  destruct (special x) eqn:Sx; cbn in E; injection E as E _; congruence.
Qed.

Lemma str_null : forall s r r', stop r' -> esc s ++ r' = "\"%char :: "0"%char :: r -> False.
Proof.
  intros [|x s] r r' P E; cbn in E.
  - subst r'. destruct P as [P|[P|P]]; discriminate P.
  - destruct (special x) eqn:Sx; cbn in E.
    + injection E as E _. subst x. discriminate Sx.
    + injection E as E _. subst x. discriminate Sx.
Qed.

Lemma not_stop_open : forall r, ~ stop ("["%char :: r) /\ ~ stop ("{"%char :: r).
Proof. intros r. split; intros [F|[F|F]]; discriminate F. Qed.

Lemma str_bracket : forall s r r', stop r' -> esc s ++ r' = "["%char :: r -> False.
Proof.
  intros s r r' P E. assert (N : "["%char <> "\"%char) by discriminate.
  exact (str_head s r "["%char eq_refl N (proj1 (not_stop_open r)) r' P E).
Qed.
Lemma str_brace : forall s r r', stop r' -> esc s ++ r' = "{"%char :: r -> False.
Proof.
  intros s r r' P E. assert (N : "{"%char <> "\"%char) by discriminate.
  exact (str_head s r "{"%char eq_refl N (proj2 (not_stop_open r)) r' P E).
Qed.

Theorem cser_inj : forall c1, inj_at c1.
Proof.
  intros c1. induction c1 as [|s|l IH|d IH] using content_rect'; intros c2 r1 r2 W1 W2 P1 P2 E.
  - destruct c2 as [|s2|l2|d2]; cbn in E.
    + injection E as <-. auto.
    + exfalso. symmetry in E. exact (str_null _ _ _ P2 E).
    + discriminate E.
    + discriminate E.
  - destruct c2 as [|s2|l2|d2]; cbn [cser] in E.
    + exfalso. exact (str_null _ _ _ P1 E).
    + destruct (esc_inj s s2 r1 r2 P1 P2 E) as (-> & ->). auto.
    + exfalso. cbn [app] in E. exact (str_bracket s _ r1 P1 E).
    + exfalso. cbn [app] in E. exact (str_brace s _ r1 P1 E).
  - destruct c2 as [|s2|l2|d2]; cbn [cser] in E.
    + discriminate E.
    + exfalso. cbn [app] in E. symmetry in E. exact (str_bracket s2 _ r2 P2 E).
    + cbn [app] in E. injection E as E. rewrite <- !app_assoc in E. cbn [app] in E.
      destruct W1 as (N1 & G1), W2 as (N2 & G2). change (gol l) in G1. change (gol l2) in G2.
      destruct l as [|x l], l2 as [|y l2]; cbn [map join app] in E.
      * injection E as <-. auto.
      * exfalso. pose proof (cser_first y (dotted (map cser l2) ++ "]"%char :: r2)) as X. rewrite <- app_assoc in E. rewrite <- E in X.
        specialize (X (or_intror (or_introl eq_refl))). subst y. exact N2.
      * exfalso. pose proof (cser_first x (dotted (map cser l) ++ "]"%char :: r1)) as X. rewrite <- app_assoc in E. rewrite E in X.
        specialize (X (or_intror (or_introl eq_refl))). subst x. exact N1.
      * rewrite <- !app_assoc in E. inversion IH as [|? ? Hx HF]. subst. destruct G1 as (V1 & G1), G2 as (V2 & G2).
        destruct (Hx y _ _ V1 V2 (dotted_stop _ ("]"%char :: r1) ltac:(cbn; auto)) (dotted_stop _ ("]"%char :: r2) ltac:(cbn; auto)) E) as (-> & E').
        destruct (dotted_list_inj l l2 r1 r2 HF G1 G2 E') as (-> & ->). auto.
    + discriminate E.
  - destruct c2 as [|s2|l2|d2]; cbn [cser] in E.
    + discriminate E.
    + exfalso. cbn [app] in E. symmetry in E. exact (str_brace s2 _ r2 P2 E).
    + discriminate E.
    + cbn [app] in E. injection E as E. rewrite <- !app_assoc in E. cbn [app] in E.
      assert (X : d = d2 /\ "}"%char :: r1 = "}"%char :: r2).
      { apply join_dict_inj; auto; cbn; auto. }
      destruct X as (-> & X). injection X as <-. auto.
Qed.
