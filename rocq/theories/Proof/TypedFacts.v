From Verif Require Import Model.Bytes Model.IntCodec Model.Utf8 Model.Exn Model.Address Model.Typed Spec.WireValues
  Proof.BytesFacts Proof.IntCodecFacts Proof.Utf8Facts Proof.AddressFacts.

Section PyvalInd.
  Context (P : pyval -> Prop).
  Hypothesis (H1 : P VNone) (H2 : forall b, P (VBool b)) (H3 : forall z, P (VInt z)) (H4 : forall s, P (VStr s))
    (H5 : forall bs, P (VBytes bs)) (H6 : forall a, P (VAddr a)) (H7 : forall l, Forall P l -> P (VList l))
    (H8 : forall l, Forall P l -> P (VTuple l)) (H9 : forall d, Forall (fun kv => P (snd kv)) d -> P (VDict d))
    (H10 : P VOther).
  Fixpoint pyval_ind2 (v : pyval) : P v :=
    match v with
    | VNone => H1 | VBool b => H2 b | VInt z => H3 z | VStr s => H4 s | VBytes b => H5 b | VAddr a => H6 a
    | VList l => H7 l ((fix go l : Forall P l := match l with [] => Forall_nil _ | x :: r => Forall_cons _ (pyval_ind2 x) (go r) end) l)
    | VTuple l => H8 l ((fix go l : Forall P l := match l with [] => Forall_nil _ | x :: r => Forall_cons _ (pyval_ind2 x) (go r) end) l)
    | VDict d => H9 d ((fix go d : Forall (fun kv => P (snd kv)) d :=
        match d with [] => Forall_nil _ | x :: r => Forall_cons x (pyval_ind2 (snd x)) (go r) end) d)
    | VOther => H10
    end.
End PyvalInd.

Lemma map_res_ok {A B} (f : A -> pyres B) l : Forall (fun a => exists b, f a = Ok b) l ->
  exists bs, map_res f l = Ok bs /\ Forall2 (fun a b => f a = Ok b) l bs.
Proof.
  induction 1 as [|a l (b & E) _ (bs & IH & F)]; [exists []; split; [reflexivity|constructor]|].
  exists (b :: bs). split; [|constructor; auto]. cbn [map_res]. rewrite E. cbn [res_bind].
  fold (map_res f). rewrite IH. reflexivity.
Qed.

Lemma map_res_forall2 {A B} (f : A -> pyres B) l bs : Forall2 (fun a b => f a = Ok b) l bs -> map_res f l = Ok bs.
Proof.
  induction 1 as [|a b l bs E _ IH]; [reflexivity|]. cbn [map_res]. rewrite E. cbn [res_bind].
  fold (map_res f). rewrite IH. reflexivity.
Qed.

Definition encodes_ok (v : pyval) : Prop :=
  exists t, encode_any v = Ok t /\ forall t', wire t t' -> exists v', decode_any t' = Ok v' /\ same v v'.

Lemma list_ok l : Forall encodes_ok l ->
  exists ts, map_res encode_any l = Ok ts /\
    forall ts', Forall2 wire ts ts' -> exists l', map_res decode_any ts' = Ok l' /\ Forall2 same l l'.
Proof.
  induction 1 as [|v l (t & Et & Ht) _ (ts & Ets & Hts)].
  - exists []. split; auto. intros ts' W. inversion W; subst. exists []. split; auto.
  - exists (t :: ts). split.
    + cbn [map_res]. fold (map_res encode_any). rewrite Et. cbn [res_bind]. rewrite Ets. reflexivity.
    + intros ts' W. inversion W as [|? t' ? ts'' W1 W2]; subst.
      destruct (Ht _ W1) as (v' & Ev & Sv). destruct (Hts _ W2) as (l' & El & Sl).
      exists (v' :: l'). split; [|constructor; auto]. cbn [map_res]. fold (map_res decode_any).
      rewrite Ev. cbn [res_bind]. rewrite El. reflexivity.
Qed.

Lemma dict_set_fresh k v d : ~ In (DKStr k) (map fst d) -> dict_set k v d = d ++ [(DKStr k, v)].
Proof.
  induction d as [|[[k'|] v'] d IH]; cbn [dict_set map fst In app]; intros H; auto.
  - destruct (bytes_eqb k k') eqn:E; [apply bytes_eqb_eq in E; subst; tauto|]. rewrite IH; auto.
  - rewrite IH; auto.
Qed.

Lemma fold_dict_set items : forall obj, NoDup (map fst obj ++ map (fun kv => DKStr (fst kv)) items) ->
  fold_left (fun obj kv => dict_set (fst kv) (snd kv) obj) items obj
  = obj ++ map (fun kv => (DKStr (fst kv), snd kv)) items.
Proof.
  induction items as [|[k v] items IH]; intros obj H; cbn [fold_left map].
  - now rewrite app_nil_r.
  - cbn [map fst] in H. cbn [fst snd]. rewrite dict_set_fresh.
    + rewrite IH; [now rewrite <- app_assoc|]. rewrite map_app, <- app_assoc. exact H.
    + apply NoDup_remove_2 in H. intros I. apply H, in_or_app; auto.
Qed.

Lemma dict_ok d : Forall (fun kv => encodes_ok (snd kv)) d ->
  Forall (fun kv => exists s, fst kv = DKStr s /\ valid_str s) d -> NoDup (map fst d) ->
  encodes_ok (VDict d).
Proof.
  intros He Hk Hn.
  set (fe := fun kv => match kv with (DKOther, _) => Exc (EPy KInvalidKey)
              | (DKStr k, v) => res_bind (encode_any v) (fun t => Ok (WStr k, t)) end : pyres (wkey * typed)).
  set (fd := fun kv : wkey * typed => match kv with (k, v) => res_bind (decode_key k)
              (fun s => res_bind (decode_any v) (fun x => Ok (s, x))) end).
  assert (M : exists m, map_res fe d = Ok m /\
     forall m', Forall2 (fun a b => wire_key (fst a) (fst b) /\ wire (snd a) (snd b)) m m' ->
       exists items, map_res fd m' = Ok items /\
         Forall2 (fun a b => fst a = DKStr (fst b) /\ same (snd a) (snd b)) d items).
  { clear Hn. induction He as [|[k v] d (t & Et & Ht) He IH].
    - exists []. split; auto. intros m' W. inversion W; subst. exists []. split; auto.
    - inversion Hk as [|? ? (s & Es & Vs) Hk']; subst. cbn [fst] in Es; subst k.
      destruct (IH Hk') as (m & Em & Hm). exists ((WStr s, t) :: m). split.
      + cbn [map_res]. fold (map_res fe). cbn [snd] in Et. unfold fe at 1. rewrite Et. cbn [res_bind]. rewrite Em. reflexivity.
      + intros m' W. inversion W as [|? [k' t'] ? m'' [W1 W1'] W2]; subst. cbn [fst snd] in *.
        destruct (Ht _ W1') as (v' & Ev & Sv). destruct (Hm _ W2) as (items & Ei & Si).
        exists ((s, v') :: items). split; [|constructor; auto].
        cbn [map_res]. fold (map_res fd). unfold fd at 1.
        assert (decode_key k' = Ok s) as ->.
        { inversion W1 as [|? ? EE]; subst; unfold decode_key; auto. apply decode_encode in EE. now rewrite EE. }
        cbn [res_bind]. rewrite Ev. cbn [res_bind]. rewrite Ei. reflexivity. }
  destruct M as (m & Em & Hm). exists (TDict T_DICT m). split.
  - cbn [encode_any]. fold fe. rewrite Em. reflexivity.
  - intros t' W. inversion W as [| | |? ? m' W']; subst. destruct (Hm _ W') as (items & Ei & Si).
    assert (K : map fst d = map (fun kv => DKStr (fst kv)) items).
    { clear -Si. induction Si as [|? ? ? ? [E _] _ IH]; cbn; [auto|now rewrite E, IH]. }
    eexists. split.
    + cbn [decode_any]. change (T_DICT =? T_NIL) with false. change (T_DICT =? T_DICT) with true.
      fold fd. rewrite Ei. cbn [res_bind]. reflexivity.
    + rewrite fold_dict_set by (cbn [map app]; now rewrite <- K). cbn [app]. apply same_dict.
      clear -Si. induction Si as [|a b d items [E S] _ IH]; cbn; constructor; auto.
Qed.

Theorem wire_roundtrip v : wire_value v -> encodes_ok v.
Proof.
  induction v as [| | | | | |l IH|l IH|d IH|] using pyval_ind2; intros W; inversion W; subst.
  - exists (TNil T_NIL). split; auto. intros t' Wt; inversion Wt; subst. exists VNone. split; [reflexivity|constructor].
  - eexists. split; [reflexivity|]. intros t' Wt; inversion Wt; subst. exists (VBool b). split; [|constructor].
    destruct b; reflexivity.
  - eexists. split; [cbn [encode_any]; rewrite int_to_bytes_ok; reflexivity|].
    intros t' Wt; inversion Wt; subst. exists (VInt z). split; [|constructor].
    cbn [decode_any]. change (T_INT =? T_NIL) with false. change ((T_INT =? T_DICT) || (T_INT =? T_LIST)) with false.
    unfold decode. change (T_INT =? T_BYTES) with false. change (T_INT =? T_STRING) with false. change (T_INT =? T_INT) with true.
    cbn iota. f_equal. f_equal. destruct (int_roundtrip z) as (bs & E & _ & D). rewrite int_to_bytes_ok in E.
    apply some_inj in E. rewrite E. exact D.
  - match goal with H : valid_str _ |- _ => apply encode_valid in H as (bs & E) end.
    exists (TBin T_STRING bs). split; [cbn [encode_any]; rewrite E; reflexivity|].
    intros t' Wt; inversion Wt; subst. exists (VStr s). split; [|constructor].
    cbn -[utf8_decode]. rewrite (decode_encode _ _ E). reflexivity.
  - eexists. split; [reflexivity|]. intros t' Wt; inversion Wt; subst. exists (VBytes bs). split; [reflexivity|constructor].
  - eexists. split; [reflexivity|]. intros t' Wt; inversion Wt; subst. exists (VAddr a). split; [|constructor].
    cbn -[address_from_bytes address_to_bytes]. rewrite address_bytes_roundtrip by auto. reflexivity.
  - destruct (list_ok l) as (ts & E & H).
    { match goal with H : Forall wire_value l |- _ => rename H into FW end. clear W.
      induction IH; inversion FW; subst; constructor; auto. }
    exists (TList T_LIST ts). split; [cbn [encode_any]; rewrite E; reflexivity|].
    intros t' Wt; inversion Wt as [| |? ? l1 F|]; subst. destruct (H _ F) as (l' & E' & S). exists (VList l').
    split; [|now constructor]. cbn -[map_res]. rewrite E'. reflexivity.
  - destruct (list_ok l) as (ts & E & H).
    { match goal with H : Forall wire_value l |- _ => rename H into FW end. clear W.
      induction IH; inversion FW; subst; constructor; auto. }
    exists (TList T_LIST ts). split; [cbn [encode_any]; rewrite E; reflexivity|].
    intros t' Wt; inversion Wt as [| |? ? l1 F|]; subst. destruct (H _ F) as (l' & E' & S). exists (VList l').
    split; [|now constructor]. cbn -[map_res]. rewrite E'. reflexivity.
  - apply dict_ok; auto.
    match goal with H : Forall (fun kv => wire_value _) d |- _ => rename H into FW end.
    clear -IH FW. induction IH; inversion FW; subst; constructor; auto.
Qed.

(** Dictionaries on the wire with repeated keys. *)
Definition keys_of (d : list (dkey * pyval)) := map fst d.
Lemma dict_set_in k v d : forall k' v', NoDup (map fst d) ->
  (In (DKStr k', v') (dict_set k v d) <-> (k' = k /\ v' = v) \/ (k' <> k /\ In (DKStr k', v') d)).
Proof.
  induction d as [|[[q|] u] d IH]; intros k' v' N; cbn [dict_set In].
  - split; [intros [E|[]]; injection E as <- <-; auto|]. intros [[-> ->]|[_ []]]; auto.
  - inversion N as [|? ? N1 N2]; subst. destruct (bytes_eqb k q) eqn:E.
    + apply bytes_eqb_eq in E. subst q. cbn [In]. split.
      * intros [X|X]; [injection X as <- <-; auto|]. right. split; [|auto]. intros ->. apply N1. apply (in_map fst) in X. exact X.
      * intros [[-> ->]|[X [Y|Y]]]; [auto| |auto]. injection Y as -> _. congruence.
    + cbn [In]. rewrite IH by exact N2. assert (q <> k) by (intros ->; rewrite bytes_eqb_refl in E; discriminate).
      split.
      * intros [X|[X|[X Y]]]; [injection X as <- <-; right; split; auto|auto|auto].
      * intros [[-> ->]|[X [Y|Y]]]; auto.
  - inversion N as [|? ? N1 N2]; subst. cbn [In]. rewrite IH by exact N2. split.
    + intros [X|[X|[X Y]]]; [discriminate|auto|auto].
    + intros [[-> ->]|[X [Y|Y]]]; auto; discriminate.
Qed.
Lemma dict_set_keys k v d : NoDup (map fst d) -> NoDup (map fst (dict_set k v d)).
Proof.
  intros N. assert (K : map fst (dict_set k v d) = map fst d \/ ~ In (DKStr k) (map fst d)).
  { clear N. induction d as [|[[q|] u] d IH]; cbn [dict_set map fst In]; [auto| |].
    - destruct (bytes_eqb k q) eqn:E; cbn [map fst]; [auto|]. destruct IH as [->|IH]; [auto|]. right. intros [X|X]; [|tauto].
      injection X as ->. rewrite bytes_eqb_refl in E. discriminate.
    - cbn [map fst]. destruct IH as [->|IH]; [auto|]. right. intros [X|X]; [discriminate|tauto]. }
  destruct K as [->|K]; [exact N|]. rewrite dict_set_fresh by exact K. rewrite map_app. cbn.
  apply NoDup_rev in N. rewrite <- (rev_involutive (map fst d ++ _)). apply NoDup_rev. rewrite rev_app_distr. cbn.
  constructor; [|exact N]. rewrite <- in_rev. exact K.
Qed.
(** [last_for k v items]: [v] goes with the last occurrence of [k]. *)
Definition last_for (k : pystr) (v : pyval) (items : list (pystr * pyval)) : Prop :=
  exists before after, items = before ++ (k, v) :: after /\ ~ In k (map fst after).
Lemma fold_dict_last items : forall obj, NoDup (map fst obj) ->
  let out := fold_left (fun obj kv => dict_set (fst kv) (snd kv) obj) items obj in
  NoDup (map fst out) /\
  forall k v, In (DKStr k, v) out <-> last_for k v items \/ (~ In k (map fst items) /\ In (DKStr k, v) obj).
Proof.
  induction items as [|[q u] items IH] using rev_ind; intros obj N; cbv zeta.
  - cbn. split; [exact N|]. intros k v. split; [tauto|]. intros [(b & a & E & _)|[_ H]]; [destruct b; discriminate|exact H].
  - rewrite fold_left_app. cbn [fold_left fst snd]. destruct (IH obj N) as (N1 & H1). split; [apply dict_set_keys, N1|].
    intros k v. rewrite dict_set_in by exact N1. rewrite H1. rewrite map_app. cbn [map fst]. split.
    + intros [[-> ->]|[X [Y|[Y Z]]]].
      * left. exists items, []. auto.
      * left. destruct Y as (b & a & -> & Y). exists b, (a ++ [(q, u)]). rewrite <- app_assoc. split; [reflexivity|].
        rewrite map_app. cbn. intros J. apply in_app_or in J. cbn in J. destruct J as [J|[J|[]]]; [tauto|congruence].
      * right. split; [|exact Z]. intros J. apply in_app_or in J. cbn in J. destruct J as [J|[J|[]]]; [tauto|congruence].
    + intros [(b & a & E & Y)|[Y Z]].
      * destruct a as [|x a] using rev_ind.
        { apply app_inj_tail in E. destruct E as [_ E]. injection E as -> ->. auto. }
        rewrite app_comm_cons, app_assoc in E. apply app_inj_tail in E. destruct E as [-> <-].
        rewrite map_app in Y. cbn in Y. right. split; [intros ->; apply Y, in_or_app; cbn; auto|].
        left. exists b, a. split; [reflexivity|]. intros J. apply Y, in_or_app. auto.
      * right. split; [intros ->; apply Y, in_or_app; cbn; auto|]. right. split; [|exact Z]. intros J. apply Y, in_or_app; auto.
Qed.
Lemma map_res_F2 {A B} (f : A -> pyres B) l : forall bs, map_res f l = Ok bs -> Forall2 (fun a b => f a = Ok b) l bs.
Proof.
  induction l as [|a l IH]; intros bs E; cbn in E.
  - injection E as <-. constructor.
  - destruct (f a) eqn:F; try discriminate. cbn in E. fold (map_res f) in E. destruct (map_res f l) eqn:G; try discriminate.
    cbn in E. injection E as <-. constructor; auto.
Qed.
Lemma decoded_dict d v : decode_any (TDict T_DICT d) = Ok v ->
  exists items out, v = VDict out /\
    Forall2 (fun a b => decode_key (fst a) = Ok (fst b) /\ decode_any (snd a) = Ok (snd b)) d items /\
    NoDup (map fst out) /\ (forall k x, In (DKStr k, x) out <-> last_for k x items).
Proof.
  cbn [decode_any]. change (T_DICT =? T_NIL) with false. change (T_DICT =? T_DICT) with true. cbv iota.
  intros E. destruct (map_res _ d) as [items| |] eqn:M; try discriminate. cbn [res_bind] in E. injection E as <-.
  exists items. eexists. split; [reflexivity|]. split; [|split].
  - apply map_res_F2 in M. clear -M. induction M as [|[k t] [s x] ? ? H _ IH]; constructor; auto.
    cbn [fst snd]. destruct (decode_key k) as [s'| |]; try discriminate. cbn in H. destruct (decode_any t); try discriminate. cbn in H.
    injection H as <- <-. auto.
  - apply (fold_dict_last items []). constructor.
  - intros k x. rewrite (proj2 (fold_dict_last items [] (NoDup_nil _))). cbn. split; [|tauto]. intros [H|[_ []]]; exact H.
Qed.
