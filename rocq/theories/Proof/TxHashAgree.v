(* The document of a transaction and its fields give the same bytes (for C59). *)
From Coq Require Import String Ascii ZArith List Bool Arith Lia Permutation.
From Verif Require Import Model.TxHash Spec.TxHashSpec Proof.TxHashFacts Proof.TxHashSer Proof.TxHashForms.
Import ListNotations.
#[local] Arguments special : simpl never.

Section Agree.
Variable F : Type.
Variable int64 : F -> Z.
Notation ser := (serialize F int64).

Definition omem (name : string) (o : option (json F)) : list (bytes * json F) := match o with Some j => [(txt name, j)] | None => [] end.
Definition abstract_doc (ver from to step ts sig id : json F) (val nid nonce ty data : option (json F)) : list (bytes * json F) :=
  [(txt "version", ver); (txt "from", from); (txt "to", to); (txt "stepLimit", step); (txt "timestamp", ts); (txt "signature", sig);
   (txt "txHash", id)] ++ omem "value" val ++ omem "nid" nid ++ omem "nonce" nonce ++ omem "dataType" ty ++ omem "data" data.

Lemma keep_doc : forall ver from to step ts sig id val nid nonce ty data,
  filter (fun e => negb (existsb (fun k => if list_eq_dec ascii_dec k (fst e) then true else false) (excluded 3)))
    (abstract_doc ver from to step ts sig id val nid nonce ty data) =
  [(txt "version", ver); (txt "from", from); (txt "to", to); (txt "stepLimit", step); (txt "timestamp", ts)] ++
  omem "value" val ++ omem "nid" nid ++ omem "nonce" nonce ++ omem "dataType" ty ++ omem "data" data.
Proof. intros. destruct val, nid, nonce, ty, data; vm_compute; reflexivity. Qed.

Definition oval (name : string) (o : option bytes) : list (bytes * bytes) := match o with Some b => [(txt name, b)] | None => [] end.

Lemma sort_doc : forall ver from to step ts val nid nonce ty data,
  sort ([(txt "version", ver); (txt "from", from); (txt "to", to); (txt "stepLimit", step); (txt "timestamp", ts)] ++
        oval "value" val ++ oval "nid" nid ++ oval "nonce" nonce ++ oval "dataType" ty ++ oval "data" data) =
  oval "data" data ++ oval "dataType" ty ++ [(txt "from", from)] ++ oval "nid" nid ++ oval "nonce" nonce ++
  [(txt "stepLimit", step); (txt "timestamp", ts); (txt "to", to)] ++ oval "value" val ++ [(txt "version", ver)].
Proof. intros. destruct val, nid, nonce, ty, data; vm_compute; reflexivity. Qed.

Definition mem (e : bytes * bytes) : bytes := esc (fst e) ++ "."%char :: snd e.
Lemma dotted_app : forall a b, dotted (a ++ b) = dotted a ++ dotted b.
Proof. intros. unfold dotted. apply flat_map_app. Qed.
Lemma join_dotted : forall l, l <> [] -> ["."%char] ++ join l = dotted l.
Proof. intros [|x l] N; [contradiction|reflexivity]. Qed.

Lemma doc_bytes : forall ver from to step ts val nid nonce ty data,
  txt "icx_sendTransaction." ++ join_dict (
    oval "data" data ++ oval "dataType" ty ++ [(txt "from", from)] ++ oval "nid" nid ++ oval "nonce" nonce ++
    [(txt "stepLimit", step); (txt "timestamp", ts); (txt "to", to)] ++ oval "value" val ++ [(txt "version", ver)]) =
  txt "icx_sendTransaction" ++ opt_field ".data." data ++ opt_field ".dataType." ty ++ field ".from." from ++
  opt_field ".nid." nid ++ opt_field ".nonce." nonce ++ field ".stepLimit." step ++ field ".timestamp." ts ++ field ".to." to ++
  opt_field ".value." val ++ field ".version." ver.
Proof.
  intros. rewrite join_dict_eq. change (fun e : bytes * bytes => esc (fst e) ++ "."%char :: snd e) with mem.
  change (txt "icx_sendTransaction.") with (txt "icx_sendTransaction" ++ ["."%char]). rewrite <- app_assoc. f_equal.
  rewrite join_dotted by (destruct data, ty; discriminate). rewrite !map_app, !dotted_app. cbn [map fst snd].
  assert (K : forall name b, dotted [esc (txt name) ++ "."%char :: b] = "."%char :: esc (txt name) ++ "."%char :: b).
  { intros. unfold dotted. cbn [flat_map]. rewrite List.app_nil_r. reflexivity. }
  assert (KO : forall name o, dotted (map mem (oval name o)) = match o with Some b => "."%char :: esc (txt name) ++ "."%char :: b | None => [] end).
  { intros name [b|]; [apply K|reflexivity]. }
  rewrite !KO.
  assert (K3 : forall a b c : bytes, dotted [a; b; c] = dotted [a] ++ dotted [b] ++ dotted [c]).
  { intros. rewrite <- !dotted_app. reflexivity. }
  rewrite K3, !K. change (esc (txt "data")) with (txt "data"). change (esc (txt "dataType")) with (txt "dataType"). change (esc (txt "from")) with (txt "from"). change (esc (txt "nid")) with (txt "nid"). change (esc (txt "nonce")) with (txt "nonce"). change (esc (txt "stepLimit")) with (txt "stepLimit"). change (esc (txt "timestamp")) with (txt "timestamp"). change (esc (txt "to")) with (txt "to"). change (esc (txt "value")) with (txt "value"). change (esc (txt "version")) with (txt "version").
  unfold field, opt_field, field.
  destruct data, ty, nid, nonce, val; cbn [txt list_ascii_of_string app]; repeat (rewrite <- app_assoc; cbn [app]); reflexivity.
Qed.

Lemma esc_free : forall s, free s -> esc s = s.
Proof. exact esc_plain. Qed.

Theorem forms_agree : forall x sig id, (forall t, d_type F x = Some t -> free t) -> d_data F x <> Some None ->
  preimage_map F int64 3 (document F x sig id) = preimage_v3 F int64 x.
Proof.
  intros x sig id HT HD.
  set (data := match d_data F x with Some (Some v) => Some v | _ => None end).
  assert (ED : document F x sig id = abstract_doc (JStr (hexnum (d_version F x))) (JStr (addr_text (d_from F x))) (JStr (addr_text (d_to F x)))
     (JStr (hexnum (d_step F x))) (JStr (hexnum (d_ts F x))) sig id (option_map (fun z => JStr (hexnum z)) (d_value F x))
     (option_map (fun z => JStr (hexnum z)) (d_nid F x)) (option_map (fun z => JStr (hexnum z)) (d_nonce F x))
     (option_map JStr (d_type F x)) data).
  { unfold document, abstract_doc, data. destruct (d_value F x), (d_nid F x), (d_nonce F x), (d_type F x), (d_data F x) as [[v|]|]; reflexivity. }
  rewrite ED. unfold preimage_map, serialize_map. rewrite keep_doc. clear ED.
  destruct (d_data F x) as [[v|]|] eqn:Ed; [|destruct (HD eq_refl)|]; subst data.
  - unfold preimage_v3. rewrite Ed. destruct (ser v) as [b|] eqn:Ev.
    + assert (EA : all (map tagged (map (fun e => (fst e, ser (snd e)))
        ([(txt "version", JStr (hexnum (d_version F x))); (txt "from", JStr (addr_text (d_from F x))); (txt "to", JStr (addr_text (d_to F x)));
          (txt "stepLimit", JStr (hexnum (d_step F x))); (txt "timestamp", JStr (hexnum (d_ts F x)))] ++
         omem "value" (option_map (fun z => JStr (hexnum z)) (d_value F x)) ++ omem "nid" (option_map (fun z => JStr (hexnum z)) (d_nid F x)) ++
         omem "nonce" (option_map (fun z => JStr (hexnum z)) (d_nonce F x)) ++ omem "dataType" (option_map JStr (d_type F x)) ++ omem "data" (Some v)))) =
        Some ([(txt "version", hexnum (d_version F x)); (txt "from", addr_text (d_from F x)); (txt "to", addr_text (d_to F x));
          (txt "stepLimit", hexnum (d_step F x)); (txt "timestamp", hexnum (d_ts F x))] ++
         oval "value" (option_map hexnum (d_value F x)) ++ oval "nid" (option_map hexnum (d_nid F x)) ++
         oval "nonce" (option_map hexnum (d_nonce F x)) ++ oval "dataType" (d_type F x) ++ oval "data" (Some b))).
      { destruct (d_value F x), (d_nid F x), (d_nonce F x), (d_type F x) as [t|]; cbn [option_map omem oval app map fst snd serialize]; rewrite Ev;
          cbn [tagged all fst snd map]; rewrite ?(esc_free _ (hexnum_free _)), ?(esc_free _ (addr_free _)); try rewrite (esc_free t (HT t eq_refl)); reflexivity. }
      change (list ascii) with bytes in *. rewrite EA. rewrite sort_doc. f_equal. apply (doc_bytes _ _ _ _ _ _ _ _ _ (Some b)).
    + match goal with |- match match ?a with _ => _ end with _ => _ end = _ => assert (EN : a = None) end.
      { destruct (d_value F x), (d_nid F x), (d_nonce F x), (d_type F x) as [t|]; cbn [option_map omem app map fst snd serialize]; rewrite Ev;
          cbn [tagged all fst snd map]; reflexivity. }
      rewrite EN. reflexivity.
  - unfold preimage_v3. rewrite Ed. assert (EA : all (map tagged (map (fun e => (fst e, ser (snd e)))
        ([(txt "version", JStr (hexnum (d_version F x))); (txt "from", JStr (addr_text (d_from F x))); (txt "to", JStr (addr_text (d_to F x)));
          (txt "stepLimit", JStr (hexnum (d_step F x))); (txt "timestamp", JStr (hexnum (d_ts F x)))] ++
         omem "value" (option_map (fun z => JStr (hexnum z)) (d_value F x)) ++ omem "nid" (option_map (fun z => JStr (hexnum z)) (d_nid F x)) ++
         omem "nonce" (option_map (fun z => JStr (hexnum z)) (d_nonce F x)) ++ omem "dataType" (option_map JStr (d_type F x)) ++ omem "data" None))) =
        Some ([(txt "version", hexnum (d_version F x)); (txt "from", addr_text (d_from F x)); (txt "to", addr_text (d_to F x));
          (txt "stepLimit", hexnum (d_step F x)); (txt "timestamp", hexnum (d_ts F x))] ++
         oval "value" (option_map hexnum (d_value F x)) ++ oval "nid" (option_map hexnum (d_nid F x)) ++
         oval "nonce" (option_map hexnum (d_nonce F x)) ++ oval "dataType" (d_type F x) ++ oval "data" None)).
      { destruct (d_value F x), (d_nid F x), (d_nonce F x), (d_type F x) as [t|]; cbn [option_map omem oval app map fst snd serialize];
          cbn [tagged all fst snd map]; rewrite ?(esc_free _ (hexnum_free _)), ?(esc_free _ (addr_free _)); try rewrite (esc_free t (HT t eq_refl)); reflexivity. }
      change (list ascii) with bytes in *. rewrite EA. rewrite sort_doc. f_equal. apply (doc_bytes _ _ _ _ _ _ _ _ _ None).
Qed.
End Agree.
