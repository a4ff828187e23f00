(* C58, C59: what the ID of a transaction is computed from. *)
From Coq Require Import String Ascii ZArith List Bool Arith Lia Permutation.
From Verif Require Import Model.TxHash Spec.TxHashSpec Proof.TxHashFacts Proof.TxHashSer Proof.TxHashForms Proof.TxHashAgree.
Import ListNotations.

(* ---- C58 ---- *)

(* Two values give the same bytes exactly when they have the same content. *)
Theorem C58_same_bytes_iff : forall F (int64 : F -> Z) v1 v2 b1 b2,
  serialize F int64 v1 = Some b1 -> serialize F int64 v2 = Some b2 ->
  (b1 = b2 <-> content_of F int64 v1 = content_of F int64 v2).
Proof. exact serialize_iff. Qed.
Print Assumptions C58_same_bytes_iff.

(* For strings, nulls, arrays not beginning with an empty string and objects, the
   bytes determine the value. *)
Theorem C58_plain_injective : forall F (int64 : F -> Z) v1 v2 b,
  plain F v1 -> plain F v2 -> serialize F int64 v1 = Some b -> serialize F int64 v2 = Some b -> v1 = v2.
Proof. exact plain_inj. Qed.
Print Assumptions C58_plain_injective.

Theorem C58_plain_total : forall F (int64 : F -> Z) v, plain F v -> exists b, serialize F int64 v = Some b.
Proof. intros F int64 v P. pose proof (plain_total F int64 v P) as N. destruct (serialize F int64 v) as [b|]; [exists b; reflexivity|contradiction]. Qed.
Print Assumptions C58_plain_total.

(* A value has no bytes exactly when a truth value occurs in it. *)
Theorem C58_refused_iff : forall F (int64 : F -> Z) v, serialize F int64 v = None <-> has_bool v.
Proof. exact refused_iff. Qed.
Print Assumptions C58_refused_iff.

(* Two documents give the same bytes exactly when their members other than the
   signature and the ID have the same content. *)
Theorem C58_document_iff : forall F (int64 : F -> Z) version d1 d2 b1 b2,
  preimage_map F int64 version d1 = Some b1 -> preimage_map F int64 version d2 = Some b2 ->
  (b1 = b2 <->
   let ex := if Nat.eqb version 2 then [txt "method"; txt "signature"; txt "tx_hash"] else [txt "signature"; txt "txHash"] in
   content_map F int64 ex d1 = content_map F int64 ex d2).
Proof.
  intros F int64 version d1 d2 b1 b2 E1 E2. unfold preimage_map in E1, E2. change (excluded version) with
    (if Nat.eqb version 2 then [txt "method"; txt "signature"; txt "tx_hash"] else [txt "signature"; txt "txHash"]) in E1, E2.
  cbv zeta. set (ex := if Nat.eqb version 2 then _ else _) in *. clearbody ex.
  destruct (serialize_map F int64 ex d1) as [c1|] eqn:S1; [|discriminate E1].
  destruct (serialize_map F int64 ex d2) as [c2|] eqn:S2; [|discriminate E2].
  injection E1 as <-. injection E2 as <-. rewrite <- (map_iff F int64 ex d1 d2 c1 c2 S1 S2). split.
  - intros E. injection E as E. exact E.
  - intros ->. reflexivity.
Qed.
Print Assumptions C58_document_iff.

(* The order of the members of a document does not matter. *)
Theorem C58_order : forall F (int64 : F -> Z) version d d',
  Permutation d d' -> NoDup (map fst d) -> preimage_map F int64 version d = preimage_map F int64 version d'.
Proof.
  intros F int64 version d d' P N. unfold preimage_map. rewrite (map_order F int64 (excluded version) d d' P N). reflexivity.
Qed.
Print Assumptions C58_order.

(* Not everything is covered: empty strings at the front of an array... *)
Theorem C58_violated_empty : exists v1 v2 v3 v4 : json Z,
  v1 = JList [JStr []; JStr (txt "a")] /\ v2 = JList [JStr (txt "a")] /\
  v3 = JList [JStr []] /\ v4 = JList [] /\
  serialize Z (fun z => z) v1 = serialize Z (fun z => z) v2 /\ serialize Z (fun z => z) v1 <> None /\
  serialize Z (fun z => z) v3 = serialize Z (fun z => z) v4 /\ serialize Z (fun z => z) v3 <> None.
Proof.
  do 4 eexists. split; [reflexivity|]. split; [reflexivity|]. split; [reflexivity|]. split; [reflexivity|].
  vm_compute. split; [reflexivity|]. split; [discriminate|]. split; [reflexivity|discriminate].
Qed.
Print Assumptions C58_violated_empty.

(* ... and the fraction of a number, or that it is a number.  A fraction stands
   for a float64 and [Z.quot] for the conversion. *)
Theorem C58_violated_number :
  let s := serialize (Z * Z) (fun q => Z.quot (fst q) (snd q)) in
  s (JNum (3, 2)%Z) = s (JNum (1, 1)%Z) /\ s (JNum (1, 1)%Z) = s (JStr (txt "1")) /\ s (JStr (txt "1")) = Some (txt "1").
Proof. vm_compute. auto. Qed.
Print Assumptions C58_violated_number.

(* ---- C59 ---- *)

(* In the binary form the bytes cover every field, whatever is in them. *)
Theorem C59_binary_fields : forall F (int64 : F -> Z) x y b1 b2,
  preimage_v3 F int64 x = Some b1 -> preimage_v3 F int64 y = Some b2 ->
  (b1 = b2 <->
   d_version F x = d_version F y /\ d_from F x = d_from F y /\ d_to F x = d_to F y /\ d_value F x = d_value F y /\
   d_step F x = d_step F y /\ d_ts F x = d_ts F y /\ d_nid F x = d_nid F y /\ d_nonce F x = d_nonce F y /\
   d_type F x = d_type F y /\ content_data F int64 (d_data F x) = content_data F int64 (d_data F y)).
Proof.
  intros F int64 x y b1 b2 E1 E2. split.
  - intros <-. destruct (v3_inj F int64 x y b1 E1 E2) as (T & (A & B & C & D & E & G & H & K) & Ed). auto 20.
  - intros (A & B & C & D & E & G & H & K & T & Ed).
    pose proof (v3_same F int64 x y T (conj A (conj B (conj C (conj D (conj E (conj G (conj H K))))))) Ed) as X. congruence.
Qed.
Print Assumptions C59_binary_fields.

(* The document a transaction is shown as gives the same bytes as its fields, in
   any order of the members, when the data type has no special character. *)
Theorem C59_forms_agree : forall F (int64 : F -> Z) x sig id d,
  (forall t, d_type F x = Some t -> forall c, In c t -> ~ In c ["\"; "{"; "}"; "["; "]"; "."]%char) ->
  d_data F x <> Some None -> Permutation (document F x sig id) d ->
  preimage_map F int64 3 d = preimage_v3 F int64 x.
Proof.
  intros F int64 x sig id d HT HD P. rewrite <- (C58_order F int64 3 (document F x sig id) d P).
  - apply forms_agree; [|exact HD]. intros t Et. apply Forall_forall. intros c Hc. specialize (HT t Et c Hc). unfold special.
    destruct (existsb (Ascii.eqb c) ["\"; "{"; "}"; "["; "]"; "."]%char) eqn:E; [|reflexivity]. exfalso. apply HT.
    apply existsb_exists in E. destruct E as (z & Hz & Ez). apply Ascii.eqb_eq in Ez. subst z. exact Hz.
  - unfold document. destruct (d_value F x), (d_nid F x), (d_nonce F x), (d_type F x), (d_data F x) as [[v|]|];
      cbn [str_member option_map app map fst]; repeat (constructor; [cbn [In]; intros Hin; repeat (destruct Hin as [Hin|Hin]; [discriminate Hin|]); exact Hin|]); constructor.
Qed.
Print Assumptions C59_forms_agree.

(* A transaction accepted as JSON has the ID of its document, and so has what
   another node makes of the bytes it is sent on as. *)
Theorem C59_same_id_everywhere : forall F (int64 : F -> Z) sha3 parse d raw t b,
  parse_json F int64 sha3 parse d raw = Some t -> preimage_map F int64 3 d = Some b ->
  tx_id F int64 sha3 t = sha3 b /\
  exists t', resend F int64 sha3 parse t = Some t' /\ t_data F t' = t_data F t /\ tx_id F int64 sha3 t' = sha3 b.
Proof.
  intros F int64 sha3 parse d raw t b E Eb. unfold parse_json in E. destruct (parse d) as [x|] eqn:Ep; [|discriminate E].
  assert (R : tx_id F int64 sha3 (mkTx F x (Some d)) = sha3 b) by (unfold tx_id; cbn; rewrite Eb; reflexivity).
  assert (RR : resend F int64 sha3 parse (mkTx F x (Some d)) = Some (mkTx F x (Some d))) by (unfold resend, parse_json; cbn; rewrite Ep; reflexivity).
  destruct raw.
  - injection E as <-. split; [exact R|]. eexists. split; [exact RR|]. split; [reflexivity|exact R].
  - rewrite Eb in E. destruct (list_eq_dec ascii_dec (sha3 b) (tx_id F int64 sha3 (mkTx F x None))) as [Eq|N]; injection E as <-.
    + split; [symmetry; exact Eq|]. eexists. split; [reflexivity|]. split; [reflexivity|]. cbn. symmetry. exact Eq.
    + split; [exact R|]. eexists. split; [exact RR|]. split; [reflexivity|exact R].
Qed.
Print Assumptions C59_same_id_everywhere.

(* A transaction in binary form that is shown and sent in again as JSON keeps its
   ID; it is even kept in the binary form. *)
Theorem C59_shown_and_back : forall F (int64 : F -> Z) sha3 parse x sig id b,
  (forall t, d_type F x = Some t -> forall c, In c t -> ~ In c ["\"; "{"; "}"; "["; "]"; "."]%char) ->
  d_data F x <> Some None -> preimage_v3 F int64 x = Some b ->
  parse (document F x sig id) = Some x ->
  parse_json F int64 sha3 parse (document F x sig id) false = Some (mkTx F x None) /\
  tx_id F int64 sha3 (mkTx F x None) = sha3 b.
Proof.
  intros F int64 sha3 parse x sig id b HT HD Eb Ep.
  pose proof (C59_forms_agree F int64 x sig id (document F x sig id) HT HD (Permutation_refl _)) as A.
  assert (R : tx_id F int64 sha3 (mkTx F x None) = sha3 b) by (unfold tx_id; cbn; rewrite Eb; reflexivity).
  split; [|exact R]. unfold parse_json. rewrite Ep, A, Eb, R. destruct (list_eq_dec ascii_dec (sha3 b) (sha3 b)); [reflexivity|contradiction].
Qed.
Print Assumptions C59_shown_and_back.

(* The data type of the binary form is not escaped: a document with one more
   member gives the same bytes as a binary transaction with another data type. *)
Definition ev_addr : addr := mkAddr true (repeat "a"%char 20).
Definition ev_x (t : bytes) : v3 Z := mkV3 Z 3 (mkAddr false (repeat "b"%char 20)) ev_addr None 1000 7 (Some 1%Z) None (Some t) (Some (Some (JDict [(txt "method", JStr (txt "hello"))]))).
Theorem C59_violated_type : exists x y (extra : bytes * json Z),
  d_type Z x = Some (txt "call") /\ d_type Z y = Some (txt "call.extra.1") /\
  extra = (txt "extra", JStr (txt "1")) /\
  preimage_map Z (fun z => z) 3 (extra :: document Z x JNull JNull) = preimage_v3 Z (fun z => z) y /\
  preimage_v3 Z (fun z => z) y <> None.
Proof.
  exists (ev_x (txt "call")), (ev_x (txt "call.extra.1")), (txt "extra", JStr (txt "1")).
  split; [reflexivity|]. split; [reflexivity|]. split; [reflexivity|]. vm_compute. split; [reflexivity|discriminate].
Qed.
Print Assumptions C59_violated_type.

(* ---- cases meeting the hypotheses ---- *)
Definition ev_v : json Z := JDict [(txt "a.b", JList [JStr (txt "x"); JStr []; JNull]); (txt "k", JDict []); (txt "z", JStr (txt "{"))].
Example ev_plain : plain Z ev_v.
Proof. vm_compute. auto 20. Qed.
Example ev_bytes : serialize Z (fun z => z) ev_v = Some (txt "{a\.b.[x..\0].k.{}.z.\{}").
Proof. vm_compute. reflexivity. Qed.
Example ev_bool : serialize Z (fun z => z) (JList [JStr (txt "x"); JBool true]) = None.
Proof. reflexivity. Qed.
Example ev_binary : preimage_v3 Z (fun z => z) (ev_x (txt "call")) =
  Some (txt "icx_sendTransaction.data.{method.hello}.dataType.call.from.hx6262626262626262626262626262626262626262.nid.0x1.stepLimit.0x3e8.timestamp.0x7.to.cx6161616161616161616161616161616161616161.version.0x3").
Proof. vm_compute. reflexivity. Qed.
Example ev_back : let parse := fun _ => Some (ev_x (txt "call")) in
  parse_json Z (fun z => z) (fun b => b) parse (document Z (ev_x (txt "call")) JNull JNull) false = Some (mkTx Z (ev_x (txt "call")) None).
Proof. vm_compute. reflexivity. Qed.
Example ev_raw : let parse := fun _ => Some (ev_x (txt "call")) in let d := (txt "extra", JStr (txt "1")) :: document Z (ev_x (txt "call")) JNull JNull in
  parse_json Z (fun z => z) (fun b => b) parse d false = Some (mkTx Z (ev_x (txt "call")) (Some d)).
Proof. vm_compute. reflexivity. Qed.
