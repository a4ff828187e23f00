(** C27: the external text form of parameters and back. *)
From Verif Require Import Model.Bytes Model.Utf8 Model.Exn Model.Address Model.Typed Model.ScoreClass Model.TypeConverter
  Proof.TypeConverterFacts Spec.ParamSpec.

(** A value turned into text and read back with its declared type is the same value ([uni]: Python's reading of
    digits and spaces outside ASCII, whatever it is). *)
Theorem C27_value : forall uni b v, fits b v -> convert_data_value uni (Some b) (convert_type_reverse v) = Ok v.
Proof. exact scalar_roundtrip. Qed.
Print Assumptions C27_value.

(** The same for a whole parameter dictionary: annotated values of their declared type (or None), the rest text. *)
Theorem C27_params : forall uni ann kw, NoDup (map fst ann) -> NoDup (map fst kw) ->
  Forall (fun k => k <> s_self /\ k <> s_cls) (map fst ann) ->
  (forall k v, In (k, v) kw -> v = VNone \/
     exists key, k = DKStr key /\
      ((exists h b, In (key, h) ann /\ main_type h = Some b /\ fits b v) \/ (~ In key (map fst ann) /\ exists s, v = VStr s))) ->
  exists d, convert_type_reverse (VDict kw) = VDict d /\ convert_data_params uni ann d = Ok kw.
Proof. exact params_roundtrip. Qed.
Print Assumptions C27_params.

Definition no_uni (c : Z) : Z := 63.
Definition s_amount : pystr := [97; 109; 111; 117; 110; 116].
Definition a_call := [(DKStr s_amount, VInt (-255)); (DKStr s_txHash, VBytes [0; 255]); (DKStr [97], VBool true)].
Definition a_sig := [(s_amount, HBase BInt); (s_txHash, HBase BBytes); ([97], HUnion [HBase BBool; HNoneType]); ([98], HBase BInt)].
Example C27_case :
  convert_type_reverse (VDict a_call) =
    VDict [(DKStr s_amount, VStr [45; 48; 120; 102; 102]); (DKStr s_txHash, VStr [48; 48; 102; 102]); (DKStr [97], VStr [48; 120; 49])] /\
  (exists d, convert_type_reverse (VDict a_call) = VDict d /\ convert_data_params no_uni a_sig d = Ok a_call) /\
  convert_value_int no_uni (VStr [48; 120; 95; 49; 95; 65]) = Ok 26 /\
  convert_value_int no_uni (VStr [32; 45; 49; 48; 10]) = Ok (-10) /\
  convert_value_int no_uni (VStr [49; 95; 95; 48]) = Exc (EPy KValueError) /\
  convert_value_int no_uni (VStr []) = Exc (EPy KValueError).
Proof.
  split; [reflexivity|]. split.
  - apply C27_params.
    + repeat (apply NoDup_cons; [cbn; intuition discriminate|]). apply NoDup_nil.
    + repeat (apply NoDup_cons; [cbn; intuition discriminate|]). apply NoDup_nil.
    + repeat (apply Forall_cons; [split; discriminate|]). apply Forall_nil.
    + intros k v H. right. cbn [a_call In] in H. destruct H as [H|[H|[H|[]]]]; injection H as <- <-; eexists; (split; [reflexivity|]); left.
      * exists (HBase BInt), BInt. cbn; auto.
      * exists (HBase BBytes), BBytes. split; [right; left; reflexivity|]. split; [reflexivity|]. repeat (apply Forall_cons; [red; lia|]). apply Forall_nil.
      * exists (HUnion [HBase BBool; HNoneType]), BBool. cbn; auto.
  - repeat split; vm_compute; reflexivity.
Qed.

(** The other direction is not an inverse: many texts stand for one value, and [bool] reads any non-zero number. *)
Example C27_not_injective : convert_value_bool no_uni (VStr [50]) = Ok true /\ convert_value_int no_uni (VStr [48; 120; 48; 49]) = Ok 1.
Proof. split; vm_compute; reflexivity. Qed.
