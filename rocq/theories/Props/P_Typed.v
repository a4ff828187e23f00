(** C20: typed values on the wire. *)
From Verif Require Import Model.Bytes Model.IntCodec Model.Utf8 Model.Exn Model.Address Model.Typed Spec.WireValues
  Proof.TypedFacts.

(** Whatever the transport does to dictionary keys, the receiver rebuilds an equal value. *)
Theorem C20_roundtrip : forall v, wire_value v ->
  exists t, encode_any v = Ok t /\
    forall t', wire t t' -> exists v', decode_any t' = Ok v' /\ same v v'.
Proof. exact wire_roundtrip. Qed.
Print Assumptions C20_roundtrip.

Definition ab : pystr := [97; 98].
Definition sample : pyval :=
  VDict [(DKStr ab, VTuple [VInt (-129); VNone; VBool true; VStr [8364]]);
         (DKStr [99], VList [VAddr (mk_address CONTRACT (repeat 7 20)); VBytes [0; 255]])].
Example C20_case : wire_value sample /\
  encode_any sample = Ok (TDict 1 [(WStr ab, TList 2 [TBin 11 [255; 127]; TNil 0; TBin 5 [1]; TBin 4 [226; 130; 172]]);
                                   (WStr [99], TList 2 [TBin 10 (1 :: repeat 7 20); TBin 3 [0; 255]])]).
Proof.
  split; [|reflexivity].
  constructor.
  - repeat constructor; cbn; eexists; (split; [reflexivity|]); repeat constructor.
  - constructor; [|constructor; [|constructor]]; cbn [snd].
    + apply wv_tuple. constructor; [constructor|]. constructor; [constructor|]. constructor; [constructor|].
      constructor; [|constructor]. apply wv_str. repeat constructor.
    + apply wv_list. constructor; [|constructor; [|constructor]].
      * apply wv_addr. split; [reflexivity|]. repeat (constructor; [red; lia|]). constructor.
      * apply wv_bytes. repeat (constructor; [red; lia|]). constructor.
  - constructor; [cbn; intros [H|[]]; discriminate H|constructor; [intros []|constructor]].
Qed.

(** A dictionary received with repeated keys becomes a dictionary without, each key with its last value. *)
Theorem C20_last_wins : forall d v, decode_any (TDict T_DICT d) = Ok v ->
  exists items out, v = VDict out /\
    Forall2 (fun a b => decode_key (fst a) = Ok (fst b) /\ decode_any (snd a) = Ok (snd b)) d items /\
    NoDup (map fst out) /\
    (forall k x, In (DKStr k, x) out <->
       exists before after, items = before ++ (k, x) :: after /\ ~ In k (map fst after)).
Proof. exact decoded_dict. Qed.
Print Assumptions C20_last_wins.
Example C20_last_case : decode_any (TDict T_DICT [(WStr ab, TBin 11 [1]); (WBytes [99], TNil 0); (WBytes ab, TBin 11 [2])]) =
  Ok (VDict [(DKStr ab, VInt 2); (DKStr [99], VNone)]).
Proof. reflexivity. Qed.
