(** C01, C02: the integer codecs. *)
From Verif Require Import Model.Bytes Model.IntCodec Spec.TwosComplement
  Proof.IntCodecFacts Proof.Int64Facts.

(** C01: every integer is accepted, its bytes are a two's complement form of it, and decoding gives it back. *)
Theorem C01_int_roundtrip : forall v : Z,
  exists bs, int_to_bytes v = Some bs /\ denotes bs v /\ bytes_to_int bs = v.
Proof. exact int_roundtrip. Qed.
Print Assumptions C01_int_roundtrip.

(** C01: decoding any non-empty byte string gives the one integer it denotes; empty decodes to 0. *)
Theorem C01_decode_denotes : forall bs v, denotes bs v <-> wf_bytes bs /\ bs <> [] /\ bytes_to_int bs = v.
Proof. exact denotes_iff. Qed.
Print Assumptions C01_decode_denotes.

Example C01_ex : int_to_bytes (-129) = Some [255; 127] /\ bytes_to_int [255; 127] = -129
  /\ int_to_bytes 128 = Some [0; 128] /\ int_to_bytes (-128) = Some [128].
Proof. vm_compute. auto. Qed.

(** C02: no shorter byte string denotes the same integer, and only the produced one has that length. *)
Theorem C02_minimal : forall v bs bs', int_to_bytes v = Some bs -> denotes bs' v -> blen bs <= blen bs'.
Proof. exact int_minimal. Qed.
Print Assumptions C02_minimal.

Theorem C02_unique_shortest : forall v bs bs', int_to_bytes v = Some bs -> denotes bs' v ->
  blen bs' <= blen bs -> bs' = bs.
Proof. exact int_unique_minimal. Qed.
Print Assumptions C02_unique_shortest.

Theorem C02_injective : forall u v, int_to_bytes u = int_to_bytes v -> u = v.
Proof. exact int_to_bytes_inj. Qed.
Print Assumptions C02_injective.

(** C02: the Go node's big-integer codec produces the same bytes and decodes every byte string alike. *)
Theorem C02_go_encode_agrees : forall v, int_to_bytes v = Some (go_BigIntToBytes v).
Proof. exact go_python_encode. Qed.
Print Assumptions C02_go_encode_agrees.

Theorem C02_go_decode_agrees : forall bs, wf_bytes bs -> go_BigIntSetBytes bs = bytes_to_int bs.
Proof. exact go_python_decode. Qed.
Print Assumptions C02_go_decode_agrees.

(** C02: the machine-word codecs agree with it on their whole range. *)
Theorem C02_go_int64_agrees : forall v, - 2 ^ 63 <= v < 2 ^ 63 -> int_to_bytes v = Some (go_Int64ToBytes v).
Proof. exact Int64ToBytes_ok. Qed.
Print Assumptions C02_go_int64_agrees.

Theorem C02_go_uint64_agrees : forall v, 0 <= v < 2 ^ 64 -> int_to_bytes v = Some (go_Uint64ToBytes v).
Proof. exact Uint64ToBytes_ok. Qed.
Print Assumptions C02_go_uint64_agrees.

Theorem C02_go_int64_decode : forall bs, wf_bytes bs ->
  (blen bs <= 8 -> go_SafeBytesToInt64 bs = Some (bytes_to_int bs)) /\
  (8 < blen bs -> go_SafeBytesToInt64 bs = None).
Proof. exact (fun bs H => conj (SafeBytesToInt64_ok bs H) (SafeBytesToInt64_long bs)). Qed.
Print Assumptions C02_go_int64_decode.

Theorem C02_go_uint64_decode : forall bs, wf_bytes bs ->
  match go_SafeBytesToUint64 bs with
  | Some v => v = bytes_to_int bs /\ 0 <= v < 2 ^ 64
  | None => bs <> [] /\ (bytes_to_int bs < 0 \/ 8 < blen bs)
  end.
Proof. exact SafeBytesToUint64_ok. Qed.
Print Assumptions C02_go_uint64_decode.

Example C02_ex : denotes [0; 0; 128] 128 /\ int_to_bytes 128 = Some [0; 128] /\
  go_BigIntToBytes (-32769) = [255; 127; 255] /\ go_Int64ToBytes (-2 ^ 63) = [128;0;0;0;0;0;0;0] /\
  go_SafeBytesToUint64 [0;255;255;255;255;255;255;255;255] = Some (2 ^ 64 - 1).
Proof.
  split; [|vm_compute; auto].
  apply C01_decode_denotes. repeat split; try congruence.
  repeat constructor; unfold wf_byte; cbn; auto with zarith.
Qed.
