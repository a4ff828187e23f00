(** C21: addresses. *)
From Verif Require Import Model.Bytes Model.Exn Model.Address Proof.AddressFacts.

(** Text form: [str(addr)] parses back to the same address. *)
Theorem C21_text_roundtrip : forall a, wf_address a -> address_from_string (address_str a) = Ok a.
Proof. exact address_str_roundtrip. Qed.
Print Assumptions C21_text_roundtrip.

(** Exactly the texts of addresses are accepted; everything else raises InvalidParams. *)
Theorem C21_text_accepts_exactly : forall s a,
  address_from_string s = Ok a <-> wf_address a /\ address_str a = s.
Proof. exact address_from_string_ok. Qed.
Print Assumptions C21_text_accepts_exactly.

Theorem C21_text_rejects : forall s, (forall a, wf_address a -> address_str a <> s) ->
  address_from_string s = Exc (EIcon InvalidParams).
Proof. exact address_from_string_rejects. Qed.
Print Assumptions C21_text_rejects.

Theorem C21_text_injective : forall a b, wf_address a -> wf_address b -> address_str a = address_str b -> a = b.
Proof. exact address_str_inj. Qed.
Print Assumptions C21_text_injective.

Theorem C21_bytes_roundtrip : forall a, wf_address a -> address_from_bytes (address_to_bytes a) = Ok (Some a).
Proof. exact address_bytes_roundtrip. Qed.
Print Assumptions C21_bytes_roundtrip.

Theorem C21_bytes_injective : forall a b, address_to_bytes a = address_to_bytes b -> a = b.
Proof. exact address_to_bytes_inj. Qed.
Print Assumptions C21_bytes_injective.

(** Every byte string: an address whose bytes (or, for 20 bytes, whose EOA body) it is, or None for a wrong
    length, or ValueError for a wrong prefix byte. *)
Theorem C21_bytes_decoding : forall buf, wf_bytes buf ->
  match address_from_bytes buf with
  | Ok (Some a) => wf_address a /\ (address_to_bytes a = buf \/ (a_prefix a = EOA /\ a_body a = buf))
  | Ok None => blen buf <> 20 /\ blen buf <> 21
  | Exc e => e = EPy KValueError /\ blen buf = 21 /\ (forall a, address_to_bytes a <> buf)
  | Stuck => False
  end.
Proof. exact address_from_bytes_spec. Qed.
Print Assumptions C21_bytes_decoding.

(** Reserved addresses built from small integers. *)
Theorem C21_from_int : forall p num,
  match address_from_prefix_and_int p num with
  | Ok a => a_prefix a = p /\ wf_address a /\ (0 <= num -> be_val (a_body a) = num)
  | Exc e => e = EIcon InvalidParams /\ (num < - 2 ^ 159 \/ 2 ^ 159 <= num)
  | Stuck => False
  end.
Proof. exact from_prefix_and_int_spec. Qed.
Print Assumptions C21_from_int.

Example C21_case : wf_address (mk_address CONTRACT (repeat 171 20)) /\
  address_str (mk_address CONTRACT (repeat 171 20)) = [99; 120] ++ concat (repeat [97; 98] 20).
Proof. split; [split; [reflexivity|repeat (constructor; [red; lia|]); constructor]|reflexivity]. Qed.
