(** Python [str] and its strict UTF-8 codec (library behaviour used by the executor:
    [str.encode('utf-8')], [bytes.decode('utf-8')], [bytes.decode()]).

    A [str] is the list of its code points.  Python strings may hold surrogates, which the strict codec
    rejects on encoding ([UnicodeEncodeError]) and never produces on decoding. *)
From Verif Require Import Model.Bytes.

Definition pystr := list Z.

(** Code points the strict codec accepts. *)
Definition scalar (c : Z) : bool :=
  (0 <=? c) && (c <? 1114112) && negb ((55296 <=? c) && (c <? 57344)).

Definition utf8_enc1 (c : Z) : option bytes :=
  if negb (scalar c) then None
  else if c <? 128 then Some [c]
  else if c <? 2048 then Some [192 + c / 64; 128 + c mod 64]
  else if c <? 65536 then Some [224 + c / 4096; 128 + (c / 64) mod 64; 128 + c mod 64]
  else Some [240 + c / 262144; 128 + (c / 4096) mod 64; 128 + (c / 64) mod 64; 128 + c mod 64].

(** [s.encode('utf-8')]; [None] is [UnicodeEncodeError]. *)
Fixpoint utf8_encode (s : pystr) : option bytes :=
  match s with
  | [] => Some []
  | c :: s' =>
      match utf8_enc1 c, utf8_encode s' with
      | Some a, Some b => Some (a ++ b)
      | _, _ => None
      end
  end.

Definition is_cont (b : Z) : bool := (128 <=? b) && (b <? 192).

(** One code point from the front: RFC 3629 well-formed sequences (no overlong forms, no surrogates,
    nothing above U+10FFFF). *)
Definition utf8_dec1 (bs : bytes) : option (Z * bytes) :=
  match bs with
  | [] => None
  | b0 :: r0 =>
      if b0 <? 0 then None
      else if b0 <? 128 then Some (b0, r0)
      else if b0 <? 194 then None
      else match r0 with
      | [] => None
      | b1 :: r1 =>
          if b0 <? 224 then
            if is_cont b1 then Some ((b0 - 192) * 64 + (b1 - 128), r1) else None
          else match r1 with
          | [] => None
          | b2 :: r2 =>
              if b0 <? 240 then
                let lo := if b0 =? 224 then 160 else 128 in
                let hi := if b0 =? 237 then 160 else 192 in
                if (lo <=? b1) && (b1 <? hi) && is_cont b2
                then Some ((b0 - 224) * 4096 + (b1 - 128) * 64 + (b2 - 128), r2) else None
              else match r2 with
              | [] => None
              | b3 :: r3 =>
                  if b0 <? 245 then
                    let lo := if b0 =? 240 then 144 else 128 in
                    let hi := if b0 =? 244 then 144 else 192 in
                    if (lo <=? b1) && (b1 <? hi) && is_cont b2 && is_cont b3
                    then Some ((b0 - 240) * 262144 + (b1 - 128) * 4096 + (b2 - 128) * 64 + (b3 - 128), r3)
                    else None
                  else None
              end
          end
      end
  end.

(** [bs.decode('utf-8')]; [None] is [UnicodeDecodeError].  Every step consumes a byte, so the length of
    the input is enough fuel. *)
Fixpoint utf8_decode_f (fuel : nat) (bs : bytes) : option pystr :=
  match bs with
  | [] => Some []
  | _ =>
      match fuel with
      | O => None
      | S f =>
          match utf8_dec1 bs with
          | None => None
          | Some (c, r) => match utf8_decode_f f r with Some s => Some (c :: s) | None => None end
          end
      end
  end.
Definition utf8_decode (bs : bytes) : option pystr := utf8_decode_f (length bs) bs.

Definition valid_str (s : pystr) : Prop := Forall (fun c => scalar c = true) s.
