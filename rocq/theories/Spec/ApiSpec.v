(** The price of the charged API calls, as a function of the cost [k] of an API call and the size. *)
From Verif Require Import Model.Bytes Model.Utf8 Model.Exn Model.Monad Model.Typed Model.EE Spec.Running.

(** Blocks of 32 bytes, the last one possibly incomplete. *)
Definition blocks (size : Z) : Z := (size + 31) / 32.
(** sha3_256, sha_256: one call, and a tenth of it for each block. *)
Definition hash_price (k size : Z) : Z := k + k * blocks size / 10.
(** json_dumps: five calls, json_loads: four, and one per cent of that for each byte of the text. *)
Definition json_price (k times size : Z) : Z := k * times + k * times * size / 100.

(** [m] is paid for: with at least [p] steps left it gives [r] and takes exactly [p] steps; with fewer it raises
    OutOfStep and no steps are left.  Nothing else changes. *)
Definition costs_exactly (sha3 : bytes -> bytes) {A} (m : M A) (p : Z) (r : pyres A) (w : world) : Prop :=
  post sha3 m w (fun out w' => same_but_steps w w' /\
    ((p <= steps_left w /\ out = r /\ steps_left w' = steps_left w - p) \/
     (steps_left w < p /\ (exists e, out = Exc e /\ out_of_step e) /\ steps_left w' = 0))).
(** [m] costs nothing. *)
Definition is_free {A} (m : M A) (r : pyres A) (w : world) : Prop := m w = (r, w).
