(** What a client of the event monitor asked for: every event of the block that matches one of its filters. *)
From Verif Require Import Model.Bytes Model.Bloom.

(** An event matches: its signature is the filter's, its address is the filter's if one was given, there are enough
    items, and each given argument is the item at its place. *)
Definition matches (f : event_filter) (l : event_log) : Prop :=
  nth_error (l_indexed l) 0 = Some (Some (f_signature f)) /\
  (forall a, f_addr f = Some a -> l_addr l = a) /\
  (forall i b, nth_error (f_indexed f) i = Some (Some b) -> nth_error (l_indexed l) (S i) = Some (Some b)) /\
  (forall i b, nth_error (f_data f) i = Some (Some b) -> nth_error (l_data l) i = Some (Some b)) /\
  (f_indexed f ++ f_data f <> [] -> (length (f_indexed f) < length (l_indexed l))%nat /\ (length (f_data f) <= length (l_data l))%nat).

(** The events a list of notifications reports: number of the receipt, number of the event in it, the event. *)
Definition reported (ns : list (Z * list (Z * event_log))) : list (Z * Z * event_log) :=
  flat_map (fun n => map (fun e => (fst n, fst e, snd e)) (snd n)) ns.
Definition before (a b : Z * Z * event_log) : Prop :=
  fst (fst a) < fst (fst b) \/ (fst (fst a) = fst (fst b) /\ snd (fst a) < snd (fst b)).
