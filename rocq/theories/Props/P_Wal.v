(** C67: the write-ahead log survives crashes. *)
Require Import ZArith List Bool Lia.
From Verif Require Import Model.Wal Spec.WalSpec Proof.WalFacts Proof.WalSim Proof.WalBad.
Import ListNotations.
Open Scope Z_scope.

Lemma firstn_incl : forall (A : Type) (l : list A) i j x, (i <= j)%nat -> In x (firstn i l) -> In x (firstn j l).
Proof.
  intros A l i j x Hij Hin. rewrite <- (firstn_skipn i (firstn j l)).
  rewrite firstn_firstn, Nat.min_l by lia. apply in_or_app. now left.
Qed.

Lemma safe_step : forall l o r l' p, (forall f t, o <> Housekeep f t) ->
  log_step (Some l) o r (Some l') -> (safe l <= length (open l))%nat ->
  In p (safe_records l) -> In p (safe_records l') /\ (safe l' <= length (open l'))%nat.
Proof.
  intros l o r l' p Hn H Hs Hin. unfold safe_records in *.
  inversion H as [l0 q|l0 k|l0|l0|l0 l1 f t d|l0 f t|l0 n m Hg Hm Hb|l0 n m|o0 r0]; subst; cbn [closed open safe].
  - split; [|rewrite app_length; lia]. rewrite firstn_app.
    apply in_app_or in Hin. apply in_or_app. destruct Hin as [Hin|Hin]; [now left|right].
    apply in_or_app. now left.
  - split; assumption.
  - split; [|lia]. rewrite firstn_all. apply in_app_or in Hin. apply in_or_app.
    destruct Hin as [Hin|Hin]; [now left|right].
    rewrite <- (firstn_skipn (safe l) (open l)). apply in_or_app. now left.
  - split; [|cbn [length]; lia]. cbn [firstn]. rewrite app_nil_r, concat_app. cbn [concat].
    rewrite app_nil_r. apply in_app_or in Hin. apply in_or_app.
    destruct Hin as [Hin|Hin]; [now left|right].
    rewrite <- (firstn_skipn (safe l) (open l)). apply in_or_app. now left.
  - exfalso. now apply (Hn f t).
  - rewrite firstn_firstn, Nat.min_l by lia. split; [exact Hin|]. rewrite firstn_length. lia.
Qed.

Lemma safe_run : forall ops l rs l', log_run l ops rs l' -> forall s s' p,
  l = Some s -> l' = Some s' -> (forall f t, ~ In (Housekeep f t) ops) ->
  (safe s <= length (open s))%nat -> In p (safe_records s) -> In p (safe_records s').
Proof.
  intros ops l rs l' H.
  induction H as [l|l n r l1 ops rs l2 Hst Hr IH|l o r l1 ops rs l2 Ho Hst Hr IH];
    intros s s' p E E' Hn Hs Hin.
  - congruence.
  - subst l. destruct l1 as [s1|].
    + destruct (safe_step _ _ _ _ p (fun f t (X : Crash n = Housekeep f t) => ltac:(discriminate X)) Hst Hs Hin) as [A B].
      apply (IH s1 s' p eq_refl E'); auto. intros f t Hi. apply (Hn f t). now right.
    + exfalso. assert (N : forall ops a rs b, log_run a ops rs b -> a = None -> b = None).
      { clear. intros ops a rs b H. induction H as [l|l n r l1 ops rs l2 Hst Hr IH|l o r l1 ops rs l2 Ho Hst Hr IH];
          intros E; [exact E| |]; subst l; inversion Hst; subst; auto. }
      specialize (N _ _ _ _ Hr eq_refl). congruence.
  - subst l. destruct l1 as [s1|].
    + assert (Hh : forall f t, o <> Housekeep f t).
      { intros f t ->. apply (Hn f t). now left. }
      destruct (safe_step _ _ _ _ p Hh Hst Hs Hin) as [A B].
      apply (IH s1 s' p eq_refl E'); auto. intros f t Hi. apply (Hn f t). now right.
    + exfalso. assert (N : forall ops a rs b, log_run a ops rs b -> a = None -> b = None).
      { clear. intros ops a rs b H. induction H as [l|l n r l1 ops rs l2 Hst Hr IH|l o r l1 ops rs l2 Ho Hst Hr IH];
          intros E; [exact E| |]; subst l; inversion Hst; subst; auto. }
      specialize (N _ _ _ _ Hr eq_refl). congruence.
Qed.

(** Every history of writes, flushes, syncs, new files, housekeeping and
    crashes, until the first bad tear: what the starts read is what the log of
    the specification says. *)
Theorem C67_log : forall crc, (forall p, 0 <= crc p < 2 ^ 32) ->
  forall ops w reads, Forall fits ops ->
    run crc fresh ops = Some (w, reads) ->
    exists l, log_run (Some empty_log) ops reads l.
Proof.
  intros crc Hc ops w reads Hf E.
  destruct (run_sim crc Hc ops fresh empty_log 0 [] w reads (holds_fresh crc) Hf E) as [l [L _]].
  exists l. exact L.
Qed.
Print Assumptions C67_log.

(** A record which was synced is read at every later start, unless there was a
    bad tear before, or housekeeping. *)
Theorem C67_synced : forall crc, (forall p, 0 <= crc p < 2 ^ 32) ->
  forall ops1 p ops2 w reads,
    Forall fits (ops1 ++ Write p :: Sync :: ops2) ->
    (forall f t, ~ In (Housekeep f t) ops2) ->
    run crc fresh (ops1 ++ Write p :: Sync :: ops2) = Some (w, reads) ->
    log_run (Some empty_log) (ops1 ++ Write p :: Sync :: ops2) reads None \/
    (forall n w' read, step crc w (Crash n) = Some (w', read) -> In p read).
Proof.
  intros crc Hc ops1 p ops2 w reads Hf Hn E.
  apply Forall_app in Hf. destruct Hf as [Hf1 Hf2].
  inversion Hf2 as [|o1 l1 Hp Hf3]; subst o1 l1. inversion Hf3 as [|o2 l2 _ Hf4]; subst o2 l2.
  pose proof E as E0. rewrite run_app in E.
  destruct (run crc fresh ops1) as [[w1 r1]|] eqn:E1; [|discriminate E].
  destruct (run crc w1 (Write p :: Sync :: ops2)) as [[w2 r2]|] eqn:E2; [|discriminate E].
  injection E as <- <-.
  assert (App : forall a x rs y, log_run x a rs y -> forall b rs' z, log_run y b rs' z -> log_run x (a ++ b) (rs ++ rs') z).
  { clear. intros a x rs y H. induction H as [l|l n r l1 ops rs l2 Hst Hr IH|l o r l1 ops rs l2 Ho Hst Hr IH];
      intros b rs' z K; cbn [app]; [exact K| |].
    - eapply r_crash; [exact Hst|apply IH, K].
    - eapply r_other; [exact Ho|exact Hst|apply IH, K]. }
  destruct (run_sim crc Hc ops1 fresh empty_log 0 [] w1 r1 (holds_fresh crc) Hf1 E1) as [[s1|] [L1 P1]].
  2:{ left. eapply App; [exact L1|]. eapply run_lost. exact E2. }
  destruct P1 as [h1 [t1 H1]].
  rewrite run_write, run_sync in E2.
  pose proof (holds_write crc _ _ _ _ p H1 Hp) as H2.
  destruct (holds_sync crc _ _ _ _ H2) as [H3 _]. cbn [closed open safe] in H3.
  set (s3 := mkLog (closed s1) (open s1 ++ [p]) (length (open s1 ++ [p]))) in *.
  destruct (run_sim crc Hc ops2 _ _ _ _ w2 r2 H3 Hf4 E2) as [l4 [L4 P4]].
  assert (L : log_run (Some s1) (Write p :: Sync :: ops2) r2 l4).
  { eapply r_other; [discriminate|apply s_write|]. eapply r_other; [discriminate|apply s_sync|]. exact L4. }
  destruct l4 as [s4|].
  2:{ left. eapply App; [exact L1|exact L]. }
  right. intros n w' read Es. destruct P4 as [h4 [t4 H4]].
  assert (Hin : In p (safe_records s4)).
  { eapply (safe_run _ _ _ _ L4 s3 s4 p eq_refl eq_refl Hn); [subst s3; cbn; lia|].
    subst s3. unfold safe_records. cbn [closed open safe]. rewrite firstn_all.
    apply in_or_app. right. apply in_or_app. right. now left. }
  cbn [step] in Es. rewrite (tail_file_holds _ _ _ _ _ H4) in Es.
  destruct ((w_synced w2 <=? n) && (n <=? size t4)) eqn:Eb; [|discriminate Es].
  apply andb_prop in Eb. destruct Eb as [B1 B2]. apply Z.leb_le in B1. apply Z.leb_le in B2.
  pose proof (crash_reads crc Hc _ _ _ _ n H4 (conj B1 B2)) as R.
  destruct (cut_tail crc _ _ _ _ _ H4 (conj B1 B2)) as [_ [_ [Hm _]]].
  destruct (recover crc (crashed w2 n)) as [ps d]. injection Es as <- <-. cbn [fst] in R. subst ps.
  unfold safe_records in Hin. apply in_app_or in Hin. apply in_or_app.
  destruct Hin as [Hin|Hin]; [now left|right]. eapply firstn_incl; [|exact Hin]. lia.
Qed.
Print Assumptions C67_synced.

(** Nothing panics, until the first bad tear. *)
Theorem C67_goes : forall crc, (forall p, 0 <= crc p < 2 ^ 32) ->
  forall ops w reads o, Forall fits ops ->
    run crc fresh ops = Some (w, reads) ->
    match o with
    | Housekeep f t => f <= t /\ 0 <= t
    | Crash n => w_synced w <= n <= size (tail_file w)
    | _ => True
    end ->
    log_run (Some empty_log) ops reads None \/ step crc w o <> None.
Proof.
  intros crc Hc ops w reads o Hf E Ho.
  destruct (run_sim crc Hc ops fresh empty_log 0 [] w reads (holds_fresh crc) Hf E) as [[s|] [L P]].
  - right. destruct P as [h [t H]]. rewrite (tail_file_holds _ _ _ _ _ H) in Ho.
    eapply step_goes; [exact H|exact Ho].
  - left. exact L.
Qed.
Print Assumptions C67_goes.

(** The checksum of the code has 32 bits; of nothing it is 0. *)
Theorem C67_crc : (forall p, 0 <= crc32c p < 2 ^ 32) /\ crc32c [] = 0.
Proof. split; [exact crc32c_32|reflexivity]. Qed.
Print Assumptions C67_crc.

(** A crash which leaves exactly the header of a record is not noticed, and the
    record which is synced after it is not read at the next start. *)
Theorem C67_violated_header : forall p q,
  8 + Z.of_nat (length p) < 2 ^ 32 -> 8 + Z.of_nat (length q) < Z.of_nat (length p) ->
  exists w,
    run crc32c fresh [Write p; Flush 8; Crash 8; Write q; Sync; Crash (16 + Z.of_nat (length q))] =
    Some (w, [[]; []]).
Proof. intros p q Hp Hq. apply (header_lost crc32c crc32c_32 p q); assumption. Qed.
Print Assumptions C67_violated_header.

(** A crash in the first record of a file after others: the repair removes the
    file before it, and the records, synced, are not read at the next start. *)
Theorem C67_violated_repair : forall ps p q k,
  Forall (fun r => 8 + Z.of_nat (length r) < 2 ^ 32) (ps ++ [p]) ->
  8 + Z.of_nat (length q) < 2 ^ 32 -> 0 < k < 8 + Z.of_nat (length q) -> k <> 8 ->
  exists w,
    run crc32c fresh (flat_map (fun r => [Write r; Shift]) (ps ++ [p]) ++
                      [Write q; Flush (Z.to_nat k); Crash k; Crash k]) =
    Some (w, [ps ++ [p]; []]).
Proof. intros ps p q k H1 H2 H3 H4. apply (file_lost crc32c crc32c_32 ps p q k); assumption. Qed.
Print Assumptions C67_violated_repair.

(** If there were more files there is a gap, and from then on no start reads
    anything: not even what is synced later. *)
Theorem C67_violated_gap : forall ps p q k ops w reads,
  ps <> [] ->
  Forall (fun r => 8 + Z.of_nat (length r) < 2 ^ 32) (ps ++ [p]) ->
  8 + Z.of_nat (length q) < 2 ^ 32 -> 0 < k < 8 + Z.of_nat (length q) -> k <> 8 ->
  (forall f t, ~ In (Housekeep f t) ops) ->
  run crc32c fresh (flat_map (fun r => [Write r; Shift]) (ps ++ [p]) ++
                    Write q :: Flush (Z.to_nat k) :: Crash k :: ops) = Some (w, reads) ->
  exists rest, reads = (ps ++ [p]) :: rest /\ Forall (fun r => r = []) rest.
Proof.
  intros ps p q k ops w reads Hp H1 H2 H3 H4 Hn E.
  exact (gap_forever crc32c crc32c_32 ps p q k ops w reads Hp H1 H2 H3 H4 Hn E).
Qed.
Print Assumptions C67_violated_gap.

(** Eight zero bytes are a record. *)
Theorem C67_violated_zeros : forall s,
  read_one crc32c ([0; 0; 0; 0; 0; 0; 0; 0] ++ s) = inl ([], s).
Proof. intros s. apply zeros. reflexivity. Qed.
Print Assumptions C67_violated_zeros.

(** ** Examples *)

(** The check value of CRC-32C. *)
Example ex67_crc : crc32c [49; 50; 51; 52; 53; 54; 55; 56; 57] = 0xe3069283.
Proof. vm_compute. reflexivity. Qed.

(** Two records synced, a third torn in its payload, a fourth after the start. *)
Definition h67 : list op :=
  [Write [1; 2; 3]; Sync; Shift; Write [4]; Sync; Write [5; 6]; Flush 9; Crash 18;
   Write [7; 8]; Sync; Housekeep 5 40; Write [9]; Crash 0].

Example ex67_reads : exists w,
  run crc32c fresh h67 = Some (w, [[[1; 2; 3]; [4]]; [[1; 2; 3]; [4]; [7; 8]]]).
Proof. eexists. vm_compute. reflexivity. Qed.

Example ex67_fits : Forall fits h67.
Proof. repeat constructor. Qed.

(** Housekeeping forgets the oldest file. *)
Example ex67_housekeep : exists w,
  run crc32c fresh [Write [1; 2; 3]; Shift; Write [4]; Sync; Housekeep 5 15; Write [5]; Sync; Crash 9] =
  Some (w, [[[4]; [5]]]).
Proof. eexists. vm_compute. reflexivity. Qed.

Example ex67_header : exists w,
  run crc32c fresh [Write [1; 2; 3; 4; 5; 6; 7; 8; 9; 10]; Flush 8; Crash 8; Write [1]; Sync; Crash 17] =
  Some (w, [[]; []]).
Proof. eexists. vm_compute. reflexivity. Qed.

(** With a longer record after the header: the checksum says no. *)
Example ex67_header_long : exists w,
  run crc32c fresh [Write [1; 2]; Flush 8; Crash 8; Write [1; 2; 3; 4]; Sync; Crash 20] =
  Some (w, [[]; []]).
Proof. eexists. vm_compute. reflexivity. Qed.

Example ex67_gap : exists w,
  run crc32c fresh [Write [1]; Shift; Write [2]; Shift; Write [3]; Flush 3; Crash 3;
                    Write [4]; Sync; Crash 12; Write [5]; Shift; Write [6]; Sync; Crash 9] =
  Some (w, [[[1]; [2]]; []; []]).
Proof. eexists. vm_compute. reflexivity. Qed.
