(** The write-ahead log: what a bad tear does; the checksum. *)
Require Import ZArith List Bool Lia.
From Verif Require Import Model.Wal Spec.WalSpec Proof.WalFacts Proof.WalSim.
Import ListNotations.
Open Scope Z_scope.

(** ** The checksum has 32 bits *)

Lemma lxor_32 : forall a b, 0 <= a < 2 ^ 32 -> 0 <= b < 2 ^ 32 -> 0 <= Z.lxor a b < 2 ^ 32.
Proof.
  intros a b Ha Hb. split; [apply Z.lxor_nonneg; lia|].
  destruct (Z.eq_dec (Z.lxor a b) 0) as [E|E]; [rewrite E; lia|].
  assert (0 <= Z.lxor a b) by (apply Z.lxor_nonneg; lia).
  apply Z.log2_lt_pow2; [lia|].
  eapply Z.le_lt_trans; [apply Z.log2_lxor; lia|].
  apply Z.max_lub_lt.
  - destruct (Z.eq_dec a 0) as [->|]; [reflexivity|]. apply Z.log2_lt_pow2; lia.
  - destruct (Z.eq_dec b 0) as [->|]; [reflexivity|]. apply Z.log2_lt_pow2; lia.
Qed.

Lemma shiftr_32 : forall a, 0 <= a < 2 ^ 32 -> 0 <= Z.shiftr a 1 < 2 ^ 32.
Proof.
  intros a H. rewrite Z.shiftr_div_pow2 by lia. change (2 ^ 1) with 2.
  split; [apply Z.div_pos; lia|]. apply Z.div_lt_upper_bound; lia.
Qed.

Lemma crc_bits_32 : forall n c, 0 <= c < 2 ^ 32 -> 0 <= crc_bits n c < 2 ^ 32.
Proof.
  induction n as [|n IH]; intros c H; cbn [crc_bits]; [exact H|].
  apply IH. destruct (Z.odd c); [apply lxor_32; [|lia]|]; now apply shiftr_32.
Qed.

Lemma crc32c_32 : forall p, 0 <= crc32c p < 2 ^ 32.
Proof.
  intros p. unfold crc32c. apply lxor_32; [|lia].
  assert (G : forall l c, 0 <= c < 2 ^ 32 ->
    0 <= fold_left (fun c b => crc_bits 8 (Z.lxor c (b mod 256))) l c < 2 ^ 32).
  { induction l as [|b l IH]; intros c H; cbn [fold_left]; [exact H|].
    apply IH. apply crc_bits_32. apply lxor_32; [exact H|].
    pose proof (Z.mod_pos_bound b 256). lia. }
  apply G. lia.
Qed.

Section Bad.
  Variable crc : bytes -> Z.
  Hypothesis crc_32 : forall p, 0 <= crc p < 2 ^ 32.

  Notation fr := (frames crc).

  Lemma zeros : forall s, crc [] = 0 ->
    read_one crc ([0; 0; 0; 0; 0; 0; 0; 0] ++ s) = inl ([], s).
  Proof.
    intros s H. unfold read_one. rewrite size_app.
    change (size [0; 0; 0; 0; 0; 0; 0; 0]) with 8. pose proof (size_nonneg s).
    destruct (Z.eqb_spec (8 + size s) 0); [lia|]. destruct (Z.ltb_spec (8 + size s) 8); [lia|].
    cbn. rewrite H. reflexivity.
  Qed.

  Lemma run_app : forall a b w,
    run crc w (a ++ b) =
    match run crc w a with
    | None => None
    | Some (w1, r1) => match run crc w1 b with
                       | None => None
                       | Some (w2, r2) => Some (w2, r1 ++ r2)
                       end
    end.
  Proof.
    induction a as [|o a IH]; intros b w; cbn [app run].
    - destruct (run crc w b) as [[w2 r2]|]; reflexivity.
    - destruct (step crc w o) as [[w1 r]|]; [|reflexivity]. rewrite IH.
      destruct (run crc w1 a) as [[w2 r2]|]; [|reflexivity].
      destruct (run crc w2 b) as [[w3 r3]|]; [|reflexivity].
      destruct o; reflexivity.
  Qed.

  Lemma run_write : forall w p ops, run crc w (Write p :: ops) = run crc (write crc w p) ops.
  Proof. intros. cbn [run step]. destruct (run crc (write crc w p) ops) as [[? ?]|]; reflexivity. Qed.

  Lemma run_flush : forall w k ops, run crc w (Flush k :: ops) = run crc (flush w k) ops.
  Proof. intros. cbn [run step]. destruct (run crc (flush w k) ops) as [[? ?]|]; reflexivity. Qed.

  Lemma run_sync : forall w ops, run crc w (Sync :: ops) = run crc (sync w) ops.
  Proof. intros. cbn [run step]. destruct (run crc (sync w) ops) as [[? ?]|]; reflexivity. Qed.

  Lemma run_shift : forall w ops, run crc w (Shift :: ops) = run crc (shift w) ops.
  Proof. intros. cbn [run step]. destruct (run crc (shift w) ops) as [[? ?]|]; reflexivity. Qed.

  Lemma run_crash : forall w n ops w1 r, step crc w (Crash n) = Some (w1, r) ->
    run crc w (Crash n :: ops) =
    match run crc w1 ops with Some (w2, rs) => Some (w2, r :: rs) | None => None end.
  Proof. intros w n ops w1 r E. cbn [run]. rewrite E. reflexivity. Qed.

  (** ** A header without its record *)

  Lemma header_reads : forall p q, fit p -> 8 + size q < size p -> 
    read_one crc (firstn 8 (frame crc p) ++ frame crc q) = inr UnexpectedEOF.
  Proof.
    intros p q Hp Hq. unfold fit in Hp. pose proof (size_nonneg q).
    change (firstn 8 (frame crc p)) with (be32 (crc p) ++ be32 (size p)).
    unfold read_one. rewrite size_app, frame_size.
    change (size (be32 (crc p) ++ be32 (size p))) with 8.
    destruct (Z.eqb_spec (8 + (8 + size q)) 0); [lia|].
    destruct (Z.ltb_spec (8 + (8 + size q)) 8); [lia|]. cbv zeta.
    change (firstn 4 (skipn 4 ((be32 (crc p) ++ be32 (size p)) ++ frame crc q))) with (be32 (size p)).
    change (skipn 8 ((be32 (crc p) ++ be32 (size p)) ++ frame crc q)) with (frame crc q).
    rewrite of_be32_be32 by lia. rewrite frame_size.
    destruct (Z.leb_spec (size p) 0); [lia|].
    destruct (Z.eqb_spec (8 + size q) 0); [lia|].
    destruct (Z.ltb_spec (8 + size q) (size p)); [reflexivity|lia].
  Qed.

  Lemma header_lost : forall p q, fit p -> 8 + size q < size p ->
    exists w, run crc fresh [Write p; Flush 8; Crash 8; Write q; Sync; Crash (16 + size q)] =
              Some (w, [[]; []]).
  Proof.
    intros p q Hp Hq. pose proof (size_nonneg q) as Hq0.
    assert (E1 : step crc (flush (write crc fresh p) 8) (Crash 8) =
                 Some (mkWriter [(O, firstn 8 (frame crc p))] 0 [] 0, [])).
    { change (flush (write crc fresh p) 8)
        with (mkWriter [(O, firstn 8 (frame crc p))] 0 (skipn 8 (frame crc p)) 0).
      assert (Hne : p <> []) by (intros ->; change (size []) with 0 in Hq; lia).
      unfold step. cbn [w_synced].
      change (tail_file {| w_disk := [(O, firstn 8 (frame crc p))]; w_tail := 0; w_buf := skipn 8 (frame crc p); w_synced := 0 |}) with (firstn 8 (frame crc p)).
      change (size (firstn 8 (frame crc p))) with 8.
      change ((0 <=? 8) && (8 <=? 8)) with true. cbv iota.
      change (crashed {| w_disk := [(O, firstn 8 (frame crc p))]; w_tail := 0; w_buf := skipn 8 (frame crc p); w_synced := 0 |} 8)
        with (mk 0 (map fr [] ++ [firstn 8 (frame crc p)])).
      rewrite (recover_files crc crc_32 0 [] (firstn 8 (frame crc p)) [] (firstn 8 (frame crc p)) EOF eq_refl
                 (Forall_nil _) (read_header crc p Hp Hne)).
      reflexivity. }
    set (w1 := mkWriter [(O, firstn 8 (frame crc p))] 0 [] 0) in *.
    assert (E2 : exists w2, step crc (sync (write crc w1 q)) (Crash (16 + size q)) = Some (w2, [])).
    { set (t := firstn 8 (frame crc p) ++ frame crc q).
      assert (Es : sync (write crc w1 q) = mkWriter [(O, t)] 0 [] (size t)).
      { unfold sync. cbn [write w_disk w_tail w_buf w_synced app].
        subst t. unfold flush. cbn [w_disk w_tail w_buf w_synced].
        rewrite firstn_all, skipn_all. reflexivity. }
      assert (St : size t = 16 + size q).
      { subst t. rewrite size_app, frame_size. change (size (firstn 8 (frame crc p))) with 8. lia. }
      rewrite Es. unfold step. cbn [w_synced].
      change (tail_file {| w_disk := [(O, t)]; w_tail := 0; w_buf := []; w_synced := size t |}) with t.
      rewrite St. rewrite Z.leb_refl. cbn [andb].
      assert (Ec : crashed {| w_disk := [(O, t)]; w_tail := 0; w_buf := []; w_synced := 16 + size q |} (16 + size q)
                   = mk 0 (map fr [] ++ [t])).
      { unfold crashed. rewrite <- St. unfold size. rewrite Nat2Z.id.
        change (tail_file {| w_disk := [(O, t)]; w_tail := 0; w_buf := []; w_synced := Z.of_nat (length t) |}) with t.
        rewrite firstn_all. reflexivity. }
      rewrite Ec.
      pose proof (recover_files crc crc_32 0 [] t [] t UnexpectedEOF eq_refl
                 (Forall_nil _) (header_reads p q Hp Hq)) as R.
      destruct (recover crc (mk 0 (map fr [] ++ [t]))) as [ps d].
      injection R as -> _. eexists. reflexivity. }
    destruct E2 as [w2 E2]. exists w2.
    rewrite run_write, run_flush, (run_crash _ _ _ _ _ E1).
    rewrite run_write, run_sync, (run_crash _ _ _ _ _ E2). reflexivity.
  Qed.

  (** ** The wrong file is removed *)

  Lemma repair_wrong : forall h (f g : bytes) (cs : list bytes) (junk : bytes),
    g <> [] ->
    fst (repair (mk h (cs ++ [f ++ g; junk])) (map size (cs ++ [f ++ g; junk])) h
                (h + length cs + 1) (size (concat cs) + size (f ++ g))) =
    mk h cs ++ [((h + length cs + 1)%nat, junk)].
  Proof.
    intros h f g cs junk Hg.
    assert (Hs : 0 < size (f ++ g)).
    { rewrite size_app. pose proof (size_nonneg f). destruct g; [congruence|].
      unfold size at 2. cbn [length]. lia. }
    set (c := f ++ g : bytes) in *. clearbody c.
    assert (G : forall (pre : list bytes) idx lft,
      lft = size (concat pre) + size c -> 
      repair (mk h (cs ++ [c; junk])) (map size (pre ++ [c; junk])) idx (h + length cs + 1) lft =
      repair (mk h (cs ++ [c; junk])) (map size [c; junk]) (idx + length pre) (h + length cs + 1) (size c)).
    { induction pre as [|x pre IH]; intros idx lft E.
      - cbn [app length concat] in *. change (size []) with 0 in E. rewrite Nat.add_0_r. f_equal. lia.
      - cbn [app map concat] in *. rewrite size_app in E.
        pose proof (size_nonneg (concat pre)). cbn [repair].
        destruct (Z.leb_spec lft (size x)); [lia|].
        rewrite IH by lia. cbn [length].
        replace (S idx + length pre)%nat with (idx + S (length pre))%nat by lia. reflexivity. }
    refine (eq_trans (f_equal fst (G cs h _ eq_refl)) _). cbn [map repair].
    rewrite Z.leb_refl, Z.ltb_irrefl.
    replace (h + length cs + 1 - (h + length cs))%nat with 1%nat by lia.
    cbn [remove_again].
    rewrite get_mk, nth_error_app2 by lia. rewrite Nat.sub_diag. cbn [nth_error fst].
    rewrite mk_app. unfold del. rewrite filter_app.
    assert (K : forall l a, filter (fun x : nat * bytes => negb (Nat.eqb (a + length l) (fst x))) (mk a l) = mk a l).
    { induction l as [|x l IH]; intros a; [reflexivity|]. rewrite mk_cons. cbn [filter fst length].
      destruct (Nat.eqb_spec (a + S (length l)) a); [lia|]. cbn [negb]. f_equal.
      replace (a + S (length l))%nat with (S a + length l)%nat by lia. apply IH. }
    rewrite K. f_equal. rewrite !mk_cons. cbn [filter fst]. rewrite Nat.eqb_refl. cbn [negb].
    rewrite (proj2 (Nat.eqb_neq (h + length cs) (S (h + length cs)))) by lia. cbn [negb].
    replace (h + length cs + 1)%nat with (S (h + length cs)) by lia. reflexivity.
  Qed.

  (** A crash in the first record of a file after others. *)
  Lemma crash_wrong : forall w h cs c q k, holds crc w (mkLog (cs ++ [c]) [q] 0) h (firstn (Z.to_nat k) (frame crc q)) ->
    0 < k < 8 + size q -> k <> 8 -> c <> [] ->
    step crc w (Crash k) =
    Some (open_write (mk h (map fr cs) ++ [((h + length cs + 1)%nat, firstn (Z.to_nat k) (frame crc q))]) 0,
          concat (cs ++ [c])).
  Proof.
    intros w h cs c q k H Hk H8 Hc.
    set (junk := firstn (Z.to_nat k) (frame crc q)) in *.
    pose proof (tail_file_holds _ _ _ _ _ H) as Et. pose proof (h_sync _ _ _ _ _ H) as Hs.
    cbn [safe open firstn] in Hs. change (space []) with 0 in Hs.
    assert (Sj : size junk = k).
    { subst junk. unfold size. rewrite firstn_length. pose proof (frame_size crc q) as Ef.
      unfold size in *. lia. }
    unfold step. rewrite Et, Hs, Sj.
    destruct (Z.leb_spec 0 k); [|lia]. rewrite Z.leb_refl. cbn [andb].
    assert (Ec : crashed w k = mk h (map fr (cs ++ [c]) ++ [junk])).
    { unfold crashed. rewrite Et, (put_holds _ _ _ _ _ _ H). cbn [closed]. do 3 f_equal.
      apply firstn_all2. unfold size in Sj. lia. }
    pose proof (h_fit _ _ _ _ _ H) as Hf. unfold records in Hf. cbn [closed open] in Hf.
    apply Forall_app in Hf. destruct Hf as [Hf1 Hf2]. inversion Hf2 as [|q0 l0 Hq _]; subst q0 l0.
    assert (R : recover crc (mk h (map fr (cs ++ [c]) ++ [junk])) =
                (concat (cs ++ [c]), mk h (map fr cs) ++ [((h + length cs + 1)%nat, junk)])).
    { rewrite (recover_files crc crc_32 h (cs ++ [c]) junk [] junk UnexpectedEOF eq_refl).
      - rewrite app_nil_r. f_equal.
        rewrite map_app. cbn [map]. rewrite <- app_assoc. cbn [app].
        rewrite app_length, map_length. cbn [length].
        destruct c as [|p c']; [congruence|].
        change (fr (p :: c')) with (be32 (crc p) ++ (be32 (size p) ++ p ++ fr c')) at 1 2.
        assert (Hne : be32 (size p) ++ p ++ fr c' <> []) by discriminate.
        pose proof (repair_wrong h (be32 (crc p)) (be32 (size p) ++ p ++ fr c') (map fr cs) junk Hne) as RW.
        rewrite map_length in RW.
        replace (h + (length cs + 1))%nat with (h + length cs + 1)%nat by lia.
        refine (eq_trans _ RW). do 2 f_equal.
        rewrite concat_app. cbn [concat]. rewrite app_nil_r, (space_app crc), <- (size_frs crc).
        f_equal. rewrite <- (frames_size crc). unfold frames. cbn [map concat]. unfold frame.
        rewrite <- !app_assoc. reflexivity.
      - rewrite app_nil_r. exact Hf1.
      - apply (read_junk crc); [exact Hq|rewrite frame_size; lia|exact H8]. }
    rewrite Ec, R. reflexivity.
  Qed.

  (** Records, each in a file of its own. *)
  Definition files_of (ps : list bytes) : list op := flat_map (fun p => [Write p; Shift]) ps.

  Lemma files_run : forall ps w l h t ops, holds crc w l h t -> open l = [] -> safe l = O ->
    Forall fit ps ->
    exists w' t', run crc w (files_of ps ++ ops) = run crc w' ops /\
      holds crc w' (mkLog (closed l ++ map (fun p => [p]) ps) [] 0) h t'.
  Proof.
    induction ps as [|p ps IH]; intros w l h t ops H Ho Hs Hf.
    - exists w, t. split; [reflexivity|]. destruct l as [c o s]. cbn [open safe closed] in *.
      subst o s. cbn [map]. rewrite app_nil_r. exact H.
    - inversion Hf as [|p0 ps0 Hp Hps]; subst p0 ps0.
      pose proof (holds_shift crc _ _ _ _ (holds_write crc _ _ _ _ p H Hp)) as H2.
      cbn [closed open] in H2. rewrite Ho in H2. cbn [app] in H2.
      destruct (IH _ _ _ _ ops H2 eq_refl eq_refl Hps) as [w' [t' [E K]]].
      exists w', t'. split.
      + change (files_of (p :: ps) ++ ops) with (Write p :: Shift :: (files_of ps ++ ops)).
        rewrite run_write, run_shift. exact E.
      + cbn [closed map] in *. rewrite <- app_assoc in K. exact K.
  Qed.

  (** The first crash: everything is read, and the last of the whole files is
      removed. *)
  Lemma wrong_file : forall ps p q k ops,
    Forall fit (ps ++ [p]) -> fit q -> 0 < k < 8 + size q -> k <> 8 ->
    run crc fresh (files_of (ps ++ [p]) ++ Write q :: Flush (Z.to_nat k) :: Crash k :: ops) =
    match run crc (open_write (mk 0 (map (fun r => fr [r]) ps) ++
                               [(S (length ps), firstn (Z.to_nat k) (frame crc q))]) 0) ops with
    | Some (w, rs) => Some (w, (ps ++ [p]) :: rs)
    | None => None
    end.
  Proof.
    intros ps p q k ops Hf Hq Hk H8.
    destruct (files_run (ps ++ [p]) fresh empty_log 0 [] (Write q :: Flush (Z.to_nat k) :: Crash k :: ops)
                (holds_fresh crc) eq_refl eq_refl Hf) as [w [t [E H]]].
    rewrite E, run_write, run_flush.
    cbn [closed empty_log app] in H.
    assert (Ht : t = []).
    { pose proof (h_open _ _ _ _ _ H) as Ho. cbn [open] in Ho.
      destruct t; [reflexivity|discriminate Ho]. }
    pose proof (holds_write crc _ _ _ _ q H Hq) as H1. cbn [closed open safe app] in H1.
    pose proof (h_open _ _ _ _ _ H1) as Hb. rewrite Ht in Hb. cbn [open app] in Hb.
    change (fr [q]) with (frame crc q ++ []) in Hb. rewrite app_nil_r in Hb.
    pose proof (holds_flush crc _ _ _ _ (Z.to_nat k) H1) as H2.
    rewrite Hb, Ht in H2. cbn [app] in H2. rewrite map_app in H2. cbn [map] in H2.
    pose proof (crash_wrong _ _ _ _ _ _ H2 Hk H8 ltac:(discriminate)) as E2.
    rewrite (run_crash _ _ ops _ _ E2).
    rewrite map_map, map_length. cbn [Nat.add].
    replace (length ps + 1)%nat with (S (length ps)) by lia.
    assert (C : concat (map (fun r : bytes => [r]) ps ++ [[p]]) = ps ++ [p]).
    { rewrite concat_app. cbn [concat app]. f_equal. clear. induction ps; [reflexivity|]. cbn. now f_equal. }
    rewrite C. reflexivity.
  Qed.

  (** ** A gap *)

  Lemma get_put : forall d i b j, get (put d i b) j = if Nat.eqb j i then Some b else get d j.
  Proof.
    induction d as [|[a c] d IH]; intros i b j.
    - cbn [put get]. destruct (Nat.eqb_spec j i); reflexivity.
    - cbn [put]. destruct (Nat.eqb_spec i a) as [->|Hn].
      + cbn [get]. destruct (Nat.eqb_spec j a); reflexivity.
      + cbn [get]. rewrite IH. destruct (Nat.eqb_spec j a) as [->|]; [|reflexivity].
        destruct (Nat.eqb_spec a i); [congruence|reflexivity].
  Qed.

  Lemma get_in : forall d i b, get d i = Some b -> In i (map fst d).
  Proof.
    induction d as [|[a c] d IH]; intros i b H; [discriminate H|].
    cbn [get map fst] in *. destruct (Nat.eqb_spec i a); [now left|right; eauto].
  Qed.

  Lemma fold_min : forall l a, (fold_left Nat.min l a <= a)%nat /\
    (forall i, In i l -> (fold_left Nat.min l a <= i)%nat).
  Proof.
    induction l as [|x l IH]; intros a; cbn [fold_left]; [split; [lia|intros i []]|].
    destruct (IH (Nat.min a x)) as [A B]. split; [lia|]. intros i [<-|Hi]; [lia|auto].
  Qed.

  Lemma fold_max : forall l a, (a <= fold_left Nat.max l a)%nat /\
    (forall i, In i l -> (i <= fold_left Nat.max l a)%nat).
  Proof.
    induction l as [|x l IH]; intros a; cbn [fold_left]; [split; [lia|intros i []]|].
    destruct (IH (Nat.max a x)) as [A B]. split; [lia|]. intros i [<-|Hi]; [lia|auto].
  Qed.

  Lemma indexes_bounds : forall d i b, get d i = Some b ->
    exists h t, indexes d = Some (h, t) /\ forall j c, get d j = Some c -> (h <= j <= t)%nat.
  Proof.
    intros d i b H. destruct d as [|[a x] d]; [discriminate H|].
    unfold indexes. eexists. eexists. split; [reflexivity|].
    intros j c Hj. apply get_in in Hj. cbn [map fst] in Hj.
    destruct (fold_min (map fst d) a) as [A1 A2]. destruct (fold_max (map fst d) a) as [B1 B2].
    destruct Hj as [<-|Hj]; [lia|]. split; auto.
  Qed.

  Lemma contents_none : forall d g l, In g l -> get d g = None -> contents d l = None.
  Proof.
    intros d g l. induction l as [|x l IH]; intros Hi Hg; [destruct Hi|].
    cbn [contents]. destruct Hi as [->|Hi]; [now rewrite Hg|].
    rewrite (IH Hi Hg). destruct (get d x); reflexivity.
  Qed.

  Definition gap (d : disk) (tail : nat) : Prop :=
    exists a g b t, get d a = Some b /\ get d g = None /\ get d tail = Some t /\ (a < g < tail)%nat.

  Lemma gap_put : forall d tail u, gap d tail -> gap (put d tail u) tail.
  Proof.
    intros d tail u (a & g & b & t & Ha & Hg & Ht & Hlt).
    exists a, g, b, u. rewrite !get_put.
    destruct (Nat.eqb_spec a tail); [lia|]. destruct (Nat.eqb_spec g tail); [lia|].
    rewrite Nat.eqb_refl. auto.
  Qed.

  Lemma gap_create : forall d tail n, gap d tail -> (tail <= n)%nat -> gap (create d n) n.
  Proof.
    intros d tail n (a & g & b & t & Ha & Hg & Ht & Hlt) Hn. unfold create.
    destruct (get d n) as [x|] eqn:E.
    - exists a, g, b, x. repeat split; auto; lia.
    - exists a, g, b, []. rewrite !get_put.
      destruct (Nat.eqb_spec a n); [lia|]. destruct (Nat.eqb_spec g n); [lia|].
      rewrite Nat.eqb_refl. repeat split; auto; lia.
  Qed.

  Lemma gap_recover : forall d tail, gap d tail -> recover crc d = ([], d).
  Proof.
    intros d tail (a & g & b & t & Ha & Hg & Ht & Hlt). unfold recover.
    destruct (indexes_bounds d a b Ha) as (h & m & E & B). rewrite E.
    rewrite (contents_none d g); [reflexivity| |exact Hg].
    apply in_seq. pose proof (B _ _ Ha). pose proof (B _ _ Ht). lia.
  Qed.

  Lemma gap_open : forall d tail s, gap d tail -> gap (w_disk (open_write d s)) (w_tail (open_write d s)).
  Proof.
    intros d tail s G. pose proof G as (a & g & b & t & Ha & Hg & Ht & Hlt).
    unfold open_write. destruct (indexes_bounds d a b Ha) as (h & m & E & B). rewrite E.
    cbn [w_disk w_tail]. apply (gap_create d tail m G). destruct (B _ _ Ht). lia.
  Qed.

  Lemma gap_step : forall w o w' r, (forall f t, o <> Housekeep f t) ->
    gap (w_disk w) (w_tail w) -> step crc w o = Some (w', r) ->
    gap (w_disk w') (w_tail w') /\ r = [].
  Proof.
    intros w o w' r Hn G E. destruct o as [p|k| | |f lim|n]; cbn [step] in E.
    - injection E as <- <-. auto.
    - injection E as <- <-. split; [|reflexivity]. apply gap_put. exact G.
    - injection E as <- <-. split; [|reflexivity]. apply gap_put. exact G.
    - injection E as <- <-. split; [|reflexivity]. unfold shift, sync. cbn [w_disk w_tail flush].
      apply gap_create with (tail := w_tail w); [apply gap_put; exact G|lia].
    - exfalso. now apply (Hn f lim).
    - destruct (_ && _); [|discriminate E].
      assert (G2 : gap (crashed w n) (w_tail w)) by (apply gap_put; exact G).
      rewrite (gap_recover _ _ G2) in E. injection E as <- <-.
      split; [|reflexivity]. exact (gap_open _ _ _ G2).
  Qed.

  Lemma gap_run : forall ops w w' rs, (forall f t, ~ In (Housekeep f t) ops) ->
    gap (w_disk w) (w_tail w) -> run crc w ops = Some (w', rs) -> Forall (fun r => r = []) rs.
  Proof.
    induction ops as [|o ops IH]; intros w w' rs Hn G E; cbn [run] in E.
    - injection E as <- <-. constructor.
    - destruct (step crc w o) as [[w1 r]|] eqn:Es; [|discriminate E].
      destruct (run crc w1 ops) as [[w2 rs2]|] eqn:Er; [|discriminate E]. injection E as <- <-.
      destruct (gap_step w o w1 r) as [G1 R1]; [|exact G|exact Es|].
      { intros f t ->. apply (Hn f t). now left. }
      assert (F : Forall (fun r => r = []) rs2).
      { apply (IH _ _ _ (fun f t Hi => Hn f t (or_intror Hi)) G1 Er). }
      destruct o; try exact F. constructor; assumption.
  Qed.

  Lemma wrong_gap : forall r ps j junk,
    j <> [] -> ps = map (fun r => fr [r]) j ->
    r = mk 0 ps ++ [(S (length j), junk)] -> gap r (S (length j)).
  Proof.
    intros r ps j junk Hj -> ->. destruct j as [|x j]; [congruence|].
    exists O, (length (x :: j)), (fr [x]), junk.
    assert (A : forall d e i, get (d ++ e) i = match get d i with Some b => Some b | None => get e i end).
    { induction d as [|[a c] d IH]; intros e i; [reflexivity|]. cbn [app get].
      destruct (Nat.eqb i a); [reflexivity|apply IH]. }
    assert (N : forall i, (length (x :: j) <= i)%nat -> get (mk 0 (map (fun r => fr [r]) (x :: j))) i = None).
    { intros i Hi. change i with (0 + i)%nat. rewrite get_mk. apply nth_error_None. now rewrite map_length. }
    rewrite !A. split; [reflexivity|]. split.
    - rewrite N by lia. cbn [get]. destruct (Nat.eqb_spec (length (x :: j)) (S (length (x :: j)))); [lia|reflexivity].
    - split; [|cbn [length]; lia]. rewrite N by lia. cbn [get]. now rewrite Nat.eqb_refl.
  Qed.

  Lemma gap_forever : forall ps p q k ops w rs,
    ps <> [] -> Forall fit (ps ++ [p]) -> fit q -> 0 < k < 8 + size q -> k <> 8 ->
    (forall f t, ~ In (Housekeep f t) ops) ->
    run crc fresh (files_of (ps ++ [p]) ++ Write q :: Flush (Z.to_nat k) :: Crash k :: ops) = Some (w, rs) ->
    exists rest, rs = (ps ++ [p]) :: rest /\ Forall (fun r => r = []) rest.
  Proof.
    intros ps p q k ops w rs Hp Hf Hq Hk H8 Hn E.
    rewrite wrong_file in E by assumption.
    destruct (run crc _ ops) as [[w1 rs1]|] eqn:Er; [|discriminate E]. injection E as <- <-.
    exists rs1. split; [reflexivity|].
    eapply gap_run; [exact Hn| |exact Er].
    eapply gap_open. eapply wrong_gap; [exact Hp|reflexivity|reflexivity].
  Qed.

  Lemma file_lost : forall ps p q k,
    Forall fit (ps ++ [p]) -> fit q -> 0 < k < 8 + size q -> k <> 8 ->
    exists w, run crc fresh (files_of (ps ++ [p]) ++ [Write q; Flush (Z.to_nat k); Crash k; Crash k]) =
              Some (w, [ps ++ [p]; []]).
  Proof.
    intros ps p q k Hf Hq Hk H8. rewrite wrong_file by assumption.
    set (junk := firstn (Z.to_nat k) (frame crc q)).
    assert (Sj : size junk = k).
    { subst junk. unfold size. rewrite firstn_length. pose proof (frame_size crc q) as Ef.
      unfold size in *. lia. }
    assert (Lj : length junk = Z.to_nat k) by (unfold size in Sj; lia).
    destruct ps as [|x ps].
    - cbn [map length app mk combine seq].
      assert (S1 : exists w, step crc (open_write [(1%nat, junk)] 0) (Crash k) = Some (w, [])).
      { change (open_write [(1%nat, junk)] 0) with (mkWriter [(1%nat, junk)] 1 [] 0).
        unfold step. cbn [w_synced].
        change (tail_file {| w_disk := [(1%nat, junk)]; w_tail := 1; w_buf := []; w_synced := 0 |}) with junk.
        rewrite Sj. destruct (Z.leb_spec 0 k); [|lia]. rewrite Z.leb_refl. cbn [andb].
        change (crashed {| w_disk := [(1%nat, junk)]; w_tail := 1; w_buf := []; w_synced := 0 |} k)
          with (mk 1 (map fr [] ++ [firstn (Z.to_nat k) junk])).
        rewrite <- Lj, firstn_all.
        pose proof (recover_files crc crc_32 1 [] junk [] junk UnexpectedEOF eq_refl (Forall_nil _)
                      (read_junk crc q k Hq ltac:(rewrite frame_size; lia) H8)) as R.
        destruct (recover crc (mk 1 (map fr [] ++ [junk]))) as [a b]. injection R as -> _.
        eexists. reflexivity. }
      destruct S1 as [w1 S1]. exists w1. rewrite (run_crash _ _ _ _ _ S1). reflexivity.
    - set (d := mk 0 (map (fun r => fr [r]) (x :: ps)) ++ [(S (length (x :: ps)), junk)]).
      assert (G : gap d (S (length (x :: ps)))).
      { eapply wrong_gap; [|reflexivity|reflexivity]. discriminate. }
      assert (Et : tail_file (open_write d 0) = junk /\ w_synced (open_write d 0) = 0).
      { assert (Ei : indexes d = Some (O, S (length (x :: ps)))).
        { subst d. cbn [map length]. rewrite mk_cons. cbn [app]. unfold indexes.
          rewrite map_app, !fold_left_app. cbn [map fst fold_left].
          destruct (indexes_fold (map (fun r => fr [r]) ps) 1 0 0) as [I1 I2]; [lia|lia|].
          rewrite I1, I2. do 2 f_equal. rewrite map_length.
          destruct ps; cbn [map length]; lia. }
        assert (Eg : get d (S (length (x :: ps))) = Some junk).
        { subst d. clear. 
          assert (A : forall d e i, get (d ++ e) i = match get d i with Some b => Some b | None => get e i end).
          { induction d as [|[a c] d IH]; intros e i; [reflexivity|]. cbn [app get].
            destruct (Nat.eqb i a); [reflexivity|apply IH]. }
          rewrite A.
          assert (N : get (mk 0 (map (fun r => fr [r]) (x :: ps))) (S (length (x :: ps))) = None).
          { change (S (length (x :: ps))) with (0 + S (length (x :: ps)))%nat.
            rewrite get_mk. apply nth_error_None. rewrite map_length. lia. }
          rewrite N. cbn [get]. now rewrite Nat.eqb_refl. }
        unfold open_write. rewrite Ei. unfold create. rewrite Eg.
        split; [|reflexivity]. unfold tail_file. cbn [w_disk w_tail]. now rewrite Eg. }
      destruct Et as [Et Es].
      assert (S1 : exists w, step crc (open_write d 0) (Crash k) = Some (w, [])).
      { assert (N : step crc (open_write d 0) (Crash k) <> None).
        { unfold step. rewrite Et, Es, Sj. destruct (Z.leb_spec 0 k); [|lia]. rewrite Z.leb_refl.
          cbn [andb]. destruct (recover crc (crashed (open_write d 0) k)). discriminate. }
        destruct (step crc (open_write d 0) (Crash k)) as [[w r]|] eqn:E; [|congruence].
        destruct (gap_step (open_write d 0) (Crash k) w r) as [_ ->].
        - intros f t H. discriminate H.
        - exact (gap_open _ _ _ G).
        - exact E.
        - eexists. reflexivity. }
      destruct S1 as [w1 S1]. exists w1. rewrite (run_crash _ _ _ _ _ S1). reflexivity.
  Qed.
End Bad.
