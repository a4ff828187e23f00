(** The files hold the records of the log: every step keeps it so. *)
Require Import ZArith List Bool Lia.
From Verif Require Import Model.Wal Spec.WalSpec Proof.WalFacts.
Import ListNotations.
Open Scope Z_scope.

Lemma mk_len : forall h fs t, length (mk h (fs ++ [t])) = S (length fs).
Proof.
  intros. unfold mk. rewrite combine_length, seq_length, Nat.min_id, app_length. cbn [length]. lia.
Qed.

Section Sim.
  Variable crc : bytes -> Z.
  Hypothesis crc_32 : forall p, 0 <= crc p < 2 ^ 32.

  Notation fr := (frames crc).

  Record holds (w : writer) (l : log) (h : nat) (t : bytes) : Prop := mkHolds {
    h_disk : w_disk w = mk h (map fr (closed l) ++ [t]);
    h_tail : w_tail w = (h + length (closed l))%nat;
    h_open : t ++ w_buf w = fr (open l);
    h_sync : w_synced w = space (firstn (safe l) (open l));
    h_low : w_synced w <= size t;
    h_safe : (safe l <= length (open l))%nat;
    h_fit : Forall fit (records l) }.

  Lemma holds_fresh : holds fresh empty_log 0 [].
  Proof. constructor; try reflexivity; cbn; try lia. constructor. Qed.

  Lemma tail_file_holds : forall w l h t, holds w l h t -> tail_file w = t.
  Proof.
    intros w l h t H. unfold tail_file. rewrite (h_disk _ _ _ _ H), (h_tail _ _ _ _ H).
    rewrite <- (map_length fr). now rewrite get_tail.
  Qed.

  Lemma put_holds : forall w l h t u, holds w l h t ->
    put (w_disk w) (w_tail w) u = mk h (map fr (closed l) ++ [u]).
  Proof.
    intros w l h t u H. rewrite (h_disk _ _ _ _ H), (h_tail _ _ _ _ H).
    rewrite <- (map_length fr). apply put_tail.
  Qed.

  Lemma fit_app : forall a b : list bytes, Forall fit (a ++ b) <-> Forall fit a /\ Forall fit b.
  Proof. intros. apply Forall_app. Qed.

  Lemma holds_write : forall w l h t p, holds w l h t -> fit p ->
    holds (write crc w p) (mkLog (closed l) (open l ++ [p]) (safe l)) h t.
  Proof.
    intros w l h t p H Hp. destruct H as [H1 H2 H3 H4 H5 H6 H7].
    constructor; cbn [closed open safe w_disk w_tail w_buf w_synced write]; auto.
    - rewrite app_assoc, H3, frames_app. f_equal. cbn. now rewrite app_nil_r.
    - rewrite firstn_app. replace (safe l - length (open l))%nat with O by lia.
      cbn [firstn]. now rewrite app_nil_r.
    - rewrite app_length. lia.
    - unfold records in *. cbn [closed open]. rewrite app_assoc. apply fit_app. auto.
  Qed.

  Lemma holds_flush : forall w l h t k, holds w l h t ->
    holds (flush w k) l h (t ++ firstn k (w_buf w)).
  Proof.
    intros w l h t k H. pose proof (tail_file_holds _ _ _ _ H) as Et.
    pose proof (put_holds _ _ _ _ (t ++ firstn k (w_buf w)) H) as Ep.
    destruct H as [H1 H2 H3 H4 H5 H6 H7].
    constructor; cbn [w_disk w_tail w_buf w_synced flush]; auto.
    - now rewrite Et.
    - rewrite <- app_assoc, firstn_skipn. exact H3.
    - rewrite size_app. pose proof (size_nonneg (firstn k (w_buf w))). lia.
  Qed.

  Lemma holds_sync : forall w l h t, holds w l h t ->
    holds (sync w) (mkLog (closed l) (open l) (length (open l))) h (fr (open l)) /\
    w_buf (sync w) = [].
  Proof.
    intros w l h t H.
    pose proof (holds_flush _ _ _ _ (length (w_buf w)) H) as F.
    rewrite firstn_all in F. rewrite (h_open _ _ _ _ H) in F.
    pose proof (tail_file_holds _ _ _ _ F) as Et.
    assert (Hb : w_buf (flush w (length (w_buf w))) = []) by (cbn [w_buf flush]; apply skipn_all).
    split; [|exact Hb]. unfold sync. cbv zeta.
    destruct F as [H1 H2 H3 H4 H5 H6 H7].
    constructor; cbn [closed open safe w_disk w_tail w_buf w_synced]; auto.
    - rewrite Et, firstn_all. apply frames_size.
    - rewrite Et. lia.
  Qed.

  Lemma holds_shift : forall w l h t, holds w l h t ->
    holds (shift w) (mkLog (closed l ++ [open l]) [] 0) h [].
  Proof.
    intros w l h t H. destruct (holds_sync _ _ _ _ H) as [F Hb].
    unfold shift. cbv zeta.
    destruct F as [H1 H2 H3 H4 H5 H6 H7]. cbn [closed open safe] in *.
    constructor; cbn [closed open safe w_disk w_tail w_buf w_synced]; auto.
    - rewrite H1, H2.
      replace (S (h + length (closed l))) with (h + length (map fr (closed l) ++ [fr (open l)]))%nat
        by (rewrite app_length, map_length; cbn [length]; lia).
      rewrite create_new, map_app. reflexivity.
    - rewrite H2, app_length. cbn [length]. lia.
    - reflexivity.
    - unfold records in *. cbn [closed open] in *.
      rewrite concat_app, app_nil_r. cbn [concat]. now rewrite app_nil_r.
  Qed.

  (** ** Housekeeping *)

  Lemma remove_old_spec : forall fuel h fs t total limit,
    (length fs < fuel)%nat ->
    size t <= limit -> total = size (concat fs) + size t ->
    exists d, (d <= length fs)%nat /\
      remove_old fuel (mk h (fs ++ [t])) h total limit = Some (mk (h + d) (skipn d fs ++ [t])) /\
      (forall i, (i < d)%nat -> limit < size (concat (skipn i fs)) + size t) /\
      size (concat (skipn d fs)) + size t <= limit.
  Proof.
    induction fuel as [|fuel IH]; intros h fs t total limit Hf Ht Hs; [lia|].
    cbn [remove_old]. destruct (Z.leb_spec total limit) as [Hl|Hl].
    - exists O. rewrite Nat.add_0_r. cbn [skipn]. split; [lia|]. split; [reflexivity|].
      split; [intros i Hi; lia|lia].
    - destruct fs as [|f fs].
      { cbn [concat] in Hs. change (size []) with 0 in Hs. lia. }
      cbn [app]. rewrite del_head. rewrite mk_cons. cbn [get]. rewrite Nat.eqb_refl.
      destruct (IH (S h) fs t (total - size f) limit) as [d [D1 [D2 [D3 D4]]]].
      { cbn [length] in Hf. lia. }
      { exact Ht. }
      { rewrite Hs. cbn [concat]. rewrite size_app. lia. }
      exists (S d). split; [cbn [length]; lia|]. split.
      { rewrite D2. replace (h + S d)%nat with (S h + d)%nat by lia. reflexivity. }
      split; [|exact D4].
      intros i Hi. destruct i; [cbn [skipn]; lia|]. cbn [skipn]. apply D3. lia.
  Qed.

  Lemma skipn_map : forall (A B : Type) (f : A -> B) n l, skipn n (map f l) = map f (skipn n l).
  Proof. intros A B f n. induction n; intros l; [reflexivity|]. destruct l; [reflexivity|]. cbn. auto. Qed.

  Lemma size_frs : forall fs, size (concat (map fr fs)) = space (concat fs).
  Proof. intros. rewrite frames_concat. apply frames_size. Qed.

  Lemma forall_skip : forall fs (d : nat) o, Forall fit (concat fs ++ o) -> Forall fit (concat (skipn d fs) ++ o).
  Proof.
    intros fs d o H. apply fit_app in H. destruct H as [H1 H2]. apply fit_app. split; [|exact H2].
    rewrite <- (firstn_skipn d fs), concat_app in H1. apply fit_app in H1. tauto.
  Qed.

  Lemma holds_skip : forall w l h t d, holds w l h t -> (d <= length (closed l))%nat ->
    holds (mkWriter (mk (h + d) (skipn d (map fr (closed l)) ++ [t])) (w_tail w) (w_buf w) (w_synced w))
          (mkLog (skipn d (closed l)) (open l) (safe l)) (h + d) t.
  Proof.
    intros w l h t d H Hd. destruct H as [H1 H2 H3 H4 H5 H6 H7].
    constructor; cbn [closed open safe w_disk w_tail w_buf w_synced]; auto.
    - now rewrite skipn_map.
    - rewrite H2, skipn_length. lia.
    - unfold records in *. cbn [closed open]. now apply forall_skip.
  Qed.

  Lemma holds_housekeep : forall w l h t f lim, holds w l h t -> f <= lim -> 0 <= lim ->
    exists l1 d w' h' t',
      housekeep w f lim = Some w' /\
      (l1 = l \/ (l1 = mkLog (closed l ++ [open l]) [] 0 /\ f < space (open l))) /\
      (d <= length (closed l1))%nat /\
      (forall i, (i < d)%nat -> lim < space (concat (skipn i (closed l1)) ++ open l1)) /\
      space (safe_records l) - space (concat (firstn d (closed l1))) <= lim /\
      holds w' (mkLog (skipn d (closed l1)) (open l1) (safe l1)) h' t'.
  Proof.
    intros w l h t f lim H Hfl Hl0. unfold housekeep.
    pose proof (h_disk _ _ _ _ H) as Hd. rewrite Hd. rewrite indexes_mk.
    rewrite get_tail, total_mk. rewrite concat_app. cbn [concat]. rewrite app_nil_r, size_app.
    assert (Ht : size t <= space (open l)).
    { rewrite <- (frames_size crc), <- (h_open _ _ _ _ H), size_app.
      pose proof (size_nonneg (w_buf w)). lia. }
    destruct (Z.ltb_spec f (size t)) as [Hf|Hf].
    - (* a new file; what was not flushed yet is not counted *)
      pose proof (holds_shift _ _ _ _ H) as Sh.
      pose proof (h_disk _ _ _ _ Sh) as Hsd. cbn [closed] in Hsd. rewrite Hsd.
      set (fs := map fr (closed l ++ [open l])) in *.
      set (total := size (concat (map fr (closed l))) + size t).
      (* the file which was closed is on the disk as a whole now: more than counted *)
      assert (R : forall fuel hh (gs : list bytes) tot, (length gs < fuel)%nat ->
                tot <= size (concat gs) -> (gs <> [] \/ tot <= lim) ->
                (forall i, (i < length gs)%nat -> tot - size (concat (firstn i gs)) <= size (concat (skipn i gs))) ->
                exists d, (d <= length gs)%nat /\
                  remove_old fuel (mk hh (gs ++ [[]])) hh tot lim = Some (mk (hh + d) (skipn d gs ++ [[]])) /\
                  (forall i, (i < d)%nat -> lim < tot - size (concat (firstn i gs))) /\
                  tot - size (concat (firstn d gs)) <= lim).
      { induction fuel as [|fuel IH]; intros hh gs tot Hfu Ht1 Hne Hti; [lia|].
        cbn [remove_old]. destruct (Z.leb_spec tot lim) as [Hc|Hc].
        - exists O. rewrite Nat.add_0_r. cbn [skipn firstn concat]. change (size []) with 0.
          split; [lia|]. split; [reflexivity|]. split; [intros i Hi; lia|lia].
        - destruct gs as [|g gs].
          { destruct Hne as [Hne|Hne]; [congruence|lia]. }
          cbn [app]. rewrite del_head. rewrite mk_cons. cbn [get]. rewrite Nat.eqb_refl.
          destruct (IH (S hh) gs (tot - size g)) as [d [D1 [D2 [D3 D4]]]].
          { cbn [length] in Hfu. lia. }
          { cbn [concat] in Ht1. rewrite size_app in Ht1. lia. }
          { destruct gs; [right|left; congruence]. cbn [concat] in Ht1.
            rewrite size_app in Ht1. change (size []) with 0 in Ht1. lia. }
          { intros i Hi. specialize (Hti (S i)). cbn [length firstn skipn concat] in Hti.
            rewrite size_app in Hti. lia. }
          exists (S d). split; [cbn [length]; lia|]. split.
          { rewrite D2. replace (hh + S d)%nat with (S hh + d)%nat by lia. reflexivity. }
          split.
          + intros i Hi. destruct i; [cbn [firstn concat]; change (size []) with 0; lia|].
            cbn [firstn concat]. rewrite size_app. specialize (D3 i). lia.
          + cbn [firstn concat]. rewrite size_app. lia. }
      assert (Tle : total <= size (concat fs)).
      { subst total fs. rewrite size_frs, size_frs, concat_app. cbn [concat].
        rewrite app_nil_r, (space_app crc). lia. }
      assert (Split : forall i, size (concat fs) = size (concat (firstn i fs)) + size (concat (skipn i fs))).
      { intros i. rewrite <- (firstn_skipn i fs) at 1. rewrite concat_app. apply size_app. }
      destruct (R (S (length (mk h (fs ++ [[]])))) h fs total) as [d [D1 [D2 [D3 D4]]]].
      { rewrite mk_len. exact (le_S _ _ (le_n _)). }
      { exact Tle. }
      { left. subst fs. rewrite map_app. destruct (map fr (closed l)); discriminate. }
      { intros i Hi. specialize (Split i). lia. }
      match goal with |- context [remove_old ?a ?b ?c ?e ?f] =>
        replace (remove_old a b c e f) with (Some (mk (h + d) (skipn d fs ++ [[]]))) by (symmetry; exact D2)
      end.
      exists (mkLog (closed l ++ [open l]) [] 0), d. eexists. exists (h + d)%nat, [].
      split; [reflexivity|].
      split; [right; split; [reflexivity|lia]|].
      subst fs. rewrite map_length in D1. cbn [closed open safe firstn]. split; [exact D1|].
      split.
      + intros i Hi. specialize (D3 i Hi). specialize (Split i).
        rewrite app_nil_r, <- size_frs, <- skipn_map. lia.
      + split.
        * rewrite <- size_frs, <- firstn_map. unfold safe_records.
          rewrite (space_app crc), <- size_frs, <- (h_sync _ _ _ _ H).
          pose proof (h_low _ _ _ _ H). fold total in D4. subst total. lia.
        * apply (holds_skip _ (mkLog (closed l ++ [open l]) [] 0) h [] d Sh). exact D1.
    - destruct (remove_old_spec (S (length (mk h (map fr (closed l) ++ [t])))) h (map fr (closed l)) t
                  (size (concat (map fr (closed l))) + size t) lim) as [d [D1 [D2 [D3 D4]]]].
      { rewrite mk_len. exact (le_S _ _ (le_n _)). }
      { lia. }
      { reflexivity. }
      rewrite Hd.
      match goal with |- context [remove_old ?a ?b ?c ?e ?f] =>
        replace (remove_old a b c e f) with (Some (mk (h + d) (skipn d (map fr (closed l)) ++ [t])))
          by (symmetry; exact D2)
      end.
      rewrite map_length in D1.
      exists l, d. eexists. exists (h + d)%nat, t.
      split; [reflexivity|]. split; [now left|]. split; [exact D1|]. split.
      { intros i Hi. specialize (D3 i Hi). rewrite skipn_map, size_frs in D3.
        rewrite (space_app crc). lia. }
      split.
      { unfold safe_records. rewrite (space_app crc). rewrite skipn_map, size_frs in D4.
        pose proof (h_low _ _ _ _ H). pose proof (h_sync _ _ _ _ H).
        assert (space (concat (closed l)) = space (concat (firstn d (closed l))) + space (concat (skipn d (closed l)))).
        { rewrite <- (firstn_skipn d (closed l)) at 1. rewrite concat_app. apply (space_app crc). }
        lia. }
      apply holds_skip; assumption.
  Qed.
  (** ** A crash and a new start *)

  Lemma piece_cases : forall rs n, 0 <= n <= space rs ->
    (piece rs n = 0 /\ firstn (Z.to_nat n) (fr rs) = fr (firstn (whole rs n) rs)) \/
    (exists p, nth_error rs (whole rs n) = Some p /\ 0 < piece rs n < 8 + size p /\
       firstn (Z.to_nat n) (fr rs) =
       fr (firstn (whole rs n) rs) ++ firstn (Z.to_nat (piece rs n)) (frame crc p)).
  Proof.
    intros rs n Hn. destruct (cut crc rs n Hn) as [_ [E P]].
    destruct (nth_error rs (whole rs n)) as [p|] eqn:En.
    - destruct (Z.eq_dec (piece rs n) 0) as [Z0|Z0].
      + left. split; [exact Z0|]. rewrite E, Z0. cbn [Z.to_nat firstn]. apply app_nil_r.
      + right. exists p. split; [reflexivity|]. split; [lia|exact E].
    - left. split; [exact P|]. rewrite E. apply app_nil_r.
  Qed.

  Lemma recover_files : forall h cs t ms junk e,
    t = fr ms ++ junk -> Forall fit (concat cs ++ ms) -> read_one crc junk = inr e ->
    recover crc (mk h (map fr cs ++ [t])) =
    (concat cs ++ ms,
     match e with
     | EOF => mk h (map fr cs ++ [t])
     | _ => fst (repair (mk h (map fr cs ++ [t])) (map size (map fr cs ++ [t])) h
                        (h + length (map fr cs)) (space (concat cs ++ ms)))
     end).
  Proof.
    intros h cs t ms junk e Et Hf Hj. unfold recover. rewrite indexes_mk.
    replace (S (h + length (map fr cs)) - h)%nat with (length (map fr cs ++ [t]))
      by (rewrite app_length; cbn [length]; lia).
    rewrite contents_all. rewrite concat_app. cbn [concat]. rewrite app_nil_r, Et.
    rewrite frames_concat, app_assoc, <- frames_app.
    rewrite (read_all_frames crc crc_32 (concat cs ++ ms) _ junk e Hf (Nat.lt_succ_diag_r _) Hj).
    rewrite sizes_all. destruct e; reflexivity.
  Qed.

  Lemma reads_eof : read_one crc [] = inr EOF.
  Proof. reflexivity. Qed.

  Lemma cut_tail : forall w l h t n, holds w l h t -> w_synced w <= n <= size t ->
    0 <= n <= space (open l) /\ firstn (Z.to_nat n) t = firstn (Z.to_nat n) (fr (open l)) /\
    (safe l <= whole (open l) n <= length (open l))%nat /\
    Forall fit (concat (closed l) ++ firstn (whole (open l) n) (open l)).
  Proof.
    intros w l h t n H Hn.
    pose proof (h_sync _ _ _ _ H) as Hs. pose proof (h_open _ _ _ _ H) as Ho.
    pose proof (space_nonneg crc (firstn (safe l) (open l))) as H0.
    assert (Hsp : size t <= space (open l)).
    { rewrite <- (frames_size crc), <- Ho, size_app. pose proof (size_nonneg (w_buf w)). lia. }
    split; [lia|]. split.
    { rewrite <- Ho, firstn_app. unfold size in Hn.
      replace (Z.to_nat n - length t)%nat with O by lia. cbn [firstn]. now rewrite app_nil_r. }
    split.
    { split; [|apply whole_le]. apply (whole_mono crc); [apply (h_safe _ _ _ _ H)|lia]. }
    pose proof (h_fit _ _ _ _ H) as Hf. unfold records in Hf. apply fit_app in Hf.
    destruct Hf as [Hc Hopen]. apply fit_app. split; [exact Hc|].
    rewrite <- (firstn_skipn (whole (open l) n) (open l)) in Hopen. apply fit_app in Hopen. tauto.
  Qed.

  (** The tear of the first kind is taken for the end; any other one is seen. *)
  Lemma crash_reads : forall w l h t n, holds w l h t -> w_synced w <= n <= size t ->
    fst (recover crc (crashed w n)) = concat (closed l) ++ firstn (whole (open l) n) (open l).
  Proof.
    intros w l h t n H Hn.
    destruct (cut_tail _ _ _ _ _ H Hn) as [Hb [Et [Hm Hf]]].
    unfold crashed. rewrite (tail_file_holds _ _ _ _ H), (put_holds _ _ _ _ _ H), Et.
    destruct (piece_cases (open l) n Hb) as [[P0 E]|[p [Ep [Pp E]]]].
    - erewrite recover_files; [reflexivity| |exact Hf|apply reads_eof].
      rewrite app_nil_r. exact E.
    - assert (Hfp : fit p).
      { pose proof (h_fit _ _ _ _ H) as Hfit. unfold records in Hfit. apply fit_app in Hfit.
        destruct Hfit as [_ Hopen]. rewrite Forall_forall in Hopen. apply Hopen.
        eapply nth_error_In; exact Ep. }
      destruct (Z.eq_dec (piece (open l) n) 8) as [E8|E8].
      + erewrite recover_files; [reflexivity|exact E|exact Hf|].
        rewrite E8. apply (read_header crc); [exact Hfp|].
        intros ->. change (size []) with 0 in Pp. lia.
      + erewrite recover_files; [reflexivity|exact E|exact Hf|].
        apply (read_junk crc); [exact Hfp|rewrite frame_size; lia|exact E8].
  Qed.

  Lemma open_write_mk : forall fs h t s,
    open_write (mk h (fs ++ [t])) s = mkWriter (mk h (fs ++ [t])) (h + length fs) [] s.
  Proof. intros. unfold open_write. rewrite indexes_mk, create_tail. reflexivity. Qed.

  Lemma crash_holds : forall w l h t n, holds w l h t -> w_synced w <= n <= size t ->
    ~ bad_tear l n ->
    holds (open_write (snd (recover crc (crashed w n))) (w_synced w))
          (mkLog (closed l) (firstn (whole (open l) n) (open l)) (safe l)) h
          (fr (firstn (whole (open l) n) (open l))).
  Proof.
    intros w l h t n H Hn Hgood.
    destruct (cut_tail _ _ _ _ _ H Hn) as [Hb [Et [Hm Hf]]].
    set (m := whole (open l) n) in *.
    assert (G : snd (recover crc (crashed w n)) = mk h (map fr (closed l) ++ [fr (firstn m (open l))])).
    { unfold crashed. rewrite (tail_file_holds _ _ _ _ H), (put_holds _ _ _ _ _ H), Et.
      destruct (piece_cases (open l) n Hb) as [[P0 E]|[p [Ep [Pp E]]]]; fold m in E.
      - erewrite recover_files; [cbn [snd]|rewrite app_nil_r; exact E|exact Hf|apply reads_eof].
        now rewrite E.
      - fold m in Ep.
        assert (Hfp : fit p).
        { pose proof (h_fit _ _ _ _ H) as Hfit. unfold records in Hfit. apply fit_app in Hfit.
          destruct Hfit as [_ Hopen]. rewrite Forall_forall in Hopen. apply Hopen.
          eapply nth_error_In; exact Ep. }
        assert (E8 : piece (open l) n <> 8) by (intros E8; apply Hgood; now left).
        assert (Hk : 0 < piece (open l) n < size (frame crc p)) by (rewrite frame_size; lia).
        refine (eq_trans (f_equal snd (recover_files h (closed l) (firstn (Z.to_nat n) (fr (open l)))
                   (firstn m (open l)) _ UnexpectedEOF E Hf
                   (read_junk crc p (piece (open l) n) Hfp Hk E8))) _).
        cbn [snd]. rewrite E.
        assert (Sz : size (concat (map fr (closed l))) = space (concat (closed l))) by apply size_frs.
        assert (Sj : size (firstn (Z.to_nat (piece (open l) n)) (frame crc p)) = piece (open l) n).
        { unfold size. rewrite firstn_length. pose proof (frame_size crc p) as Ef. unfold size in Ef, Pp. lia. }
        rewrite repair_tail.
        + cbn [fst]. do 3 f_equal. rewrite Sz, (space_app crc).
          replace (space (concat (closed l)) + space (firstn m (open l)) - space (concat (closed l)))
            with (size (fr (firstn m (open l)))) by (rewrite frames_size; lia).
          unfold size. rewrite Nat2Z.id, firstn_app, firstn_all, Nat.sub_diag. cbn [firstn].
          apply app_nil_r.
        + destruct (closed l) as [|c cs] eqn:Ec; [now left|]. right.
          rewrite Sz, (space_app crc). rewrite <- Ec in *.
          destruct m as [|m'] eqn:Em.
          * exfalso. apply Hgood. right. split; [lia|]. split; [exact Em|]. rewrite Ec. discriminate.
          * destruct (open l) as [|q qs]; [cbn [length] in Hm; lia|].
            cbn [firstn]. change (space (q :: firstn m' qs)) with (8 + Z.of_nat (length q) + space (firstn m' qs)).
            pose proof (space_nonneg crc (firstn m' qs)). lia.
        + rewrite Sz, (space_app crc), size_app, frames_size, Sj.
          pose proof (space_nonneg crc (firstn m (open l))). lia. }
    rewrite G, open_write_mk, map_length.
    destruct H as [H1 H2 H3 H4 H5 H6 H7].
    constructor; cbn [closed open safe w_disk w_tail w_buf w_synced]; auto.
    - apply app_nil_r.
    - rewrite H4, firstn_firstn. now rewrite Nat.min_l by lia.
    - rewrite H4, frames_size.
      rewrite <- (firstn_skipn (safe l) (firstn m (open l))), (space_app crc), firstn_firstn.
      rewrite Nat.min_l by lia. pose proof (space_nonneg crc (skipn (safe l) (firstn m (open l)))). lia.
    - rewrite firstn_length. lia.
  Qed.

  (** ** Histories *)

  Lemma step_sim : forall w l h t o w' r, holds w l h t -> fits o ->
    step crc w o = Some (w', r) ->
    exists l', log_step (Some l) o r l' /\
      match l' with Some s => exists h' t', holds w' s h' t' | None => True end.
  Proof.
    intros w l h t o w' r H Hf E. destruct o as [p|k| | |f lim|n]; cbn [step] in E.
    - injection E as <- <-. eexists. split; [apply s_write|]. exists h, t. now apply holds_write.
    - injection E as <- <-. eexists. split; [apply s_flush|]. eexists. eexists. apply holds_flush. exact H.
    - injection E as <- <-. eexists. split; [apply s_sync|]. exists h. eexists.
      apply (proj1 (holds_sync _ _ _ _ H)).
    - injection E as <- <-. eexists. split; [apply s_shift|]. exists h. eexists.
      apply (holds_shift _ _ _ _ H).
    - destruct (Z_lt_le_dec lim f) as [Hl|Hl].
      { destruct (housekeep w f lim); [|discriminate E]. injection E as <- <-.
        exists None. split; [apply s_limits; now left|exact Logic.I]. }
      destruct (Z_lt_le_dec lim 0) as [Hl0|Hl0].
      { destruct (housekeep w f lim); [|discriminate E]. injection E as <- <-.
        exists None. split; [apply s_limits; now right|exact Logic.I]. }
      destruct (holds_housekeep _ _ _ _ f lim H Hl Hl0) as [l1 [d [w1 [h1 [t1 [A [B [C [D [F G]]]]]]]]]].
      rewrite A in E. injection E as <- <-.
      eexists. split; [eapply s_housekeep; eassumption|]. exists h1, t1. exact G.
    - rewrite (tail_file_holds _ _ _ _ H) in E.
      destruct ((w_synced w <=? n) && (n <=? size t)) eqn:Eb; [|discriminate E].
      apply andb_prop in Eb. destruct Eb as [B1 B2]. apply Z.leb_le in B1. apply Z.leb_le in B2.
      pose proof (crash_reads _ _ _ _ n H (conj B1 B2)) as R.
      destruct (cut_tail _ _ _ _ _ H (conj B1 B2)) as [_ [_ [Hm _]]].
      pose proof (crash_holds _ _ _ _ n H (conj B1 B2)) as K.
      destruct (recover crc (crashed w n)) as [ps d]. cbn [fst snd] in *.
      injection E as <- <-. subst ps.
      assert (Dec : bad_tear l n \/ ~ bad_tear l n).
      { unfold bad_tear. destruct (Z.eq_dec (piece (open l) n) 8); [now left; left|].
        destruct (Z.eq_dec (piece (open l) n) 0); [right; intros [?|[? _]]; lia|].
        destruct (Nat.eq_dec (whole (open l) n) 0); [|right; intros [?|[_ [? _]]]; lia].
        destruct (closed l); [right; intros [?|[_ [_ ?]]]; [lia|congruence]|].
        left. right. split; [assumption|]. split; [assumption|discriminate]. }
      destruct Dec as [Bad|Good].
      + exists None. split; [|exact Logic.I]. eapply s_torn; [exact Bad|reflexivity|exact Hm].
      + eexists. split; [eapply s_crash; [exact Good|reflexivity|exact Hm]|].
        exists h. eexists. apply K. exact Good.
  Qed.

  Lemma run_lost : forall ops w w' rs, run crc w ops = Some (w', rs) -> log_run None ops rs None.
  Proof.
    induction ops as [|o ops IH]; intros w w' rs E; cbn [run] in E.
    - injection E as <- <-. constructor.
    - destruct (step crc w o) as [[w1 r]|]; [|discriminate E].
      destruct (run crc w1 ops) as [[w2 rs2]|] eqn:Er; [|discriminate E].
      injection E as <- <-. specialize (IH _ _ _ Er).
      destruct o; try (eapply r_other; [intros ? ?; discriminate|apply (s_lost _ [])|exact IH]).
      eapply r_crash; [apply s_lost|exact IH].
  Qed.

  Lemma run_sim : forall ops w l h t w' rs, holds w l h t -> Forall fits ops ->
    run crc w ops = Some (w', rs) ->
    exists l', log_run (Some l) ops rs l' /\
      match l' with Some s => exists h' t', holds w' s h' t' | None => True end.
  Proof.
    induction ops as [|o ops IH]; intros w l h t w' rs H Hf E; cbn [run] in E.
    - injection E as <- <-. exists (Some l). split; [constructor|]. now exists h, t.
    - inversion Hf as [|o0 ops0 Ho Hops]; subst o0 ops0.
      destruct (step crc w o) as [[w1 r]|] eqn:Es; [|discriminate E].
      destruct (run crc w1 ops) as [[w2 rs2]|] eqn:Er; [|discriminate E].
      injection E as <- <-.
      destruct (step_sim _ _ _ _ _ _ _ H Ho Es) as [l1 [L1 P1]].
      assert (X : exists l', log_run l1 ops rs2 l' /\
                 match l' with Some s => exists h' t', holds w2 s h' t' | None => True end).
      { destruct l1 as [s|].
        - destruct P1 as [h1 [t1 H1]]. exact (IH _ _ _ _ _ _ H1 Hops Er).
        - exists None. split; [exact (run_lost _ _ _ _ Er)|exact Logic.I]. }
      destruct X as [l' [L2 P2]]. exists l'. split; [|exact P2].
      destruct o; try (eapply r_other; [intros ? ?; discriminate|exact L1|exact L2]).
      eapply r_crash; [exact L1|exact L2].
  Qed.

  (** Every step can be taken. *)
  Lemma step_goes : forall w l h t o, holds w l h t ->
    match o with
    | Housekeep f lim => f <= lim /\ 0 <= lim
    | Crash n => w_synced w <= n <= size t
    | _ => True
    end -> step crc w o <> None.
  Proof.
    intros w l h t o H Ho. destruct o as [p|k| | |f lim|n]; cbn [step]; try discriminate.
    - destruct (holds_housekeep _ _ _ _ f lim H (proj1 Ho) (proj2 Ho)) as [l1 [d [w1 [h1 [t1 [A _]]]]]].
      rewrite A. discriminate.
    - rewrite (tail_file_holds _ _ _ _ H).
      destruct (Z.leb_spec (w_synced w) n); [|lia]. destruct (Z.leb_spec n (size t)); [|lia].
      cbn [andb]. destruct (recover crc (crashed w n)). discriminate.
  Qed.
End Sim.
