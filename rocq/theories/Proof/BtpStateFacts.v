(** The BTP state in a block: what each operation keeps. *)
From Verif Require Import Model.Bytes Model.BtpSection Spec.BtpSectionSpec Model.BtpState.
From Coq Require Import Lia.
Open Scope Z_scope.

Lemma beq_spec a b : bytes_eqb a b = true <-> a = b.
Proof. split; [apply bytes_eqb_eq|intros ->; apply bytes_eqb_refl]. Qed.
Lemma put_same {A} f k (v : A) : put f k v k = v.
Proof. unfold put. now rewrite Z.eqb_refl. Qed.
Lemma put_other {A} f k (v : A) x : x <> k -> put f k v x = f x.
Proof. intros H. unfold put. destruct (Z.eqb_spec x k); [contradiction|reflexivity]. Qed.
Lemma put_b_same {A} f k (v : A) : put_b f k v k = v.
Proof. unfold put_b. now rewrite bytes_eqb_refl. Qed.
Lemma put_b_other {A} f k (v : A) x : x <> k -> put_b f k v x = f x.
Proof. intros H. unfold put_b. destruct (bytes_eqb x k) eqn:E; [|reflexivity]. apply beq_spec in E. contradiction. Qed.
Lemma in_add l x y : In y (add l x) <-> In y l \/ y = x.
Proof.
  unfold add. destruct (existsb (Z.eqb x) l) eqn:E.
  - split; [now left|]. intros [H| ->]; [exact H|].
    apply existsb_exists in E. destruct E as (z & H & Hz). apply Z.eqb_eq in Hz. now subst z.
  - rewrite in_app_iff. cbn. firstorder congruence.
Qed.
Lemma remove_first_in l x l' : remove_first l x = Some l' -> forall y, y <> x -> In y l <-> In y l'.
Proof.
  revert l'. induction l as [|z r IH]; intros l' H y Hy; cbn in H; [discriminate H|].
  destruct (Z.eqb_spec z x) as [E|E].
  - injection H as <-. subst z. cbn. split; [intros [->|Hi]; [now destruct Hy|exact Hi]|now right].
  - destruct (remove_first r x) as [r'|]; [|discriminate H]. injection H as <-. cbn.
    rewrite (IH r' eq_refl y Hy). tauto.
Qed.
Lemma remove_first_sub l x l' : remove_first l x = Some l' -> forall y, In y l' -> In y l.
Proof.
  revert l'. induction l as [|z r IH]; intros l' H y Hy; cbn in H; [discriminate H|].
  destruct (z =? x).
  - injection H as <-. now right.
  - destruct (remove_first r x) as [r'|]; [|discriminate H]. injection H as <-. cbn in Hy. destruct Hy as [->|Hy]; [now left|right; exact (IH r' eq_refl y Hy)].
Qed.
Lemma remove_first_nodup l x l' : NoDup l -> remove_first l x = Some l' -> NoDup l' /\ ~ In x l' /\ In x l.
Proof.
  revert l'. induction l as [|z r IH]; intros l' Hn H; cbn in H; [discriminate H|].
  inversion Hn as [|z' r' Hz Hr]; subst. destruct (Z.eqb_spec z x) as [E|E].
  - injection H as <-. subst z. split; [exact Hr|split; [exact Hz|now left]].
  - destruct (remove_first r x) as [r'|] eqn:Er; [|discriminate H]. injection H as <-.
    destruct (IH r' Hr eq_refl) as (A & B & C). split; [|split; [|now right]].
    + constructor; [|exact A]. intros Hi. apply Hz. exact (remove_first_sub r x r' Er z Hi).
    + intros [->|Hi]; [now apply E|now apply B].
Qed.

Section With.
Variable modules : list bytes.
Variable dsa_of : bytes -> Z.
Variable dsa_known : Z -> bool.
Variable canonical : Z -> bytes -> option bytes.
Variable key_for : bytes -> bytes -> option bytes.
Variable context_of : bytes -> list (option bytes) -> option bytes.
Variable key_hash : bytes -> bytes.
Notation do_op := (do_op modules dsa_of dsa_known canonical key_for context_of key_hash).
Notation step := (step modules dsa_of dsa_known canonical key_for context_of key_hash).
Notation key_of := (key_of dsa_of key_for).
Notation keys_of := (keys_of dsa_of key_for).

(** What the databases keep to at any time. *)
Record struct (s : st) : Prop := {
  x_ntid : 0 <= s_ntid s;
  x_nid : 0 <= s_nid s;
  x_uid : forall uid, s_by_uid s uid <> 0 -> exists nt, s_type s (s_by_uid s uid) = Some nt /\ t_uid nt = uid;
  x_type : forall t nt, s_type s t = Some nt -> In t (s_active s) /\ s_by_uid s (t_uid nt) = t /\ In (t_uid nt) modules /\ 0 < t <= s_ntid s;
  x_net : forall n w, s_net s n = Some w -> n <= s_nid s /\ exists nt, s_type s (n_type w) = Some nt;
  x_open : forall t nt n, s_type s t = Some nt -> In n (t_open nt) -> exists w, s_net s n = Some w /\ n_type w = t /\ n_open w = true;
  x_in : forall n w nt, s_net s n = Some w -> n_open w = true -> s_type s (n_type w) = Some nt -> In n (t_open nt);
  x_nodup : forall t nt, s_type s t = Some nt -> NoDup (t_open nt) }.

(** The three results of an operation on networks. *)
Definition opened s t nt n owner act uids (tid : Z) : st :=
  mk_st (put (s_net s) n (Some (mk_net t owner true 0 true None None))) n
        (put (s_type s) t (Some (mk_ntype (t_uid nt) (t_pc nt) (t_open nt ++ [n])))) tid uids act (s_key s) (s_owner s) (s_dsas s) (s_validators s).

Lemma open_cases s b uid owner s' b' : struct s ->
  do_open modules dsa_of key_for context_of s b uid owner = Some (s', b') ->
  let n := s_nid s + 1 in
  (exists nt, In uid modules /\ s_by_uid s uid <> 0 /\ s_type s (s_by_uid s uid) = Some nt /\ t_uid nt = uid
     /\ s' = opened s (s_by_uid s uid) nt n owner (s_active s) (s_by_uid s) (s_ntid s)
     /\ b' = flag_inactive (flag_net (match t_open nt with [] => flag_pc b (s_by_uid s uid) | _ => b end) n) (s_by_uid s uid) false)
  \/ (exists pc, In uid modules /\ s_by_uid s uid = 0 /\ context_of uid (keys_of s uid) = Some pc
     /\ s' = opened s (s_ntid s + 1) (mk_ntype uid (Some pc) []) n owner (s_active s ++ [s_ntid s + 1]) (put_b (s_by_uid s) uid (s_ntid s + 1)) (s_ntid s + 1)
     /\ b' = flag_inactive (flag_net b n) (s_ntid s + 1) false).
Proof.
  intros X. unfold do_open, type_to_open. destruct (known_module modules uid) eqn:K; [|discriminate].
  assert (Hm : In uid modules).
  { unfold known_module in K. apply existsb_exists in K. destruct K as (u & Hu & E). apply beq_spec in E. now subst u. }
  destruct (Z.eqb_spec (s_by_uid s uid) 0) as [E|E].
  - destruct (existsb (Z.eqb (dsa_of uid)) (s_dsas s)); [|discriminate].
    destruct (all_keys (keys_of s uid)); [|discriminate].
    destruct (context_of uid (keys_of s uid)) as [pc|] eqn:Ec; [|discriminate].
    intros H. injection H as <- <-. right. exists pc. repeat split; assumption || reflexivity.
  - destruct (x_uid s X uid E) as (nt & Ht & Hu). rewrite Ht.
    intros H. injection H as <- <-. left. exists nt. repeat split; assumption || reflexivity.
Qed.

Lemma close_cases s b n s' b' : do_close s b n = Some (s', b') ->
  exists w nt l, s_net s n = Some w /\ s_type s (n_type w) = Some nt /\ remove_first (t_open nt) n = Some l
   /\ s' = mk_st (put (s_net s) n (Some (mk_net (n_type w) (n_owner w) false (n_sn w) (n_changed w) (n_prev w) (n_last w)))) (s_nid s)
                 (put (s_type s) (n_type w) (Some (mk_ntype (t_uid nt) (t_pc nt) l))) (s_ntid s)
                 (s_by_uid s) (s_active s) (s_key s) (s_owner s) (s_dsas s) (s_validators s)
   /\ b' = match l with [] => flag_inactive b (n_type w) true | _ => b end.
Proof.
  unfold do_close. destruct (s_net s n) as [w|]; [|discriminate]. destruct (s_type s (n_type w)) as [nt|] eqn:Et; [|discriminate].
  destruct (remove_first (t_open nt) n) as [l|] eqn:El; [|discriminate]. intros H. injection H as <- <-.
  exists w, nt, l. repeat split; assumption || reflexivity.
Qed.
Lemma send_cases s b from n msg s' b' : do_send s b from n msg = Some (s', b') ->
  exists w, s_net s n = Some w /\ n_open w = true /\ from = n_owner w
   /\ s' = mk_st (put (s_net s) n (Some (mk_net (n_type w) (n_owner w) (n_open w) (n_sn w + 1) (n_changed w) (n_prev w) (n_last w)))) (s_nid s)
                 (s_type s) (s_ntid s) (s_by_uid s) (s_active s) (s_key s) (s_owner s) (s_dsas s) (s_validators s)
   /\ b' = mk_blk (b_validators b) (b_keys b) (b_types b) (b_pc b) (b_inactive b) (add (b_nets b) n) (b_msgs b ++ [(n, msg)]).
Proof.
  unfold do_send. destruct (s_net s n) as [w|]; [|discriminate]. destruct (n_open w) eqn:Eo; [|discriminate].
  destruct (Z.eqb_spec from (n_owner w)) as [Ef|]; [|discriminate]. intros H. injection H as <- <-.
  exists w. rewrite Eo. repeat split; assumption || reflexivity.
Qed.
Lemma set_key_cases s b from name pub s' b' : do_set_key modules dsa_of dsa_known canonical key_hash s b from name pub = Some (s', b') ->
  (s' = s /\ b' = b) \/
  exists k l, dsa_known name = true /\ (forall x a, k = Some x -> s_owner s (key_hash x) = Some a -> a = from)
    /\ note_change dsa_of (store_key key_hash s from name k) from name modules (b_keys b) = Some l
    /\ s' = store_key key_hash s from name k
    /\ b' = mk_blk (b_validators b) l (b_types b) (b_pc b) (b_inactive b) (b_nets b) (b_msgs b).
Proof.
  unfold do_set_key. destruct (dsa_known name) eqn:K; [|discriminate].
  destruct (match pub with [] => Some None | _ => match canonical name pub with Some k => Some (Some k) | None => None end end) as [k|]; [|discriminate].
  destruct (match k with Some k => match s_owner s (key_hash k) with Some a => negb (a =? from) | None => false end | None => false end) eqn:Eo; [discriminate|].
  destruct (match s_key s from name, k with Some o, Some k => bytes_eqb o k | Some o, None => bytes_eqb o [] | None, _ => false end).
  - intros H. injection H as <- <-. now left.
  - cbv zeta. destruct (note_change _ _ _ _ _ _) as [l|] eqn:El; [|discriminate]. intros H. injection H as <- <-.
    right. exists k, l. split; [reflexivity|]. split; [|repeat split; assumption || reflexivity].
    intros x a -> Ha. rewrite Ha in Eo. apply Bool.negb_false_iff, Z.eqb_eq in Eo. exact Eo.
Qed.

Lemma struct_opened s t nt n owner act uids tid : struct s ->
  n = s_nid s + 1 ->
  (forall x, In x (s_active s) -> In x act) -> In t act -> In (t_uid nt) modules -> 0 < t <= tid -> s_ntid s <= tid ->
  uids (t_uid nt) = t ->
  (forall u, u <> t_uid nt -> uids u = s_by_uid s u) ->
  (s_type s t = Some nt \/ s_type s t = None /\ t_open nt = [] /\ s_by_uid s (t_uid nt) = 0) ->
  struct (opened s t nt n owner act uids tid).
Proof.
  intros X -> Ha Ht Hm Hr Hi Hu Hou Hs. set (n := s_nid s + 1).
  assert (Hnone : s_net s n = None).
  { destruct (s_net s n) as [w|] eqn:E; [|reflexivity]. destruct (x_net s X n w E). subst n. lia. }
  assert (Hop : forall m, In m (t_open nt) -> m <> n /\ exists w, s_net s m = Some w /\ n_type w = t /\ n_open w = true).
  { intros m Hm'. destruct Hs as [Hs|(_ & E & _)]; [|rewrite E in Hm'; destruct Hm'].
    destruct (x_open s X t nt m Hs Hm') as (w & Hw & Hw'). split; [|now exists w].
    intros ->. rewrite Hnone in Hw. discriminate Hw. }
  split; cbn.
  - pose proof (x_ntid s X). lia.
  - pose proof (x_nid s X). subst n. lia.
  - intros uid Hne. destruct (bytes_eqb uid (t_uid nt)) eqn:E.
    + apply beq_spec in E. subst uid. rewrite Hu, put_same. eexists. split; [reflexivity|reflexivity].
    + assert (Hd : uid <> t_uid nt) by (intros ->; now rewrite bytes_eqb_refl in E). rewrite (Hou uid Hd) in *.
      destruct (x_uid s X uid Hne) as (nt' & Ht' & Hu'). exists nt'. split; [|exact Hu'].
      rewrite put_other; [exact Ht'|]. intros Eq. destruct Hs as [Hs|(Hs & _)]; rewrite Eq in Ht'; rewrite Hs in Ht'; [|discriminate Ht'].
      injection Ht' as <-. now apply Hd.
  - intros t' nt'. destruct (Z.eq_dec t' t) as [->|Hd].
    + rewrite put_same. intros H. injection H as <-. cbn. tauto.
    + rewrite put_other by exact Hd. intros H. destruct (x_type s X t' nt' H) as (A & B & C & D).
      repeat split; try lia; auto.
      rewrite Hou; [exact B|]. intros Eq. rewrite Eq in B. destruct Hs as [Hs|(_ & _ & Hs)].
      * destruct (x_type s X t nt Hs) as (_ & B' & _). apply Hd. rewrite <- B, <- B'. reflexivity.
      * rewrite Hs in B. lia.
  - intros m w. destruct (Z.eq_dec m n) as [->|Hd].
    + rewrite put_same. intros H. injection H as <-. cbn. split; [lia|]. rewrite put_same. now eexists.
    + rewrite put_other by exact Hd. intros H. destruct (x_net s X m w H) as (A & nt' & B). split; [subst n; lia|].
      destruct (Z.eq_dec (n_type w) t) as [->|Hd']; [rewrite put_same; now eexists|rewrite put_other by exact Hd'; now exists nt'].
  - intros t' nt' m. destruct (Z.eq_dec t' t) as [->|Hd].
    + rewrite put_same. intros H. injection H as <-. cbn. rewrite in_app_iff. intros [Hi'|[<-|[]]].
      * destruct (Hop m Hi') as (Hmn & w & Hw). exists w. rewrite put_other by exact Hmn. exact Hw.
      * rewrite put_same. eexists. split; [reflexivity|]. split; reflexivity.
    + rewrite put_other by exact Hd. intros H Hi'. destruct (x_open s X t' nt' m H Hi') as (w & Hw & Hw').
      exists w. rewrite put_other; [now split|]. intros ->. rewrite Hnone in Hw. discriminate Hw.
  - intros m w nt'. destruct (Z.eq_dec m n) as [->|Hd].
    + rewrite put_same. intros H. injection H as <-. cbn. intros _. rewrite put_same. intros H. injection H as <-. cbn.
      apply in_or_app. right. now left.
    + rewrite put_other by exact Hd. intros H Ho. destruct (Z.eq_dec (n_type w) t) as [E|E].
      * rewrite E, put_same. intros H'. injection H' as <-. cbn. apply in_or_app. left.
        destruct Hs as [Hs|(Hs & _)]; [rewrite <- E in Hs; exact (x_in s X m w nt H Ho Hs)|].
        destruct (x_net s X m w H) as (_ & nt' & Hnt). rewrite E, Hs in Hnt. discriminate Hnt.
      * rewrite put_other by exact E. exact (x_in s X m w nt' H Ho).
  - intros t' nt'. destruct (Z.eq_dec t' t) as [->|Hd].
    + rewrite put_same. intros H. injection H as <-. cbn.
      assert (Hn : NoDup (t_open nt)).
      { destruct Hs as [Hs|(_ & E & _)]; [exact (x_nodup s X t nt Hs)|rewrite E; constructor]. }
      apply NoDup_Add with (a := n) (l := t_open nt).
      * rewrite <- (app_nil_r (t_open nt)) at 1. apply Add_app.
      * split; [exact Hn|]. intros Hi'. destruct (Hop n Hi') as (Hc & _). now apply Hc.
    + rewrite put_other by exact Hd. exact (x_nodup s X t' nt').
Qed.

Lemma struct_op s b o s' b' : struct s -> do_op s b o = Some (s', b') -> struct s'.
Proof.
  intros X. destruct o as [uid owner|n|from n msg|from name pub|l]; cbn.
  - intros H. destruct (open_cases s b uid owner s' b' X H) as [(nt & Hm & Hne & Ht & Hu & -> & _)|(pc & Hm & H0 & Hc & -> & _)].
    + destruct (x_type s X _ nt Ht) as (A & B & C & D).
      apply struct_opened; auto; try lia.
    + assert (Hnone : s_type s (s_ntid s + 1) = None).
      { destruct (s_type s (s_ntid s + 1)) as [nt|] eqn:E; [|reflexivity]. destruct (x_type s X _ nt E) as (_ & _ & _ & D). lia. }
      pose proof (x_ntid s X). apply struct_opened; cbn; auto; try lia.
      * intros x Hx. apply in_or_app. now left.
      * apply in_or_app. right. now left.
      * apply put_b_same.
      * intros u Hd. now apply put_b_other.
  - intros H. destruct (close_cases s b n s' b' H) as (w & nt & l & Hw & Ht & Hl & -> & _).
    destruct (remove_first_nodup _ n l (x_nodup s X _ nt Ht) Hl) as (Hnd & Hnl & Hin).
    pose proof (remove_first_in _ n l Hl) as Hri.
    split; cbn; try apply X.
    + intros u Hne. destruct (x_uid s X u Hne) as (nt' & Ht' & Hu'). destruct (Z.eq_dec (s_by_uid s u) (n_type w)) as [E|E].
      * rewrite E, put_same. eexists. split; [reflexivity|]. cbn. rewrite E in Ht'. rewrite Ht in Ht'. now injection Ht' as <-.
      * rewrite put_other by exact E. now exists nt'.
    + intros t nt'. destruct (Z.eq_dec t (n_type w)) as [->|E].
      * rewrite put_same. intros H'. injection H' as <-. cbn. exact (x_type s X _ nt Ht).
      * rewrite put_other by exact E. exact (x_type s X t nt').
    + assert (Hty : forall t nt', s_type s t = Some nt' -> exists nt2, put (s_type s) (n_type w) (Some (mk_ntype (t_uid nt) (t_pc nt) l)) t = Some nt2).
      { intros t nt' Ht'. destruct (Z.eq_dec t (n_type w)) as [->|E]; [rewrite put_same; now eexists|rewrite put_other by exact E; now exists nt']. }
      intros m w'. destruct (Z.eq_dec m n) as [->|E].
      * rewrite put_same. intros H'. injection H' as <-. cbn. destruct (x_net s X n w Hw) as (A & B). split; [exact A|]. exact (Hty _ nt Ht).
      * rewrite put_other by exact E. intros H'. destruct (x_net s X m w' H') as (A & nt' & B). split; [exact A|]. exact (Hty _ nt' B).
    + intros t nt' m. destruct (Z.eq_dec t (n_type w)) as [->|E].
      * rewrite put_same. intros H'. injection H' as <-. cbn. intros Hm.
        assert (m <> n) by (intros ->; contradiction). rewrite put_other by assumption.
        apply (x_open s X _ nt m Ht). now apply Hri.
      * rewrite put_other by exact E. intros H' Hm. destruct (x_open s X t nt' m H' Hm) as (w' & Hw' & Et & Eo).
        exists w'. rewrite put_other; [now repeat split|]. intros ->. rewrite Hw in Hw'. injection Hw' as <-. now apply E.
    + intros m w' nt'. destruct (Z.eq_dec m n) as [->|E].
      * rewrite put_same. intros H'. injection H' as <-. cbn. intros H'. discriminate H'.
      * rewrite put_other by exact E. intros H' Ho. destruct (Z.eq_dec (n_type w') (n_type w)) as [Et|Et].
        -- rewrite Et, put_same. intros H2. injection H2 as <-. cbn. apply Hri; [exact E|].
           rewrite <- Et in Ht. exact (x_in s X m w' nt H' Ho Ht).
        -- rewrite put_other by exact Et. exact (x_in s X m w' nt' H' Ho).
    + intros t nt'. destruct (Z.eq_dec t (n_type w)) as [->|E].
      * rewrite put_same. intros H'. injection H' as <-. exact Hnd.
      * rewrite put_other by exact E. exact (x_nodup s X t nt').
  - intros H. destruct (send_cases s b from n msg s' b' H) as (w & Hw & Ho & Hf & -> & _).
    split; cbn; try apply X.
    + intros m w'. destruct (Z.eq_dec m n) as [->|E].
      * rewrite put_same. intros H'. injection H' as <-. cbn. exact (x_net s X n w Hw).
      * rewrite put_other by exact E. exact (x_net s X m w').
    + intros t nt' m H' Hm. destruct (x_open s X t nt' m H' Hm) as (w' & Hw' & Et & Eo). destruct (Z.eq_dec m n) as [->|E].
      * rewrite put_same. eexists. split; [reflexivity|]. cbn. rewrite Hw in Hw'. injection Hw' as <-. now split.
      * rewrite put_other by exact E. now exists w'.
    + intros m w' nt'. destruct (Z.eq_dec m n) as [->|E].
      * rewrite put_same. intros H'. injection H' as <-. cbn. intros Ho' Ht. exact (x_in s X n w nt' Hw Ho' Ht).
      * rewrite put_other by exact E. exact (x_in s X m w' nt').
  - intros H. destruct (set_key_cases s b from name pub s' b' H) as [(-> & _)|(k & l & _ & _ & _ & -> & _)]; [exact X|].
    split; cbn; apply X.
  - intros H. injection H as <- <-. split; cbn; apply X.
Qed.

(** The types and networks of the block against those at its start. *)
Record inv (s0 s : st) (b : blk) : Prop := {
  v_val : b_validators b = s_validators s0;
  v_flag : forall t, flagged b t = true -> In t (b_types b);
  v_inactive : forall t nt, s_type s t = Some nt -> b_inactive b t = true -> t_open nt = [];
  v_pc : forall t nt nt0, s_type s t = Some nt -> s_type s0 t = Some nt0 -> t_pc nt = t_pc nt0 /\ t_uid nt = t_uid nt0;
  v_old : forall t nt0, s_type s0 t = Some nt0 -> exists nt, s_type s t = Some nt;
  v_none : forall t nt, s_type s t = Some nt -> b_inactive b t = false -> t_open nt = [] -> t_pc nt = None;
  v_nets : forall t nt n, s_type s t = Some nt -> (b_pc b t = true \/ s_type s0 t = None) -> In n (t_open nt) -> In n (b_nets b);
  v_last : forall n w, s_net s n = Some w -> s_type s0 (n_type w) = None -> n_last w = None;
  v_has : forall n, In n (b_nets b) \/ In n (map fst (b_msgs b)) -> exists w, s_net s n = Some w;
  v_live : forall n w nt, s_net s n = Some w -> In n (b_nets b) \/ In n (map fst (b_msgs b)) -> s_type s (n_type w) = Some nt ->
    t_open nt <> [] \/ b_inactive b (n_type w) = true;
  v_sends : forall n, In n (map fst (b_msgs b)) -> In n (b_nets b) }.

Definition begins_well (s : st) : Prop := forall t nt, s_type s t = Some nt -> t_open nt = [] -> t_pc nt = None.
Lemma inv_begin s : struct s -> begins_well s -> inv s s (begin s).
Proof.
  intros X G. split; cbn.
  - reflexivity.
  - discriminate.
  - discriminate.
  - intros t nt nt0 A B. rewrite A in B. injection B as <-. now split.
  - intros t nt0 A. now exists nt0.
  - intros t nt A _. exact (G t nt A).
  - intros t nt n A [B|B]; [discriminate B|]. rewrite A in B. discriminate B.
  - intros n w A B. destruct (x_net s X n w A) as (_ & nt & C). rewrite C in B. discriminate B.
  - intros n [[]|[]].
  - intros n w nt _ [[]|[]].
  - intros n [].
Qed.

Lemma put_case {A} f k (v : A) x : x = k /\ put f k v x = v \/ x <> k /\ put f k v x = f x.
Proof. destruct (Z.eq_dec x k) as [->|E]; [left|right]; (split; [auto|]); [apply put_same|now apply put_other]. Qed.

(** Opening a network in a type [t] that is there, or a new one. *)
Lemma inv_opened s0 s b t nt n owner act uids tid b1 : struct s -> inv s0 s b ->
  n = s_nid s + 1 -> t <> 0 ->
  (s_type s t = Some nt \/ s_type s t = None /\ t_open nt = []) ->
  b1 = (if match s_type s t, t_open nt with Some _, [] => true | _, _ => false end then flag_pc b t else b) ->
  inv s0 (opened s t nt n owner act uids tid) (flag_inactive (flag_net b1 n) t false).
Proof.
  intros X V -> Ht Hs Hb1. set (n := s_nid s + 1).
  assert (Hnone : s_net s n = None).
  { destruct (s_net s n) as [w|] eqn:E; [|reflexivity]. destruct (x_net s X n w E). subst n. lia. }
  assert (Hb : b_validators b1 = b_validators b /\ b_keys b1 = b_keys b /\ b_inactive b1 = b_inactive b /\ b_nets b1 = b_nets b /\ b_msgs b1 = b_msgs b
     /\ (forall x, In x (b_types b) -> In x (b_types b1)) /\ (forall x, x <> t -> b_pc b1 x = b_pc b x)
     /\ (b_pc b t = true -> b_pc b1 t = true)
     /\ (s_type s t = Some nt -> t_open nt = [] -> b_pc b1 t = true)
     /\ (b_pc b1 t = true -> b_pc b t = true \/ t_open nt = [])).
  { subst b1. destruct (s_type s t) as [nt'|] eqn:E1; [destruct (t_open nt) eqn:E2|]; cbn; repeat split; auto.
    - intros x Hx. apply in_add. now left.
    - intros x Hx. now apply put_other.
    - intros _. apply put_same.
    - intros _ _. apply put_same.
    - intros _ H. discriminate H.
    - intros H. discriminate H. }
  destruct Hb as (B1 & B2 & B3 & B4 & B5 & B6 & B7 & B8 & B9 & B10). clear Hb1.
  assert (Hold : s_type s t = None -> s_type s0 t = None).
  { intros E. destruct (s_type s0 t) as [nt0|] eqn:E0; [|reflexivity]. destruct (v_old s0 s b V t nt0 E0) as (x & Hx). rewrite E in Hx. discriminate Hx. }
  split; cbn.
  - rewrite B1. exact (v_val s0 s b V).
  - intros x. unfold flagged. cbn. rewrite B3. intros H. apply in_add. destruct (Z.eq_dec x t) as [->|E]; [now right|left].
    apply B6. apply (v_flag s0 s b V). unfold flagged. rewrite B7, put_other in H by exact E. exact H.
  - intros x nt'. destruct (put_case (s_type s) t (Some (mk_ntype (t_uid nt) (t_pc nt) (t_open nt ++ [n]))) x) as [(-> & ->)|(E & ->)].
    + intros _. rewrite put_same. discriminate.
    + rewrite put_other by exact E. rewrite B3. exact (v_inactive s0 s b V x nt').
  - intros x nt' nt0. destruct (put_case (s_type s) t (Some (mk_ntype (t_uid nt) (t_pc nt) (t_open nt ++ [n]))) x) as [(-> & ->)|(E & ->)].
    + intros H. injection H as <-. cbn. intros H0. destruct Hs as [Hs|(Hs & _)]; [exact (v_pc s0 s b V t nt nt0 Hs H0)|].
      rewrite (Hold Hs) in H0. discriminate H0.
    + exact (v_pc s0 s b V x nt' nt0).
  - intros x nt0 H0. destruct (v_old s0 s b V x nt0 H0) as (nt' & H').
    destruct (put_case (s_type s) t (Some (mk_ntype (t_uid nt) (t_pc nt) (t_open nt ++ [n]))) x) as [(-> & ->)|(E & ->)]; [now eexists|now exists nt'].
  - intros x nt'. destruct (put_case (s_type s) t (Some (mk_ntype (t_uid nt) (t_pc nt) (t_open nt ++ [n]))) x) as [(-> & ->)|(E & ->)].
    + intros H. injection H as <-. cbn. intros _ H. destruct (t_open nt); discriminate H.
    + intros H Hf. apply (v_none s0 s b V x nt' H). rewrite put_other, B3 in Hf by exact E. exact Hf.
  - intros x nt' m. destruct (put_case (s_type s) t (Some (mk_ntype (t_uid nt) (t_pc nt) (t_open nt ++ [n]))) x) as [(-> & ->)|(E & ->)].
    + intros H. injection H as <-. cbn. intros Hc Hm. apply in_add. apply in_app_iff in Hm. destruct Hm as [Hm|[<-|[]]]; [left|now right].
      rewrite B4. destruct Hs as [Hs|(_ & Hs)]; [|rewrite Hs in Hm; destruct Hm].
      apply (v_nets s0 s b V t nt m Hs); [|exact Hm]. destruct Hc as [Hc|Hc]; [|now right].
      destruct (B10 Hc) as [H|H]; [now left|]. rewrite H in Hm. destruct Hm.
    + rewrite B4, B7 by exact E. intros H Hc Hm. apply in_add. left. exact (v_nets s0 s b V x nt' m H Hc Hm).
  - intros m w. destruct (put_case (s_net s) n (Some (mk_net t owner true 0 true None None)) m) as [(-> & ->)|(E & ->)].
    + intros H. injection H as <-. reflexivity.
    + exact (v_last s0 s b V m w).
  - intros m Hm. rewrite B4, B5, in_add in Hm.
    destruct (put_case (s_net s) n (Some (mk_net t owner true 0 true None None)) m) as [(-> & ->)|(E & ->)]; [now eexists|].
    apply (v_has s0 s b V). destruct Hm as [[Hm|Hm]|Hm]; [now left|contradiction|now right].
  - intros m w nt'. rewrite B4, B5, B3, in_add.
    destruct (put_case (s_net s) n (Some (mk_net t owner true 0 true None None)) m) as [(-> & ->)|(E & ->)].
    + intros H _. injection H as <-. cbn. rewrite put_same. intros H. injection H as <-. cbn. left. intros H. destruct (t_open nt); discriminate H.
    + intros H Hm. destruct (put_case (s_type s) t (Some (mk_ntype (t_uid nt) (t_pc nt) (t_open nt ++ [n]))) (n_type w)) as [(Et & ->)|(Et & ->)].
      * intros H'. injection H' as <-. cbn. left. intros H'. destruct (t_open nt); discriminate H'.
      * rewrite put_other by exact Et. intros H'. apply (v_live s0 s b V m w nt' H); [|exact H'].
        destruct Hm as [[Hm|Hm]|Hm]; [now left|contradiction|now right].
  - intros m Hm. rewrite B5 in Hm. rewrite B4, in_add. left. exact (v_sends s0 s b V m Hm).
Qed.

Lemma inv_op s0 s b o s' b' : struct s -> inv s0 s b -> do_op s b o = Some (s', b') -> inv s0 s' b'.
Proof.
  intros X V. destruct o as [uid owner|n|from n msg|from name pub|l]; cbn.
  - intros H. destruct (open_cases s b uid owner s' b' X H) as [(nt & Hm & Hne & Ht & Hu & -> & ->)|(pc & Hm & H0 & Hc & -> & ->)].
    + eapply inv_opened; eauto. rewrite Ht. destruct (t_open nt); reflexivity.
    + assert (Hnone : s_type s (s_ntid s + 1) = None).
      { destruct (s_type s (s_ntid s + 1)) as [nt|] eqn:E; [|reflexivity]. destruct (x_type s X _ nt E) as (_ & _ & _ & D). lia. }
      pose proof (x_ntid s X). eapply inv_opened; eauto; try lia. rewrite Hnone. reflexivity.
  - intros H. destruct (close_cases s b n s' b' H) as (w & nt & l & Hw & Ht & Hl & -> & ->).
    pose proof (remove_first_sub _ n l Hl) as Hsub.
    assert (Hb : let b1 := match l with [] => flag_inactive b (n_type w) true | _ => b end in
      b_validators b1 = b_validators b /\ b_keys b1 = b_keys b /\ b_pc b1 = b_pc b /\ b_nets b1 = b_nets b /\ b_msgs b1 = b_msgs b
      /\ (forall x, In x (b_types b) -> In x (b_types b1)) /\ (forall x, x <> n_type w -> b_inactive b1 x = b_inactive b x)
      /\ (l = [] -> b_inactive b1 (n_type w) = true /\ In (n_type w) (b_types b1))
      /\ (l <> [] -> b_inactive b1 (n_type w) = b_inactive b (n_type w))).
    { destruct l; cbn; repeat split; auto; try contradiction; try discriminate.
      - intros x Hx. apply in_add. now left.
      - intros x Hx. now apply put_other.
      - apply put_same.
      - apply in_add. now right. }
    remember (match l with [] => flag_inactive b (n_type w) true | _ => b end) as b1 eqn:Eb1. cbv zeta in Hb.
    destruct Hb as (B1 & B2 & B3 & B4 & B5 & B6 & B7 & B8 & B9). clear Eb1.
    set (nt1 := mk_ntype (t_uid nt) (t_pc nt) l).
    set (w1 := mk_net (n_type w) (n_owner w) false (n_sn w) (n_changed w) (n_prev w) (n_last w)).
    split; cbn.
    + rewrite B1. apply V.
    + intros x. unfold flagged. rewrite B3. intros H'. destruct (Z.eq_dec x (n_type w)) as [->|E].
      * destruct l as [|z l'] eqn:El; [now apply B8|]. apply B6, (v_flag s0 s b V). unfold flagged. rewrite B9 in H' by discriminate. exact H'.
      * rewrite B7 in H' by exact E. apply B6, (v_flag s0 s b V). exact H'.
    + intros x nt'. destruct (put_case (s_type s) (n_type w) (Some nt1) x) as [(-> & ->)|(E & ->)].
      * intros H'. injection H' as <-. cbn. destruct l as [|z l'] eqn:El; [reflexivity|]. rewrite B9 by discriminate.
        intros Hi. pose proof (v_inactive s0 s b V _ nt Ht Hi) as Ho. rewrite Ho in Hl. discriminate Hl.
      * rewrite B7 by exact E. exact (v_inactive s0 s b V x nt').
    + intros x nt' nt0. destruct (put_case (s_type s) (n_type w) (Some nt1) x) as [(-> & ->)|(E & ->)].
      * intros H'. injection H' as <-. exact (v_pc s0 s b V _ nt nt0 Ht).
      * exact (v_pc s0 s b V x nt' nt0).
    + intros x nt0 Hx. destruct (put_case (s_type s) (n_type w) (Some nt1) x) as [(-> & ->)|(E & ->)]; [now eexists|exact (v_old s0 s b V x nt0 Hx)].
    + intros x nt'. destruct (put_case (s_type s) (n_type w) (Some nt1) x) as [(-> & ->)|(E & ->)].
      * intros H'. injection H' as <-. cbn. intros Hf El. destruct (B8 El) as (Hi & _). rewrite Hi in Hf. discriminate Hf.
      * rewrite B7 by exact E. exact (v_none s0 s b V x nt').
    + intros x nt' m. rewrite B3, B4. destruct (put_case (s_type s) (n_type w) (Some nt1) x) as [(-> & ->)|(E & ->)].
      * intros H'. injection H' as <-. cbn. intros Hc Hm. exact (v_nets s0 s b V _ nt m Ht Hc (Hsub m Hm)).
      * exact (v_nets s0 s b V x nt' m).
    + intros m w'. destruct (put_case (s_net s) n (Some w1) m) as [(-> & ->)|(E & ->)].
      * intros H'. injection H' as <-. exact (v_last s0 s b V n w Hw).
      * exact (v_last s0 s b V m w').
    + intros m. rewrite B4, B5. intros Hm. destruct (put_case (s_net s) n (Some w1) m) as [(-> & ->)|(E & ->)]; [now eexists|exact (v_has s0 s b V m Hm)].
    + intros m w' nt'. rewrite B4, B5.
      assert (Hgen : forall w2, s_net s m = Some w2 -> In m (b_nets b) \/ In m (map fst (b_msgs b)) -> put (s_type s) (n_type w) (Some nt1) (n_type w2) = Some nt' ->
         t_open nt' <> [] \/ b_inactive b1 (n_type w2) = true).
      { intros w2 H2 Hm. destruct (put_case (s_type s) (n_type w) (Some nt1) (n_type w2)) as [(E & ->)|(E & ->)].
        - intros H'. injection H' as <-. cbn. destruct l as [|z l'] eqn:El; [right; rewrite E; now apply B8|left; discriminate].
        - intros H'. rewrite B7 by exact E. exact (v_live s0 s b V m w2 nt' H2 Hm H'). }
      destruct (put_case (s_net s) n (Some w1) m) as [(-> & ->)|(E & ->)].
      * intros H'. injection H' as <-. exact (Hgen w Hw).
      * intros H'. exact (Hgen w' H').
    + intros m. rewrite B4, B5. exact (v_sends s0 s b V m).
  - intros H. destruct (send_cases s b from n msg s' b' H) as (w & Hw & Ho & Hf & -> & ->).
    set (w1 := mk_net (n_type w) (n_owner w) (n_open w) (n_sn w + 1) (n_changed w) (n_prev w) (n_last w)).
    split; cbn; try apply V.
    + intros t nt m A B C. apply in_add. left. exact (v_nets s0 s b V t nt m A B C).
    + intros m w'. destruct (put_case (s_net s) n (Some w1) m) as [(-> & ->)|(E & ->)].
      * intros H'. injection H' as <-. exact (v_last s0 s b V n w Hw).
      * exact (v_last s0 s b V m w').
    + intros m. rewrite in_add, map_app, in_app_iff. cbn. intros Hm.
      destruct (put_case (s_net s) n (Some w1) m) as [(-> & ->)|(E & ->)]; [now eexists|].
      apply (v_has s0 s b V m). destruct Hm as [[Hm|Hm]|[Hm|[Hm|[]]]]; [now left|contradiction|now right|exfalso; now apply E].
    + intros m w' nt'. rewrite in_add, map_app, in_app_iff. cbn.
      destruct (put_case (s_net s) n (Some w1) m) as [(-> & ->)|(E & ->)].
      * intros H'. injection H' as <-. cbn. intros _ Ht. left. intros El. pose proof (x_in s X n w nt' Hw Ho Ht) as Hi. rewrite El in Hi. destruct Hi.
      * intros H' Hm. apply (v_live s0 s b V m w' nt' H'). destruct Hm as [[Hm|Hm]|[Hm|[Hm|[]]]]; [now left|contradiction|now right|exfalso; now apply E].
    + intros m. rewrite map_app, in_app_iff, in_add. cbn. intros [Hm|[->|[]]]; [left; exact (v_sends s0 s b V m Hm)|now right].
  - intros H. destruct (set_key_cases s b from name pub s' b' H) as [(-> & ->)|(k & l & _ & _ & _ & -> & ->)]; [exact V|].
    split; cbn; apply V.
  - intros H. injection H as <- <-. split; cbn; apply V.
Qed.
End With.

Section End.
Variable modules : list bytes.
Variable dsa_of : bytes -> Z.
Variable dsa_known : Z -> bool.
Variable canonical : Z -> bytes -> option bytes.
Variable key_for : bytes -> bytes -> option bytes.
Variable context_of : bytes -> list (option bytes) -> option bytes.
Variable key_hash : bytes -> bytes.
Notation do_op := (do_op modules dsa_of dsa_known canonical key_for context_of key_hash).
Notation step := (step modules dsa_of dsa_known canonical key_for context_of key_hash).
Notation key_of := (key_of dsa_of key_for).
Notation keys_of := (keys_of dsa_of key_for).

(** The context of a type that nothing marked: that of the keys the validators
    had, which are those they have unless a change of the key is noted. *)
Definition context_kept (s : st) (b : blk) : Prop := forall t nt, s_type s t = Some nt -> flagged b t = false -> t_open nt <> [] ->
  exists f pc, context_of (t_uid nt) (map f (b_validators b)) = Some pc /\ t_pc nt = Some pc
    /\ forall a, In (a, t) (b_keys b) \/ f a = key_of s (t_uid nt) a.

Lemma note_change_spec s from name mods l l' :
  note_change dsa_of s from name mods l = Some l' ->
  (forall x, In x l -> In x l')
  /\ forall uid nt, In uid mods -> dsa_of uid = name -> s_by_uid s uid <> 0 -> s_type s (s_by_uid s uid) = Some nt -> t_open nt <> [] ->
       In (from, s_by_uid s uid) l'.
Proof.
  revert l. induction mods as [|u r IH]; intros l H; cbn in H.
  - injection H as <-. split; [auto|]. intros uid nt [].
  - destruct (Z.eqb_spec (dsa_of u) name) as [E|E].
    + destruct (Z.eqb_spec (s_by_uid s u) 0) as [E0|E0].
      * destruct (IH l H) as (A & B). split; [exact A|]. intros uid nt [->|Hi]; [contradiction|exact (B uid nt Hi)].
      * destruct (s_type s (s_by_uid s u)) as [ntu|] eqn:Et; [|discriminate H].
        destruct (IH _ H) as (A & B). split.
        -- intros x Hx. apply A. destruct (t_open ntu); [exact Hx|apply in_or_app; now left].
        -- intros uid nt [->|Hi]; [|exact (B uid nt Hi)]. intros _ _ Ht Hn. rewrite Et in Ht. injection Ht as ->.
           apply A. destruct (t_open nt); [contradiction|]. apply in_or_app. right. now left.
    + destruct (IH l H) as (A & B). split; [exact A|]. intros uid nt [->|Hi]; [contradiction|exact (B uid nt Hi)].
Qed.

Lemma key_of_same s s' uid a : s_key s' = s_key s -> key_of s' uid a = key_of s uid a.
Proof. intros E. unfold BtpState.key_of. now rewrite E. Qed.

(** [C] is what an operation needs, for the validators to be those of the start. *)
Lemma kept_op s0 s b o s' b' : struct modules s -> inv s0 s b -> s_validators s = b_validators b ->
  context_kept s b -> do_op s b o = Some (s', b') -> context_kept s' b'.
Proof.
  intros X V Hv C. destruct o as [uid owner|n|from n msg|from name pub|l]; cbn.
  - intros H. destruct (open_cases modules dsa_of key_for context_of s b uid owner s' b' X H) as [(nt & Hm & Hne & Ht & Hu & -> & ->)|(pc & Hm & H0 & Hc & -> & ->)].
    + set (t := s_by_uid s uid) in *. set (n := s_nid s + 1).
      intros x nt'. cbn. destruct (put_case (s_type s) t (Some (mk_ntype (t_uid nt) (t_pc nt) (t_open nt ++ [n]))) x) as [(-> & ->)|(E & ->)].
      * intros H'. injection H' as <-. cbn. intros Hf _. destruct (t_open nt) as [|z r] eqn:Eo.
        { unfold flagged in Hf. cbn in Hf. rewrite put_same in Hf. discriminate Hf. }
        assert (Hf' : flagged b t = false).
        { unfold flagged in *. cbn in Hf. rewrite put_same, Bool.orb_false_r in Hf. rewrite Hf. cbn.
          destruct (b_inactive b t) eqn:Ei; [|reflexivity]. pose proof (v_inactive s0 s b V t nt Ht Ei) as Hx. rewrite Eo in Hx. discriminate Hx. }
        destruct (C t nt Ht Hf') as (f & pc & A & B & D); [rewrite Eo; discriminate|]. now exists f, pc.
      * intros H' Hf Hn. destruct (t_open nt) as [|z r] eqn:Eo;
          (apply (C x nt' H'); [|exact Hn]); unfold flagged in *; cbn in Hf; rewrite ?put_other in Hf by exact E; exact Hf.
    + set (t := s_ntid s + 1) in *. set (n := s_nid s + 1).
      intros x nt'. cbn. destruct (put_case (s_type s) t (Some (mk_ntype uid (Some pc) [n])) x) as [(-> & ->)|(E & ->)].
      * intros H'. injection H' as <-. cbn. intros _ _. exists (key_of s uid), pc. rewrite <- Hv. split; [exact Hc|]. split; [reflexivity|]. intros a. now right.
      * intros H' Hf Hn. apply (C x nt' H'); [|exact Hn]. unfold flagged in *. cbn in Hf. rewrite put_other in Hf by exact E. exact Hf.
  - intros H. destruct (close_cases s b n s' b' H) as (w & nt & l & Hw & Ht & Hl & -> & ->).
    intros x nt'. cbn. destruct (put_case (s_type s) (n_type w) (Some (mk_ntype (t_uid nt) (t_pc nt) l)) x) as [(-> & ->)|(E & ->)].
    + intros H'. injection H' as <-. cbn. intros Hf Hn. destruct l as [|z r]; [contradiction|].
      apply (C (n_type w) nt Ht Hf). intros Eo. rewrite Eo in Hl. discriminate Hl.
    + intros H' Hf Hn. destruct l as [|z r]; cbn in *.
      * apply (C x nt' H'); [|exact Hn]. unfold flagged in *. cbn in Hf. rewrite put_other in Hf by exact E. exact Hf.
      * exact (C x nt' H' Hf Hn).
  - intros H. destruct (send_cases s b from n msg s' b' H) as (w & Hw & Ho & Hf & -> & ->). exact C.
  - intros H. destruct (set_key_cases modules dsa_of dsa_known canonical key_hash s b from name pub s' b' H) as [(-> & ->)|(k & l & _ & _ & Hl & -> & ->)]; [exact C|].
    destruct (note_change_spec _ _ _ _ _ _ Hl) as (A & B).
    intros t nt Ht Hf Hn. destruct (C t nt Ht Hf Hn) as (f & pc & D & E & F). exists f, pc. split; [exact D|]. split; [exact E|].
    intros a. cbn. destruct (F a) as [F'|F']; [left; now apply A|].
    destruct (x_type modules s X t nt Ht) as (_ & Hu & Hm & Hr).
    destruct (Z.eq_dec a from) as [->|Ea].
    + destruct (Z.eq_dec (dsa_of (t_uid nt)) name) as [En|En].
      * left. cbn in Ht. rewrite <- Hu in Ht.
        assert (Hne : s_by_uid s (t_uid nt) <> 0) by lia.
        pose proof (B (t_uid nt) nt Hm En Hne Ht Hn) as Hb. cbn in Hb. rewrite Hu in Hb. exact Hb.
      * right. rewrite F'. unfold BtpState.key_of. cbn. rewrite put_same, put_other by exact En. reflexivity.
    + right. rewrite F'. unfold BtpState.key_of. cbn. now rewrite put_other by exact Ea.
  - intros H. injection H as <- <-. exact C.
Qed.

Lemma validators_op s b o s' b' : struct modules s -> do_op s b o = Some (s', b') ->
  s_validators s' = match o with Validators l => l | _ => s_validators s end.
Proof.
  intros X. destruct o as [uid owner|n|from n msg|from name pub|l]; cbn.
  - intros H. destruct (open_cases modules dsa_of key_for context_of s b uid owner s' b' X H) as [(nt & _ & _ & _ & _ & -> & _)|(pc & _ & _ & _ & -> & _)]; reflexivity.
  - intros H. destruct (close_cases s b n s' b' H) as (w & nt & l & _ & _ & _ & -> & _). reflexivity.
  - intros H. destruct (send_cases s b from n msg s' b' H) as (w & _ & _ & _ & -> & _). reflexivity.
  - intros H. destruct (set_key_cases modules dsa_of dsa_known canonical key_hash s b from name pub s' b' H) as [(-> & _)|(k & l & _ & _ & _ & -> & _)]; reflexivity.
  - intros H. injection H as <- _. reflexivity.
Qed.

(** Over the operations of a block. *)
Lemma ops_inv s0 ops : forall s b, struct modules s -> inv s0 s b ->
  let w := fold_left step ops (s, b) in struct modules (fst w) /\ inv s0 (fst w) (snd w).
Proof.
  induction ops as [|o r IH]; intros s b X V; cbn; [now split|].
  unfold BtpState.step at 2 4 6. cbn. destruct (do_op s b o) as [(s', b')|] eqn:E.
  - apply IH; [exact (struct_op _ _ _ _ _ _ _ s b o s' b' X E)|exact (inv_op _ _ _ _ _ _ _ s0 s b o s' b' X V E)].
  - apply IH; assumption.
Qed.
Lemma ops_kept s0 ops : forall s b, struct modules s -> inv s0 s b -> context_kept s b -> s_validators s = s_validators s0 ->
  (forall l, In (Validators l) ops -> l = s_validators s0) ->
  let w := fold_left step ops (s, b) in context_kept (fst w) (snd w).
Proof.
  induction ops as [|o r IH]; intros s b X V C Hv Hl; cbn; [exact C|].
  unfold BtpState.step at 2 4. cbn. assert (Hr : forall l, In (Validators l) r -> l = s_validators s0) by (intros l Hi; apply Hl; now right).
  destruct (do_op s b o) as [(s', b')|] eqn:E.
  - apply IH; try assumption; [exact (struct_op _ _ _ _ _ _ _ s b o s' b' X E)|exact (inv_op _ _ _ _ _ _ _ s0 s b o s' b' X V E)| |].
    + apply (kept_op s0 s b o s' b' X V); try assumption. rewrite Hv. symmetry. exact (v_val s0 s b V).
    + rewrite (validators_op s b o s' b' X E). destruct o; try assumption. apply Hl. now left.
  - apply IH; assumption.
Qed.
End End.

Section Finish.
Variable modules : list bytes.
Variable dsa_of : bytes -> Z.
Variable key_for : bytes -> bytes -> option bytes.
Variable context_of : bytes -> list (option bytes) -> option bytes.
Notation key_of := (key_of dsa_of key_for).
Notation keys_of := (keys_of dsa_of key_for).
Notation new_context := (new_context dsa_of key_for context_of).
Notation update := (update dsa_of key_for context_of).
Notation update_ok := (update_ok dsa_of key_for context_of).

Lemma flag_nets_spec l : forall b, let b' := fold_left flag_net l b in
  b_validators b' = b_validators b /\ b_keys b' = b_keys b /\ b_types b' = b_types b /\ b_pc b' = b_pc b /\ b_inactive b' = b_inactive b
  /\ b_msgs b' = b_msgs b /\ forall n, In n (b_nets b') <-> In n (b_nets b) \/ In n l.
Proof.
  induction l as [|x r IH]; intros b; cbn.
  - repeat split; auto. intros [H|[]]; exact H.
  - destruct (IH (flag_net b x)) as (A & B & C & D & E & F & G). repeat split; try assumption.
    + intros H. apply G in H. cbn in H. rewrite in_add in H. destruct H as [[H| ->]|H]; tauto.
    + intros H. apply G. cbn. rewrite in_add. destruct H as [H|[->|H]]; tauto.
Qed.
Lemma flag_all_spec s l : forall b b', flag_all s b l = Some b' ->
  b_validators b' = b_validators b /\ b_keys b' = b_keys b /\ b_inactive b' = b_inactive b /\ b_msgs b' = b_msgs b
  /\ (forall t, In t (b_types b') <-> In t (b_types b) \/ In t l)
  /\ (forall t, b_pc b' t = true <-> b_pc b t = true \/ In t l)
  /\ (forall n, In n (b_nets b') <-> In n (b_nets b) \/ exists t nt, In t l /\ s_type s t = Some nt /\ In n (t_open nt)).
Proof.
  induction l as [|x r IH]; intros b b' H; cbn in H.
  - injection H as <-. repeat split; auto; try (intros [H|[]]; exact H). intros [H|(t & nt & [] & _)]. exact H.
  - destruct (s_type s x) as [nt|] eqn:Ex; [|discriminate H].
    destruct (IH _ b' H) as (A & B & C & D & E & F & G). clear H IH.
    destruct (flag_nets_spec (t_open nt) (flag_pc b x)) as (A' & B' & C' & D' & E' & F' & G').
    rewrite A, B, C, D, A', B', E', F'. cbn. split; [reflexivity|]. split; [reflexivity|]. split; [reflexivity|]. split; [reflexivity|]. split; [|split].
    + intros t. rewrite E, C'. cbn. rewrite in_add. split; [intros [[H| ->]|H]; tauto|intros [H|[->|H]]; tauto].
    + intros t. rewrite F, D'. cbn. destruct (put_case (b_pc b) x true t) as [(-> & ->)|(Ht & ->)].
      * split; [intros _; right; now left|intros _; now left].
      * split; [intros [H|H]; tauto|intros [H|[H|H]]; [tauto|now subst x|tauto]].
    + intros n. rewrite G, G'. cbn. split.
      * intros [[H|H]|(t & nt' & Hi & Ht & Hn)]; [now left|right; exists x, nt; tauto|right; exists t, nt'; tauto].
      * intros [H|(t & nt' & [->|Hi] & Ht & Hn)]; [tauto| |right; exists t, nt'; tauto].
        rewrite Ex in Ht. injection Ht as <-. tauto.
Qed.
Lemma inv_flag_all s0 s b l b' : struct modules s -> inv s0 s b -> flag_all s b l = Some b' -> inv s0 s b'.
Proof.
  intros X V H. destruct (flag_all_spec s l b b' H) as (A & B & C & D & E & F & G).
  split; rewrite ?A, ?C, ?D; try apply V.
  - intros t. unfold flagged. rewrite C. intros Hf. apply E. destruct (b_inactive b t) eqn:Ei.
    + left. apply (v_flag s0 s b V). unfold flagged. rewrite Ei. apply Bool.orb_true_r.
    + rewrite Bool.orb_false_r in Hf. apply F in Hf. destruct Hf as [Hf|Hf]; [left; apply (v_flag s0 s b V); unfold flagged; now rewrite Hf|now right].
  - intros t nt n Ht Hc Hn. apply G. destruct Hc as [Hc|Hc].
    + apply F in Hc. destruct Hc as [Hc|Hc]; [left; exact (v_nets s0 s b V t nt n Ht (or_introl Hc) Hn)|right; now exists t, nt].
    + left. exact (v_nets s0 s b V t nt n Ht (or_intror Hc) Hn).
  - intros n Hn. rewrite G in Hn. destruct Hn as [[Hn|(t & nt & _ & Ht & Hn)]|Hn].
    + apply (v_has s0 s b V n). now left.
    + destruct (x_open modules s X t nt n Ht Hn) as (w & Hw & _). now exists w.
    + apply (v_has s0 s b V n). now right.
  - intros n w nt Hw Hn Ht. rewrite G in Hn. destruct Hn as [[Hn|(t & nt' & _ & Ht' & Hn)]|Hn].
    + apply (v_live s0 s b V n w nt Hw (or_introl Hn) Ht).
    + left. destruct (x_open modules s X t nt' n Ht' Hn) as (w' & Hw' & Et & _). rewrite Hw in Hw'. injection Hw' as <-.
      rewrite Et, Ht' in Ht. injection Ht as ->. intros Eo. rewrite Eo in Hn. destruct Hn.
    + apply (v_live s0 s b V n w nt Hw (or_intror Hn) Ht).
  - intros n Hn. apply G. left. exact (v_sends s0 s b V n Hn).
Qed.

Lemma same_list_eq : forall a b, same_list a b = true <-> a = b.
Proof.
  induction a as [|x a IH]; intros [|y b]; cbn; split; intros H; try discriminate H; try reflexivity.
  - apply andb_prop in H. destruct H as (E & H). apply Z.eqb_eq in E. apply IH in H. now subst.
  - injection H as -> ->. now rewrite Z.eqb_refl, (proj2 (IH b) eq_refl).
Qed.

(** What is not marked at the end of the block has the right context. *)
Lemma kept_end s0 s b b' : struct modules s -> inv s0 s b -> (s_validators s = b_validators b -> context_kept dsa_of key_for context_of s b) ->
  flag_all s b (changed_types s b) = Some b' ->
  forall t nt, s_type s t = Some nt -> flagged b' t = false -> t_open nt <> [] ->
  exists pc, context_of (t_uid nt) (keys_of s (t_uid nt)) = Some pc /\ t_pc nt = Some pc.
Proof.
  intros X V C H t nt Ht Hf Hn. destruct (flag_all_spec s _ b b' H) as (_ & _ & I & _ & _ & F & _).
  unfold flagged in Hf. apply Bool.orb_false_iff in Hf. destruct Hf as (Hp & Hi). rewrite I in Hi.
  assert (Hnot : ~ In t (changed_types s b)) by (intros Hc; rewrite (proj2 (F t) (or_intror Hc)) in Hp; discriminate Hp).
  assert (Hf : flagged b t = false).
  { unfold flagged. rewrite Hi. destruct (b_pc b t) eqn:E; [|reflexivity]. rewrite (proj2 (F t) (or_introl E)) in Hp. discriminate Hp. }
  unfold changed_types in Hnot. destruct (same_list (b_validators b) (s_validators s)) eqn:Es.
  - apply same_list_eq in Es. symmetry in Es. destruct (C Es t nt Ht Hf Hn) as (f & pc & A & B & D). exists pc. split; [|exact B].
    rewrite <- A. f_equal. unfold BtpState.keys_of. rewrite Es. apply map_ext_in. intros a Ha. destruct (D a) as [D'|D']; [exfalso|symmetry; exact D'].
    apply Hnot. apply in_flat_map. exists a. split; [exact Ha|]. apply in_map_iff. exists (a, t). split; [reflexivity|].
    apply filter_In. split; [exact D'|]. cbn. apply Z.eqb_refl.
  - destruct (x_type modules s X t nt Ht) as (Ha & _). contradiction.
Qed.

Lemma update_type_spec s b t nt : s_type s t = Some nt -> update_ok s b = true -> (flagged b t = true -> In t (b_types b)) ->
  exists nt', update_type dsa_of key_for context_of s b t = Some nt' /\ t_uid nt' = t_uid nt /\ t_open nt' = t_open nt
    /\ (flagged b t = false -> t_pc nt' = t_pc nt)
    /\ (flagged b t = true -> t_open nt = [] -> t_pc nt' = None)
    /\ (flagged b t = true -> t_open nt <> [] -> exists pc, context_of (t_uid nt) (keys_of s (t_uid nt)) = Some pc /\ t_pc nt' = Some pc).
Proof.
  intros Ht Ho Hin. unfold update_type. rewrite Ht. destruct (flagged b t) eqn:Ef.
  - pose proof (Hin eq_refl) as Hi. unfold BtpState.update_ok in Ho. rewrite forallb_forall in Ho. pose proof (Ho t Hi) as Ho'. rewrite Ef, Ht in Ho'. cbn in Ho'.
    destruct (new_context s nt) as [pc|] eqn:En; [|discriminate Ho']. eexists. split; [reflexivity|]. cbn.
    unfold BtpState.new_context in En. repeat split; try discriminate.
    + intros _ E. rewrite E in En. now injection En as <-.
    + intros _ E. destruct (t_open nt); [contradiction|]. destruct (context_of (t_uid nt) (keys_of s (t_uid nt))) as [c|]; [|discriminate En].
      injection En as <-. now exists c.
  - exists nt. repeat split; try discriminate.
Qed.

(** The databases after the block are like those at its end. *)
Lemma struct_like s s' : struct modules s ->
  s_nid s' = s_nid s -> s_ntid s' = s_ntid s -> s_by_uid s' = s_by_uid s -> s_active s' = s_active s ->
  (forall t nt, s_type s t = Some nt -> exists nt', s_type s' t = Some nt' /\ t_uid nt' = t_uid nt /\ t_open nt' = t_open nt) ->
  (forall t, s_type s t = None -> s_type s' t = None) ->
  (forall n w, s_net s n = Some w -> exists w', s_net s' n = Some w' /\ n_type w' = n_type w /\ n_open w' = n_open w) ->
  (forall n, s_net s n = None -> s_net s' n = None) ->
  struct modules s'.
Proof.
  intros X E1 E2 E3 E4 T T0 N N0.
  assert (TB : forall t nt', s_type s' t = Some nt' -> exists nt, s_type s t = Some nt /\ t_uid nt' = t_uid nt /\ t_open nt' = t_open nt).
  { intros t nt' H. destruct (s_type s t) as [nt|] eqn:E; [|rewrite (T0 t E) in H; discriminate H].
    destruct (T t nt E) as (x & Hx & Hy). rewrite H in Hx. injection Hx as <-. now exists nt. }
  assert (NB : forall n w', s_net s' n = Some w' -> exists w, s_net s n = Some w /\ n_type w' = n_type w /\ n_open w' = n_open w).
  { intros n w' H. destruct (s_net s n) as [w|] eqn:E; [|rewrite (N0 n E) in H; discriminate H].
    destruct (N n w E) as (x & Hx & Hy). rewrite H in Hx. injection Hx as <-. now exists w. }
  split; rewrite ?E1, ?E2, ?E3, ?E4; try apply X.
  - intros uid Hne. destruct (x_uid modules s X uid Hne) as (nt & Ht & Hu). destruct (T _ nt Ht) as (nt' & A & B & _). exists nt'. split; [exact A|]. now rewrite B.
  - intros t nt' H. destruct (TB t nt' H) as (nt & A & B & _). rewrite B. exact (x_type modules s X t nt A).
  - intros n w' H. destruct (NB n w' H) as (w & A & B & _). destruct (x_net modules s X n w A) as (C & nt & D). split; [exact C|].
    rewrite B. destruct (T _ nt D) as (nt' & E & _). now exists nt'.
  - intros t nt' n H Hn. destruct (TB t nt' H) as (nt & A & _ & C). rewrite C in Hn. destruct (x_open modules s X t nt n A Hn) as (w & D & E & F).
    destruct (N n w D) as (w' & G & G' & G''). exists w'. rewrite G', G''. now repeat split.
  - intros n w' nt' H Ho Ht. destruct (NB n w' H) as (w & A & B & C). rewrite B in Ht. rewrite C in Ho. destruct (TB _ nt' Ht) as (nt & D & _ & F). rewrite F.
    exact (x_in modules s X n w nt A Ho D).
  - intros t nt' H. destruct (TB t nt' H) as (nt & A & _ & C). rewrite C. exact (x_nodup modules s X t nt A).
Qed.
End Finish.
