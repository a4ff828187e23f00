(** The pool of transactions of a node.

    Models [service/transactionlist.go] and [service/transactionpool.go], with
    the Bloom filters of [service/txshare.go].  An element of the list is an
    address, and each field of the elements is a map from addresses.  The 256
    buckets of the maps are one map (the first byte of a key and the rest of it
    are the key).  Clocks, monitors and logs are left out; a call is one atomic
    step, as it holds the mutex, and dropping what [Candidate] found is a step of
    its own. *)
From Coq Require Import ZArith List Bool Arith.
From Verif Require Import Model.Bytes.
Import ListNotations.
Open Scope Z_scope.

Record tx := mkTx { t_id : bytes; t_from : bytes; t_time : Z; t_size : Z }.

Definition addr := nat.
Definition upd {A} (m : addr -> A) (a : addr) (v : A) : addr -> A :=
  fun x => if Nat.eqb x a then v else m x.
Definition key_upd {A} (m : bytes -> A) (k : bytes) (v : A) : bytes -> A :=
  fun x => if bytes_eqb x k then v else m x.

(** ** Bloom filters: txshare.go:48-111 *)

Record bloom := mkBloom { b_bits : Z; b_set : Z }.

(** 16 bits of the ID, cut to the width of the filter. *)
Definition mark (bits : Z) (id : bytes) (i : nat) : Z :=
  (256 * nth (2 * i) id 0 + nth (2 * i + 1) id 0) mod 2 ^ bits.
Definition marks (bits : Z) (id : bytes) : list Z := map (mark bits id) [0; 1; 2]%nat.

(** txshare.go:53-71 [Contains], for IDs of 32 bytes. *)
Definition contains (b : bloom) (id : bytes) : bool :=
  if b_bits b =? 0 then false
  else forallb (fun i => Z.testbit (b_set b) i) (marks (b_bits b) id).

(** txshare.go:73-86 [Add]; txBloomBits is 12. *)
Definition bloom_add (b : bloom) (id : bytes) : bloom :=
  let bits := if b_bits b =? 0 then 12 else b_bits b in
  mkBloom bits (fold_left Z.setbit (marks bits id) (b_set b)).

(** txshare.go:88-99 [Merge]; [None]: a panic. *)
Definition merge (b b2 : bloom) : option bloom :=
  if b_bits b2 =? 0 then Some b
  else if b_bits b =? b_bits b2 then Some (mkBloom (b_bits b) (Z.lor (b_set b) (b_set b2)))
  else if b_bits b =? 0 then Some (mkBloom (b_bits b2) (Z.lor (b_set b) (b_set b2)))
  else None.

(** txshare.go:101-111 [ContainsAllOf]. *)
Definition contains_all (b b2 : bloom) : bool :=
  if b_bits b2 =? 0 then true
  else if b_bits b =? b_bits b2 then Z.land (b_set b) (b_set b2) =? b_set b2
  else false.

Definition no_bloom : bloom := mkBloom 0 0.

(** ** The list: transactionlist.go *)

Inductive reason := Expired | Processed | Refused (balance : bool).

(** transactionlist.go:17-36, 82-86. *)
Record pool_list := mkList {
  front : option addr;  back : option addr;  len : Z;
  by_id : bytes -> option addr;
  last_of : bytes -> option addr;           (* srcMapToLast *)
  fresh : addr;                             (* addresses from here on are new *)
  txs : addr -> tx;
  direct : addr -> bool;                    (* ts != 0 *)
  err : addr -> option reason;
  here : addr -> bool;                      (* list == l, else nil *)
  lnext : addr -> option addr;  lprev : addr -> option addr;
  snext : addr -> option addr;  sprev : addr -> option addr;
  blm : addr -> option addr;
  bfresh : addr;                            (* the filters *)
  bcount : addr -> Z;
  bbloom : addr -> bloom;
  bnext : addr -> option addr
}.

(** transactionlist.go:257-269 [newTransactionList]. *)
Definition empty_list : pool_list :=
  mkList None None 0 (fun _ => None) (fun _ => None) O (fun _ => mkTx [] [] 0 0) (fun _ => false)
    (fun _ => None) (fun _ => false) (fun _ => None) (fun _ => None) (fun _ => None) (fun _ => None)
    (fun _ => None) O (fun _ => 0) (fun _ => no_bloom) (fun _ => None).

Definition with_links (s : pool_list) f b ln lp sn sp last :=
  mkList f b (len s) (by_id s) last (fresh s) (txs s) (direct s) (err s) (here s) ln lp sn sp
    (blm s) (bfresh s) (bcount s) (bbloom s) (bnext s).
Definition with_blooms (s : pool_list) bl bf bc bb bn :=
  mkList (front s) (back s) (len s) (by_id s) (last_of s) (fresh s) (txs s) (direct s) (err s) (here s)
    (lnext s) (lprev s) (snext s) (sprev s) bl bf bc bb bn.
Definition with_err (s : pool_list) e :=
  mkList (front s) (back s) (len s) (by_id s) (last_of s) (fresh s) (txs s) (direct s) e (here s)
    (lnext s) (lprev s) (snext s) (sprev s) (blm s) (bfresh s) (bcount s) (bbloom s) (bnext s).

(** transactionlist.go:133-140: back to the first of those which are later.
    [fuel]: elements are finite. *)
Fixpoint earlier (fuel : nat) (s : pool_list) (ts : Z) (pos : addr) : addr :=
  match fuel with
  | O => pos
  | S k => match sprev s pos with
           | Some t2 => if ts <? t_time (txs s t2) then earlier k s ts t2 else pos
           | None => pos
           end
  end.

(** transactionlist.go:87-104: the filter with room, from [b] on. *)
Fixpoint bloom_room (fuel : nat) (s : pool_list) (b : addr) : addr * bool :=
  if bcount s b <? 50 then (b, true)
  else match fuel with
       | O => (b, false)
       | S k => match bnext s b with
                | Some n => bloom_room k s n
                | None => (b, false)
                end
       end.

(** transactionlist.go:61-72, 87-104: [updateBloom]; maxTxCountForBloomElement is
    50.  [None]: a panic. *)
Definition bloom_put (s : pool_list) (e b : addr) (id : bytes) : pool_list :=
  with_blooms s (upd (blm s) e (Some b)) (bfresh s) (upd (bcount s) b (bcount s b + 1))
    (upd (bbloom s) b (bloom_add (bbloom s b) id)) (bnext s).

Definition bloom_new (s : pool_list) : addr * pool_list :=
  (bfresh s,
   with_blooms s (blm s) (S (bfresh s)) (upd (bcount s) (bfresh s) 0) (upd (bbloom s) (bfresh s) no_bloom)
     (upd (bnext s) (bfresh s) None)).

Definition update_bloom (s : pool_list) (e : addr) : option pool_list :=
  let id := t_id (txs s e) in
  match lprev s e with
  | None => let '(b, s1) := bloom_new s in Some (bloom_put s1 e b id)
  | Some p =>
      match blm s p with
      | None => None
      | Some b =>
          match bloom_room (bfresh s) s b with
          | (b', true) => Some (bloom_put s e b' id)
          | (b', false) =>
              let '(n, s1) := bloom_new s in
              let s2 := with_blooms s1 (blm s1) (bfresh s1) (bcount s1) (bbloom s1) (upd (bnext s1) b' (Some n)) in
              Some (bloom_put s2 e n id)
          end
      end
  end.

(** transactionlist.go:111-179 [Add]. *)
Inductive added := Added (s : pool_list) | Duplicate | Panicked.

Definition new_elem (s : pool_list) (t : tx) (d : bool) : pool_list :=
  let e := fresh s in
  mkList (front s) (back s) (len s) (key_upd (by_id s) (t_id t) (Some e)) (last_of s) (S e)
    (upd (txs s) e t) (upd (direct s) e d) (upd (err s) e None) (upd (here s) e true)
    (upd (lnext s) e None) (upd (lprev s) e None) (upd (snext s) e None) (upd (sprev s) e None)
    (upd (blm s) e None) (bfresh s) (bcount s) (bbloom s) (bnext s).

(** transactionlist.go:126-153: among those of the same sender. *)
Definition link_src (s : pool_list) (e : addr) : pool_list * option addr :=
  let t := txs s e in
  match last_of s (t_from t) with
  | Some t2 =>
      if t_time t <? t_time (txs s t2) then
        let pos := earlier (fresh s) s (t_time t) t2 in
        let '(sn, sp) := match sprev s pos with
                         | Some p => (upd (snext s) p (Some e), upd (sprev s) e (Some p))
                         | None => (snext s, sprev s)
                         end in
        (with_links s (front s) (back s) (lnext s) (lprev s) (upd sn e (Some pos)) (upd sp pos (Some e)) (last_of s),
         Some pos)
      else
        (with_links s (front s) (back s) (lnext s) (lprev s) (upd (snext s) t2 (Some e)) (upd (sprev s) e (Some t2))
           (key_upd (last_of s) (t_from t) (Some e)), None)
  | None =>
      (with_links s (front s) (back s) (lnext s) (lprev s) (snext s) (sprev s)
         (key_upd (last_of s) (t_from t) (Some e)), None)
  end.

(** transactionlist.go:155-174: in the list. *)
Definition link_list (s : pool_list) (e : addr) (pos : option addr) : pool_list :=
  match pos with
  | Some pos =>
      let '(f, ln, lp) := match lprev s pos with
                          | Some p => (front s, upd (lnext s) p (Some e), upd (lprev s) e (Some p))
                          | None => (Some e, lnext s, lprev s)
                          end in
      with_links s f (back s) (upd ln e (Some pos)) (upd lp pos (Some e)) (snext s) (sprev s) (last_of s)
  | None =>
      let '(f, ln, lp) := match back s with
                          | Some b => (front s, upd (lnext s) b (Some e), upd (lprev s) e (Some b))
                          | None => (Some e, lnext s, lprev s)
                          end in
      with_links s f (Some e) ln lp (snext s) (sprev s) (last_of s)
  end.

Definition with_len (s : pool_list) n :=
  mkList (front s) (back s) n (by_id s) (last_of s) (fresh s) (txs s) (direct s) (err s) (here s)
    (lnext s) (lprev s) (snext s) (sprev s) (blm s) (bfresh s) (bcount s) (bbloom s) (bnext s).

Definition list_add (s : pool_list) (t : tx) (d : bool) : added :=
  match by_id s (t_id t) with
  | Some _ => Duplicate
  | None =>
      let e := fresh s in
      let s1 := new_elem s t d in
      let '(s2, pos) := link_src s1 e in
      let s3 := link_list s2 e pos in
      match update_bloom s3 e with
      | Some s4 => Added (with_len s4 (len s4 + 1))
      | None => Panicked
      end
  end.

Definition same (x : option addr) (a : addr) : bool :=
  match x with Some b => Nat.eqb b a | None => false end.

(** transactionlist.go:189-236 [Remove]. *)
Definition list_remove (s : pool_list) (t : addr) : pool_list * bool :=
  if negb (here s t) then (s, false)
  else
    let f := if same (front s) t then lnext s t else front s in
    let b := if same (back s) t then lprev s t else back s in
    let lp := match lnext s t with Some n => upd (lprev s) n (lprev s t) | None => lprev s end in
    let ln := match lprev s t with Some p => upd (lnext s) p (lnext s t) | None => lnext s end in
    let ln := upd ln t None in
    let lp := upd lp t None in
    let from := t_from (txs s t) in
    let last := if same (last_of s from) t then key_upd (last_of s) from (sprev s t) else last_of s in
    let sn := match sprev s t with Some p => upd (snext s) p (snext s t) | None => snext s end in
    let sp := match snext s t with Some n => upd (sprev s) n (sprev s t) | None => sprev s end in
    let sn := upd sn t None in
    let sp := upd sp t None in
    (mkList f b (len s - 1) (key_upd (by_id s) (t_id (txs s t)) None) last (fresh s) (txs s) (direct s) (err s)
       (upd (here s) t false) ln lp sn sp (blm s) (bfresh s) (bcount s) (bbloom s) (bnext s), true).

(** transactionlist.go:181-187 [RemoveTx]. *)
Definition list_remove_tx (s : pool_list) (id : bytes) : pool_list :=
  match by_id s id with
  | Some e => fst (list_remove s e)
  | None => s
  end.

(** transactionlist.go:244-248 [HasTx]. *)
Definition has_tx (s : pool_list) (id : bytes) : bool :=
  match by_id s id with Some _ => true | None => false end.

(** [Front] and then [Next] until the end. *)
Fixpoint walk (fuel : nat) (s : pool_list) (a : option addr) : list addr :=
  match fuel, a with
  | S k, Some a => a :: walk k s (lnext s a)
  | _, _ => []
  end.

(** transactionlist.go:105-111, 250-255 [GetBloom]. *)
Fixpoint bloom_chain (fuel : nat) (s : pool_list) (b : option addr) (acc : bloom) : option bloom :=
  match fuel, b with
  | S k, Some b => match merge acc (bbloom s b) with
                   | Some acc' => bloom_chain k s (bnext s b) acc'
                   | None => None
                   end
  | _, _ => Some acc
  end.

Definition get_bloom (s : pool_list) : option bloom :=
  match front s with
  | None => Some no_bloom
  | Some a => bloom_chain (bfresh s) s (blm s a) no_bloom
  end.

(** ** The pool: transactionpool.go *)

(** transactionpool.go:222-239 [Add]. *)
Inductive answer := Accepted | IsDuplicate | Overflow.

Definition pool_add (size : Z) (s : pool_list) (t : tx) (d : bool) : option (pool_list * answer) :=
  if size <=? len s then Some (s, Overflow)
  else match list_add s t d with
       | Added s' => Some (s', Accepted)
       | Duplicate => Some (s, IsDuplicate)
       | Panicked => None
       end.

(** transactionpool.go:241-275 [RemoveList]. *)
Definition pool_remove (s : pool_list) (ids : list bytes) : pool_list :=
  if len s =? 0 then s else fold_left list_remove_tx ids s.

(** transactionpool.go:92-125 [DropOldTXs]: the pool and what is told about. *)
Fixpoint drop_old (fuel : nat) (bts : Z) (s : pool_list) (iter : option addr) : pool_list * list (bytes * reason) :=
  match fuel, iter with
  | S k, Some a =>
      let next := lnext s a in
      if t_time (txs s a) <=? bts then
        let s1 := fst (list_remove s a) in
        let r := match err s1 a with Some r => r | None => Expired end in
        let '(s2, l) := drop_old k bts (with_err s1 (upd (err s1) a (Some r))) next in
        (s2, (t_id (txs s a), r) :: l)
      else drop_old k bts s next
  | _, _ => (s, [])
  end.

Definition pool_drop_old (s : pool_list) (bts : Z) : pool_list * list (bytes * reason) :=
  drop_old (fresh s) bts s (front s).

Section Candidate.
  Context {world : Type}.
  (** The range of timestamps (tschecker.go), the transactions of recent blocks
      ([None]: an error), and [PreValidate] with its update of the world. *)
  Variables (min_ts max_ts : Z) (recent : bytes -> Z -> option bool).
  Variable pre : world -> tx -> world * option bool.  (* [Some b]: refused, [b]: for the balance *)

  (** transactionpool.go:150-187 [Candidate]: the transactions, their size, what
      is to be dropped, the reasons written, and the IDs remembered as dropped. *)
  Fixpoint collect (l : list addr) (s : pool_list) (max_bytes max_count : Z) (w : world) (size count : Z)
    : list addr * Z * list addr * pool_list * list bytes :=
    match l with
    | [] => ([], size, [], s, [])
    | e :: rest =>
        if (size <? max_bytes) && (count <? max_count) then
          let t := txs s e in
          if t_time t <=? min_ts then
            let s' := match err s e with None => with_err s (upd (err s) e (Some Expired)) | Some _ => s end in
            let '(c, n, d, s2, m) := collect rest s' max_bytes max_count w size count in (c, n, e :: d, s2, m)
          else if max_ts <? t_time t then collect rest s max_bytes max_count w size count
          else match recent (t_id t) (t_time t) with
               | None => collect rest s max_bytes max_count w size count
               | Some true =>
                   let s' := with_err s (upd (err s) e (Some Processed)) in
                   let '(c, n, d, s2, m) := collect rest s' max_bytes max_count w size count in (c, n, e :: d, s2, m)
               | Some false =>
                   let '(w', r) := pre w t in
                   match r with
                   | Some bal =>
                       let s' := match err s e with None => with_err s (upd (err s) e (Some (Refused bal))) | Some _ => s end in
                       if negb bal || negb (direct s e) then
                         let '(c, n, d, s2, m) := collect rest s' max_bytes max_count w' size count in
                         (c, n, e :: d, s2, t_id t :: m)
                       else collect rest s' max_bytes max_count w' size count
                   | None =>
                       if max_bytes <? size + t_size t then ([], size, [], s, [])
                       else let '(c, n, d, s2, m) := collect rest s max_bytes max_count w' (size + t_size t) (count + 1) in
                            (e :: c, n, d, s2, m)
                   end
               end
        else ([], size, [], s, [])
    end.

  (** transactionpool.go:126-149. *)
  Definition candidate (s : pool_list) (max_bytes max_count : Z) (w : world) :=
    if len s =? 0 then ([], 0, [], s, [])
    else collect (walk (fresh s) s (front s)) s
           (if max_bytes <=? 0 then 1048576 else max_bytes) (if max_count <=? 0 then 1500 else max_count) w 0 0.
End Candidate.

(** transactionpool.go:317-337 [dropTransactions]; [None]: a panic. *)
Fixpoint drop_these (s : pool_list) (l : list addr) : option (pool_list * list (bytes * reason)) :=
  match l with
  | [] => Some (s, [])
  | e :: rest =>
      let '(s1, ok) := list_remove s e in
      if ok then
        match err s1 e with
        | None => None
        | Some r => match drop_these s1 rest with
                    | Some (s2, out) => Some (s2, (t_id (txs s1 e), r) :: out)
                    | None => None
                    end
        end
      else drop_these s1 rest
  end.

Definition same_bloom (x y : option addr) : bool :=
  match x, y with
  | Some a, Some b => Nat.eqb a b
  | None, None => true
  | _, _ => false
  end.

(** transactionpool.go:339-368 [FilterTransactions]. *)
Fixpoint filter_txs (recent : bytes -> Z -> option bool) (b : bloom) (max : nat) (s : pool_list)
    (l : list addr) (working skip : option addr) : list addr :=
  match l, max with
  | [], _ => []
  | _, O => []
  | e :: rest, S k =>
      let check := fun working =>
        if contains b (t_id (txs s e)) then filter_txs recent b max s rest working skip
        else match recent (t_id (txs s e)) (t_time (txs s e)) with
             | Some true => filter_txs recent b max s rest working skip
             | _ => e :: filter_txs recent b k s rest working skip
             end in
      if negb (same_bloom working (blm s e)) then
        if same_bloom (blm s e) skip then filter_txs recent b max s rest working skip
        else if contains_all b (match blm s e with Some x => bbloom s x | None => no_bloom end)
        then filter_txs recent b max s rest working (blm s e)
        else check (blm s e)
      else check working
  end.

Definition pool_filter (recent : bytes -> Z -> option bool) (s : pool_list) (b : bloom) (max : nat) : list addr :=
  filter_txs recent b max s (walk (fresh s) s (front s)) None None.
