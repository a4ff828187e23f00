(** The files of the write-ahead log.

    Models [consensus/wal.go] at the level of bytes: the writer (one open tail
    file, a buffer in front of it), the reader, the repair after an error of
    the reader, and how [consensus/consensus.go] uses them at a start.

    Simplifications: file names and indexes are the same thing; files whose
    name ends in something else than a number are not there; creating and
    removing a file, and truncating it, are durable at once; writing to a file
    does not fail; [bufio.Writer] hands over any number of bytes of its buffer
    at any time ([flush]); indexes do not reach 2^64; the timer and the mutex
    are not modelled: housekeeping is one step. *)
Require Import ZArith List Bool.
Import ListNotations.
Open Scope Z_scope.

Definition byte := Z.
Definition bytes := list byte.

(** What [os.Truncate], [os.Remove], [os.OpenFile] do.  A directory is a list
    of files, by index. *)
Definition disk := list (nat * bytes).

Fixpoint get (d : disk) (i : nat) : option bytes :=
  match d with
  | [] => None
  | (j, b) :: r => if Nat.eqb i j then Some b else get r i
  end.

Fixpoint put (d : disk) (i : nat) (b : bytes) : disk :=
  match d with
  | [] => [(i, b)]
  | (j, c) :: r => if Nat.eqb i j then (i, b) :: r else (j, c) :: put r i b
  end.

Definition del (d : disk) (i : nat) : disk := filter (fun x => negb (Nat.eqb i (fst x))) d.

(** [os.OpenFile] with [O_CREATE]: wal.go:178, 296. *)
Definition create (d : disk) (i : nat) : disk :=
  match get d i with Some _ => d | None => put d i [] end.

Definition size (b : bytes) : Z := Z.of_nat (List.length b).

(** wal.go:87-148, [readWALInfo]: the lowest and the highest index.  [None]:
    there is no file, [headIdx] is above [tailIdx]. *)
Definition indexes (d : disk) : option (nat * nat) :=
  match d with
  | [] => None
  | (i, _) :: r => Some (fold_left Nat.min (map fst r) i, fold_left Nat.max (map fst r) i)
  end.

(** wal.go:128-131: the sizes of the files from the lowest to the highest index;
    0 for one which is missing. *)
Definition file_sizes (d : disk) (head tail : nat) : list Z :=
  map (fun i => match get d i with Some b => size b | None => 0 end)
      (seq head (S tail - head)).

Definition total_size (d : disk) : Z := fold_right (fun x n => size (snd x) + n) 0 d.

(** [binary.BigEndian.PutUint32], [Uint32]. *)
Definition be32 (n : Z) : bytes :=
  let n := n mod 2 ^ 32 in
  [n / 2 ^ 24; n / 2 ^ 16 mod 256; n / 2 ^ 8 mod 256; n mod 256].

Definition of_be32 (b : bytes) : Z :=
  match b with
  | [w; x; y; z] => w * 2 ^ 24 + x * 2 ^ 16 + y * 2 ^ 8 + z
  | _ => 0
  end.

Section Wal.
  (** [crc32.Checksum(payload, crc32c)]. *)
  Variable crc : bytes -> Z.

  (** ** The writer *)

  (** wal.go:64-75.  [w_synced]: how much of the tail file is on the disk for
      sure. *)
  Record writer := mkWriter { w_disk : disk; w_tail : nat; w_buf : bytes; w_synced : Z }.

  (** wal.go:194-213, [WriteBytes]: the frame. *)
  Definition frame (p : bytes) : bytes := be32 (crc p) ++ be32 (size p) ++ p.

  Definition write (w : writer) (p : bytes) : writer :=
    mkWriter (w_disk w) (w_tail w) (w_buf w ++ frame p) (w_synced w).

  Definition tail_file (w : writer) : bytes :=
    match get (w_disk w) (w_tail w) with Some b => b | None => [] end.

  (** [bufio.Writer] hands over [k] bytes. *)
  Definition flush (w : writer) (k : nat) : writer :=
    mkWriter (put (w_disk w) (w_tail w) (tail_file w ++ firstn k (w_buf w)))
             (w_tail w) (skipn k (w_buf w)) (w_synced w).

  (** wal.go:222-231, [sync]. *)
  Definition sync (w : writer) : writer :=
    let w := flush w (List.length (w_buf w)) in
    mkWriter (w_disk w) (w_tail w) (w_buf w) (size (tail_file w)).

  (** wal.go:287-302, [shift]. *)
  Definition shift (w : writer) : writer :=
    let w := sync w in
    mkWriter (create (w_disk w) (S (w_tail w))) (S (w_tail w)) (w_buf w) 0.

  (** wal.go:323-338: the loop which removes the oldest files.  [None]: panic.
      [fuel]: a removed file is one file less. *)
  Fixpoint remove_old (fuel : nat) (d : disk) (head : nat) (total limit : Z) : option disk :=
    if total <=? limit then Some d
    else match fuel with
         | O => None
         | S k => match get d head with
                  | None => None
                  | Some b => remove_old k (del d head) (S head) (total - size b) limit
                  end
         end.

  (** wal.go:304-339, [doHousekeeping]; the part which depends on the time
      ([sync]) is left to the steps of its own. *)
  Definition housekeep (w : writer) (file_limit total_limit : Z) : option writer :=
    match indexes (w_disk w) with
    | None => None
    | Some (head, tail) =>
        let total := total_size (w_disk w) in
        let tail_size := match get (w_disk w) tail with Some b => size b | None => 0 end in
        let w1 := if file_limit <? tail_size then shift w else w in
        match remove_old (S (List.length (w_disk w1))) (w_disk w1) head total total_limit with
        | None => None
        | Some d => Some (mkWriter d (w_tail w1) (w_buf w1) (w_synced w1))
        end
    end.

  (** wal.go:151-192, [OpenWALForWrite]. *)
  Definition open_write (d : disk) (synced : Z) : writer :=
    let tail := match indexes d with Some (_, t) => t | None => O end in
    mkWriter (create d tail) tail [] synced.

  (** ** The reader *)

  Inductive read_error := EOF | UnexpectedEOF | Corrupted.

  (** wal.go:387-409, [ReadBytes], of a stream of bytes: the payload and the
      rest.  [io.ReadAtLeast] says EOF if there is nothing at all to read, and
      does not read if it has to read nothing. *)
  Definition read_one (s : bytes) : bytes * bytes + read_error :=
    if size s =? 0 then inr EOF
    else if size s <? 8 then inr UnexpectedEOF
    else
      let len := of_be32 (firstn 4 (skipn 4 s)) in
      let rest := skipn 8 s in
      if len <=? 0 then
        if crc [] =? of_be32 (firstn 4 s) then inl ([], rest) else inr Corrupted
      else if size rest =? 0 then inr EOF
      else if size rest <? len then inr UnexpectedEOF
      else
        let p := firstn (Z.to_nat len) rest in
        if crc p =? of_be32 (firstn 4 s) then inl (p, skipn (Z.to_nat len) rest)
        else inr Corrupted.

  (** Reading until there is an error; the payloads, the error, [validOffset]. *)
  Fixpoint read_all (fuel : nat) (s : bytes) : list bytes * read_error * Z :=
    match fuel with
    | O => ([], EOF, 0)
    | S k => match read_one s with
             | inr e => ([], e, 0)
             | inl (p, rest) =>
                 let '(ps, e, n) := read_all k rest in
                 (p :: ps, e, (8 + size p) mod 2 ^ 32 + n)
             end
    end.

  (** wal.go:351-385, [OpenWALForRead]: what is read, all the files from the
      lowest index to the highest.  [None]: a file does not exist. *)
  Fixpoint contents (d : disk) (l : list nat) : option bytes :=
    match l with
    | [] => Some []
    | i :: r => match get d i, contents d r with
                | Some b, Some c => Some (b ++ c)
                | _, _ => None
                end
    end.

  (** wal.go:421-447, [CloseAndRepair]: the loop over the sizes.  [os.Remove]
      and [os.Truncate] of a missing file are an error: the flag; what was
      done before stays. *)
  Fixpoint remove_again (n : nat) (d : disk) (idx : nat) : disk * bool :=
    match n with
    | O => (d, true)
    | S k => match get d idx with
             | None => (d, false)
             | Some _ => remove_again k (del d idx) idx
             end
    end.

  Fixpoint repair (d : disk) (sizes : list Z) (idx tail : nat) (left : Z) : disk * bool :=
    match sizes with
    | [] => (d, true)
    | s :: r =>
        if left <=? s then
          let '(d1, ok) :=
            if left <? s then
              match get d idx with
              | Some b => (put d idx (firstn (Z.to_nat left) b), true)
              | None => (d, false)
              end
            else (d, true) in
          if ok then remove_again (tail - idx) d1 idx else (d1, false)
        else repair d r (S idx) tail (left - s)
    end.

  (** consensus.go:1352-1380 (and the same in 1466-1490, 1580-1600): what a
      node reads at a start, and the disk it leaves.  A missing file is taken
      for a log which is not there (consensus.go:1671-1679), and so is a
      repair which fails because of one. *)
  Definition recover (d : disk) : list bytes * disk :=
    match indexes d with
    | None => ([], d)
    | Some (head, tail) =>
        match contents d (seq head (S tail - head)) with
        | None => ([], d)
        | Some s =>
            let '(ps, e, off) := read_all (S (List.length s)) s in
            match e with
            | EOF => (ps, d)
            | _ => (ps, fst (repair d (file_sizes d head tail) head tail off))
            end
        end
    end.

  (** ** A life of a log *)

  (** A crash: the buffer is lost, and all of the tail file but its first [n]
      bytes, which are at least those which were synced. *)
  Inductive op :=
  | Write (p : bytes)
  | Flush (k : nat)
  | Sync
  | Shift
  | Housekeep (file_limit total_limit : Z)
  | Crash (n : Z).        (* and a new start *)

  Definition crashed (w : writer) (n : Z) : disk :=
    put (w_disk w) (w_tail w) (firstn (Z.to_nat n) (tail_file w)).

  (** The second result: what was read at the start. *)
  Definition step (w : writer) (o : op) : option (writer * list bytes) :=
    match o with
    | Write p => Some (write w p, [])
    | Flush k => Some (flush w k, [])
    | Sync => Some (sync w, [])
    | Shift => Some (shift w, [])
    | Housekeep f t => match housekeep w f t with Some w' => Some (w', []) | None => None end
    | Crash n =>
        if (w_synced w <=? n) && (n <=? size (tail_file w)) then
          let (ps, d) := recover (crashed w n) in
          Some (open_write d (w_synced w), ps)
        else None
    end.

  (** A history: what every start read, in order. *)
  Fixpoint run (w : writer) (l : list op) : option (writer * list (list bytes)) :=
    match l with
    | [] => Some (w, [])
    | o :: r =>
        match step w o with
        | None => None
        | Some (w', read) =>
            match run w' r with
            | None => None
            | Some (w'', reads) =>
                Some (w'', match o with Crash _ => read :: reads | _ => reads end)
            end
        end
    end.

  (** A new log. *)
  Definition fresh : writer := open_write [] 0.
End Wal.

(** wal.go:36: the checksum, CRC-32C ([hash/crc32], Castagnoli), bit by bit. *)
Fixpoint crc_bits (n : nat) (c : Z) : Z :=
  match n with
  | O => c
  | S k => crc_bits k (if Z.odd c then Z.lxor (Z.shiftr c 1) 0x82f63b78 else Z.shiftr c 1)
  end.

Definition crc32c (p : bytes) : Z :=
  Z.lxor (fold_left (fun c b => crc_bits 8 (Z.lxor c (b mod 256))) p 0xffffffff) 0xffffffff.
