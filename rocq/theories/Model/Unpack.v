(** Unpacking the code of a Python contract: service/contract/contractmanager.go:361-434 [storePython], with the functions
    of Go's path and path/filepath packages it uses (for slash-separated systems).  I/O errors of the host are left out. *)
From Coq Require Import String Ascii.
From Verif Require Import Model.Bytes.
From Coq Require Import List ZArith Bool.
Import ListNotations.
Open Scope Z_scope.
Open Scope list_scope.

Definition gostr := list Z.
Fixpoint golit (s : string) : gostr :=
  match s with EmptyString => [] | String c r => Z.of_nat (nat_of_ascii c) :: golit r end.
Fixpoint gostr_eqb (a b : gostr) : bool :=
  match a, b with
  | [], [] => true
  | x :: a', y :: b' => (x =? y) && gostr_eqb a' b'
  | _, _ => false
  end.
Definition SLASH := 47.

(** Go [strings.HasPrefix], [strings.TrimPrefix], [strings.Contains]. *)
Fixpoint has_prefix (s p : gostr) : bool :=
  match p, s with
  | [], _ => true
  | x :: p', y :: s' => (x =? y) && has_prefix s' p'
  | _ :: _, [] => false
  end.
Definition trim_prefix (s p : gostr) : gostr := if has_prefix s p then skipn (List.length p) s else s.
Fixpoint contains (s sub : gostr) : bool :=
  has_prefix s sub || match s with [] => false | _ :: r => contains r sub end.

(** Go [path.Split]: after the last slash. *)
Fixpoint split_path (s : gostr) : gostr * gostr :=
  match s with
  | [] => ([], [])
  | c :: r =>
      let (d, b) := split_path r in
      match d with
      | [] => if c =? SLASH then ([c], b) else ([], c :: b)
      | _ => (c :: d, b)
      end
  end.
(** Go [path.Base]. *)
Fixpoint drop_slashes (s : gostr) : gostr :=   (* of a reversed string *)
  match s with c :: r => if c =? SLASH then drop_slashes r else s | [] => [] end.
Definition path_base (s : gostr) : gostr :=
  match s with
  | [] => golit "."
  | _ => match rev (drop_slashes (rev s)) with
         | [] => [SLASH]
         | t => snd (split_path t)
         end
  end.

(** The components of a slash-separated path. *)
Fixpoint components (s : gostr) (cur : gostr) : list gostr :=
  match s with
  | [] => [cur]
  | c :: r => if c =? SLASH then cur :: components r [] else components r (cur ++ [c])
  end.
(** Go [filepath.Join(base, s)] for an absolute clean [base], given and returned as its components: "." and empty components
    vanish, ".." removes the component before it. *)
Fixpoint walk (base : list gostr) (l : list gostr) : list gostr :=
  match l with
  | [] => base
  | x :: r =>
      if gostr_eqb x [] || gostr_eqb x (golit ".") then walk base r
      else if gostr_eqb x (golit "..") then walk (removelast base) r
      else walk (base ++ [x]) r
  end.
Definition join (base : list gostr) (s : gostr) : list gostr := walk base (components s []).

(** An entry of the archive: name, whether its attributes say directory, the uncompressed size in its header (uint64), and
    how many bytes its data unpacks to. *)
Record entry := mk_entry { z_name : gostr; z_dirmode : bool; z_declared : Z; z_actual : Z }.
(** archive/zip [FileInfo().IsDir()]: the attributes, or a name ending with a slash. *)
Definition is_dir (e : entry) : bool :=
  z_dirmode e || match rev (z_name e) with c :: _ => c =? SLASH | [] => false end.
(** Go int64 arithmetic. *)
Definition int64 (x : Z) : Z := (x + 2 ^ 63) mod 2 ^ 64 - 2 ^ 63.
(** archive/zip [FileInfo().Size()]: [int64(UncompressedSize64)]. *)
Definition file_size (e : entry) : Z := int64 (z_declared e).

(** contractmanager.go:29-30, 357. *)
Definition FileSizeLimit := 1 * 1024 * 1024.
Definition ContentSizeLimit := 2 * 1024 * 1024.
Definition contractPythonRootFile := golit "package.json".

Inductive outcome := Done | NoPackageFile | OversizeFile | OversizeContent | ReadError.
(** A file written: its path and its length. *)
Definition written := list (list gostr * Z).

(** Lines 379-390: the first entry named package.json. *)
Fixpoint find_package (l : list entry) : option entry :=
  match l with
  | [] => None
  | e :: r => if gostr_eqb (path_base (z_name e)) contractPythonRootFile && negb (is_dir e) then Some e else find_package r
  end.

(** Lines 392-431.  [io.CopyN(out, in, sz)]: with a negative size nothing is copied and there is no error; with fewer
    bytes than asked for there is one, after they were written. *)
Fixpoint store (tmp_path : list gostr) (pkg_base : gostr) (l : list entry) (total_size : Z) : written * outcome :=
  match l with
  | [] => ([], Done)
  | e :: r =>
      if is_dir e then store tmp_path pkg_base r total_size
      else
        let (dir, base) := split_path (z_name e) in
        if negb (has_prefix dir pkg_base) then store tmp_path pkg_base r total_size
        else
          let dir := trim_prefix dir pkg_base in
          if contains dir (golit "__MACOSX") || contains dir (golit "__pycache__") then store tmp_path pkg_base r total_size
          else
            let sz := file_size e in
            if FileSizeLimit <? sz then ([], OversizeFile)
            else
              let total_size := int64 (total_size + sz) in
              if ContentSizeLimit <? total_size then ([], OversizeContent)
              else
                let tmp_file := join (join tmp_path dir) base in
                if z_actual e <? sz then ([(tmp_file, z_actual e)], ReadError)
                else let (w, o) := store tmp_path pkg_base r total_size in
                     ((tmp_file, Z.max 0 sz) :: w, o)
  end.

(** Lines 361-434: the files written (below or outside [tmp_path], which is then renamed, or removed after an error). *)
Definition store_python (tmp_path : list gostr) (l : list entry) : written * outcome :=
  match find_package l with
  | None => ([], NoPackageFile)
  | Some p => store tmp_path (fst (split_path (z_name p))) l 0
  end.
