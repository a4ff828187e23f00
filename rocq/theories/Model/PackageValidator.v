(** The SCORE package validator and the loading of a package for its API.
    pyee/pyexec/iconscore/score_package_validator.py, icon_score_loader.py, icon_score_mapper.py,
    service_engine.py.  Code objects are those of CPython 3.6 to 3.10 (two bytes for each instruction). *)
From Coq Require Import String Ascii.
From Verif Require Import Model.Bytes Model.Utf8 Model.Exn Model.Address Model.Monad.
From Coq Require Import List.
Import ListNotations.
Open Scope list_scope.

(** A Python string literal of ASCII characters. *)
Fixpoint lit (s : string) : pystr :=
  match s with
  | EmptyString => []
  | String c r => Z.of_nat (nat_of_ascii c) :: lit r
  end.

Fixpoint pystr_eqb (a b : pystr) : bool :=
  match a, b with
  | [], [] => true
  | x :: a', y :: b' => Z.eqb x y && pystr_eqb a' b'
  | _, _ => false
  end.
Definition pystr_in (s : pystr) (l : list pystr) : bool := existsb (pystr_eqb s) l.

(** Python code objects: [co_code], [co_names], [co_consts].  Constants: None, ints, strings, tuples of strings,
    code objects; [KOther] any other, with what [constant > 0] yields ([None]: TypeError).  Iterating over a [KOther]
    or taking its first item is modelled as a TypeError (the compiler gives an import None or a tuple of strings). *)
Inductive const :=
| KNone
| KInt (z : Z)
| KStr (s : pystr)
| KTuple (items : list pystr)
| KCode (c : code)
| KOther (positive : option bool)
with code := mk_code (co_code : list Z) (co_names : list pystr) (co_consts : list const).
Definition co_code (c : code) := let (x, _, _) := c in x.
Definition co_names (c : code) := let (_, x, _) := c in x.
Definition co_consts (c : code) := let (_, _, x) := c in x.

(** score_package_validator.py:24-40, 42. *)
Definition BLACKLIST_RESERVED_KEYWORD : list pystr := [lit "exec"; lit "eval"; lit "compile"; lit "__import__"].
Definition LOAD_CONST := 100.
Definition IMPORT_STAR := 84.
Definition IMPORT_NAME := 108.
Definition IMPORT_FROM := 109.
Definition OPCODE_HEADER_END_INDEX : nat := 4.
Definition WHITELIST_IMPORT : list (pystr * list pystr) := [(lit "iconservice", [])].
Fixpoint whitelist_get (name : pystr) (l : list (pystr * list pystr)) : option (list pystr) :=
  match l with
  | [] => None
  | (n, v) :: r => if pystr_eqb n name then Some v else whitelist_get name r
  end.

(** [l[i]] for a non-negative [i]. *)
Definition at_ {A} (l : list A) (i : nat) : pyres A :=
  match nth_error l i with Some x => Ok x | None => Exc (EPy KIndexError) end.
Definition rbind {A B} (r : pyres A) (f : A -> pyres B) : pyres B :=
  match r with Ok a => f a | Exc e => Exc e | Stuck => Stuck end.
Local Notation "x <~ m ; k" := (rbind m (fun x => k)) (at level 61, m at next level, right associativity).
Definition illegal {A} : pyres A := Exc (EIcon IllegalFormat).

(** [c > 0]. *)
Definition const_gt0 (c : const) : pyres bool :=
  match c with
  | KInt z => Ok (0 <? z)%Z
  | KOther (Some b) => Ok b
  | _ => Exc (EPy KTypeError)
  end.
(** [c[0]], when it is a string. *)
Definition const_first (c : const) : pyres pystr :=
  match c with
  | KTuple l => at_ l 0
  | KStr s => x <~ at_ s 0; Ok [x]
  | _ => Exc (EPy KTypeError)
  end.
(** [for x in c]. *)
Definition const_items (c : const) : pyres (list pystr) :=
  match c with
  | KTuple l => Ok l
  | KStr s => Ok (map (fun x => [x]) s)
  | _ => Exc (EPy KTypeError)
  end.

Section Validator.
(** score_package_validator.py:44, 54-72 [ICONSERVICE_WHITELIST], as filled in from the iconservice package. *)
Context (iconservice_whitelist : list pystr).

(** score_package_validator.py:201-207: the loop over the imported names.  Line 205 tests [import_name in 'iconservice'],
    a substring test that holds for the only whitelisted name. *)
Fixpoint check_from_list (allowed : list pystr) (from_list : list pystr) : pyres unit :=
  match from_list with
  | [] => Ok tt
  | x :: r =>
      if negb (pystr_in (lit "*") allowed) && negb (pystr_in x allowed) then illegal
      else if negb (pystr_in x iconservice_whitelist) then illegal
      else check_from_list allowed r
  end.

(** score_package_validator.py:145-209 [_validate_import].  Line 168-171 read before [current_index], which is at least 4. *)
Definition validate_import (current_index : nat) (bs : list Z) (names : list pystr) (consts : list const) : pyres unit :=
  from_list_op <~ at_ bs (current_index - 2);
  level_op <~ at_ bs (current_index - 4);
  if negb (LOAD_CONST =? from_list_op)%Z || negb (LOAD_CONST =? level_op)%Z then illegal
  else
    name_index <~ at_ bs (current_index + 1);
    from_list_index <~ at_ bs (current_index - 1);
    level_index <~ at_ bs (current_index - 3);
    import_name <~ at_ names (Z.to_nat name_index);
    from_list <~ at_ consts (Z.to_nat from_list_index);
    level <~ at_ consts (Z.to_nat level_index);
    relative <~ const_gt0 level;
    if (relative : bool) then Ok tt
    else match whitelist_get import_name WHITELIST_IMPORT with
         | None => illegal
         | Some allowed =>
             match from_list with
             | KNone => Ok tt
             | _ =>
                 next_op <~ at_ bs (current_index + 2);
                 if (IMPORT_STAR =? next_op)%Z then
                   x <~ const_first from_list;
                   if pystr_eqb x (lit "*") then Ok tt else illegal
                 else if (IMPORT_FROM =? next_op)%Z then
                   items <~ const_items from_list; check_from_list allowed items
                 else illegal
             end
         end.

(** score_package_validator.py:118-129 [_validate_import_from_code]: [for code_index in range(4, len, 2)]. *)
Fixpoint validate_from (n : nat) (code_index : nat) (bs : list Z) (names : list pystr) (consts : list const) : pyres unit :=
  match n with
  | O => Ok tt
  | S n' =>
      key <~ at_ bs code_index;
      u <~ (if (IMPORT_NAME =? key)%Z then validate_import code_index bs names consts else Ok tt);
      validate_from n' (code_index + 2) bs names consts
  end.
Definition validate_import_from_code (c : code) : pyres unit :=
  validate_from ((length (co_code c) - OPCODE_HEADER_END_INDEX + 1) / 2) OPCODE_HEADER_END_INDEX
    (co_code c) (co_names c) (co_consts c).

(** score_package_validator.py:112-116 [_validate_blacklist_keyword_from_names]. *)
Fixpoint validate_blacklist (names : list pystr) : pyres unit :=
  match names with
  | [] => Ok tt
  | n :: r => if pystr_in n BLACKLIST_RESERVED_KEYWORD then illegal else validate_blacklist r
  end.

(** score_package_validator.py:131-143 [_validate_import_from_const], for one constant. *)
Fixpoint validate_const (k : const) : pyres unit :=
  match k with
  | KCode c =>
      u <~ validate_import_from_code c;
      v <~ (let (_, _, consts) := c in
            (fix loop (l : list const) : pyres unit :=
               match l with
               | [] => Ok tt
               | x :: r => w <~ validate_const x; loop r
               end) consts);
      validate_blacklist (co_names c)
  | _ => Ok tt
  end.
Fixpoint validate_import_from_const (l : list const) : pyres unit :=
  match l with
  | [] => Ok tt
  | x :: r => w <~ validate_const x; validate_import_from_const r
  end.

(** score_package_validator.py:91-93: the three checks on the code of one module. *)
Definition validate_module (c : code) : pyres unit :=
  u <~ validate_import_from_code c;
  v <~ validate_import_from_const (co_consts c);
  validate_blacklist (co_names c).

(** ** Which modules are looked at *)

(** A file below the package root as [os.walk] shows it: the directories down to it, and its name. *)
Record file := mk_file { f_dirs : list pystr; f_name : pystr }.

(** [os.path.splitext] of a file name: the last dot separates the extension, unless only dots precede it. *)
Definition DOT := 46.
Fixpoint last_dot (s : pystr) (i : nat) (seen : option nat) : option nat :=
  match s with
  | [] => seen
  | c :: r => last_dot r (S i) (if (c =? DOT)%Z then Some i else seen)
  end.
Definition splitext (s : pystr) : pystr * pystr :=
  match last_dot s 0 None with
  | Some i => if forallb (fun c => (c =? DOT)%Z) (firstn i s) then (s, []) else (firstn i s, skipn i s)
  | None => (s, [])
  end.

(** Components joined by dots. *)
Fixpoint dotted (l : list pystr) : pystr :=
  match l with
  | [] => []
  | [x] => x
  | x :: r => x ++ DOT :: dotted r
  end.

(** score_package_validator.py:95-110 [_make_custom_import_list].  Directory names are used as they are. *)
Fixpoint custom_import_list (files : list file) : list pystr :=
  match files with
  | [] => []
  | f :: r =>
      let (file_name, extension) := splitext (f_name f) in
      if negb (pystr_eqb extension (lit ".py")) then custom_import_list r
      else (match f_dirs f with
            | [] => file_name
            | _ => dotted (f_dirs f) ++ DOT :: file_name
            end) :: custom_import_list r
  end.

(** What happens to the modules of the package: [Ran m]: the code of [m] is executed;
    [Checked m]: the code of [m] passed the three checks. *)
Inductive event := Ran (m : pystr) | Checked (m : pystr).
Record world := mk_world { loaded : list pystr; events : list event }.
Definition emit (e : event) : SM world unit := fun w => (Ok tt, mk_world (loaded w) (events w ++ [e])).
Definition set_loaded (m : pystr) : SM world unit := fun w => (Ok tt, mk_world (m :: loaded w) (events w)).

(** Python's import system: [code_of m] is the code of module [m] if it is found ([spec.loader.get_code]), [run_of m] how
    its execution ends.  That a module may import others of the package while it runs is left out, and so are errors
    of the finders themselves. *)
Context (code_of : pystr -> option code) (run_of : pystr -> pyres unit).
Definition KImportError := 14.
Definition KAttributeError := 15.

Definition import_one (m : pystr) : SM world unit := fun w =>
  if pystr_in m (loaded w) then (Ok tt, w)
  else match code_of m with
       | None => (Exc (EPy KImportError), w)
       | Some _ => (emit (Ran m) ;;; mlift (run_of m) ;;; set_loaded m) w
       end.

(** The packages above a dotted name, outermost first, without and with the name itself. *)
Fixpoint parents (s : pystr) (done : pystr) : list pystr :=
  match s with
  | [] => []
  | c :: r => if (c =? DOT)%Z then done :: parents r (done ++ [c]) else parents r (done ++ [c])
  end.
Fixpoint import_each (l : list pystr) : SM world unit :=
  match l with
  | [] => mret tt
  | m :: r => import_one m ;;; import_each r
  end.
Definition import_module (m : pystr) : SM world unit := import_each (parents m [] ++ [m]).

(** [importlib.util.find_spec(m).loader.get_code(m)]: [find_spec] imports the parent packages; without a spec,
    [None.loader] raises AttributeError. *)
Definition find_code (m : pystr) : SM world code :=
  import_each (parents m []) ;;;
  match code_of m with
  | Some c => mret c
  | None => mraise (EPy KAttributeError)
  end.

(** score_package_validator.py:85-93: the loop of [execute]. *)
Fixpoint check_modules (package : pystr) (imports : list pystr) : SM world unit :=
  match imports with
  | [] => mret tt
  | imp :: r =>
      let full_name := package ++ DOT :: imp in
      c <- find_code full_name ;;
      mlift (validate_module c) ;;;
      emit (Checked full_name) ;;;
      check_modules package r
  end.

(** score_package_validator.py:74-93 [execute]. *)
Definition execute (package : pystr) (files : list file) : SM world unit :=
  check_modules package (custom_import_list files).

(** icon_score_loader.py:36-48 [_get_package_info] and 50-67 [load_module], with package.json already read:
    [main_module] (or else [main_file]) as given, and the import it leads to.  The class is then taken from the module. *)
Definition load_module (package : pystr) (main_module : pystr) : SM world unit :=
  match main_module with
  | c :: _ => if (c =? DOT)%Z then mraise (EIcon IllegalFormat) else import_module (package ++ DOT :: main_module)
  | [] => import_module (package ++ [DOT])
  end.

(** service_engine.py:72-85 [get_score_api] up to the loaded class; icon_score_mapper.py:107-118 loads a path
    only once ([known]). *)
Definition load_for_api (verify_package known : bool) (package : pystr) (files : list file) (main_module : pystr)
  : SM world unit :=
  (if verify_package then execute package files else mret tt) ;;;
  if known then mret tt else load_module package main_module.

End Validator.
