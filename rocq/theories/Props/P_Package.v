(** C44: the package validator of the Python executor. *)
From Verif Require Import Model.Bytes Model.Utf8 Model.Exn Model.Monad Model.PackageValidator Spec.PackageSpec Proof.PackageFacts.
From Coq Require Import String List Lia ZArith.
Import ListNotations.
Open Scope list_scope.
Open Scope nat_scope.

(** Each Python file of an accepted package was found by the import system and, in all its code, carries out
    only permitted imports: relative ones, [import iconservice] and [from iconservice import *].  The claim is for code objects
    with at most 256 constants (see [C44_violated_extended]). *)
Theorem C44_imports : forall wl code_of run_of package files w w',
  execute wl code_of run_of package files w = (Ok tt, w') ->
  forall f stem, In f files -> f_name f = stem ++ lit ".py" -> forallb (fun c => (c =? 46)%Z) stem = false ->
  exists c, code_of (package ++ lit "." ++ concat (map (fun d => d ++ lit ".") (f_dirs f)) ++ stem) = Some c
    /\ forall d name from_list level, within c d ->
         Forall (fun b => (0 <= b < 256)%Z) (co_code d) -> List.length (co_consts d) <= 256 ->
         imports d name from_list level -> permitted name from_list level.
Proof.
  intros wl code_of run_of package files w w' H f stem Hi Hn Hd.
  destruct (execute_checked _ _ _ _ _ _ _ H _ (custom_in _ _ _ Hi Hn Hd)) as (c & Hc & V).
  exists c. split; [exact Hc|]. intros d name fl lv W B L I.
  destruct (module_within _ _ V _ W) as [[K _] _]. eapply imports_ok; eauto.
Qed.
Print Assumptions C44_imports.

(** No code of an accepted package mentions one of the forbidden names. *)
Theorem C44_names : forall wl code_of run_of package files w w',
  execute wl code_of run_of package files w = (Ok tt, w') ->
  forall f stem, In f files -> f_name f = stem ++ lit ".py" -> forallb (fun c => (c =? 46)%Z) stem = false ->
  exists c, code_of (package ++ lit "." ++ concat (map (fun d => d ++ lit ".") (f_dirs f)) ++ stem) = Some c
    /\ forall d n, within c d -> In n (co_names d) ->
         n <> lit "exec" /\ n <> lit "eval" /\ n <> lit "compile" /\ n <> lit "__import__".
Proof.
  intros wl code_of run_of package files w w' H f stem Hi Hn Hd.
  destruct (execute_checked _ _ _ _ _ _ _ H _ (custom_in _ _ _ Hi Hn Hd)) as (c & Hc & V).
  exists c. split; [exact Hc|]. intros d n W In_.
  destruct (module_within _ _ V _ W) as [[_ K] _]. pose proof (blacklist_ok _ K _ In_) as X. cbn [In] in X.
  repeat split; intro E; apply X; subst n; tauto.
Qed.
Print Assumptions C44_names.

(** A name imported from iconservice makes the package refused, whatever [ICONSERVICE_WHITELIST] holds. *)
Theorem C44_no_named_import : forall wl c d name x items level, validate_module wl c = Ok tt -> within c d ->
  Forall (fun b => (0 <= b < 256)%Z) (co_code d) -> List.length (co_consts d) <= 256 ->
  imports d name (KTuple (x :: items)) level -> x <> lit "*" -> relative level.
Proof.
  intros wl c d name x items lv V W B L I N. destruct (module_within _ _ V _ W) as [[K _] _].
  destruct (imports_ok _ _ _ _ _ K B L I) as [R|[_ [E|E]]]; auto; [discriminate|contradiction].
Qed.
Print Assumptions C44_no_named_import.

(** Code without any import and without forbidden names is accepted. *)
Theorem C44_accepts : forall wl c,
  (forall d, within c d -> (forall i, nth_error (co_code d) (2 * i) <> Some 108%Z)
     /\ (forall n, In n (co_names d) -> ~ In n [lit "exec"; lit "eval"; lit "compile"; lit "__import__"])) ->
  validate_module wl c = Ok tt.
Proof. exact harmless_ok. Qed.
Print Assumptions C44_accepts.

(** Reading the API with package verification on always verifies, also when the package was loaded before. *)
Theorem C44_every_load : forall wl code_of run_of known package files main w w',
  load_for_api wl code_of run_of true known package files main w = (Ok tt, w') ->
  forall f stem, In f files -> f_name f = stem ++ lit ".py" -> forallb (fun c => (c =? 46)%Z) stem = false ->
  exists c, code_of (package ++ lit "." ++ concat (map (fun d => d ++ lit ".") (f_dirs f)) ++ stem) = Some c
    /\ validate_module wl c = Ok tt.
Proof.
  intros wl code_of run_of known package files main w w' H f stem Hi Hn Hd. unfold load_for_api, mbind in H.
  destruct (execute wl code_of run_of package files w) as ([[]| |] & w1) eqn:E; try discriminate H.
  destruct (execute_checked _ _ _ _ _ _ _ E _ (custom_in _ _ _ Hi Hn Hd)) as (c & Hc & V).
  exists c. split; [|exact V]. rewrite <- Hc. f_equal.
Qed.
Print Assumptions C44_every_load.

(** ** A package that is accepted *)
(** [from iconservice import *] and a class whose body imports relatively. *)
Definition sample_class : code :=
  mk_code [100; 0; 100; 1; 108; 0; 109; 1; 90; 1; 100; 2; 83; 0]%Z [lit ""; lit "helper"] [KInt 1; KTuple [lit "helper"]; KNone].
Definition sample_module : code :=
  mk_code [100; 0; 100; 1; 108; 0; 84; 0; 71; 0; 100; 2; 132; 0; 100; 3; 83; 0]%Z [lit "iconservice"]
    [KInt 0; KTuple [lit "*"]; KCode sample_class; KNone].
Definition sample_files : list file := [mk_file [] (lit "package.json"); mk_file [] (lit "__init__.py"); mk_file [] (lit "score.py")].
Definition sample_code_of (m : pystr) : option code :=
  if pystr_eqb m (lit "pkg") then Some (mk_code [] [] [])
  else if pystr_eqb m (lit "pkg.__init__") then Some (mk_code [] [] [])
  else if pystr_eqb m (lit "pkg.score") then Some sample_module
  else None.
Example sample_accepted : exists w',
  execute [] sample_code_of (fun _ => Ok tt) (lit "pkg") sample_files (mk_world [] []) = (Ok tt, w')
  /\ In (Checked (lit "pkg.score")) (events w').
Proof. eexists. split; [vm_compute; reflexivity|]. vm_compute. auto 10. Qed.
Example sample_imports : imports sample_module (lit "iconservice") (KTuple [lit "*"]) (KInt 0).
Proof.
  exists 2, [], 0%Z. split; [lia|]. split; [|split; reflexivity].
  eapply (runs_const _ 1 _ 1); [|reflexivity|reflexivity]. eapply (runs_const _ 0 _ 0); [|reflexivity|reflexivity]. constructor.
Qed.
Example sample_within : within sample_module sample_class.
Proof. eapply within_const; [constructor|]. cbn. auto. Qed.

(** ** Findings *)

(** The argument of an instruction is taken to be its last byte.  With more than 256 constants the level of an import can be
    read from the wrong constant: this module is accepted and imports [os]. *)
Definition extended_module : code :=
  mk_code [144; 1; 100; 0; 100; 1; 108; 0; 90; 0]%Z [lit "os"]
    (KInt 1 :: KNone :: map (fun n => KInt (Z.of_nat n)) (seq 2 254) ++ [KInt 0]).
Theorem C44_violated_extended : exists c, validate_module [] c = Ok tt /\ imports c (lit "os") KNone (KInt 0)
  /\ ~ permitted (lit "os") KNone (KInt 0).
Proof.
  exists extended_module. split; [vm_compute; reflexivity|]. split.
  - exists 3, [], 0%Z. split; [lia|]. split; [|split; reflexivity].
    eapply (runs_const _ 2 _ 1); [|reflexivity|reflexivity]. eapply (runs_const _ 1 _ 256); [|reflexivity|reflexivity].
    eapply runs_extended; [|reflexivity]. constructor.
  - intros [R|[E _]]; [cbn in R; lia|discriminate E].
Qed.
Print Assumptions C44_violated_extended.

(** Looking up the first module runs the package itself ([__init__.py]) before anything of it is checked. *)
Theorem C44_violated_first : forall wl code_of run_of package files w r w' c,
  execute wl code_of run_of package files w = (r, w') ->
  (exists f stem, In f files /\ f_name f = stem ++ lit ".py" /\ forallb (fun c => (c =? 46)%Z) stem = false) ->
  ~ In 46%Z package -> ~ In package (loaded w) -> code_of package = Some c ->
  exists l, events w' = events w ++ Ran package :: l.
Proof.
  intros wl code_of run_of package files w r w' c H (f & stem & Hi & Hn & Hd) D L C. eapply first_event; eauto.
  intro E. pose proof (custom_in _ _ _ Hi Hn Hd) as X. rewrite E in X. contradiction.
Qed.
Print Assumptions C44_violated_first.

(** The main module named by package.json is loaded even if it is no [.py] file (compiled code, say) and was not checked. *)
Theorem C44_violated_main : exists code_of files main w' c,
  load_for_api [] code_of (fun _ => Ok tt) true false (lit "pkg") files main (mk_world [] []) = (Ok tt, w')
  /\ In (Ran (lit "pkg.score")) (events w') /\ code_of (lit "pkg.score") = Some c /\ validate_module [] c <> Ok tt
  /\ ~ In (Checked (lit "pkg.score")) (events w').
Proof.
  exists (fun m => if pystr_eqb m (lit "pkg.score") then Some (mk_code [] [lit "exec"] []) else Some (mk_code [] [] [])),
    [mk_file [] (lit "package.json"); mk_file [] (lit "__init__.py"); mk_file [] (lit "score.pyc")], (lit "score").
  eexists. exists (mk_code [] [lit "exec"] []). split; [vm_compute; reflexivity|]. split; [vm_compute; auto 10|].
  split; [vm_compute; reflexivity|]. split; [vm_compute; discriminate|].
  vm_compute. intros X; repeat (destruct X as [X|X]; [discriminate X|]); exact X.
Qed.
Print Assumptions C44_violated_main.
