(** Exceptions of the executor: pyee/pyexec/base/exception.py and iconscore/icon_score_step.py. *)
From Verif Require Import Model.Bytes.

(** pyee/pyexec/base/exception.py:20-38 [ExceptionCode]. *)
Definition OK := 0.
Definition SYSTEM_ERROR := 1.
Definition CONTRACT_NOT_FOUND := 2.
Definition METHOD_NOT_FOUND := 3.
Definition METHOD_NOT_PAYABLE := 4.
Definition ILLEGAL_FORMAT := 5.
Definition INVALID_PARAMETER := 6.
Definition INVALID_INSTANCE := 7.
Definition INVALID_CONTAINER_ACCESS := 8.
Definition ACCESS_DENIED := 9.
Definition OUT_OF_STEP := 10.
Definition SCORE_ERROR := 32.
Definition END := 999.

(** pyee/pyexec/iconscore/icon_score_step.py:29-43 [StepType] (as dictionary keys). *)
Inductive step_type :=
| SCHEMA | GET | SET | REPLACE | DELETE | EVENT_LOG | API_CALL
| GET_BASE | SET_BASE | DELETE_BASE | LOG_BASE | LOG.

Definition step_type_eqb (a b : step_type) : bool :=
  match a, b with
  | SCHEMA, SCHEMA | GET, GET | SET, SET | REPLACE, REPLACE | DELETE, DELETE
  | EVENT_LOG, EVENT_LOG | API_CALL, API_CALL | GET_BASE, GET_BASE | SET_BASE, SET_BASE
  | DELETE_BASE, DELETE_BASE | LOG_BASE, LOG_BASE | LOG, LOG => true
  | _, _ => false
  end.

(** pyee/pyexec/base/exception.py:44-144: the classes below [IconServiceBaseException].  The last two
    carry a code of their own; the code of the others is fixed by the class. *)
Inductive exc_class :=
| ScoreNotFound | MethodNotFound | MethodNotPayable | InvalidParams | Database | InvalidInstance
| InvalidContainerAccess | IllegalFormat | InvalidRequest | InvalidExternal | InvalidPayable
| InvalidEventLog | InvalidInterface
| IconServiceBase (code : Z)
| IconScore (code : Z).

(** Python exceptions raised on the modelled paths.  [EPy] is any instance of Python's [Exception]; [EBase]
    any other [BaseException] (for example [SystemExit]); the icon exceptions derive from [BaseException]
    directly (exception.py:44), so [except Exception] does not catch them.  Messages are not modelled. *)
Inductive exn :=
| EIcon (c : exc_class)
| EOutOfStep (step_limit step_used requested : Z) (ty : step_type)
| EPy (kind : Z)
| EBase (kind : Z).

(** Kinds of [EPy] used by the model. *)
Definition KInvalidMsg := 1.        (* proxy.py:461,476,...: Exception('InvalidMsg..') *)
Definition KNoPermission := 2.      (* proxy.py:484,500: Exception('NoPermissionToWrite') *)
Definition KInvalidParameter := 3.  (* proxy.py:503 *)
Definition KIndexError := 4.        (* list.pop(0) on an empty list *)
Definition KAssertion := 5.         (* AssertionError *)
Definition KUnicode := 6.           (* UnicodeEncodeError / UnicodeDecodeError *)
Definition KValueError := 7.
Definition KOverflow := 8.
Definition KIllegalBool := 9.       (* proxy.py:290 *)
Definition KUnknownType := 10.      (* pyexec.py:37,43 *)
Definition KInvalidKey := 11.       (* proxy.py:339 *)
Definition KTypeError := 12.
Definition KKeyError := 13.

(** pyee/pyexec/base/exception.py:69-144 and icon_score_step.py:68-70: the [code] property. *)
Definition class_code (c : exc_class) : Z :=
  match c with
  | ScoreNotFound => CONTRACT_NOT_FOUND
  | MethodNotFound => METHOD_NOT_FOUND
  | MethodNotPayable => METHOD_NOT_PAYABLE
  | InvalidParams => INVALID_PARAMETER
  | Database => ACCESS_DENIED
  | InvalidInstance => INVALID_INSTANCE
  | InvalidContainerAccess => INVALID_CONTAINER_ACCESS
  | IllegalFormat | InvalidRequest | InvalidExternal | InvalidPayable
  | InvalidEventLog | InvalidInterface => ILLEGAL_FORMAT
  | IconServiceBase code => code
  | IconScore code => code
  end.

(** pyee/pyexec/base/exception.py:134-144 [IconScoreException.__init__] for an integer [index]. *)
Definition mk_IconScoreException (index : Z) : exc_class :=
  let code := SCORE_ERROR + index in
  IconScore (if code <? SCORE_ERROR then SCORE_ERROR else if END <? code then END else code).

(** pyee/pyexec/base/exception.py:62-66 [IconServiceBaseException.create]. *)
Definition create_exception (code : Z) : exc_class :=
  if (SCORE_ERROR <=? code) && (code <=? END)
  then mk_IconScoreException (code - SCORE_ERROR)
  else IconServiceBase (code + OK).

(** pyee/pyexec/service_engine.py:135-152 [_get_status_from_exception] (the status only). *)
Definition status_of (e : exn) : Z :=
  match e with
  | EIcon c => class_code c
  | EOutOfStep _ _ _ _ => OUT_OF_STEP
  | EPy _ | EBase _ => SYSTEM_ERROR
  end.

(** Whether Python's [except Exception] catches it. *)
Definition is_Exception (e : exn) : bool := match e with EPy _ => true | _ => false end.

Notation pyres A := (res exn A).
