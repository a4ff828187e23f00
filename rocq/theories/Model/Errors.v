(** Raising user errors: pyee/pyexec/iconscore/icon_score_base2.py [revert], base/exception.py. *)
From Verif Require Import Model.Bytes Model.Utf8 Model.Exn.

(** The [code] argument as given: an [int], or something else that [int()] turns into a number or refuses. *)
Inductive code_arg := CInt (z : Z) | CConv (r : option Z).
(** The [message] argument: a string, or something else that [str()] turns into one or refuses. *)
Inductive text_arg := TStr (s : pystr) | TConv (r : option pystr).

(** "Revert error: code or message is invalid" *)
Definition revert_error_text : pystr :=
  [82; 101; 118; 101; 114; 116; 32; 101; 114; 114; 111; 114; 58; 32; 99; 111; 100; 101; 32; 111; 114; 32; 109; 101; 115;
   115; 97; 103; 101; 32; 105; 115; 32; 105; 110; 118; 97; 108; 105; 100].

(** icon_score_base2.py:182-205: the exception [revert] raises, with its message. *)
Definition revert (message : text_arg) (code : code_arg) : exn * pystr :=
  let code := match code with CInt z => Some z | CConv r => r end in
  match code with
  | None => (EIcon InvalidParams, revert_error_text)
  | Some z =>
      let message := match message with TStr s => Some s | TConv r => r end in
      match message with
      | None => (EIcon InvalidParams, revert_error_text)
      | Some s => (EIcon (mk_IconScoreException z), s)
      end
  end.
