(** Which Python values belong to which declared parameter type. *)
From Verif Require Import Model.Bytes Model.Utf8 Model.Address Model.Typed Model.ScoreClass.
Definition fits (b : base) (v : pyval) : Prop :=
  match b, v with
  | BInt, VInt _ | BBool, VBool _ | BStr, VStr _ => True
  | BBytes, VBytes bs => wf_bytes bs
  | BAddress, VAddr a => wf_address a
  | _, _ => False
  end.
