(** Specification for access to an exchange. *)
From Verif Require Import Base Identity BinaryBook BinaryBook_spec Exchange Exchange_spec Access.

(** The messages other than those to log on and off. *)
Definition trading (h : list (Z * identity * body)) : list (Z * identity * body) :=
  filter (fun '(_, _, m) => match m with ToLogon _ | ToLogout => false | _ => true end) h.
