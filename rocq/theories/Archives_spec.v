(** Archiving. *)
From Verif Require Import Base Identity Money Archives.

(** Reading what was written gives the value back, and leaves what follows. *)
Definition restores {A} (save : A -> list item) (load : reader A) : Prop := forall x rest, load (save x ++ rest) = Ret (x, rest).
(** No way of reading can tell the two apart. *)
Definition lost {A} (save : A -> list item) (x y : A) : Prop := x <> y /\ forall load : reader A, load (save x) = load (save y).
(** A message that is nothing but its header. *)
Definition plain (l : letter) : Prop := l_body l = Plain.
(** A message somebody is to receive. *)
Definition addressed (l : letter) : Prop := h_recipient (l_head l) <> [].
