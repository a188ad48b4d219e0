From Verif Require Import Base Identity Money BinaryBook.
(** The operations addressed to one ticker, in order. *)
Definition addressed (t : ticker) (h : list (ticker * op)) : list op := map snd (filter (fun x => tk_eqb (fst x) t) h).
Definition is_insert (x : op) : bool := match x with Insert _ => true | Cancel _ => false end.
