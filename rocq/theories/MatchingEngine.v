(** Model of the matching engine — /repo/esl/economics/markets/order_book/matching_engine.hpp:41-85:
    a [boost::container::flat_map] from tickers to order books.  A book is shown with the reports
    it has queued.  Simplified: the factory is the default one (lines 51-54: a fresh binary tree
    book); the ticker of an order is passed next to the order. *)
From Verif Require Import Base Identity Money BinaryBook.

Definition shelf : Type := book * list report.
(** flat_map: sorted by key. *)
Definition engine : Type := list (ticker * shelf).
Definition empty_engine : engine := [].
(** [books.find]: lower bound, then test for equivalence. *)
Fixpoint find (t : ticker) (e : engine) : option shelf :=
  match e with
  | [] => None
  | (k, s) :: e' => if tk_ltb k t then find t e' else if tk_ltb t k then None else Some s
  end.
(** [books.emplace]: at the lower bound. *)
Fixpoint emplace (t : ticker) (s : shelf) (e : engine) : engine :=
  match e with
  | [] => [(t, s)]
  | (k, x) :: e' => if tk_ltb k t then (k, x) :: emplace t s e' else if tk_ltb t k then (t, s) :: e else e
  end.
(** The book the iterator points to, changed in place. *)
Fixpoint modify (t : ticker) (f : shelf -> shelf) (e : engine) : engine :=
  match e with
  | [] => []
  | (k, x) :: e' => if tk_ltb k t then (k, x) :: modify t f e' else if tk_ltb t k then e else (k, f x) :: e'
  end.
Definition on_book (f : book -> book * list report) (s : shelf) : shelf :=
  let '(b, r) := f (fst s) in (b, snd s ++ r).
(** matching_engine.hpp:67-75. *)
Definition engine_insert (e : engine) (t : ticker) (o : order) : engine :=
  let e := match find t e with Some _ => e | None => emplace t (empty_book, []) e end in
  modify t (on_book (fun b => insert b o)) e.
(** matching_engine.hpp:77-85. *)
Definition engine_cancel (e : engine) (t : ticker) (i : Z) : engine :=
  match find t e with Some _ => modify t (on_book (fun b => cancel b i)) e | None => e end.
Definition engine_step (e : engine) (x : ticker * op) : engine :=
  match snd x with Insert o => engine_insert e (fst x) o | Cancel i => engine_cancel e (fst x) i end.
Definition engine_run (h : list (ticker * op)) : engine := fold_left engine_step h empty_engine.
