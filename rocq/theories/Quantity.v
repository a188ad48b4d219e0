(** Model of [esl::quantity] — /repo/esl/quantity.hpp. *)
From Verif Require Import Base.

(** quantity.hpp:89-109 [divide<divisor_>]: the first [remainder] array entries get
    [quotient + 1], the others [quotient].  [divisor_ <> 0] is a static_assert, so the
    divisor is a positive [n] here; entries are 64-bit, hence [w64]. *)
Definition q_divide (amount n : Z) : list Z :=
  let quotient := amount / n in
  let remainder := amount mod n in
  repeat (w64 (quotient + 1)) (Z.to_nat remainder)
  ++ repeat quotient (Z.to_nat n - Z.to_nat remainder).

(** Overwrite the first [k] entries of a vector by [v] (loop of lines 270-274). *)
Fixpoint fill_first (k : nat) (v : Z) (l : list Z) : list Z :=
  match k, l with
  | S k', _ :: l' => v :: fill_first k' v l'
  | _, _ => l
  end.

(** Overwrite the entries from position [k] on by [v] (loop of lines 279-283). *)
Fixpoint fill_from (k : nat) (v : Z) (l : list Z) : list Z :=
  match k, l with
  | _, [] => []
  | O, _ :: l' => v :: fill_from O v l'
  | S k', x :: l' => x :: fill_from k' v l'
  end.

(** quantity.hpp:262-285 [operator /].  Division by zero is undefined behaviour.  The test
    [divisor >= (2 * remainder_)] multiplies in 64-bit arithmetic. *)
Definition q_split (amount divisor : Z) : outcome (list Z) :=
  if divisor =? 0 then UB
  else
    let quotient := amount / divisor in
    let remainder := amount mod divisor in
    if divisor >=? w64 (2 * remainder)
    then Ret (fill_first (Z.to_nat remainder) (w64 (quotient + 1))
                (repeat quotient (Z.to_nat divisor)))
    else Ret (fill_from (Z.to_nat remainder) quotient
                (repeat (w64 (quotient + 1)) (Z.to_nat divisor))).

(** quantity.hpp:149-153 [operator +]. *)
Definition q_add (a b : Z) : Z := w64 (a + b).
(** quantity.hpp:123-133 [operator *]. *)
Definition q_mul (a b : Z) : Z := w64 (a * b).
(** quantity.hpp:169-175 [operator -]: throws when the result would be negative. *)
Definition q_sub (a b : Z) : outcome Z :=
  if a <? b then Throw else Ret (w64 (a - b)).

(** A variable of type quantity under compound assignment.  [+=] (158-162) and [-=] (187-191)
    assign the result of [+] / [-]; when [-] throws, the assignment never happens. *)
Inductive q_op := Deposit (x : Z) | Withdraw (x : Z).
Definition q_step (s : Z) (o : q_op) : Z * bool :=
  match o with
  | Deposit x => (q_add s x, true)
  | Withdraw x => match q_sub s x with Ret r => (r, true) | _ => (s, false) end
  end.
(** Run a sequence; the caller catches the exceptions.  The second component lists, per
    operation, whether it completed. *)
Fixpoint q_run (s : Z) (os : list q_op) : Z * list bool :=
  match os with
  | [] => (s, [])
  | o :: os' => let '(s1, ok) := q_step s o in
                let '(s2, oks) := q_run s1 os' in (s2, ok :: oks)
  end.

(** quantity.hpp:323-327 prefix [operator --]: the body is [++amount]. Returns the new
    stored amount (the expression's value is the same object). *)
Definition q_predecrement (a : Z) : Z := w64 (a + 1).
(** quantity.hpp:317-321 prefix [operator ++]. *)
Definition q_preincrement (a : Z) : Z := w64 (a + 1).
(** quantity.hpp:334-337 postfix [operator --]: (value of the expression, stored amount). *)
Definition q_postdecrement (a : Z) : Z * Z := (a, w64 (a - 1)).
(** quantity.hpp:329-332 postfix [operator ++]. *)
Definition q_postincrement (a : Z) : Z * Z := (a, w64 (a + 1)).
