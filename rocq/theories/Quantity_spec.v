(** Specifications used by the quantity theorems (C01-C04); nothing here mentions how
    the library computes. *)
From Verif Require Import Base Quantity.

(** The specification of C01 in one record of facts about a list of parts. *)
Definition fair_split (a n : Z) (parts : list Z) : Prop :=
  length parts = Z.to_nat n /\
  zsum parts = a /\
  (forall x, In x parts -> 0 <= x) /\
  (forall i j, (i <= j < Z.to_nat n)%nat ->
     nth j parts 0 <= nth i parts 0 <= nth j parts 0 + 1).

(** Specification ledger: unbounded integers, a withdrawal is refused iff it exceeds the
    balance. *)
Fixpoint ledger (s : Z) (os : list q_op) : Z * list bool :=
  match os with
  | [] => (s, [])
  | Deposit x :: os' => let '(r, l) := ledger (s + x) os' in (r, true :: l)
  | Withdraw x :: os' =>
      if x <=? s then let '(r, l) := ledger (s - x) os' in (r, true :: l)
      else let '(r, l) := ledger s os' in (r, false :: l)
  end.
(** Total of deposits: a bound that excludes wrap-around. *)
Fixpoint deposits (os : list q_op) : Z :=
  match os with
  | [] => 0
  | Deposit x :: os' => x + deposits os'
  | Withdraw _ :: os' => deposits os'
  end.
Definition op_arg (o : q_op) : Z := match o with Deposit x | Withdraw x => x end.

