(** Model of the statistics in /repo/esl/algorithms.hpp: integer allocations and means. *)
From Coq Require Import SpecFloat QArith Qround Reals.
From Verif Require Import Base StaticTicks.
Local Open Scope Z_scope.

(** Floating point operations besides those of StaticTicks.v: the absolute value, [std::nearbyint] (half to even), and
    comparison. *)
Record arith_more (A : arith) := mk_more { abs : num A -> num A; nearby : num A -> num A; gtb : num A -> num A -> bool }.
Arguments abs {A}. Arguments nearby {A}. Arguments gtb {A}.
(** The nearest of the integers to [n/d], half to even; [d] is positive. *)
Definition half_even (n d : Z) : Z :=
  let q := n / d in
  match Z.compare (2 * (n mod d)) d with
  | Lt => q
  | Gt => q + 1
  | Eq => if Z.even q then q else q + 1
  end.
Definition exact_more : arith_more exact := mk_more exact Qabs.Qabs (fun q => inject_Z (half_even (Qnum q) (Zpos (Qden q)))) (fun x y => negb (Qle_bool x y)).
Definition double_more : arith_more double := mk_more double SFabs
  (fun x => match x with
            | S754_finite s m e => if 0 <=? e then x else of_Z double (half_even (if s then Zneg m else Zpos m) (2 ^ (- e)))
            | _ => x
            end) (fun x y => SFltb y x).

Definition in_i32 (x : Z) : bool := (- 2 ^ 31 <=? x) && (x <? 2 ^ 31).
Section Allocation.
Context {A : arith} (M : arith_more A).
Fixpoint add_one (i : nat) (l : list Z) : list Z :=
  match l, i with
  | [], _ => []
  | x :: l', O => x + 1 :: l'
  | x :: l', S i' => x :: add_one i' l'
  end.
(** How far a number is from the nearest integer. *)
Definition remainder (f : num A) : num A := sub A f (nearby M f).
(** algorithms.hpp:217-223: [std::sort] may leave the indices in any order in which no index precedes one with a greater
    remainder. *)
Definition sorted_by_remainder (fractions : list (num A)) (order : list nat) : Prop :=
  Permutation order (seq 0 (length fractions)) /\
  StronglySorted (fun i j => gtb M (remainder (nth j fractions (of_Z A 0))) (remainder (nth i fractions (of_Z A 0))) = false) order.
(** algorithms.hpp:205-211: the running total; the numbers rounded, and their total, in an [int]. *)
Fixpoint round_all (fractions : list (num A)) (total : num A) (near : Z) : outcome (num A * Z * list Z) :=
  match fractions with
  | [] => Ret (total, near, [])
  | f :: fs =>
    let near' := near + round_Z A f in
    let r := round_Z A (abs M f) in
    if in_i32 near' && in_i32 r then
      match round_all fs (add A total f) near' with
      | Ret (t, n, rs) => Ret (t, n, r :: rs)
      | Throw => Throw
      | UB => UB
      end
    else UB
  end.
(** algorithms.hpp:200-232 [allocate_fractions]; [order] is what the sort yields. The parameter [sum] is not used. The
    difference of two [int]s is compared with an index of 64 bits without sign. *)
Definition allocate_fractions (fractions : list (num A)) (sum : Z) (order : list nat) : outcome (list Z) :=
  match round_all fractions (of_Z A 0) 0 with
  | Ret (total, near, result) =>
    let target := round_Z A total in
    if negb (in_i32 target) then UB else
    if near =? target then Ret result else
    if negb (in_i32 (target - near)) then UB else
    let count := w64 (target - near) in
    if count <=? Z.of_nat (length order) then Ret (fold_left (fun r i => add_one i r) (firstn (Z.to_nat count) order) result)
    else UB
  | Throw => Throw
  | UB => UB
  end.
End Allocation.

(** ** Means, in real arithmetic (simplification: the code computes in floating point) *)
Section Means.
Local Open Scope R_scope.
(** algorithms.hpp:162-175 [geometric_mean] of floating point numbers; no elements are not allowed. *)
Definition geometric_mean (l : list R) : R := exp (fold_left (fun s x => s + ln x) l 0 / INR (length l)).
(** The same for an integer type: the sum of logarithms is truncated whenever it is stored, and so is the result. *)
Definition truncate (x : R) : Z := if Rle_dec 0 x then Int_part x else (- Int_part (- x))%Z.
Definition geometric_mean_integers (l : list Z) : Z :=
  let log := fold_left (fun s x => truncate (IZR s + ln (IZR x))) l 0%Z in
  truncate (exp (IZR (log / Z.of_nat (length l)))).
(** algorithms.hpp:177-192 [growth_rate]: the number of elements counts the first; without elements, undefined. *)
Fixpoint growth_loop (x : R) (l : list R) (log : R) (elements : nat) : R :=
  match l with
  | [] => exp (log / INR elements) - 1
  | y :: l' => growth_loop y l' (log + (ln y - ln x)) (S elements)
  end.
Definition growth_rate (l : list R) : outcome R :=
  match l with
  | [] => UB
  | x :: l' => Ret (growth_loop x l' 0 1)
  end.
End Means.
