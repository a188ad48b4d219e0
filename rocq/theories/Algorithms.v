(** Model of /repo/esl/algorithms.hpp: integer power, arrays, enumeration and the simplex grid.
    A [std::array] is the list of its elements. *)
From Verif Require Import Base BlockingQueue.

(** algorithms.hpp:48-65 [nonnegative_integer_power] for an unsigned type of [w] bits that is not
    promoted to [int] (w at least 32): products are reduced modulo 2^w.  [fuel] bounds the recursion depth;
    [None] is out of fuel. *)
Fixpoint power_from (fuel : nat) (w x p : Z) : option Z :=
  match fuel with
  | O => None
  | S fuel' =>
      if p =? 0 then Some 1
      else if p =? 1 then Some x
      else match power_from fuel' w x (p / 2) with
           | None => None
           | Some half => if p mod 2 =? 0 then Some ((half * half) mod 2 ^ w) else Some (((x * half) mod 2 ^ w * half) mod 2 ^ w)
           end
  end.
(** An exponent of [w] bits halves at most [w] times. *)
Definition nonnegative_integer_power (w x p : Z) : option Z := power_from (Z.to_nat w + 1) w x p.

Section Arrays.
Context {E : Type} (zero : E).
(** Assignment [r[i] = e]. *)
Definition assign (r : list E) (i : nat) (e : E) : list E := update r i e.
(** algorithms.hpp:105-119 [array_concatenate]: zero-initialised result, two loops over one index. *)
Definition array_concatenate (a b : list E) : list E :=
  let first := length a in
  let second := length b in
  let r0 := repeat zero (first + second) in
  let r1 := fold_left (fun r i => assign r i (nth i a zero)) (seq 0 first) r0 in
  fold_left (fun r i => assign r i (nth (i - first) b zero)) (seq first second) r1.
(** algorithms.hpp:130-145 [array_slice]; the static assertion rejects [stop > length a], and the
    array type rejects [stop < start] (a wrapped, enormous size). *)
Definition array_slice (start stop : nat) (a : list E) : option (list E) :=
  if Nat.leb stop (length a) && Nat.leb start stop then
    Some (fold_left (fun r i => assign r (i - start) (nth i a zero)) (seq start (stop - start)) (repeat zero (stop - start)))
  else None.
End Arrays.
(** algorithms.hpp:237-279 [enumerate]: the range-for loop over it.  An iterator is the index and the
    rest of the collection; it differs from the end as long as there is a rest. *)
Fixpoint enumerate_from {E} (i : nat) (rest : list E) : list (nat * E) :=
  match rest with
  | [] => []
  | e :: rest' => (i, e) :: enumerate_from (S i) rest'
  end.
Definition enumerate {E} (l : list E) : list (nat * E) := enumerate_from 0 l.

(** algorithms.hpp:283-307 [sample_barycentric], over any arithmetic: [frac n] is
    [double(n) / divisions], [gt] the comparison [>].  Zero dimensions recurse (practically) forever:
    no result. *)
Section Barycentric.
Context {R : Type} (frac : nat -> R) (sub : R -> R -> R) (gt : R -> R -> bool).
(** The loop over [n], from [n] on, for [k] more values; [rec] samples one dimension less. *)
Fixpoint barycentric_loop (rec : R -> list (list R)) (k n : nat) (remainder : R) : list (list R) :=
  match k with
  | O => []
  | S k' =>
      let fraction := frac n in
      if gt fraction remainder then []
      else map (fun t => t ++ [fraction]) (rec (sub remainder fraction)) ++ barycentric_loop rec k' (S n) remainder
  end.
Fixpoint sample_barycentric (dimensions divisions : nat) (remainder : R) : option (list (list R)) :=
  match dimensions with
  | O => None
  | S d =>
      Some (match d with
            | O => [[remainder]]
            | S _ => barycentric_loop (fun r => match sample_barycentric d divisions r with Some l => l | None => [] end) divisions 0 remainder
            end)
  end.
End Barycentric.
