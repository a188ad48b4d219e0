(** Model of random draws - /repo/esl/mathematics/zero_truncated_poisson_distribution.hpp and
    /repo/esl/interaction/communication.hpp.  Arithmetic on [double] is replaced by exact rational arithmetic. *)
From Coq Require Import QArith Qround.
From Verif Require Import Base.
Local Open Scope Q_scope.

(** zero_truncated_poisson_distribution.hpp:59-64: the loop; [n] is how often [k] can still grow until it is the largest
    number of its type. *)
Fixpoint draw (lambda u : Q) (n : nat) (k : Z) (t s : Q) : Z :=
  if Qlt_le_dec s u then
    match n with
    | O => k
    | S n' => let t' := t * (lambda / inject_Z k) in draw lambda u n' (k + 1) t' (s + t')
    end
  else k.
(** 48-67 [operator()]: [e] is [std::exp(-lambda)], [u] the uniform draw, [largest] the largest number of the type of the
    result. *)
Definition zero_truncated_poisson (largest : Z) (lambda e u : Q) : Z :=
  let t := e / (1 - e) * lambda in draw lambda u (Z.to_nat (largest - 1)) 1 t t.

(** communication.hpp:96-106 [shifted_gamma_latency::sample]: [unit] is the draw from the gamma distribution with this shape
    and scale one; the second argument of [std::gamma_distribution] is the scale, by which it is multiplied.  The
    conversion to an unsigned number drops the fraction; without a result in range it is undefined. *)
Definition latency (shape rate shift unit : Q) : outcome Z :=
  let x := shift + rate * unit in
  if Qlt_le_dec (-1) x then if Qlt_le_dec x (inject_Z W64) then Ret (Z.max 0 (Qfloor x)) else UB else UB.
