(** Shared vocabulary: machine words and outcomes of C++ calls. *)
From Coq Require Export List Arith ZArith Lia Bool Permutation Sorted.
From Coq Require Import ZifyBool ZifyNat ZifyN.
Export ListNotations.
#[global] Open Scope Z_scope.

(** Outcome of a call: normal return, C++ exception, or undefined behaviour. *)
Inductive outcome (A : Type) : Type :=
| Ret (a : A)
| Throw
| UB.
Arguments Ret {A} a.
Arguments Throw {A}.
Arguments UB {A}.

(** Machine words.  [w64 x] is the value stored in a [std::uint64_t] when the
    mathematical result is [x] (unsigned arithmetic wraps, C++17 [basic.fundamental]/4). *)
Definition W64 : Z := 2 ^ 64.
Definition W32 : Z := 2 ^ 32.
Definition w64 (x : Z) : Z := x mod W64.
Definition w32 (x : Z) : Z := x mod W32.
Definition u64 (x : Z) : Prop := 0 <= x < W64.
Definition u32 (x : Z) : Prop := 0 <= x < W32.
Definition i64 (x : Z) : Prop := - 2 ^ 63 <= x < 2 ^ 63.
(** Conversion of a 64-bit pattern to [std::int64_t] (two's complement). *)
Definition s64 (x : Z) : Z := let y := x mod W64 in if y <? 2 ^ 63 then y else y - W64.

Definition zsum (l : list Z) : Z := fold_right Z.add 0 l.
Arguments W64 : simpl never.
Arguments W32 : simpl never.
#[global] Arguments Z.eqb : simpl never.
#[global] Arguments Z.ltb : simpl never.
#[global] Arguments Z.leb : simpl never.
#[global] Arguments Z.gtb : simpl never.
#[global] Arguments Z.geb : simpl never.
#[global] Arguments Z.add : simpl never.
#[global] Arguments Z.sub : simpl never.
#[global] Arguments Z.mul : simpl never.
#[global] Arguments Z.div : simpl never.
#[global] Arguments Z.modulo : simpl never.
#[global] Arguments Z.pow : simpl never.
#[global] Arguments Z.min : simpl never.
#[global] Arguments Z.max : simpl never.
