(** Specification of pools: a history of stores and erasures of live elements. *)
From Verif Require Import Base BlockPool.

Section Spec.
Context {A : Type}.
(** [history p live handed]: the pool after some stores and erasures of live elements, the live
    elements with their handles, and all handles handed out (latest first). *)
Inductive history (default : A) (capacity : Z) : pool A -> list (Z * A) -> list Z -> Prop :=
| h_new p : new_pool default capacity = Ret p -> history default capacity p [] []
| h_store p live handed p' h e : history default capacity p live handed -> store p e = Ret (p', h) ->
    history default capacity p' ((h, e) :: live) (h :: handed)
| h_erase p l1 h e l2 handed p' r : history default capacity p (l1 ++ (h, e) :: l2) handed -> erase p h = (p', r) ->
    history default capacity p' (l1 ++ l2) handed.
(** Handles are 64-bit: the statements hold as long as they cannot overflow. *)
Definition few (capacity : Z) (handed : list Z) : Prop := (3 * Z.of_nat (length handed) + 2) * capacity < W64.
End Spec.
