(** Model of [esl::identity] and of identity creation by [esl::entity] —
    /repo/esl/simulation/identity.hpp, /repo/esl/simulation/entity.hpp, /repo/esl/agent.cpp.
    An identity is its list of 64-bit digits (identity.hpp:100). *)
From Verif Require Import Base Text.

Definition identity := list Z.

(** identity.hpp:202-210 [operator ==]: std::equal over both ranges. *)
Fixpoint id_eqb (a b : identity) : bool :=
  match a, b with
  | [], [] => true
  | x :: a', y :: b' => (x =? y) && id_eqb a' b'
  | _, _ => false
  end.

(** identity.hpp:228-236 [operator <]: std::lexicographical_compare. *)
Fixpoint id_ltb (a b : identity) : bool :=
  match a, b with
  | _, [] => false
  | [], _ :: _ => true
  | x :: a', y :: b' => if x <? y then true else if y <? x then false else id_ltb a' b'
  end.
(** identity.hpp:243-248, 255-263, 269-274. *)
Definition id_leb (a b : identity) : bool := id_ltb a b || id_eqb a b.
Definition id_gtb (a b : identity) : bool := id_ltb b a.
Definition id_geb (a b : identity) : bool := id_gtb a b || id_eqb a b.

(** identity.hpp:292-310 [operator <<] and 317-325 [representation(width)]: nothing for an
    empty identity, otherwise the padded digits separated by '-' (45) inside double quotes (34). *)
Definition id_print (width : nat) (i : identity) : list Z :=
  match i with
  | [] => []
  | d :: ds => 34 :: dec_padded width d
               ++ concat (map (fun x => 45 :: dec_padded width x) ds) ++ [34]
  end.

(** An entity: its identifier and the private counter [children_] (entity.hpp:78-85). *)
Record entity := { e_id : identity; e_children : Z }.
(** entity.hpp:100-105: a new entity starts with [children_ = 0]. *)
Definition new_entity (i : identity) : entity := {| e_id := i; e_children := 0 |}.

(** entity.hpp:121-128 (and identity.hpp:332-341) [create()]: append the counter to the
    creator's digits, increment the counter (64-bit). *)
Definition create (e : entity) : identity * entity :=
  (e_id e ++ [e_children e], {| e_id := e_id e; e_children := w64 (e_children e + 1) |}).

(** agent.cpp:44-50: the copy constructor of agent constructs the entity base from the
    identifier only, so the copy's counter restarts at 0. *)
Definition copy_agent (e : entity) : entity := new_entity (e_id e).
(** entity.hpp:144-148: the protected entity copy constructor keeps the counter. *)
Definition copy_entity (e : entity) : entity := e.

(** All entities alive in a program, in creation order.  [Create k]: the [k]-th entity calls
    [create()] and an entity is constructed from the returned identity.  [CopyAgent k]: the
    [k]-th entity is copied.  An index that names no entity performs nothing. *)
Inductive id_op := Create (k : nat) | CopyAgent (k : nat).
Fixpoint update_nth {A} (k : nat) (x : A) (l : list A) : list A :=
  match k, l with
  | _, [] => []
  | O, _ :: l' => x :: l'
  | S k', y :: l' => y :: update_nth k' x l'
  end.
Definition id_step (pool : list entity) (o : id_op) : list entity * list identity :=
  match o with
  | Create k =>
      match nth_error pool k with
      | Some e => let '(i, e') := create e in (update_nth k e' pool ++ [new_entity i], [i])
      | None => (pool, [])
      end
  | CopyAgent k =>
      match nth_error pool k with
      | Some e => (pool ++ [copy_agent e], [])
      | None => (pool, [])
      end
  end.
(** Run a history; returns the pool and the identities returned by [create()], in order. *)
Fixpoint id_run (pool : list entity) (os : list id_op) : list entity * list identity :=
  match os with
  | [] => (pool, [])
  | o :: os' => let '(p1, out) := id_step pool o in
                let '(p2, outs) := id_run p1 os' in (p2, out ++ outs)
  end.
