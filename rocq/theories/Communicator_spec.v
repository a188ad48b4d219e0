(** Specifications of message handling. *)
From Verif Require Import Base Identity Multimap Communicator.

Section Spec.
Context {A : Type}.
(** A registration: message code, priority, callback. *)
Record registration := mk_registration { r_type : Z; r_priority : Z; r_callback : callback A }.
(** The communicator after a sequence of registrations, all accepted. *)
Inductive registers : communicator A -> list registration -> communicator A -> Prop :=
| reg_nil c : registers c [] c
| reg_cons c r rs c1 c2 : register c (r_type r) (r_priority r) (r_callback r) = Ret c1 -> registers c1 rs c2 -> registers c (r :: rs) c2.
(** Registrations for one message code. *)
Definition for_type (t : Z) (rs : list registration) : list registration := filter (fun r => r_type r =? t) rs.
Definition with_priority (p : Z) (rs : list registration) : list registration := filter (fun r => r_priority r =? p) rs.
(** Calling callbacks one after the other, each once; the results in order. *)
Inductive calls (m : message) (lower upper : Z) (s : seed) : list (callback A) -> A -> list Z -> A -> Prop :=
| calls_nil a : calls m lower upper s [] a [] a
| calls_cons f fs a a1 t ts a2 : f m lower upper s a = (a1, t) -> calls m lower upper s fs a1 ts a2 -> calls m lower upper s (f :: fs) a (t :: ts) a2.
(** Earliest of [upper] and a list of times. *)
Definition earliest (upper : Z) (ts : list Z) : Z := fold_right Z.min upper ts.
Definition within (lower upper t : Z) : Prop := lower <= t <= upper.
(** Highest priority first; among equal priorities the latest registration first. *)
Definition call_order (rs order : list registration) : Prop :=
  StronglySorted (fun x y => r_priority x >= r_priority y) order /\
  forall p, with_priority p order = rev (with_priority p rs).
(** A message is due when its delivery time is not after the start of the step. *)
Definition due (lower : Z) (inbox : list (Z * message)) : list message := map snd (filter (fun x => fst x <=? lower) inbox).
(** There is a callback for the type of the message. *)
Definition handled (rs : list registration) (m : message) : bool := existsb (fun r => r_type r =? m_type m) rs.
(** [p] is the priority of message [m]: the highest among the callbacks for its type. *)
Definition has_priority (rs : list registration) (p : Z) (m : message) : bool :=
  existsb (fun r => (r_type r =? m_type m) && (r_priority r =? p)) rs &&
  forallb (fun r => negb (r_type r =? m_type m) || (r_priority r <=? p)) rs.
(** Highest priority first. *)
Definition by_falling_priority (rs : list registration) (order : list message) : Prop :=
  StronglySorted (fun x y => forall p q, has_priority rs p x = true -> has_priority rs q y = true -> p >= q) order.
(** Handling messages one after the other, each once; the results in order. *)
Inductive handles (c : communicator A) (lower upper : Z) (s : seed) : list message -> A -> list Z -> A -> Prop :=
| handles_nil a : handles c lower upper s [] a [] a
| handles_cons m ms a a1 t ts a2 : process_message c lower upper s m a = Ret (a1, t) -> handles c lower upper s ms a1 ts a2 ->
    handles c lower upper s (m :: ms) a (t :: ts) a2.
Definition int8 (p : Z) : Prop := -128 <= p <= 127.
End Spec.
Arguments registration : clear implicits.
