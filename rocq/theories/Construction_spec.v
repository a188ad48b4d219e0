(** What the properties of the construction of agents and property say. *)
From Verif Require Import Base Identity Quantity Inventory Inventory_spec Construction.

(** [b] is a base class of [c], directly or not. *)
Inductive inherits : class -> class -> Prop :=
| inherits_direct c v b : In (v, b) (bases_of c) -> inherits c b
| inherits_indirect c v d b : In (v, d) (bases_of c) -> inherits d b -> inherits c b.
(** Wherever a class with the name [r] is a base class in [c], it is virtual and is [b]. *)
Inductive shares (r : class) : class -> Prop :=
| shares_class c : (forall v b, In (v, b) (bases_of c) -> (named b = named r -> v = true /\ b = r) /\ shares r b) -> shares r c.
(** The constructor of [c] hands its identity on to the base class. *)
Definition hands_on (c : class) (r : name) : Prop := In (r, true) (inits_of c).
(** From [c] to the base class there is one line of base classes that are not virtual, each of which hands on the identity. *)
Inductive line (r : class) : class -> Prop :=
| line_last n ins b : b = r -> n <> named r -> hands_on (Class n [(false, b)] ins) (named r) -> line r (Class n [(false, b)] ins)
| line_step n ins b : named b <> named r -> n <> named r -> hands_on (Class n [(false, b)] ins) (named b) -> line r b -> line r (Class n [(false, b)] ins).

(** Classes made from the library: the listed classes, and classes of users that derive from these, where the classes for owners
    and the class for agents are only derived from virtually, as the library does. *)
Definition library_agents : list class :=
  [agent; owner; legal_person; organization; debtor; shareholder; bondholder; company; market; price_setter; exchange; impact_market].
Definition is_role (c : class) : Prop := c = agent \/ c = owner \/ exists k, c = owner_of k.
Inductive made_from_library : class -> Prop :=
| made_library c : In c library_agents -> made_from_library c
| made_owner k : made_from_library (owner_of k)
| made_user n bs ins : (forall v b, In (v, b) bs -> made_from_library b /\ (is_role b -> v = true)) -> made_from_library (Class (User n) bs ins).

(** [c] is or has an owner of property of the kind. *)
Definition roles_of (c : class) (k : nat) : Prop := c = owner_of k \/ inherits c (owner_of k).

(** Histories of an agent with several roles: it receives transfers that are handled to the end, each valid, between
    different parties. *)
Definition proper (t : transfer) : Prop := valid (transferred t) /\ transferor t <> transferee t.
Inductive role_history (is_kind : nat -> identity -> bool) (self : identity) (hs : list (option nat)) : role_state -> Prop :=
| rh_start : role_history is_kind self hs (fun _ => [], [])
| rh_receive o t o' : role_history is_kind self hs o -> proper t -> call_handlers is_kind self t hs o = (o', Ret tt) ->
    role_history is_kind self hs o'.

(** What a handler keeps: the view of a kind of property, or the inventory; and of what property. *)
Definition kept (h : option nat) (o : role_state) : holdings := match h with Some k => fst o k | None => snd o end.
Definition concerns (is_kind : nat -> identity -> bool) (h : option nat) (p : identity) : bool := match h with Some k => is_kind k p | None => true end.
(** From [m] the listed property has been taken, of those that [of_kind] tells. *)
Definition taken (of_kind : identity -> bool) (items m m' : holdings) : Prop := forall p, held m' p = (held m p - if of_kind p then held items p else 0)%Z.
(** The items up to the first of which there was not enough have been taken. *)
Definition part_taken (of_kind : identity -> bool) (items m m' : holdings) : Prop :=
  exists before p q after, items = before ++ (p, q) :: after /\ of_kind p = true /\ (held m p < q)%Z /\ taken of_kind before m m'.
