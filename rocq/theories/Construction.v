(** Model of the construction of agents and property with virtual base classes - the constructors of
    /repo/esl/agent.cpp, /repo/esl/economics/owner.hpp, /repo/esl/economics/company.cpp, /repo/esl/law/{legal_person,organization,property,contract}.hpp,
    /repo/esl/economics/{asset,money,commodity}.hpp, /repo/esl/economics/finance/{security,bond,stock,loan,debtor}.hpp and the markets.

    The rule of C++ (class.base.init): the constructor of the complete object first initialises all virtual base classes, in the
    order of a depth-first traversal from left to right with base classes before what derives from them, and with its own
    initialisers; initialisers for virtual base classes in the constructors of base classes are skipped.  Then direct
    base classes that are not virtual are initialised in the order of declaration, then the body runs. *)
From Verif Require Import Base Identity Quantity Inventory.

(** The classes of the library that matter here, those for a kind of property, and classes of users. *)
Inductive name :=
| Agent | Owner | OwnerOf (kind : nat) | LegalPerson | Organization | Debtor | Shareholder | Bondholder | Company
| Market | PriceSetter | Exchange | ImpactMarket
| Property | Asset | Contract | Security | Bond | Stock | Money | Loan | Commodity
| User (n : nat).
Definition name_eq_dec (a b : name) : {a = b} + {a <> b}.
Proof. decide equality; apply Nat.eq_dec. Defined.
Definition name_eqb (a b : name) : bool := if name_eq_dec a b then true else false.

(** A class: its base classes, which are virtual or not, and the base classes that the constructor names: [true] when it hands on the
    identity it is given, [false] when it names another value.  Base classes without identity ([identifiable_as], [fungible],
    [intangible], ...) are left out, as are the constructors without arguments, which delegate with the default identity. *)
Inductive class := Class (n : name) (bases : list (bool * class)) (inits : list (name * bool)).
Definition named (c : class) : name := let 'Class n _ _ := c in n.
Definition bases_of (c : class) : list (bool * class) := let 'Class _ bs _ := c in bs.
Definition inits_of (c : class) : list (name * bool) := let 'Class _ _ ins := c in ins.

(** What the initialisers pass to a base class: a default identity, without digits, unless the argument is handed on. *)
Definition passed (inits : list (name * bool)) (b : name) (i : identity) : identity :=
  if existsb (fun x => name_eqb (fst x) b && snd x) inits then i else [].

(** Construction of a base class: its virtual base classes are there already.  The result lists the constructors whose
    body runs, with the identity each was called with. *)
Fixpoint construct_base (c : class) (i : identity) : list (name * identity) :=
  let 'Class n bs ins := c in
  (fix go (l : list (bool * class)) : list (name * identity) :=
     match l with
     | [] => []
     | (true, _) :: l' => go l'
     | (false, b) :: l' => construct_base b (passed ins (named b) i) ++ go l'
     end) bs ++ [(n, i)].
(** The virtual base classes, in the order of their construction, after those already [seen]. *)
Fixpoint virtual_bases (c : class) (seen : list class) : list class :=
  let 'Class _ bs _ := c in
  (fix go (l : list (bool * class)) (seen : list class) : list class :=
     match l with
     | [] => seen
     | (v, b) :: l' =>
         let seen' := virtual_bases b seen in
         go l' (if v && negb (existsb (fun k => name_eqb (named k) (named b)) seen') then seen' ++ [b] else seen')
     end) bs seen.
(** Construction of a complete object. *)
Definition construct (c : class) (i : identity) : list (name * identity) :=
  flat_map (fun b => construct_base b (passed (inits_of c) (named b) i)) (virtual_bases c []) ++ construct_base c i.

(** *** The classes of the library. *)
(** agent.hpp:40-44, agent.cpp:38-42. *)
Definition agent : class := Class Agent [] [].
(** owner.hpp:57-66. *)
Definition owner : class := Class Owner [(true, agent)] [(Agent, true)].
(** owner.hpp:171-192. *)
Definition owner_of (k : nat) : class := Class (OwnerOf k) [(true, owner)] [(Owner, true)].
(** legal_person.hpp:50-98. *)
Definition legal_person : class := Class LegalPerson [(true, agent); (true, owner)] [(Agent, true)].
(** organization.hpp:38-50. *)
Definition organization : class := Class Organization [(false, legal_person)] [(Agent, true); (LegalPerson, true)].
(** debtor.hpp:35-44. *)
Definition debtor : class := Class Debtor [(true, legal_person)] [(LegalPerson, true)].
(** Kinds of property: [cash], [stock], [bond]. *)
Definition k_cash : nat := 0%nat. Definition k_stock : nat := 1%nat. Definition k_bond : nat := 2%nat.
(** shareholder.hpp:53-57, shareholder.cpp:44-48. *)
Definition shareholder : class :=
  Class Shareholder [(true, owner_of k_cash); (true, owner_of k_stock)] [(Agent, true); (OwnerOf k_cash, true); (OwnerOf k_stock, true)].
(** bondholder.hpp:53-57, bondholder.cpp:38-39. *)
Definition bondholder : class :=
  Class Bondholder [(true, owner_of k_cash); (true, owner_of k_bond)] [(Agent, true); (OwnerOf k_cash, true); (OwnerOf k_bond, true)].
(** company.hpp:58-62, company.cpp:89-99. *)
Definition company : class :=
  Class Company [(false, organization); (false, shareholder); (false, bondholder)]
    [(Agent, true); (OwnerOf k_cash, true); (OwnerOf k_stock, true); (Organization, true); (Shareholder, true)].
(** market.hpp:44-46, 89-95. *)
Definition market : class := Class Market [(true, agent)] [(Agent, true)].
(** price_setter.hpp:47-49, price_setter.cpp:72-80; centralized_exchange.hpp:59-62, 427-432; impact_function/market.hpp:40-42, market.cpp:45-52. *)
Definition price_setter : class := Class PriceSetter [(false, market)] [(Agent, true); (Market, true)].
Definition exchange : class := Class Exchange [(false, market)] [(Agent, true); (Market, true)].
Definition impact_market : class := Class ImpactMarket [(false, market)] [(Agent, true); (Market, true)].

(** property.hpp:38-43, property.cpp:34-38. *)
Definition property : class := Class Property [] [].
(** asset.hpp:55-61, asset.cpp:31-35. *)
Definition asset : class := Class Asset [(true, property)] [(Property, true)].
(** contract.hpp:39-53: names [property] with the default identity. *)
Definition contract : class := Class Contract [(true, property)] [(Property, false)].
(** security.hpp:45-56. *)
Definition security : class := Class Security [(false, asset); (false, contract)] [(Asset, true); (Contract, false)].
(** bond.hpp:60-62, 90-95. *)
Definition bond : class := Class Bond [(true, security)] [(Property, true); (Security, true)].
(** stock.hpp:37-38, stock.cpp:88-97. *)
Definition stock : class := Class Stock [(true, security)] [(Property, true); (Security, true)].
(** money.hpp:41-54. *)
Definition money : class := Class Money [(false, asset)] [(Property, true); (Asset, true)].
(** loan.hpp:43-63: there is no argument for an identity. *)
Definition loan : class := Class Loan [(false, contract)] [(Contract, false)].
(** commodity.hpp:33-44: nor here. *)
Definition commodity : class := Class Commodity [(true, asset)] [(Asset, false)].

(** The identities that the constructors of [agent] or [property] within an object were called with: one when the object has one such part. *)
Definition identities (root : name) (c : class) (i : identity) : list identity :=
  map snd (filter (fun e => name_eqb (fst e) root) (construct c i)).

(** *** Handlers of transfers. *)
(** owner.hpp:99-102, 245-248: the constructors of [owner<property>] and [owner<T>] register one handler each, both with priority 50;
    communicator.hpp:264 puts it after the others with that priority, and communicator.cpp:60-75 calls the last one first. *)
Definition handlers (c : class) (i : identity) : list (option nat) :=
  rev (flat_map (fun e => match fst e with Owner => [None] | OwnerOf k => [Some k] | _ => [] end) (construct c i)).

(** The holdings of an owner: for each kind of property the view, and the inventory.  [is_kind k] tells of which identities the property
    has kind [k]. *)
Definition role_state : Type := (nat -> holdings) * holdings.
Section Roles.
Context (is_kind : nat -> identity -> bool).
Definition set_view (k : nat) (h : holdings) (o : role_state) : role_state := (fun j => if Nat.eq_dec j k then h else fst o j, snd o).
(** owner.hpp:202-219: the view as it is left when the items have been taken from it one by one, until one of them throws. *)
Fixpoint left_by_typed (is_T : identity -> bool) (items m : holdings) : holdings :=
  match items with
  | [] => m
  | (i, q) :: items' =>
      if is_T i then match inv_erase m i q with Ret m' => left_by_typed is_T items' m' | _ => m end else left_by_typed is_T items' m
  end.
(** One handler (owner.hpp:68-96, 194-238): the state it leaves, and how it ends. *)
Definition call_handler (self : identity) (t : transfer) (h : option nat) (o : role_state) : role_state * outcome unit :=
  match h with
  | None => match process_transfer self t (snd o) with
            | Some v => ((fst o, v), Ret tt)
            | None => ((fst o, fst (erase_from (transferred t) (snd o))), Throw)
            end
  | Some k => match process_typed (is_kind k) self t (fst o k) with
              | Ret v => (set_view k v o, Ret tt)
              | Throw => (set_view k (left_by_typed (is_kind k) (transferred t) (fst o k)) o, Throw)
              | UB => (o, UB)
              end
  end.
(** communicator.cpp:60-75: the handlers in turn; an exception leaves the loop. *)
Fixpoint call_handlers (self : identity) (t : transfer) (hs : list (option nat)) (o : role_state) : role_state * outcome unit :=
  match hs with
  | [] => (o, Ret tt)
  | h :: hs' => let '(o', s) := call_handler self t h o in match s with Ret _ => call_handlers self t hs' o' | _ => (o', s) end
  end.
End Roles.
