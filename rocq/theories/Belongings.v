(** Model of the identities of property and what they mean for collections of it - /repo/esl/law/{property,property_collection,contract}.hpp,
    /repo/esl/economics/{cash,money}.hpp, /repo/esl/economics/finance/{loan,securities_lending_contract,stock,share_class}.hpp,
    /repo/esl/economics/accounting/inventory.hpp. *)
From Verif Require Import Base Text Identity Quantity Money CheckDigits.
Local Open Scope Z_scope.

(** share_class.hpp:39-96; [preference] is a float, of which only the identity matters here. *)
Record share_class := mk_share_class { rank : Z; votes : Z; preference : Z; pays : bool; cumulative : bool; redeemable : bool }.
(** share_class.hpp:100-108. *)
Definition class_eqb (a b : share_class) : bool :=
  (rank a =? rank b) && (votes a =? votes b) && Bool.eqb (pays a) (pays b) && (preference a =? preference b) &&
  Bool.eqb (cumulative a) (cumulative b) && Bool.eqb (redeemable a) (redeemable b).
(** share_class.hpp:110-113. *)
Definition class_ltb (a b : share_class) : bool := rank a <? rank b.
(** [m[s] = n] of a [std::map<share_class, uint64_t>] (company.hpp:70, 76, shareholder.hpp:78, dividend.hpp:149), which
    looks at [operator <] only and keeps the key that is there. *)
Fixpoint class_assign (s : share_class) (n : Z) (m : list (share_class * Z)) : list (share_class * Z) :=
  match m with
  | [] => [(s, n)]
  | (k, x) :: m' => if class_ltb k s then (k, x) :: class_assign s n m' else if class_ltb s k then (s, n) :: m else (k, n) :: m'
  end.
(** [find] *)
Fixpoint class_find (s : share_class) (m : list (share_class * Z)) : option Z :=
  match m with
  | [] => None
  | (k, x) :: m' => if class_ltb k s then class_find s m' else if class_ltb s k then None else Some x
  end.
(** company.cpp:43-51 [total_shares]. *)
Definition shares_total (m : list (share_class * Z)) : Z := fold_left (fun n kx => w64 (n + snd kx)) m 0.

(** Kinds of property. *)
Inductive thing :=
| Cash (c : currency)
| Money (c : currency)
| Loan (lender borrower : identity)
| Lending (lender borrower security : identity) (size : Z)
| Stock (i company : identity) (details : share_class).
Section Identities.
(** [typeid(...).hash_code()] of cash and of the securities lending contract. *)
Context (cash_code lending_code : Z).
(** cash.hpp:46-60: from the hash of the currency; money.hpp:47-54 and loan.hpp:56-63 with contract.hpp:46-53 leave the default
    identity, without digits, to the virtual base [property]; securities_lending_contract.hpp:36-43, 55-66: from the security;
    stock.cpp:88-97: as given. *)
Definition identify (t : thing) : identity :=
  match t with
  | Cash c => [cash_code; ccy_hash c]
  | Money _ => []
  | Loan _ _ => []
  | Lending _ _ security _ => lending_code :: security
  | Stock i _ _ => i
  end.
(** property_collection.hpp:42-78: the objects are compared by identity. *)
Definition same_property (a b : thing) : bool := id_eqb (identify a) (identify b).
(** inventory.hpp:187-195 [insert(item, q)]: with [find], [insert] and adding; the object that is there stays. *)
Definition belongings : Type := list (thing * Z).
Fixpoint put (t : thing) (q : Z) (m : belongings) : belongings :=
  match m with
  | [] => [(t, q)]
  | (k, x) :: m' => if same_property k t then (k, q_add x q) :: m' else (k, x) :: put t q m'
  end.
Definition put_all (l : belongings) (m : belongings) : belongings := fold_left (fun m tq => put (fst tq) (snd tq) m) l m.

(** *** Infungible property: a set of objects (inventory.hpp:281-330). *)
(** inventory.hpp:294-297, 307-310. *)
Definition set_insert (t : thing) (s : list thing) : list thing := if existsb (fun k => same_property k t) s then s else s ++ [t].
Definition set_erase (t : thing) (s : list thing) : list thing := filter (fun k => negb (same_property k t)) s.
(** inventory.hpp:320-330 [insert_into]: the holdings as they are left, and whether an exception is thrown. *)
Fixpoint set_insert_into (s : list thing) (m : belongings) : belongings * bool :=
  match s with
  | [] => (m, false)
  | t :: s' => if existsb (fun kx => same_property (fst kx) t) m then (m, true) else set_insert_into s' (m ++ [(t, 1)])
  end.
End Identities.
(** cash.hpp:71-74, money.hpp:65-68. *)
Definition cash_eqb (a b : currency) : bool := ccy_eqb a b.

(** *** Printing (property_collection.hpp:91-122), for items in the order of iteration: whether they are money, the name, the
    quantity as text. The test in the loop looks at the first item again. *)
Record entry := mk_entry { is_money : bool; named : list Z; shown : list Z }.
Definition print_properties (l : list entry) : list Z :=
  [123] ++ match l with
           | [] => []
           | e :: l' => if is_money e then [] else (named e ++ [58; 32] ++ shown e) ++ flat_map (fun f => [44; 32] ++ named f ++ [58; 32] ++ shown f) l'
           end ++ [125].
