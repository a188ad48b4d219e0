(** Model of inventories, transfers between owners and cash-flow statements -
    /repo/esl/economics/accounting/inventory.hpp, /repo/esl/economics/owner.hpp,
    /repo/esl/economics/accounting/cash_flow_statement.hpp. *)
From Verif Require Import Base Identity Quantity Interval Multimap Money.

(** property_collection.hpp:43-80, 118-137: hash maps from properties to quantities, whose keys are
    compared by the identity of the property.  The map is the list of its entries in
    iteration order, which is unspecified: nothing below relies on it.  The property objects are left
    out; an identity stands for one property. *)
Definition holdings : Type := list (identity * Z).
(** [find] *)
Fixpoint h_find (i : identity) (m : holdings) : option Z :=
  match m with
  | [] => None
  | (k, v) :: m' => if id_eqb k i then Some v else h_find i m'
  end.
(** [iterator->second = v] for a present key. *)
Fixpoint h_assign (i : identity) (v : Z) (m : holdings) : holdings :=
  match m with
  | [] => []
  | (k, x) :: m' => if id_eqb k i then (k, v) :: m' else (k, x) :: h_assign i v m'
  end.
(** [insert]: no effect when the key is present. *)
Definition h_insert (i : identity) (v : Z) (m : holdings) : holdings :=
  match h_find i m with Some _ => m | None => m ++ [(i, v)] end.
(** [erase(key)] *)
Fixpoint h_erase (i : identity) (m : holdings) : holdings :=
  match m with
  | [] => []
  | (k, x) :: m' => if id_eqb k i then m' else (k, x) :: h_erase i m'
  end.

(** inventory.hpp:187-195 [insert(item, q)] of fungible items. *)
Definition inv_insert (m : holdings) (i : identity) (q : Z) : holdings :=
  match h_find i m with
  | None => h_insert i q m
  | Some v => h_assign i (q_add v q) m
  end.
(** inventory.hpp:204-217 [erase(item, q)]: for a missing item and q = 0 the end iterator is
    dereferenced. *)
Definition inv_erase (m : holdings) (i : identity) (q : Z) : outcome holdings :=
  match h_find i m with
  | None => if q >? 0 then Throw else UB
  | Some v => if v <? q then Throw else match q_sub v q with Ret r => Ret (h_assign i r m) | Throw => Throw | UB => UB end
  end.
(** inventory.hpp:227-237 [insert_into]. *)
Fixpoint insert_into (items m : holdings) : holdings :=
  match items with
  | [] => m
  | (k, v) :: items' =>
      insert_into items' (match h_find k m with None => h_insert k v m | Some x => h_assign k (q_add x v) m end)
  end.
(** inventory.hpp:240-259 [erase_from]: the inventory as it is left, and whether an exception is
    thrown. *)
Fixpoint erase_from (items m : holdings) : holdings * bool :=
  match items with
  | [] => (m, false)
  | (k, v) :: items' =>
      if v =? 0 then erase_from items' m
      else match h_find k m with
           | None => (m, true)
           | Some x =>
               if x <? v then (m, true)
               else if x =? v then erase_from items' (h_erase k m)
               else match q_sub x v with Ret r => erase_from items' (h_assign k r m) | _ => (m, true) end
           end
  end.

(** transfer.hpp:52-68. *)
Record transfer := mk_transfer { transferor : identity; transferee : identity; transferred : holdings }.
(** owner.hpp:68-96: the callback of every owner; [None] when an exception leaves it. *)
Definition process_transfer (self : identity) (t : transfer) (inventory : holdings) : option holdings :=
  if id_eqb (transferor t) (transferee t) then Some inventory
  else if id_eqb self (transferor t) then let '(m, thrown) := erase_from (transferred t) inventory in if thrown then None else Some m
  else if id_eqb self (transferee t) then Some (insert_into (transferred t) inventory)
  else Some inventory.

(** *** owner<T> for a fungible type T of property; [is_T] tells of which identities the property
    has that type ([dynamic_pointer_cast]).  State: the typed view and the inventory. *)
Record typed_owner := mk_typed_owner { properties : holdings; inventory : holdings }.
Section Typed.
Context (is_T : identity -> bool).
(** owner.hpp:202-219. *)
Fixpoint typed_erase (items m : holdings) : outcome holdings :=
  match items with
  | [] => Ret m
  | (i, q) :: items' =>
      if is_T i then match inv_erase m i q with Ret m' => typed_erase items' m' | Throw => Throw | UB => UB end
      else typed_erase items' m
  end.
(** owner.hpp:222-233. *)
Fixpoint typed_insert (items m : holdings) : holdings :=
  match items with
  | [] => m
  | (i, q) :: items' => typed_insert items' (if is_T i then inv_insert m i q else m)
  end.
(** owner.hpp:194-238: the callback of owner<T>. *)
Definition process_typed (self : identity) (t : transfer) (m : holdings) : outcome holdings :=
  if id_eqb self (transferor t) then typed_erase (transferred t) m
  else if id_eqb self (transferee t) then Ret (typed_insert (transferred t) m)
  else Ret m.
(** Both callbacks have priority 50 and are called for one message; that of owner<T>, registered
    later, first (communicator.cpp:60-75).  The two work on separate state. *)
Definition receive_transfer (self : identity) (t : transfer) (o : typed_owner) : outcome typed_owner :=
  match process_typed self t (properties o) with
  | Ret p => match process_transfer self t (inventory o) with Some v => Ret (mk_typed_owner p v) | None => Throw end
  | Throw => Throw
  | UB => UB
  end.
End Typed.
(** owner.hpp:252-257 [take]. *)
Definition take (i : identity) (amount : Z) (o : typed_owner) : typed_owner :=
  mk_typed_owner (inv_insert (properties o) i amount) (h_insert i amount (inventory o)).

(** *** cash_flow_statement.hpp:40-54: mutations ordered by time. *)
Definition ledger : Type := list (Z * price).
Definition record (t : Z) (p : price) (l : ledger) : ledger := mm_insert t p l.
(** Lines 64-74: the loop from [lower_bound]; [right_closed()] is false. *)
Fixpoint collect (lower upper : Z) (transform : price -> price) (l : ledger) : list price :=
  match l with
  | [] => []
  | (t, p) :: l' =>
      if ti_contains lower upper t then transform p :: collect lower upper transform l'
      else if (t >? upper) || (t =? upper) then []
      else collect lower upper transform l'
  end.
Fixpoint from_lower_bound (lower : Z) (l : ledger) : ledger :=
  match l with
  | [] => []
  | (t, p) :: l' => if t <? lower then from_lower_bound lower l' else l
  end.
(** Lines 75-79. *)
Fixpoint add_up (vs : list price) (acc : price) : outcome price :=
  match vs with
  | [] => Ret acc
  | v :: vs' => match price_add acc v with Ret a => add_up vs' a | Throw => Throw | UB => UB end
  end.
(** Lines 64-81 [history]; the assertion on currencies is off. *)
Definition history (l : ledger) (lower upper : Z) (transform : price -> price) (reporting : currency) : outcome price :=
  add_up (collect lower upper transform (from_lower_bound lower l)) (mk_price 0 reporting).
(** Lines 90-95, 97-102, 110-112. *)
Definition income l lower upper reporting := history l lower upper (fun p => mk_price (Z.max 0 (value p)) (valuation p)) reporting.
Definition expenses l lower upper reporting := history l lower upper (fun p => mk_price (Z.min 0 (value p)) (valuation p)) reporting.
Definition revenue l lower upper reporting := history l lower upper (fun p => p) reporting.
