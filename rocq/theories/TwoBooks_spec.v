(** Specification for C200: the same requests given to the two order books of the library, and their reports compared.
    The books are the models of StaticBook.v (static_order_book.hpp) and BinaryBook.v (binary_tree_order_book.hpp). *)
From Coq Require Import ZifyBool.
From Verif Require Import Base Identity BlockPool StaticBook StaticBook_spec StaticMatch_spec.
From Verif Require BinaryBook BinaryBook_spec.

(** What is asked of a market, whatever book it keeps: an order to rest until it is cancelled, and the cancellation of the
    [k]-th order that was placed in the book, counted from zero. *)
Inductive request := Order (buy : bool) (limit quantity owner : Z) | Withdraw (k : nat).

Section Fixed.
Context (lowest highest lot capacity : Z) (fuel : nat) (encode decode : Z -> Z) (default_comparable : bool).
Local Notation operate' := (operate lowest highest lot encode decode default_comparable fuel).
(** The fixed-tick book; a client cancels by the identifier the report of the placement told. *)
Definition ask_fixed (b : book) (x : request) : result book :=
  match x with
  | Order buy limit quantity owner => operate' b (Insert (mk_order owner buy limit lot quantity good_until_cancelled))
  | Withdraw k => match nth_error (placed_identifiers (b_reports b)) k with Some h => operate' b (Cancel h) | None => Ok b end
  end.
Fixpoint ask_fixed_all (b : book) (xs : list request) : result book :=
  match xs with [] => Ok b | x :: xs' => do b' <- ask_fixed b x; ask_fixed_all b' xs' end.
(** Requests the fixed-tick book is right for (see [allowed] in StaticMatch_spec.v): limits strictly inside its range, a free
    place, and cancellations of resting orders that are not the last one at the best limit. *)
Definition permitted_one (b : book) (x : request) : Prop :=
  not_exhausted capacity (b_reports b) /\
  match x with
  | Order _ limit quantity _ => lowest < limit < highest /\ 0 < quantity < 2 ^ 32 /\ Z.of_nat (length (resting (b_reports b))) < capacity
  | Withdraw k => exists h, nth_error (placed_identifiers (b_reports b)) k = Some h /\
                            allowed lowest highest lot capacity (resting (b_reports b)) (Cancel h)
  end.
Fixpoint permitted (b : book) (xs : list request) : Prop :=
  match xs with
  | [] => True
  | x :: xs' => permitted_one b x /\ forall b', ask_fixed b x = Ok b' -> permitted b' xs'
  end.
End Fixed.

Section Tree.
Context (name : Z -> identity) (symbol : Z).
Definition side_of (buy : bool) : BinaryBook.side := if buy then BinaryBook.Buy else BinaryBook.Sell.
(** The tree book, with all reports so far. *)
Definition tree : Type := BinaryBook.book * list BinaryBook.report.
Definition placed_in_tree (rs : list BinaryBook.report) : list Z := BinaryBook_spec.ids_of BinaryBook.Placed rs.
Definition tree_order (buy : bool) (limit quantity owner : Z) : BinaryBook.order :=
  BinaryBook.mk_order BinaryBook.GTC (side_of buy) symbol (name owner) limit quantity.
Definition ask_tree (s : tree) (x : request) : tree :=
  let do_ op := let r := BinaryBook.step (fst s) op in (fst r, snd s ++ snd r) in
  match x with
  | Order buy limit quantity owner => do_ (BinaryBook.Insert (tree_order buy limit quantity owner))
  | Withdraw k => match nth_error (placed_in_tree (snd s)) k with Some h => do_ (BinaryBook.Cancel h) | None => s end
  end.
Definition new_tree : tree := (BinaryBook.empty_book, []).
Definition ask_tree_all (s : tree) (xs : list request) : tree := fold_left ask_tree xs s.

(** Two reports say the same: state, side, quantity, limit and owner are the same, and they are about the same order: both
    about the incoming order, or both about the [k]-th order placed. *)
Definition same_state (s : report_state) (t : BinaryBook.state) : Prop :=
  match s, t with
  | cancelled, BinaryBook.Cancelled | matched, BinaryBook.Matched | placed, BinaryBook.Placed => True
  | _, _ => False
  end.
Definition alike (ids ids' : list Z) (r : report) (r' : BinaryBook.report) : Prop :=
  same_state (p_state r) (BinaryBook.rp_state r') /\ side_of (p_buy r) = BinaryBook.rp_side r' /\
  p_quantity r = BinaryBook.rp_quantity r' /\ p_limit r = BinaryBook.rp_limit r' /\ name (p_owner r) = BinaryBook.rp_owner r' /\
  (p_identifier r = direct_order /\ BinaryBook.rp_id r' = BinaryBook.direct_order \/
   exists k, nth_error ids k = Some (p_identifier r) /\ nth_error ids' k = Some (BinaryBook.rp_id r')).
(** The reports of both books say the same, in the same order; each book gives an identifier once, and never the one that
    stands for the incoming order. *)
Definition proper (ids : list Z) : Prop := NoDup ids /\ Forall (fun h => 0 <= h < direct_order) ids.
Definition same_reports (rs : list report) (rs' : list BinaryBook.report) : Prop :=
  proper (placed_identifiers rs) /\ proper (placed_in_tree rs') /\
  Forall2 (alike (placed_identifiers rs) (placed_in_tree rs')) rs rs'.
End Tree.
