(** Model of the display of the fixed-tick order book - /repo/esl/economics/markets/order_book/static_order_book.hpp:680-740.
    A row is a limit and a quantity; columns and the number of digits are left out. *)
From Verif Require Import Base BlockPool StaticBook.

Section Display.
Context (fuel : nat) (decode : Z -> Z).
(** Lines 692-695 and 722-725: the quantity at a level. *)
Fixpoint total (n : nat) (p : pool record) (j : option nat) (quantity : Z) : result Z :=
  match j, n with
  | None, _ => Ok quantity
  | Some _, O => Hang
  | Some a, S n' => total n' p (r_successor (data p a)) (w64 (quantity + r_quantity (data p a)))
  end.
(** Lines 686-703: levels upward from the best ask; quantities are kept in 32 bits. *)
Fixpoint show_asks (n : nat) (b : book) (i levels : Z) : result (list (Z * Z)) :=
  match n with
  | O => Hang
  | S n' =>
      if (i <=? Z.of_nat (length (b_levels b)) - 1) && (0 <? levels)
      then do l <- level b i;
           match fst l with
           | None => show_asks n' b (i + 1) levels
           | Some a =>
               do q <- total fuel (b_pool b) (Some a) 0;
               if q <=? 0 then show_asks n' b (i + 1) levels
               else do rest <- show_asks n' b (i + 1) (levels - 1); Ok ((decode i, q mod 2 ^ 32) :: rest)
           end
      else Ok []
  end.
(** Lines 717-738: levels downward from the best bid.  That the pointer is moved before the first level in the end is
    left out. *)
Fixpoint show_bids (n : nat) (b : book) (i levels : Z) : result (list (Z * Z)) :=
  match n with
  | O => Hang
  | S n' =>
      if (0 <=? i) && (0 <? levels)
      then do l <- level b i;
           match fst l with
           | None => show_bids n' b (i - 1) levels
           | Some a =>
               do q <- total fuel (b_pool b) (Some a) 0;
               if q <=? 0 then show_bids n' b (i - 1) levels
               else do rest <- show_bids n' b (i - 1) (levels - 1); Ok ((decode i, q) :: rest)
           end
      else Ok []
  end.
(** The rows in the column of the asks and in that of the bids, from top to bottom (lines 705 and 718). *)
Definition display (levels : Z) (b : book) : result (list (Z * Z) * list (Z * Z)) :=
  do asks <- show_asks (S (S (length (b_levels b)))) b (b_ask b) levels;
  do bids <- show_bids (S (S (length (b_levels b)))) b (b_bid b) levels;
  Ok (rev asks, bids).
End Display.
