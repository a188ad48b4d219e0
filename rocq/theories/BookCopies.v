(** Model of copying the fixed-tick order book -
    /repo/esl/economics/markets/order_book/static_order_book.hpp.  The class declares no copy constructor: the levels and the
    blocks are copied, but the pointers to the best levels, and those from levels and orders to orders, point into the
    original; [encode] and [decode] capture the original as well (lines 243-249), which has the same limits.
    What is modelled is the first operation on a copy: [b] is the original as it is then, [c] the original as it was when it
    was copied.  [assert] is off. *)
From Verif Require Import Base BlockPool PoolCopies StaticBook.

Section BookCopies.
Context (lowest highest lot : Z) (encode : Z -> Z) (default_comparable : bool).
(** Lines 303-324 [bid], [ask]: the level is one of the original; its position is computed by subtracting a pointer into
    the copy (lines 308, 322), which is undefined. *)
Definition c_bid (b c : book) : result (option Z) :=
  do l <- level b (b_bid c); match fst l with None => Ok None | Some _ => Undefined end.
Definition c_ask (b c : book) : result (option Z) :=
  do l <- level b (b_ask c); match fst l with None => Ok None | Some _ => Undefined end.
(** Lines 280-295 [orders]: from the levels of the copy to blocks of the original. *)
Definition c_orders (fuel : nat) (b c : book) : result (list Z) := walk_levels fuel (b_pool b) (b_levels c).
(** Lines 436-582 [insert]: the reports that the copy adds. *)
Definition c_insert (o : limit_order) (b c : book) : result (list report) :=
  if negb (o_lot o =? lot) then Exception
  else if negb (valid lowest highest (o_limit o)) || (o_quantity o <=? 0)
  then Ok [mk_report invalid (o_buy o) (o_quantity o) direct_order (o_limit o) (o_owner o)]
  else if (encode (o_limit o) <? 0) || (Z.of_nat (length (b_levels c)) <=? encode (o_limit o)) then Exception
  else
  do _ <- (if o_buy o then c_ask b c else c_bid b c);
  match o_lifetime o with
  | immediate_or_cancel | fill_or_kill => Ok [mk_report cancelled (o_buy o) (o_quantity o) direct_order (o_limit o) (o_owner o)]
  | good_until_cancelled =>
      do x <- of_outcome (c_store (copy_pool (b_pool c)) (mk_record (Some (o_limit o)) (o_quantity o) (o_owner o) None None));
      Ok [mk_report placed (o_buy o) (o_quantity o) (snd x) (o_limit o) (o_owner o)]
  end.
(** Lines 590-673 [cancel]: what becomes of the original, and the reports that the copy adds.  The order is the one in the
    pool of the copy; those before and after it are in the original. *)
Definition c_cancel (h : Z) (b c : book) : result (book * list report) :=
  let order := data (b_pool c) (slot (b_pool c) h) in
  do _ <- c_bid b c;
  do limit <- match r_limit order with Some v => Ok v | None => if default_comparable then Ok 0 else Exception end;
  if negb (valid lowest highest limit) then Undefined
  else
  do l <- level c (encode limit);
  match l with
  | (None, _) | (_, None) => Ok (b, [])
  | (Some _, Some _) =>
      if snd (c_erase (copy_pool (b_pool c)) h) =? 0 then Ok (b, [])
      else
        let pre := r_predecessor order in
        let suc := r_successor order in
        let p1 := match pre with Some x => set_data (b_pool b) x (with_successor (data (b_pool b) x) suc) | None => b_pool b end in
        let p2 := match suc with Some x => set_data p1 x (with_predecessor (data p1 x) pre) | None => p1 end in
        Ok (set_pool b p2, [mk_report cancelled false (r_quantity order) h limit (r_owner order)])
  end.
End BookCopies.
