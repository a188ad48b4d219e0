(** Model of the fixed-tick order book -
    /repo/esl/economics/markets/order_book/static_order_book.hpp.  Orders rest in blocks of a pool
    (BlockPool.v), linked through pointers, which are positions in the pool; a null pointer is [None].
    The translation of prices to levels and back is given (StaticTicks.v is the one the code uses);
    it is a member of the book in the code, too.  Prices are integers for the book's lot and
    currency.  [assert] is off. *)
From Verif Require Import Base BlockPool.

(** [Hang]: the loop did not end within the given number of rounds. *)
Inductive result (A : Type) : Type := Ok (a : A) | Exception | Undefined | Hang.
Arguments Ok {A}. Arguments Exception {A}. Arguments Undefined {A}. Arguments Hang {A}.
Definition bind_result {A B} (x : result A) (f : A -> result B) : result B :=
  match x with Ok a => f a | Exception => Exception | Undefined => Undefined | Hang => Hang end.
Notation "'do' x <- e ; f" := (bind_result e (fun x => f)) (at level 200, x pattern, e at level 100, f at level 200).
Definition of_outcome {A} (x : outcome A) : result A := match x with Ret a => Ok a | Throw => Exception | UB => Undefined end.

(** order.hpp:48-59. *)
Inductive lifetime := good_until_cancelled | immediate_or_cancel | fill_or_kill.
Record limit_order := mk_order { o_owner : Z; o_buy : bool; o_limit : Z; o_lot : Z; o_quantity : Z; o_lifetime : lifetime }.
(** execution_report.hpp *)
Inductive report_state := invalid | cancelled | matched | placed.
Record report := mk_report { p_state : report_state; p_buy : bool; p_quantity : Z; p_identifier : Z; p_limit : Z; p_owner : Z }.
(** basic_book.hpp:51. *)
Definition direct_order : Z := W64 - 1.
(** static_order_book.hpp:48-73 [record]; [None] for the limit is the default quote. *)
Record record := mk_record { r_limit : option Z; r_quantity : Z; r_owner : Z; r_predecessor : option nat; r_successor : option nat }.
Definition default_record : record := mk_record None 0 0 None None.
(** Lines 78-132; positions of [best_bid_] and [best_ask_] in [limits_] can be one off either end. *)
Record book := mk_book { b_pool : pool record; b_levels : list (option nat * option nat); b_bid : Z; b_ask : Z; b_reports : list report }.

Section Book.
Context (lowest highest lot : Z) (size : nat) (encode decode : Z -> Z).
(** Whether the default quote can be compared with the limits of the book (same lot and currency). *)
Context (default_comparable : bool).

Definition set_level (b : book) (i : nat) (l : option nat * option nat) : book :=
  mk_book (b_pool b) (firstn i (b_levels b) ++ match skipn i (b_levels b) with [] => [] | _ :: r => l :: r end) (b_bid b) (b_ask b) (b_reports b).
Definition set_pool (b : book) (p : pool record) : book := mk_book p (b_levels b) (b_bid b) (b_ask b) (b_reports b).
Definition add_report (b : book) (r : report) : book := mk_book (b_pool b) (b_levels b) (b_bid b) (b_ask b) (b_reports b ++ [r]).
Definition set_bid (b : book) (i : Z) : book := mk_book (b_pool b) (b_levels b) i (b_ask b) (b_reports b).
Definition set_ask (b : book) (i : Z) : book := mk_book (b_pool b) (b_levels b) (b_bid b) i (b_reports b).
(** Data of a block: access and change. *)
Definition data (p : pool record) (i : nat) : record := b_data (blocks p i).
Definition set_data (p : pool record) (i : nat) (r : record) : pool record :=
  mk_pool (set_block (blocks p) i (mk_block r (b_index (blocks p i)) (b_next (blocks p i)))) (cap p) (begin_ p) (end_ p)
          (round_ p) (back_ p) (highest_ p) (size_ p).
Definition with_quantity (r : record) (q : Z) : record := mk_record (r_limit r) q (r_owner r) (r_predecessor r) (r_successor r).
Definition with_predecessor (r : record) (x : option nat) : record := mk_record (r_limit r) (r_quantity r) (r_owner r) x (r_successor r).
Definition with_successor (r : record) (x : option nat) : record := mk_record (r_limit r) (r_quantity r) (r_owner r) (r_predecessor r) x.

(** Lines 215-250. *)
Definition new_book (capacity : Z) : result book :=
  if lowest >=? highest then Exception
  else do p <- of_outcome (new_pool default_record capacity);
       Ok (mk_book p (repeat (None, None) size) 0 (Z.of_nat size - 1) []).
(** [limits_[i]] through a pointer. *)
Definition level (b : book) (i : Z) : result (option nat * option nat) :=
  if i <? 0 then Undefined else match nth_error (b_levels b) (Z.to_nat i) with Some l => Ok l | None => Undefined end.
(** Lines 303-324 [bid], [ask]. *)
Definition bid (b : book) : result (option Z) :=
  do l <- level b (b_bid b); Ok (match fst l with None => None | Some _ => Some (decode (b_bid b)) end).
Definition ask (b : book) : result (option Z) :=
  do l <- level b (b_ask b); Ok (match fst l with None => None | Some _ => Some (decode (b_ask b)) end).
(** Lines 280-295 [orders]: one level, then all. *)
Fixpoint walk (fuel : nat) (p : pool record) (o : option nat) : result (list Z) :=
  match o with
  | None => Ok []
  | Some i =>
      match fuel with
      | O => Hang
      | S fuel' =>
          if same_pointer (r_successor (data p i)) (Some i) then Ok [b_index (blocks p i)]
          else do rest <- walk fuel' p (r_successor (data p i)); Ok (b_index (blocks p i) :: rest)
      end
  end.
Fixpoint walk_levels (fuel : nat) (p : pool record) (l : list (option nat * option nat)) : result (list Z) :=
  match l with
  | [] => Ok []
  | x :: l' => do a <- walk fuel p (fst x); do b <- walk_levels fuel p l'; Ok (a ++ b)
  end.
Definition orders (fuel : nat) (b : book) : result (list Z) := walk_levels fuel (b_pool b) (b_levels b).

(** Lines 405-423: the next non-empty level, the last level, or one past it. *)
Fixpoint next_ask (fuel : nat) (b : book) (i : Z) : result Z :=
  match fuel with
  | O => Hang
  | S fuel' =>
      if Z.of_nat (length (b_levels b)) - 1 <? i then Ok i
      else do l <- level b i;
           match fst l with
           | Some _ => Ok i
           | None => if i =? Z.of_nat (length (b_levels b)) - 1 then Ok i else next_ask fuel' b (i + 1)
           end
  end.
Fixpoint next_bid (fuel : nat) (b : book) (i : Z) : result Z :=
  match fuel with
  | O => Hang
  | S fuel' =>
      if i <? 0 then Ok i
      else do l <- level b i;
           match fst l with
           | Some _ => Ok i
           | None => if i =? 0 then Ok i else next_bid fuel' b (i - 1)
           end
  end.
(** Lines 334-429 [match_at_level] from the resting order at [ao] on. *)
Fixpoint match_at (fuel : nat) (o : limit_order) (at_ : nat) (b : book) (remainder : Z) (ao : option nat) : result (book * Z) :=
  if remainder <=? 0 then Ok (b, remainder)
  else
  match fuel, ao with
  | O, _ => Hang
  | _, None => Undefined
  | S fuel', Some a =>
      let r := data (b_pool b) a in
      let exhausted := r_quantity r <=? remainder in
      let execution := if exhausted then r_quantity r else remainder in
      let remainder' := remainder - execution in
      let b1 := set_pool b (set_data (b_pool b) a (with_quantity r (r_quantity r - execution))) in
      let b2 :=
        if exhausted
        then let b' := match r_successor r with
                       | Some s => set_pool b1 (set_data (b_pool b1) s (with_predecessor (data (b_pool b1) s) None))
                       | None => b1
                       end in
             set_level b' at_ (r_successor r, snd (nth at_ (b_levels b') (None, None)))
        else b1 in
      let q := decode (Z.of_nat at_) in
      let b3 := add_report (add_report b2 (mk_report matched (o_buy o) execution direct_order q (o_owner o)))
                           (mk_report matched (negb (o_buy o)) execution (b_index (blocks (b_pool b2) a)) q (r_owner r)) in
      let successor := r_successor (data (b_pool b3) a) in
      let b4 := if exhausted then set_pool b3 (fst (erase (b_pool b3) (b_index (blocks (b_pool b3) a)))) else b3 in
      match successor with
      | Some _ => match_at fuel' o at_ b4 remainder' (r_successor (data (b_pool b4) a))
      | None =>
          if exhausted
          then let b5 := set_level b4 at_ (None, None) in
               if o_buy o
               then do i <- next_ask (S (S (length (b_levels b5)))) b5 (b_ask b5 + 1); Ok (set_ask b5 i, remainder')
               else do i <- next_bid (S (S (length (b_levels b5)))) b5 (b_bid b5 - 1); Ok (set_bid b5 i, remainder')
          else Ok (b4, remainder')
      end
  end.
(** Lines 487-492 and 495-500: the levels, from the best on; the number of levels bounds the loop. *)
Fixpoint sweep_up (n : nat) (fuel : nat) (o : limit_order) (b : book) (remainder : Z) (i limit_level : Z) : result (book * Z) :=
  match n with
  | O => Ok (b, remainder)
  | S n' =>
      if (i <=? limit_level) && (0 <? remainder)
      then do l <- level b i;
           match fst l with
           | None => sweep_up n' fuel o b remainder (i + 1) limit_level
           | Some a => do br <- match_at fuel o (Z.to_nat i) b remainder (Some a); sweep_up n' fuel o (fst br) (snd br) (i + 1) limit_level
           end
      else Ok (b, remainder)
  end.
Fixpoint sweep_down (n : nat) (fuel : nat) (o : limit_order) (b : book) (remainder : Z) (i limit_level : Z) : result (book * Z) :=
  match n with
  | O => Ok (b, remainder)
  | S n' =>
      if (limit_level <=? i) && (0 <? remainder)
      then do l <- level b i;
           match fst l with
           | None => sweep_down n' fuel o b remainder (i - 1) limit_level
           | Some a => do br <- match_at fuel o (Z.to_nat i) b remainder (Some a); sweep_down n' fuel o (fst br) (snd br) (i - 1) limit_level
           end
      else Ok (b, remainder)
  end.
Definition valid (v : Z) : bool := (lowest <=? v) && (v <=? highest).
(** Lines 516-582: the rest of the order is cancelled or placed. *)
Definition place (o : limit_order) (limit_level : Z) (b : book) (remainder : Z) : result book :=
  if remainder <=? 0 then Ok b
  else match o_lifetime o with
  | immediate_or_cancel => Ok (add_report b (mk_report cancelled (o_buy o) remainder direct_order (o_limit o) (o_owner o)))
  | _ =>
      do x <- of_outcome (emplace (b_pool b) (mk_record (Some (o_limit o)) remainder (o_owner o) None None));
      let '(p, h, i) := x in
      let b1 := add_report (set_pool b (set_index p i h)) (mk_report placed (o_buy o) remainder h (o_limit o) (o_owner o)) in
      do l <- level b1 limit_level;
      do b2 <- match l with
               | (None, _) => Ok (set_level b1 (Z.to_nat limit_level) (Some i, Some i))
               | (Some f, Some s) =>
                   let p1 := set_data (b_pool b1) s (with_successor (data (b_pool b1) s) (Some i)) in
                   let p2 := set_data p1 i (with_predecessor (data p1 i) (Some s)) in
                   Ok (set_level (set_pool b1 p2) (Z.to_nat limit_level) (Some f, Some i))
               | (Some _, None) => Undefined
               end;
      Ok (if o_buy o then set_bid b2 (Z.max (b_bid b2) limit_level) else set_ask b2 (Z.min (b_ask b2) limit_level))
  end.
(** Lines 436-582 [insert].  Comparing quotes of different lots throws. *)
Definition insert (fuel : nat) (o : limit_order) (b : book) : result book :=
  if negb (o_lot o =? lot) then Exception
  else if negb (valid (o_limit o)) || (o_quantity o <=? 0)
  then Ok (add_report b (mk_report invalid (o_buy o) (o_quantity o) direct_order (o_limit o) (o_owner o)))
  else
  let i := encode (o_limit o) in
  if (i <? 0) || (Z.of_nat (length (b_levels b)) <=? i) then Exception
  else
  do a <- (if o_buy o then ask b else Ok None);
  do d <- (if o_buy o then Ok None else bid b);
  match a, d with
  | Some q, None =>
      if q <=? o_limit o
      then do br <- sweep_up (length (b_levels b)) fuel o b (o_quantity o) (b_ask b) i; place o i (fst br) (snd br)
      else match o_lifetime o with
           | immediate_or_cancel | fill_or_kill => Ok (add_report b (mk_report cancelled (o_buy o) (o_quantity o) direct_order (o_limit o) (o_owner o)))
           | _ => place o i b (o_quantity o)
           end
  | None, Some q =>
      if o_limit o <=? q
      then do br <- sweep_down (length (b_levels b)) fuel o b (o_quantity o) (b_bid b) i; place o i (fst br) (snd br)
      else match o_lifetime o with
           | immediate_or_cancel | fill_or_kill => Ok (add_report b (mk_report cancelled (o_buy o) (o_quantity o) direct_order (o_limit o) (o_owner o)))
           | _ => place o i b (o_quantity o)
           end
  | _, _ => match o_lifetime o with
            | immediate_or_cancel | fill_or_kill => Ok (add_report b (mk_report cancelled (o_buy o) (o_quantity o) direct_order (o_limit o) (o_owner o)))
            | _ => place o i b (o_quantity o)
            end
  end.

(** Lines 590-673 [cancel].  A default quote that cannot be compared throws in [encode]; one that is
    outside the range leaves the index uninitialised. *)
Definition cancel (h : Z) (b : book) : result book :=
  let s := slot (b_pool b) h in
  let order := data (b_pool b) s in
  do d <- bid b;
  do limit <- match r_limit order with Some v => Ok v | None => if default_comparable then Ok 0 else Exception end;
  let side_buy := match d with Some q => negb (q <? limit) | None => false end in
  if negb (valid limit) then Undefined
  else
  let i := encode limit in
  do l <- level b i;
  match l with
  | (None, _) | (_, None) => Ok b
  | (Some f, Some k) =>
      let f' := if b_index (blocks (b_pool b) f) =? h then r_successor (data (b_pool b) f) else Some f in
      let k' := if b_index (blocks (b_pool b) k) =? h then r_predecessor (data (b_pool b) k) else Some k in
      let b1 := set_level b (Z.to_nat i) (f', k') in
      let '(p, erased) := erase (b_pool b1) h in
      let b2 := set_pool b1 p in
      if erased =? 0 then Ok b2
      else
        let b3 := add_report b2 (mk_report cancelled side_buy (r_quantity order) h limit (r_owner order)) in
        let pre := r_predecessor order in
        let suc := r_successor order in
        let p1 := match pre with Some x => set_data (b_pool b3) x (with_successor (data (b_pool b3) x) suc) | None => b_pool b3 end in
        let p2 := match suc with Some x => set_data p1 x (with_predecessor (data p1 x) pre) | None => p1 end in
        Ok (set_pool b3 (set_data p2 s (mk_record None 0 0 None None)))
  end.
(** Histories. *)
Inductive operation := Insert (o : limit_order) | Cancel (h : Z).
Definition operate (fuel : nat) (b : book) (x : operation) : result book :=
  match x with Insert o => insert fuel o b | Cancel h => cancel h b end.
Fixpoint operate_all (fuel : nat) (b : book) (xs : list operation) : result book :=
  match xs with [] => Ok b | x :: xs' => do b' <- operate fuel b x; operate_all fuel b' xs' end.
End Book.
