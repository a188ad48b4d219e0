(** Model of how a Walrasian market turns demands for money's worth into units and reports the volume -
    /repo/esl/economics/markets/walras/price_setter.cpp:307-395.  Over any arithmetic: the code's is [double].
    The multipliers that were found and the orders' demands at them are arguments; [excess_demand] is called twice for
    each order (lines 321 and 361) and is taken to return the same both times.  The first of the loops (lines 320-353) computes
    sums that are not used: it is left out. *)
From Coq Require Import SpecFloat.
From Verif Require Import Base Identity IdMap Inventory StaticTicks Walras.

(** quote.hpp:81-86, price.hpp:67-69: the price in units of the currency, how many of these make one of the currency, and the lot. *)
Record quoted := mk_quoted { q_value : Z; q_denominator : Z; q_lot : Z }.

Section Demands.
(** The arithmetic, the absolute value, and whether a number is neither infinite nor undefined. *)
Context (A : arith) (absolute : num A -> num A) (finite : num A -> bool).

(** quote.hpp:131-137 and price.hpp:241-244, then the multiplier: [double(std::get<0>(quote_)) * std::get<1>(quote_)]. The quote
    is the one before clearing (line 179). *)
Definition unit_price (q : quoted) (multiplier : num A) : num A :=
  mul A (div A (div A (of_Z A (q_value q)) (of_Z A (q_denominator q))) (of_Z A (q_lot q))) multiplier.
(** price_setter.cpp:366 *)
Definition units (q : quoted) (multiplier excess : num A) : num A := div A excess (unit_price q multiplier).

(** Volumes per property, and demands per property and participant. *)
Definition book : Type := idmap (num A) * idmap (idmap (num A)).
(** price_setter.cpp:362-390: one demand of a participant; a property without a quote dereferences the end iterator (line 364). The
    positions that are kept next to the units are not used by compute_transfers, and left out. *)
Definition demand_one (solution : idmap (quoted * num A)) (participant : identity) (st : outcome book) (d : identity * num A) : outcome book :=
  match st with
  | Ret (volumes, orders) =>
      match im_find (fst d) solution with
      | None => UB
      | Some (q, x) =>
          let u := units q x (snd d) in
          let '(volumes, orders) := match im_find (fst d) volumes with
                                    | Some _ => (volumes, orders)
                                    | None => (im_emplace (fst d) (of_Z A 0) volumes, im_emplace (fst d) [] orders)
                                    end in
          match im_find (fst d) volumes, im_find (fst d) orders with
          | Some v, Some o => Ret (im_set (fst d) (add A v (absolute u)) volumes, im_set (fst d) (im_emplace participant u o) orders)
          | _, _ => UB
          end
      end
  | Throw => Throw
  | UB => UB
  end.
(** price_setter.cpp:360-391: all orders, in the iteration order of the unordered map. *)
Definition gather (solution : idmap (quoted * num A)) (orders : list (identity * list (identity * num A))) : outcome book :=
  fold_left (fun st o => fold_left (demand_one solution (fst o)) (snd o) st) orders (Ret ([], [])).

(** price_setter.cpp:395: the volume that is put out: the one of the first property, converted to [uint64_t]; undefined when
    there is none, or when it is out of range. *)
Definition reported (volumes : idmap (num A)) : outcome Z :=
  match volumes with
  | [] => UB
  | (_, v) :: _ => if finite v && (-1 <? trunc_Z A v) && (trunc_Z A v <? 2 ^ 64) then Ret (trunc_Z A v) else UB
  end.

(** price_setter.cpp:402, 440, 454, 467, 480, money.hpp:76-81: what is paid for [n] units at this quote, in cents of US dollars: always in dollars. *)
Definition paid (n : Z) (q : quoted) : Z :=
  trunc_Z A (mul A (div A (mul A (of_Z A n) (div A (of_Z A (q_value q)) (of_Z A (q_denominator q)))) (of_Z A (q_lot q))) (of_Z A 100)).
End Demands.

(** The instances. *)
Definition is_number (x : spec_float) : bool := match x with S754_zero _ | S754_finite _ _ _ => true | _ => false end.
(** The rest of compute_transfers (price_setter.cpp:226-257), from the truncated demands on. *)
Definition allots (l transfers : list (identity * Z)) : Prop :=
  exists error s, sum_i64 0 l = Ret error /\ sorts l s /\ allocate error s = Ret transfers.
