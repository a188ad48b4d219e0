(** Model of currencies, prices, quotes, exchange rates, tickers, message codes and of their
    archives — /repo/esl/economics/{iso_4217,price,exchange_rate,rate}.hpp,
    /repo/esl/economics/markets/{quote,ticker}.hpp, /repo/esl/mathematics/rational.hpp,
    /repo/esl/interaction/header.hpp. *)
From Verif Require Import Base Text Identity.

(** iso_4217.hpp:46-56: three characters and a 64-bit denominator. *)
Record currency := mk_currency { c0 : Z; c1 : Z; c2 : Z; denominator : Z }.
(** iso_4217.hpp:73-85: construction. *)
Definition capital (c : Z) : bool := (65 <=? c) && (c <=? 90).
Definition new_currency (a b c d : Z) : outcome currency :=
  if negb (capital a && capital b && capital c) then Throw
  else if d =? 0 then Throw else Ret (mk_currency a b c d).
(** iso_4217.hpp:98-103, 105-110, 113-125. *)
Definition ccy_eqb (x y : currency) : bool :=
  (c0 x =? c0 y) && (c1 x =? c1 y) && (c2 x =? c2 y) && (denominator x =? denominator y).
Definition ccy_neb (x y : currency) : bool :=
  negb (c0 x =? c0 y) || negb (c1 x =? c1 y) || negb (c2 x =? c2 y) || negb (denominator x =? denominator y).
Definition ccy_ltb (x y : currency) : bool :=
  if c0 x <? c0 y then true else if c0 x >? c0 y then false
  else if c1 x <? c1 y then true else if c1 x >? c1 y then false
  else if c2 x <? c2 y then true else if c2 x >? c2 y then false
  else false.
(** iso_4217.hpp:186-191 [std::hash]. *)
Definition ccy_hash (x : currency) : Z :=
  w64 (w64 (w64 (c0 x - 65 + 26 * c1 x) - 65 + 26 * 26 * c2 x) - 65).

(** price.hpp:65-84. *)
Record price := mk_price { value : Z; valuation : currency }.
(** price.hpp:38-44: the check used by the ordering operators. *)
Definition with_equal_currencies {A} (p q : price) (k : outcome A) : outcome A :=
  if ccy_neb (valuation p) (valuation q) then Throw else k.
(** price.hpp:129-137. *)
Definition price_eqb (p q : price) : bool := (value p =? value q) && ccy_eqb (valuation p) (valuation q).
Definition price_neb (p q : price) : bool := negb (value p =? value q) || ccy_neb (valuation p) (valuation q).
(** price.hpp:139-159. *)
Definition price_lt (p q : price) : outcome bool := with_equal_currencies p q (Ret (value p <? value q)).
Definition price_gt (p q : price) : outcome bool := with_equal_currencies p q (Ret (value p >? value q)).
Definition or_eq (a : outcome bool) (b : bool) : outcome bool :=
  match a with Ret true => Ret true | Ret false => Ret b | x => x end.
Definition price_le (p q : price) : outcome bool := or_eq (price_lt p q) (price_eqb p q).
Definition price_ge (p q : price) : outcome bool := or_eq (price_gt p q) (price_eqb p q).
(** price.hpp:161-172 [+]: [assert] on the currencies (failure: abort, or undefined results
    when assertions are off) and signed 64-bit arithmetic (overflow is undefined). *)
Definition in_i64 (x : Z) : bool := (- 2 ^ 63 <=? x) && (x <? 2 ^ 63).
Definition checked (p : price) (x : Z) : outcome price := if in_i64 x then Ret (mk_price x (valuation p)) else UB.
Definition price_add (p q : price) : outcome price :=
  if ccy_eqb (valuation p) (valuation q) then checked p (value p + value q) else UB.
(** price.hpp:224-229: [price * integer] for the 32-bit lot: signed multiplication. *)
Definition price_times_lot (p : price) (lot : Z) : outcome price := checked p (value p * lot).
(** price.hpp:231-239: [uint64 * price]: unsigned multiplication, converted to signed. *)
Definition lot_times_price (lot : Z) (p : price) : price := mk_price (s64 (value p * lot)) (valuation p).

(** quote.hpp:50-107: lot (std::uint32_t) and price. *)
Record quote := mk_quote { lot : Z; q_price : price }.
Definition new_quote (p : price) (l : Z) : outcome quote := if l =? 0 then Throw else Ret (mk_quote l p).
(** quote.hpp:152-243.  The variant has one alternative, so [assert_equal_type_] always passes. *)
Definition bind {A B} (x : outcome A) (f : A -> outcome B) : outcome B :=
  match x with Ret a => f a | Throw => Throw | UB => UB end.
Definition with_equal_lot {A} (x y : quote) (k : outcome A) : outcome A :=
  if lot x =? lot y then k else Throw.
Definition scaled {A} (x y : quote) (f : price -> price -> outcome A) : outcome A :=
  bind (price_times_lot (q_price y) (lot y)) (fun b => f (lot_times_price (lot x) (q_price x)) b).
Definition quote_eq (x y : quote) : outcome bool := with_equal_lot x y (scaled x y (fun a b => Ret (price_eqb a b))).
Definition quote_ne (x y : quote) : outcome bool := with_equal_lot x y (scaled x y (fun a b => Ret (price_neb a b))).
Definition quote_lt (x y : quote) : outcome bool := with_equal_lot x y (scaled x y price_lt).
Definition quote_gt (x y : quote) : outcome bool := with_equal_lot x y (scaled x y price_gt).
Definition quote_le (x y : quote) : outcome bool := with_equal_lot x y (scaled x y price_le).
(** quote.hpp:231-243: no check of the lot sizes. *)
Definition quote_ge (x y : quote) : outcome bool := scaled x y price_ge.

(** exchange_rate.hpp:142-145: [p.value] is converted to unsigned for the multiplication. *)
Definition rate_times_price (n d : Z) (p : price) : price :=
  mk_price (s64 (w64 (value p * n) / d)) (valuation p).

(** *** Archives: the sequence of items written. *)
Inductive item := INum (z : Z) | IText (s : list Z).
(** iso_4217.hpp:139-165 save / load. *)
Definition save_currency (c : currency) : list item := [IText [c0 c; c1 c; c2 c]; INum (denominator c)].
Definition load_currency (a : list item) : outcome (currency * list item) :=
  match a with
  | IText [x; y; z] :: INum d :: a' => Ret (mk_currency x y z d, a')
  | _ => UB
  end.
(** Signed decimal, as [std::ostream << std::int64_t]. *)
Definition sdec (z : Z) : list Z := if z <? 0 then 45 :: dec (- z) else dec z.
(** price.hpp:329-346: when saving and when loading, the text of the current value is built and
    handed to the archive; the text read back is not used. *)
Definition price_text (p : price) : list Z :=
  [c0 (valuation p); c1 (valuation p); c2 (valuation p); 32] ++ sdec (value p) ++ [47] ++ dec (denominator (valuation p)).
Definition save_price (p : price) : list item := [IText (price_text p)].
Definition load_price (target : price) (a : list item) : outcome (price * list item) :=
  match a with IText _ :: a' => Ret (target, a') | _ => UB end.
(** quote.hpp:345-369 save, 371-389 load: index 0 (the only alternative) loads nothing. *)
Definition save_quote (q : quote) : list item := INum (lot q) :: INum 0 :: save_price (q_price q).
Definition load_quote (target : quote) (a : list item) : outcome (quote * list item) :=
  match a with
  | INum l :: INum i :: a' =>
      if i =? 0 then Ret (mk_quote l (q_price target), a')
      else if i =? 1 then bind (load_price (mk_price 0 (mk_currency 88 88 88 100)) a')
                               (fun pa => Ret (mk_quote l (fst pa), snd pa))
      else Ret (mk_quote l (q_price target), a')
  | _ => UB
  end.
(** rational.hpp:40-58: numerator and denominator pass through [int].  [boost::rational] keeps
    lowest terms; a zero denominator throws. *)
Definition s32 (x : Z) : Z := let y := x mod W32 in if y <? 2 ^ 31 then y else y - W32.
Definition save_rational (r : Z * Z) : list item := [INum (s32 (fst r)); INum (s32 (snd r))].
Definition load_rational (a : list item) : outcome ((Z * Z) * list item) :=
  match a with
  | INum n :: INum d :: a' =>
      if d =? 0 then Throw
      else let g := Z.gcd n d in let s := Z.sgn d in Ret ((s * (n / g), s * (d / g)), a')
  | _ => UB
  end.

(** *** ticker.hpp:49-94: base and quote property identities. *)
Record ticker := mk_ticker { t_base : identity; t_quote : identity }.
Definition tk_eqb (x y : ticker) : bool := id_eqb (t_base x) (t_base y) && id_eqb (t_quote x) (t_quote y).
Definition tk_neb (x y : ticker) : bool := negb (id_eqb (t_base x) (t_base y)) || negb (id_eqb (t_quote x) (t_quote y)).
Definition tk_ltb (x y : ticker) : bool :=
  id_ltb (t_base x) (t_base y) || (id_eqb (t_base x) (t_base y) && id_ltb (t_quote x) (t_quote y)).
Definition tk_leb (x y : ticker) : bool := tk_ltb x y || tk_eqb x y.
Definition tk_gtb (x y : ticker) : bool :=
  id_gtb (t_base x) (t_base y) || (id_eqb (t_base x) (t_base y) && id_gtb (t_quote x) (t_quote y)).
Definition tk_geb (x y : ticker) : bool := tk_gtb x y || tk_eqb x y.
(** ticker.hpp:110-121 and identity.hpp:468-490: the hash, for any 64-bit combining function
    [boost::hash_combine] of the digits. *)
Definition id_hash (combine : Z -> Z -> Z) (i : identity) : Z :=
  match rev i with [] => 0 | d :: ds => fold_left combine ds d end.
Definition tk_hash (combine : Z -> Z -> Z) (t : ticker) : Z :=
  let h1 := id_hash combine (t_base t) in let h2 := id_hash combine (t_quote t) in
  Z.lxor h1 (w64 (h2 + 2654435769 + w64 (Z.shiftl h1 6) + Z.shiftr h1 2)).

(** *** header.hpp:46-67. *)
Definition message_mask : Z := 2 ^ 63.
(** [static_assert(message_mask >= offset_)]: other offsets do not compile ([None]). *)
Definition library_message_code (offset : Z) : option Z :=
  if message_mask >=? offset then Some (Z.lor message_mask offset) else None.
Definition library_message_offset (code : Z) : option Z :=
  if negb (Z.land message_mask code =? 0) then Some (Z.land (Z.lxor (W64 - 1) message_mask) code) else None.
