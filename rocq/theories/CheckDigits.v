(** Model of security, country and legal entity codes - /repo/esl/economics/finance/{isin,cusip,sedol}.hpp,
    /repo/esl/economics/finance/stock.cpp, /repo/esl/law/legal_entity.hpp,
    /repo/esl/geography/iso_3166_1_alpha_2.hpp.  Characters are their codes, arrays lists.
    [assert] is off. *)
From Verif Require Import Base Algorithms Identity Text.

Definition is_digit_char (c : Z) : bool := (48 <=? c) && (c <=? 57).
Definition is_lower (c : Z) : bool := (97 <=? c) && (c <=? 122).
Definition is_upper (c : Z) : bool := (65 <=? c) && (c <=? 90).
(** isin.hpp:140-217 [value], sedol.hpp:82-156 [value]. *)
Definition symbol_value (c : Z) : Z :=
  if is_digit_char c then c - 48
  else if is_lower c then c - 97 + 10
  else if is_upper c then c - 65 + 10
  else 0.
(** cusip.hpp:108-189 [value]. *)
Definition cusip_value (c : Z) : Z :=
  if c =? 42 then 10 + 26 + 0 else if c =? 64 then 10 + 26 + 1 else if c =? 35 then 10 + 26 + 2 else symbol_value c.

(** sedol.hpp:162-172 [checksum]. *)
Definition sedol_weights : list Z := [1; 3; 1; 7; 3; 9].
Definition sedol_sum (code : list Z) : Z :=
  fold_left (fun sum cw => w64 (sum + symbol_value (fst cw) * snd cw)) (combine code sedol_weights) 0.
Definition sedol_checksum (code : list Z) : Z := 48 + (10 - sedol_sum code mod 10) mod 10.

(** cusip.hpp:195-206 [checksum]; the code is that of the issuer followed by that of the security. *)
Definition cusip_sum (code : list Z) : Z :=
  fold_left (fun sum ic => let v := Z.shiftl (cusip_value (snd ic)) (Z.of_nat (fst ic) mod 2) mod 256 in w64 (sum + (v mod 10 + v / 10)))
    (enumerate code) 0.
Definition cusip_checksum (code : list Z) : Z := 48 + (10 - cusip_sum code mod 10) mod 10.
(** cusip.hpp:82-89: construction from nine characters; the first eight are kept. *)
Definition new_cusip (chars : list Z) : outcome (list Z) :=
  match array_slice 0 0 8 chars with
  | Some code => if cusip_checksum code =? nth 8 chars 0 then Ret code else Throw
  | None => UB
  end.
(** cusip.hpp:214-224 [operator <<]. *)
Definition print_cusip (code : list Z) : list Z := code ++ [cusip_checksum code].

(** isin.hpp:212-216 [difference]. *)
Definition difference (number : Z) : Z := w64 (number / 5 - (w64 (number * 2) - w64 (number * 2) mod 10)).
(** isin.hpp:223-254: the variables of the loop.  [uint_fast16_t] has 64 bits. *)
Record isin_state := mk_isin { parity : bool; pair0 : Z; pair1 : Z; carry0 : Z; carry1 : Z }.
(** [pairs_[++p & 1] += x; carry_[p & 1] += difference(x)] *)
Definition isin_digit (s : isin_state) (x : Z) : isin_state :=
  if parity s
  then mk_isin false (w64 (pair0 s + x)) (pair1 s) (w64 (carry0 s + difference x)) (carry1 s)
  else mk_isin true (pair0 s) (w64 (pair1 s + x)) (carry0 s) (w64 (carry1 s + difference x)).
Definition isin_symbol (s : isin_state) (c : Z) : isin_state :=
  let number := symbol_value c in
  let d := number / 10 in
  let r := number mod 10 in
  isin_digit (if d =? 0 then s else isin_digit s d) r.
Definition isin_checksum (issuer code : list Z) : Z :=
  let s := fold_left isin_symbol (array_concatenate 0 issuer code) (mk_isin false 0 0 0 0) in
  let '(p0, p1) := if parity s then (pair0 s, w64 (w64 (pair1 s * 2) + carry1 s)) else (w64 (w64 (pair0 s * 2) + carry0 s), pair1 s) in
  48 + (10 - w64 (p0 + p1) mod 10) mod 10.
(** iso_3166_1_alpha_2.hpp:54-69: construction from two characters, and from a string. *)
Definition new_country (code : list Z) : outcome (list Z) :=
  match code with
  | [a; b] => if is_upper a && is_upper b then Ret [a; b] else Throw
  | _ => Throw
  end.
(** iso_3166_1_alpha_2.hpp:112 [std::hash]. *)
Definition country_hash (code : list Z) : Z := w64 (nth 0 code 0 - 65 + 26 * nth 1 code 0 - 65).
(** isin.hpp:69-77: construction from eleven characters. *)
Definition isin_from_array (chars : list Z) : outcome (list Z * list Z) :=
  match new_country [nth 0 chars 0; nth 1 chars 0] with
  | Ret issuer => match array_slice 0 0 9 chars with Some code => Ret (issuer, code) | None => UB end
  | Throw => Throw
  | UB => UB
  end.
(** isin.hpp:111-117: construction from text; [to_array] of a shorter string is undefined. *)
Definition isin_from_text (text : list Z) : outcome (list Z * list Z) :=
  if (length text <? 11)%nat then UB
  else match isin_from_array (firstn 11 text) with
       | Ret i => if ((length text =? 11) || (length text =? 12))%nat then Ret i else Throw
       | x => x
       end.
(** isin.hpp:262-270 [operator <<]. *)
Definition print_isin (i : list Z * list Z) : list Z := fst i ++ snd i ++ [isin_checksum (fst i) (snd i)].

(** legal_entity.hpp:145-168 [checksum], with 128-bit unsigned arithmetic that wraps. *)
Definition w128 (x : Z) : Z := x mod 2 ^ 128.
Definition lei_local (sum : Z) (c : Z) : Z := w128 (w128 (sum * 10) + (c - 48)).
Definition lei_code (sum : Z) (c : Z) : Z :=
  if is_digit_char c then w128 (w128 (sum * 10) + (c - 48)) else w128 (w128 (sum * 100) + (c - 65 + 10)).
Definition lei_checksum (local code : list Z) : Z * Z :=
  let sum := fold_left lei_local local 0 in
  let sum := w128 (sum * 100) in
  let sum := fold_left lei_code code sum in
  let sum := w128 (sum * 100) in
  let check := (98 - sum mod 97) mod 256 in
  (check / 10 + 48, check mod 10 + 48).
(** legal_entity.hpp:192-201 [operator <<]. *)
Definition print_lei (local code : list Z) : list Z :=
  local ++ [48; 48] ++ code ++ [fst (lei_checksum local code); snd (lei_checksum local code)].
(** legal_entity.hpp:68-73: the default arguments [{'0'}] leave the other characters zero. *)
Definition default_lei : list Z * list Z := (48 :: repeat 0 3, 48 :: repeat 0 11).
(** The table of 36 symbols (legal_entity.hpp:119-122, stock.cpp:35-38). *)
Definition table36 (d : Z) : Z := if d <? 10 then 48 + d else 65 + (d - 10).
(** legal_entity.hpp:114-134 [create] from the hash of something. *)
Fixpoint base36 (n : nat) (x : Z) : list Z :=
  match n with
  | O => []
  | S n' => table36 (x mod 36) :: base36 n' (x / 36)
  end.
Definition create_lei (hash : Z) (local : list Z) : list Z * list Z := (local, base36 12 hash).
(** stock.cpp:33-60 [create_isin]: the national code, most significant digit first. *)
Definition create_isin_code (company : identity) (rank : Z) : list Z :=
  let integer := if (length company =? 0)%nat then 0 else w64 (last company 0 * 1000) in
  rev (base36 9 (w64 (integer + rank))).
(** stock.cpp:62-72 [create_share_identifier]. *)
Definition create_share_identifier (company : identity) (rank : Z) : identity := company ++ [rank].
