(** Characters are their byte values; a C++ string is a list of bytes.  Decimal rendering of
    unsigned integers as done by [std::ostream << std::uint64_t] (libstdc++ behaviour, the
    shortest decimal form). *)
From Verif Require Import Base.
From Coq Require Ascii String.

Fixpoint codes (s : String.string) : list Z :=
  match s with
  | String.EmptyString => []
  | String.String a s' => Z.of_N (Ascii.N_of_ascii a) :: codes s'
  end.

(** Shortest decimal digits of a non-negative number; 20 digits suffice for 64 bits.  On
    exhausted fuel the marker -1 is produced, which is not a character. *)
Fixpoint dec_fuel (fuel : nat) (z : Z) : list Z :=
  match fuel with
  | O => [-1]
  | S f => if z <? 10 then [48 + z] else dec_fuel f (z / 10) ++ [48 + z mod 10]
  end.
Definition dec (z : Z) : list Z := dec_fuel 20 z.

(** [std::setfill('0') << std::setw(w) << z]: pad on the left to width [w]. *)
Definition dec_padded (w : nat) (z : Z) : list Z :=
  repeat 48 (w - length (dec z)) ++ dec z.
