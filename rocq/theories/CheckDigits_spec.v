(** Specification for check digits. *)
From Coq Require Import String.
From Verif Require Import Base Text.
Local Open Scope list_scope.

Definition digit (d : Z) : Prop := 0 <= d <= 9.
Definition digit_char (c : Z) : Prop := 48 <= c <= 57.
Definition letter_char (c : Z) : Prop := 65 <= c <= 90.
Definition lower_char (c : Z) : Prop := 97 <= c <= 122.
(** The value of a symbol is its position in 0-9A-Z (CUSIP: followed by * @ #), small letters being
    read as capitals; anything else counts as 0. *)
Fixpoint position (c : Z) (table : list Z) : option Z :=
  match table with
  | [] => None
  | x :: r => if x =? c then Some 0 else option_map Z.succ (position c r)
  end.
Definition symbols : list Z := codes "0123456789ABCDEFGHIJKLMNOPQRSTUVWXYZ"%string.
Definition cusip_symbols : list Z := symbols ++ codes "*@#"%string.
Definition capital (c : Z) : Z := if (97 <=? c) && (c <=? 122) then c - 32 else c.
Definition place (table : list Z) (c : Z) : Z := match position (capital c) table with Some k => k | None => 0 end.
(** The decimal digits a code stands for: letters A, B, ... are written 10, 11, ... *)
Definition expand_char (c : Z) : list Z :=
  if place symbols c <? 10 then [place symbols c] else [place symbols c / 10; place symbols c mod 10].
Definition expand (code : list Z) : list Z := flat_map expand_char code.
(** The Luhn test: from the right, every second digit is doubled, and the digits of all numbers
    so obtained are added; the sum must be divisible by ten. *)
Definition digit_sum (n : Z) : Z := n / 10 + n mod 10.
Fixpoint luhn_sum (doubled : bool) (from_right : list Z) : Z :=
  match from_right with
  | [] => 0
  | d :: r => (if doubled then digit_sum (2 * d) else d) + luhn_sum (negb doubled) r
  end.
Definition luhn (number : list Z) : Prop := (luhn_sum false (rev number)) mod 10 = 0.
(** CUSIP: every second symbol value, from the second on, is doubled, and digits are added. *)
Fixpoint cusip_total (doubled : bool) (code : list Z) : Z :=
  match code with
  | [] => 0
  | c :: r => digit_sum (if doubled then 2 * place cusip_symbols c else place cusip_symbols c) + cusip_total (negb doubled) r
  end.
(** SEDOL: weighted sum with the check digit of weight one. *)
Definition sedol_total (code : list Z) (check : Z) : Z :=
  match code with
  | [a; b; c; d; e; f] =>
      place symbols a * 1 + place symbols b * 3 + place symbols c * 1 + place symbols d * 7 + place symbols e * 3 + place symbols f * 9 + check
  | _ => -1
  end.
(** The number a sequence of decimal digits denotes. *)
Definition number (ds : list Z) : Z := fold_left (fun n d => 10 * n + d) ds 0.
(** A legal entity identifier: four digits, twelve digits or capital letters. *)
Definition valid_lei (local code : list Z) : Prop :=
  length local = 4%nat /\ Forall digit_char local /\ length code = 12%nat /\ Forall (fun c => digit_char c \/ letter_char c) code.
