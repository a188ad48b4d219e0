(** Model of reading legal entity identifiers from texts - /repo/esl/law/legal_entity.hpp:75-103, with [assert] on and off. *)
From Verif Require Import Base CheckDigits.

(** What constructing an identifier leads to: its two parts, an assertion that fails, or undefined behaviour. *)
Inductive reading : Type :=
| Read (local code : list Z)
| Aborted
| Undefined.
(** [text[k]]: the character after the last one is zero, those beyond do not exist (81-83). *)
Definition char_at (text : list Z) (k : nat) : option Z :=
  match nth_error text k with Some c => Some c | None => if (k =? length text)%nat then Some 0 else None end.
(** Characters [k .. k+n-1], as the initialisers of the two arrays list them (81-83). *)
Fixpoint chars_at (text : list Z) (k n : nat) : option (list Z) :=
  match n with
  | O => Some []
  | S n' =>
    match char_at text k with
    | Some c => match chars_at text (S k) n' with Some cs => Some (c :: cs) | None => None end
    | None => None
    end
  end.
Definition is_digit (c : Z) : bool := (48 <=? c) && (c <=? 57).
Definition is_capital (c : Z) : bool := (65 <=? c) && (c <=? 90).
(** The assertions (85-101); reached only when the characters 0 to 17 can be read.  The characters compared are
    those of the text or zero, [nth] standing for [text[k]]. *)
Definition assertions (text local code : list Z) : bool :=
  ((length text =? 18)%nat || (length text =? 20)%nat)
  && forallb is_digit local
  && ((nth 4 text 0 =? 48) && (nth 5 text 0 =? 48))
  && forallb (fun c => is_digit c || is_capital c) code
  && (if (length text =? 20)%nat
      then (nth 18 text 0 =? fst (lei_checksum local code)) && (nth 19 text 0 =? snd (lei_checksum local code))
      else true).
(** 80-102: the constructor. *)
Definition lei_of_text (asserting : bool) (text : list Z) : reading :=
  match chars_at text 0 4, chars_at text 6 12 with
  | Some local, Some code => if asserting && negb (assertions text local code) then Aborted else Read local code
  | _, _ => Undefined
  end.
