(** Specification for codes and their tables. *)
From Coq Require Import String.
From Verif Require Import Base Text Money CheckDigits Codes.

(** A market identifier code: four capital letters or digits. *)
Definition market_code (s : list Z) : Prop := List.length s = 4%nat /\ Forall (fun c => 65 <= c <= 90 \/ 48 <= c <= 57) s.
(** Three capital letters; the number of subunits does not matter. *)
Definition lettered (c : currency) : Prop := 65 <= c0 c <= 90 /\ 65 <= c1 c <= 90 /\ 65 <= c2 c <= 90.
Definition same_letters (c d : currency) : Prop := c0 c = c0 d /\ c1 c = c1 d /\ c2 c = c2 d.
(** Two capital letters. *)
Definition country (c : list Z) : Prop := exists a b, c = [a; b] /\ 65 <= a <= 90 /\ 65 <= b <= 90.
(** The position of the first difference decides. *)
Definition before (a b : list Z) : Prop := exists p x y s t, a = p ++ x :: s /\ b = p ++ y :: t /\ x < y.

(** ISO 4217: the currencies of the library without a minor unit, with a thousandth or a ten-thousandth, those for which none is
    defined (metals, units of account), and hundredths for all others. *)
Definition whole_units : list string := ["BIF"; "CLP"; "DJF"; "GNF"; "ISK"; "JPY"; "KMF"; "KRW"; "PYG"; "RWF"; "UGX"; "UYI"; "VND"; "VUV"; "XAF"; "XOF"; "XPF"]%string.
Definition thousandths : list string := ["BHD"; "IQD"; "JOD"; "KWD"; "LYD"; "OMR"; "TND"]%string.
Definition ten_thousandths : list string := ["CLF"]%string.
Definition no_minor_unit : list string := ["XAG"; "XAU"; "XBA"; "XBB"; "XBC"; "XBD"; "XDR"; "XPD"; "XPT"; "XSU"; "XUA"]%string.
Definition listed (name : string) (l : list string) : bool := existsb (String.eqb name) l.
Definition minor_units (name : string) : Z :=
  if listed name whole_units then 1 else if listed name thousandths then 1000 else if listed name ten_thousandths then 10000 else 100.
(** Countries and territories that use a currency not named after them. *)
Definition shared_tender : list (string * list string) := [
  ("ANG", ["CW"; "SX"]); ("AUD", ["CX"; "CC"; "HM"; "KI"; "NR"; "NF"; "TV"]); ("CHF", ["LI"]); ("DKK", ["FO"; "GL"]);
  ("EUR", ["AD"; "AT"; "AX"; "BE"; "BL"; "CY"; "DE"; "EE"; "ES"; "FI"; "FR"; "GF"; "GP"; "GR"; "IE"; "IT"; "LT"; "LU"; "LV"; "MC"; "ME"; "MF"; "MQ"; "MT"; "NL"; "PM"; "PT"; "RE"; "SI"; "SK"; "SM"; "TF"; "VA"; "YT"]);
  ("GBP", ["GG"; "IM"; "JE"]); ("MAD", ["EH"]); ("NOK", ["BV"; "SJ"]); ("NZD", ["CK"; "NU"; "PN"; "TK"]);
  ("USD", ["AS"; "BQ"; "EC"; "FM"; "GU"; "IO"; "MH"; "MP"; "PR"; "PW"; "TC"; "TL"; "UM"; "VG"; "VI"]);
  ("XAF", ["CF"; "CG"; "CM"; "GA"; "GQ"; "TD"]); ("XCD", ["AG"; "AI"; "DM"; "GD"; "KN"; "LC"; "MS"; "VC"]);
  ("XOF", ["BF"; "BJ"; "CI"; "GW"; "ML"; "NE"; "SN"; "TG"]); ("XPF", ["NC"; "PF"; "WF"])]%string.
(** The tender of a country: the one it shares, otherwise one that begins with its letters. *)
Definition tender_of (country currency : string) : bool :=
  match find (fun e => listed country (snd e)) shared_tender with
  | Some (c, _) => String.eqb c currency
  | None => String.prefix country currency
  end.
