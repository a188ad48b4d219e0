(** Model of the text and binary formats - /repo/esl/data/format/delimiter_separated_values.hpp and
    /repo/esl/data/format/openbook.hpp. Characters and bytes are numbers. *)
From Verif Require Import Base BinaryBook.

(** delimiter_separated_values.hpp:44-73 [render]. *)
Definition render (delimiter quote escape : Z) (text : list Z) : list Z :=
  let quoted := existsb (Z.eqb delimiter) text || existsb (Z.eqb escape) text in
  let body := flat_map (fun c => if (quote =? c) || (escape =? c) then [escape; c] else [c]) text in
  if quoted then quote :: body ++ [quote] else body.

(** delimiter_separated_values.hpp:76-80, 104-112 [extract_element], of a row in which every element has
    been turned into text by its own [<<]. The elements arrive as lvalues, so the overloads for text at
    88-102 are not selected and nothing is escaped. *)
Fixpoint extract_elements (row : list (list Z)) : list Z :=
  match row with
  | [] => []
  | [v] => v
  | first :: rest => first ++ 44 :: extract_elements rest
  end.
(** delimiter_separated_values.hpp:119-128 [render_row]. *)
Definition render_row (row : list (list Z)) : list Z := extract_elements row ++ [10].
(** delimiter_separated_values.hpp:135-142 [render_records]. *)
Definition render_records (rows : list (list (list Z))) : list Z := flat_map render_row rows.

(** One call of the callback of [read_openbook]. *)
Record entry := mk_entry {
  n_symbol : list Z; n_status : Z; n_reason : Z; n_time : Z; n_price : Z; n_lot : Z; n_quantity : Z; n_side : side }.

(** openbook.hpp:45-58 [convert_endian_aware] on a little-endian machine: the bytes are reversed in
    place and read as a little-endian number. The fields do not overlap, so the effect on the
    buffer is not modelled. *)
Fixpoint little_endian (bytes : list Z) : Z :=
  match bytes with [] => 0 | b :: l => b + 256 * little_endian l end.
Definition field (buffer : list Z) (offset size : nat) : Z := little_endian (rev (firstn size (skipn offset buffer))).
Definition byte (buffer : list Z) (offset : nat) : Z := nth offset buffer 0.
(** [boost::trim_right] in the classic locale. *)
Definition space (c : Z) : bool := (c =? 32) || ((9 <=? c) && (c <=? 13)).
Fixpoint drop_spaces (l : list Z) : list Z :=
  match l with c :: l' => if space c then drop_spaces l' else l | [] => [] end.
Definition trim_right (l : list Z) : list Z := rev (drop_spaces (rev l)).

(** openbook.hpp:295: the product and the sum are computed in 32 bits. *)
Definition event_time (source_time microseconds : Z) : Z := w32 (w32 (source_time * 1000) + microseconds).
(** openbook.hpp:297-299 with quote.hpp:100-107: the lot is [pow(10, scale) / 100] converted from
    [double] to [uint32_t], which is undefined above its range and otherwise truncates; a lot of zero throws. *)
Definition event_lot (scale : Z) : outcome Z :=
  let lot := 10 ^ scale / 100 in
  if W32 <=? lot then UB else if lot =? 0 then Throw else Ret lot.
(** openbook.hpp:106-316: one message of 71 bytes. *)
Definition read_message (buffer : list Z) : outcome (list entry) :=
  let type := field buffer 4 2 in
  if (type =? 230) || (type =? 231) then
    match event_lot (byte buffer 40) with
    | Ret lot => Ret [mk_entry (trim_right (firstn 11 (skipn 10 buffer))) (byte buffer 34) (byte buffer 57)
                        (event_time (field buffer 27 4) (field buffer 31 2)) (field buffer 41 4) lot (field buffer 49 4)
                        (if byte buffer 55 =? 66 then Buy else Sell)]
    | Throw => Throw | UB => UB
    end
  else Ret [].
(** openbook.hpp:65-317 [read_openbook]: the calls made, if all messages are read. *)
Fixpoint read_messages (n : nat) (file : list Z) : outcome (list entry) :=
  match n with
  | O => Ret []
  | S n' =>
    match read_message (firstn 71 file) with
    | Ret e => match read_messages n' (skipn 71 file) with Ret es => Ret (e ++ es) | Throw => Throw | UB => UB end
    | Throw => Throw | UB => UB
    end
  end.
Definition read_openbook (file : list Z) : outcome (list entry) := read_messages (length file / 71) file.
(** openbook.hpp:323-351 [parse_main_session]; 79 and 67 are the letters O and C. *)
Fixpoint same_text (a b : list Z) : bool :=
  match a, b with [], [] => true | x :: a', y :: b' => (x =? y) && same_text a' b' | _, _ => false end.
Definition main_session_keeps (symbol : list Z) (e : entry) : bool :=
  (n_status e =? 79) && ((n_reason e =? 79) || (n_reason e =? 67)) && same_text symbol (n_symbol e).
Definition parse_main_session (file symbol : list Z) : outcome (list entry) :=
  match read_openbook file with Ret es => Ret (filter (main_session_keeps symbol) es) | Throw => Throw | UB => UB end.
