(** Specification for the formats. *)
From Verif Require Import Base BinaryBook Format.

(** A reader of delimiter separated values: an escape character makes the next character literal, quotes
    switch quoting on and off, a delimiter outside quotes ends the field. *)
Fixpoint read_fields (delimiter quote escape : Z) (quoted literal : bool) (current : list Z) (s : list Z) : list (list Z) :=
  match s with
  | [] => [current]
  | c :: s' =>
    if literal then read_fields delimiter quote escape quoted false (current ++ [c]) s'
    else if c =? escape then read_fields delimiter quote escape quoted true current s'
    else if c =? quote then read_fields delimiter quote escape (negb quoted) false current s'
    else if negb quoted && (c =? delimiter) then current :: read_fields delimiter quote escape quoted false [] s'
    else read_fields delimiter quote escape quoted false (current ++ [c]) s'
  end.
(** A reader of whole files: a line feed outside quotes ends the record. *)
Fixpoint read_lines (delimiter quote escape : Z) (quoted literal : bool) (row : list (list Z)) (current : list Z) (s : list Z) : list (list (list Z)) :=
  match s with
  | [] => []
  | c :: s' =>
    if literal then read_lines delimiter quote escape quoted false row (current ++ [c]) s'
    else if c =? escape then read_lines delimiter quote escape quoted true row current s'
    else if c =? quote then read_lines delimiter quote escape (negb quoted) false row current s'
    else if negb quoted && (c =? delimiter) then read_lines delimiter quote escape quoted false (row ++ [current]) [] s'
    else if negb quoted && (c =? 10) then (row ++ [current]) :: read_lines delimiter quote escape quoted false [] [] s'
    else read_lines delimiter quote escape quoted false row (current ++ [c]) s'
  end.
(** The fields joined with delimiters. *)
Fixpoint join (delimiter : Z) (fields : list (list Z)) : list Z :=
  match fields with [] => [] | [f] => f | f :: fs => f ++ delimiter :: join delimiter fs end.
(** Splitting at every delimiter. *)
Fixpoint split_at (delimiter : Z) (current s : list Z) : list (list Z) :=
  match s with
  | [] => [current]
  | c :: s' => if c =? delimiter then current :: split_at delimiter [] s' else split_at delimiter (current ++ [c]) s'
  end.

(** Big-endian bytes of a number. *)
Fixpoint big_endian (size : nat) (z : Z) : list Z :=
  match size with O => [] | S n => big_endian n (z / 256) ++ [z mod 256] end.
(** What a message of the file says. Times of day are in milliseconds and further microseconds. *)
Record update := mk_update {
  u_type : Z; u_symbol : list Z; u_padding : list Z; u_milliseconds : Z; u_microseconds : Z; u_status : Z; u_scale : Z; u_numerator : Z;
  u_quantity : Z; u_side : Z; u_reason : Z;
  u_prefix : list Z; u_send_time : list Z; u_size_index : list Z; u_condition : Z; u_source : list Z; u_volume : list Z;
  u_orders : list Z; u_filler : Z; u_suffix : list Z }.
(** White space: blank, tabulators, line feed, form feed, carriage return. *)
Definition white (c : Z) : Prop := In c [32; 9; 10; 11; 12; 13].
(** The layout of a message according to the description of the format. *)
Definition layout (u : update) : list Z :=
  u_prefix u ++ big_endian 2 (u_type u) ++ u_send_time u ++ (u_symbol u ++ u_padding u) ++ u_size_index u ++
  big_endian 4 (u_milliseconds u) ++ big_endian 2 (u_microseconds u) ++ [u_condition u; u_status u] ++ u_source u ++
  [u_scale u] ++ big_endian 4 (u_numerator u) ++ u_volume u ++ big_endian 4 (u_quantity u) ++ u_orders u ++ [u_side u; u_filler u; u_reason u] ++ u_suffix u.
Definition well_formed (u : update) : Prop :=
  length (u_prefix u) = 4%nat /\ length (u_send_time u) = 4%nat /\ length (u_size_index u) = 6%nat /\ length (u_source u) = 5%nat /\
  length (u_volume u) = 4%nat /\ length (u_orders u) = 2%nat /\ length (u_suffix u) = 13%nat /\
  (length (u_symbol u) + length (u_padding u) = 11)%nat /\ Forall white (u_padding u) /\ ~ white (last (u_symbol u) 0) /\
  0 <= u_type u < 2 ^ 16 /\ 0 <= u_milliseconds u < 2 ^ 32 /\ 0 <= u_microseconds u < 2 ^ 16 /\ 0 <= u_numerator u < 2 ^ 32 /\ 0 <= u_quantity u < 2 ^ 32.
(** A full or delta update of the book. *)
Definition is_update (u : update) : bool := (u_type u =? 230) || (u_type u =? 231).
(** The entry a reader with the given clock and lot size delivers. *)
Definition entry_of (time lot : Z) (u : update) : entry :=
  mk_entry (u_symbol u) (u_status u) (u_reason u) time (u_numerator u) lot (u_quantity u) (if u_side u =? 66 then Buy else Sell).
