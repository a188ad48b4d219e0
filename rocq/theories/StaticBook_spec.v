(** Specification for the fixed-tick order book: what a client reads off the execution reports. *)
From Verif Require Import Base BlockPool StaticTicks StaticBook.

(** The orders resting according to the reports, oldest first. *)
Record entry := mk_entry { e_identifier : Z; e_buy : bool; e_limit : Z; e_quantity : Z; e_owner : Z }.
Definition reduce (h q : Z) (e : entry) : entry :=
  if e_identifier e =? h then mk_entry (e_identifier e) (e_buy e) (e_limit e) (e_quantity e - q) (e_owner e) else e.
Definition note (l : list entry) (r : report) : list entry :=
  match p_state r with
  | invalid => l
  | placed => l ++ [mk_entry (p_identifier r) (p_buy r) (p_limit r) (p_quantity r) (p_owner r)]
  | matched => filter (fun e => 0 <? e_quantity e) (map (reduce (p_identifier r) (p_quantity r)) l)
  | cancelled => filter (fun e => negb (e_identifier e =? p_identifier r)) l
  end.
Definition resting (rs : list report) : list entry := fold_left note rs [].
(** Total quantity executed by incoming orders. *)
Definition executed (rs : list report) : Z :=
  fold_right Z.add 0 (map p_quantity (filter (fun r => match p_state r with matched => p_identifier r =? direct_order | _ => false end) rs)).

(** Books over prices 1..11 with two levels a unit, in exact arithmetic. *)
Definition demo_encode := encode exact 1 2 1 11.
Definition demo_decode := decode exact 1 2 1 11.
Definition demo_book : result book := new_book 1 11 21 8.
Definition demo (xs : list operation) : result book := do b <- demo_book; operate_all 1 11 2 demo_encode demo_decode false 20 b xs.
Definition buy (owner limit quantity : Z) := Insert (mk_order owner true limit 2 quantity good_until_cancelled).
Definition sell (owner limit quantity : Z) := Insert (mk_order owner false limit 2 quantity good_until_cancelled).
Definition with_lifetime (o : limit_order) (t : lifetime) : limit_order :=
  mk_order (o_owner o) (o_buy o) (o_limit o) (o_lot o) (o_quantity o) t.
Definition reports_of (x : result book) : list report := match x with Ok b => b_reports b | _ => [] end.
