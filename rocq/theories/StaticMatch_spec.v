(** Specification for C78 and C42: price-time priority, told in execution reports alone.  The ledger [resting] of
    StaticBook_spec.v (the orders resting according to the reports, oldest first) is all the state there is. *)
From Verif Require Import Base BlockPool StaticBook StaticBook_spec.

(** Limit [a] is a better price than [b] for a resting order to buy (or to sell). *)
Definition better (buy : bool) (a b : Z) : Prop := if buy then b < a else a < b.
(** The order next in line: no older order of its side is as good, no younger one is better. *)
Definition next_in_line (buy : bool) (l : list entry) (e : entry) : Prop :=
  e_buy e = buy /\ exists older younger, l = older ++ e :: younger /\
    Forall (fun x => e_buy x = buy -> better buy (e_limit e) (e_limit x)) older /\
    Forall (fun x => e_buy x = buy -> ~ better buy (e_limit x) (e_limit e)) younger.
(** An incoming order can trade with a resting order of the other side. *)
Definition crosses (o : limit_order) (e : entry) : Prop :=
  e_buy e = negb (o_buy o) /\ if o_buy o then e_limit e <= o_limit o else o_limit o <= e_limit e.
(** The two reports of a trade. *)
Definition trade (o : limit_order) (e : entry) (quantity : Z) : list report :=
  [mk_report matched (o_buy o) quantity direct_order (e_limit e) (o_owner o);
   mk_report matched (e_buy e) quantity (e_identifier e) (e_limit e) (e_owner e)].
(** [executes o l q rs l' q']: with [q] units to go and the ledger [l], the order trades again and again with the
    order next in line, until nothing is left or nobody is left to trade with. *)
Inductive executes (o : limit_order) : list entry -> Z -> list report -> list entry -> Z -> Prop :=
| ex_filled l : executes o l 0 [] l 0
| ex_alone l q : 0 < q -> (forall e, In e l -> ~ crosses o e) -> executes o l q [] l q
| ex_trade l q e rs l' q' : 0 < q -> next_in_line (negb (o_buy o)) l e -> crosses o e ->
    let x := Z.min q (e_quantity e) in
    executes o (fold_left note (trade o e x) l) (q - x) rs l' q' ->
    executes o l q (trade o e x ++ rs) l' q'.
(** What is there to trade with. *)
Definition crossesb (o : limit_order) (e : entry) : bool :=
  Bool.eqb (e_buy e) (negb (o_buy o)) && if o_buy o then e_limit e <=? o_limit o else o_limit o <=? e_limit e.
Definition available (o : limit_order) (l : list entry) : Z := zsum (map e_quantity (filter (crossesb o) l)).
(** The reports an order is answered with; [h] is the identifier given to the order should it be placed. *)
Inductive answer (lowest highest : Z) (o : limit_order) (l : list entry) (h : Z) : list report -> Prop :=
| an_invalid : ~ (lowest <= o_limit o <= highest) \/ o_quantity o <= 0 ->
    answer lowest highest o l h [mk_report invalid (o_buy o) (o_quantity o) direct_order (o_limit o) (o_owner o)]
| an_killed : lowest <= o_limit o <= highest -> 0 < o_quantity o ->
    o_lifetime o = fill_or_kill -> available o l < o_quantity o ->
    answer lowest highest o l h [mk_report cancelled (o_buy o) (o_quantity o) direct_order (o_limit o) (o_owner o)]
| an_executed rs l' : lowest <= o_limit o <= highest -> 0 < o_quantity o ->
    executes o l (o_quantity o) rs l' 0 ->
    answer lowest highest o l h rs
| an_cancelled rs l' q : lowest <= o_limit o <= highest -> 0 < o_quantity o ->
    executes o l (o_quantity o) rs l' q -> 0 < q -> o_lifetime o = immediate_or_cancel ->
    answer lowest highest o l h (rs ++ [mk_report cancelled (o_buy o) q direct_order (o_limit o) (o_owner o)])
| an_placed rs l' q : lowest <= o_limit o <= highest -> 0 < o_quantity o ->
    executes o l (o_quantity o) rs l' q -> 0 < q -> o_lifetime o = good_until_cancelled ->
    answer lowest highest o l h (rs ++ [mk_report placed (o_buy o) q h (o_limit o) (o_owner o)]).
(** The identifiers given so far. *)
Definition placed_identifiers (rs : list report) : list Z :=
  map p_identifier (filter (fun r => match p_state r with placed => true | _ => false end) rs).
(** The best limit resting on a side. *)
Definition best_limit (buy : bool) (l : list entry) (v : option Z) : Prop :=
  match v with
  | Some v => (exists e, In e l /\ e_buy e = buy /\ e_limit e = v) /\ forall e, In e l -> e_buy e = buy -> ~ better buy (e_limit e) v
  | None => forall e, In e l -> e_buy e <> buy
  end.

Section Allowed.
Context (lowest highest lot capacity : Z).
(** What the code is proved right for: orders in the book's lot with invalid data or with a limit strictly inside the
    range, a free place in the pool, no fill-or-kill order that can be executed in part only (C41), and the
    cancellation of resting orders other than the last one at the best limit (C42, C77). *)
Definition allowed (l : list entry) (x : operation) : Prop :=
  match x with
  | Insert o =>
      o_lot o = lot /\ o_limit o <> lowest /\ o_limit o <> highest /\ Z.of_nat (length l) < capacity /\
      (o_lifetime o = fill_or_kill -> available o l = 0 \/ o_quantity o <= available o l)
  | Cancel h =>
      exists e e', In e l /\ e_identifier e = h /\ In e' l /\ e_identifier e' <> h /\ e_buy e' = e_buy e /\
        ~ better (e_buy e) (e_limit e) (e_limit e')
  end.
(** Identifiers are 64-bit numbers; that many orders can be placed at least. *)
Definition not_exhausted (rs : list report) : Prop := (3 * Z.of_nat (length (placed_identifiers rs)) + 5) * capacity < W64.
Context (size fuel : nat) (encode decode : Z -> Z) (default_comparable : bool).
(** The books reached by allowed operations. *)
Inductive reached : book -> Prop :=
| re_new b : new_book lowest highest size capacity = Ok b -> reached b
| re_step b x b' : reached b -> not_exhausted (b_reports b) -> allowed (resting (b_reports b)) x ->
    operate lowest highest lot encode decode default_comparable fuel b x = Ok b' -> reached b'.
(** A faithful translation of the prices inside the range to levels other than the first and the last. *)
Definition faithful : Prop :=
  (forall v, lowest < v < highest -> 0 < encode v < Z.of_nat size - 1 /\ decode (encode v) = v) /\
  (forall v w, lowest < v < highest -> lowest < w < highest -> v < w -> encode v < encode w).
End Allowed.
