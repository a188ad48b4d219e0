(** Specification vocabulary for the order book: resting orders, price-time priority, a naive
    order book, and a client that only sees execution reports. *)
From Verif Require Import Base Identity BinaryBook.

(** Histories of calls as the C++ types allow them: quantities are [std::uint32_t]; fewer than
    2^64 - 1 calls, so that identifiers do not reach the reserved one. *)
Definition valid (h : list op) : Prop :=
  Forall (fun x => match x with Insert o => u32 (o_quantity o) | Cancel _ => True end) h /\
  Z.of_nat (length h) < W64 - 1.

(** The orders resting on the book, with identifiers; their [o_quantity] is what is left. *)
Definition resting (b : book) : list (Z * order) :=
  map (fun e => (e_ident e, e_order e)) (b_bids b ++ b_asks b).
Definition resting_side (s : side) (b : book) : list (Z * order) :=
  filter (fun r => side_eqb (o_side (snd r)) s) (resting b).
Definition opposite (s : side) : side := match s with Buy => Sell | Sell => Buy end.

(** [q] is the highest (lowest) limit among [l]; nothing iff [l] is empty. *)
Definition is_highest (q : option Z) (l : list (Z * order)) : Prop :=
  match q with
  | None => l = []
  | Some p => (exists r, In r l /\ o_limit (snd r) = p) /\ forall r, In r l -> o_limit (snd r) <= p
  end.
Definition is_lowest (q : option Z) (l : list (Z * order)) : Prop :=
  match q with
  | None => l = []
  | Some p => (exists r, In r l /\ o_limit (snd r) = p) /\ forall r, In r l -> p <= o_limit (snd r)
  end.

(** Incoming [o] may trade with resting [r]. *)
Definition can_trade (o r : order) : Prop :=
  match o_side o, o_side r with
  | Buy, Sell => o_limit r <= o_limit o
  | Sell, Buy => o_limit o <= o_limit r
  | _, _ => False
  end.
(** For the incoming side [s], resting limit [p] is a better price than [p']. *)
Definition better (s : side) (p p' : Z) : Prop :=
  match s with Buy => p < p' | Sell => p' < p end.
(** Price-time priority between resting orders opposite to [s]. *)
Definition priority (s : side) (x y : Z * order) : Prop :=
  better s (o_limit (snd x)) (o_limit (snd y)) \/
  (o_limit (snd x) = o_limit (snd y) /\ fst x < fst y).

Definition quantity_of (l : list (Z * order)) : Z := zsum (map (fun r => o_quantity (snd r)) l).

(** Totals read off reports. *)
Definition is_state (s : state) (r : report) : bool :=
  match s, rp_state r with
  | Cancelled, Cancelled | Matched, Matched | Placed, Placed => true
  | _, _ => false
  end.
Definition total (p : report -> bool) (rs : list report) : Z :=
  zsum (map rp_quantity (filter p rs)).
Definition for_id (i : Z) (p : report -> bool) (r : report) : bool := p r && (rp_id r =? i).
(** Match reports addressed to the incoming order / to a resting order. *)
Definition to_taker (r : report) : bool := is_state Matched r && (rp_id r =? W64 - 1).
Definition to_maker (r : report) : bool := is_state Matched r && negb (rp_id r =? W64 - 1).
Definition inserted (h : list op) : Z :=
  zsum (map (fun x => match x with Insert o => o_quantity o | Cancel _ => 0 end) h).

(** The pair of reports for a trade of [q] between incoming [o] and resting [r] with id [i]. *)
Definition trade_reports (o : order) (i : Z) (r : order) (q : Z) : list report :=
  [ mk_report Matched (o_side o) q (W64 - 1) (o_limit r) (o_owner o);
    mk_report Matched (o_side r) q i (o_limit r) (o_owner r) ].

(** *** The naive book: a list of resting orders in order of arrival. *)
(** [(i, r)] is, in [l1 ++ (i,r) :: l2], the earliest of the best-priced orders [o] can trade with. *)
Definition best_of (o : order) (l1 : list (Z * order)) (r : order) (l2 : list (Z * order)) : Prop :=
  can_trade o r /\
  (forall x, In x l1 -> can_trade o (snd x) -> better (o_side o) (o_limit r) (o_limit (snd x))) /\
  (forall x, In x l2 -> can_trade o (snd x) -> ~ better (o_side o) (o_limit (snd x)) (o_limit r)).
(** [naive_match o rem l rs l' rem']: [o], with [rem] still to execute, trades against [l]. *)
Inductive naive_match (o : order) :
  Z -> list (Z * order) -> list report -> list (Z * order) -> Z -> Prop :=
| nm_stop rem l :
    rem = 0 \/ (forall x, In x l -> ~ can_trade o (snd x)) -> naive_match o rem l [] l rem
| nm_fill rem l1 i r l2 rs l' rem' :
    0 < rem -> best_of o l1 r l2 -> o_quantity r <= rem ->
    naive_match o (rem - o_quantity r) (l1 ++ l2) rs l' rem' ->
    naive_match o rem (l1 ++ (i, r) :: l2) (trade_reports o i r (o_quantity r) ++ rs) l' rem'
| nm_part rem l1 i r l2 :
    0 < rem -> best_of o l1 r l2 -> rem < o_quantity r ->
    naive_match o rem (l1 ++ (i, r) :: l2) (trade_reports o i r rem)
      (l1 ++ (i, with_quantity r (o_quantity r - rem)) :: l2) 0.
Inductive naive_step : Z * list (Z * order) -> op -> list report -> Z * list (Z * order) -> Prop :=
| ns_filled n l o rs l' :
    naive_match o (o_quantity o) l rs l' 0 ->
    naive_step (n, l) (Insert o) rs (n, l')
| ns_placed n l o rs l' rem :
    naive_match o (o_quantity o) l rs l' rem -> 0 < rem ->
    naive_step (n, l) (Insert o) (rs ++ [mk_report Placed (o_side o) rem n (o_limit o) (o_owner o)])
      (n + 1, l' ++ [(n, with_quantity o rem)])
| ns_cancel n l1 i r l2 :
    naive_step (n, l1 ++ (i, r) :: l2) (Cancel i)
      [mk_report Cancelled (o_side r) (o_quantity r) i (o_limit r) (o_owner r)] (n, l1 ++ l2)
| ns_unknown n l i :
    ~ In i (map fst l) -> naive_step (n, l) (Cancel i) [] (n, l).
Inductive naive_run : Z * list (Z * order) -> list op -> list report -> Z * list (Z * order) -> Prop :=
| nr_nil s : naive_run s [] [] s
| nr_cons s x rs s1 h rs' s2 :
    naive_step s x rs s1 -> naive_run s1 h rs' s2 -> naive_run s (x :: h) (rs ++ rs') s2.

(** *** A client that sees only reports. *)
Record view := mk_view { v_id : Z; v_side : side; v_quantity : Z; v_limit : Z; v_owner : identity }.
Definition client_step (l : list view) (r : report) : list view :=
  match rp_state r with
  | Placed => l ++ [mk_view (rp_id r) (rp_side r) (rp_quantity r) (rp_limit r) (rp_owner r)]
  | Cancelled => filter (fun v => negb (v_id v =? rp_id r)) l
  | Matched =>
      filter (fun v => 0 <? v_quantity v)
        (map (fun v => if v_id v =? rp_id r
                       then mk_view (v_id v) (v_side v) (v_quantity v - rp_quantity r) (v_limit v) (v_owner v)
                       else v) l)
  end.
Definition client (rs : list report) : list view := fold_left client_step rs [].
Definition view_of (x : Z * order) : view :=
  mk_view (fst x) (o_side (snd x)) (o_quantity (snd x)) (o_limit (snd x)) (o_owner (snd x)).

(** Quantity on the book an incoming order may trade with. *)
Definition can_tradeb (o r : order) : bool :=
  match o_side o, o_side r with
  | Buy, Sell => o_limit r <=? o_limit o
  | Sell, Buy => o_limit o <=? o_limit r
  | _, _ => false
  end.
Definition available (o : order) (l : list (Z * order)) : Z :=
  quantity_of (filter (fun x => can_tradeb o (snd x)) l).
(** What rests under identifier [i]. *)
Definition resting_quantity (i : Z) (b : book) : Z :=
  quantity_of (filter (fun x => fst x =? i) (resting b)).
(** A trade: identifier and resting order it is with, and its quantity. *)
Definition trade : Type := Z * order * Z.
Definition reports_of_trade (o : order) (t : trade) : list report :=
  let '(i, m, q) := t in trade_reports o i m q.
Definition ids_of (s : state) (rs : list report) : list Z := map rp_id (filter (is_state s) rs).
(** The single placement report, if a remainder is left. *)
Definition placement_of (b : book) (o : order) (rem : Z) : list report :=
  if rem >? 0 then [mk_report Placed (o_side o) rem (b_next b) (o_limit o) (o_owner o)] else [].
Definition with_lifetime (o : order) (t : lifetime) : order :=
  mk_order t (o_side o) (o_symbol o) (o_owner o) (o_limit o) (o_quantity o).
