(** Model of [binary_tree_order_book] —
    /repo/esl/economics/markets/order_book/binary_tree_order_book.hpp, with [limit_order]
    (order.hpp:45-113), [execution_report] (execution_report.hpp:33-118) and [basic_book]
    (basic_book.hpp:39-119).

    Simplification: a limit is the integer price value of a quote.  All quotes of one book are
    taken to share lot size and currency; Quote.v models quote comparison and its theorem
    C44 gives the range in which it coincides with comparing values. *)
From Verif Require Import Base Identity.

Inductive side := Buy | Sell.                                   (* order.hpp:56-59 *)
Inductive lifetime := GTC | FOK | IOC.                          (* order.hpp:50-54 *)
Definition side_eqb (a b : side) : bool :=
  match a, b with Buy, Buy | Sell, Sell => true | _, _ => false end.

(** order.hpp:45-84 [limit_order]; symbols are abstracted to integers. *)
Record order := mk_order {
  o_lifetime : lifetime; o_side : side; o_symbol : Z; o_owner : identity;
  o_limit : Z; o_quantity : Z }.
Definition with_quantity (o : order) (q : Z) : order :=
  mk_order (o_lifetime o) (o_side o) (o_symbol o) (o_owner o) (o_limit o) q.

Inductive state := Cancelled | Matched | Placed.                (* execution_report.hpp:38-43 *)
(** execution_report.hpp:33-118. *)
Record report := mk_report {
  rp_state : state; rp_side : side; rp_quantity : Z; rp_id : Z; rp_limit : Z; rp_owner : identity }.

(** basic_book.hpp:51: the identifier given to directly executed orders. *)
Definition direct_order : Z := W64 - 1.

(** One multimap entry: key, identifier, order (binary_tree_order_book.hpp:67-75). *)
Record entry := mk_entry { e_key : Z; e_ident : Z; e_order : order }.
Definition e_qty (e : entry) : Z := o_quantity (e_order e).
Definition entry_with_quantity (e : entry) (q : Z) : entry :=
  mk_entry (e_key e) (e_ident e) (with_quantity (e_order e) q).

(** State (56-85): [next_], [limit_orders_], [orders_bid] (descending keys) and [orders_ask]
    (ascending keys), each multimap as the list of its entries in iteration order.
    [reports] is not part of the state: each operation returns the reports it appends. *)
Record book := mk_book {
  b_next : Z; b_index : list (Z * Z); b_bids : list entry; b_asks : list entry }.
Definition empty_book : book := mk_book 0 [] [] [].            (* 61-65 *)

(** [std::multimap::emplace] inserts at the upper bound of the equal range: after every entry
    whose key is not ordered after the new key.  [before k k'] is the map's comparator. *)
Fixpoint mm_emplace (before : Z -> Z -> bool) (x : entry) (l : list entry) : list entry :=
  match l with
  | [] => [x]
  | y :: l' => if before (e_key x) (e_key y) then x :: y :: l' else y :: mm_emplace before x l'
  end.
(** [std::map::emplace] on [limit_orders_]: ordered by identifier, keeps an existing entry. *)
Fixpoint map_emplace (k v : Z) (l : list (Z * Z)) : list (Z * Z) :=
  match l with
  | [] => [(k, v)]
  | (k', v') :: l' => if k <? k' then (k, v) :: (k', v') :: l'
                      else if k' <? k then (k', v') :: map_emplace k v l' else l
  end.
Fixpoint map_find (k : Z) (l : list (Z * Z)) : option Z :=
  match l with
  | [] => None
  | (k', v') :: l' => if k =? k' then Some v' else map_find k l'
  end.
Definition map_erase (k : Z) (l : list (Z * Z)) : list (Z * Z) :=
  filter (fun kv => negb (fst kv =? k)) l.

(** 90-105 [bid()], [ask()]. *)
Definition bid (b : book) : option Z := match b_bids b with [] => None | e :: _ => Some (e_key e) end.
Definition ask (b : book) : option Z := match b_asks b with [] => None | e :: _ => Some (e_key e) end.

(** The two reports of one match (130-149 and 195-215): first for the incoming order, then
    for the resting order, both at the resting order's limit. *)
Definition match_reports (o : order) (e : entry) (executed : Z) : list report :=
  [ mk_report Matched (o_side o) executed direct_order (o_limit (e_order e)) (o_owner o);
    mk_report Matched (o_side (e_order e)) executed (e_ident e) (o_limit (e_order e)) (o_owner (e_order e)) ].

(** The matching loop (118-161 for buys over asks, 184-227 for sells over bids).  [crosses k] is
    the loop condition on the entry's key.  Returns the surviving entries, the reports, the
    identifiers erased from [limit_orders_], and the remainder.  The code erases exhausted
    entries after the loop through saved iterators; here they are dropped at once, which is
    the same list since multimap iterators stay valid. *)
Fixpoint match_loop (crosses : Z -> bool) (o : order) (remainder : Z) (l : list entry)
  : list entry * list report * list Z * Z :=
  match l with
  | [] => ([], [], [], remainder)
  | e :: l' =>
      if crosses (e_key e) then
        let executed := Z.min remainder (e_qty e) in
        let remainder' := remainder - executed in
        if executed =? 0 then (l, [], [], remainder')
        else
          let left := e_qty e - executed in
          let '(l'', rs, ids, rem) := match_loop crosses o remainder' l' in
          if left =? 0
          then (l'', match_reports o e executed ++ rs, e_ident e :: ids, rem)
          else (entry_with_quantity e left :: l'', match_reports o e executed ++ rs, ids, rem)
      else (l, [], [], remainder)
  end.

Definition erase_all (ids : list Z) (index : list (Z * Z)) : list (Z * Z) :=
  fold_left (fun m i => map_erase i m) ids index.

(** 111-246 [insert]. *)
Definition insert (b : book) (o : order) : book * list report :=
  match o_side o with
  | Buy =>
      let '(asks, rs, ids, rem) :=
        match_loop (fun k => o_limit o >=? k) o (o_quantity o) (b_asks b) in
      let index := erase_all ids (b_index b) in
      if rem >? 0
      then (mk_book (w64 (b_next b + 1)) (map_emplace (b_next b) (o_limit o) index)
              (mm_emplace Z.gtb (mk_entry (o_limit o) (b_next b) (with_quantity o rem)) (b_bids b))
              asks,
            rs ++ [mk_report Placed (o_side o) rem (b_next b) (o_limit o) (o_owner o)])
      else (mk_book (b_next b) index (b_bids b) asks, rs)
  | Sell =>
      let '(bids, rs, ids, rem) :=
        match_loop (fun k => o_limit o <=? k) o (o_quantity o) (b_bids b) in
      let index := erase_all ids (b_index b) in
      if rem >? 0
      then (mk_book (w64 (b_next b + 1)) (map_emplace (b_next b) (o_limit o) index)
              bids
              (mm_emplace Z.ltb (mk_entry (o_limit o) (b_next b) (with_quantity o rem)) (b_asks b)),
            rs ++ [mk_report Placed (o_side o) rem (b_next b) (o_limit o) (o_owner o)])
      else (mk_book (b_next b) index bids (b_asks b), rs)
  end.

(** Search of the equal range for the identifier, 259-274 / 278-292: the first entry with the
    given key and identifier is reported and erased. *)
Fixpoint remove_entry (key ident : Z) (l : list entry) : option (entry * list entry) :=
  match l with
  | [] => None
  | e :: l' => if (e_key e =? key) && (e_ident e =? ident) then Some (e, l')
               else match remove_entry key ident l' with
                    | Some (x, r) => Some (x, e :: r)
                    | None => None
                    end
  end.

(** 251-295 [cancel].  [limit_orders_] is not updated by the code. *)
Definition cancel (b : book) (ident : Z) : book * list report :=
  match map_find ident (b_index b) with
  | None => (b, [])
  | Some limit =>
      if match bid b with Some q => q >=? limit | None => false end then
        match remove_entry limit ident (b_bids b) with
        | Some (e, bids) =>
            (mk_book (b_next b) (b_index b) bids (b_asks b),
             [mk_report Cancelled Buy (e_qty e) ident limit (o_owner (e_order e))])
        | None => (b, [])
        end
      else if match ask b with Some q => q <=? limit | None => false end then
        match remove_entry limit ident (b_asks b) with
        | Some (e, asks) =>
            (mk_book (b_next b) (b_index b) (b_bids b) asks,
             [mk_report Cancelled Sell (e_qty e) ident limit (o_owner (e_order e))])
        | None => (b, [])
        end
      else (b, [])
  end.

(** 300-308 [orders()]. *)
Definition orders (b : book) : list Z := map fst (b_index b).

(** A history of calls on a book. *)
Inductive op := Insert (o : order) | Cancel (ident : Z).
Definition step (b : book) (x : op) : book * list report :=
  match x with Insert o => insert b o | Cancel i => cancel b i end.
Fixpoint run (b : book) (h : list op) : book * list report :=
  match h with
  | [] => (b, [])
  | x :: h' => let '(b1, r1) := step b x in let '(b2, r2) := run b1 h' in (b2, r1 ++ r2)
  end.
(** The book and the whole report sequence after a history. *)
Definition after (h : list op) : book := fst (run empty_book h).
Definition reports_of (h : list op) : list report := snd (run empty_book h).
