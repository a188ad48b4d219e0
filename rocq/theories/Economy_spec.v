(** Specification for an economy with a Walrasian market. *)
From Verif Require Import Base Identity Inventory Inventory_spec StaticTicks Walras Walras_spec Sessions Sessions_spec Economy.
From Coq Require Import SpecFloat.

(** In this arithmetic, [n] units at [price] cents cost the product, or up to [e] cents less. *)
Definition amounts (A : arith) (e : Z) : Prop := forall n price, 0 <= n <= 2 ^ 53 -> 0 <= price <= 2 ^ 53 -> n * price < 2 ^ 50 ->
  0 <= cash A n price 1 /\ n * price - e <= cash A n price 1 <= n * price.

Section Spec.
Context {M D : Type} (usd p : identity) (encode : list (identity * Z) -> Z) (order_of : Z -> D).
Context (solver : list (identity * D) -> list (identity * Z) -> option (list (identity * spec_float))).
Context (trade : list (identity * D) -> list (identity * spec_float) -> list (identity * Z)) (stated : D -> Z * Z).
Context (strategy : identity -> Z -> option holdings * M -> Z -> M * Z).
(** Everyone has an inventory, and a valid one. *)
Definition solvent (participants : list identity) (states : identity -> option holdings * M) : Prop :=
  forall i, In i participants -> exists inventory, fst (states i) = Some inventory /\ valid inventory.
(** What trader [i] has of [k], and what all have. *)
Definition has (states : identity -> option holdings * M) (k i : identity) : Z := match fst (states i) with Some inventory => held inventory k | None => 0 end.
Definition all_have (participants : list identity) (states : identity -> option holdings * M) (k : identity) : Z := zsum (map (has states k) participants).
(** Whenever the market finds a solution, the trades are computed from some demands, one of each trader (C60); the new price is not negative;
    and every trader has stated truly what it has, has no short position, sells at most what it has, and buys at most what it can pay for. *)
Definition prudent (participants : list identity) : Prop := forall time old states orders result new,
  solvent participants states -> Permutation orders (all_orders encode order_of (trader_answer strategy) participants time [(p, old)] states) ->
  solver orders [(p, old)] = Some result -> apply_results result [(p, old)] = Ret [(p, new)] ->
  (exists demands, Permutation (map fst demands) participants /\ computes demands (trade orders result)) /\ 0 <= new <= 2 ^ 53 /\
  forall i v, In (i, v) (trade orders result) -> (forall d, In (i, d) orders -> stated d = (has states p i, 0)) /\ - v <= has states p i /\ v * new <= has states usd i.
(** Trades are of those that have ordered. *)
Definition of_orderers : Prop := forall orders result a, In a (map fst (trade orders result)) -> In a (map fst orders).
(** A history: for each session the new price and what everyone bought - or sold, if negative. *)
Definition history : Type := list (Z * list (identity * Z)).
Definition bought (i : identity) (trades : list (identity * Z)) : Z := zsum (map snd (filter (fun x => id_eqb (fst x) i) trades)).
(** Everything that is sold is bought by someone. *)
Definition closed (participants : list identity) (h : history) : Prop := Forall (fun x => Permutation (map fst (snd x)) participants /\ total (snd x) = 0) h.
(** The sessions in which [i] traded. *)
Definition active (i : identity) (h : history) : Z := Z.of_nat (length (filter (fun x => negb (bought i (snd x) =? 0)) h)).
(** Each participant has what it bought and has paid the prices for it, up to [e] cents in each session in which it traded; nothing else has changed. *)
Definition accounted (e : Z) (participants : list identity) (before after : identity -> option holdings * M) (h : history) : Prop :=
  forall i, In i participants ->
    has after p i = has before p i + zsum (map (fun x => bought i (snd x)) h) /\
    Z.abs (has after usd i - (has before usd i - zsum (map (fun x => fst x * bought i (snd x)) h))) <= e * active i h /\
    forall k, k <> p -> k <> usd -> has after k i = has before k i.
End Spec.
