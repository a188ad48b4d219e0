(** Specification of the display of an order book. *)
From Verif Require Import Base BlockPool StaticBook StaticBook_spec StaticMatch_spec.

(** The quantity resting on a side with a limit. *)
Definition quantity_at (buy : bool) (v : Z) (l : list entry) : Z :=
  zsum (map e_quantity (filter (fun e => Bool.eqb (e_buy e) buy && (e_limit e =? v)) l)).
(** The best [n] limits of a side, the best first, with the quantity resting there. *)
Definition best_rows (buy : bool) (l : list entry) (n : Z) (rows : list (Z * Z)) : Prop :=
  StronglySorted (fun a c => better buy (fst a) (fst c)) rows /\
  Forall (fun r => (exists e, In e l /\ e_buy e = buy /\ e_limit e = fst r) /\ snd r = quantity_at buy (fst r) l) rows /\
  Z.of_nat (length rows) <= n /\
  forall e, In e l -> e_buy e = buy -> In (e_limit e) (map fst rows) \/ (Z.of_nat (length rows) = n /\ Forall (fun r => better buy (fst r) (e_limit e)) rows).
