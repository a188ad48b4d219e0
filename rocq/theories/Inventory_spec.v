(** Specification for inventories, transfers and cash flows. *)
From Verif Require Import Base Identity Interval Money Inventory.

(** What is held of a property; nothing when it is not listed. *)
Definition held (m : holdings) (i : identity) : Z := match h_find i m with Some v => v | None => 0 end.
(** A map: distinct keys, 64-bit quantities. *)
Definition valid (m : holdings) : Prop := NoDup (map fst m) /\ Forall (fun kv => u64 (snd kv)) m.
(** The transferor can hand over what is listed. *)
Definition covers (m items : holdings) : Prop := forall i, held items i <= held m i.
(** Histories of an owner<T>: takes and received transfers that complete.  The guarded ones take only
    properties not yet in the inventory and have no transfer to oneself. *)
Inductive owner_event := Took (i : identity) (amount : Z) | Received (t : transfer).
Definition well_formed (is_T : identity -> bool) (e : owner_event) : Prop :=
  match e with
  | Took i amount => is_T i = true /\ u64 amount
  | Received t => valid (transferred t)
  end.
Definition guarded (is_T : identity -> bool) (o : typed_owner) (e : owner_event) : Prop :=
  match e with
  | Took i _ => h_find i (inventory o) = None
  | Received t => transferor t <> transferee t
  end.
Inductive owner_history (is_T : identity -> bool) (self : identity) (guard : typed_owner -> owner_event -> Prop) : typed_owner -> Prop :=
| oh_start : owner_history is_T self guard (mk_typed_owner [] [])
| oh_take o i amount : owner_history is_T self guard o -> well_formed is_T (Took i amount) -> guard o (Took i amount) ->
    owner_history is_T self guard (take i amount o)
| oh_receive o t o' : owner_history is_T self guard o -> well_formed is_T (Received t) -> guard o (Received t) ->
    receive_transfer is_T self t o = Ret o' -> owner_history is_T self guard o'.
(** The typed view agrees with the inventory. *)
Definition views_agree (is_T : identity -> bool) (o : typed_owner) : Prop :=
  forall i, held (properties o) i = if is_T i then held (inventory o) i else 0.

(** Amounts recorded at times in [a, b). *)
Definition amounts (l : ledger) (a b : Z) : list Z :=
  map (fun e => value (snd e)) (filter (fun e => (a <=? fst e) && (fst e <? b)) l).
(** The ledger in which the entries were recorded, in any order. *)
Definition ledger_of (entries : list (Z * price)) : ledger := fold_left (fun l e => record (fst e) (snd e) l) entries [].
