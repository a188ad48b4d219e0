(** Model of the clearing of a Walrasian market -
    /repo/esl/economics/markets/walras/price_setter.cpp:171-548.  The excess demand model and the
    solver (tatonnement.hpp) are in Tatonnement.v; here the multipliers they find and the demands of
    the participants at those are arguments. *)
From Coq Require Import SpecFloat.
From Verif Require Import Base Identity Inventory StaticTicks.

(** Conversion of a double to [int64_t]: truncation; undefined out of range and for NaN. *)
Definition in_i64 (z : Z) : bool := (- 2 ^ 63 <=? z) && (z <? 2 ^ 63).
Definition to_i64 (x : spec_float) : outcome Z :=
  match x with
  | S754_zero _ => Ret 0
  | S754_finite _ _ _ => let z := double_trunc x in if in_i64 z then Ret z else UB
  | _ => UB
  end.
(** [int64_t] addition; overflow is undefined. *)
Definition add_i64 (a b : Z) : outcome Z := if in_i64 (a + b) then Ret (a + b) else UB.

(** ** price_setter.cpp:171-203 [apply_results]; quotes that are exchange rates (lines 191-193) are left
    out.  Quotes in iteration order: property and price in units of the currency.  A property for which
    no multiplier was found dereferences the end iterator (line 178). *)
Fixpoint m_find (i : identity) (m : list (identity * spec_float)) : option spec_float :=
  match m with
  | [] => None
  | (k, x) :: m' => if id_eqb k i then Some x else m_find i m'
  end.
Definition new_price (value : Z) (multiplier : spec_float) : outcome Z :=
  match to_i64 (mul double (of_Z double value) multiplier) with
  | Ret v => Ret (if 0 =? v then 1 else v)
  | Throw => Throw
  | UB => UB
  end.
Fixpoint apply_results (result : list (identity * spec_float)) (quotes : list (identity * Z)) : outcome (list (identity * Z)) :=
  match quotes with
  | [] => Ret []
  | (p, q) :: quotes' =>
      match m_find p result with
      | None => UB
      | Some x =>
          match new_price q x, apply_results result quotes' with
          | Ret v, Ret l => Ret ((p, v) :: l)
          | _, _ => UB
          end
      end
  end.

(** ** price_setter.cpp:213-267 [compute_transfers], for one property.
    Lines 228-232: truncation of the demands and their sum. *)
Fixpoint truncate_demands (demands : list (identity * spec_float)) : outcome (list (identity * Z)) :=
  match demands with
  | [] => Ret []
  | (a, x) :: demands' =>
      match to_i64 x, truncate_demands demands' with
      | Ret z, Ret l => Ret ((a, z) :: l)
      | _, _ => UB
      end
  end.
Fixpoint sum_i64 (acc : Z) (l : list (identity * Z)) : outcome Z :=
  match l with
  | [] => Ret acc
  | (_, z) :: l' => match add_i64 acc z with Ret s => sum_i64 s l' | Throw => Throw | UB => UB end
  end.
(** Lines 233-237: [std::sort] by absolute value, which may order equal ones either way and does not
    throw; the absolute value of the least integer is undefined and excluded here. *)
Definition sorts (l s : list (identity * Z)) : Prop :=
  Permutation l s /\ StronglySorted (fun x y => Z.abs (snd x) <= Z.abs (snd y)) s.
(** Lines 245-247, 254-256: one correction, [allocations_[k] += d]. *)
Fixpoint correct_one (k : nat) (d : Z) (l : list (identity * Z)) : outcome (list (identity * Z)) :=
  match l, k with
  | [], _ => UB
  | (a, z) :: l', O => match add_i64 z d with Ret s => Ret ((a, s) :: l') | Throw => Throw | UB => UB end
  | x :: l', S k' => match correct_one k' d l' with Ret r => Ret (x :: r) | Throw => Throw | UB => UB end
  end.
(** The loop, for [n] more rounds from [ii]; the modulo of zero is undefined. *)
Fixpoint correct (n ii : nat) (d : Z) (l : list (identity * Z)) : outcome (list (identity * Z)) :=
  match n with
  | O => Ret l
  | S n' =>
      match length l with
      | O => UB
      | _ => match correct_one (ii mod length l) d l with Ret l' => correct n' (S ii) d l' | Throw => Throw | UB => UB end
      end
  end.
(** Lines 239-257, given the sorted allocations. *)
Definition allocate (error : Z) (sorted : list (identity * Z)) : outcome (list (identity * Z)) :=
  if error <? 0 then correct (Z.to_nat (- error)) 0 1 sorted else correct (Z.to_nat error) 0 (-1) sorted.
(** All of it: [transfers] are the trades computed for [demands]. *)
Definition computes (demands : list (identity * spec_float)) (transfers : list (identity * Z)) : Prop :=
  exists l error s, truncate_demands demands = Ret l /\ sum_i64 0 l = Ret error /\ sorts l s /\ allocate error s = Ret transfers.

(** ** price_setter.cpp:400-488: what the market sends to and receives from each participant.
    [std::map] from agents to inventories. *)
Definition parties : Type := list (identity * holdings).
Fixpoint p_find (a : identity) (m : parties) : option holdings :=
  match m with
  | [] => None
  | (k, h) :: m' => if id_eqb k a then Some h else p_find a m'
  end.
Fixpoint p_assign (a : identity) (h : holdings) (m : parties) : parties :=
  match m with
  | [] => []
  | (k, x) :: m' => if id_eqb k a then (k, h) :: m' else (k, x) :: p_assign a h m'
  end.
(** [emplace(a, h)]: without effect when the key is present. *)
Definition p_emplace (a : identity) (h : holdings) (m : parties) : parties :=
  match p_find a m with Some _ => m | None => m ++ [(a, h)] end.
(** [emplace(a, empty).first->second.insert(k, q)] *)
Definition p_insert (a k : identity) (q : Z) (m : parties) : parties :=
  match p_find a (p_emplace a [] m) with Some h => p_assign a (inv_insert h k q) (p_emplace a [] m) | None => m end.

(** Lines 439, 454, 467, 481 with money.hpp:76-81 and price.hpp:241-244: the cents for [units] at [price]
    cents for [lot] units. *)
Definition cash (A : arith) (units price lot : Z) : Z :=
  trunc_Z A (mul A (div A (mul A (of_Z A units) (div A (of_Z A price) (of_Z A 100))) (of_Z A lot)) (of_Z A 100)).

(** A traded property: its identity, its new and its old price, its lot. *)
Record traded := mk_traded { t_id : identity; t_price : Z; t_old : Z; t_lot : Z }.

Section Settlement.
(** [usd] identifies cash, [short_of] the lending contract of a property (securities_lending_contract.hpp:59);
    [supply] gives the long and the short position a participant stated, zero when it stated none. *)
Context (A : arith) (usd : identity) (short_of : identity -> identity) (supply : identity -> identity -> Z * Z).

(** Lines 411-486, for one participant and property; the first component is [send_].  The assertion in line 427 is off. *)
Definition settle (t : traded) (st : parties * parties) (trade : identity * Z) : parties * parties :=
  let '(send, receive) := st in
  let '(a, v) := trade in
  let '(long, short) := supply a (t_id t) in
  if v =? 0 then st
  else if v >? 0 then
    let cancel := if short >? 0 then Z.min v short else 0 in
    let receive := if short >? 0 then p_insert a usd (cash A cancel (t_old t) (t_lot t)) (p_insert a (short_of (t_id t)) cancel receive) else receive in
    if v - cancel >? 0 then
      (p_emplace a [(t_id t, v - cancel)] send, p_insert a usd (cash A (v - cancel) (t_price t) (t_lot t)) receive)
    else (send, receive)
  else
    let cancel := if long >? 0 then Z.min (- v) long else 0 in
    let receive := if long >? 0 then p_insert a (t_id t) cancel receive else receive in
    let send := if long >? 0 then p_insert a usd (cash A cancel (t_price t) (t_lot t)) send else send in
    if v + cancel <? 0 then
      (p_insert a (short_of (t_id t)) (- (v + cancel)) (p_insert a usd (cash A (- (v + cancel)) (t_price t) (t_lot t)) send), receive)
    else (send, receive).
(** Lines 404-488: the traded properties in iteration order with the transfers of each. *)
Definition settle_all (l : list (traded * list (identity * Z))) : parties * parties :=
  fold_left (fun st tl => fold_left (settle (fst tl)) (snd tl) st) l ([], []).

(** Lines 498-521: netting of the items received from and sent to one participant.  What is received is
    changed while it is iterated over; no entry is erased from it. *)
Fixpoint net_items (r s : holdings) : holdings * holdings :=
  match r with
  | [] => ([], s)
  | (k, v) :: r' =>
      let '(v', s') :=
        if v =? 0 then (v, s)
        else match h_find k s with
             | None => (v, s)
             | Some x => if v >? x then (v - x, h_erase k s) else if v <? x then (v, h_assign k (x - v) s) else (v, h_erase k s)
             end in
      let '(r'', s'') := net_items r' s' in ((k, v') :: r'', s'')
  end.
(** Lines 491-525: line 523 erases the element the loop stands on, which invalidates its iterator. *)
Fixpoint net_all (receive send : parties) : outcome (parties * parties) :=
  match receive with
  | [] => Ret (send, [])
  | (a, r) :: receive' =>
      match p_find a send with
      | None => match net_all receive' send with Ret (s, l) => Ret (s, (a, r) :: l) | Throw => Throw | UB => UB end
      | Some s =>
          let '(r', s') := net_items r s in
          match r' with
          | [] => UB
          | _ => match net_all receive' (p_assign a s' send) with Ret (s, l) => Ret (s, (a, r') :: l) | Throw => Throw | UB => UB end
          end
      end
  end.
(** Lines 400-525: what is sent and received in the transfers of lines 528-545. *)
Definition clear (l : list (traded * list (identity * Z))) : outcome (parties * parties) :=
  let '(send, receive) := settle_all l in net_all receive send.
End Settlement.
