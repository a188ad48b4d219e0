(** Specification for companies and investors. *)
From Verif Require Import Base Identity Money Company.

Definition policy_eqb (p q : policy) : bool :=
  (p_announcement p =? p_announcement q) && (p_ex_dividend p =? p_ex_dividend q) && (p_payable p =? p_payable q) && (p_dividend p =? p_dividend q).
(** The times at which [a] is told about [p]. *)
Definition told (a : identity) (p : policy) (ms : list announcement) : list Z :=
  map a_arrival (filter (fun m => id_eqb (a_to m) a && policy_eqb (a_policy m) p) ms).
(** The first activation at or after the announcement date in which [p] is offered. *)
Fixpoint first_due (p : policy) (h : list activation) : option Z :=
  match h with
  | [] => None
  | v :: h' => match v_offered v with
               | Some q => if policy_eqb q p && (p_announcement p <=? v_lower v) then Some (v_lower v) else first_due p h'
               | None => first_due p h' end
  end.
(** The policies offered, in order. *)
Definition offers (h : list activation) : list policy := flat_map (fun v => match v_offered v with Some p => [p] | None => [] end) h.
(** Dates from [from] on that do not decrease; one policy per date. *)
Definition one_per_date (ps : list policy) : Prop := forall p q, In p ps -> In q ps -> p_announcement p = p_announcement q -> p = q.
Fixpoint dated (from : Z) (ps : list policy) : Prop :=
  match ps with [] => True | p :: ps' => from <= p_announcement p /\ dated (p_announcement p) ps' end.

(** All shares of a stock in a portfolio of shares by company and rank. *)
Definition shares_in (stock : identity * Z -> option identity) (property : identity) (m : list (identity * list (Z * Z))) : Z :=
  zsum (flat_map (fun cl => flat_map (fun ra => match stock (fst cl, fst ra) with Some p => if id_eqb p property then [snd ra] else [] | None => [] end) (snd cl)) m).
(** The first and the last price quoted for a property. *)
Fixpoint first_quoted (k : identity) (quotes : list (identity * price)) : option price :=
  match quotes with [] => None | (j, p) :: l => if id_eqb j k then Some p else first_quoted k l end.
Definition last_quoted (k : identity) (quotes : list (identity * price)) : option price := first_quoted k (rev quotes).
