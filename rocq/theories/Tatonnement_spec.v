(** What it means for multipliers of prices to clear a market. *)
From Coq Require Import SpecFloat.
From Verif Require Import Base Identity IdMap IdMap_spec StaticTicks Tatonnement.

(** What participants see when the quotes [qs] are multiplied with [x]: for each property its quote and multiplier. *)
Definition offered (qs : quotes) (x : list real) (s : idmap (Z * real)) : Prop :=
  im_sorted s /\ forall p q r, In (p, (q, r)) s <-> exists n, nth_error qs n = Some (p, q) /\ nth_error x n = Some r.
(** The demands for a property, order by order, and their sum in double precision. *)
Definition demands (orders : list order) (s : idmap (Z * real)) (p : identity) : list real :=
  flat_map (fun f : order => map snd (filter (fun kd => id_eqb (fst kd) p) (f s))) orders.
Definition sum (l : list real) : real := fold_left (add double) l zero.
(** The distance to a market that clears: the sum of the absolute excess demands for the quoted properties. *)
Definition imbalance (qs : quotes) (orders : list order) (s : idmap (Z * real)) : real :=
  sum (map (fun kq => SFabs (sum (demands orders s (fst kq)))) qs).
(** Some order has a demand, be it zero, for the property. *)
Definition mentions (orders : list order) (s : idmap (Z * real)) (p : identity) : Prop :=
  exists f, In f orders /\ In p (map fst (f s : list (identity * real))).
(** The multiplier that is closest to [x] among those that are allowed. *)
Definition limited (breaker : real * real) (x : real) : real :=
  if SFltb x (fst breaker) then fst breaker else if SFltb (snd breaker) x then snd breaker else x.
(** The doubles that are closest to 1/10000 and to 1/1000000. *)
Definition ten_thousandth : real := S754_finite false 7378697629483821 (-66).
Definition millionth : real := S754_finite false 4722366482869645 (-72).
(** A number, maybe infinite. *)
Definition numeric (x : real) : Prop := x <> S754_nan.
(** The solvers report points with one coordinate per quote. *)
Definition matches (qs : quotes) (s : steps) : Prop := forall k, length (point (s k)) = length qs.
(** The sum of the squared excess demands of all properties that are mentioned, in the order of their identities.
    (Sums that start from their first term differ from [sum] in the sign of zero only.) *)
Definition total (l : list real) : real := match l with [] => zero | d :: l' => fold_left (add double) l' d end.
Definition squared_imbalance (orders : list order) (s : idmap (Z * real)) (e : real) : Prop :=
  exists ps : list identity,
    StronglySorted (fun p p' => id_ltb p p' = true) ps /\ (forall p, In p ps <-> mentions orders s p) /\
    e = sum (map (fun p => mul double (total (demands orders s p)) (total (demands orders s p))) ps).
