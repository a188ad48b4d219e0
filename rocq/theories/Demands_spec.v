(** Specification for demands for money's worth, and volumes. *)
From Coq Require Import SpecFloat QArith.
From Verif Require Import Base Identity.
Local Open Scope Z_scope.

(** Who demands property [p], and for how much money. *)
Definition demanded {N} (orders : list (identity * list (identity * N))) (p : identity) : list (identity * N) :=
  flat_map (fun o => map (fun d => (fst o, snd d)) (filter (fun d => id_eqb (fst d) p) (snd o))) orders.
(** Each participant has one order, and each order has one demand for a property. *)
Definition one_demand_each {N} (orders : list (identity * list (identity * N))) : Prop :=
  NoDup (map fst orders) /\ Forall (fun o => NoDup (map fst (snd o))) orders.
(** The units that change hands. *)
Definition bought (trades : list (identity * Z)) : Z := zsum (map (fun x => Z.max 0 (snd x)) trades).
Definition qsum (l : list Q) : Q := fold_right Qplus 0%Q l.
(** A rational number without its fractional part. *)
Definition whole (z : Z) (q : Q) : Prop := (0 <= q /\ inject_Z z <= q < inject_Z z + 1 \/ q <= 0 /\ inject_Z z - 1 < q <= inject_Z z)%Q.

(** The number that a double stands for. *)
Definition number (x : spec_float) : option Q :=
  match x with
  | S754_zero _ => Some 0%Q
  | S754_finite s m e => Some (inject_Z (if s then Z.neg m else Z.pos m) * Qpower 2 e)%Q
  | _ => None
  end.
(** A double: 53 binary digits, and exponents below 1024. *)
Definition is_double (x : spec_float) : Prop := valid_binary 53 1024 x = true.
