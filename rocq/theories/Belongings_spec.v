(** Specification for collections of property. *)
From Verif Require Import Base Identity Quantity Money Belongings.

(** The amount of the things that satisfy [P] in a list of deposits. *)
Definition deposited (P : thing -> bool) (l : list (thing * Z)) : Z := zsum (map snd (filter (fun tq => P (fst tq)) l)).
(** The amount held of the things that satisfy [P]. *)
Definition amount_held (P : thing -> bool) (m : list (thing * Z)) : Z := zsum (map snd (filter (fun tq => P (fst tq)) m)).
(** Whether a thing is cash in exactly the currency [c]. *)
Definition is_cash (c : currency) (t : thing) : bool := match t with Cash d => ccy_eqb c d | _ => false end.
(** A contract to lend [security]. *)
Definition is_lending_of (security : identity) (t : thing) : bool := match t with Lending _ _ s _ => id_eqb security s | _ => false end.
Definition is_loan (t : thing) : bool := match t with Loan _ _ => true | _ => false end.
(** The shares last assigned to each class, for lists of assignments. *)
Fixpoint last_assigned (s : share_class) (l : list (share_class * Z)) : option Z :=
  match l with
  | [] => None
  | (k, n) :: l' => match last_assigned s l' with Some x => Some x | None => if class_eqb k s then Some n else None end
  end.
(** All quantities are natural numbers and all together they fit into 64 bits. *)
Definition fits (l : list (thing * Z)) : Prop := Forall (fun tq => 0 <= snd tq) l /\ zsum (map snd l) < W64.
(** Texts with [sep] between them. *)
Fixpoint joined (sep : list Z) (l : list (list Z)) : list Z :=
  match l with [] => [] | [x] => x | x :: l' => x ++ sep ++ joined sep l' end.
(** Three capital letters. *)
Definition capitals (c : currency) : Prop := 65 <= c0 c <= 90 /\ 65 <= c1 c <= 90 /\ 65 <= c2 c <= 90.
(** The number of units of securities out on loan according to contracts and how many there are of each. *)
Definition units_lent (l : list (thing * Z)) : Z := zsum (map (fun tq => match fst tq with Lending _ _ _ n => n * snd tq | _ => 0 end) l).
