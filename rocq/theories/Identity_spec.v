(** Specifications for identities. *)
From Verif Require Import Base Text Identity.

(** [b] is [a] or a (direct or indirect) child of [a]: [a]'s digits are a prefix of [b]'s. *)
Definition descends (a b : identity) : Prop := exists ds, b = a ++ ds.

(** Reading a printed identity: strip the quotes, split at '-', read decimal numbers. *)
Fixpoint read_dec (acc : Z) (s : list Z) : Z :=
  match s with
  | [] => acc
  | c :: s' => read_dec (10 * acc + (c - 48)) s'
  end.
Fixpoint read_digits (acc : Z) (s : list Z) : list Z :=
  match s with
  | [] => []
  | c :: s' => if c =? 34 then [acc]
               else if c =? 45 then acc :: read_digits 0 s'
               else read_digits (10 * acc + (c - 48)) s'
  end.
Definition read_identity (s : list Z) : identity :=
  match s with
  | [] => []
  | _ :: s' => read_digits 0 s'
  end.

Definition only_creates (os : list id_op) : Prop :=
  Forall (fun o => match o with Create _ => True | CopyAgent _ => False end) os.

(** In a history of creations by existing entities, entity 0 is the root and entity [j+1]
    is the one created by the [j]-th operation. *)
Definition valid_creates (os : list id_op) : Prop :=
  forall j o, nth_error os j = Some o -> exists k, o = Create k /\ (k <= j)%nat.
(** How often entity [k] created a child in a history. *)
Definition times_creator (k : nat) (os : list id_op) : Z :=
  Z.of_nat (length (filter (fun o => match o with Create k' => Nat.eqb k' k | _ => false end) os)).
