(** Maps keyed by identities: [boost::container::flat_map<identity<...>, V>], kept sorted. *)
From Verif Require Import Base Identity.

Section IdMap.
Context {V : Type}.
Definition idmap : Type := list (identity * V).
(** [find] *)
Fixpoint im_find (i : identity) (m : idmap) : option V :=
  match m with
  | [] => None
  | (k, v) :: m' => if id_ltb k i then im_find i m' else if id_ltb i k then None else Some v
  end.
(** [m[i] = v], [insert_or_assign] *)
Fixpoint im_set (i : identity) (v : V) (m : idmap) : idmap :=
  match m with
  | [] => [(i, v)]
  | (k, x) :: m' => if id_ltb k i then (k, x) :: im_set i v m' else if id_ltb i k then (i, v) :: m else (k, v) :: m'
  end.
(** [emplace]/[insert]: no effect when the key is present. *)
Definition im_emplace (i : identity) (v : V) (m : idmap) : idmap :=
  match im_find i m with Some _ => m | None => im_set i v m end.
(** [erase(key)] *)
Definition im_erase (i : identity) (m : idmap) : idmap := filter (fun kv => negb (id_eqb (fst kv) i)) m.
End IdMap.
Arguments idmap : clear implicits.
