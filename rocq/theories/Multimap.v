(** Ordered multimaps keyed by integers: [std::multimap] and [boost::container::flat_multimap].
    [mm_insert] puts a new element after all elements with a key not greater (insertion at the
    upper bound, as both containers do). *)
From Verif Require Import Base.

Fixpoint mm_insert {V} (k : Z) (v : V) (l : list (Z * V)) : list (Z * V) :=
  match l with
  | [] => [(k, v)]
  | (k', v') :: l' => if k' <=? k then (k', v') :: mm_insert k v l' else (k, v) :: l
  end.
(** Ordered maps keyed by integers: find, and insert when absent. *)
Fixpoint fm_find {V} (k : Z) (l : list (Z * V)) : option V :=
  match l with
  | [] => None
  | (k', v) :: l' => if k' <? k then fm_find k l' else if k' =? k then Some v else None
  end.
Fixpoint fm_set {V} (k : Z) (v : V) (l : list (Z * V)) : list (Z * V) :=
  match l with
  | [] => [(k, v)]
  | (k', v') :: l' => if k' <? k then (k', v') :: fm_set k v l' else if k' =? k then (k, v) :: l' else (k, v) :: l
  end.
