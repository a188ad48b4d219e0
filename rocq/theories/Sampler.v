(** Model of /repo/esl/simulation/parameter/sampler.hpp. *)
From Coq Require Import SpecFloat.
From Verif Require Import Base Identity StaticTicks.
Local Open Scope Z_scope.

(** An interval parameter and its number of grid points; the map is a list in the order of its keys
    (addresses, which are arbitrary but distinct). *)
Record dimension (A : arith) := mk_dimension { d_lower : num A; d_upper : num A; d_density : Z }.
Arguments d_lower {A}. Arguments d_upper {A}. Arguments d_density {A}. Arguments mk_dimension {A}.

Section Grid.
Context (A : arith).
(** sampler.hpp:103-106, 147-151: the grid points of a parameter; [d - 1] is unsigned. *)
Definition grid_value (p : dimension A) (s : Z) : num A :=
  add A (d_lower p) (mul A (div A (sub A (d_upper p) (d_lower p)) (of_Z A (w32 (d_density p - 1)))) (of_Z A s)).
(** sampler.hpp:97-99: the number of samples, an unsigned product. *)
Definition grid_points (ps : list (dimension A)) : Z := fold_left (fun points p => w32 (points * d_density p)) ps 1.
(** sampler.hpp:110-115: the index of each parameter in sample [s]. *)
Fixpoint grid_indices (s prefix : Z) (ps : list (dimension A)) : list Z :=
  match ps with
  | [] => []
  | p :: ps' => (s / prefix) mod d_density p :: grid_indices s (w32 (prefix * d_density p)) ps'
  end.
(** sampler.hpp:117-120. *)
Definition grid_sample (ps : list (dimension A)) (s : Z) : list (num A) :=
  map (fun pi => grid_value (fst pi) (snd pi)) (combine ps (grid_indices s 1 ps)).
(** sampler.hpp:91-123 [grid]: a sample is the list of the values of the parameters, in the order of the map. *)
Definition grid (ps : list (dimension A)) : list (list (num A)) :=
  map (fun s => grid_sample ps (Z.of_nat s)) (seq 0 (Z.to_nat (grid_points ps))).

(** sampler.hpp:132-166 [latin_hypercube] with the given density; [shuffles] are the results of [std::shuffle]
    on the index vectors. *)
Definition latin_hypercube (density : Z) (ps : list (num A * num A)) (shuffles : list (list Z)) : list (list (num A)) :=
  map (fun s => map (fun pi => grid_value (mk_dimension (fst (fst pi)) (snd (fst pi)) density) (nth s (snd pi) 0)) (combine ps shuffles))
    (seq 0 (Z.to_nat density)).
End Grid.

(** sampler.hpp:262-358 [improved_hypercube_sampling]. *)
Section Improved.
(** The numbers drawn: [first i] by dimension, and [draw count i k] in stage [count]; each is reduced to
    the range of the distribution used, so every stream of valid numbers is covered. *)
Context (first : nat -> Z) (draw : nat -> nat -> nat -> Z).
(** sampler.hpp:217, 235: the score of a candidate as computed in floating point from its distance to the points
    selected so far. *)
Context (score : Z -> spec_float).
Context (dimensions samples duplication : nat).

(** [reverse_]: the position of each value among the options of its dimension; one map per dimension. *)
Definition positions := list (Z * nat).
Fixpoint where_is (v : Z) (m : positions) : option nat :=
  match m with [] => None | (w, j) :: m' => if v =? w then Some j else where_is v m' end.
Definition record_position (v : Z) (j : nat) (m : positions) : positions := (v, j) :: m.

(** The state of one dimension: the points selected, last first; the values that can still be selected; their positions. *)
Record lane := mk_lane { chosen : list Z; options : list Z; reverse : positions }.
(** sampler.hpp:272-307: the first point of dimension [i] and the initial options. *)
Definition first_point (i : nat) : Z := 1 + first i mod Z.of_nat samples.
Definition start_lane (i : nat) : lane :=
  let v := first_point i in let j := Z.to_nat (v - 1) in
  mk_lane [v] (update_nth j (Z.of_nat samples) (map (fun j => Z.of_nat j + 1) (seq 0 samples)))
    (record_position (Z.of_nat samples) j (map (fun j => (Z.of_nat j + 1, j)) (seq 0 samples))).
(** sampler.hpp:313-321: the list of candidates: the first [count] options, repeated. *)
Definition candidates (count : nat) (l : lane) : list Z := concat (repeat (firstn count (options l)) duplication).
(** sampler.hpp:323-329: the candidates in random order; [k] runs down. The result is indexed by [k - 1]. *)
Fixpoint shuffle (count i k : nat) (list : list Z) : outcome (Datatypes.list Z) :=
  match k with
  | O => Ret []
  | S k' =>
    let at_ := Z.to_nat (draw count i k mod Z.of_nat k) in
    match nth_error list at_, nth_error list k' with
    | Some v, Some w => match shuffle count i k' (update_nth at_ w list) with Ret vs => Ret (vs ++ [v]) | Throw => Throw | UB => UB end
    | _, _ => UB
    end
  end.
(** sampler.hpp:226-230: unsigned differences, squared; the sum is exact in double precision. *)
Definition distance (candidate point : list Z) : Z :=
  zsum (map (fun pq => w32 (w32 (fst pq - snd pq) * w32 (fst pq - snd pq))) (combine candidate point)).
(** sampler.hpp:210-244 [get_best_distance]: the first of the candidates with the least score. *)
Fixpoint best_from (k best : nat) (least : spec_float) (scores : list spec_float) : nat :=
  match scores with
  | [] => best
  | s :: l => if SFltb s least then best_from (S k) k s l else best_from (S k) best least l
  end.
(** [std::numeric_limits<double>::max()]. *)
Definition largest_double : spec_float := S754_finite false (2 ^ 53 - 1) 971.
Definition column (k : nat) (points : list (list Z)) : list Z := map (fun l => nth k l 0) points.
Definition get_best (count : nat) (points : list (list Z)) (lanes : list lane) : nat :=
  let selected := map (fun j => column j (map chosen lanes)) (seq 0 (samples - count)) in
  let scores := map (fun k => score (fold_right Z.min (distance (column k points) (nth 0 selected [])) (map (distance (column k points)) selected))) (seq 0 (duplication * count)) in
  best_from 0 0 largest_double scores.
(** sampler.hpp:334-352: dimension by dimension, the selected point is removed from the options. *)
Definition select (count : nat) (v : Z) (l : lane) : outcome lane :=
  match where_is v (reverse l) with
  | None => Throw
  | Some j =>
    match nth_error (options l) j, nth_error (options l) (count - 1) with
    | Some o, Some w => if o =? v then Ret (mk_lane (v :: chosen l) (update_nth j w (options l)) (record_position w j (reverse l))) else Throw
    | _, _ => UB
    end
  end.
(** Monadic map, for the loops over dimensions. *)
Fixpoint each {X Y} (f : nat -> X -> outcome Y) (i : nat) (l : list X) : outcome (list Y) :=
  match l with
  | [] => Ret []
  | x :: l' => match f i x with Ret y => match each f (S i) l' with Ret ys => Ret (y :: ys) | Throw => Throw | UB => UB end | Throw => Throw | UB => UB end
  end.
(** sampler.hpp:311-353: one stage. *)
Definition stage (count : nat) (lanes : list lane) : outcome (list lane) :=
  match each (fun i l => shuffle count i (count * duplication) (candidates count l)) 0 lanes with
  | Ret points =>
    let best := get_best count points lanes in
    each (fun _ pl => match nth_error (fst pl) best with Some v => select count v (snd pl) | None => UB end) 0 (combine points lanes)
  | Throw => Throw | UB => UB
  end.
(** [for(count = samples - 1; 2 <= count; count--)]. *)
Fixpoint stages (n : nat) (lanes : list lane) : outcome (list lane) :=
  match n with
  | O => Ret lanes
  | S n' => match stage (S n) lanes with Ret lanes' => stages n' lanes' | Throw => Throw | UB => UB end
  end.
(** The result: for each dimension the coordinates of the samples. Without samples the range of the
    distribution at 273 is empty, which is undefined (the assertion at 268 is off in release builds). *)
Definition improved_hypercube : outcome (list (list Z)) :=
  if (samples =? 0)%nat then UB else
  match stages (samples - 2) (map start_lane (seq 0 dimensions)) with
  | Ret lanes => each (fun _ l => match nth_error (options l) 0 with
      | Some v => Ret (if (samples =? 1)%nat then [v] else v :: chosen l) | None => UB end) 0 lanes
  | Throw => Throw | UB => UB
  end.
End Improved.
