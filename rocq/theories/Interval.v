(** Model of [esl::mathematics::interval] — /repo/esl/mathematics/interval.hpp — and of
    [esl::simulation::time_interval] — /repo/esl/simulation/time.hpp:39-51. *)
From Verif Require Import Base.

(** The number type of the interval enters only through subtraction: [sub_uint64] for
    [std::uint64_t] (wraps), [Z.sub] for a signed integral type whose difference does not
    overflow (signed overflow is undefined and excluded). *)
Definition sub_uint64 (x y : Z) : Z := w64 (x - y).

(** interval.hpp:97-116 [empty()], integral [number_t_]; [lc], [rc] are the template
    arguments [left_closed_], [right_closed_]. *)
Definition iv_empty (sub : Z -> Z -> Z) (lc rc : bool) (lower upper : Z) : bool :=
  if lower >? upper then true
  else if lower =? upper then lc || rc
  else if 1 =? sub upper lower then lc && rc
  else false.

(** interval.hpp:121-135 [singleton()], integral [number_t_]. *)
Definition iv_singleton (sub : Z -> Z -> Z) (lc rc : bool) (lower upper : Z) : bool :=
  let sufficient := negb lc && negb rc && (lower =? upper) in
  if sufficient then sufficient
  else
    let asymmetric := (1 =? sub upper lower) && negb (Bool.eqb lc rc) in
    let symmetric := (2 =? sub upper lower) && (lc && rc) in
    (upper >? lower) && (asymmetric || symmetric).

(** interval.hpp:140-143 [degenerate()]. *)
Definition iv_degenerate sub lc rc lower upper :=
  iv_empty sub lc rc lower upper || iv_singleton sub lc rc lower upper.

(** interval.hpp:149-153 [contains()]. *)
Definition iv_contains (lc rc : bool) (lower upper value : Z) : bool :=
  ((lower <? value) || (lc && (lower =? value)))
  && ((upper >? value) || (rc && (upper =? value))).

(** time.hpp:50-51: [interval<time_point, true, false>] with [time_point = uint64_t]. *)
Definition ti_empty := iv_empty sub_uint64 true false.
Definition ti_singleton := iv_singleton sub_uint64 true false.
Definition ti_contains := iv_contains true false.
