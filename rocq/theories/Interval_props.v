(** Property theorems C05, C06. *)
From Verif Require Import Base Interval Interval_spec Interval_proofs.

(** C05 *)
Theorem C05_time_interval_is_half_open_set : forall lo up, u64 lo -> u64 up ->
  (forall t, ti_contains lo up t = true <-> lo <= t < up) /\
  (ti_empty lo up = true <-> no_element true false lo up) /\
  (ti_singleton lo up = true <-> one_element true false lo up).
Proof. exact ti_set. Qed.
Print Assumptions C05_time_interval_is_half_open_set.
Theorem C05_adjacent_intervals_partition : forall a b c t, a <= b <= c ->
  (ti_contains a c t = true <-> ti_contains a b t = true \/ ti_contains b c t = true) /\
  ~ (ti_contains a b t = true /\ ti_contains b c t = true).
Proof. exact ti_partition. Qed.
Print Assumptions C05_adjacent_intervals_partition.
Example C05_case : ti_contains 2 5 4 = true /\ ti_contains 2 5 5 = false /\ ti_empty 5 5 = true
  /\ ti_singleton 4 5 = true /\ ti_empty 5 2 = true /\ ti_singleton 5 4 = false /\ u64 5.
Proof. vm_compute. repeat split; congruence. Qed.

(** C06: membership is right for all endpoint kinds; [empty] and [singleton] are right
    exactly for the half-open kinds and for widths that avoid the boundary cases. *)
Theorem C06_contains : forall lc rc lo up t,
  iv_contains lc rc lo up t = true <-> in_interval lc rc lo up t.
Proof. exact iv_contains_spec. Qed.
Print Assumptions C06_contains.
Theorem C06_empty_exactly_when : forall lc rc lo up,
  ((iv_empty Z.sub lc rc lo up = true <-> no_element lc rc lo up)
    <-> (lc <> rc \/ up < lo \/ 2 <= up - lo)).
Proof. exact empty_exact. Qed.
Print Assumptions C06_empty_exactly_when.
Theorem C06_singleton_exactly_when : forall lc rc lo up,
  ((iv_singleton Z.sub lc rc lo up = true <-> one_element lc rc lo up)
    <-> (lc <> rc \/ (up - lo <> 0 /\ up - lo <> 2))).
Proof. exact singleton_exact. Qed.
Print Assumptions C06_singleton_exactly_when.
Theorem C06_degenerate_exactly_when : forall lc rc lo up,
  ((iv_degenerate Z.sub lc rc lo up = true <-> at_most_one_element lc rc lo up)
    <-> (lc <> rc \/ up - lo <= 0 \/ 3 <= up - lo)).
Proof. exact degenerate_exact. Qed.
Print Assumptions C06_degenerate_exactly_when.
Theorem C06_empty_refuted :
  (exists lo up, iv_empty Z.sub true true lo up = true /\ ~ no_element true true lo up) /\
  (exists lo up, iv_empty Z.sub false false lo up = false /\ no_element false false lo up).
Proof. exact (conj empty_closed_wrong empty_open_wrong). Qed.
Print Assumptions C06_empty_refuted.
Example C06_case : iv_empty Z.sub true true 3 5 = false /\ in_interval true true 3 5 4.
Proof. split; [reflexivity|]. cbv. split; congruence. Qed.
