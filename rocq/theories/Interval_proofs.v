From Verif Require Import Base Interval Interval_spec.
From Coq Require Import ZifyBool.

Lemma sub_u64_gt lo up : u64 lo -> u64 up -> lo < up -> sub_uint64 up lo = up - lo.
Proof. unfold sub_uint64, w64, u64. intros. apply Z.mod_small. lia. Qed.

Lemma iv_contains_spec lc rc lo up t : iv_contains lc rc lo up t = true <-> in_interval lc rc lo up t.
Proof. unfold iv_contains, in_interval. destruct lc, rc; lia. Qed.

Lemma no_element_char lc rc lo up : no_element lc rc lo up <->
  match lc, rc with
  | true, true => up < lo
  | false, false => up <= lo + 1
  | _, _ => up <= lo
  end.
Proof.
  unfold no_element, in_interval. split.
  - intros H. pose proof (H lo) as H0. pose proof (H up) as H2. pose proof (H (lo + 1)) as H1.
    destruct lc, rc; lia.
  - intros H t. destruct lc, rc; lia.
Qed.
Lemma one_element_char lc rc lo up : one_element lc rc lo up <->
  match lc, rc with
  | true, true => up = lo
  | false, false => up = lo + 2
  | _, _ => up = lo + 1
  end.
Proof.
  unfold one_element, in_interval. split.
  - intros (t & H & U).
    assert (A := U lo). assert (A1 := U (lo + 1)). assert (B := U up). assert (B1 := U (up - 1)).
    assert (C1 := U (t + 1)). assert (C2 := U (t - 1)).
    destruct lc, rc; lia.
  - intros H. destruct lc, rc; [exists lo|exists lo|exists up|exists (lo + 1)]; (split; [lia|intros; lia]).
Qed.

Lemma ti_empty_spec lo up : u64 lo -> u64 up -> (ti_empty lo up = true <-> no_element true false lo up).
Proof.
  intros Hl Hu. rewrite no_element_char. unfold ti_empty, iv_empty.
  destruct (Z.gtb_spec lo up); [split; [lia|auto]|].
  destruct (Z.eqb_spec lo up); [split; [lia|auto]|].
  rewrite sub_u64_gt by (assumption || lia). destruct (1 =? up - lo); cbn; split; try discriminate; lia.
Qed.
Lemma ti_singleton_spec lo up : u64 lo -> u64 up -> (ti_singleton lo up = true <-> one_element true false lo up).
Proof.
  intros Hl Hu. rewrite one_element_char. unfold ti_singleton, iv_singleton. cbn.
  rewrite andb_true_r, andb_false_r, orb_false_r.
  destruct (Z.gtb_spec up lo) as [G|G]; cbn.
  - rewrite sub_u64_gt by (assumption || lia). lia.
  - split; [discriminate|lia].
Qed.
Lemma ti_set lo up : u64 lo -> u64 up ->
  (forall t, ti_contains lo up t = true <-> lo <= t < up) /\
  (ti_empty lo up = true <-> no_element true false lo up) /\
  (ti_singleton lo up = true <-> one_element true false lo up).
Proof.
  intros Hl Hu. split; [|split; [apply ti_empty_spec|apply ti_singleton_spec]; assumption].
  intros t. unfold ti_contains. rewrite iv_contains_spec. reflexivity.
Qed.
Lemma ti_partition a b c t : a <= b <= c ->
  (ti_contains a c t = true <-> ti_contains a b t = true \/ ti_contains b c t = true) /\
  ~ (ti_contains a b t = true /\ ti_contains b c t = true).
Proof. intros H. unfold ti_contains. rewrite !iv_contains_spec. unfold in_interval. lia. Qed.

Lemma empty_exact lc rc lo up :
  ((iv_empty Z.sub lc rc lo up = true <-> no_element lc rc lo up)
    <-> (lc <> rc \/ up < lo \/ 2 <= up - lo)).
Proof.
  rewrite no_element_char. unfold iv_empty.
  destruct (Z.gtb_spec lo up), (Z.eqb_spec lo up); try lia;
   try (destruct lc, rc; cbn; intuition (try discriminate; try lia; try congruence); fail).
  destruct (Z.eqb_spec 1 (up - lo)); destruct lc, rc; cbn; intuition (try discriminate; try lia; try congruence).
Qed.
Lemma singleton_exact lc rc lo up :
  ((iv_singleton Z.sub lc rc lo up = true <-> one_element lc rc lo up)
    <-> (lc <> rc \/ (up - lo <> 0 /\ up - lo <> 2))).
Proof.
  rewrite one_element_char. unfold iv_singleton.
  assert (T : forall b : bool, b = true <-> Is_true b) by (intros []; cbn; intuition discriminate).
  destruct lc, rc; cbn; split; intros H.
  all: try (left; congruence).
  all: try (right; lia).
  all: try (destruct (Z.eqb_spec lo up); cbn in *; lia).
Qed.
Lemma empty_closed_wrong : exists lo up, iv_empty Z.sub true true lo up = true /\ ~ no_element true true lo up.
Proof. exists 3, 3. split; [reflexivity|]. rewrite no_element_char. lia. Qed.
Lemma empty_open_wrong : exists lo up, iv_empty Z.sub false false lo up = false /\ no_element false false lo up.
Proof. exists 3, 4. split; [reflexivity|]. rewrite no_element_char. lia. Qed.

(** *** Degenerate intervals. *)
Lemma at_most_one_iff lc rc lo up : at_most_one_element lc rc lo up <-> up - lo + (if lc then 1 else 0) + (if rc then 1 else 0) <= 2.
Proof.
  unfold at_most_one_element, in_interval. split.
  - intros H. destruct (Z_le_gt_dec (up - lo + (if lc then 1 else 0) + (if rc then 1 else 0)) 2) as [L|G]; [exact L|].
    pose (x := if lc then lo else lo + 1). assert (x = x + 1); [|lia]. apply H; unfold x; destruct lc, rc; lia.
  - intros H t t' [A B] [C D]. destruct lc, rc; lia.
Qed.
Lemma degenerate_iff lc rc lo up : iv_degenerate Z.sub lc rc lo up = true <-> up - lo <= (if Bool.eqb lc rc then if lc then 2 else 0 else 1).
Proof. unfold iv_degenerate, iv_empty, iv_singleton. destruct lc, rc; cbn [andb orb negb Bool.eqb]; destruct (lo >? up) eqn:E1, (lo =? up) eqn:E2, (1 =? up - lo) eqn:E3, (2 =? up - lo) eqn:E4, (up >? lo) eqn:E5; cbn; lia. Qed.
Lemma degenerate_exact lc rc lo up :
  ((iv_degenerate Z.sub lc rc lo up = true <-> at_most_one_element lc rc lo up) <-> (lc <> rc \/ up - lo <= 0 \/ 3 <= up - lo)).
Proof. rewrite at_most_one_iff, degenerate_iff. destruct lc, rc; cbn [Bool.eqb]; (split; [intros H|intros [H|H]]); try (left; discriminate); try congruence; lia. Qed.
