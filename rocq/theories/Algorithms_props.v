(** Property theorems C27, C28, C76. *)
From Verif Require Import Base Algorithms Algorithms_spec Algorithms_proofs.
From Coq Require Import ZifyBool ZifyNat Floats.SpecFloat.

(** C27.  Any unsigned type of [w] bits, base and exponent. *)
Theorem C27_integer_power : forall w x p, 1 <= w -> 0 <= x < 2 ^ w -> 0 <= p < 2 ^ w ->
  nonnegative_integer_power w x p = Some (x ^ p mod 2 ^ w).
Proof. exact power_spec. Qed.
Print Assumptions C27_integer_power.
Example C27_case : nonnegative_integer_power 32 7 13 = Some ((7 ^ 13) mod 2 ^ 32) /\ (7 ^ 13) mod 2 ^ 32 = 2399729895 /\ nonnegative_integer_power 32 10 0 = Some 1 /\ nonnegative_integer_power 32 10 9 = Some 1000000000.
Proof. vm_compute. auto. Qed.

(** C28.  Any arrays and bounds. *)
Theorem C28_concatenation : forall (E : Type) (zero : E) a b, array_concatenate zero a b = a ++ b.
Proof. exact @concatenate_spec. Qed.
Print Assumptions C28_concatenation.
Theorem C28_slice : forall (E : Type) (zero : E) start stop a, (start <= stop <= length a)%nat ->
  exists r, array_slice zero start stop a = Some r /\ length r = (stop - start)%nat /\
    forall i, (i < stop - start)%nat -> nth_error r i = nth_error a (start + i).
Proof.
  intros E zero start stop a H. exists (firstn (stop - start) (skipn start a)). split; [now apply slice_spec|]. split; [rewrite firstn_length, skipn_length; lia|].
  intros i Hi. pose proof (firstn_skipn (stop - start) (skipn start a)) as E1. pose proof (firstn_skipn start a) as E2.
  assert (L1 : length (firstn start a) = start) by (rewrite firstn_length; lia).
  assert (L2 : length (firstn (stop - start) (skipn start a)) = (stop - start)%nat) by (rewrite firstn_length, skipn_length; lia).
  rewrite <- E2 at 2. rewrite <- E1 at 2. rewrite nth_error_app2 by lia. rewrite L1. replace (start + i - start)%nat with i by lia. rewrite nth_error_app1 by lia. reflexivity.
Qed.
Print Assumptions C28_slice.
(** Cutting a concatenation at its seam. *)
Theorem C28_seam : forall (E : Type) (zero : E) a b,
  array_slice zero 0 (length a) (array_concatenate zero a b) = Some a /\
  array_slice zero (length a) (length a + length b) (array_concatenate zero a b) = Some b.
Proof.
  intros E zero a b. rewrite concatenate_spec. split.
  - rewrite slice_spec by (rewrite app_length; lia). f_equal. cbn [skipn]. rewrite Nat.sub_0_r, firstn_app, Nat.sub_diag, firstn_all, firstn_O, app_nil_r. reflexivity.
  - rewrite slice_spec by (rewrite app_length; lia). f_equal. rewrite skipn_app, skipn_all, Nat.sub_diag. cbn. rewrite firstn_all2 by lia. reflexivity.
Qed.
Print Assumptions C28_seam.
Theorem C28_enumerate : forall (E : Type) (l : list E), length (enumerate l) = length l /\
  forall i, nth_error (enumerate l) i = match nth_error l i with Some e => Some (i, e) | None => None end.
Proof.
  intros E l. unfold enumerate. assert (H : forall k, length (enumerate_from k l) = length l /\ forall i, nth_error (enumerate_from k l) i = match nth_error l i with Some e => Some ((k + i)%nat, e) | None => None end).
  { induction l as [|e l IH]; intros k; cbn; [split; [reflexivity|intros [|i]; reflexivity]|]. destruct (IH (S k)) as [L N]. split; [now rewrite L|]. intros [|i]; cbn; [now rewrite Nat.add_0_r|].
    rewrite N. now rewrite Nat.add_succ_r. }
  destruct (H 0%nat) as [L N]. split; [exact L|]. exact N.
Qed.
Print Assumptions C28_enumerate.
Example C28_case : array_slice 0 2 4 (array_concatenate 0 [5; 6; 7] [8; 9]) = Some [7; 8] /\ array_slice 0 2 9 [5] = None /\ enumerate [5; 6] = [(0%nat, 5); (1%nat, 6)].
Proof. vm_compute. auto. Qed.

(** C76.  In exact arithmetic (units of one division) the samples are the grid points whose
    coordinates after the first are below one, each once - for any dimension, division and total. *)
Theorem C76_samples_are_grid_points : forall d divisions r, (0 < d)%nat -> 0 <= r -> exists l, ideal_samples d divisions r = Some l /\ NoDup l /\
  forall c, In c l <-> grid_point d r c /\ Forall (fun x => x < Z.of_nat divisions) (tl c).
Proof. intros [|d] divisions r Hd Hr; [lia|]. now apply ideal_spec. Qed.
Print Assumptions C76_samples_are_grid_points.
(** The other corners of the simplex are always missing. *)
Theorem C76_all_grid_points_refuted : forall d divisions l, (0 < divisions)%nat -> ideal_samples (S (S d)) divisions (Z.of_nat divisions) = Some l ->
  exists c, grid_point (S (S d)) (Z.of_nat divisions) c /\ ~ In c l.
Proof.
  intros d divisions l Hd E. destruct (ideal_spec (S d) divisions (Z.of_nat divisions) ltac:(lia)) as (l' & E' & _ & S). assert (l' = l) by congruence. subst l'.
  exists (0 :: Z.of_nat divisions :: repeat 0 d).
  assert (Z0 : zsum (repeat 0 d) = 0). { clear. induction d as [|d IH]; [reflexivity|]. change (zsum (repeat 0 (S d))) with (0 + zsum (repeat 0 d)). lia. }
  split.
  - unfold grid_point. split; [cbn; now rewrite repeat_length|]. split.
    + constructor; [lia|]. constructor; [lia|]. apply Forall_forall. intros x Hx. apply repeat_spec in Hx. lia.
    + change (0 + (Z.of_nat divisions + zsum (repeat 0 d)) = Z.of_nat divisions). lia.
  - rewrite S. intros [_ T]. cbn in T. inversion T; subst. lia.
Qed.
Print Assumptions C76_all_grid_points_refuted.
(** In double precision further points are lost to rounding: of five divisions and three
    dimensions the sample (0, 0.2, 0.8). *)
Theorem C76_double_precision_refuted : exists ideal doubles, ideal_samples 3 5 5 = Some ideal /\ double_samples 3 5 = Some doubles /\
  length ideal = 19%nat /\ length doubles = 18%nat.
Proof. do 2 eexists. split; [vm_compute; reflexivity|]. split; [vm_compute; reflexivity|]. split; reflexivity. Qed.
Print Assumptions C76_double_precision_refuted.
Example C76_case : ideal_samples 3 2 2 = Some [[2; 0; 0]; [1; 1; 0]; [1; 0; 1]; [0; 1; 1]].
Proof. reflexivity. Qed.
