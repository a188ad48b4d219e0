(** C67, C68, C90: sampling of parameters. *)
From Coq Require Import SpecFloat QArith ZifyBool ZifyNat.
From Verif Require Import Base StaticTicks StaticTicks_proofs Sampler Sampler_spec Sampler_proofs.
Local Open Scope Z_scope.

(** The samples are those of a list of index vectors in which every combination occurs exactly once. *)
Theorem C67_every_combination_once : forall A (ps : list (dimension A)),
  Forall (fun p => 1 <= d_density p) ps -> product (map d_density ps) < 2 ^ 32 ->
  exists indices, grid A ps = map (fun is => map (fun pi => grid_value A (fst pi) (snd pi)) (combine ps is)) indices /\
    Z.of_nat (length (grid A ps)) = product (map d_density ps) /\ NoDup indices /\ (forall is, In is indices <-> combination (map d_density ps) is).
Proof.
  intros A ps F P. assert (F' : Forall (fun d => 1 <= d) (map (@d_density A) ps)) by now apply Forall_map. exists (all_indices (map d_density ps)). split; [now apply grid_spec|]. split.
  - rewrite (grid_spec A ps F P). unfold all_indices. rewrite !map_length, seq_length. pose proof (product_pos _ F'). lia.
  - split; [now apply all_indices_nodup|]. intros is. now apply all_indices_in.
Qed.
Print Assumptions C67_every_combination_once.
(** The points of a parameter, in exact arithmetic, go from its lower to its upper bound in equal steps. *)
Theorem C67_points : forall p : dimension exact, 2 <= d_density p < 2 ^ 32 ->
  grid_value exact p 0 == d_lower p /\ grid_value exact p (d_density p - 1) == d_upper p /\
  forall i, grid_value exact p (i + 1) - grid_value exact p i == (d_upper p - d_lower p) / inject_Z (d_density p - 1).
Proof.
  intros [l u d] H. unfold grid_value. cbn [d_density d_lower d_upper] in *. cbn [exact add mul div sub of_Z]. unfold w32, W32. rewrite Z.mod_small by lia.
  assert (N : ~ inject_Z (d - 1) == 0) by (apply inject_nz; lia). cbn [exact num] in *. split; [change (inject_Z 0) with 0%Q; field; exact N|]. split; [field; exact N|].
  intros i. rewrite inject_Z_plus. change (inject_Z 1) with 1%Q. field. exact N.
Qed.
Print Assumptions C67_points.
(** The number of samples is the product of the densities modulo 2^32. *)
Theorem C67_number : forall A (ps : list (dimension A)), Z.of_nat (length (grid A ps)) = product (map d_density ps) mod 2 ^ 32.
Proof. intros A ps. unfold grid. rewrite map_length, seq_length, grid_points_mod. pose proof (Z.mod_pos_bound (product (map d_density ps)) (2 ^ 32) eq_refl). lia. Qed.
Print Assumptions C67_number.
(** A parameter with a single point is sampled as not-a-number. *)
Theorem C67_single_point_refuted : forall lower upper, grid double [mk_dimension lower upper 1] = [[S754_nan]].
Proof.
  intros l u. unfold grid, grid_points. cbn [fold_left d_density]. change (Z.to_nat (w32 (1 * 1))) with 1%nat. cbn [seq map]. unfold grid_sample. cbn [grid_indices combine map fst snd d_density]. unfold grid_value. cbn [d_lower d_upper d_density].
  change (of_Z double (w32 (1 - 1))) with (S754_zero false). cbn [double add mul div sub]. destruct (SFsub 53 1024 u l); destruct l; reflexivity.
Qed.
Print Assumptions C67_single_point_refuted.
Definition demo_dimension (lower upper : Q) (density : Z) : dimension exact := @mk_dimension exact lower upper density.
Example C67_example :
  grid exact [demo_dimension 0%Q 1%Q 2; demo_dimension 10%Q 20%Q 3] <> [] /\
  map (map Qred) (grid exact [demo_dimension 0%Q 1%Q 2; demo_dimension 10%Q 20%Q 3]) =
    [[0%Q; 10%Q]; [1%Q; 10%Q]; [0%Q; 15%Q]; [1%Q; 15%Q]; [0%Q; 20%Q]; [1%Q; 20%Q]] /\
  grid exact [demo_dimension 0%Q 1%Q 65536; demo_dimension 10%Q 20%Q 65536] = [].
Proof. split; [vm_compute; discriminate|]. split; vm_compute; reflexivity. Qed.

(** Whatever numbers are drawn and however candidates are scored, the call returns and each dimension is a
    permutation of 1 to the number of samples. *)
Theorem C68_latin : forall first draw score dimensions samples duplication, (1 <= samples)%nat -> (1 <= duplication)%nat ->
  exists result, improved_hypercube first draw score dimensions samples duplication = Ret result /\ length result = dimensions /\
    Forall (fun coordinates => Permutation coordinates (one_to samples)) result.
Proof. intros. now apply improved_latin. Qed.
Print Assumptions C68_latin.
Example C68_example :
  improved_hypercube (fun i => Z.of_nat i) (fun c i k => Z.of_nat (c * 7 + i * 3 + k * 5)) (fun z => of_Z double z) 2 6 5 = Ret [[6; 5; 4; 3; 2; 1]; [6; 5; 4; 1; 3; 2]].
Proof. vm_compute. reflexivity. Qed.

(** For every result of the shuffles, in every parameter each of the points is sampled once. *)
Theorem C90_latin : forall A density (ps : list (num A * num A)) shuffles i x p,
  0 <= density -> length shuffles = length ps -> Forall (fun l => Permutation l (map Z.of_nat (seq 0 (Z.to_nat density)))) shuffles -> nth_error ps i = Some p ->
  length (latin_hypercube A density ps shuffles) = Z.to_nat density /\
  Permutation (map (fun sample => nth i sample x) (latin_hypercube A density ps shuffles))
    (map (fun s => grid_value A (mk_dimension (fst p) (snd p) density) (Z.of_nat s)) (seq 0 (Z.to_nat density))).
Proof.
  intros A density ps shuffles i x p D L F E. split; [unfold latin_hypercube; now rewrite map_length, seq_length|].
  destruct (nth_error shuffles i) as [l|] eqn:El; [|apply nth_error_None in El; assert (nth_error ps i <> None) as N by congruence; apply nth_error_Some in N; lia].
  rewrite (latin_column A density ps shuffles i x p l L E El). rewrite Forall_forall in F. specialize (F l (nth_error_In _ _ El)).
  set (g := grid_value A (mk_dimension (fst p) (snd p) density)).
  assert (Ll : length l = Z.to_nat density) by (apply Permutation_length in F; now rewrite map_length, seq_length in F).
  assert (map (fun s => g (nth s l 0)) (seq 0 (Z.to_nat density)) = map g l) as ->.
  { rewrite <- Ll. rewrite <- (map_map (fun s => nth s l 0) g). f_equal. clear. apply nth_ext with (d := 0) (d' := 0); [now rewrite map_length, seq_length|]. rewrite map_length, seq_length. intros n H.
    rewrite (nth_indep _ 0 (nth 0%nat l 0)) by (now rewrite map_length, seq_length). rewrite (map_nth (fun s => nth s l 0)). now rewrite seq_nth. }
  rewrite <- (map_map Z.of_nat g). now apply Permutation_map.
Qed.
Print Assumptions C90_latin.
Example C90_example :
  map (map Qred) (latin_hypercube exact 3 [(0%Q, 1%Q); (10%Q, 20%Q)] [[2; 0; 1]; [1; 2; 0]]) = [[1%Q; 15%Q]; [0%Q; 20%Q]; [1 # 2; 10%Q]].
Proof. vm_compute. reflexivity. Qed.
(** With a single sample every coordinate is not-a-number. *)
Theorem C90_single_refuted : forall lower upper, latin_hypercube double 1 [(lower, upper)] [[0]] = [[S754_nan]].
Proof.
  intros l u. unfold latin_hypercube. change (Z.to_nat 1) with 1%nat. cbn [seq map combine fst snd nth]. unfold grid_value. cbn [d_lower d_upper d_density].
  change (of_Z double (w32 (1 - 1))) with (S754_zero false). cbn [double add mul div sub]. destruct (SFsub 53 1024 u l); destruct l; reflexivity.
Qed.
Print Assumptions C90_single_refuted.

(** In a stage with [count] points still to be selected: with coordinates up to 65536, no candidate's score is
    less than that of the one returned; a score is that of the squared distance to the nearest point selected, and less
    than the largest double, (2^53 - 1) * 2^971. *)
Theorem C104_best_candidate : forall score samples duplication count points lanes,
  (1 <= duplication)%nat -> (1 <= count < samples)%nat ->
  (forall p, In p points -> length p = (count * duplication)%nat /\ Forall (fun x => 1 <= x <= 65536) p) ->
  (forall l, In l lanes -> length (chosen l) = (samples - count)%nat /\ Forall (fun x => 1 <= x <= 65536) (chosen l)) ->
  (forall d, 0 <= d -> SFltb (score d) (S754_finite false 9007199254740991 971) = true) ->
  let selected := map (fun j => map (fun l => nth j (chosen l) 0) lanes) (seq 0 (samples - count)) in
  let candidate k := map (fun p => nth k p 0) points in
  let best := get_best score samples duplication count points lanes in
  (best < count * duplication)%nat /\ exists d, is_nearest (candidate best) selected d /\
    forall k d', (k < count * duplication)%nat -> is_nearest (candidate k) selected d' -> SFltb (score d') (score d) = false.
Proof. exact get_best_nearest. Qed.
Print Assumptions C104_best_candidate.
(** Two dimensions, five samples, two of them selected: (1, 4) and (3, 2). The optimal distance is the square
    root of 5; candidates are (2, 1), (4, 5), (5, 3). *)
Definition demo_score (d : Z) : spec_float := SFabs (SFsub 53 1024 (SFsqrt 53 1024 (of_Z double d)) (SFsqrt 53 1024 (of_Z double 5))).
Example C104_example :
  get_best demo_score 5 1 3 [[2; 4; 5]; [1; 5; 3]] [mk_lane [1; 3] [] []; mk_lane [4; 2] [] []] = 2%nat /\
  is_nearest [5; 3] [[1; 4]; [3; 2]] 5.
Proof. split; [vm_compute; reflexivity|]. split; [exists [3; 2]; split; [right; now left|reflexivity]|]. intros q [<-|[<-|[]]]; vm_compute; discriminate. Qed.
(** With more samples the distance computed for a candidate can be nought though it is the farthest. *)
Theorem C104_many_samples_refuted : forall n, 0 < n -> distance [1 + 65536 * n] [1] = 0 /\ squared_distance [1 + 65536 * n] [1] = 4294967296 * (n * n).
Proof.
  intros n H. split; [|cbn; nia]. unfold distance. cbn [combine map fst snd zsum fold_right]. replace (1 + 65536 * n - 1) with (65536 * n) by lia. unfold w32. rewrite <- Z.mul_mod by (unfold W32; lia).
  replace (65536 * n * (65536 * n)) with (n * n * W32) by (unfold W32; lia). rewrite Z.mod_mul by (unfold W32; lia). reflexivity.
Qed.
Print Assumptions C104_many_samples_refuted.
