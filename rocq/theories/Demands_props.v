(** Theorems on demands for money's worth, the volume that is reported, and the currency of payments. *)
From Coq Require Import SpecFloat QArith Qabs Qround Lqa.
From Verif Require Import Base Identity Identity_proofs IdMap IdMap_proofs Inventory StaticTicks StaticTicks_proofs Walras Walras_spec Demands Demands_spec Demands_proofs.
From Verif Require Walras_proofs Demands_proofs2 Demands_proofs3.
From Coq Require Import ZifyBool ZifyNat.
Local Open Scope Z_scope.

(** ** C177: participants trade what their demand for money's worth affords at the clearing price.
    Every demand is taken, once, for its property and its participant, and nothing else is. *)
Theorem C177_gathered : forall A absolute solution orders volumes demands p, one_demand_each orders ->
  gather A absolute solution orders = Ret (volumes, demands) ->
  (demanded orders p = [] -> im_find p demands = None) /\
  (demanded orders p <> [] -> exists q x o, im_find p solution = Some (q, x) /\ im_find p demands = Some o /\ im_sorted o /\
     Permutation o (map (fun d => (fst d, units A q x (snd d))) (demanded orders p))).
Proof.
  intros A abso sol orders V O p One H. destruct (gather_spec _ _ _ _ _ _ H) as (_ & _ & G). destruct (G p) as [G1 G2]. split; [intros N; now destruct (G1 N)|]. intros N. destruct (G2 N) as (q & x & E1 & _ & E2).
  exists q, x. eexists. split; [exact E1|]. split; [exact E2|]. unfold enter_all. split; [|apply (enter_spec (fun d => units A q x (snd d))); now apply demanded_nodup].
  assert (S : forall l o, im_sorted o -> im_sorted (fold_left (fun o (i : identity * num A) => im_emplace (fst i) (units A q x (snd i)) o) l o)); [|apply S; constructor].
  induction l as [|i l IH]; intros o So; [exact So|]. cbn [fold_left]. apply IH. now apply im_emplace_sorted.
Qed.
Print Assumptions C177_gathered.
(** In exact arithmetic the truncated units, at the truncated price, cost no more than the demand, and one more unit at a price that is a
    cent higher costs more; likewise for what is sold. *)
Theorem C177_within : forall q (x e : Q), 0 < q_value q -> 0 < q_denominator q -> 0 < q_lot q -> (0 < x)%Q ->
  let z := trunc_Z exact (units exact q x e) in let p := trunc_Z exact (inject_Z (q_value q) * x)%Q in let worth := (e * inject_Z (q_denominator q * q_lot q))%Q in
  ((0 <= e)%Q -> 0 <= z /\ (inject_Z (z * p) <= worth)%Q /\ (worth < inject_Z ((z + 1) * (p + 1)))%Q) /\
  ((e <= 0)%Q -> z <= 0 /\ (worth <= inject_Z (z * p))%Q /\ (inject_Z ((z - 1) * (p + 1)) < worth)%Q).
Proof.
  intros q x e Hv Hd Hl Hx z p worth. assert (Wp := trunc_whole (inject_Z (q_value q) * x)%Q). assert (Wz := trunc_whole (units exact q x e)). fold p in Wp. fold z in Wz. split; intros He.
  - apply (within_demand q x e z p); assumption.
  - assert (U : (- units exact q x e == units exact q x (- e)%Q)%Q).
    { unfold units, unit_price. cbn [div mul of_Z exact]. unfold Qdiv. ring. }
    apply whole_opp in Wz. assert (Wz' : whole (- z) (units exact q x (- e)%Q)). { unfold whole in *. rewrite <- U. exact Wz. }
    destruct (within_demand q x (- e)%Q (- z) p Hv Hd Hl Hx ltac:(lra) Wz' Wp) as (H1 & H2 & H3). split; [lia|].
    replace ((- z + 1) * (p + 1)) with (- ((z - 1) * (p + 1))) in H3 by ring. replace (- z * p) with (- (z * p)) in H2 by ring. rewrite inject_Z_opp in H2, H3. unfold worth. split; lra.
Qed.
Print Assumptions C177_within.
(** So in dollars and cents a buyer pays no more than the money it offered, and a seller gives away no more than the money it asked for. *)
Theorem C177_pays : forall value lot (x e : Q), 0 < value -> 0 < lot -> (0 < x)%Q ->
  let q := mk_quoted value 100 lot in let z := trunc_Z exact (units exact q x e) in let p := trunc_Z exact (inject_Z value * x)%Q in
  ((0 <= e)%Q -> (inject_Z (cash exact z p lot) <= e * 100)%Q) /\ ((e <= 0)%Q -> (inject_Z (cash exact (- z) p lot) <= - e * 100)%Q).
Proof.
  intros value lot x e Hv Hl Hx q z p. destruct (C177_within q x e Hv ltac:(reflexivity) Hl Hx) as [B S]. cbv zeta in B, S. fold z in B, S. change (q_value q) with value in B, S. fold p in B, S.
  assert (Pp : 0 <= p). { apply (whole_nonneg p (inject_Z value * x)); [apply trunc_whole|]. apply Qmult_le_0_compat; [apply nonneg_inject; lia|lra]. }
  change (q_denominator q) with 100 in B, S. change (q_lot q) with lot in B, S.
  assert (G : forall n m, 0 <= n -> (inject_Z (n * p) <= m * inject_Z (100 * lot))%Q -> (inject_Z (cash exact n p lot) <= m * 100)%Q).
  { intros n m Hn H. rewrite Walras_proofs.cash_exact by assumption. assert (D := Z.mul_div_le (n * p) lot Hl). rewrite Zle_Qle, inject_Z_mult in D. rewrite (inject_Z_mult 100) in H. change (inject_Z 100) with 100%Q in H.
    assert (L := pos_inject lot Hl). remember (inject_Z (n * p / lot)) as c. remember (inject_Z lot) as l. apply Qnot_lt_le. intros N. assert (0 < (c - m * 100) * l)%Q by (apply Qmult_lt_0_compat; lra). lra. }
  split; intros He.
  - destruct (B He) as (B1 & B2 & _). now apply G.
  - destruct (S He) as (S1 & S2 & _). apply G; [lia|]. replace (- z * p) with (- (z * p)) by ring. rewrite inject_Z_opp. lra.
Qed.
Print Assumptions C177_pays.
(** With the correction of the rounding, when the demands clear, every participant trades at most one unit more or less than that. *)
Theorem C177_cleared : forall solution orders volumes demands p q x o trades, one_demand_each orders ->
  gather exact Qabs solution orders = Ret (volumes, demands) -> im_find p solution = Some (q, x) -> im_find p demands = Some o ->
  0 < q_value q -> 0 < q_denominator q -> 0 < q_lot q -> (0 < x)%Q -> (qsum (map snd (demanded orders p)) == 0)%Q ->
  allots (map (fun d => (fst d, trunc_Z exact (snd d))) o) trades ->
  forall a e v, In (a, e) (demanded orders p) -> In (a, v) trades ->
    Z.abs (v - trunc_Z exact (units exact q x e)) <= 1 /\
    ((0 <= e)%Q -> let price := trunc_Z exact (inject_Z (q_value q) * x)%Q in (inject_Z (v * price) <= e * inject_Z (q_denominator q * q_lot q) + inject_Z price)%Q).
Proof.
  intros sol orders V O p q x o trades One H Es Eo Hv Hd Hl Hx C Al a e v He Htr.
  destruct (C177_gathered exact Qabs sol orders V O p One H) as [G1 G2]. destruct (G2 ltac:(intros X; rewrite X in He; destruct He)) as (q' & x' & o' & E1 & E2 & So & P). assert (q' = q /\ x' = x /\ o' = o) as (-> & -> & ->) by (repeat split; congruence). clear G1 G2.
  assert (B : Z.abs (v - trunc_Z exact (units exact q x e)) <= 1).
  { apply (correction_one o trades a (units exact q x e) v); [now apply im_keys_nodup|exact Al| | |exact Htr].
    - rewrite (qsum_perm _ _ (Permutation_map snd P)), map_map. cbn [snd].
      assert (K : exists c, ~ (c == 0)%Q /\ forall y : Q, (units exact q x y == y / c)%Q). { exists (unit_price exact q x). split; [|intros y; reflexivity]. unfold unit_price. cbn [mul div of_Z exact]. intros Z. assert (P1 := pos_inject _ Hv). assert (P2 := pos_inject _ Hd). assert (P3 := pos_inject _ Hl).
        assert (Q1 : (0 < inject_Z (q_value q) / inject_Z (q_denominator q))%Q) by (apply Qmult_lt_0_compat; [exact P1|now apply Qinv_lt_0_compat]). assert (Q2 : (0 < inject_Z (q_value q) / inject_Z (q_denominator q) / inject_Z (q_lot q))%Q) by (apply Qmult_lt_0_compat; [exact Q1|now apply Qinv_lt_0_compat]). pose proof (Qmult_lt_0_compat _ _ Q2 Hx). lra. }
      destruct K as (c & Nc & K). assert (G : forall l : list (identity * Q), (qsum (map (fun d => units exact q x (snd d)) l) == qsum (map snd l) / c)%Q).
      { induction l as [|d l IH]; cbn [map]; [unfold qsum; cbn [fold_right]; unfold Qdiv; ring|]. rewrite !qsum_cons, IH, K. unfold Qdiv. symmetry. apply Qmult_plus_distr_l. }
      change (num exact) with Q in *. rewrite G, C. unfold Qdiv. ring.
    - apply (Permutation_in _ (Permutation_sym P)). apply in_map_iff. exists (a, e). auto. }
  split; [exact B|]. intros He0 price. destruct (C177_within q x e Hv Hd Hl Hx) as [W _]. destruct (W He0) as (Z0 & W1 & _). fold price in W1. remember (trunc_Z exact (units exact q x e)) as z.
  assert (P0 : 0 <= price). { apply (whole_nonneg price (inject_Z (q_value q) * x)); [apply trunc_whole|]. apply Qmult_le_0_compat; [apply nonneg_inject; lia|lra]. }
  assert (L : (inject_Z (v * price) <= inject_Z (z * price + price))%Q) by (rewrite <- Zle_Qle; nia). rewrite inject_Z_plus in L. lra.
Qed.
Print Assumptions C177_cleared.
(** In double precision the units differ from that by at most one, up to 2^48 units, so that a buyer pays at most the price of one unit more than the money it offered. *)
Theorem C177_doubles : forall q x e xq eq, 1 <= q_value q <= 2 ^ 53 -> 1 <= q_denominator q <= 2 ^ 53 -> 1 <= q_lot q <= 2 ^ 53 ->
  is_double x -> number x = Some xq -> (1 # 16 <= xq <= 16)%Q -> is_double e -> number e = Some eq -> (Qabs (units exact q xq eq) <= inject_Z (2 ^ 48))%Q ->
  let z := trunc_Z double (units double q x e) in let price := trunc_Z exact (inject_Z (q_value q) * xq)%Q in
  Z.abs (z - trunc_Z exact (units exact q xq eq)) <= 1 /\
  ((0 <= eq)%Q -> (inject_Z (z * price) <= eq * inject_Z (q_denominator q * q_lot q) + inject_Z price)%Q) /\
  ((eq <= 0)%Q -> (inject_Z (- z * price) <= - eq * inject_Z (q_denominator q * q_lot q) + inject_Z price)%Q).
Proof.
  intros q x e xq eq Hv Hd Hl Vx Nx Hx Ve Ne B z price. pose proof (Demands_proofs2.units_double q x e xq eq Hv Hd Hl Vx Nx Hx Ve Ne B) as C. fold z in C. split; [exact C|].
  assert (X0 : (0 < xq)%Q) by lra. destruct (C177_within q xq eq ltac:(lia) ltac:(lia) ltac:(lia) X0) as [W1 W2]. cbv zeta in W1, W2. fold price in W1, W2. remember (trunc_Z exact (units exact q xq eq)) as n.
  assert (P0 : 0 <= price). { apply (whole_nonneg price (inject_Z (q_value q) * xq)); [apply trunc_whole|]. apply Qmult_le_0_compat; [apply nonneg_inject; lia|lra]. }
  split; intros He.
  - destruct (W1 He) as (_ & W & _). assert (L : (inject_Z (z * price) <= inject_Z (n * price + price))%Q) by (rewrite <- Zle_Qle; nia). rewrite inject_Z_plus in L. lra.
  - destruct (W2 He) as (_ & W & _). assert (L : (inject_Z (- z * price) <= inject_Z (- (n * price) + price))%Q) by (rewrite <- Zle_Qle; nia). rewrite inject_Z_plus, inject_Z_opp in L. lra.
Qed.
Print Assumptions C177_doubles.
(** Selling for fifteen cents at a quote of 7 cents per 3 units, at a price that rises by half. *)
Example C177_doubles_case : let x := div double (of_Z double 3) (of_Z double 2) in let e := div double (of_Z double (-15)) (of_Z double 100) in
  is_double x /\ number x = Some (6755399441055744 * (1 # 4503599627370496))%Q /\ is_double e /\ (exists eq, number e = Some eq /\ (eq <= 0)%Q) /\
  trunc_Z double (units double (mk_quoted 7 100 3) x e) = -4 /\ trunc_Z exact (units exact (mk_quoted 7 100 3) (3 # 2) (-15 # 100)) = -4.
Proof. vm_compute. repeat split. eexists. split; [reflexivity|]. discriminate. Qed.
(** A price that would fall below one cent is set to one cent, but the units are those of the lower price: here a demand for one dollar's worth
    is charged 2.19 dollars.  The multiplier is the lowest that the market allows. *)
Definition eleventh : spec_float := div double (of_Z double 1) (of_Z double 11).
Theorem C177_penny_refuted : exists z, to_i64 (units double (mk_quoted 5 100 1) eleventh (of_Z double 1)) = Ret z /\ new_price 5 eleventh = Ret 1 /\ cash double z 1 1 = 219.
Proof. exists 219. vm_compute. auto. Qed.
Print Assumptions C177_penny_refuted.
(** In double precision a demand for exactly three units' worth may get two: three times five cents, with the price unchanged. *)
Theorem C177_doubles_refuted : to_i64 (units double (mk_quoted 5 100 1) (of_Z double 1) (div double (of_Z double 15) (of_Z double 100))) = Ret 2 /\
  trunc_Z exact (units exact (mk_quoted 5 100 1) 1%Q (15 # 100)) = 3.
Proof. vm_compute. auto. Qed.
Print Assumptions C177_doubles_refuted.
(** Three participants and two properties; [1] is quoted at 2.50 for two units, and [2] at 3.00, which rises by half. *)
Definition demo_solution : idmap (quoted * Q) := [([1], (mk_quoted 250 100 2, 1%Q)); ([2], (mk_quoted 300 100 1, 3 # 2))].
Definition demo_orders : list (identity * list (identity * Q)) :=
  [([7], [([1], 10 # 1); ([2], -9 # 1)]); ([5], [([1], -4 # 1); ([2], 20 # 1)]); ([6], [([1], -6 # 1); ([2], -11 # 1)])].
Example C177_case : one_demand_each demo_orders /\ (qsum (map snd (demanded demo_orders [2%Z])) == 0)%Q /\
  map snd (demanded demo_orders [1]) = [10 # 1; -4 # 1; -6 # 1] /\
  match gather exact Qabs demo_solution demo_orders with
  | Ret (_, demands) => option_map (map (fun d => (fst d, trunc_Z exact (snd d)))) (im_find [2] demands) = Some [([5], 4); ([6], -2); ([7], -2)] /\
      option_map (map (fun d => (fst d, trunc_Z exact (snd d)))) (im_find [1] demands) = Some [([5], -3); ([6], -4); ([7], 8)]
  | _ => False
  end /\ allots [([5], -3); ([6], -4); ([7], 8)] [([5], -4); ([6], -4); ([7], 8)].
Proof.
  split.
  { split; [repeat (constructor; [cbn; intros H; repeat destruct H as [H|H]; try discriminate; exact H|]); constructor|]. repeat constructor; cbn; intros H; repeat destruct H as [H|H]; try discriminate; exact H. }
  split; [reflexivity|]. split; [reflexivity|]. split; [vm_compute; auto|].
  exists 1, [([5], -3); ([6], -4); ([7], 8)]. split; [reflexivity|]. split; [|reflexivity]. split; [reflexivity|]. repeat constructor; cbn; lia.
Qed.

(** ** C178: the volume that is reported is the volume that is traded.
    It is twice that, up to rounding: bought and sold units are both counted.  [k] bounds how far the demands are from clearing, in units. *)
Theorem C178_twice : forall solution orders volumes demands p q x o trades k r, one_demand_each orders ->
  gather exact Qabs solution orders = Ret (volumes, demands) -> map fst volumes = [p] -> im_find p solution = Some (q, x) -> im_find p demands = Some o ->
  (Qabs (qsum (map snd o)) <= inject_Z k)%Q -> allots (map (fun d => (fst d, trunc_Z exact (snd d))) o) trades ->
  reported exact (fun _ => true) volumes = Ret r ->
  let n := Z.of_nat (length o) in 2 * bought trades - n - k <= r <= 2 * bought trades + 2 * n + k.
Proof.
  intros sol orders V O p q x o trades k r One H Ev Es Eo K Al Er n.
  destruct (gather_spec _ _ _ _ _ _ H) as (SV & _ & G). destruct (G p) as [G1 G2]. destruct (C177_gathered exact Qabs sol orders V O p One H) as [_ C2].
  assert (Nd : demanded orders p <> []) by (intros X; destruct (G1 X); congruence). destruct (G2 Nd) as (q' & x' & E1 & E2 & _). destruct (C2 Nd) as (q'' & x'' & o' & E1' & E3 & So & P).
  assert (q' = q /\ x' = x /\ q'' = q /\ x'' = x /\ o' = o) as (-> & -> & -> & -> & ->) by (repeat split; congruence).
  destruct V as [|[p' v] V']; [discriminate|]. cbn [map fst] in Ev. assert (p' = p) as -> by congruence. assert (Evv : v = add_all exact Qabs q x (demanded orders p)). { assert (X : im_find p ((p, v) :: V') = Some v) by (apply im_find_in; [exact SV|now left]). congruence. }
  assert (K0 : 0 <= k). { rewrite Zle_Qle. eapply Qle_trans; [apply Qabs_nonneg|exact K]. }
  assert (B := volume_bounds o trades k (im_keys_nodup _ So) Al K0 K). cbv zeta in B. fold n in B.
  assert (Sv : (qsum (map (fun y => Qabs (snd y)) o) == v)%Q).
  { rewrite Evv, add_all_exact. change (num exact) with Q in *. rewrite (qsum_perm _ _ (Permutation_map (fun y : identity * Q => Qabs (snd y)) P)), map_map. reflexivity. }
  rewrite Sv in B. unfold reported in Er. cbn [andb] in Er. assert (W := trunc_whole v). remember (trunc_Z exact v) as t. destruct ((-1 <? t) && (t <? 2 ^ 64)); [|discriminate]. assert (t = r) as -> by congruence.
  assert (V0 : (0 <= v)%Q). { rewrite <- Sv. apply qsum_nonneg. }
  apply whole_pos in W; [|exact V0].
  assert (A1 : 2 * bought trades - n - k < r + 1). { rewrite Zlt_Qlt, (inject_Z_plus r 1). exact (Qle_lt_trans _ _ _ (proj1 B) (proj2 W)). }
  assert (A2 : r <= 2 * bought trades + 2 * n + k). { rewrite Zle_Qle. exact (Qle_trans _ _ _ (proj1 W) (proj2 B)). } lia.
Qed.
Print Assumptions C178_twice.
(** Also in double precision, up to 2^48 units: each participant adds at most one unit to the difference.  [units] are the numbers that the doubles stand for. *)
Theorem C178_doubles : forall solution orders volumes demands p q x o trades units k r, one_demand_each orders ->
  gather double SFabs solution orders = Ret (volumes, demands) -> map fst volumes = [p] -> im_find p solution = Some (q, x) -> im_find p demands = Some o ->
  Forall2 (fun d u => is_double (snd d) /\ number (snd d) = Some u) o units -> (qsum (map Qabs units) <= inject_Z (2 ^ 48))%Q -> Z.of_nat (length o) <= 2 ^ 48 ->
  (Qabs (qsum units) <= inject_Z k)%Q -> allots (map (fun d => (fst d, trunc_Z double (snd d))) o) trades ->
  reported double is_number volumes = Ret r ->
  let n := Z.of_nat (length o) in 2 * bought trades - 2 * n - k <= r <= 2 * bought trades + 3 * n + k.
Proof.
  intros sol orders V O p q x o trades us k r One H Ev Es Eo F B Ln K Al Er n.
  destruct (gather_spec _ _ _ _ _ _ H) as (SV & _ & G). destruct (G p) as [G1 G2]. destruct (C177_gathered double SFabs sol orders V O p One H) as [_ C2].
  assert (Nd : demanded orders p <> []) by (intros X; destruct (G1 X); congruence). destruct (G2 Nd) as (q' & x' & E1 & E2 & _). destruct (C2 Nd) as (q'' & x'' & o' & E1' & E3 & So & P).
  assert (q' = q /\ x' = x /\ q'' = q /\ x'' = x /\ o' = o) as (-> & -> & -> & -> & ->) by (repeat split; congruence).
  destruct V as [|[p' v] V']; [discriminate|]. cbn [map fst] in Ev. assert (p' = p) as -> by congruence. assert (Evv : v = add_all double SFabs q x (demanded orders p)). { assert (X : im_find p ((p, v) :: V') = Some v) by (apply im_find_in; [exact SV|now left]). congruence. }
  assert (K0 : 0 <= k). { rewrite Zle_Qle. eapply Qle_trans; [apply Qabs_nonneg|exact K]. }
  (* the same units, as numbers *)
  set (w := combine (map fst o) us). assert (Len : length us = length o) by (clear -F; induction F as [|? ? ? ? ? ? IH]; [reflexivity|cbn [length]; f_equal; exact IH]).
  assert (W1 : map fst w = map fst o) by (unfold w; clear -Len; revert us Len; induction o as [|d l IH]; intros [|u us] Len; try discriminate; [reflexivity|]; cbn; f_equal; apply IH; now injection Len).
  assert (W2 : map snd w = us) by (unfold w; clear -Len; revert us Len; induction o as [|d l IH]; intros [|u us] Len; try discriminate; [reflexivity|]; cbn; f_equal; apply IH; now injection Len).
  assert (W3 : map (fun d => (fst d, trunc_Z double (snd d))) o = map (fun d => (fst d, trunc_Z exact (snd d))) w).
  { unfold w. clear -F. induction F as [|d u l us [D N] F IH]; [reflexivity|]. cbn [map combine fst snd]. f_equal; [f_equal; now apply Demands_proofs3.trunc_number|exact IH]. }
  assert (Lw : length w = length o) by (rewrite <- (map_length fst w), W1; apply map_length).
  rewrite W3 in Al. assert (Bd := volume_bounds w trades k ltac:(rewrite W1; now apply im_keys_nodup) Al K0 ltac:(rewrite W2; exact K)). cbv zeta in Bd. rewrite Lw in Bd. fold n in Bd.
  assert (Q1 : map (fun d : identity * Q => Qabs (snd d)) w = map Qabs us) by (rewrite <- W2, map_map; reflexivity). rewrite Q1 in Bd.
  (* in the order of the orders *)
  assert (P2 : Permutation (map snd o) (map (fun d => units double q x (snd d)) (demanded orders p))). { apply (Permutation_map snd) in P. rewrite map_map in P. exact P. }
  assert (F2 : Forall2 (fun u v => is_double u /\ number u = Some v) (map snd o) us) by (clear -F; induction F; constructor; assumption).
  destruct (Demands_proofs3.forall2_perm _ _ _ P2 _ F2) as (us' & Pu & F').
  assert (Sum : (qsum (map Qabs us) == qsum (map Qabs us'))%Q) by (apply qsum_perm, Permutation_map, Pu). rewrite Sum in B, Bd.
  assert (Ll : length (map (fun d => units double q x (snd d)) (demanded orders p)) = length o) by (rewrite <- (Permutation_length P2); apply map_length).
  assert (N1 : 1 <= n). { unfold n. rewrite <- Ll, map_length. destruct (demanded orders p); [contradiction|cbn [length]; lia]. }
  change (num double) with spec_float in *. pose proof (Demands_proofs3.volume_double _ us' _ _ F' ltac:(rewrite Ll; exact Ln) B Bd) as R. cbv zeta in R. rewrite Ll in R. fold n in R. specialize (R N1).
  assert (Fold : fold_left (fun s u => add double s (SFabs u)) (map (fun d => units double q x (snd d)) (demanded orders p)) (of_Z double 0) = v).
  { rewrite Evv. unfold add_all. generalize (of_Z double 0). generalize (demanded orders p). clear. intros l. induction l as [|i l IH]; intros s; [reflexivity|]. cbn [map fold_left]. apply IH. }
  change (num double) with spec_float in *. rewrite Fold in R. unfold reported in Er. destruct (is_number v && (-1 <? trunc_Z double v) && (trunc_Z double v <? 2 ^ 64)); [|discriminate]. assert (trunc_Z double v = r) as E by congruence. lia.
Qed.
Print Assumptions C178_doubles.
(** Three demands in double precision, of 3.1, -1.05 and -2.05 dollars, for something at 7 cents: 44 units bought, and 88 reported. *)
Example C178_doubles_case : match gather double SFabs [([1], (mk_quoted 7 100 1, of_Z double 1))] [([7], [([1], div double (of_Z double 310) (of_Z double 100))]); ([5], [([1], div double (of_Z double (-105)) (of_Z double 100))]); ([6], [([1], div double (of_Z double (-205)) (of_Z double 100))])] with
  | Ret (volumes, demands) => map fst volumes = [[1]] /\ reported double is_number volumes = Ret 88 /\ exists o, im_find [1] demands = Some o /\ map (fun d => (fst d, trunc_Z double (snd d))) o = [([5], -15); ([6], -29); ([7], 44)] /\
      Forall (fun d => is_double (snd d) /\ number (snd d) <> None) o
  | _ => False end /\ allots [([5], -15); ([6], -29); ([7], 44)] [([5], -15); ([6], -29); ([7], 44)] /\ bought [([5], -15); ([6], -29); ([7], 44)] = 44.
Proof.
  split; [|split; [exists 0, [([5], -15); ([6], -29); ([7], 44)]; split; [reflexivity|]; split; [|reflexivity]; split; [reflexivity|]; repeat constructor; cbn; lia|reflexivity]]. vm_compute. split; [reflexivity|]. split; [reflexivity|]. eexists. split; [reflexivity|]. split; [reflexivity|]. repeat constructor; discriminate.
Qed.
Definition num_orders (l : list (identity * list (identity * Z))) : list (identity * list (identity * spec_float)) := map (fun o => (fst o, map (fun d => (fst d, of_Z double (snd d))) (snd o))) l.
(** Ten units change hands, at one dollar, and twenty are reported. *)
Theorem C178_twice_refuted : exists volumes demands o, gather double SFabs [([1], (mk_quoted 100 100 1, of_Z double 1))] (num_orders [([5], [([1], 10)]); ([6], [([1], -10)])]) = Ret (volumes, demands) /\
  im_find [1] demands = Some o /\ computes o [([5], 10); ([6], -10)] /\ bought [([5], 10); ([6], -10)] = 10 /\ reported double is_number volumes = Ret 20.
Proof.
  eexists _, _, _. split; [vm_compute; reflexivity|]. split; [vm_compute; reflexivity|]. split; [|split; [reflexivity|vm_compute; reflexivity]].
  exists [([5], 10); ([6], -10)], 0, [([5], 10); ([6], -10)]. split; [vm_compute; reflexivity|]. split; [reflexivity|]. split; [|reflexivity]. split; [reflexivity|]. repeat constructor; cbn; lia.
Qed.
Print Assumptions C178_twice_refuted.
(** Of several properties one is reported: the trade of five hundred units of [2] is not. *)
Theorem C178_first_refuted : exists volumes demands, gather double SFabs [([1], (mk_quoted 100 100 1, of_Z double 1)); ([2], (mk_quoted 100 100 1, of_Z double 1))]
    (num_orders [([5], [([1], 10); ([2], 500)]); ([6], [([1], -10); ([2], -500)])]) = Ret (volumes, demands) /\
  map fst volumes = [[1]; [2]] /\ reported double is_number volumes = Ret 20.
Proof. eexists _, _. split; [vm_compute; reflexivity|]. split; reflexivity. Qed.
Print Assumptions C178_first_refuted.
(** When the orders demand nothing at all, a volume that does not exist is read. *)
Theorem C178_none_refuted : forall A absolute finite solution (orders : list (identity * list (identity * num A))), Forall (fun o => snd o = []) orders ->
  exists volumes demands, gather A absolute solution orders = Ret (volumes, demands) /\ reported A finite volumes = UB.
Proof.
  intros A abso fin sol orders H. exists [], []. split; [|reflexivity]. unfold gather. induction H as [|o os E H IH]; [reflexivity|]. cbn [fold_left]. rewrite E. exact IH.
Qed.
Print Assumptions C178_none_refuted.
Example C178_case : match gather exact Qabs [([1], (mk_quoted 250 100 2, 1%Q))] [([7], [([1], 10 # 1)]); ([5], [([1], -4 # 1)]); ([6], [([1], -6 # 1)])] with
  | Ret (volumes, demands) => map fst volumes = [[1]] /\ reported exact (fun _ => true) volumes = Ret 16 /\ option_map (fun o => Qeq_bool (qsum (map snd o)) 0) (im_find [1] demands) = Some true
  | _ => False end /\ bought [([5], -4); ([6], -4); ([7], 8)] = 8.
Proof. vm_compute. auto. Qed.

(** ** C179: a demand for something that the market does not trade has no effect on others.
    It is undefined instead: the demands are taken exactly when everything that is demanded is quoted. *)
Theorem C179_exactly : forall A absolute solution (orders : list (identity * list (identity * num A))),
  (exists b, gather A absolute solution orders = Ret b) <-> (forall o d, In o orders -> In d (snd o) -> im_find (fst d) solution <> None).
Proof. exact gather_defined. Qed.
Print Assumptions C179_exactly.
Theorem C179_untraded_refuted : gather double SFabs [([1], (mk_quoted 100 100 1, of_Z double 1))] (num_orders [([5], [([1], 10)]); ([6], [([1], -10)]); ([8], [([3], 1)])]) = UB.
Proof. reflexivity. Qed.
Print Assumptions C179_untraded_refuted.

(** Without the order for what is not traded, the demands are taken; with it not, even of nothing. *)
Example C179_case : (exists b, gather exact Qabs [([1], (mk_quoted 250 100 2, 1%Q))] [([5], [([1], 10 # 1)]); ([6], [([1], -4 # 1)]); ([8], [])] = Ret b) /\
  gather exact Qabs [([1], (mk_quoted 250 100 2, 1%Q))] [([5], [([1], 10 # 1)]); ([6], [([1], -4 # 1)]); ([8], [([3], 0 # 1)])] = UB.
Proof. split; [eexists; vm_compute; reflexivity|vm_compute; reflexivity]. Qed.

(** ** C180: trades are paid in the currency in which they are quoted.
    They are paid in US dollars, as many whole ones as there are whole ones of the currency of the quote. *)
Theorem C180_exactly : forall n q, 0 <= n -> 0 <= q_value q -> 0 < q_denominator q -> 0 < q_lot q ->
  let c := paid exact n q in c * (q_denominator q * q_lot q) <= 100 * (n * q_value q) < (c + 1) * (q_denominator q * q_lot q).
Proof.
  intros n q Hn Hv Hd Hl c. assert (E : c = (100 * (n * q_value q)) / (q_denominator q * q_lot q)).
  { unfold c, paid. apply trunc_frac; [nia|nia|]. cbn [mul div of_Z exact]. rewrite !inject_Z_mult. change (inject_Z 100) with (100 # 1)%Q. field. split; apply inject_nz; lia. }
  rewrite E. assert (L : 0 < q_denominator q * q_lot q) by nia. pose proof (Z.div_mod (100 * (n * q_value q)) (q_denominator q * q_lot q) ltac:(lia)). pose proof (Z.mod_pos_bound (100 * (n * q_value q)) _ L). lia.
Qed.
Print Assumptions C180_exactly.
(** So a quote in a currency of hundred units is paid in dollars at par. *)
Theorem C180_cents : forall n value lot, 0 <= n -> 0 <= value -> 0 < lot ->
  let c := paid exact n (mk_quoted value 100 lot) in c * lot <= n * value < (c + 1) * lot.
Proof. intros n value lot Hn Hv Hl c. pose proof (C180_exactly n (mk_quoted value 100 lot) Hn Hv ltac:(reflexivity) Hl) as H. cbn [q_value q_denominator q_lot] in H. fold c in H. lia. Qed.
Print Assumptions C180_cents.
(** In double precision it is that, or one cent less when it would be a whole number of cents; below ten trillion dollars. *)
Theorem C180_doubles : forall n q, 0 <= n <= 2 ^ 53 -> 0 <= q_value q <= 2 ^ 53 -> 100 * (n * q_value q) < 2 ^ 50 -> 1 <= q_denominator q <= 2 ^ 53 -> 1 <= q_lot q <= 2 ^ 53 ->
  paid double n q = paid exact n q \/ ((100 * (n * q_value q)) mod (q_denominator q * q_lot q) = 0 /\ 0 < n * q_value q /\ paid double n q = paid exact n q - 1).
Proof.
  intros n q Hn Hv Hb Hd Hl. pose proof (C180_exactly n q ltac:(lia) ltac:(lia) ltac:(lia) ltac:(lia)) as C. cbv zeta in C.
  assert (E : paid exact n q = 100 * (n * q_value q) / (q_denominator q * q_lot q)). { apply (Z.div_unique_pos _ _ _ (100 * (n * q_value q) - q_denominator q * q_lot q * paid exact n q)); [|ring]. remember (q_denominator q * q_lot q) as m. remember (paid exact n q) as c. nia. }
  rewrite E. destruct (Demands_proofs3.paid_double n q Hn Hv Hb Hd Hl) as [X|(X1 & X2 & X3)]; [left; exact X|right]. split; [exact X1|]. split; [nia|exact X3].
Qed.
Print Assumptions C180_doubles.
(** Three units at 1500 yen each, where the yen has no smaller units, are paid with 4500 dollars. *)
Theorem C180_yen_refuted : paid double 3 (mk_quoted 1500 1 1) = 450000 /\ paid exact 3 (mk_quoted 1500 1 1) = 450000.
Proof. vm_compute. auto. Qed.
Print Assumptions C180_yen_refuted.
Example C180_case : paid exact 1 (mk_quoted 29 100 1) = 29 /\ paid double 1 (mk_quoted 29 100 1) = 28 /\ paid exact 7 (mk_quoted 129 100 2) = 451 /\ paid double 7 (mk_quoted 129 100 2) = 451 /\ paid exact 7 (mk_quoted 12900 1000 2) = 4515.
Proof. vm_compute. auto. Qed.
