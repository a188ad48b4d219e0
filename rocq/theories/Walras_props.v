(** C60-C62, C79-C82: clearing of a Walrasian market. *)
From Coq Require Import SpecFloat QArith Qround Qpower Lqa ZifyBool ZifyNat.
From Verif Require Import Base Identity Identity_proofs Quantity Inventory Inventory_spec Inventory_proofs StaticTicks StaticTicks_proofs Walras Walras_spec Walras_proofs Rounding_proofs Demands_spec.
Local Open Scope Z_scope.

(** Every participant gets one trade; the trades add up to nothing; with [e] the surplus of the truncated
    demands and [n] participants, each truncated demand is lowered (raised, for a negative surplus) by
    [|e| / n] or one more, and by no less than that of any participant with a larger truncated demand. *)
Theorem C60_allocation : forall demands l transfers, NoDup (map fst demands) ->
  truncate_demands demands = Ret l -> computes demands transfers ->
  Permutation (map fst transfers) (map fst demands) /\ total transfers = 0 /\
  (forall a z v, In (a, z) l -> In (a, v) transfers ->
     let e := total l in let n := Z.of_nat (length l) in let correction := if e <? 0 then v - z else z - v in
     Z.abs e / n <= correction <= Z.abs e / n + 1 /\
     (forall b y w, In (b, y) l -> In (b, w) transfers -> Z.abs z < Z.abs y -> (if e <? 0 then w - y else y - w) <= correction)).
Proof.
  intros demands l tr N Hl (l' & e & s & Hl' & He & [Ps Ss] & Ha). rewrite Hl in Hl'. injection Hl' as <-.
  pose proof (truncate_fst _ _ Hl) as F. apply sum_spec in He. rewrite Z.add_0_l in He.
  assert (Es : e = total s) by (rewrite He; now apply total_perm).
  destruct (allocate_spec e s tr Es Ha) as (d & (Ft & T & Nt) & T0 & Ed).
  assert (Ns : NoDup (map fst s)). { apply (Permutation_NoDup (l := map fst l)); [now apply Permutation_map|now rewrite F]. }
  split. { rewrite Ft, <- F. apply Permutation_map. now symmetry. }
  split; [exact T0|].
  assert (Pos : forall a z v, In (a, z) l -> In (a, v) tr -> exists i, nth_error s i = Some (a, z) /\ v = z + d * Z.of_nat (hits (length s) (Z.to_nat (Z.abs e)) i)).
  { intros a z v H1 H2. apply (Permutation_in _ Ps) in H1. apply In_nth_error in H1 as [i Hi]. apply In_nth_error in H2 as [j Hj].
    rewrite Nt in Hj. destruct (nth_error s j) as [[b y]|] eqn:Hj'; [|discriminate]. cbn [option_map fst snd] in Hj. injection Hj as -> Hv.
    pose proof (nodup_nth s i j a z y Ns Hi Hj') as ->. rewrite Hi in Hj'. injection Hj' as ->. exists j. auto. }
  intros a z v H1 H2. cbv zeta. rewrite <- He. destruct (Pos a z v H1 H2) as (i & Hi & ->).
  assert (Len : length s = length l) by (symmetry; now apply Permutation_length).
  assert (Lp : (0 < length s)%nat) by (apply Nat.le_lt_trans with i; [lia|apply nth_error_Some; congruence]).
  pose proof (hits_bounds (length s) (Z.to_nat (Z.abs e)) i Lp) as Hb.
  assert (D : Z.of_nat (Z.to_nat (Z.abs e) / length s) = Z.abs e / Z.of_nat (length l)).
  { rewrite Nat2Z.inj_div, Len. f_equal. lia. }
  split.
  - rewrite Ed. remember (hits (length s) (Z.to_nat (Z.abs e)) i) as h. destruct (e <? 0); lia.
  - intros b y w H3 H4 Hlt. destruct (Pos b y w H3 H4) as (j & Hj & ->).
    assert (i <= j)%nat.
    { destruct (Nat.le_gt_cases i j) as [|G]; [assumption|]. exfalso. pose proof (sorted_nth _ _ Ss j i _ _ G Hj Hi) as Q. cbn [snd] in Q. lia. }
    pose proof (hits_mono (length s) (Z.to_nat (Z.abs e)) i j H) as M. rewrite Ed.
    remember (hits (length s) (Z.to_nat (Z.abs e)) i) as h. remember (hits (length s) (Z.to_nat (Z.abs e)) j) as h'. destruct (e <? 0); lia.
Qed.
Print Assumptions C60_allocation.

(** Moderate demands never lead to undefined behaviour, however equal ones are sorted. *)
Theorem C60_defined : forall demands l s, truncate_demands demands = Ret l -> zsum (map (fun x => Z.abs (snd x)) l) < 2 ^ 62 -> sorts l s ->
  exists transfers, sum_i64 0 l = Ret (total l) /\ allocate (total l) s = Ret transfers.
Proof.
  intros demands l s Hl B [P S].
  assert (E : sum_i64 0 l = Ret (total l)) by (rewrite sum_defined by lia; reflexivity).
  assert (Eb : Z.abs (total l) <= zsum (map (fun x => Z.abs (snd x)) l)) by (unfold total; rewrite <- (map_map snd Z.abs); apply zsum_abs).
  assert (Bs : forall x, In x s -> Z.abs (snd x) <= zsum (map (fun x => Z.abs (snd x)) l)).
  { intros x Hx. apply abs_member. now apply (Permutation_in _ (Permutation_sym P)). }
  destruct (Nat.eq_dec (length s) 0) as [Z0|NZ].
  - destruct s; [|discriminate]. apply Permutation_sym, Permutation_nil in P. subst l. exists []. split; reflexivity.
  - unfold allocate. destruct (Z.ltb_spec (total l) 0).
    + destruct (correct_defined 1 s _ ltac:(lia) ltac:(lia) Bs (Z.to_nat (- total l)) 0 s (corrected_start _ _ _)) as [r Er]; [lia|]. exists r. auto.
    + destruct (correct_defined (-1) s _ ltac:(lia) ltac:(lia) Bs (Z.to_nat (total l)) 0 s (corrected_start _ _ _)) as [r Er]; [lia|]. exists r. auto.
Qed.
Print Assumptions C60_defined.

Definition tenths (z : Z) : spec_float := div double (of_Z double z) (of_Z double 10).
(** Demands of 2.5, 3.9, -1.2 and -4.2 units. *)
Example C60_example : computes [([1], tenths 25); ([2], tenths 39); ([3], tenths (-12)); ([4], tenths (-42))] [([3], -1); ([1], 2); ([2], 3); ([4], -4)]
  /\ computes [([1], tenths 25); ([2], tenths 9); ([3], tenths (-12))] [([2], -1); ([3], -1); ([1], 2)].
Proof.
  split.
  - exists [([1], 2); ([2], 3); ([3], -1); ([4], -4)], 0, [([3], -1); ([1], 2); ([2], 3); ([4], -4)].
    split; [vm_compute; reflexivity|]. split; [reflexivity|]. split; [|reflexivity]. split.
    + apply Permutation_sym. apply (Permutation_middle [([1], 2); ([2], 3)] [([4], -4)] ([3], -1)).
    + repeat (constructor; [|repeat constructor; cbn; lia]). constructor.
  - exists [([1], 2); ([2], 0); ([3], -1)], 1, [([2], 0); ([3], -1); ([1], 2)].
    split; [vm_compute; reflexivity|]. split; [reflexivity|]. split; [|reflexivity]. split.
    + apply (Permutation_cons_append [([2], 0); ([3], -1)] ([1], 2)).
    + repeat (constructor; [|repeat constructor; cbn; lia]). constructor.
Qed.

(** A participant that wants to sell a little is made to buy a unit, although the demands of
    -0.1, 1.9, 1.2 and -3.0 units clear. *)
Theorem C82_seller_buys_refuted : exists demands a transfers,
  computes demands transfers /\ (forall transfers', computes demands transfers' -> In (a, 1) transfers') /\ In (a, tenths (-1)) demands.
Proof.
  exists [([1], tenths (-1)); ([2], tenths 19); ([3], tenths 12); ([4], tenths (-30))], [1], [([1], 1); ([2], 1); ([3], 1); ([4], -3)].
  assert (T : truncate_demands [([1], tenths (-1)); ([2], tenths 19); ([3], tenths 12); ([4], tenths (-30))] = Ret [([1], 0); ([2], 1); ([3], 1); ([4], -3)])
    by (vm_compute; reflexivity).
  split; [|split; [|left; reflexivity]].
  - exists [([1], 0); ([2], 1); ([3], 1); ([4], -3)], (-1), [([1], 0); ([2], 1); ([3], 1); ([4], -3)].
    split; [exact T|]. split; [reflexivity|]. split; [|reflexivity]. split; [apply Permutation_refl|].
    repeat (constructor; [|repeat constructor; cbn; lia]). constructor.
  - intros tr (l & e & s & Hl & He & [P S] & Ha). rewrite T in Hl. injection Hl as <-. vm_compute in He. injection He as <-.
    assert (I : In ([1], 0) s) by (apply (Permutation_in _ P); left; reflexivity).
    destruct s as [|[b y] s]; [contradiction|].
    assert (Y : y = 0 /\ b = [1]).
    { assert (J : In (b, y) [([1], 0); ([2], 1); ([3], 1); ([4], -3)]) by (apply (Permutation_in _ (Permutation_sym P)); left; reflexivity).
      destruct I as [I|I]; [injection I; auto|]. inversion_clear S. rewrite Forall_forall in H0. specialize (H0 _ I). cbn [snd] in H0.
      destruct J as [J|[J|[J|[J|[]]]]]; injection J as <- <-; try (cbn in H0; lia). auto. }
    destruct Y as [-> ->]. change (allocate (-1) (([1], 0) :: s)) with (correct 1 0 1 (([1], 0) :: s)) in Ha.
    cbn [correct length] in Ha. rewrite Nat.mod_small in Ha by lia. cbn [correct_one] in Ha. injection Ha as <-. left. reflexivity.
Qed.
Print Assumptions C82_seller_buys_refuted.
(** Demands can be truncated exactly when they fit 64 bits. *)
Theorem C60_truncated_exactly : forall demands, (exists l, truncate_demands demands = Ret l) <->
  Forall (fun d => match snd d with S754_zero _ => True | S754_finite _ _ _ => -9223372036854775808 <= double_trunc (snd d) <= 9223372036854775807 | _ => False end) demands.
Proof.
  induction demands as [|[a x] ds IH]; cbn [truncate_demands].
  - split; [constructor|]. intros _. now exists [].
  - split.
    + intros [l H]. destruct (to_i64 x) as [z| |] eqn:E; try discriminate. destruct (truncate_demands ds) as [l'| |] eqn:E'; try discriminate.
      constructor; [|apply IH; now exists l']. cbn [snd]. unfold to_i64 in E. destruct x; try discriminate; [exact I|].
      destruct (in_i64 (double_trunc (S754_finite s m e))) eqn:R; [|discriminate]. unfold in_i64 in R. lia.
    + intros H. inversion H as [|? ? H1 H2]; subst. apply IH in H2. destruct H2 as [l' ->]. cbn [snd] in H1. unfold to_i64.
      destruct x as [b|b| |b m e]; try contradiction; [now eexists|]. assert (in_i64 (double_trunc (S754_finite b m e)) = true) as -> by (unfold in_i64; lia). now eexists.
Qed.
Print Assumptions C60_truncated_exactly.
(** They lose their fractional parts only. *)
Lemma double_trunc_whole x q : number x = Some q -> whole (double_trunc x) q.
Proof.
  destruct x as [s|s| |s m e]; intros H; try discriminate H; injection H as <-.
  - left. split; [apply Qle_refl|]. split; [apply Qle_refl|reflexivity].
  - unfold whole, double_trunc. assert (P : exists n, (if 0 <=? e then Z.pos m * 2 ^ e else Z.pos m / 2 ^ (- e)) = n /\ (inject_Z n <= inject_Z (Z.pos m) * Qpower 2 e < inject_Z n + 1)%Q /\ (0 <= inject_Z (Z.pos m) * Qpower 2 e)%Q).
    { eexists. split; [reflexivity|]. assert (P : (0 < Qpower 2 e)%Q) by (apply Qpower_0_lt; reflexivity). assert (M : (0 < inject_Z (Z.pos m))%Q) by reflexivity.
      split; [|apply Qlt_le_weak; now apply Qmult_lt_0_compat].
      destruct (Z.leb_spec 0 e).
      - rewrite inject_Z_mult, (Zpower_Qpower 2 e) by assumption. change (inject_Z 2) with 2%Q. split; [apply Qle_refl|]. setoid_replace (inject_Z (Z.pos m) * 2 ^ e)%Q with (inject_Z (Z.pos m) * 2 ^ e + 0)%Q at 1 by ring. apply Qplus_lt_r. reflexivity.
      - replace e with (- - e) at 2 3 by lia. rewrite (Qpower_opp 2 (- e)), <- (Zpower_Qpower 2 (- e)) by lia. assert (D : 0 < 2 ^ (- e)) by (apply Z.pow_pos_nonneg; lia). remember (2 ^ (- e)) as d. assert (D' : (0 < inject_Z d)%Q) by (change 0%Q with (inject_Z 0); rewrite <- Zlt_Qlt; exact D).
        change (inject_Z (Z.pos m) * / inject_Z d)%Q with (inject_Z (Z.pos m) / inject_Z d)%Q. pose proof (Z.div_mod (Z.pos m) d ltac:(lia)). pose proof (Z.mod_pos_bound (Z.pos m) d D). split.
        + apply Qle_shift_div_l; [exact D'|]. rewrite <- inject_Z_mult, <- Zle_Qle. nia.
        + apply Qlt_shift_div_r; [exact D'|]. change 1%Q with (inject_Z 1). rewrite <- inject_Z_plus, <- inject_Z_mult, <- Zlt_Qlt. nia. }
    destruct P as (n & -> & [P1 P2] & P3). destruct s; [right|left; auto]. change (Z.neg m) with (- Z.pos m)%Z. rewrite !inject_Z_opp. setoid_replace (- inject_Z (Z.pos m) * 2 ^ e)%Q with (- (inject_Z (Z.pos m) * 2 ^ e))%Q by ring. lra.
Qed.
Theorem C60_truncated : forall demands l, truncate_demands demands = Ret l ->
  Forall2 (fun d t => fst d = fst t /\ exists q, number (snd d) = Some q /\ whole (snd t) q) demands l.
Proof.
  induction demands as [|[a x] ds IH]; intros l H; cbn [truncate_demands] in H; [injection H as <-; constructor|].
  destruct (to_i64 x) as [z| |] eqn:E; try discriminate. destruct (truncate_demands ds) as [l'| |]; try discriminate. injection H as <-. constructor; [|now apply IH]. split; [reflexivity|]. cbn [snd].
  unfold to_i64 in E. destruct x as [s|s| |s m e]; try discriminate E.
  - injection E as <-. exists 0%Q. split; [reflexivity|]. exact (double_trunc_whole (S754_zero s) _ eq_refl).
  - destruct (in_i64 _); [|discriminate]. injection E as <-. eexists. split; [reflexivity|]. exact (double_trunc_whole (S754_finite s m e) _ eq_refl).
Qed.
Print Assumptions C60_truncated.
(** Only truncated demands smaller than the corrections change sign. *)
Theorem C82_large_demands : forall demands l transfers, NoDup (map fst demands) ->
  truncate_demands demands = Ret l -> computes demands transfers -> forall a z v, In (a, z) l -> In (a, v) transfers ->
  Z.abs (total l) / Z.of_nat (length l) + 1 <= Z.abs z -> (0 < z -> 0 <= v) /\ (z < 0 -> v <= 0).
Proof.
  intros demands l tr N Hl C a z v H1 H2 B. destruct (C60_allocation _ _ _ N Hl C) as (_ & _ & K). destruct (K a z v H1 H2) as [K1 _]. cbv zeta in K1.
  pose proof (Z.div_pos (Z.abs (total l)) (Z.of_nat (length l))). destruct l; [contradiction|]. specialize (H ltac:(lia) ltac:(cbn [length]; lia)).
  destruct (total (p :: l) <? 0); lia.
Qed.
Print Assumptions C82_large_demands.

(** Truncated demands 2, -5 and 1 do not clear: the total is -2, so that two participants get one unit more. The largest keeps its sign. *)
Example C82_case : let l := [([1], 2); ([2], -5); ([3], 1)] in truncate_demands [([1], tenths 25); ([2], tenths (-52)); ([3], tenths 19)] = Ret l /\
  computes [([1], tenths 25); ([2], tenths (-52)); ([3], tenths 19)] [([3], 2); ([1], 3); ([2], -5)] /\ total l = -2 /\ Z.abs (total l) / Z.of_nat (length l) + 1 <= Z.abs (-5).
Proof.
  cbv zeta. split; [vm_compute; reflexivity|]. split; [|split; [reflexivity|vm_compute; discriminate]].
  exists [([1], 2); ([2], -5); ([3], 1)], (-2), [([3], 1); ([1], 2); ([2], -5)].
  split; [vm_compute; reflexivity|]. split; [reflexivity|]. split; [|reflexivity]. split.
  - apply Permutation_sym. apply (Permutation_cons_append [([1], 2); ([2], -5)] ([3], 1)) || apply Permutation_sym, (Permutation_cons_append [([1], 2); ([2], -5)] ([3], 1)).
  - repeat (constructor; [|repeat constructor; cbn; lia]). constructor.
Qed.

(** What netting does to the net position (received minus sent) in property [k]: it is kept, except that
    where no more is received than sent the received amount stays due, so that the market gains it. *)
Theorem C61_exact : forall r s, valid r -> valid s -> forall k, let '(r', s') := net_items r s in
  held r' k - held s' k = held r k - held s k + (if (0 <? held r k) && (held r k <=? held s k) then held r k else 0).
Proof.
  intros r s [N1 F1] [N2 F2] k.
  assert (G1 : Forall (fun kv => 0 <= snd kv) r) by (eapply Forall_impl; [|exact F1]; intros ? [? _]; assumption).
  assert (G2 : Forall (fun kv => 0 <= snd kv) s) by (eapply Forall_impl; [|exact F2]; intros ? [? _]; assumption).
  pose proof (net_items_held r s N1 N2 G1 G2 k) as [E1 E2]. destruct (net_items r s) as [r' s']. cbn [fst snd] in *. rewrite E1, E2.
  pose proof (nonneg_held r k G1). pose proof (nonneg_held s k G2).
  destruct (Z.gtb_spec (held r k) (held s k)), (Z.eqb_spec (held r k) 0), (Z.geb_spec (held r k) (held s k)), (Z.ltb_spec 0 (held r k)), (Z.leb_spec (held r k) (held s k)); cbn [andb]; lia.
Qed.
Print Assumptions C61_exact.

Definition demo_usd : identity := [100].
Definition demo_short (p : identity) : identity := 7 :: p.
Definition demo_supply (a p : identity) : Z * Z := if id_eqb p [1] then (10, 0) else (0, 0).
(** In a clearing in which agent 5 sells 3 units of a property at 100 and buys 3 of another at 100, it is
    due nothing and owes nothing, yet after netting it is to pay 300. *)
Theorem C61_netting_refuted :
  let trades := [(mk_traded [1] 100 100 1, [([5], -3); ([6], 3)]); (mk_traded [2] 100 100 1, [([5], 3); ([6], -3)])] in
  exists send receive send' receive',
  settle_all double demo_usd demo_short demo_supply trades = (send, receive) /\
  clear double demo_usd demo_short demo_supply trades = Ret (send', receive') /\
  listed receive [5] demo_usd - listed send [5] demo_usd = 0 /\ listed receive' [5] demo_usd - listed send' [5] demo_usd = 300.
Proof. eexists _, _, _, _. split; [vm_compute; reflexivity|]. split; [vm_compute; reflexivity|]. split; reflexivity. Qed.
Print Assumptions C61_netting_refuted.

(** Netting never erases the element its loop stands on, whatever is traded. *)
Theorem C61_defined : forall A usd short_of supply l, exists send receive, clear A usd short_of supply l = Ret (send, receive).
Proof.
  intros. unfold clear. destruct (settle_all A usd short_of supply l) as [s r] eqn:E.
  pose proof (settle_all_good A usd short_of supply l) as [_ G]. rewrite E in G. cbn [snd] in G. destruct G as [_ F].
  apply net_all_defined. eapply Forall_impl; [|exact F]. intros ? [? _]. assumption.
Qed.
Print Assumptions C61_defined.

(** Of property 1 more is received than sent, of 2 less, of 3 nothing: the 4 of property 2 stay due. *)
Example C61_case : net_items [([1], 9); ([2], 4); ([3], 0)] [([1], 2); ([2], 6); ([3], 5)] = ([([1], 7); ([2], 4); ([3], 0)], [([2], 2); ([3], 5)]).
Proof. vm_compute. reflexivity. Qed.

(** No price becomes zero; positive prices stay positive under positive multipliers. *)
Theorem C62_prices : forall result quotes out, apply_results result quotes = Ret out ->
  map fst out = map fst quotes /\ Forall (fun q => snd q <> 0) out /\
  (Forall (fun q => 0 < snd q) quotes -> Forall (fun r => exists m e, snd r = S754_finite false m e) result -> Forall (fun q => 1 <= snd q) out).
Proof.
  intros result. induction quotes as [|[p q] quotes IH]; cbn [apply_results]; intros out H.
  - injection H as <-. repeat split; constructor.
  - destruct (m_find p result) as [x|] eqn:M; [|discriminate]. destruct (new_price q x) as [v| |] eqn:V; try discriminate.
    destruct (apply_results result quotes) as [l| |]; try discriminate. injection H as <-. destruct (IH _ eq_refl) as (F & N & P).
    unfold new_price in V. destruct (to_i64 (mul double (of_Z double q) x)) as [z| |] eqn:Z1; try discriminate. injection V as <-.
    split; [cbn [map fst]; now rewrite F|]. split; [constructor; [cbn [snd]; destruct (Z.eqb_spec 0 z); lia|exact N]|].
    intros Q R. inversion_clear Q. constructor; [|now apply P]. cbn [snd] in *. destruct (Z.eqb_spec 0 z); [lia|].
    assert (X : exists m e, x = S754_finite false m e).
    { clear - M R. induction result as [|[k y] result IHr]; cbn [m_find] in M; [discriminate|]. inversion_clear R. destruct (id_eqb k p); [injection M as <-; assumption|auto]. }
    destruct X as (m & ex & ->).
    assert (S0 : 0 <= z).
    { cbn [mul of_Z double] in Z1. pose proof (round_aux_sign 53 1024) as RA.
      destruct q as [|q|q]; try lia. cbn [binary_normalize] in Z1. unfold binary_round in Z1. destruct (shl_align q 0 _) as [mz ez].
      specialize (RA false (Z.pos mz) ez loc_Exact). destruct (binary_round_aux 53 1024 false (Z.pos mz) ez loc_Exact) as [s|s| |s m1 e1].
      - cbn in Z1. injection Z1 as <-. lia.
      - discriminate.
      - discriminate.
      - subst s. pose proof (mul_sign (S754_finite false m1 e1) (S754_finite false m ex)) as Ms. cbn beta iota in Ms.
        destruct (SFmul 53 1024 (S754_finite false m1 e1) (S754_finite false m ex)) as [s|s| |s m2 e2]; cbn [to_i64] in Z1; try discriminate.
        + injection Z1 as <-. lia.
        + cbn [xorb] in Ms. subst s. destruct (in_i64 (double_trunc (S754_finite false m2 e2))); [|discriminate]. injection Z1 as <-. cbn [double_trunc].
          destruct (Z.leb_spec 0 e2); [apply Z.mul_nonneg_nonneg; [lia|apply Z.pow_nonneg; lia]|apply Z.div_pos; [lia|apply Z.pow_pos_nonneg; lia]]. }
    lia.
Qed.
Print Assumptions C62_prices.
(** 250 * 1.1, 3 * 0.1; a negative multiplier is not corrected. *)
Example C62_example : apply_results [([1], tenths 11); ([2], tenths 1)] [([1], 250); ([2], 3)] = Ret [([1], 275); ([2], 1)] /\
  apply_results [([1], tenths (-11))] [([1], 250)] = Ret [([1], -275)].
Proof. vm_compute. split; reflexivity. Qed.

(** With one property in the market, everyone is sent and hands over exactly the units traded: what is bought
    beyond a short position is sent and the lending contract is taken back; what is sold is taken from
    the long position first and the rest is lent. *)
Theorem C79_one_property : forall A usd short_of supply t trades send receive,
  t_id t <> usd -> short_of (t_id t) <> usd -> short_of (t_id t) <> t_id t -> NoDup (map fst trades) ->
  (forall a, 0 <= fst (supply a (t_id t)) /\ 0 <= snd (supply a (t_id t))) ->
  (forall n, 0 <= n -> 0 <= cash A n (t_price t) (t_lot t) /\ 0 <= cash A n (t_old t) (t_lot t)) ->
  clear A usd short_of supply [(t, trades)] = Ret (send, receive) -> forall a v, In (a, v) trades ->
  let '(long, short) := supply a (t_id t) in
  listed send a (t_id t) = Z.max 0 (v - short) /\ listed receive a (short_of (t_id t)) = Z.min (Z.max 0 v) short /\
  listed receive a (t_id t) = Z.min (Z.max 0 (- v)) long /\ listed send a (short_of (t_id t)) = Z.max 0 (- v - long).
Proof.
  intros A usd so supply t trades send receive N1 N2 N3 Nd Hs Hc Hcl a v Ha.
  pose proof (fun k => one_property A usd so supply t trades send receive N1 N2 N3 Nd Hs Hc Hcl a v Ha k) as K.
  rewrite (proj1 (K (t_id t))), (proj2 (K (t_id t))), (proj1 (K (so (t_id t)))), (proj2 (K (so (t_id t)))). clear K.
  specialize (Hs a). unfold own. destruct (supply a (t_id t)) as [long short]. cbn [fst snd] in Hs.
  assert (K1 : id_eqb usd (t_id t) = false) by (apply eqb_neq; congruence). assert (K2 : id_eqb usd (so (t_id t)) = false) by (apply eqb_neq; congruence).
  assert (K3 : id_eqb (so (t_id t)) (t_id t) = false) by (apply eqb_neq; congruence). assert (K4 : id_eqb (t_id t) (so (t_id t)) = false) by (apply eqb_neq; congruence).
  destruct (Z.eqb_spec v 0) as [->|V0].
  { cbn [fst snd opt]. unfold held. cbn [h_find]. lia. }
  cbv zeta. destruct (Z.gtb_spec v 0) as [Vp|Vn].
  - destruct (Z.gtb_spec short 0) as [Sp|Sz]; [destruct (Z.gtb_spec (v - Z.min v short) 0) as [R|R]|destruct (Z.gtb_spec (v - 0) 0) as [R|R]]; cbn [fst snd opt];
      rewrite ?held_insert, ?K1, ?K2, ?K3, ?K4, ?eqb_refl; rewrite ?held_cons, ?eqb_refl, ?K4; unfold held; cbn [h_find]; lia.
  - destruct (Z.gtb_spec long 0) as [Sp|Sz]; [destruct (Z.ltb_spec (v + Z.min (- v) long) 0) as [R|R]|destruct (Z.ltb_spec (v + 0) 0) as [R|R]]; cbn [fst snd opt];
      rewrite ?held_insert, ?K1, ?K2, ?K3, ?K4, ?eqb_refl; rewrite ?h_find_other by assumption; rewrite ?K2; unfold held; cbn [h_find]; lia.
Qed.
Print Assumptions C79_one_property.
(** So the units that change hands through the market add up. *)
Theorem C79_market_is_flat : forall A usd short_of supply t trades send receive,
  t_id t <> usd -> short_of (t_id t) <> usd -> short_of (t_id t) <> t_id t -> NoDup (map fst trades) ->
  (forall a, 0 <= fst (supply a (t_id t)) /\ 0 <= snd (supply a (t_id t))) ->
  (forall n, 0 <= n -> 0 <= cash A n (t_price t) (t_lot t) /\ 0 <= cash A n (t_old t) (t_lot t)) -> total trades = 0 ->
  clear A usd short_of supply [(t, trades)] = Ret (send, receive) ->
  zsum (map (fun a => listed send a (t_id t) + listed receive a (short_of (t_id t))) (map fst trades)) =
  zsum (map (fun a => listed receive a (t_id t) + listed send a (short_of (t_id t))) (map fst trades)).
Proof.
  intros A usd so supply t trades send receive N1 N2 N3 Nd Hs Hc T Hcl.
  assert (K : forall a v, In (a, v) trades -> listed send a (t_id t) + listed receive a (so (t_id t)) - (listed receive a (t_id t) + listed send a (so (t_id t))) = v).
  { intros a v Ha. pose proof (C79_one_property A usd so supply t trades send receive N1 N2 N3 Nd Hs Hc Hcl a v Ha) as Q.
    specialize (Hs a). destruct (supply a (t_id t)) as [long short]. cbn [fst snd] in Hs. lia. }
  clear - K T. unfold total in T. assert (G : zsum (map (fun a => listed send a (t_id t) + listed receive a (so (t_id t))) (map fst trades)) -
    zsum (map (fun a => listed receive a (t_id t) + listed send a (so (t_id t))) (map fst trades)) = zsum (map snd trades)).
  { clear T. induction trades as [|[a v] l IH]; [reflexivity|]. cbn [map fst snd]. rewrite !zsum_cons. specialize (IH (fun b w H => K b w (or_intror H))).
    specialize (K a v (or_introl eq_refl)). lia. }
  lia.
Qed.
Print Assumptions C79_market_is_flat.
(** A participant that buys two properties pays for both and is sent only the first. *)
Theorem C79_second_purchase_refuted : forall A usd short_of supply t1 t2 a v w, 0 < v -> 0 < w ->
  t_id t1 <> t_id t2 -> usd <> t_id t1 -> usd <> t_id t2 -> supply a (t_id t1) = (0, 0) -> supply a (t_id t2) = (0, 0) ->
  exists send receive, clear A usd short_of supply [(t1, [(a, v)]); (t2, [(a, w)])] = Ret (send, receive) /\
  listed send a (t_id t1) = v /\ listed send a (t_id t2) = 0 /\
  listed receive a usd = w64 (cash A v (t_price t1) (t_lot t1) + cash A w (t_price t2) (t_lot t2)).
Proof.
  intros A usd so supply t1 t2 a v w Hv Hw N N1 N2 S1 S2. unfold clear, settle_all. cbn [fold_left fst snd]. unfold settle. rewrite S1, S2.
  destruct (Z.eqb_spec v 0); [lia|]. destruct (Z.eqb_spec w 0); [lia|]. destruct (Z.gtb_spec v 0); [|lia]. destruct (Z.gtb_spec w 0); [|lia].
  cbn [Z.gtb Z.compare]. change (0 >? 0) with false. cbv beta iota zeta. rewrite !Z.sub_0_r. destruct (Z.gtb_spec v 0); [|lia]. destruct (Z.gtb_spec w 0); [|lia].
  unfold p_emplace, p_insert. cbn [p_find app]. unfold p_emplace. cbn [p_find app]. rewrite !eqb_refl. cbn [p_assign p_find app]. rewrite !eqb_refl. cbn [p_assign p_find app]. rewrite !eqb_refl.
  cbn [p_assign p_find app]. rewrite ?eqb_refl. unfold inv_insert. cbn [h_find h_insert]. unfold h_insert. cbn [h_find app]. rewrite !eqb_refl. cbn [h_assign]. rewrite eqb_refl. cbn [net_all p_find]. rewrite eqb_refl.
  cbn [net_items h_find]. rewrite (eqb_neq (t_id t1) usd) by congruence.
  assert (X : forall q : Z, (if q =? 0 then (q, [(t_id t1, v)]) else (q, [(t_id t1, v)])) = (q, [(t_id t1, v)])) by (intros q; destruct (q =? 0); reflexivity).
  rewrite X. cbn [net_all p_assign]. rewrite eqb_refl. eexists _, _. split; [reflexivity|].
  unfold listed. cbn [p_find]. rewrite !eqb_refl. unfold held. cbn [h_find]. rewrite !eqb_refl, (eqb_neq (t_id t1) (t_id t2)) by assumption. auto.
Qed.
Print Assumptions C79_second_purchase_refuted.
(** The hypotheses hold for every market with one property in exact arithmetic. *)
Example C79_hypotheses : forall t n, 0 <= t_price t -> 0 <= t_old t -> 0 < t_lot t -> 0 <= n ->
  0 <= cash exact n (t_price t) (t_lot t) /\ 0 <= cash exact n (t_old t) (t_lot t).
Proof. intros t n Hp Ho Hl Hn. rewrite !cash_exact by assumption. split; apply Z.div_pos; try assumption; now apply Z.mul_nonneg_nonneg. Qed.
Example C79_example :
  clear double demo_usd demo_short demo_supply [(mk_traded [1] 250 240 1, [([5], -12); ([6], 8); ([8], 4)])] =
  Ret ([([5], [(demo_usd, 3000); (demo_short [1], 2)]); ([6], [([1], 8)]); ([8], [([1], 4)])],
       [([5], [([1], 10)]); ([6], [(demo_usd, 2000)]); ([8], [(demo_usd, 1000)])]).
Proof. vm_compute. reflexivity. Qed.

(** In exact arithmetic, [units] at [price] cents for [lot] units cost what they should, rounded down. *)
Theorem C80_exact : forall units price lot, 0 <= units -> 0 <= price -> 0 < lot ->
  let c := cash exact units price lot in c * lot <= units * price < (c + 1) * lot.
Proof.
  intros u p l Hu Hp Hl. cbv zeta. rewrite cash_exact by assumption. pose proof (Z.div_mod (u * p) l ltac:(lia)). pose proof (Z.mod_pos_bound (u * p) l Hl). lia.
Qed.
Print Assumptions C80_exact.
(** In double precision one unit at 29 cents costs 28 cents. *)
Theorem C80_doubles_refuted : exists units price, 0 < units /\ 0 < price /\ cash double units price 1 <> units * price.
Proof. exists 1, 29. split; [lia|]. split; [lia|]. vm_compute. discriminate. Qed.
Print Assumptions C80_doubles_refuted.
(** As the code computes, in double precision, the amount is the exact one rounded down, or one cent less, and the latter only when the exact
    amount is a whole number of cents. *)
Theorem C80_doubles : forall units price lot, 0 <= units <= 2 ^ 53 -> 0 <= price <= 2 ^ 53 -> units * price < 2 ^ 50 -> 1 <= lot <= 2 ^ 53 ->
  cash double units price lot = units * price / lot \/
  ((units * price) mod lot = 0 /\ 0 < units * price /\ cash double units price lot = units * price / lot - 1).
Proof. exact cash_double. Qed.
Print Assumptions C80_doubles.
Example C80_example : cash exact 7 129 2 = 451 /\ cash double 7 129 2 = 451 /\ cash exact 1 29 1 = 29 /\ cash double 1 29 1 = 28.
Proof. vm_compute. repeat split. Qed.

(** In exact arithmetic, with unit lots, one property and no short positions, as much cash is paid as is received. *)
Theorem C81_cash_balances : forall usd short_of supply t trades send receive,
  t_id t <> usd -> short_of (t_id t) <> usd -> short_of (t_id t) <> t_id t -> NoDup (map fst trades) ->
  (forall a, 0 <= fst (supply a (t_id t)) /\ snd (supply a (t_id t)) = 0) ->
  t_lot t = 1 -> 0 <= t_price t -> 0 <= t_old t -> (forall a v, In (a, v) trades -> Z.abs v * t_price t < W64) -> total trades = 0 ->
  clear exact usd short_of supply [(t, trades)] = Ret (send, receive) ->
  cash_balance usd send receive (map fst trades) = 0.
Proof.
  intros usd so supply t trades send receive N1 N2 N3 Nd Hs Hl Hp Ho Hb T Hcl.
  assert (C : forall n, 0 <= n -> cash exact n (t_price t) (t_lot t) = n * t_price t) by (intros n Hn; rewrite cash_exact, Hl by lia; apply Z.div_1_r).
  assert (K : forall a v, In (a, v) trades -> listed receive a usd - listed send a usd = v * t_price t).
  { intros a v Ha. destruct (one_property_cash usd so supply t trades send receive N1 N2 N3 Nd Hs Hl Hp Hcl a v Ha usd) as [-> ->].
    specialize (Hs a). specialize (Hb a v Ha). unfold own. destruct (supply a (t_id t)) as [long short]. cbn [fst snd] in Hs. destruct Hs as [H1 ->].
    destruct (Z.eqb_spec v 0) as [->|V0]. { cbn [fst snd opt]. unfold held. cbn [h_find]. lia. }
    change (0 >? 0) with false. cbv beta iota zeta. destruct (Z.gtb_spec v 0) as [Vp|Vn].
    - rewrite Z.sub_0_r. destruct (Z.gtb_spec v 0); [|lia]. cbn [fst snd opt]. rewrite held_insert, held_cons, eqb_refl. cbn [h_find].
      rewrite (eqb_neq (t_id t) usd) by assumption. unfold held. cbn [h_find]. rewrite C by lia. lia.
    - assert (K6 : id_eqb (t_id t) usd = false) by (apply eqb_neq; congruence). assert (K5 : id_eqb (so (t_id t)) usd = false) by (apply eqb_neq; congruence).
      destruct (Z.gtb_spec long 0) as [Lp|Lz]; [destruct (Z.ltb_spec (v + Z.min (- v) long) 0) as [R|R]|destruct (Z.ltb_spec (v + 0) 0) as [R|R]]; try lia;
        cbn [fst snd opt]; rewrite ?held_insert, ?K5, ?K6, ?eqb_refl; unfold inv_insert, h_insert; cbn [h_find app h_assign]; rewrite ?eqb_refl; cbn [h_find app h_assign];
        rewrite ?C by lia; unfold q_add, held; cbn [h_find]; rewrite ?K6.
      + replace (- (v + Z.min (- v) long)) with (- v - Z.min (- v) long) by lia. replace (Z.min (- v) long * t_price t + (- v - Z.min (- v) long) * t_price t) with (- v * t_price t) by ring.
        unfold w64. rewrite Z.mod_small; [lia|]. rewrite Z.abs_neq in Hb by lia. split; [apply Z.mul_nonneg_nonneg; lia|exact Hb].
      + replace (Z.min (- v) long) with (- v) by lia. lia.
      + replace (- (v + 0)) with (- v) by lia. lia. }
  clear - K T. unfold cash_balance, total in *. assert (G : zsum (map (fun a => listed receive a usd - listed send a usd) (map fst trades)) = zsum (map snd trades) * t_price t).
  { clear T. induction trades as [|[a v] l IH]; [reflexivity|]. cbn [map fst snd]. rewrite !zsum_cons. rewrite IH by (intros; apply K; now right). rewrite (K a v (or_introl eq_refl)). ring. }
  rewrite G, T. reflexivity.
Qed.
Print Assumptions C81_cash_balances.
(** In double precision it does not: two buyers of one unit each at 29 cents pay 56 cents, the seller is paid 57. *)
Theorem C81_doubles_refuted : exists send receive,
  clear double demo_usd demo_short demo_supply [(mk_traded [1] 29 29 1, [([5], -2); ([6], 1); ([8], 1)])] = Ret (send, receive) /\
  cash_balance demo_usd send receive [[5]; [6]; [8]] = -1.
Proof. eexists _, _. split; [vm_compute; reflexivity|]. reflexivity. Qed.
Print Assumptions C81_doubles_refuted.
(** What goes missing is bounded: in double precision a buyer pays at most one cent less than the price of what it buys, a seller gets at
    most two less, so that the payments differ from the receipts by no more than these cents. *)
Theorem C81_doubles_bound : forall usd short_of supply t trades send receive,
  t_id t <> usd -> short_of (t_id t) <> usd -> short_of (t_id t) <> t_id t -> NoDup (map fst trades) ->
  (forall a, 0 <= fst (supply a (t_id t)) /\ snd (supply a (t_id t)) = 0) ->
  t_lot t = 1 -> 0 <= t_price t <= 2 ^ 53 -> (forall a v, In (a, v) trades -> Z.abs v <= 2 ^ 53 /\ Z.abs v * t_price t < 2 ^ 50) -> total trades = 0 ->
  clear double usd short_of supply [(t, trades)] = Ret (send, receive) ->
  (forall a v, In (a, v) trades -> exists e, listed receive a usd - listed send a usd = v * t_price t - e /\
     (if v >? 0 then 0 <= e <= 1 else if v =? 0 then e = 0 else -2 <= e <= 0)) /\
  - Z.of_nat (length (filter (fun tr => snd tr >? 0) trades)) <= cash_balance usd send receive (map fst trades) <= 2 * Z.of_nat (length (filter (fun tr => snd tr <? 0) trades)).
Proof.
  intros usd so supply t trades send receive N1 N2 N3 Nd Hs Hl Hp Hb T Hcl.
  assert (C : forall n, 0 <= n <= 2 ^ 53 -> n * t_price t < 2 ^ 50 -> n * t_price t - 1 <= cash double n (t_price t) (t_lot t) <= n * t_price t /\ 0 <= cash double n (t_price t) (t_lot t)).
  { intros n Hn Hn'. rewrite Hl. split; [|apply cash_nonneg; lia]. destruct (cash_double n (t_price t) 1 Hn Hp Hn' ltac:(lia)) as [->|(_ & _ & ->)]; rewrite Z.div_1_r; lia. }
  assert (K : forall a v, In (a, v) trades -> exists e, listed receive a usd - listed send a usd = v * t_price t - e /\
     (if v >? 0 then 0 <= e <= 1 else if v =? 0 then e = 0 else -2 <= e <= 0)).
  { intros a v Ha. pose proof (one_property_gen double usd so supply t trades send receive N1 N2 N3 Nd) as G.
    destruct (G ltac:(intros b; specialize (Hs b); lia) ltac:(intros n Hn; apply cash_nonneg; lia) ltac:(intros b n Hn Hn'; specialize (Hs b); lia) Hcl a v Ha usd) as [-> ->]. clear G.
    specialize (Hs a). destruct (Hb a v Ha) as [B1 B2]. unfold own. destruct (supply a (t_id t)) as [long short]. cbn [fst snd] in Hs. destruct Hs as [H1 ->].
    destruct (Z.eqb_spec v 0) as [->|V0]. { exists 0. cbn [fst snd opt]. unfold held. cbn [h_find]. split; [lia|reflexivity]. }
    change (0 >? 0) with false. cbv beta iota zeta. destruct (Z.gtb_spec v 0) as [Vp|Vn].
    - rewrite Z.sub_0_r. destruct (Z.gtb_spec v 0); [|lia]. cbn [fst snd opt]. rewrite held_insert, held_cons, eqb_refl. cbn [h_find].
      rewrite (eqb_neq (t_id t) usd) by assumption. unfold held. cbn [h_find]. destruct (C v ltac:(lia) ltac:(lia)). exists (v * t_price t - cash double v (t_price t) (t_lot t)). lia.
    - assert (K6 : id_eqb (t_id t) usd = false) by (apply eqb_neq; congruence). assert (K5 : id_eqb (so (t_id t)) usd = false) by (apply eqb_neq; congruence).
      assert (C1 : forall n, 0 <= n <= - v -> n * t_price t - 1 <= cash double n (t_price t) (t_lot t) <= n * t_price t /\ 0 <= cash double n (t_price t) (t_lot t)) by (intros n Hn; apply C; nia).
      destruct (Z.gtb_spec long 0) as [Lp|Lz]; [destruct (Z.ltb_spec (v + Z.min (- v) long) 0) as [R|R]|destruct (Z.ltb_spec (v + 0) 0) as [R|R]]; try lia;
        cbn [fst snd opt]; rewrite ?held_insert, ?K5, ?K6, ?eqb_refl; unfold inv_insert, h_insert; cbn [h_find app h_assign]; rewrite ?eqb_refl; cbn [h_find app h_assign]; rewrite ?K5, ?K6, ?eqb_refl;
        unfold q_add, held; cbn [h_find]; rewrite ?K6, ?eqb_refl.
      + replace (- (v + Z.min (- v) long)) with (- v - Z.min (- v) long) by lia. pose proof (C1 (Z.min (- v) long) ltac:(lia)) as D1. pose proof (C1 (- v - Z.min (- v) long) ltac:(lia)) as D2.
        set (c1 := cash double (Z.min (- v) long) (t_price t) (t_lot t)) in *. set (c2 := cash double (- v - Z.min (- v) long) (t_price t) (t_lot t)) in *.
        replace ((- v - Z.min (- v) long) * t_price t) with (- v * t_price t - Z.min (- v) long * t_price t) in D2 by ring.
        assert (w64 (c1 + c2) = c1 + c2) as ->. { unfold w64. apply Z.mod_small. assert (- v * t_price t < 2 ^ 50) by nia. unfold W64. lia. }
        exists (v * t_price t + (c1 + c2)). lia.
      + replace (Z.min (- v) long) with (- v) by lia. pose proof (C1 (- v) ltac:(lia)). exists (v * t_price t + cash double (- v) (t_price t) (t_lot t)). lia.
      + replace (- (v + 0)) with (- v) by lia. pose proof (C1 (- v) ltac:(lia)). exists (v * t_price t + cash double (- v) (t_price t) (t_lot t)). lia. }
  split; [exact K|]. clear - K T. unfold cash_balance, total in *.
  assert (G : zsum (map snd trades) * t_price t - Z.of_nat (length (filter (fun tr => snd tr >? 0) trades)) <= zsum (map (fun a => listed receive a usd - listed send a usd) (map fst trades)) <=
    zsum (map snd trades) * t_price t + 2 * Z.of_nat (length (filter (fun tr => snd tr <? 0) trades))).
  { clear T. induction trades as [|[a v] l IH]; [cbn; lia|]. cbn [map fst snd filter]. rewrite !zsum_cons. specialize (IH ltac:(intros; apply K; now right)).
    destruct (K a v (or_introl eq_refl)) as (e & -> & He). destruct (Z.gtb_spec v 0), (Z.ltb_spec v 0), (Z.eqb_spec v 0); try lia; cbn [length]; lia. }
  rewrite T in G. lia.
Qed.
Print Assumptions C81_doubles_bound.
Example C81_doubles_case : exists send receive,
  clear double demo_usd demo_short demo_supply [(mk_traded [1] 29 29 1, [([5], -12); ([6], 1); ([8], 1); ([9], 10)])] = Ret (send, receive) /\
  cash_balance demo_usd send receive [[5]; [6]; [8]; [9]] = -1 /\ total [([5], -12); ([6], 1); ([8], 1); ([9], 10)] = 0.
Proof. eexists _, _. split; [vm_compute; reflexivity|]. split; reflexivity. Qed.
(** Nor does it with short positions: a buyer closing a short position pays the old price. *)
Theorem C81_shorts_refuted : exists supply send receive,
  clear exact demo_usd demo_short supply [(mk_traded [1] 300 200 1, [([5], -2); ([6], 2)])] = Ret (send, receive) /\
  cash_balance demo_usd send receive [[5]; [6]] = -200.
Proof. exists (fun a p => if id_eqb a [5] then (10, 0) else (0, 2)). eexists _, _. split; [vm_compute; reflexivity|]. reflexivity. Qed.
Print Assumptions C81_shorts_refuted.
Example C81_example :
  clear exact demo_usd demo_short demo_supply [(mk_traded [1] 29 29 1, [([5], -12); ([6], 7); ([8], 5)])] =
  Ret ([([5], [(demo_usd, 348); (demo_short [1], 2)]); ([6], [([1], 7)]); ([8], [([1], 5)])],
       [([5], [([1], 10)]); ([6], [(demo_usd, 203)]); ([8], [(demo_usd, 145)])]).
Proof. vm_compute. reflexivity. Qed.
