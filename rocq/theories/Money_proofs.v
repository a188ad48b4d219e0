From Verif Require Import Base Text Identity Identity_proofs Money Money_spec.
From Coq Require Import ZifyBool.

Lemma ccy_eqb_eq x y : ccy_eqb x y = true <-> x = y.
Proof.
  unfold ccy_eqb. destruct x, y; cbn. rewrite !andb_true_iff, !Z.eqb_eq. split; [intros (((-> & ->) & ->) & ->); reflexivity|].
  intros [= -> -> -> ->]. auto.
Qed.
Lemma ccy_neb_eqb x y : ccy_neb x y = negb (ccy_eqb x y).
Proof. unfold ccy_neb, ccy_eqb. now rewrite !negb_andb. Qed.
Lemma price_eqb_eq p q : price_eqb p q = true <-> p = q.
Proof.
  unfold price_eqb. rewrite andb_true_iff, Z.eqb_eq, ccy_eqb_eq. destruct p, q; cbn. split; [intros [-> ->]; reflexivity|intros [= -> ->]; auto].
Qed.
Lemma ccy_eq_dec (x y : currency) : {x = y} + {x <> y}.
Proof. destruct (ccy_eqb x y) eqn:E; [left; now apply ccy_eqb_eq|right]. intros H. apply ccy_eqb_eq in H. congruence. Qed.

Lemma price_order p q :
  (valuation p <> valuation q -> price_lt p q = Throw /\ price_gt p q = Throw /\ price_le p q = Throw /\ price_ge p q = Throw) /\
  (valuation p = valuation q ->
     exists lt le gt ge, price_lt p q = Ret lt /\ price_le p q = Ret le /\ price_gt p q = Ret gt /\ price_ge p q = Ret ge /\
       (lt = true <-> value p < value q) /\ (le = true <-> value p <= value q) /\
       (gt = true <-> value p > value q) /\ (ge = true <-> value p >= value q)) /\
  (price_eqb p q = true <-> value p = value q /\ valuation p = valuation q) /\
  price_neb p q = negb (price_eqb p q).
Proof.
  unfold price_le, price_ge, price_lt, price_gt, with_equal_currencies, price_eqb, price_neb. rewrite ccy_neb_eqb. split; [|split; [|split]].
  - intros H. destruct (ccy_eqb _ _) eqn:E; [apply ccy_eqb_eq in E; congruence|]. cbn. auto.
  - intros H. apply ccy_eqb_eq in H. rewrite H. cbn.
    exists (value p <? value q), ((value p <? value q) || (value p =? value q)), (value p >? value q),
           ((value p >? value q) || (value p =? value q)).
    rewrite !andb_true_r. split; [reflexivity|]. split; [destruct (value p <? value q); reflexivity|]. split; [reflexivity|].
    split; [destruct (value p >? value q); reflexivity|]. split; [lia|]. split; [lia|]. split; lia.
  - rewrite andb_true_iff, Z.eqb_eq, ccy_eqb_eq. tauto.
  - now rewrite negb_andb.
Qed.

Lemma in_i64_iff x : in_i64 x = true <-> i64 x.
Proof. unfold in_i64, i64. lia. Qed.
Lemma s64_id x : i64 x -> s64 x = x.
Proof.
  unfold i64, s64. intros H. unfold W64. change (2 ^ 64) with (2 * 2 ^ 63).
  destruct (Z.le_gt_cases 0 x).
  - rewrite Z.mod_small by lia. destruct (Z.ltb_spec x (2 ^ 63)); lia.
  - rewrite <- (Z.mod_add x 1) by lia. rewrite Z.mod_small by lia. destruct (Z.ltb_spec (x + 1 * (2 * 2 ^ 63)) (2 ^ 63)); lia.
Qed.

Lemma quote_order x y : wf_quote x -> wf_quote y -> lot x = lot y -> scalable x -> scalable y ->
  valuation (q_price x) = valuation (q_price y) ->
  exists eq ne lt le gt ge,
    quote_eq x y = Ret eq /\ quote_ne x y = Ret ne /\ quote_lt x y = Ret lt /\ quote_le x y = Ret le /\
    quote_gt x y = Ret gt /\ quote_ge x y = Ret ge /\
    let a := value (q_price x) in let b := value (q_price y) in
    (eq = true <-> a = b) /\ (ne = true <-> a <> b) /\ (lt = true <-> a < b) /\ (le = true <-> a <= b) /\
    (gt = true <-> a > b) /\ (ge = true <-> a >= b).
Proof.
  intros [_ Hx] [_ Hy] Hl Sx Sy Hc.
  unfold quote_eq, quote_ne, quote_lt, quote_le, quote_gt, quote_ge, with_equal_lot, scaled.
  rewrite Hl, Z.eqb_refl. unfold price_times_lot, checked. rewrite (proj2 (in_i64_iff _) Sy). cbn [bind].
  set (p := lot_times_price (lot y) (q_price x)). set (q := mk_price (value (q_price y) * lot y) (valuation (q_price y))).
  assert (Hp : value p = value (q_price x) * lot y). { cbn. apply s64_id. rewrite <- Hl. exact Sx. }
  assert (Hv : valuation p = valuation q) by (cbn; congruence).
  destruct (price_order p q) as (_ & H2 & H3 & H4).
  destruct (H2 Hv) as (lt & le & gt & ge & E1 & E2 & E3 & E4 & F1 & F2 & F3 & F4).
  exists (price_eqb p q), (price_neb p q), lt, le, gt, ge.
  change (value q) with (value (q_price y) * lot y) in *. rewrite Hp in *.
  repeat match goal with |- _ /\ _ => split end; auto; cbv zeta.
  - rewrite H3. split; [intros [E _]; nia|intros ->; auto].
  - rewrite H4, negb_true_iff. split.
    + intros E Ec. assert (price_eqb p q = true); [|congruence]. apply H3. rewrite Ec. auto.
    + intros E. destruct (price_eqb p q); [|reflexivity]. destruct (proj1 H3 eq_refl). nia.
  - rewrite F1. nia.
  - rewrite F2. nia.
  - rewrite F3. nia.
  - rewrite F4. nia.
Qed.
Lemma quote_lots_checked x y : lot x <> lot y ->
  quote_eq x y = Throw /\ quote_ne x y = Throw /\ quote_lt x y = Throw /\ quote_le x y = Throw /\ quote_gt x y = Throw.
Proof.
  intros H. unfold quote_eq, quote_ne, quote_lt, quote_le, quote_gt, with_equal_lot. destruct (Z.eqb_spec (lot x) (lot y)); [contradiction|auto].
Qed.

Lemma rate_positive n d p : i64 (value p) -> 0 < n -> 0 < d -> 0 <= value p -> value p * n < W64 ->
  i64 (value p * n / d) -> value (rate_times_price n d p) = Z.quot (value p * n) d /\ valuation (rate_times_price n d p) = valuation p.
Proof.
  intros Hv Hn Hd Hp Ho Hr. split; [|reflexivity]. cbn. unfold w64. rewrite (Z.mod_small (value p * n)) by nia. rewrite Z.quot_div_nonneg by nia. now apply s64_id.
Qed.
Lemma rate_integral n p : i64 (value p * n) -> value (rate_times_price n 1 p) = value p * n.
Proof.
  intros H. cbn. rewrite Z.div_1_r. unfold w64, s64. rewrite Z.mod_mod by (vm_compute; congruence).
  exact (s64_id _ H).
Qed.

Definition code_lt (x y : currency) : Prop :=
  c0 x < c0 y \/ (c0 x = c0 y /\ (c1 x < c1 y \/ (c1 x = c1 y /\ c2 x < c2 y))).
Lemma ccy_ltb_iff x y : ccy_ltb x y = true <-> code_lt x y.
Proof.
  unfold ccy_ltb, code_lt.
  destruct (c0 x <? c0 y) eqn:?; [split; [lia|reflexivity]|]. destruct (c0 x >? c0 y) eqn:?; [split; [discriminate|lia]|].
  destruct (c1 x <? c1 y) eqn:?; [split; [lia|reflexivity]|]. destruct (c1 x >? c1 y) eqn:?; [split; [discriminate|lia]|].
  destruct (c2 x <? c2 y) eqn:?; [split; [lia|reflexivity]|]. destruct (c2 x >? c2 y) eqn:?; split; try discriminate; lia.
Qed.
Lemma ccy_ltb_false x y : ccy_ltb x y = false <-> ~ code_lt x y.
Proof. rewrite <- ccy_ltb_iff. destruct (ccy_ltb x y); intuition congruence. Qed.
Lemma ccy_lt_order : forall x y z,
  ccy_ltb x x = false /\ (ccy_ltb x y = true -> ccy_ltb y z = true -> ccy_ltb x z = true) /\
  (ccy_ltb x y = false -> ccy_ltb y x = false -> c0 x = c0 y /\ c1 x = c1 y /\ c2 x = c2 y).
Proof. intros x y z. rewrite !ccy_ltb_iff, !ccy_ltb_false. unfold code_lt. lia. Qed.
Lemma ccy_lt_eq x y : denominator x = denominator y -> ccy_ltb x y = false -> ccy_ltb y x = false -> ccy_eqb x y = true.
Proof. intros Hd H1 H2. destruct (ccy_lt_order x y x) as (_ & _ & H). destruct (H H1 H2) as (? & ? & ?). unfold ccy_eqb. lia. Qed.
Lemma ccy_hash_injective a b c d a' b' c' d' x y :
  new_currency a b c d = Ret x -> new_currency a' b' c' d' = Ret y ->
  (ccy_hash x = ccy_hash y <-> c0 x = c0 y /\ c1 x = c1 y /\ c2 x = c2 y).
Proof.
  unfold new_currency, capital. intros H1 H2.
  destruct (negb _) eqn:E1 in H1; [discriminate|]. destruct (d =? 0); [discriminate|]. injection H1 as <-.
  destruct (negb _) eqn:E2 in H2; [discriminate|]. destruct (d' =? 0); [discriminate|]. injection H2 as <-.
  unfold ccy_hash, w64. cbn.
  rewrite !Z.mod_small; unfold W64; lia.
Qed.

Lemma tk_eqb_eq x y : tk_eqb x y = true <-> x = y.
Proof.
  unfold tk_eqb. rewrite andb_true_iff, !id_eqb_eq. destruct x, y; cbn. split; [intros [-> ->]; reflexivity|intros [= -> ->]; auto].
Qed.
Lemma tk_total : strict_total tk_ltb.
Proof.
  unfold tk_ltb. split; [|split].
  - intros x. rewrite !id_ltb_irrefl. now rewrite andb_false_r.
  - intros x y z. rewrite !orb_true_iff, !andb_true_iff, !id_eqb_eq. intros [H1|[E1 H1]] [H2|[E2 H2]].
    + left. eapply id_ltb_trans; eauto.
    + left. congruence.
    + left. congruence.
    + right. split; [congruence|]. eapply id_ltb_trans; eauto.
  - intros x y. rewrite !orb_true_iff, !andb_true_iff, !id_eqb_eq.
    pose proof (id_trichotomy (t_base x) (t_base y)) as Hb. pose proof (id_trichotomy (t_quote x) (t_quote y)) as Hq.
    destruct x as [xb xq], y as [yb yq]; cbn in *. intuition (subst; auto).
Qed.
Lemma tk_ops x y : tk_neb x y = negb (tk_eqb x y) /\ tk_gtb x y = tk_ltb y x /\
  tk_leb x y = negb (tk_gtb x y) /\ tk_geb x y = negb (tk_ltb x y) /\
  (tk_eqb x y = true <-> x = y) /\ forall f, tk_eqb x y = true -> tk_hash f x = tk_hash f y.
Proof.
  assert (G : tk_gtb x y = tk_ltb y x).
  { unfold tk_gtb, tk_ltb, id_gtb. f_equal. f_equal. destruct (id_eqb (t_base x) (t_base y)) eqn:E.
    - apply id_eqb_eq in E. symmetry. now apply id_eqb_eq.
    - destruct (id_eqb (t_base y) (t_base x)) eqn:E2; [|reflexivity]. apply id_eqb_eq in E2. symmetry in E2. apply id_eqb_eq in E2. congruence. }
  destruct tk_total as (I & T & C).
  assert (L : forall a b, tk_ltb a b || tk_eqb a b = negb (tk_ltb b a)).
  { intros a b. destruct (tk_ltb b a) eqn:E; cbn.
    - apply orb_false_iff. split.
      + destruct (tk_ltb a b) eqn:E2; [|reflexivity]. specialize (T _ _ _ E E2). rewrite I in T. discriminate.
      + destruct (tk_eqb a b) eqn:E2; [|reflexivity]. apply tk_eqb_eq in E2. subst. rewrite I in E. discriminate.
    - destruct (C a b) as [->|[->|H]]; [reflexivity| |congruence]. assert (tk_eqb b b = true) by now apply tk_eqb_eq. rewrite H. apply orb_true_r. }
  split; [unfold tk_neb, tk_eqb; now rewrite negb_andb|]. split; [exact G|]. split; [unfold tk_leb; rewrite L, G; reflexivity|].
  split; [|split; [apply tk_eqb_eq|]].
  - unfold tk_geb. rewrite G.
    assert (E : tk_eqb x y = tk_eqb y x).
    { destruct (tk_eqb y x) eqn:E; [apply tk_eqb_eq in E; apply tk_eqb_eq; congruence|].
      destruct (tk_eqb x y) eqn:E2; [|reflexivity]. apply tk_eqb_eq in E2. subst. assert (tk_eqb y y = true) by now apply tk_eqb_eq. congruence. }
    rewrite E. apply L.
  - intros f H. apply tk_eqb_eq in H. now subst.
Qed.

(** *** Message codes. *)
Lemma lor_mask x : 0 <= x < 2 ^ 63 -> Z.lor (2 ^ 63) x = 2 ^ 63 + x.
Proof.
  intros H. rewrite <- Z.lxor_lor. rewrite <- Z.add_nocarry_lxor. reflexivity.
  all: apply Z.bits_inj'; intros n Hn; rewrite Z.land_spec, Z.bits_0, Z.pow2_bits_eqb by lia;
    destruct (Z.eqb_spec 63 n) as [<-|]; cbn [andb]; try reflexivity;
    destruct (Z.eq_dec x 0) as [->|]; [reflexivity|]; apply Z.bits_above_log2; [lia|]; apply Z.log2_lt_pow2; lia.
Qed.
Lemma land_mask x : 0 <= x < W64 -> Z.land (2 ^ 63) x = if x <? 2 ^ 63 then 0 else 2 ^ 63.
Proof.
  intros H. apply Z.bits_inj'. intros n Hn. rewrite Z.land_spec, Z.pow2_bits_eqb by lia.
  destruct (Z.eqb_spec 63 n) as [<-|Hne].
  - cbn [andb]. destruct (Z.ltb_spec x (2 ^ 63)).
    + rewrite Z.bits_0. destruct (Z.eq_dec x 0) as [->|]; [reflexivity|]. apply Z.bits_above_log2; [lia|]. apply Z.log2_lt_pow2; lia.
    + rewrite Z.pow2_bits_true by lia. rewrite Z.testbit_true by lia.
      replace x with ((x - 2 ^ 63) + 1 * 2 ^ 63) by lia. rewrite Z.div_add by lia. rewrite Z.div_small by (unfold W64 in H; lia). reflexivity.
  - cbn [andb]. destruct (x <? 2 ^ 63); [now rewrite Z.bits_0|]. rewrite Z.pow2_bits_eqb by lia. now destruct (Z.eqb_spec 63 n).
Qed.
Lemma offset_mask : Z.lxor (W64 - 1) message_mask = Z.ones 63.
Proof. reflexivity. Qed.
Lemma message_codes offset : 0 <= offset < 2 ^ 63 ->
  exists code, library_message_code offset = Some code /\ 2 ^ 63 <= code < W64 /\ library_message_offset code = Some offset /\
  (forall user, 0 <= user < 2 ^ 63 -> user <> code /\ library_message_offset user = None).
Proof.
  intros H. unfold library_message_code, library_message_offset. change message_mask with (2 ^ 63) in *.
  destruct (2 ^ 63 >=? offset) eqn:E; [|lia]. exists (2 ^ 63 + offset). rewrite lor_mask by assumption. split; [reflexivity|].
  assert (HC : 2 ^ 63 <= 2 ^ 63 + offset < W64) by (unfold W64; lia). split; [exact HC|]. split.
  - rewrite land_mask by lia. destruct (Z.ltb_spec (2 ^ 63 + offset) (2 ^ 63)); [lia|]. cbn [Z.eqb negb].
    change (negb (2 ^ 63 =? 0)) with true. cbn iota. f_equal. change (Z.lxor (W64 - 1) (2 ^ 63)) with (Z.ones 63). rewrite Z.land_comm, Z.land_ones by lia.
    replace (2 ^ 63 + offset) with (offset + 1 * 2 ^ 63) by lia. rewrite Z.mod_add by lia. now apply Z.mod_small.
  - intros user Hu. split; [lia|]. rewrite land_mask by (unfold W64; lia). destruct (Z.ltb_spec user (2 ^ 63)); [reflexivity|lia].
Qed.
Lemma message_codes_onto code : 2 ^ 63 <= code < W64 -> exists offset, 0 <= offset < 2 ^ 63 /\ library_message_code offset = Some code.
Proof.
  intros H. exists (code - 2 ^ 63). unfold W64 in H. split; [lia|]. unfold library_message_code. change message_mask with (2 ^ 63).
  destruct (2 ^ 63 >=? code - 2 ^ 63) eqn:E; [|lia]. rewrite lor_mask by lia. f_equal. lia.
Qed.

(** *** Archives. *)
Lemma currency_archive c rest : load_currency (save_currency c ++ rest) = Ret (c, rest).
Proof. now destruct c. Qed.
Lemma s32_id x : - 2 ^ 31 <= x < 2 ^ 31 -> s32 x = x.
Proof.
  unfold s32. intros H. unfold W32. change (2 ^ 32) with (2 * 2 ^ 31).
  destruct (Z.le_gt_cases 0 x).
  - rewrite Z.mod_small by lia. destruct (Z.ltb_spec x (2 ^ 31)); lia.
  - rewrite <- (Z.mod_add x 1) by lia. rewrite Z.mod_small by lia. destruct (Z.ltb_spec (x + 1 * (2 * 2 ^ 31)) (2 ^ 31)); lia.
Qed.
Lemma rational_archive n d rest : - 2 ^ 31 <= n < 2 ^ 31 -> 0 < d < 2 ^ 31 -> Z.gcd n d = 1 ->
  load_rational (save_rational (n, d) ++ rest) = Ret ((n, d), rest).
Proof.
  intros Hn Hd Hg. unfold save_rational, load_rational. cbn [fst snd app]. rewrite !s32_id by lia.
  destruct (Z.eqb_spec d 0); [lia|]. rewrite Hg, Z.sgn_pos by lia. rewrite !Z.div_1_r, !Z.mul_1_l. reflexivity.
Qed.
Lemma quote_archive_keeps_target q t rest : load_quote t (save_quote q ++ rest) = Ret (mk_quote (lot q) (q_price t), save_price (q_price q) ++ rest).
Proof. reflexivity. Qed.

(** A negative price with a non-zero exact result and d >= 2 always gives a wrong, non-negative, result. *)
Lemma rate_negative n d p : 0 < n -> 2 <= d < W64 -> - W64 <= value p * n <= - d ->
  0 <= value (rate_times_price n d p) /\ Z.quot (value p * n) d < 0.
Proof.
  intros Hn Hd Hp. split.
  - cbn. assert (0 <= w64 (value p * n) / d < 2 ^ 63).
    { assert (0 <= w64 (value p * n) < W64) by (unfold w64; apply Z.mod_pos_bound; reflexivity).
      split; [apply Z.div_pos; lia|]. apply Z.div_lt_upper_bound; [lia|]. unfold W64 in *. nia. }
    rewrite s64_id; unfold i64; lia.
  - replace (value p * n) with (- (- (value p * n))) by lia. rewrite Z.quot_opp_l by lia.
    assert (1 <= Z.quot (- (value p * n)) d); [|lia]. rewrite Z.quot_div_nonneg by lia. apply Z.div_le_lower_bound; lia.
Qed.
Lemma ccy_collide a b c d d' x y : d <> d' -> new_currency a b c d = Ret x -> new_currency a b c d' = Ret y ->
  ccy_ltb x y = false /\ ccy_ltb y x = false /\ ccy_eqb x y = false.
Proof.
  unfold new_currency. intros Hd H1 H2. destruct (negb _); [discriminate|]. destruct (d =? 0); [discriminate|]. destruct (d' =? 0); [discriminate|].
  injection H1 as <-. injection H2 as <-. rewrite !ccy_ltb_false. unfold code_lt, ccy_eqb. cbn. lia.
Qed.
