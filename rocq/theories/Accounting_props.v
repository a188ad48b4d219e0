From Verif Require Import Base Identity Identity_proofs IdMap IdMap_proofs Money Money_spec Money_proofs Accounting Accounting_spec Accounting_proofs.
From Coq Require Import ZifyBool ZifyNat.

Definition usd_ : currency := mk_currency 85 83 68 100.
Definition jpy_ : currency := mk_currency 74 80 89 1.
Definition acme : identity := [3].
(** Dollars are reported; one yen is two thirds of a cent. *)
Definition demo_standard : standard := mk_standard usd_ [(jpy_, (2, 3)); (usd_, (1, 1))] [(acme, mk_quote 10 (mk_price 1234 usd_)); ([4], mk_quote 1 (mk_price 500 jpy_))].
(** * C115 *)
(** Money in the reporting currency is worth its amount. *)
Theorem C115_reporting s q : 0 <= q < 2 ^ 63 -> value_money s (reporting s) q = Ret (mk_price q (reporting s)).
Proof.
  intros Q. unfold value_money. rewrite (proj2 (ccy_eqb_eq _ _) eq_refl). now rewrite s64_small.
Qed.
Print Assumptions C115_reporting.
(** An exception for exactly those currencies, other than the reporting one, without a rate for their code. *)
Theorem C115_exception s c q : value_money s c q = Throw <-> c <> reporting s /\ forall k r, In (k, r) (foreign s) -> ~ same_code k c.
Proof.
  unfold value_money. destruct (ccy_eqb c (reporting s)) eqn:E.
  - apply ccy_eqb_eq in E. split; [discriminate|]. intros [H _]. contradiction.
  - assert (N : c <> reporting s) by (intros H; apply ccy_eqb_eq in H; congruence).
    rewrite <- rate_of_none. destruct (rate_of c (foreign s)) as [[n d]|]; [split; [discriminate|intros [_ H]; discriminate]|]. tauto.
Qed.
Print Assumptions C115_exception.
(** Foreign money is converted, but is said to be in the foreign currency. *)
Theorem C115_label_refuted s c q p : c <> reporting s -> value_money s c q = Ret p -> valuation p = c /\ valuation p <> reporting s.
Proof.
  intros N. unfold value_money. destruct (ccy_eqb c (reporting s)) eqn:E; [apply ccy_eqb_eq in E; contradiction|].
  destruct (rate_of c (foreign s)) as [[n d]|]; [|discriminate]. intros H. injection H as <-. cbn. auto.
Qed.
Print Assumptions C115_label_refuted.
Theorem C115_amount s c q k n d : c <> reporting s -> NoDup (map (fun kr => (c0 (fst kr), c1 (fst kr), c2 (fst kr))) (foreign s)) ->
  In (k, (n, d)) (foreign s) -> same_code k c ->
  0 < n -> 0 < d -> 0 <= q < 2 ^ 63 -> q * n < W64 -> q * n / d < 2 ^ 63 ->
  exists p, value_money s c q = Ret p /\ value p = q * n / d.
Proof.
  intros N ND I K Hn Hd Q M R. unfold value_money. destruct (ccy_eqb c (reporting s)) eqn:E; [apply ccy_eqb_eq in E; contradiction|].
  assert (F : rate_of c (foreign s) = Some (n, d)).
  { clear -ND I K. induction (foreign s) as [|[k' r] m IH]; [destruct I|]. cbn. cbn in ND. inversion ND as [|? ? N1 N2]; subst. destruct I as [I|I].
    - injection I as -> ->. now rewrite (proj2 (equivalent_code _ _) K).
    - destruct (equivalent k' c) eqn:E; [|auto]. apply equivalent_code in E. exfalso. apply N1. apply in_map_iff. exists (k, (n, d)). split; [|exact I].
      cbn [fst]. destruct K as (-> & -> & ->), E as (-> & -> & ->). reflexivity. }
  rewrite F. rewrite s64_small by exact Q. eexists. split; [reflexivity|]. cbn. unfold w64. rewrite Z.mod_small by lia. apply s64_small.
  split; [apply Z.div_pos; lia|exact R].
Qed.
Print Assumptions C115_amount.
(** Large amounts count as debts. *)
Theorem C115_large_refuted s q : 2 ^ 63 <= q < W64 -> exists p, value_money s (reporting s) q = Ret p /\ value p < 0.
Proof.
  intros Q. unfold value_money. rewrite (proj2 (ccy_eqb_eq _ _) eq_refl). eexists. split; [reflexivity|]. cbn [value].
  unfold s64. change W64 with (2 ^ 64) in *. rewrite Z.mod_small by lia. destruct (q <? 2 ^ 63) eqn:E; lia.
Qed.
Print Assumptions C115_large_refuted.
Example C115_applies : value_money demo_standard jpy_ 1000 = Ret (mk_price 666 jpy_) /\ value_money demo_standard (mk_currency 69 85 82 100) 5 = Throw
  /\ value_money demo_standard usd_ 5 = Ret (mk_price 5 usd_).
Proof. repeat split. Qed.

(** A new standard knows the reporting currency only: money with its code keeps its amount, all other money is an exception. *)
Theorem C115_new c d q : 0 <= q < 2 ^ 63 -> (same_code c d -> value_money (new_standard c) d q = Ret (mk_price q d)) /\ (~ same_code c d -> value_money (new_standard c) d q = Throw).
Proof.
  intros Q. split.
  - intros S. unfold value_money. cbn [reporting foreign new_standard rate_of]. rewrite (proj2 (equivalent_code c d) S). rewrite s64_small by exact Q.
    destruct (ccy_eqb d c); [reflexivity|]. unfold rate_times_price. cbn [value valuation]. do 2 f_equal. rewrite Z.mul_1_r, Z.div_1_r. unfold w64. change W64 with (2 ^ 64). rewrite Z.mod_small by lia. now apply s64_small.
  - intros S. apply C115_exception. split; [intros ->; apply S; now repeat split|]. intros k r [H|[]]. injection H as <- _. exact S.
Qed.
Print Assumptions C115_new.

(** * C116 *)
(** A position is worth the price per lot times the quantity, over the lot, rounded down. *)
Theorem C116_position s k q x : im_find k (market s) = Some x -> 0 <= value (q_price x) -> 0 < lot x -> 0 <= q ->
  value (q_price x) * q < W64 -> value (q_price x) * q / lot x < 2 ^ 63 ->
  value_stock s k q = Ret (mk_price (value (q_price x) * q / lot x) (valuation (q_price x))).
Proof.
  intros F P L Q M R. unfold value_stock. rewrite F. unfold w64. assert (0 <= value (q_price x) * q) by nia. rewrite Z.mod_small by lia.
  rewrite s64_small; [reflexivity|]. split; [apply Z.div_pos; lia|exact R].
Qed.
Print Assumptions C116_position.
Theorem C116_exception s k q : value_stock s k q = Throw <-> im_find k (market s) = None.
Proof. unfold value_stock. destruct (im_find k (market s)); split; congruence. Qed.
Print Assumptions C116_exception.
(** At a lot of one negative prices are fine. *)
Theorem C116_unit_lot s k q x : im_find k (market s) = Some x -> lot x = 1 -> i64 (value (q_price x) * q) ->
  value_stock s k q = Ret (mk_price (value (q_price x) * q) (valuation (q_price x))).
Proof.
  intros F L R. unfold value_stock. rewrite F, L, Z.div_1_r. f_equal. f_equal. unfold w64, s64. rewrite Z.mod_mod by (now vm_compute). now apply s64_id.
Qed.
Print Assumptions C116_unit_lot.
(** At any other lot, and not too negative prices, the value is positive. *)
Theorem C116_negative_refuted s k q x : im_find k (market s) = Some x -> 2 <= lot x < W32 -> - W32 < value (q_price x) * q < 0 ->
  exists p, value_stock s k q = Ret p /\ 0 < value p.
Proof.
  intros F L N. unfold value_stock. rewrite F. eexists. split; [reflexivity|]. cbn [value].
  set (v := value (q_price x) * q) in *. assert (E : w64 v = v + W64).
  { unfold w64. change W32 with (2 ^ 32) in *. change W64 with (2 ^ 64). symmetry. apply Z.mod_unique_pos with (q := -1); lia. }
  rewrite E. change W32 with (2 ^ 32) in *. change W64 with (2 ^ 64).
  assert (B : 2 ^ 31 <= (v + 2 ^ 64) / lot x < 2 ^ 63).
  { split; [apply Z.div_le_lower_bound; nia|apply Z.div_lt_upper_bound; nia]. }
  rewrite s64_small; lia.
Qed.
Print Assumptions C116_negative_refuted.
(** It is never converted. *)
Theorem C116_not_converted_refuted s k q p x : im_find k (market s) = Some x -> valuation (q_price x) <> reporting s -> value_stock s k q = Ret p ->
  valuation p = valuation (q_price x) /\ valuation p <> reporting s.
Proof. intros F N H. unfold value_stock in H. rewrite F in H. injection H as <-. auto. Qed.
Print Assumptions C116_not_converted_refuted.
Example C116_applies : value_stock demo_standard acme 25 = Ret (mk_price 3085 usd_) /\ value_stock demo_standard [4] 2 = Ret (mk_price 1000 jpy_)
  /\ value_stock (mk_standard usd_ [] [(acme, mk_quote 10 (mk_price (-100) usd_))]) acme 2 = Ret (mk_price 1844674407370955141 usd_).
Proof. repeat split. Qed.

(** * C117 *)
(** A short position is worth the opposite of the long one, whatever overflows. *)
Theorem C117_opposite s k q size x v : im_find k (market s) = Some x -> valuation (q_price x) = reporting s ->
  value_stock s k (w64 (size * q)) = Ret v -> value v <> - 2 ^ 63 ->
  value_lending s k size q = Ret (mk_price (- value v) (reporting s)).
Proof.
  intros F V H N. unfold value_stock in H. unfold value_lending. rewrite F in *. injection H as <-. cbn [value] in *.
  assert (E : w64 (value (q_price x) * size * q) = w64 (value (q_price x) * w64 (size * q))).
  { unfold w64. rewrite Z.mul_mod_idemp_r by (now vm_compute). f_equal. lia. }
  rewrite E in *. set (u := s64 (w64 (value (q_price x) * w64 (size * q)) / lot x)) in *.
  assert (R : i64 u) by (apply s64_range). assert (G : in_i64 (0 - u) = true) by (unfold in_i64, i64 in *; lia). rewrite G. reflexivity.
Qed.
Print Assumptions C117_opposite.
(** The number is not converted, but said to be in the reporting currency. *)
Theorem C117_currency_refuted s k q x : im_find k (market s) = Some x -> valuation (q_price x) <> reporting s ->
  0 <= value (q_price x) -> 0 < lot x -> 0 <= q -> value (q_price x) * q < 2 ^ 63 ->
  exists v p, value_stock s k q = Ret v /\ value_lending s k 1 q = Ret p /\ value p = - value v /\ valuation v <> valuation p /\ valuation p = reporting s.
Proof.
  intros F V P L Q M. unfold value_stock, value_lending. rewrite F, Z.mul_1_r. set (y := value (q_price x) * q) in *. assert (0 <= y) by (unfold y; nia).
  assert (y / lot x <= y) by (apply Z.div_le_upper_bound; nia). assert (0 <= y / lot x) by (apply Z.div_pos; lia).
  assert (E : s64 (w64 y / lot x) = y / lot x). { unfold w64. rewrite Z.mod_small by (change W64 with (2 ^ 64); lia). apply s64_small. lia. }
  rewrite E. assert (G : in_i64 (0 - y / lot x) = true) by (unfold in_i64; lia). rewrite G. eexists _, _. split; [reflexivity|]. split; [reflexivity|].
  cbn. split; [lia|]. auto.
Qed.
Print Assumptions C117_currency_refuted.
Theorem C117_exception s k size q : value_lending s k size q = Throw <-> im_find k (market s) = None.
Proof.
  unfold value_lending. destruct (im_find k (market s)) as [x|]; [|split; auto].
  destruct (in_i64 (0 - s64 (w64 (value (q_price x) * size * q) / lot x))); split; discriminate.
Qed.
Print Assumptions C117_exception.
Example C117_applies : value_lending demo_standard acme 5 5 = Ret (mk_price (-3085) usd_) /\ value_lending demo_standard [4] 1 2 = Ret (mk_price (-1000) usd_).
Proof. split; reflexivity. Qed.

(** * C118 *)
(** A loan of [q] units of the currency is a debt of that, in subunits. *)
Theorem C118_loan s q : 0 <= q -> 0 < denominator (reporting s) -> q * denominator (reporting s) <= 2 ^ 63 -> q < 2 ^ 63 ->
  value_loan s q = Ret (mk_price (- (q * denominator (reporting s))) (reporting s)).
Proof.
  intros Q D M R. unfold value_loan. rewrite (s64_small q) by lia. destruct (q =? - 2 ^ 63) eqn:E; [lia|]. f_equal. f_equal.
  rewrite s64_id; [lia|]. unfold i64. nia.
Qed.
Print Assumptions C118_loan.
(** Beyond that it can be an asset. *)
Theorem C118_large_refuted s q : 2 ^ 63 < q * denominator (reporting s) < W64 -> 0 <= q < 2 ^ 63 -> exists p, value_loan s q = Ret p /\ 0 < value p.
Proof.
  intros M Q. unfold value_loan. rewrite (s64_small q) by lia. destruct (q =? - 2 ^ 63) eqn:E; [lia|]. eexists. split; [reflexivity|]. cbn [value].
  unfold s64. change W64 with (2 ^ 64) in *. replace (- q * denominator (reporting s)) with (- (q * denominator (reporting s))) by lia.
  set (y := q * denominator (reporting s)) in *. assert (H : (- y) mod 2 ^ 64 = 2 ^ 64 - y) by (symmetry; apply Z.mod_unique_pos with (q := -1); lia).
  rewrite H. destruct (2 ^ 64 - y <? 2 ^ 63) eqn:F; lia.
Qed.
Print Assumptions C118_large_refuted.
(** The amount 2^63 cannot be negated. *)
Theorem C118_least_refuted s q : 0 <= q < W64 -> (value_loan s q = UB <-> q = 2 ^ 63).
Proof.
  intros Q. assert (E : s64 q = - 2 ^ 63 <-> q = 2 ^ 63).
  { unfold s64. change W64 with (2 ^ 64) in *. rewrite Z.mod_small by lia. destruct (q <? 2 ^ 63) eqn:F; lia. }
  rewrite <- E. unfold value_loan. destruct (s64 q =? - 2 ^ 63) eqn:F; split; try reflexivity; try discriminate; lia.
Qed.
Print Assumptions C118_least_refuted.
Example C118_applies : value_loan demo_standard 12 = Ret (mk_price (-1200) usd_) /\ value_loan demo_standard (2 ^ 57) = Ret (mk_price 4035225266123964416 usd_)
  /\ 2 ^ 63 < 2 ^ 57 * 100 < W64.
Proof. split; [reflexivity|]. split; [reflexivity|]. now vm_compute. Qed.

(** * C119 *)
(** Nothing an owner has is on the balance sheet. *)
Theorem C119_assets_refuted s k q v : value_stock s k q = Ret v -> 0 < value v -> valuation v = reporting s ->
  assets s [(k, q)] <> v /\ forall inventory, assets s inventory = assets s [].
Proof. intros _ H _. split; [|reflexivity]. intros E. unfold assets in E. rewrite <- E in H. cbn in H. lia. Qed.
Print Assumptions C119_assets_refuted.
Example C119_applies : value_stock demo_standard acme 25 = Ret (mk_price 3085 usd_) /\ assets demo_standard [(acme, 25)] = mk_price 0 usd_.
Proof. split; reflexivity. Qed.
