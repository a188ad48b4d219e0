(** Lemmas about check digits. *)
From Coq Require Import ZifyBool ZifyNat.
From Verif Require Import Base Algorithms Algorithms_proofs Identity CheckDigits CheckDigits_spec.
Ltac Zify.zify_post_hook ::= Z.div_mod_to_equations.

Lemma position_absent c table : Forall (fun x => x <> c) table -> position c table = None.
Proof. induction 1 as [|x l H _ IH]; [reflexivity|]. cbn [position]. apply Z.eqb_neq in H. now rewrite H, IH. Qed.
Definition ascii_codes : list Z := map Z.of_nat (seq 0 128).
Lemma ascii_or_not c : In c ascii_codes \/ c < 0 \/ 128 <= c.
Proof.
  destruct (Z.ltb_spec c 0); [auto|]. destruct (Z.leb_spec 128 c); [auto|]. left. apply in_map_iff.
  exists (Z.to_nat c). split; [lia|]. apply in_seq. lia.
Qed.
Lemma place_absent table c : c < 0 \/ 128 <= c -> Forall (fun x => 0 <= x < 128) table -> place table c = 0.
Proof.
  intros Hc H. unfold place. assert (capital c = c) as -> by (unfold capital; destruct (Z.leb_spec 97 c), (Z.leb_spec c 122); cbn; lia).
  rewrite position_absent; [reflexivity|]. eapply Forall_impl; [|exact H]. cbn. intros; lia.
Qed.
Lemma place_symbols c : place symbols c = symbol_value c.
Proof.
  destruct (ascii_or_not c) as [H|H].
  - assert (A : forallb (fun c => place symbols c =? symbol_value c) ascii_codes = true) by (vm_compute; reflexivity).
    apply Z.eqb_eq. exact (proj1 (forallb_forall _ _) A c H).
  - rewrite place_absent; [|exact H|vm_compute; repeat (constructor; [split; [discriminate|reflexivity]|]); constructor].
    unfold symbol_value, is_digit_char, is_lower, is_upper.
    destruct (Z.leb_spec 48 c), (Z.leb_spec c 57), (Z.leb_spec 97 c), (Z.leb_spec c 122), (Z.leb_spec 65 c), (Z.leb_spec c 90); cbn; lia.
Qed.
Lemma place_cusip c : place cusip_symbols c = cusip_value c.
Proof.
  destruct (ascii_or_not c) as [H|H].
  - assert (A : forallb (fun c => place cusip_symbols c =? cusip_value c) ascii_codes = true) by (vm_compute; reflexivity).
    apply Z.eqb_eq. exact (proj1 (forallb_forall _ _) A c H).
  - rewrite place_absent; [|exact H|vm_compute; repeat (constructor; [split; [discriminate|reflexivity]|]); constructor].
    unfold cusip_value, symbol_value, is_digit_char, is_lower, is_upper.
    destruct (Z.eqb_spec c 42), (Z.eqb_spec c 64), (Z.eqb_spec c 35), (Z.leb_spec 48 c), (Z.leb_spec c 57), (Z.leb_spec 97 c), (Z.leb_spec c 122), (Z.leb_spec 65 c), (Z.leb_spec c 90); cbn; lia.
Qed.
Lemma symbol_value_range c : 0 <= symbol_value c <= 35.
Proof.
  unfold symbol_value, is_digit_char, is_lower, is_upper.
  destruct (Z.leb_spec 48 c), (Z.leb_spec c 57), (Z.leb_spec 97 c), (Z.leb_spec c 122), (Z.leb_spec 65 c), (Z.leb_spec c 90); cbn; lia.
Qed.
Lemma symbol_value_digit c : digit_char c -> symbol_value c = c - 48.
Proof.
  unfold digit_char, symbol_value, is_digit_char. intros H.
  destruct (Z.leb_spec 48 c), (Z.leb_spec c 57); cbn; lia.
Qed.
Lemma cusip_value_range c : 0 <= cusip_value c <= 38.
Proof.
  unfold cusip_value. pose proof (symbol_value_range c).
  destruct (Z.eqb_spec c 42); [lia|]. destruct (Z.eqb_spec c 64); [lia|]. destruct (Z.eqb_spec c 35); lia.
Qed.
Lemma cusip_value_digit c : digit_char c -> cusip_value c = c - 48.
Proof.
  intros H. unfold cusip_value. rewrite (symbol_value_digit c H). unfold digit_char in H.
  destruct (Z.eqb_spec c 42); [lia|]. destruct (Z.eqb_spec c 64); [lia|]. destruct (Z.eqb_spec c 35); lia.
Qed.

(** * ISIN *)
Definition digits_of (c : Z) : list Z :=
  let n := symbol_value c in if n / 10 =? 0 then [n mod 10] else [n / 10; n mod 10].
Lemma digits_of_expand c : digits_of c = expand_char c.
Proof.
  unfold digits_of, expand_char. rewrite place_symbols. pose proof (symbol_value_range c). cbv zeta.
  destruct (Z.eqb_spec (symbol_value c / 10) 0), (Z.ltb_spec (symbol_value c) 10); try lia; [f_equal; lia|reflexivity].
Qed.
Lemma expand_char_digits c : Forall digit (expand_char c).
Proof.
  unfold expand_char. rewrite place_symbols. pose proof (symbol_value_range c). unfold digit.
  destruct (Z.ltb_spec (symbol_value c) 10); repeat constructor; lia.
Qed.
Lemma expand_digits l : Forall digit (expand l).
Proof. induction l as [|c l IH]; cbn; [constructor|]. apply Forall_app. split; [apply expand_char_digits|exact IH]. Qed.
Lemma expand_app a b : expand (a ++ b) = expand a ++ expand b.
Proof. unfold expand. induction a as [|c a IH]; cbn; [reflexivity|]. rewrite IH. apply app_assoc. Qed.
Lemma expand_length l : (length (expand l) <= 2 * length l)%nat.
Proof.
  induction l as [|c l IH]; [cbn; lia|]. change (expand (c :: l)) with (expand_char c ++ expand l). rewrite app_length.
  cbn [length]. assert (length (expand_char c) <= 2)%nat by (unfold expand_char; rewrite place_symbols; destruct (symbol_value c <? 10); cbn; lia). lia.
Qed.
Lemma isin_symbol_digits s c : isin_symbol s c = fold_left isin_digit (expand_char c) s.
Proof.
  rewrite <- digits_of_expand. unfold isin_symbol, digits_of. cbv zeta.
  destruct (symbol_value c / 10 =? 0); reflexivity.
Qed.
Lemma isin_symbols_digits l : forall s, fold_left isin_symbol l s = fold_left isin_digit (expand l) s.
Proof.
  induction l as [|c l IH]; intros s; cbn; [reflexivity|].
  rewrite IH, isin_symbol_digits, fold_left_app. reflexivity.
Qed.

(** Sums of every second element, from the first (right end) and from the second. *)
Fixpoint same (r : list Z) : Z := match r with [] => 0 | x :: r' => x + match r' with [] => 0 | _ :: r'' => same r'' end end.
Definition other (r : list Z) : Z := match r with [] => 0 | _ :: r' => same r' end.
Lemma same_cons x r : same (x :: r) = x + other r.
Proof. destruct r; reflexivity. Qed.
Lemma other_cons x r : other (x :: r) = same r.
Proof. reflexivity. Qed.
Definition corr (x : Z) : Z := if x <? 5 then 0 else -9.
Lemma difference_corr x : digit x -> difference x = w64 (corr x).
Proof.
  unfold digit, difference, corr, w64. intros H.
  assert (C : x = 0 \/ x = 1 \/ x = 2 \/ x = 3 \/ x = 4 \/ x = 5 \/ x = 6 \/ x = 7 \/ x = 8 \/ x = 9) by lia.
  destruct C as [->|[->|[->|[->|[->|[->|[->|[->|[-> | ->]]]]]]]]]; vm_compute; reflexivity.
Qed.
Lemma w64_add a b : w64 (w64 a + w64 b) = w64 (a + b).
Proof. unfold w64. symmetry. apply Zplus_mod. Qed.
Lemma w64_add_l a b : w64 (w64 a + b) = w64 (a + b).
Proof. unfold w64. apply Zplus_mod_idemp_l. Qed.
Lemma w64_small a : 0 <= a < 2 ^ 64 -> w64 a = a.
Proof. unfold w64. apply Z.mod_small. Qed.

Lemma w64_chain a b c : w64 (w64 (w64 (w64 a * 2) + w64 b) + w64 c) = w64 (a * 2 + b + c).
Proof. unfold w64. rewrite Zmult_mod_idemp_l, <- (Zplus_mod (a * 2) b), <- Zplus_mod. reflexivity. Qed.

Lemma isin_loop l : Forall digit l ->
  let s := fold_left isin_digit l (mk_isin false 0 0 0 0) in
  let r := rev l in
  (parity s = true -> pair1 s = w64 (same r) /\ carry1 s = w64 (same (map corr r)) /\ pair0 s = w64 (other r) /\ carry0 s = w64 (other (map corr r))) /\
  (parity s = false -> pair0 s = w64 (same r) /\ carry0 s = w64 (same (map corr r)) /\ pair1 s = w64 (other r) /\ carry1 s = w64 (other (map corr r))).
Proof.
  induction l as [|x l IH] using rev_ind; cbv zeta.
  - intros _. cbn. split; intros; repeat split; reflexivity.
  - intros H. apply Forall_app in H. destruct H as [Hl Hx]. apply Forall_inv in Hx.
    specialize (IH Hl). cbv zeta in IH.
    rewrite fold_left_app. cbn [fold_left]. rewrite rev_app_distr. cbn [rev app].
    destruct (fold_left isin_digit l (mk_isin false 0 0 0 0)) as [p p0 p1 c0 c1].
    cbn [parity pair0 pair1 carry0 carry1] in IH. destruct IH as [IHt IHf].
    unfold isin_digit. cbn [parity pair0 pair1 carry0 carry1].
    cbn [map]. rewrite !same_cons, !other_cons, (difference_corr x Hx).
    destruct p; cbn [parity pair0 pair1 carry0 carry1].
    + destruct (IHt eq_refl) as (-> & -> & -> & ->). split; [discriminate|]. intros _.
      rewrite w64_add_l, w64_add. repeat split; f_equal; lia.
    + destruct (IHf eq_refl) as (-> & -> & -> & ->). split; [|discriminate]. intros _.
      rewrite w64_add_l, w64_add. repeat split; f_equal; lia.
Qed.
Lemma same_luhn r : Forall digit r -> same r * 2 + same (map corr r) + other r = luhn_sum true r
  /\ other r * 2 + other (map corr r) + same r = luhn_sum false r.
Proof.
  induction r as [|x r IH]; intros H; [split; reflexivity|]. inversion H as [|? ? Hx Hr]; subst. specialize (IH Hr).
  cbn [map]. rewrite !same_cons, !other_cons. cbn [luhn_sum negb]. destruct IH as [IH1 IH2].
  rewrite <- IH1, <- IH2. unfold digit in Hx. unfold corr at 1, digit_sum.
  destruct (Z.ltb_spec x 5); split; lia.
Qed.
Lemma luhn_bound r : forall b, Forall digit r -> 0 <= luhn_sum b r <= 9 * Z.of_nat (length r).
Proof.
  induction r as [|x r IH]; intros b H; [cbn; lia|]. inversion H as [|? ? Hx Hr]; subst. specialize (IH (negb b) Hr).
  cbn [luhn_sum length]. unfold digit in Hx. unfold digit_sum. destruct b; lia.
Qed.

Lemma isin_checksum_luhn issuer code : Z.of_nat (length issuer + length code) < 2 ^ 32 ->
  isin_checksum issuer code = 48 + (10 - luhn_sum true (rev (expand (issuer ++ code))) mod 10) mod 10.
Proof.
  intros B. unfold isin_checksum. cbv zeta. rewrite concatenate_spec, isin_symbols_digits.
  set (l := expand (issuer ++ code)).
  assert (D : Forall digit l) by apply expand_digits.
  assert (L : Z.of_nat (length l) < 2 ^ 34) by (unfold l; pose proof (expand_length (issuer ++ code)) as E; rewrite app_length in E; lia).
  pose proof (isin_loop l D) as I. cbv zeta in I.
  pose proof (same_luhn (rev l) (Forall_rev D)) as [S _].
  pose proof (luhn_bound (rev l) true (Forall_rev D)) as LB. rewrite rev_length in LB.
  assert (W : w64 (luhn_sum true (rev l)) = luhn_sum true (rev l)) by (apply w64_small; lia).
  destruct (fold_left isin_digit l (mk_isin false 0 0 0 0)) as [p p0 p1 c0 c1].
  cbn [parity pair0 pair1 carry0 carry1] in *. destruct I as [It If]. destruct p.
  - destruct (It eq_refl) as (-> & -> & -> & ->).
    assert (E : w64 (w64 (other (rev l)) + w64 (w64 (w64 (same (rev l)) * 2) + w64 (same (map corr (rev l))))) = luhn_sum true (rev l)).
    { rewrite <- W, <- S, Z.add_comm. apply w64_chain. }
    rewrite E. reflexivity.
  - destruct (If eq_refl) as (-> & -> & -> & ->).
    assert (E : w64 (w64 (w64 (w64 (same (rev l)) * 2) + w64 (same (map corr (rev l)))) + w64 (other (rev l))) = luhn_sum true (rev l)).
    { rewrite <- W, <- S. apply w64_chain. }
    rewrite E. reflexivity.
Qed.
Lemma luhn_app a : forall b l, luhn_sum b (a ++ l) = luhn_sum b a + luhn_sum (xorb b (Nat.odd (length a))) l.
Proof.
  induction a as [|x a IH]; intros b l; cbn [app luhn_sum length].
  - rewrite xorb_false_r. lia.
  - rewrite IH. rewrite Nat.odd_succ, <- Nat.negb_odd. destruct b, (Nat.odd (length a)); cbn [negb xorb]; lia.
Qed.
Lemma expand_digit_char c : digit_char c -> expand_char c = [c - 48].
Proof.
  intros H. unfold expand_char. rewrite place_symbols. rewrite (symbol_value_digit c H). unfold digit_char in H.
  destruct (Z.ltb_spec (c - 48) 10); [reflexivity|lia].
Qed.
Lemma check_inj a b : (10 - a mod 10) mod 10 = (10 - b mod 10) mod 10 -> a mod 10 = b mod 10.
Proof. lia. Qed.
(** * CUSIP *)
Lemma cusip_sum_from code : forall i acc, 0 <= acc -> acc + 20 * Z.of_nat (length code) < 2 ^ 64 ->
  fold_left (fun sum ic => let v := Z.shiftl (cusip_value (snd ic)) (Z.of_nat (fst ic) mod 2) mod 256 in w64 (sum + (v mod 10 + v / 10)))
    (enumerate_from i code) acc = acc + cusip_total (Nat.odd i) code.
Proof.
  induction code as [|c code IH]; intros i acc Ha Hb; cbn [enumerate_from fold_left cusip_total length] in *; [lia|]; rewrite ?place_cusip.
  cbn [fst snd].
  assert (V : Z.shiftl (cusip_value c) (Z.of_nat i mod 2) mod 256 = if Nat.odd i then 2 * cusip_value c else cusip_value c).
  { pose proof (cusip_value_range c). rewrite Z.shiftl_mul_pow2 by lia.
    assert (M : Z.of_nat i mod 2 = if Nat.odd i then 1 else 0).
    { pose proof (Nat.div_mod_eq i 2). destruct (Nat.odd i) eqn:O.
      - apply Nat.odd_spec in O. destruct O as [k ->]. lia.
      - assert (E : Nat.even i = true) by (rewrite <- Nat.negb_odd, O; reflexivity). apply Nat.even_spec in E. destruct E as [k ->]. lia. }
    rewrite M. destruct (Nat.odd i); cbn [Z.pow Z.pow_pos Pos.iter]; rewrite Z.mod_small; lia. }
  cbv zeta. rewrite V. set (v := if Nat.odd i then 2 * cusip_value c else cusip_value c).
  assert (R : 0 <= v <= 76) by (unfold v; pose proof (cusip_value_range c); destruct (Nat.odd i); lia).
  rewrite w64_small by lia. rewrite IH by lia. rewrite Nat.odd_succ, <- Nat.negb_odd.
  unfold digit_sum at 1. fold v. lia.
Qed.
Lemma cusip_checksum_spec code : length code = 8%nat -> cusip_checksum code = 48 + (10 - cusip_total false code mod 10) mod 10.
Proof.
  intros L. unfold cusip_checksum, cusip_sum, enumerate. rewrite cusip_sum_from by (rewrite ?L; lia). reflexivity.
Qed.
Lemma cusip_total_app a : forall b l, cusip_total b (a ++ l) = cusip_total b a + cusip_total (xorb b (Nat.odd (length a))) l.
Proof.
  induction a as [|x a IH]; intros b l; cbn [app cusip_total length].
  - rewrite xorb_false_r. lia.
  - rewrite IH. rewrite Nat.odd_succ, <- Nat.negb_odd. destruct b, (Nat.odd (length a)); cbn [negb xorb]; lia.
Qed.
(** * LEI *)
Definition lei_digits (c : Z) : list Z := if is_digit_char c then [c - 48] else [(c - 55) / 10; (c - 55) mod 10].
Lemma w128_small a : 0 <= a < 2 ^ 128 -> w128 a = a.
Proof. unfold w128. apply Z.mod_small. Qed.
Lemma number_app_from l : forall acc, fold_left (fun n d => 10 * n + d) l acc = acc * 10 ^ Z.of_nat (length l) + number l.
Proof.
  unfold number. induction l as [|x l IH]; intros acc; cbn [fold_left length]; [lia|].
  rewrite (IH (10 * acc + x)), (IH (10 * 0 + x)). rewrite Nat2Z.inj_succ, Z.pow_succ_r by lia. lia.
Qed.
Lemma number_app a b : number (a ++ b) = number a * 10 ^ Z.of_nat (length b) + number b.
Proof. unfold number at 1. rewrite fold_left_app, number_app_from. reflexivity. Qed.
Lemma number_bound l : Forall digit l -> 0 <= number l < 10 ^ Z.of_nat (length l).
Proof.
  induction l as [|x l IH] using rev_ind; intros H; [cbn; lia|].
  apply Forall_app in H. destruct H as [Hl Hx]. apply Forall_inv in Hx. unfold digit in Hx. specialize (IH Hl).
  rewrite number_app, app_length. cbn [length].
  replace (Z.of_nat (length l + 1)) with (Z.succ (Z.of_nat (length l))) by lia. rewrite Z.pow_succ_r by lia.
  change (number [x]) with (10 * 0 + x). lia.
Qed.
Lemma expand_code_char c : digit_char c \/ letter_char c -> lei_digits c = expand_char c.
Proof.
  unfold digit_char, letter_char, lei_digits, expand_char. rewrite place_symbols. unfold symbol_value, is_digit_char, is_lower, is_upper. intros H.
  destruct (Z.leb_spec 48 c), (Z.leb_spec c 57), (Z.leb_spec 97 c), (Z.leb_spec c 122), (Z.leb_spec 65 c), (Z.leb_spec c 90); cbn [andb]; try lia.
  - destruct (Z.ltb_spec (c - 48) 10); [reflexivity|lia].
  - destruct (Z.ltb_spec (c - 65 + 10) 10); [lia|]. repeat (f_equal; try lia).
Qed.
Lemma lei_code_step s c : digit_char c \/ letter_char c -> 0 <= s -> s * 100 + 100 < 2 ^ 128 ->
  lei_code s c = s * 10 ^ Z.of_nat (length (expand_char c)) + number (expand_char c).
Proof.
  intros H Hs Hb. rewrite <- (expand_code_char c H). unfold lei_code, lei_digits.
  unfold digit_char, letter_char in H. unfold is_digit_char.
  destruct (Z.leb_spec 48 c), (Z.leb_spec c 57); cbn [andb length]; unfold number; cbn [fold_left].
  2-4: rewrite (w128_small (s * 100)) by lia; rewrite w128_small by lia; change (10 ^ Z.of_nat 2) with 100; lia.
  rewrite (w128_small (s * 10)) by lia. rewrite w128_small by lia. change (10 ^ Z.of_nat 1) with 10. lia.
Qed.
Lemma lei_code_fold code : forall s, Forall (fun c => digit_char c \/ letter_char c) code -> 0 <= s ->
  (s + 1) * 10 ^ (2 * Z.of_nat (length code)) < 2 ^ 128 ->
  fold_left lei_code code s = s * 10 ^ Z.of_nat (length (expand code)) + number (expand code).
Proof.
  induction code as [|c code IH]; intros s H Hs Hb; [cbn; lia|].
  inversion H as [|? ? Hc Hr]; subst. cbn [fold_left length] in *.
  rewrite Nat2Z.inj_succ in Hb. replace (2 * Z.succ (Z.of_nat (length code))) with (2 + 2 * Z.of_nat (length code)) in Hb by lia.
  rewrite Z.pow_add_r in Hb by lia. change (10 ^ 2) with 100 in Hb.
  assert (P : 1 <= 10 ^ (2 * Z.of_nat (length code))) by (pose proof (Z.pow_pos_nonneg 10 (2 * Z.of_nat (length code))); lia).
  assert (Q : s * 100 + 100 < 2 ^ 128) by nia.
  rewrite lei_code_step by assumption.
  assert (N : 0 <= number (expand_char c) < 10 ^ Z.of_nat (length (expand_char c))) by (apply number_bound, expand_char_digits).
  assert (L : 10 ^ Z.of_nat (length (expand_char c)) <= 100).
  { unfold expand_char. rewrite place_symbols. destruct (symbol_value c <? 10); cbn; lia. }
  rewrite IH; [|assumption|nia|].
  - change (expand (c :: code)) with (expand_char c ++ expand code). rewrite app_length, Nat2Z.inj_add, Z.pow_add_r, number_app by lia. lia.
  - nia.
Qed.
Lemma lei_local_fold local : forall s, Forall digit_char local -> 0 <= s -> (s + 1) * 10 ^ Z.of_nat (length local) < 2 ^ 128 ->
  fold_left lei_local local s = s * 10 ^ Z.of_nat (length local) + number (expand local) /\ length (expand local) = length local.
Proof.
  induction local as [|c l IH]; intros s H Hs Hb; [cbn; lia|].
  inversion H as [|? ? Hc Hr]; subst. cbn [fold_left length] in *.
  rewrite Nat2Z.inj_succ, Z.pow_succ_r in Hb by lia.
  assert (P : 1 <= 10 ^ Z.of_nat (length l)) by (pose proof (Z.pow_pos_nonneg 10 (Z.of_nat (length l))); lia).
  assert (E : lei_local s c = s * 10 + (c - 48)).
  { unfold lei_local. unfold digit_char in Hc. rewrite (w128_small (s * 10)) by nia. rewrite w128_small by nia. reflexivity. }
  rewrite E. unfold digit_char in Hc. destruct (IH (s * 10 + (c - 48)) Hr ltac:(lia) ltac:(nia)) as [A B].
  rewrite A. change (expand (c :: l)) with (expand_char c ++ expand l). rewrite number_app, app_length, B, (expand_digit_char c Hc).
  rewrite Nat2Z.inj_succ, Z.pow_succ_r by lia. change (number [c - 48]) with (10 * 0 + (c - 48)). cbn [length]. split; lia.
Qed.
Definition lei_number (local code : list Z) : Z := number (expand (local ++ [48; 48] ++ code)).
Lemma lei_sum local code : valid_lei local code ->
  fold_left lei_code code (w128 (fold_left lei_local local 0 * 100)) = lei_number local code /\ 0 <= lei_number local code < 10 ^ 30.
Proof.
  intros (Ll & Dl & Lc & Dc).
  destruct (lei_local_fold local 0 Dl ltac:(lia) ltac:(rewrite Ll; reflexivity)) as [E1 E2].
  assert (N0 : 0 <= number (expand local) < 10 ^ 4).
  { pose proof (number_bound (expand local) (expand_digits local)) as NB. rewrite E2, Ll in NB. exact NB. }
  rewrite E1, w128_small by lia.
  rewrite lei_code_fold; [|assumption|lia|rewrite Lc; change (10 ^ (2 * Z.of_nat 12)) with (10 ^ 24); lia].
  assert (NB : 0 <= number (expand code) < 10 ^ Z.of_nat (length (expand code))) by (apply number_bound, expand_digits).
  assert (LE : (length (expand code) <= 24)%nat) by (pose proof (expand_length code); lia).
  assert (PE : 10 ^ Z.of_nat (length (expand code)) <= 10 ^ 24) by (apply Z.pow_le_mono_r; lia).
  unfold lei_number. rewrite expand_app, number_app, expand_app, number_app.
  change (expand [48; 48]) with [0; 0]. rewrite app_length. cbn [length].
  replace (Z.of_nat (2 + length (expand code))) with (2 + Z.of_nat (length (expand code))) by lia.
  rewrite Z.pow_add_r by lia. change (number [0; 0]) with 0. split; nia.
Qed.
Lemma lei_checksum_spec local code : valid_lei local code ->
  let check := 98 - (lei_number local code * 100) mod 97 in
  lei_checksum local code = (check / 10 + 48, check mod 10 + 48) /\ 2 <= check <= 98.
Proof.
  intros V. destruct (lei_sum local code V) as [E B]. cbv zeta. unfold lei_checksum. cbv zeta. rewrite E.
  rewrite w128_small by lia.
  assert (R : (98 - (lei_number local code * 100) mod 97) mod 256 = 98 - (lei_number local code * 100) mod 97) by (apply Z.mod_small; lia).
  rewrite R. split; [reflexivity|]. lia.
Qed.
Lemma pow10_97 k : exists u, (10 ^ Z.of_nat k * u) mod 97 = 1.
Proof.
  induction k as [|k [u IH]]; [exists 1; reflexivity|]. exists (u * 68).
  rewrite Nat2Z.inj_succ, Z.pow_succ_r by lia.
  replace (10 * 10 ^ Z.of_nat k * (u * 68)) with (10 ^ Z.of_nat k * u * 680) by ring.
  rewrite Z.mul_mod, IH by lia. reflexivity.
Qed.
Lemma cancel_pow10 k x : (x * 10 ^ Z.of_nat k) mod 97 = 0 -> x mod 97 = 0.
Proof.
  intros H. destruct (pow10_97 k) as [u U].
  assert (E : (x * (10 ^ Z.of_nat k * u)) mod 97 = 0).
  { rewrite Z.mul_assoc, Z.mul_mod, H by lia. reflexivity. }
  rewrite Z.mul_mod, U, Z.mul_1_r in E by lia. rewrite Z.mod_mod in E by lia. exact E.
Qed.
Lemma table36_inj a b : 0 <= a < 36 -> 0 <= b < 36 -> table36 a = table36 b -> a = b.
Proof. unfold table36. intros. destruct (Z.ltb_spec a 10), (Z.ltb_spec b 10); lia. Qed.
Lemma table36_valid a : 0 <= a < 36 -> digit_char (table36 a) \/ letter_char (table36 a).
Proof. unfold table36, digit_char, letter_char. intros. destruct (Z.ltb_spec a 10); lia. Qed.
Lemma base36_length n : forall x, length (base36 n x) = n.
Proof. induction n as [|n IH]; intros x; cbn; [reflexivity|]. f_equal. apply IH. Qed.
Lemma base36_valid n : forall x, Forall (fun c => digit_char c \/ letter_char c) (base36 n x).
Proof. induction n as [|n IH]; intros x; cbn; constructor; [apply table36_valid; lia|apply IH]. Qed.
Lemma base36_inj n : forall x y, base36 n x = base36 n y <-> x mod 36 ^ Z.of_nat n = y mod 36 ^ Z.of_nat n.
Proof.
  induction n as [|n IH]; intros x y.
  - cbn [base36]. change (36 ^ Z.of_nat 0) with 1. rewrite !Z.mod_1_r. tauto.
  - cbn [base36]. rewrite Nat2Z.inj_succ, Z.pow_succ_r by lia.
    assert (P : 0 < 36 ^ Z.of_nat n) by (apply Z.pow_pos_nonneg; lia).
    rewrite !Z.rem_mul_r by lia. split.
    + intros H. injection H as H1 H2. apply table36_inj in H1; [|lia|lia]. apply IH in H2. lia.
    + intros H. assert (A : x mod 36 = y mod 36 /\ (x / 36) mod 36 ^ Z.of_nat n = (y / 36) mod 36 ^ Z.of_nat n).
      { generalize dependent ((x / 36) mod 36 ^ Z.of_nat n). generalize dependent ((y / 36) mod 36 ^ Z.of_nat n). intros. lia. }
      destruct A as [A B]. rewrite A. f_equal. apply IH. exact B.
Qed.
