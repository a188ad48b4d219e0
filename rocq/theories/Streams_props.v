(** * Theorems C187 to C190: comparisons of quantities with numbers; printed prices, quotes, identities and reports. *)
From Coq Require Import String SpecFloat Reals Psatz ZifyBool ZifyNat.
From Verif Require Import Base Text Identity Identity_spec Money StaticTicks Prices Codes Double_proofs Streams Streams_spec Streams_proofs Streams_proofs2 Streams_proofs3.

(** * C187 *)
Section Reals.
Local Open Scope R_scope.
(** Up to 2^53 the comparisons are those of the numbers ([stands x r]: the double [x] is the real number [r]). *)
Theorem C187_exact : forall amount x r, (0 <= amount <= 2 ^ 53)%Z -> stands x r ->
  (quantity_eqb amount x = true <-> IZR amount = r) /\ (quantity_ltb amount x = true <-> IZR amount < r) /\ (quantity_gtb amount x = true <-> IZR amount > r) /\
  (quantity_leb amount x = true <-> IZR amount <= r) /\ (quantity_geb amount x = true <-> IZR amount >= r).
Proof. exact compare_exact. Qed.
(** For every quantity, less and greater are right when they say yes, and the others when they say no. *)
Theorem C187_one_sided : forall amount x r, (0 <= amount < 2 ^ 64)%Z -> stands x r ->
  (quantity_ltb amount x = true -> IZR amount < r) /\ (quantity_gtb amount x = true -> IZR amount > r) /\
  (IZR amount <= r -> quantity_leb amount x = true) /\ (IZR amount >= r -> quantity_geb amount x = true) /\ (IZR amount = r -> quantity_eqb amount x = true).
Proof. exact compare_any. Qed.
(** Every odd quantity above 2^53 is equal to a number that is another. *)
Theorem C187_refuted : forall amount, (2 ^ 53 < amount < 2 ^ 64)%Z -> Z.odd amount = true -> exists x r, stands x r /\ r <> IZR amount /\ quantity_eqb amount x = true.
Proof. exact compare_wrong. Qed.
(** Infinity is more than every quantity, minus infinity less; NaN compares to nothing. *)
Theorem C187_special : forall amount, (0 <= amount < 2 ^ 64)%Z ->
  (quantity_ltb amount (S754_infinity false), quantity_gtb amount (S754_infinity false), quantity_eqb amount (S754_infinity false)) = (true, false, false) /\
  (quantity_ltb amount (S754_infinity true), quantity_gtb amount (S754_infinity true), quantity_eqb amount (S754_infinity true)) = (false, true, false) /\
  (quantity_ltb amount S754_nan, quantity_gtb amount S754_nan, quantity_eqb amount S754_nan, quantity_leb amount S754_nan, quantity_geb amount S754_nan) = (false, false, false, false, false).
Proof.
  intros amount H. unfold quantity_leb, quantity_geb, quantity_ltb, quantity_gtb, quantity_eqb. destruct (stands_sign _ _ (amount_stands amount ltac:(lia))) as [(s & -> & _)|(s & m & e & -> & _)]; repeat split; destruct s; reflexivity.
Qed.
End Reals.
Print Assumptions C187_exact. Print Assumptions C187_one_sided. Print Assumptions C187_refuted. Print Assumptions C187_special.
Example C187_case : quantity_eqb 3 (of_Z double 3) = true /\ quantity_ltb 3 (div double (of_Z double 7) (of_Z double 2)) = true /\ quantity_geb 4 (div double (of_Z double 7) (of_Z double 2)) = true /\
  quantity_eqb (2 ^ 53 + 1) (of_Z double (2 ^ 53)) = true /\ quantity_gtb (2 ^ 53 + 1) (of_Z double (2 ^ 53)) = false.
Proof. vm_compute. repeat split. Qed.

(** * C188 *)
(** The printed price is the letters of the currency and the price in decimal notation, with as many digits as the currency has. *)
Theorem C188_text : forall p k, decimal (valuation p) k -> Z.abs (value p) < 2 ^ 52 ->
  exists t, representation (print_price p fresh) = Some ([c0 (valuation p); c1 (valuation p); c2 (valuation p); 40] ++ t ++ [41]) /\ shows t (value p) (Z.to_nat k).
Proof.
  intros p k D V. destruct (moderate_printed p fresh (conj (ex_intro _ k D) V) eq_refl) as (t & P & S). exists t. rewrite P. rewrite (decimal_digits _ _ D) in S. auto.
Qed.
Print Assumptions C188_text.
(** Different prices in a currency, and different quotes, look different. *)
Theorem C188_distinct : forall p q, moderate p -> moderate q -> valuation p = valuation q -> p <> q -> representation (print_price p fresh) <> representation (print_price q fresh).
Proof. intros p q M N C D E. exact (D (price_distinct p q M N C E)). Qed.
Print Assumptions C188_distinct.
Theorem C188_quotes : forall p q, moderate_quote p -> moderate_quote q -> valuation (q_price p) = valuation (q_price q) -> p <> q -> representation (print_quote p fresh) <> representation (print_quote q fresh).
Proof. intros p q M N C D E. exact (D (quote_distinct p q M N C E)). Qed.
Print Assumptions C188_quotes.
(** Every currency of the library is counted in tenths, hundredths and so on. *)
Theorem C188_library : forall e, In e currency_constants -> exists k, decimal (currency_constant (fst e)) k.
Proof.
  intros e H. assert (F : forallb (fun e => (denominator (currency_constant (fst e)) =? 10 ^ 0) || (denominator (currency_constant (fst e)) =? 10 ^ 2) || (denominator (currency_constant (fst e)) =? 10 ^ 3)) currency_constants = true) by (vm_compute; reflexivity).
  rewrite forallb_forall in F. specialize (F e H). rewrite !Bool.orb_true_iff, !Z.eqb_eq in F. destruct F as [[F|F]|F]; [exists 0|exists 2|exists 3]; (split; [lia|exact F]).
Qed.
Print Assumptions C188_library.
(** 2^46 dollars and one cent are printed as 2^46 dollars and two cents. *)
Theorem C188_refuted : exists p q, valuation p = valuation q /\ decimal (valuation p) 2 /\ value p < value q < 2 ^ 53 /\ representation (print_price p fresh) = representation (print_price q fresh).
Proof. exists (mk_price (100 * 2 ^ 46 + 1) (mk_currency 85 83 68 100)), (mk_price (100 * 2 ^ 46 + 2) (mk_currency 85 83 68 100)). split; [reflexivity|]. split; [split; [lia|reflexivity]|]. split; [vm_compute; split; reflexivity|]. vm_compute. reflexivity. Qed.
Print Assumptions C188_refuted.
Example C188_case : representation (print_price (mk_price 123456 (mk_currency 85 83 68 100)) fresh) = Some (codes "USD(1234.56)") /\
  representation (print_price (mk_price (-5) (mk_currency 75 87 68 1000)) fresh) = Some (codes "KWD(-0.005)") /\
  representation (print_price (mk_price 42 (mk_currency 74 80 89 1)) fresh) = Some (codes "JPY(42)") /\
  representation (print_quote (mk_quote 10 (mk_price 150 (mk_currency 85 83 68 100))) fresh) = Some (codes "10@USD(1.50)") /\
  moderate_quote (mk_quote 10 (mk_price 150 (mk_currency 85 83 68 100))).
Proof. vm_compute. repeat split; try discriminate. exists 2. repeat split; discriminate. Qed.

(** * C189 *)
(** Printing a price keeps the format of the stream exactly when its precision is that of the currency already; the fill character and the flags are kept always. *)
Theorem C189_price : forall p s s', print_price p s = Some s' -> (format s' = format s <-> precision s = digits (valuation p)) /\ fill s' = fill s /\ fixed s' = fixed s.
Proof.
  intros p s s' H. destruct (price_format p s s' H) as [F _]. unfold format in *. injection F as F1 F2 F3. rewrite F1, F2, F3. split; [|split; reflexivity]. split; intros E; [congruence|now rewrite E].
Qed.
Print Assumptions C189_price.
(** Otherwise every number printed to the stream afterwards looks different from before. *)
Theorem C189_price_refuted : forall p s s', print_price p s = Some s' -> width s = 0%nat -> fixed s = true -> 0 <= precision s -> precision s <> digits (valuation p) ->
  forall x, finite x -> shown x s' <> shown x s /\ shown x s' <> None.
Proof.
  intros p s s' H W X P N x F. destruct (price_format p s s' H) as [E W']. unfold format in E. injection E as _ E2 E3. rewrite X in E3.
  assert (A : forall s, width s = 0%nat -> fixed s = true -> shown x s = Some (fixed_text x (precision s))).
  { clear - F. intros s W X. unfold shown, put_double. rewrite X. destruct x; try contradiction; unfold added, put; cbn [written]; rewrite W; cbn [Nat.sub repeat app]; rewrite skipn_app, skipn_all, Nat.sub_diag; reflexivity. }
  rewrite !A by assumption. split; [|discriminate]. intros E. injection E as E. rewrite E2 in E. revert E. apply fixed_text_differs; [apply digits_nonneg|exact P|congruence].
Qed.
Print Assumptions C189_price_refuted.
(** Printing an identity keeps the format exactly when it is empty or the stream fills with zeros already. *)
Theorem C189_identity : forall i s, (format (print_identity i s) = format s <-> i = [] \/ fill s = 48) /\ precision (print_identity i s) = precision s /\ fixed (print_identity i s) = fixed s.
Proof.
  intros i s. rewrite identity_printed. destruct i as [|d ds]; [split; [tauto|split; reflexivity]|]. unfold format. cbn [fill precision fixed]. split; [|split; reflexivity]. split.
  - intros E. right. congruence.
  - intros [E|E]; [discriminate|]. now rewrite E.
Qed.
Print Assumptions C189_identity.
(** Otherwise every integer printed with a width larger than its digits looks different afterwards. *)
Theorem C189_identity_refuted : forall i s amount w, i <> [] -> fill s <> 48 -> u64 amount -> (length (dec amount) < w)%nat -> shown_wide w amount (print_identity i s) <> shown_wide w amount s.
Proof.
  intros i s amount w N F U L. rewrite identity_printed. destruct i as [|d ds]; [congruence|].
  assert (A : forall s, shown_wide w amount s = repeat (fill s) (w - length (dec amount)) ++ dec amount).
  { clear. intros s. unfold shown_wide, print_quantity, added, put, setw. cbn [written width fill]. rewrite skipn_app, skipn_all, Nat.sub_diag. reflexivity. }
  rewrite !A. cbn [fill]. destruct (w - length (dec amount))%nat eqn:E; [lia|]. cbn [repeat app]. congruence.
Qed.
Print Assumptions C189_identity_refuted.
(** Quantities, intervals and positions keep the format. *)
Theorem C189_others : forall s amount lower upper r, format (print_quantity amount s) = format s /\ format (print_interval lower upper s) = format s /\ format (print_position r s) = format s.
Proof. intros. repeat split. Qed.
Print Assumptions C189_others.
(** A price in dollars and then a sixth of a euro: with two digits instead of six; a seven with width four: 0007 after an identity. *)
Example C189_case :
  let s := set_fixed true fresh in let x := div double (of_Z double 1) (of_Z double 6) in
  shown x s = Some (codes "0.166667") /\
  match print_price (mk_price 123456 (mk_currency 85 83 68 100)) s with Some s' => shown x s' = Some (codes "0.17") | None => False end /\
  shown_wide 4 7 fresh = codes "   7" /\ shown_wide 4 7 (print_identity [3; 1] fresh) = codes "0007".
Proof. vm_compute. repeat split. Qed.

(** * C190 *)
(** Different intervals of time, positions and tickers are printed differently. *)
Theorem C190_intervals : forall l u l' u', u64 l -> u64 u -> u64 l' -> u64 u' -> written (print_interval l u fresh) = written (print_interval l' u' fresh) -> l = l' /\ u = u'.
Proof. exact interval_distinct. Qed.
Print Assumptions C190_intervals.
Theorem C190_positions : forall r r', u64 (supply r) -> u64 (bought r) -> u64 (sold r) -> u64 (supply r') -> u64 (bought r') -> u64 (sold r') ->
  written (print_position r fresh) = written (print_position r' fresh) -> r = r'.
Proof. exact position_distinct. Qed.
Print Assumptions C190_positions.
Theorem C190_tickers : forall b q b' q', proper b -> proper q -> proper b' -> proper q' -> written (print_ticker b q fresh) = written (print_ticker b' q' fresh) -> b = b' /\ q = q'.
Proof. exact ticker_distinct. Qed.
Print Assumptions C190_tickers.
(** Execution reports look the same exactly when the states, the owners and the limits are the same. *)
Theorem C190_reports : forall r r', 0 <= e_state r <= 3 -> 0 <= e_state r' <= 3 -> moderate_quote (e_limit r) -> moderate_quote (e_limit r') -> proper (e_owner r) -> proper (e_owner r') ->
  valuation (q_price (e_limit r)) = valuation (q_price (e_limit r')) ->
  (report_text r = report_text r' <-> e_state r = e_state r' /\ e_owner r = e_owner r' /\ e_limit r = e_limit r').
Proof. exact execution_same. Qed.
Print Assumptions C190_reports.
(** A report in any other state is not printed: there is an exception. *)
Theorem C190_no_state : forall r, e_state r < 0 \/ 3 < e_state r -> report_text r = Throw.
Proof.
  intros r D. unfold report_text, print_execution, state_text.
  rewrite (proj2 (Z.eqb_neq _ 0)), (proj2 (Z.eqb_neq _ 1)), (proj2 (Z.eqb_neq _ 2)), (proj2 (Z.eqb_neq _ 3)) by lia. reflexivity.
Qed.
Print Assumptions C190_no_state.
(** So a purchase of any quantity and a sale of any other cannot be told apart; and orders are not printed at all. *)
Theorem C190_reports_refuted : (forall state limit owner b b' n n' i i', report_text (mk_execution state b n i limit owner) = report_text (mk_execution state b' n' i' limit owner)) /\
  forall (order : Type) (o o' : order) s, written (print_order o s) = written (print_order o' s) /\ written (print_order o fresh) = [].
Proof. repeat split; reflexivity. Qed.
Print Assumptions C190_reports_refuted.
Example C190_case : report_text (mk_execution 2 true 100 7 (mk_quote 1 (mk_price 995 (mk_currency 85 83 68 100))) [4; 2]) = Ret (Some (codes "match " ++ 34 :: codes "4-2" ++ 34 :: codes " 1@USD(9.95)")) /\
  report_text (mk_execution 4 true 100 7 (mk_quote 1 (mk_price 995 (mk_currency 85 83 68 100))) [4; 2]) = Throw /\
  written (print_position (mk_position 10 3 4) fresh) = codes "10+3-4" ++ [10] /\ written (print_interval 3 12 fresh) = codes "[3,12)".
Proof. vm_compute. repeat split. Qed.

(** * C49: the text that an archive gets for a price *)
(** The text determines the price, with its currency and the units it is counted in (though it is not read when loading). *)
Theorem C49_price_text : forall p q, - 2 ^ 63 <= value p < 2 ^ 63 -> - 2 ^ 63 <= value q < 2 ^ 63 -> u64 (denominator (valuation p)) -> u64 (denominator (valuation q)) -> p <> q -> save_price p <> save_price q.
Proof. intros p q V V' U U' N E. apply N. apply price_text_inj; try assumption. unfold save_price in E. congruence. Qed.
Print Assumptions C49_price_text.
Example C49_price_text_case : save_price (mk_price (-12) (mk_currency 85 83 68 100)) = [IText (codes "USD -12/100")].
Proof. reflexivity. Qed.
