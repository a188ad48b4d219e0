(** Properties of the market making rule. *)
From Coq Require Import SpecFloat.
From Verif Require Import Base Money StaticTicks Prices Quoting Quoting_spec Quoting_proofs.

Definition dollars := mk_currency 85 83 68 100.
Definition yen := mk_currency 74 80 89 1.
Definition half : spec_float := S754_finite false (2 ^ 52) (-53).
Definition tenth : spec_float := div double (of_Z double 1) (of_Z double 10).
(** A logarithm for the examples: the first two terms of the series, and 0 up to 1. *)
Definition demo_log (x : spec_float) : spec_float :=
  if SFltb unit x then let y := sub double x unit in let v := sub double y (mul double (mul double y y) half) in if SFleb zero v then v else zero else zero.

(** ** C130 *)
(** The quotes, where defined, are in the currency of the middle price with the bid below the ask; no assertion fails. *)
Theorem C130_bid_below_ask : forall log assertions mid n_long n_short theta sigma gamma k, logarithm log ->
  1 <= denominator (valuation mid) < 2 ^ 64 -> positive gamma -> positive sigma -> positive k -> in_session theta ->
  avellaneda_stoikov log assertions mid n_long n_short theta sigma gamma k = Undefined \/
  exists bid ask, avellaneda_stoikov log assertions mid n_long n_short theta sigma gamma k = Value (bid, ask) /\
    valuation bid = valuation mid /\ valuation ask = valuation mid /\ value bid < value ask.
Proof.
  intros log b mid nl ns t s g k L P G S K T. destruct (rule_cases log L b mid nl ns t s g k P G S K T) as [E|(x & y & _ & _ & _ & _ & LT & E)]; [now left|right].
  eexists _, _. split; [exact E|]. split; [reflexivity|]. split; [reflexivity|exact LT].
Qed.
Print Assumptions C130_bid_below_ask.
(** They are defined for ordinary arguments. *)
Theorem C130_defined : forall log assertions mid n_long n_short theta sigma gamma k, logarithm log -> (forall x, at_most unit x -> at_most (log x) x) ->
  Z.abs (value mid) <= 2 ^ 50 -> 1 <= denominator (valuation mid) <= 2 ^ 10 -> 0 <= n_long <= 2 ^ 20 -> 0 <= n_short <= 2 ^ 20 ->
  moderate gamma -> moderate sigma -> moderate k -> in_session theta ->
  avellaneda_stoikov log assertions mid n_long n_short theta sigma gamma k <> Undefined.
Proof. exact rule_defined. Qed.
Print Assumptions C130_defined.
(** With assertions a time that is not from 0 to 1 (or is no number) or a volatility that is not above 0 ends the program,
    whatever the other arguments. *)
Theorem C130_outside : forall log mid n_long n_short theta sigma gamma k,
  ~ (at_most zero theta /\ at_most theta unit /\ less zero sigma) ->
  avellaneda_stoikov log true mid n_long n_short theta sigma gamma k = Abort.
Proof.
  intros log mid nl ns t s g k N. unfold avellaneda_stoikov, at_most, less in *. change (of_Z double 0) with zero. change Quoting.one with unit.
  destruct (SFleb zero t), (SFleb t unit); try reflexivity. destruct (SFltb zero s); [|reflexivity]. destruct N; repeat split.
Qed.
Print Assumptions C130_outside.
Example C130_outside_case : avellaneda_stoikov demo_log true (mk_price 995 (mk_currency 85 83 68 100)) 3 1 (of_Z double 2) unit unit unit = Abort /\
  avellaneda_stoikov demo_log true (mk_price 995 (mk_currency 85 83 68 100)) 3 1 half zero unit unit = Abort /\
  ~ at_most (of_Z double 2) unit /\ ~ less zero zero.
Proof. repeat split; try (now vm_compute); intro E; vm_compute in E; discriminate. Qed.
(** The example of the paper: volatility 2, risk aversion 0.1, arrival rate 1.5. *)
Example C130_example : avellaneda_stoikov demo_log true (mk_price 10000 dollars) 3 1 half (of_Z double 2) tenth (div double (of_Z double 3) (of_Z double 2)) = Value (mk_price 9885 dollars, mk_price 10035 dollars).
Proof. vm_compute. reflexivity. Qed.
Example C130_hypotheses : logarithm demo_log /\ positive tenth /\ positive (of_Z double 2) /\ positive (div double (of_Z double 3) (of_Z double 2)) /\ in_session half.
Proof.
  split; [|split; [|split; [|split]]].
  - split; [|split].
    + intros x H. unfold demo_log. destruct (SFltb unit x); [|reflexivity]. cbv zeta. destruct (SFleb zero _); [|reflexivity].
      assert (U : a_double unit) by reflexivity. assert (Hf : a_double half) by reflexivity. dbl.
    + intros x H. unfold demo_log. destruct (SFltb unit x); [|reflexivity]. cbv zeta. destruct (SFleb zero _) eqn:E; [exact E|reflexivity].
    + vm_compute. reflexivity.
  - split; [split; [reflexivity|]|reflexivity]. eexists _, _, _. right. vm_compute. reflexivity.
  - split; [split; [reflexivity|]|reflexivity]. eexists _, _, _. right. vm_compute. reflexivity.
  - split; [split; [reflexivity|]|reflexivity]. eexists _, _, _. right. vm_compute. reflexivity.
  - split; [split; [reflexivity|]|split; reflexivity]. eexists _, _, _. right. reflexivity.
Qed.
(** A negative risk aversion crosses the quotes: an assertion fails, or without assertions they are returned. *)
Example C130_crossed : let quotes b := avellaneda_stoikov (fun _ => S754_finite true (2 ^ 52) (-53)) b (mk_price 10000 dollars) 0 0 zero (of_Z double 10) (of_Z double (-1)) (of_Z double 2) in
  quotes true = Abort /\ quotes false = Value (mk_price 14950 dollars, mk_price 5050 dollars).
Proof. vm_compute. split; reflexivity. Qed.

(** ** C131 *)
(** With as much bought as sold, the middle price is between the quotes. *)
Theorem C131_around_middle : forall log assertions mid n theta sigma gamma k bid ask, logarithm log ->
  Z.abs (value mid) < 2 ^ 52 -> 1 <= denominator (valuation mid) <= 2 ^ 53 -> 0 <= n < 2 ^ 64 ->
  positive gamma -> positive sigma -> positive k -> in_session theta ->
  avellaneda_stoikov log assertions mid n n theta sigma gamma k = Value (bid, ask) -> value bid <= value mid <= value ask.
Proof.
  intros log b mid n t s g k bid ask L V D N G S K T E.
  destruct (rule_cases log L b mid n n t s g k ltac:(unfold proper_price; lia) G S K T) as [U|(x & y & X & Y & Y0 & BA & _ & U)]; [congruence|].
  pose proof (around mid x y V D Y0 (reservation_balanced _ _ _ _ _ _ N G S T X)) as A. rewrite U in E. injection E as <- <-. cbn [value].
  destruct (Z.eqb_spec (bid_of mid x y) (ask_of mid x y)); lia.
Qed.
Print Assumptions C131_around_middle.
(** With higher volatility, or earlier in the session, the quotes are at least as far from the middle price, unless
    those of the calmer market have been moved to one unit from it. *)
Theorem C131_wider : forall log assertions mid n theta theta' sigma sigma' gamma k bid ask bid' ask', logarithm log ->
  Z.abs (value mid) < 2 ^ 52 -> 1 <= denominator (valuation mid) <= 2 ^ 53 -> 0 <= n < 2 ^ 64 ->
  positive gamma -> positive sigma -> positive sigma' -> positive k -> in_session theta -> in_session theta' ->
  at_most sigma sigma' -> at_most theta' theta ->
  avellaneda_stoikov log assertions mid n n theta sigma gamma k = Value (bid, ask) ->
  avellaneda_stoikov log assertions mid n n theta' sigma' gamma k = Value (bid', ask') ->
  (value bid' <= value bid /\ value ask <= value ask') \/ (value bid = value mid - 1 /\ value ask = value mid + 1).
Proof.
  intros log b mid n t t' s s' g k bid ask bid' ask' L V D N G S S' K T T' LS LT E E'.
  assert (P : proper_price mid) by (unfold proper_price; lia).
  destruct (rule_cases log L b mid n n t s g k P G S K T) as [U|(x & y & X & Y & Y0 & BA & _ & U)]; [congruence|].
  destruct (rule_cases log L b mid n n t' s' g k P G S' K T') as [U'|(x' & y' & X' & Y' & Y0' & BA' & _ & U')]; [congruence|].
  pose proof (reservation_balanced _ _ _ _ _ _ N G S T X) as Mx. pose proof (reservation_balanced _ _ _ _ _ _ N G S' T' X') as Mx'.
  pose proof (around mid x y V D Y0 Mx) as A. rewrite (stands_unique _ _ _ Mx' Mx) in *. pose proof (spread_mono _ _ _ _ _ _ _ _ _ L G S S' K T T' LS LT Y Y') as M.
  rewrite U in E. rewrite U' in E'. injection E as <- <-. injection E' as <- <-. cbn [value]. apply apart_wide; [exact A| |].
  - apply bid_mono; [exact P|apply RIneq.Rle_refl|exact M].
  - apply ask_mono; [exact P|apply RIneq.Rle_refl|exact M].
Qed.
Print Assumptions C131_wider.
(** The exception occurs: twelve times the volatility, and the ask comes closer. *)
Theorem C131_closer_refuted : forall log assertions, log unit = zero ->
  exists mid gamma k sigma sigma', positive gamma /\ positive k /\ positive sigma /\ less sigma sigma' /\
  avellaneda_stoikov log assertions mid 0 0 zero sigma gamma k = Value (mk_price 0 (valuation mid), mk_price 2 (valuation mid)) /\
  avellaneda_stoikov log assertions mid 0 0 zero sigma' gamma k = Value (mk_price 0 (valuation mid), mk_price 1 (valuation mid)).
Proof.
  intros log b H. exists (mk_price 1 yen), (S754_finite false (2 ^ 52) (-112)), (of_Z double 1), (of_Z double 1), (of_Z double 12).
  split; [split; [split; [reflexivity|eexists _, _, _; right; reflexivity]|reflexivity]|].
  split; [split; [split; [reflexivity|eexists _, _, _; right; vm_compute; reflexivity]|reflexivity]|].
  split; [split; [split; [reflexivity|eexists _, _, _; right; vm_compute; reflexivity]|reflexivity]|]. split; [reflexivity|].
  assert (E : add double one (div double (S754_finite false (2 ^ 52) (-112)) (of_Z double 1)) = unit) by (vm_compute; reflexivity).
  unfold avellaneda_stoikov, spread. rewrite E, H. destruct b; vm_compute; split; reflexivity.
Qed.
Print Assumptions C131_closer_refuted.
Example C131_example :
  avellaneda_stoikov demo_log true (mk_price 10000 dollars) 5 5 half (of_Z double 2) tenth (of_Z double 1) = Value (mk_price 9895 dollars, mk_price 10105 dollars) /\
  avellaneda_stoikov demo_log true (mk_price 10000 dollars) 5 5 zero (of_Z double 3) tenth (of_Z double 1) = Value (mk_price 9860 dollars, mk_price 10140 dollars).
Proof. vm_compute. split; reflexivity. Qed.

(** ** C132 *)
(** A market maker that has bought more, or sold less, quotes no higher. *)
Theorem C132_inventory : forall log assertions mid n_long n_short n_long' n_short' theta sigma gamma k bid ask bid' ask', logarithm log ->
  1 <= denominator (valuation mid) < 2 ^ 64 -> 0 <= n_long <= n_long' -> n_long' < 2 ^ 64 -> 0 <= n_short' <= n_short -> n_short < 2 ^ 64 ->
  positive gamma -> positive sigma -> positive k -> in_session theta ->
  avellaneda_stoikov log assertions mid n_long n_short theta sigma gamma k = Value (bid, ask) ->
  avellaneda_stoikov log assertions mid n_long' n_short' theta sigma gamma k = Value (bid', ask') ->
  value bid' <= value bid /\ value ask' <= value ask.
Proof.
  intros log b mid nl ns nl' ns' t s g k bid ask bid' ask' L P Hl Hl' Hs Hs' G S K T E E'.
  destruct (rule_cases log L b mid nl ns t s g k P G S K T) as [U|(x & y & X & Y & Y0 & BA & _ & U)]; [congruence|].
  destruct (rule_cases log L b mid nl' ns' t s g k P G S K T) as [U'|(x' & y' & X' & Y' & Y0' & BA' & _ & U')]; [congruence|].
  pose proof (reservation_mono _ _ _ _ _ _ _ _ _ _ Hl Hl' Hs Hs' G S T X X') as M. rewrite (stands_unique _ _ _ Y' Y) in *.
  rewrite U in E. rewrite U' in E'. injection E as <- <-. injection E' as <- <-. cbn [value]. apply apart_down; [exact BA|exact BA'| |].
  - apply bid_mono; [exact P|exact M|apply RIneq.Rle_refl].
  - apply ask_mono; [exact P|exact M|apply RIneq.Rle_refl].
Qed.
Print Assumptions C132_inventory.
Example C132_example :
  avellaneda_stoikov demo_log true (mk_price 10000 dollars) 10 0 half (of_Z double 2) tenth (of_Z double 1) = Value (mk_price 9695 dollars, mk_price 9905 dollars) /\
  avellaneda_stoikov demo_log true (mk_price 10000 dollars) 0 10 half (of_Z double 2) tenth (of_Z double 1) = Value (mk_price 10095 dollars, mk_price 10305 dollars).
Proof. vm_compute. split; reflexivity. Qed.

(** ** C133 *)
(** Risk neutrality is undefined, whatever the other arguments. *)
Theorem C133_risk_neutral_refuted : forall log mid n_long n_short theta sigma k, log unit = zero -> positive k ->
  avellaneda_stoikov log false mid n_long n_short theta sigma zero k = Undefined.
Proof.
  intros log mid nl ns t s k H [[_ (sg & m & e & Ek)] Kp]. unfold avellaneda_stoikov. cbn [andb].
  assert (E : spread log t s zero k = S754_nan).
  { unfold spread. assert (A : add double one (div double zero k) = unit).
    { destruct Ek as [->| ->]; [discriminate Kp|]. destruct sg; vm_compute; reflexivity. }
    rewrite A, H. change (mul double (div double two zero) zero) with S754_nan. now destruct (mul double (mul double zero (mul double s s)) (sub double one t)). }
  rewrite E. unfold rounded, low. change (div double S754_nan two) with S754_nan.
  assert (Z : sub double (reservation mid nl ns t s zero) S754_nan = S754_nan) by (now destruct (reservation mid nl ns t s zero)). rewrite Z. reflexivity.
Qed.
Print Assumptions C133_risk_neutral_refuted.
(** As the risk aversion goes to 0 the spread of the rule goes to 2/k. For tiny values the computed one goes to 0
    instead: here k = 1 and the quotes are one cent from the middle price of 100 dollars instead of one dollar; for
    every logarithm. *)
Theorem C133_nearly_neutral_refuted : forall log assertions, log unit = zero ->
  exists gamma, positive gamma /\
  avellaneda_stoikov log assertions (mk_price 10000 dollars) 0 0 zero (of_Z double 1) gamma (of_Z double 1) = Value (mk_price 9999 dollars, mk_price 10001 dollars).
Proof.
  intros log b H. exists (S754_finite false (2 ^ 52) (-112)). split; [split; [split; [reflexivity|eexists _, _, _; right; reflexivity]|reflexivity]|].
  assert (E : add double one (div double (S754_finite false (2 ^ 52) (-112)) (of_Z double 1)) = unit) by (vm_compute; reflexivity).
  unfold avellaneda_stoikov, spread. rewrite E, H. destruct b; vm_compute; reflexivity.
Qed.
Print Assumptions C133_nearly_neutral_refuted.
(** With a risk aversion of 1/1024 the quotes are as they should be. *)
Example C133_example :
  avellaneda_stoikov demo_log true (mk_price 10000 dollars) 0 0 zero (of_Z double 1) (S754_finite false (2 ^ 52) (-62)) (of_Z double 1) = Value (mk_price 9900 dollars, mk_price 10100 dollars).
Proof. vm_compute. reflexivity. Qed.
