(** Properties of the markets that send quotes and collect orders. *)
From Coq Require Import SpecFloat ZifyBool ZifyNat.
From Verif Require Import Base Identity IdMap Communicator Simulation Simulation_spec StaticTicks Walras Markets Markets_spec Markets_proofs.

(** ** C105 *)
(** Over any sequence of acts of a price setter: an act sends nothing, or the same quotes to each participant once;
    later quotes are delivered later. *)
Theorem C105_increasing : forall D solver quotes participants (l : list (Z * Z * list (Z * letter D))) s' mss,
  Forall (fun a => 0 <= fst (fst a) < 2 ^ 64 - 1) l -> setter_acts solver l (new_setter quotes participants) = Ret (s', mss) ->
  length mss = length l /\
  Forall (fun ms => ms = [] \/ exists date quotes, announcement participants date quotes ms) mss /\
  (forall i j mi mj n n', (i < j)%nat -> nth_error mss i = Some mi -> nth_error mss j = Some mj -> In n mi -> In n' mj -> n_received n < n_received n').
Proof. intros D solver quotes participants l s' mss F E. destruct (setter_acts_dates solver l F _ _ _ E) as (_ & L & A & _ & I). auto. Qed.
Print Assumptions C105_increasing.
(** The act at [lower] sends the quotes it arrives at, for [lower] or, when there were orders, for the next
    date; except if quotes for that date were sent before. *)
Theorem C105_sends_exactly : forall D solver lower upper (inbox : list (Z * letter D)) s s' ms t,
  0 <= lower < 2 ^ 64 - 1 -> s_participants s <> [] -> setter_act solver lower upper inbox s = Ret (s', ms, t) ->
  (t = lower \/ t = lower + 1) /\
  (ms = [] <-> (s_clearing s = true \/ s_date s <> 0) /\ t <= s_date s) /\
  (ms <> [] -> announcement (s_participants s) t (s_quotes s') ms).
Proof.
  intros D solver lower upper inbox s s' ms t B P E. destruct (setter_act_ret solver _ _ _ _ _ _ _ B E) as (T & _ & _ & A). split; [destruct (fst (collect lower inbox [])); lia|].
  destruct A as [(-> & _ & X)|(A & Ed & X)].
  - split; [|congruence]. tauto.
  - assert (N : ms <> []) by (destruct A as [A _]; intros ->; cbn in A; congruence). split; [|now intros _]. split; [contradiction|]. intros [Y Z]. exfalso. destruct X as [[X1 X2]|X]; [|lia]. destruct Y as [Y|Y]; congruence.
Qed.
Print Assumptions C105_sends_exactly.
(** The first act always sends quotes, at time 0 too. *)
Theorem C105_first : forall D solver lower upper (inbox : list (Z * letter D)) quotes participants s' ms t,
  0 <= lower < 2 ^ 64 - 1 -> participants <> [] -> setter_act solver lower upper inbox (new_setter quotes participants) = Ret (s', ms, t) -> announcement participants t (s_quotes s') ms.
Proof.
  intros D solver lower upper inbox quotes participants s' ms t B P E. destruct (C105_sends_exactly _ _ _ _ _ (new_setter quotes participants) _ _ _ B P E) as (_ & X & Y). apply Y. intros N. apply X in N. cbn in N. destruct N as [[N|N] _]; congruence.
Qed.
Print Assumptions C105_first.
(** Quotes change only by a result of the solver: without orders, or if it finds none, they stay. *)
Theorem C105_unsolved : forall D solver lower upper (inbox : list (Z * letter D)) s s' ms t,
  (forall orders, solver orders (s_quotes s) = None) -> setter_act solver lower upper inbox s = Ret (s', ms, t) -> s_quotes s' = s_quotes s.
Proof.
  intros D solver lower upper inbox s s' ms t H. unfold setter_act, clear_quotes. destruct (collect lower inbox []) as [[|o os] st].
  - destruct (_ || _); intros E; injection E as <- _ _; reflexivity.
  - rewrite H. destruct (_ || _); intros E; injection E as <- _ _; reflexivity.
Qed.
Print Assumptions C105_unsolved.
Example C105_unsolved_example :
  setter_act (fun (_ : list (identity * Z)) _ => None) 5 9 [(5, Order [1] 5 11)] (new_setter [([7], 100)] [[1]]) = Ret (mk_setter true [([7], 100)] 6 [[1]], [mk_quotation [1] 6 [([7], 100)]], 6).
Proof. reflexivity. Qed.
(** Orders that arrive in a later round of the same step move the quotes silently: of two acts with orders in a
    step, the second sends nothing, whatever the quotes. *)
Theorem C105_second_round_refuted : forall D solver lower upper (inbox1 inbox2 : list (Z * letter D)) s s1 ms1 t1 s2 ms2 t2,
  0 <= lower < 2 ^ 64 - 1 -> fst (collect lower inbox1 []) <> [] ->
  setter_act solver lower upper inbox1 s = Ret (s1, ms1, t1) -> setter_act solver lower upper inbox2 s1 = Ret (s2, ms2, t2) -> ms2 = [].
Proof.
  intros D solver lower upper i1 i2 s s1 ms1 t1 s2 ms2 t2 B O E1 E2.
  destruct (setter_act_ret solver _ _ _ _ _ _ _ B E1) as (T1 & C1 & _ & A1). destruct (setter_act_ret solver _ _ _ _ _ _ _ B E2) as (T2 & _ & _ & A2).
  destruct (fst (collect lower i1 [])); [congruence|].
  destruct A2 as [(-> & _)|(_ & _ & [[X _]|X])]; [reflexivity|congruence|]. exfalso.
  assert (lower + 1 <= s_date s1) by (destruct A1 as [(_ & -> & _ & H)|(_ & -> & _)]; lia). destruct (fst (collect lower i2 [])); lia.
Qed.
Print Assumptions C105_second_round_refuted.
(** Two participants; the demand of each is a multiplier of the quotes. The first replies in the first round, the
    second in the second round: the price moves from 100 to 110, then to 220, which nobody is told. *)
Definition demo_solver (orders : list (identity * Z)) (quotes : list (identity * Z)) : option (list (identity * spec_float)) :=
  match orders with (_, tenths) :: _ => Some (map (fun q => (fst q, div double (of_Z double tenths) (of_Z double 10))) quotes) | [] => None end.
Example C105_example :
  setter_acts demo_solver [(5, 9, []); (5, 9, [(5, Order [1] 5 11)]); (5, 9, [(5, Order [2] 5 20)]); (6, 9, [])] (new_setter [([7], 100)] [[1]; [2]]) =
  Ret (mk_setter true [([7], 220)] 6 [[1]; [2]],
    [[mk_quotation [1] 5 [([7], 100)]; mk_quotation [2] 5 [([7], 100)]]; [mk_quotation [1] 6 [([7], 110)]; mk_quotation [2] 6 [([7], 110)]]; []; []]).
Proof. vm_compute. reflexivity. Qed.

(** ** C106 *)
(** Without orders to collect the price setter asks to act again at the same time. *)
Theorem C106_no_orders_refuted : forall D solver lower upper (inbox : list (Z * letter D)) s s' ms t, 0 <= lower < 2 ^ 64 - 1 ->
  (forall received sender sent content l, inbox = (received, Order sender sent content) :: l -> sent < lower) ->
  Forall (fun x => forall sender sent content, snd x <> Order sender sent content) (tl inbox) ->
  setter_act solver lower upper inbox s = Ret (s', ms, t) -> t = lower.
Proof.
  intros D solver lower upper inbox s s' ms t B H F E. destruct (setter_act_ret solver _ _ _ _ _ _ _ B E) as (-> & _).
  enough (X : fst (collect lower inbox []) = []) by (now rewrite X).
  assert (G : forall l, Forall (fun x : Z * letter D => forall sender sent content, snd x <> Order sender sent content) l -> fst (collect lower l []) = []).
  { clear. induction 1 as [|[r [a b c|z]] l H F IH]; cbn [collect]; [reflexivity| |exact IH]. exfalso. now apply (H a b c). }
  destruct inbox as [|[r [a b c|z]] l]; cbn [collect tl] in *; [reflexivity| |now apply G].
  specialize (H r a b c l eq_refl). replace (b <? lower) with true by lia. reflexivity.
Qed.
Print Assumptions C106_no_orders_refuted.
(** The impact market does after time 1; and whenever an order of an earlier step comes up. *)
Theorem C106_impact_refuted : forall lower upper inbox s s' ms calls t, 1 < lower ->
  Forall (fun x => match snd x with Order _ sent _ => sent < lower | Other _ => True end) inbox ->
  impact_act lower upper inbox s = (s', ms, calls, t) -> t = lower.
Proof.
  intros lower upper inbox s s' ms calls t L F. unfold impact_act. destruct (i_clearing s); [|intros H; injection H as _ _ _ <-; reflexivity].
  assert (E : fst (collect lower inbox []) = []).
  { clear - F. induction F as [|[r [a b c|z]] l H F IH]; cbn [collect]; [reflexivity| |exact IH]. cbn in H. replace (b <? lower) with true by lia. reflexivity. }
  destruct (collect lower inbox []) as [orders st]. cbn in E. subst orders. intros H. injection H as _ _ _ <-. replace (lower >? 1) with true by lia. reflexivity.
Qed.
Print Assumptions C106_impact_refuted.
(** So does a single order of an earlier step, whatever was ordered in this one; with orders of this step only, the market waits for the end of the interval. *)
Theorem C106_stale_refuted : forall lower upper inbox s s' ms calls t,
  Exists (fun x => match snd x with Order _ sent _ => sent < lower | Other _ => False end) inbox ->
  impact_act lower upper inbox s = (s', ms, calls, t) -> t = lower.
Proof.
  intros lower upper inbox s s' ms calls t H. unfold impact_act. destruct (i_clearing s); [|intros E; injection E as _ _ _ <-; reflexivity].
  assert (G : forall l (orders : list (identity * volumes)), Exists (fun x : Z * letter volumes => match snd x with Order _ sent _ => sent < lower | Other _ => False end) l -> snd (collect lower l orders) = true).
  { clear. induction l as [|[r [a b c|z]] l IH]; intros orders E; cbn [collect]; [inversion E| |].
    - destruct (b <? lower) eqn:L; [reflexivity|]. apply IH. inversion E as [? ? X|]; subst; [cbn in X; lia|assumption].
    - apply IH. inversion E as [? ? X|]; subst; [contradiction|assumption]. }
  specialize (G inbox [] H). destruct (collect lower inbox []) as [orders st]. cbn in G. subst st. destruct orders as [|o os].
  - intros E. injection E as _ _ _ <-. destruct (lower >? 1); reflexivity.
  - destruct (clear_impact _ _). intros E. injection E as _ _ _ <-. reflexivity.
Qed.
Print Assumptions C106_stale_refuted.
Theorem C106_orders_go_on : forall lower upper inbox s s' ms calls t, i_clearing s = true ->
  Forall (fun x => match snd x with Order _ sent _ => lower <= sent | Other _ => True end) inbox ->
  Exists (fun x => exists sender sent content, snd x = Order sender sent content) inbox ->
  impact_act lower upper inbox s = (s', ms, calls, t) -> t = upper.
Proof.
  intros lower upper inbox s s' ms calls t C F H. unfold impact_act. rewrite C.
  assert (G : forall l (orders : list (identity * volumes)), Forall (fun x : Z * letter volumes => match snd x with Order _ sent _ => lower <= sent | Other _ => True end) l ->
    snd (collect lower l orders) = false /\ (orders <> [] \/ Exists (fun x : Z * letter volumes => exists sender sent content, snd x = Order sender sent content) l -> fst (collect lower l orders) <> [])).
  { clear. induction l as [|[r [a b c|z]] l IH]; intros orders E; cbn [collect].
    - split; [reflexivity|]. intros [N|X]; [exact N|inversion X].
    - inversion E as [|? ? X Y]; subst. cbn in X. replace (b <? lower) with false by lia. destruct (IH (emplace_order orders a c) Y) as [I1 I2].
      split; [exact I1|]. intros _. apply I2. left. unfold emplace_order. destruct (existsb _ orders) eqn:K; [destruct orders; [discriminate K|discriminate]|destruct orders; discriminate].
    - inversion E as [|? ? X Y]; subst. destruct (IH orders Y) as [I1 I2]. split; [exact I1|]. intros [N|H]; apply I2; [now left|right]. inversion H as [? ? (s1 & s2 & s3 & K)|]; subst; [discriminate K|assumption]. }
  destruct (G inbox [] F) as [G1 G2]. specialize (G2 (or_intror H)). destruct (collect lower inbox []) as [orders st]. cbn in G1, G2. subst st. destruct orders as [|o os]; [congruence|].
  destruct (clear_impact _ _). intros E. injection E as _ _ _ <-. reflexivity.
Qed.
Print Assumptions C106_orders_go_on.
Example C106_impact_example :
  snd (impact_act 3 10 [(3, Order [1] 3 []); (3, Order [2] 2 [])] (mk_impact true [] [])) = 3 /\
  snd (impact_act 3 10 [(3, Order [1] 3 [])] (mk_impact true [] [])) = 10.
Proof. split; reflexivity. Qed.
(** An agent that does so holds up the whole simulation: no step at that time ever ends, whatever the other agents do. *)
Theorem C106_simulation_stops : forall St hash shuffle (w : world St) lower upper i a fuel n, Simulation_spec.well_formed w ->
  im_find i (agents w) = Some a -> (forall upper s o, snd (ag_act a lower upper s o) = lower) -> is_due w lower i ->
  forall r, rounds hash shuffle fuel lower upper n w <> Some (Ret r).
Proof.
  intros St hash shuffle w lower upper i a fuel n W Ha H [_ D]. apply (blocked_forever hash shuffle lower upper i fuel n w W). exists a. split; [exact Ha|]. split; [exact H|].
  destruct D as [D|D]; [right; exists lower; split; [exact D|lia]|now left].
Qed.
Print Assumptions C106_simulation_stops.
(** A price setter as an agent to which nobody sends orders. Its quotes are not among the messages here. *)
Definition lonely_setter : action (St := setter) :=
  fun lower upper _ o => match setter_act (D := Z) demo_solver lower upper [] (fst o) with Ret (s', _, t) => ((s', snd o), t) | _ => (o, upper) end.
Example C106_example :
  rounds (fun _ => 0) (fun _ l => l) 50 3 10 0 (mk_world [([4], mk_agent (new_communicator false) lonely_setter [] (new_setter [([7], 100)] [], []))] [] 10 0) = None /\
  setter_act demo_solver 3 10 [(3, Order [1] 2 5); (3, Other 3)] (new_setter [([7], 100)] []) = Ret (mk_setter true [([7], 100)] 3 [], [], 3) /\
  snd (impact_act 3 10 [(3, Order [1] 2 [])] (new_impact [] [])) = 3.
Proof. vm_compute. repeat split. Qed.

(** ** C107 *)
(** The orders that count: of each sender the first among those before any order of an earlier step. *)
Theorem C107_counted_exactly : forall D lower (inbox : list (Z * letter D)), exists before, before_stale lower inbox before /\
  NoDup (map fst (fst (collect lower inbox []))) /\
  forall sender content, In (sender, content) (fst (collect lower inbox [])) <-> first_order sender content before.
Proof.
  intros D lower inbox. destruct (collect_spec lower inbox []) as (b & B & N & S); [constructor|]. exists b. split; [exact B|]. split; [exact N|].
  intros s d. rewrite S. split; [intros [[]|[_ H]]; exact H|]. intros H. right. split; [intros (x & [])|exact H].
Qed.
Print Assumptions C107_counted_exactly.
(** Orders behind one of an earlier step are not counted: the market acts as if there were none. *)
Theorem C107_hidden_refuted : forall D solver lower upper received sender sent content (l : list (Z * letter D)) s, sent < lower ->
  setter_act solver lower upper ((received, Order sender sent content) :: l) s = setter_act solver lower upper [] s.
Proof. intros. unfold setter_act. cbn [collect]. replace (sent <? lower) with true by lia. reflexivity. Qed.
Print Assumptions C107_hidden_refuted.
(** The time of delivery plays no role: orders count before they are delivered. *)
Theorem C107_early_refuted : forall D solver lower upper (inbox inbox' : list (Z * letter D)) s,
  map snd inbox = map snd inbox' -> setter_act solver lower upper inbox s = setter_act solver lower upper inbox' s.
Proof.
  intros D solver lower upper inbox inbox' s E. unfold setter_act. enough (X : forall o, collect lower inbox o = collect lower inbox' o) by (now rewrite X). revert inbox' E.
  induction inbox as [|[r x] l IH]; intros [|[r' x'] l'] E o; try discriminate; [reflexivity|]. cbn in E. injection E as <- E. cbn [collect]. destruct x as [a b c|b]; [destruct (b <? lower)|]; auto.
Qed.
Print Assumptions C107_early_refuted.
Example C107_example :
  let s := mk_setter true [([7], 100)] 5 [[1]] in
  setter_act demo_solver 5 9 [(8, Order [1] 5 11)] s = Ret (mk_setter true [([7], 110)] 6 [[1]], [mk_quotation [1] 6 [([7], 110)]], 6) /\
  fst (collect 5 [(5, Order [1] 5 11); (5, Other 5); (5, Order [1] 5 12); (5, Order [2] 5 13); (5, Order [3] 4 14); (5, Order [4] 5 15)] []) = [([1], 11); ([2], 13)].
Proof. vm_compute. split; reflexivity. Qed.

(** ** C108 *)
(** Whatever is ordered, the quotes of an impact market stay those it was created with; only
    properties quoted at zero are added. *)
Theorem C108_prices_never_move_refuted : forall quotes participants l s' mss, impact_acts l (new_impact quotes participants) = (s', mss) ->
  forall ms n, In ms mss -> In n ms -> exists extra, n_quotes n = quotes ++ extra /\ Forall (fun x => snd x = 0) extra.
Proof.
  intros quotes participants l s' mss E ms n Hms Hn. destruct (impact_acts_quotes l _ _ _ E) as [F _]. rewrite Forall_forall in F. specialize (F ms Hms). rewrite Forall_forall in F. exact (F n Hn).
Qed.
Print Assumptions C108_prices_never_move_refuted.
(** The first time a market acts it sends every participant the quotes it was made with, for the next step, calls no impact function and asks to be
    called again at once, whatever orders there are. *)
Theorem C108_first : forall quotes participants lower upper inbox s' ms calls t, impact_act lower upper inbox (new_impact quotes participants) = (s', ms, calls, t) ->
  map n_recipient ms = participants /\ Forall (fun n => n_quotes n = quotes /\ n_received n = w64 (lower + 1)) ms /\ calls = [] /\ t = lower /\ i_clearing s' = true /\ i_quotes s' = quotes /\ i_participants s' = participants.
Proof.
  intros quotes participants lower upper inbox s' ms calls t E. injection E as <- <- <- <-. split; [now rewrite map_map, map_id|]. split; [apply Forall_map, Forall_forall; intros x _; now split|]. repeat split.
Qed.
Print Assumptions C108_first.
(** An order for a property that is not traded has it quoted at zero to all participants. *)
Theorem C108_untraded_refuted : forall lower upper (inbox : list (Z * letter volumes)) s s' ms calls t orders sender vs p x n, i_clearing s = true ->
  fst (collect lower inbox []) = orders -> In (sender, vs) orders -> In (p, x) vs -> ~ In p (map fst (i_quotes s)) ->
  impact_act lower upper inbox s = (s', ms, calls, t) -> In n ms -> In (p, 0) (n_quotes n).
Proof.
  intros lower upper inbox s s' ms calls t orders sender vs p x n C Eo Ho Hv Np E Hn.
  destruct (impact_act_quotes _ _ _ _ _ _ _ _ E) as ((_ & A) & _). rewrite Forall_forall in A. destruct (A n Hn) as [_ ->].
  unfold impact_act in E. rewrite C in E. destruct (collect lower inbox []) as [os st]. cbn in Eo. subst os. destruct orders as [|o orders]; [contradiction|].
  unfold clear_impact in E. cbv beta iota zeta in E. injection E as E _ _ _. rewrite <- E. cbn [i_quotes].
  destruct (touched (map fst (net_volumes (o :: orders))) (i_quotes s)) as (extra & -> & Z & P & _).
  assert (K : In p (map fst (net_volumes (o :: orders)))) by (eapply net_keys; eauto).
  specialize (P p K). rewrite map_app in P. apply in_app_or in P. destruct P as [P|P]; [contradiction|]. apply in_map_iff in P. destruct P as ([k v] & Ek & Hk). cbn in Ek. subst k.
  rewrite Forall_forall in Z. specialize (Z _ Hk). cbn in Z. subst v. apply in_or_app. now right.
Qed.
Print Assumptions C108_untraded_refuted.
(** What the impact function is given for a property: the number of orders to sell nothing less the number of orders to
    sell one. *)
Theorem C108_volume_exactly : forall orders quotes p, 
  value_of p (snd (clear_impact orders quotes)) = sells p 0 orders - sells p 1 orders.
Proof. intros. apply net_sells. Qed.
Print Assumptions C108_volume_exactly.
(** So any demand to buy counts for nothing. *)
Theorem C108_buying_refuted : forall orders quotes p, (forall sender vs q v, In (sender, vs) orders -> In (q, v) vs -> snd v = Buy) ->
  value_of p (snd (clear_impact orders quotes)) = 0.
Proof.
  intros orders quotes p H. rewrite C108_volume_exactly. enough (forall v, sells p v orders = 0) as E by (rewrite !E; reflexivity).
  intros v. unfold sells. induction orders as [|[a vs] l IH]; [reflexivity|]. cbn [map zsum fold_right]. unfold zsum in *. rewrite IH by (intros ? ? ? ? X Y; eapply H; [right; exact X|exact Y]). cbn [snd].
  enough (fold_right Z.add 0 (map (fun pv : identity * (Z * side) => if id_eqb p (fst pv) && (fst (snd pv) =? v) then match snd (snd pv) with Buy => 0 | Sell => 1 end else 0) vs) = 0) by lia.
  assert (G : forall q u, In (q, u) vs -> snd u = Buy) by (intros q u X; eapply H; [now left|exact X]). clear H IH. induction vs as [|[q [u s]] vs IHv]; [reflexivity|]. cbn [map fold_right fst snd].
  rewrite IHv by (intros q' u' X; eapply G; right; exact X). pose proof (G q (u, s) (or_introl eq_refl)) as X. cbn in X. subst s. destruct (_ && _); reflexivity.
Qed.
Print Assumptions C108_buying_refuted.
Example C108_example :
  let orders := [([1], [([7], (1000, Buy)); ([9], (5, Sell))]); ([2], [([7], (1, Sell))])] in
  demand [7] orders = 999 /\ clear_impact orders [([7], 100)] = ([([7], 100); ([9], 0)], [([7], -1); ([9], 0)]) /\
  snd (fst (fst (impact_act 3 10 (map (fun o => (3, Order (fst o) 3 (snd o))) orders) (mk_impact true [([7], 100)] [[1]; [2]])))) =
    [mk_quotation [1] 4 [([7], 100); ([9], 0)]; mk_quotation [2] 4 [([7], 100); ([9], 0)]].
Proof. vm_compute. repeat split. Qed.
