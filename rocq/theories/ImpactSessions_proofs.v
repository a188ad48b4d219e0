From Verif Require Import Base Identity Identity_proofs IdMap IdMap_proofs Multimap Multimap_proofs Communicator Communicator_spec Communicator_proofs
  Simulation Simulation_spec Simulation_proofs Simulation_proofs2 Simulation_proofs3 Walras Markets Markets_proofs Messages ImpactSessions ImpactSessions_spec.
From Coq Require Import ZifyBool ZifyNat.

(** ** Messages of one type with one callback *)
Section Callbacks.
Context {St : Type} (shuffle : seed -> list message -> list message) (Hsh : forall s l, Permutation (shuffle s l) l).
Lemma one_message c p (f : callback (@own St)) lower upper s m o : fm_find (m_type m) (callbacks c) = Some [(p, f)] -> lower <= upper -> snd (f m lower upper s o) = upper ->
  process_message c lower upper s m o = Ret (fst (f m lower upper s o), upper).
Proof.
  intros E L U. unfold process_message. rewrite E. cbn [rev app call_all]. destruct (f m lower upper s o) as [o' t]. cbn in U. subst t.
  replace ((lower <=? upper) && (upper <=? upper)) with true by lia. rewrite Z.min_id. reflexivity.
Qed.
Lemma all_messages c k p (f : callback (@own St)) lower upper s ms : fm_find (kind_code k) (callbacks c) = Some [(p, f)] ->
  forall o, Forall (fun m => m_type m = kind_code k) ms -> lower <= upper -> (forall m o, snd (f m lower upper s o) = upper) ->
  handle_all c lower upper s ms upper o = Ret (fold_left (fun o m => fst (f m lower upper s o)) ms o, upper).
Proof.
  intros Ef. induction ms as [|m ms IH]; intros o F L U; [reflexivity|]. apply Forall_cons_iff in F. destruct F as [F1 F]. cbn [handle_all].
  rewrite (one_message c p f lower upper s m o); [|now rewrite F1|exact L|exact (U m o)]. rewrite Z.min_id. now apply IH.
Qed.
Lemma one_callback b rs c k p (f : callback (@own St)) lower upper s inbox o : registers (new_communicator b) rs c -> Forall (fun r => int8 (r_priority r)) rs ->
  fm_find (kind_code k) (callbacks c) = Some [(p, f)] -> existsb (fun r => r_type r =? kind_code k) rs = true ->
  StronglySorted key_le inbox -> Forall (fun x => fst x <= lower -> m_type (snd x) = kind_code k) inbox ->
  lower <= upper -> (forall m o, snd (f m lower upper s o) = upper) ->
  exists order, Permutation order (due lower inbox) /\
    process_messages (lock c) shuffle lower upper s inbox o = Ret (fold_left (fun o m => fst (f m lower upper s o)) order o, upper).
Proof.
  intros R I8 Ef Hk S F L U. unfold process_messages.
  assert (Eo : handling_order (lock c) shuffle lower s inbox = handling_order c shuffle lower s inbox).
  { unfold handling_order. f_equal. f_equal. f_equal. f_equal. generalize (@nil (Z * message)). clear. induction inbox as [|[t m] l IH]; intros acc; [reflexivity|]. cbn [by_priority].
    change (callbacks (lock c)) with (callbacks c). destruct (t >? lower); [reflexivity|]. destruct (fm_find (m_type m) (callbacks c)) as [[|x y]|]; apply IH. }
  destruct (order_spec b rs c shuffle lower s inbox R I8 S Hsh) as (P & _).
  assert (Ft : Forall (fun m => m_type m = kind_code k) (due lower inbox)).
  { unfold due. apply Forall_forall. intros m Hm. apply in_map_iff in Hm. destruct Hm as (x & <- & Hx). apply filter_In in Hx. destruct Hx as [Hx Hl]. rewrite Forall_forall in F. apply F; [exact Hx|lia]. }
  assert (X : filter (handled rs) (due lower inbox) = due lower inbox).
  { apply filter_all. eapply Forall_impl; [|exact Ft]. intros m Hm. unfold handled. rewrite Hm. exact Hk. }
  rewrite X in P. exists (handling_order c shuffle lower s inbox). split; [exact P|]. rewrite Eo. apply (all_messages (lock c) k p); [exact Ef| |exact L|exact U].
  apply Forall_forall. intros m Hm. apply (Permutation_in _ P) in Hm. rewrite Forall_forall in Ft. now apply Ft.
Qed.
Lemma no_mail (c : communicator (@own St)) lower upper s o : process_messages c shuffle lower upper s [] o = Ret (o, upper).
Proof. reflexivity. Qed.
End Callbacks.

Section Turns.
Context {T : Type} (encode : list (identity * Z) -> Z) (order_of : Z -> volumes) (answer : identity -> Z -> T -> Z -> T * Z) (stamped : bool).
Context (shuffle : seed -> list message -> list message).
Context (Hsh : forall s l, Permutation (shuffle s l) l).

(** *** The turn of a participant. *)
Notation comm b i := (lock (registered (new_communicator b) ImpactQuote (answer_callback answer stamped i))).
Notation the_trader b i inbox st := (mk_agent (comm b i) trader_action inbox st).
Definition stamp (t : Z) : Z := if stamped then t else 0.
Lemma trader_registers b i : exists c, registers (new_communicator b) [mk_registration (kind_code ImpactQuote) 0 (answer_callback (T:=T) answer stamped i)] c /\ comm b i = lock c /\
  fm_find (kind_code ImpactQuote) (callbacks c) = Some [(0, answer_callback answer stamped i)].
Proof. eexists. split; [econstructor; [reflexivity|constructor]|]. split; reflexivity. Qed.
Lemma perm_repeat {X} (x : X) n : forall l, Permutation l (repeat x n) -> l = repeat x n.
Proof.
  induction n as [|n IH]; intros l P; cbn [repeat] in *; [now apply Permutation_sym, Permutation_nil in P|].
  destruct l as [|y l]; [apply Permutation_nil in P; discriminate|]. assert (y = x). { assert (In y (x :: repeat x n)) by (apply (Permutation_in _ P); now left). destruct H as [->|H]; [reflexivity|now apply repeat_spec in H]. }
  subst y. f_equal. apply IH. now apply Permutation_cons_inv in P.
Qed.
Lemma answered_all i lower upper s m n : forall t out, fold_left (fun o m => fst (answer_callback answer stamped i m lower upper s o)) (repeat m n) ((Trader t, out) : @own (party T)) =
  (Trader (fst (answers answer i lower n t (m_body m))), out ++ map (mk_message (kind_code ImpactOrder) i (m_sender m) (stamp lower) lower) (snd (answers answer i lower n t (m_body m)))).
Proof.
  induction n as [|n IH]; intros t out; [cbn; now rewrite app_nil_r|]. cbn [repeat fold_left answers]. unfold answer_callback at 2. cbn [fst snd]. destruct (answer i lower t (m_body m)) as [t1 b]. cbn [fst]. rewrite IH.
  destruct (answers answer i lower n t1 (m_body m)) as [t2 bs]. cbn [fst snd map]. rewrite <- app_assoc. reflexivity.
Qed.
Lemma sorted_repeat (x : Z * message) n : StronglySorted key_le (repeat x n).
Proof. induction n as [|n IH]; cbn [repeat]; constructor; [exact IH|]. apply Forall_forall. intros y Hy. apply repeat_spec in Hy. subst y. unfold key_le. lia. Qed.
Lemma trader_turn b i lower upper s m n t : lower < upper -> m_type m = kind_code ImpactQuote ->
  handle shuffle (the_trader b i (repeat (lower, m) n) (Trader t, [])) lower upper s =
  Ret ((Trader (fst (answers answer i lower n t (m_body m))), map (mk_message (kind_code ImpactOrder) i (m_sender m) (stamp lower) lower) (snd (answers answer i lower n t (m_body m)))), upper).
Proof using Hsh order_of answer.
  intros L E. unfold handle. cbn [ag_comm ag_inbox ag_own ag_act]. destruct (trader_registers b i) as (c & R & -> & Eq).
  destruct (one_callback shuffle Hsh b _ c ImpactQuote 0 (answer_callback answer stamped i) lower upper s (repeat (lower, m) n) (Trader t, []) R) as (order & P & ->).
  - repeat constructor; unfold int8; cbn; lia.
  - exact Eq.
  - reflexivity.
  - apply sorted_repeat.
  - apply Forall_forall. intros x Hx _. apply repeat_spec in Hx. now subst x.
  - lia.
  - intros m0 [[]]; [reflexivity|]. unfold answer_callback. cbn [fst]. destruct (answer i lower t0 (m_body m0)). reflexivity.
  - assert (Ed : due lower (repeat (lower, m) n) = repeat m n).
    { unfold due. rewrite filter_all; [|apply Forall_forall; intros x Hx; apply repeat_spec in Hx; subst x; cbn; lia]. clear. induction n as [|n IH]; [reflexivity|]. cbn [repeat map snd]. now rewrite IH. }
    rewrite Ed in P. apply perm_repeat in P. subst order. rewrite answered_all. unfold trader_action. cbn [app]. rewrite Z.min_id. reflexivity.
Qed.
Lemma trader_idle b i lower upper s t : handle shuffle (the_trader b i [] (Trader t, [])) lower upper s = Ret ((Trader t, []), upper).
Proof. unfold handle. cbn [ag_comm ag_inbox ag_own ag_act]. rewrite no_mail. unfold trader_action. rewrite Z.min_id. reflexivity. Qed.

(** *** The turn of the market. *)
Lemma emplaced (orders : list (identity * volumes)) i d : NoDup (map fst orders) ->
  NoDup (map fst (emplace_order orders i d)) /\ (forall x, In x (emplace_order orders i d) -> In x orders \/ x = (i, d)) /\ (forall j, In j (map fst (emplace_order orders i d)) <-> In j (map fst orders) \/ j = i).
Proof.
  intros N. unfold emplace_order. destruct (existsb (fun x => id_eqb (fst x) i) orders) eqn:E.
  - split; [exact N|]. split; [tauto|]. intros j. split; [tauto|]. intros [H| ->]; [exact H|]. apply existsb_exists in E. destruct E as (x & Hx & Ex). apply id_eqb_eq in Ex. subst i. now apply in_map.
  - assert (Hi : ~ In i (map fst orders)). { intros H. apply in_map_iff in H. destruct H as (x & <- & Hx). apply not_true_iff_false in E. apply E. apply existsb_exists. exists x. split; [exact Hx|apply id_eqb_refl]. }
    rewrite map_app. cbn [map fst]. split; [|split].
    + apply (Permutation_NoDup (l := i :: map fst orders)); [apply Permutation_cons_append|]. now constructor.
    + intros x Hx. apply in_app_or in Hx. destruct Hx as [Hx|[<- |[]]]; auto.
    + intros j. rewrite in_app_iff. cbn. intuition.
Qed.
Lemma collected lower ms : forall acc : list (identity * volumes), Forall (fun m => m_sent m = lower) ms -> NoDup (map fst acc) ->
  let orders := fst (collect lower (map (volumes_of order_of) ms) acc) in
  snd (collect lower (map (volumes_of order_of) ms) acc) = false /\ NoDup (map fst orders) /\
  (forall x, In x orders -> In x acc \/ exists m, In m ms /\ x = (m_sender m, order_of (m_body m))) /\ (forall j, In j (map fst orders) <-> In j (map fst acc) \/ In j (map m_sender ms)).
Proof.
  induction ms as [|m ms IH]; intros acc F N; cbn zeta; cbn [map collect volumes_of].
  - cbn [fst snd]. split; [reflexivity|]. split; [exact N|]. split; [auto|]. intros j. cbn. tauto.
  - apply Forall_cons_iff in F. destruct F as [F1 F]. rewrite F1, Z.ltb_irrefl. destruct (emplaced acc (m_sender m) (order_of (m_body m)) N) as (N1 & I1 & K1).
    destruct (IH (emplace_order acc (m_sender m) (order_of (m_body m))) F N1) as (E2 & N2 & I2 & K2). split; [exact E2|]. split; [exact N2|]. split.
    + intros x Hx. destruct (I2 x Hx) as [H|(m' & Hm & ->)]; [destruct (I1 x H) as [H'| ->]; [now left|right; exists m; split; [now left|reflexivity]]|right; exists m'; split; [now right|reflexivity]].
    + intros j. rewrite K2, K1. cbn [In]. intuition.
Qed.
Lemma collected_stale lower m ms : m_sent m < lower -> collect lower (map (volumes_of order_of) (m :: ms)) [] = ([], true).
Proof. intros H. cbn [map collect volumes_of]. destruct (Z.ltb_spec (m_sent m) lower); [reflexivity|lia]. Qed.
Lemma keys_net (orders : list (identity * volumes)) p : In p (map fst (net_volumes orders)) -> exists o, In o orders /\ In p (map fst (snd o)).
Proof.
  unfold net_volumes. enough (forall m, In p (map fst (fold_left (fun m (o : identity * volumes) => fold_left (fun m pv => bump (fst pv) (volume_change (snd pv)) m) (snd o) m) orders m)) ->
    In p (map fst m) \/ exists o, In o orders /\ In p (map fst (snd o))) as H. { intros Hp. destruct (H [] Hp) as [[]|H']; exact H'. }
  assert (B : forall q d m, In p (map fst (bump q d m)) -> p = q \/ In p (map fst m)).
  { intros q d. induction m as [|[k v] m IH]; cbn [bump map fst]; [intros [->|[]]; auto|]. destruct (id_eqb q k); cbn [map fst]; [auto|]. intros [H|H]; [right; now left|]. destruct (IH H) as [H'|H']; [now left|right; now right]. }
  assert (B2 : forall vs m, In p (map fst (fold_left (fun m (pv : identity * (Z * side)) => bump (fst pv) (volume_change (snd pv)) m) vs m)) -> In p (map fst m) \/ In p (map fst vs)).
  { induction vs as [|pv vs IH]; intros m H; [now left|]. cbn [fold_left] in H. destruct (IH _ H) as [H'|H']; [|right; now right]. destruct (B _ _ _ H') as [->|H2]; [right; now left|now left]. }
  induction orders as [|o orders IH]; intros m H; [now left|]. cbn [fold_left] in H. destruct (IH _ H) as [H'|(o' & Ho & Hp)]; [|right; exists o'; split; [now right|exact Hp]].
  destruct (B2 _ _ H') as [H2|H2]; [now left|right; exists o; split; [now left|exact H2]].
Qed.
Lemma cleared (orders : list (identity * volumes)) q : exists extra, clear_impact orders q = (q ++ extra, net_volumes orders) /\ Forall (fun x => snd x = 0 /\ exists o, In o orders /\ In (fst x) (map fst (snd o))) extra.
Proof.
  unfold clear_impact. destruct (touched (map fst (net_volumes orders)) q) as (extra & -> & Z0 & _ & K). exists extra. split; [reflexivity|]. apply Forall_forall. intros x Hx. rewrite Forall_forall in Z0. split; [now apply Z0|]. apply keys_net. now apply K.
Qed.
Lemma delivered_all lower upper s order : forall st delivered log out, fold_left (fun o m => fst (volumes_callback m lower upper s o)) order ((Impact st delivered log, out) : @own (party T)) = (Impact st (delivered ++ order) log, out).
Proof. induction order as [|m order IH]; intros; [cbn; now rewrite app_nil_r|]. cbn [fold_left volumes_callback fst snd]. rewrite IH, <- app_assoc. reflexivity. Qed.
Lemma volumes_callback_time lower upper s m (o : @own (party T)) : snd (volumes_callback m lower upper s o) = upper.
Proof. destruct o as [[]]; reflexivity. Qed.
Notation the_market b mk inbox st := (mk_agent (lock (registered (new_communicator b) ImpactOrder volumes_callback)) (impact_action encode order_of mk) inbox st).
Notation quotes_at mk t q ps := (map (fun p => impact_quote encode mk (mk_quotation p t q)) ps).

Lemma market_opens b mk upper s q ps : 0 <= upper ->
  handle shuffle (the_market b mk [] (Impact (T:=T) (new_impact q ps) [] [], [])) 0 upper s = Ret ((Impact (mk_impact true q ps) [] [], quotes_at mk 1 q ps), 0).
Proof using encode order_of answer Hsh. intros L. unfold handle. cbn [ag_comm ag_inbox ag_own ag_act]. rewrite no_mail. unfold impact_action, impact_act, new_impact. cbn [fst snd map i_clearing i_quotes i_participants app]. change (w64 (0 + 1)) with 1. rewrite map_map, Z.min_r by lia. reflexivity. Qed.
Lemma market_idle b mk lower upper s q ps log : 0 <= lower < upper -> upper < W64 ->
  handle shuffle (the_market b mk [] (Impact (T:=T) (mk_impact true q ps) [] log, [])) lower upper s = Ret ((Impact (mk_impact true q ps) [] log, quotes_at mk (lower + 1) q ps), if lower >? 1 then lower else upper).
Proof using encode order_of answer Hsh.
  intros L U. unfold handle. cbn [ag_comm ag_inbox ag_own ag_act]. rewrite no_mail. unfold impact_action, impact_act. cbn [fst snd map collect i_clearing i_quotes i_participants app].
  replace (w64 (lower + 1)) with (lower + 1) by (unfold w64; rewrite Z.mod_small; lia). rewrite map_map. f_equal. f_equal. destruct (lower >? 1); lia.
Qed.
Lemma market_gets b mk lower upper s st inbox msgs log : lower <= upper ->
  StronglySorted key_le inbox -> Permutation inbox (map (fun m => (lower, m)) msgs) -> Forall (fun m => m_type m = kind_code ImpactOrder) msgs ->
  exists order, Permutation order msgs /\ forall o t, impact_action encode order_of mk lower upper s (Impact (T:=T) st order log, []) = (o, t) -> t <= upper ->
    handle shuffle (the_market b mk inbox (Impact (T:=T) st [] log, [])) lower upper s = Ret (o, t).
Proof using Hsh order_of answer.
  intros L S P F. unfold handle. cbn [ag_comm ag_inbox ag_own ag_act].
  assert (R : exists c, registers (new_communicator b) [mk_registration (kind_code ImpactOrder) 0 (volumes_callback (T:=T))] c /\ lock (registered (new_communicator b) ImpactOrder (volumes_callback (T:=T))) = lock c /\
    fm_find (kind_code ImpactOrder) (callbacks c) = Some [(0, volumes_callback (T:=T))]).
  { eexists. split; [econstructor; [reflexivity|constructor]|]. split; reflexivity. }
  destruct R as (c & R & -> & Ec).
  destruct (one_callback shuffle Hsh b _ c ImpactOrder 0 (volumes_callback (T:=T)) lower upper s inbox (Impact st [] log, []) R) as (order & Po & ->).
  - repeat constructor; unfold int8; cbn; lia.
  - exact Ec.
  - reflexivity.
  - exact S.
  - apply Forall_forall. intros x Hx _. apply (Permutation_in _ P) in Hx. apply in_map_iff in Hx. destruct Hx as (m & <- & Hm). cbn. rewrite Forall_forall in F. now apply F.
  - lia.
  - intros. apply volumes_callback_time.
  - assert (Pd : Permutation (due lower inbox) msgs).
    { unfold due. rewrite filter_all; [rewrite (Permutation_map snd P), map_map; cbn; now rewrite map_id|]. apply Forall_forall. intros x Hx. apply (Permutation_in _ P) in Hx. apply in_map_iff in Hx. destruct Hx as (m & <- & _). cbn. lia. }
    rewrite Pd in Po. exists order. split; [exact Po|]. intros o t Ea Lt. rewrite delivered_all. cbn [app]. rewrite Ea, Z.min_r by lia. reflexivity.
Qed.
Lemma market_clears b mk lower upper s q ps inbox msgs log : 0 <= lower -> lower < upper -> upper < W64 ->
  StronglySorted key_le inbox -> Permutation inbox (map (fun m => (lower, m)) msgs) ->
  Forall (fun m => m_type m = kind_code ImpactOrder /\ m_sent m = lower) msgs -> msgs <> [] ->
  exists orders extra, NoDup (map fst orders) /\ (forall x, In x orders -> exists m, In m msgs /\ x = (m_sender m, order_of (m_body m))) /\ (forall j, In j (map fst orders) <-> In j (map m_sender msgs)) /\
  Forall (fun x => snd x = 0 /\ exists o, In o orders /\ In (fst x) (map fst (snd o))) extra /\
    handle shuffle (the_market b mk inbox (Impact (T:=T) (mk_impact true q ps) [] log, [])) lower upper s =
    Ret ((Impact (mk_impact true (q ++ extra) ps) [] (log ++ [(lower, (net_volumes orders, q ++ extra))]), quotes_at mk (lower + 1) (q ++ extra) ps), upper).
Proof using Hsh order_of answer.
  intros L0 L B S P F Ne.
  destruct (market_gets b mk lower upper s (mk_impact true q ps) inbox msgs log) as (order & Po & Hh); [lia|exact S|exact P|eapply Forall_impl; [|exact F]; cbn; tauto|].
  assert (Fo : Forall (fun m => m_sent m = lower) order). { apply Forall_forall. intros m Hm. apply (Permutation_in _ Po) in Hm. rewrite Forall_forall in F. now apply F. }
  destruct (collected lower order [] Fo (NoDup_nil _)) as (E0 & N & I & K). cbn zeta in *. destruct (collect lower (map (volumes_of order_of) order) []) as [orders stale] eqn:Ec. cbn [fst snd] in *. subst stale.
  destruct (cleared orders q) as (extra & Ecl & He). exists orders, extra. split; [exact N|]. split.
  { intros x Hx. destruct (I x Hx) as [[]|(m & Hm & ->)]. exists m. split; [now apply (Permutation_in _ Po)|reflexivity]. }
  split. { intros j. rewrite K. cbn [map In]. rewrite (Permutation_map m_sender Po). tauto. }
  split; [exact He|]. apply Hh; [|lia]. unfold impact_action, impact_act. cbn [fst snd i_clearing i_quotes i_participants]. rewrite Ec, Ecl. cbn [fst].
  destruct orders as [|o orders].
  { exfalso. destruct order as [|m order]; [apply Permutation_nil in Po; now subst|]. destruct (K (m_sender m)) as [_ K']. apply K'. right. now left. }
  cbn [i_quotes app]. replace (w64 (lower + 1)) with (lower + 1) by (unfold w64; rewrite Z.mod_small; lia). rewrite map_map. reflexivity.
Qed.
Lemma market_refuses b mk lower upper s q ps inbox msgs log : 0 <= lower -> lower < upper -> upper < W64 ->
  StronglySorted key_le inbox -> Permutation inbox (map (fun m => (lower, m)) msgs) ->
  Forall (fun m => m_type m = kind_code ImpactOrder /\ m_sent m < lower) msgs -> msgs <> [] ->
  handle shuffle (the_market b mk inbox (Impact (T:=T) (mk_impact true q ps) [] log, [])) lower upper s =
    Ret ((Impact (mk_impact true q ps) [] log, quotes_at mk (lower + 1) q ps), lower).
Proof using Hsh order_of answer.
  intros L0 L B S P F Ne.
  destruct (market_gets b mk lower upper s (mk_impact true q ps) inbox msgs log) as (order & Po & Hh); [lia|exact S|exact P|eapply Forall_impl; [|exact F]; cbn; tauto|].
  apply Hh; [|lia]. destruct order as [|m order]; [apply Permutation_nil in Po; now subst|].
  assert (Hm : m_sent m < lower). { rewrite Forall_forall in F. apply F. apply (Permutation_in _ Po). now left. }
  unfold impact_action, impact_act. cbn [fst snd i_clearing i_quotes i_participants]. rewrite (collected_stale lower m order Hm). cbn [fst i_quotes app].
  replace (w64 (lower + 1)) with (lower + 1) by (unfold w64; rewrite Z.mod_small; lia). rewrite map_map. destruct (lower >? 1); reflexivity.
Qed.
End Turns.
