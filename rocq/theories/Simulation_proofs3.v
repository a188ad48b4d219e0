From Verif Require Import Base Interval Interval_proofs Identity Identity_proofs Quantity IdMap IdMap_proofs Multimap Multimap_proofs
  Communicator Simulation Simulation_spec Simulation_proofs Simulation_proofs2.
From Coq Require Import ZifyBool ZifyNat.

Section Steps.
Context {St : Type}.
Context (hash : identity -> Z) (shuffle : seed -> list message -> list message).
Implicit Types (w : world St) (a : agent St) (p : @progress St).
Notation run_parts := (run_parts hash shuffle).
Notation act_phase := (act_phase hash shuffle).
Notation round := (round hash shuffle).
Notation rounds := (rounds hash shuffle).
Notation step := (step hash shuffle).
Notation handle := (handle shuffle).
Notation produces_future := (produces_future hash shuffle).
Notation visited := (visited hash shuffle).

Lemma wf_sorted w : well_formed w -> sorted_world w.
Proof. intros (A & B & _). split; assumption. Qed.
(** *** The schedule of agents seen for the first time. *)
Lemma emplace_all ids : forall (m : idmap Z) lower i, im_sorted m ->
  im_sorted (fold_left (fun t i => im_emplace i lower t) ids m) /\
  im_find i (fold_left (fun t i => im_emplace i lower t) ids m) =
    match im_find i m with Some t => Some t | None => if is_in ids i then Some lower else None end.
Proof.
  induction ids as [|j ids IH]; intros m lower i Hs; cbn [fold_left].
  - split; [exact Hs|]. cbn. destruct (im_find i m); reflexivity.
  - destruct (IH (im_emplace j lower m) lower i (im_emplace_sorted _ _ _ Hs)) as [H1 H2]. split; [exact H1|]. rewrite H2, im_find_emplace by exact Hs.
    cbn [is_in existsb]. fold (is_in ids i). destruct (id_eqb j i) eqn:E.
    + apply id_eqb_eq in E. subst j. destruct (im_find i m); reflexivity.
    + reflexivity.
Qed.
Lemma local_in w i : im_sorted (agents w) -> (local w i <-> In i (map fst (agents w))).
Proof.
  intros Hs. unfold local. split.
  - intros H. destruct (in_dec (list_eq_dec Z.eq_dec) i (map fst (agents w))) as [|X]; [assumption|]. apply im_find_none in X; [contradiction|exact Hs].
  - intros H E. apply im_find_none in E; [contradiction|exact Hs].
Qed.
Lemma schedule_new_find w lower i : sorted_world w ->
  im_find i (wake_up_times (schedule_new w lower)) =
    match im_find i (wake_up_times w) with Some t => Some t | None => if is_in (map fst (agents w)) i then Some lower else None end.
Proof. intros [_ H]. cbn. apply emplace_all. exact H. Qed.
Lemma begin_sorted w lower : sorted_world w -> sorted_progress (begin_round w lower).
Proof. intros [A B]. split; [split; [exact A|]|constructor]. cbn. apply (emplace_all _ _ lower [] B). Qed.
Lemma acting_nodup w lower : sorted_world w -> NoDup (acting w lower).
Proof. intros [A _]. apply NoDup_filter. apply im_keys_nodup. exact A. Qed.
Lemma acting_due w lower i : sorted_world w -> (In i (acting w lower) <-> is_due w lower i).
Proof. clear hash shuffle.
  intros [A B]. unfold acting, is_due. rewrite filter_In, <- local_in by exact A. destruct (im_find i (wake_up_times w)) as [t|].
  - split; intros [H1 H2]; split; auto; [left; f_equal; lia|]. destruct H2 as [[= ->]|]; [apply Z.eqb_refl|discriminate].
  - split; intros [H1 H2]; auto.
Qed.
Lemma keep_future_spec lower inbox : StronglySorted key_le inbox -> keep_future lower inbox = filter (fun x => fst x >? lower) inbox.
Proof. clear hash shuffle.
  intros Hs. unfold keep_future.
  assert (G : forall (l acc : list (Z * message)), StronglySorted key_le l -> (forall x y, In x acc -> In y l -> key_le x y) ->
     fold_left (fun acc tm => if fst tm >? lower then mm_insert (fst tm) (snd tm) acc else acc) l acc = acc ++ filter (fun x => fst x >? lower) l).
  { clear. induction l as [|[k m] l IH]; intros acc Hs Hlt; cbn [fold_left filter fst snd]; [now rewrite app_nil_r|]. inversion Hs as [|? ? Hs' Hf]; subst.
    destruct (k >? lower).
    - assert (E : mm_insert k m acc = acc ++ [(k, m)]).
      { clear IH Hs Hs' Hf. induction acc as [|[k' m'] acc IHa]; cbn; [reflexivity|].
        assert (key_le (k', m') (k, m)) by (apply Hlt; left; reflexivity). unfold key_le in H. cbn in H.
        destruct (Z.leb_spec k' k); [|lia]. rewrite IHa; [reflexivity|]. intros x y Hx Hy. apply Hlt; [right; exact Hx|exact Hy]. }
      rewrite E, IH; [now rewrite <- app_assoc|exact Hs'|]. intros x y Hx Hy. apply in_app_or in Hx. destruct Hx as [Hx|[<-|[]]]; [apply Hlt; [exact Hx|right; exact Hy]|].
      rewrite Forall_forall in Hf. now apply Hf.
    - apply IH; [exact Hs'|]. intros x y Hx Hy. apply Hlt; [exact Hx|right; exact Hy]. }
  apply (G inbox []); [exact Hs|intros x y []].
Qed.
Lemma inbox_sorted w i a : well_formed w -> im_find i (agents w) = Some a -> StronglySorted key_le (ag_inbox a).
Proof. intros (A & _ & C) H. apply im_find_in in H; [|exact A]. rewrite Forall_forall in C. exact (C _ H). Qed.

Lemma act_phase_spec lower upper n w p : well_formed w -> act_phase lower upper n w = Ret p ->
  same_frame (begin_round w lower) p /\ sorted_progress p /\
  (forall i a, im_find i (agents w) = Some a ->
     (is_due w lower i -> exists o t, handle a lower upper (seed_of hash i lower n (w_sample w)) = Ret (o, t) /\ lower <= t /\
        im_find i (agents (p_world p)) = Some (mk_agent (ag_comm a) (ag_act a) (filter (fun x => fst x >? lower) (ag_inbox a)) o) /\
        im_find i (wake_up_times (p_world p)) = Some t) /\
     (~ is_due w lower i -> im_find i (agents (p_world p)) = Some a /\ im_find i (wake_up_times (p_world p)) = im_find i (wake_up_times w))) /\
  (forall i, ~ local w i -> im_find i (agents (p_world p)) = None /\ im_find i (wake_up_times (p_world p)) = im_find i (wake_up_times w)).
Proof.
  intros Hwf H. pose proof (wf_sorted w Hwf) as Hs. unfold Simulation.act_phase in H.
  destruct (run_parts_views hash shuffle lower upper n _ _ _ (begin_sorted w lower Hs) H) as (S & F & V). split; [exact F|]. split; [exact S|].
  assert (Vi : forall i, lparts hash shuffle lower upper n (w_sample w) (if is_in (acting w lower) i then job i else []) (view i (begin_round w lower)) = Ret (view i p)).
  { intros i. rewrite <- proj_jobs by (now apply acting_nodup). apply V. }
  split.
  - intros i a Ha. specialize (Vi i). unfold view at 1 in Vi. cbn [p_world p_pending begin_round] in Vi. change (agents (schedule_new w lower)) with (agents w) in Vi. rewrite Ha in Vi. split.
    + intros Hd. apply acting_due in Hd; [|exact Hs]. apply is_in_iff in Hd. rewrite Hd in Vi. cbn in Vi.
      destruct (handle a lower upper (seed_of hash i lower n (w_sample w))) as [[o t]| |] eqn:Eh; [|discriminate|discriminate].
      exists o, t. split; [reflexivity|]. cbn in Vi. destruct (Z.ltb_spec t lower); [discriminate|]. split; [exact H0|].
      cbn in Vi. unfold view in Vi. injection Vi as E1 E2 E3. rewrite <- E1, <- E2. split; [|reflexivity]. unfold with_inbox, with_own. cbn. do 2 f_equal.
      apply keep_future_spec. eapply inbox_sorted; eauto.
    + intros Hd. destruct (is_in (acting w lower) i) eqn:X; [exfalso; apply Hd; apply acting_due; [exact Hs|]; now apply is_in_iff|].
      cbn in Vi. unfold view in Vi. injection Vi as E1 E2 E3. rewrite <- E1, <- E2. split; [reflexivity|].
      change (fold_left _ _ (wake_up_times w)) with (wake_up_times (schedule_new w lower)). rewrite schedule_new_find by exact Hs.
      destruct (im_find i (wake_up_times w)) eqn:E; [reflexivity|]. exfalso. apply Hd. split; [unfold local; congruence|right; exact E].
  - intros i Hl. specialize (Vi i). destruct (is_in (acting w lower) i) eqn:X; [exfalso; apply Hl; apply is_in_iff in X; apply acting_due in X; [apply X|exact Hs]|].
    cbn in Vi. unfold view in Vi. injection Vi as E1 E2 E3. rewrite <- E1, <- E2. cbn. split.
    + unfold local in Hl. destruct (im_find i (agents w)); [exfalso; apply Hl; discriminate|reflexivity].
    + change (fold_left _ _ (wake_up_times w)) with (wake_up_times (schedule_new w lower)). rewrite schedule_new_find by exact Hs.
      destruct (im_find i (wake_up_times w)); [reflexivity|]. destruct (is_in (map fst (agents w)) i) eqn:Y; [|reflexivity].
      exfalso. apply Hl. apply is_in_iff in Y. apply local_in; [apply Hs|exact Y].
Qed.
Lemma act_phase_total lower upper n w : well_formed w ->
  (forall i a, is_due w lower i -> im_find i (agents w) = Some a -> exists o t, handle a lower upper (seed_of hash i lower n (w_sample w)) = Ret (o, t) /\ lower <= t) ->
  exists p, act_phase lower upper n w = Ret p.
Proof.
  intros Hwf H. pose proof (wf_sorted w Hwf) as Hs. unfold Simulation.act_phase. apply run_parts_total; [now apply begin_sorted|].
  intros i. rewrite proj_jobs by (now apply acting_nodup). destruct (is_in (acting w lower) i) eqn:X; [|eexists; reflexivity].
  apply is_in_iff in X. apply acting_due in X; [|exact Hs]. destruct (im_find i (agents w)) as [a|] eqn:Ha; [|destruct X as [X _]; exfalso; now apply X].
  destruct (H i a X Ha) as (o & t & Eh & Hle). unfold view. cbn. rewrite Ha. rewrite Eh. cbn. destruct (Z.ltb_spec t lower); [lia|]. cbn. eexists. reflexivity.
Qed.

(** *** The next event. *)
Lemma next_event_spec w : sorted_world w -> is_next_event w (determine_next_event w).
Proof. clear hash shuffle.
  intros [_ Hs]. unfold determine_next_event.
  assert (G : forall (l : idmap Z) r, let t := fold_left (fun r (it : identity * Z) => if r >? snd it then Z.min r (snd it) else r) l r in
     (t = r \/ exists i, In (i, t) l) /\ t <= r /\ forall i x, In (i, x) l -> t <= x).
  { induction l as [|[i x] l IH]; intros r; cbn [fold_left snd]; [cbn; split; [auto|]; split; [lia|intros ? ? []]|].
    specialize (IH (if r >? x then Z.min r x else r)). cbn zeta in *. set (t := fold_left _ l _) in *. destruct IH as (H1 & H2 & H3). split; [|split].
    - destruct H1 as [H1|(j & Hj)]; [|right; exists j; right; exact Hj]. destruct (r >? x) eqn:E; [|auto]. right. exists i. left. f_equal. lia.
    - destruct (r >? x) eqn:E; lia.
    - intros j y [[= <- <-]|Hj]; [destruct (r >? x) eqn:E; lia|eauto]. }
  destruct (G (wake_up_times w) (w_end w)) as (H1 & H2 & H3). unfold is_next_event. split; [|split; [exact H2|]].
  - destruct H1 as [H1|(i & Hi)]; [left; exact H1|right]. exists i. apply im_find_in; assumption.
  - intros i x Hx. apply im_find_in in Hx; [eauto|exact Hs].
Qed.
Lemma sent_nil_send w : sorted_world w -> sent w = [] -> exists w', send_messages w = Ret (w', 0) /\ wake_up_times w' = wake_up_times w /\ w_end w' = w_end w.
Proof.
  intros Hs E. destruct (send_spec w Hs) as [_ H]. destruct H as (w' & E1 & S & K & N & P & A & T); [rewrite E; intros m []|]. rewrite E in *. exists w'. split; [exact E1|]. split; [|exact N].
  apply im_ext; [apply S|apply Hs|]. intros i. rewrite T. reflexivity.
Qed.
Lemma send_ret w w' n : sorted_world w -> send_messages w = Ret (w', n) -> (forall m, In m (sent w) -> local w (m_recipient m)) /\ n = Z.of_nat (length (sent w)) /\ sorted_world w' /\
     map fst (agents w') = map fst (agents w) /\ w_end w' = w_end w /\ w_sample w' = w_sample w /\
     (forall i, im_find i (agents w') = option_map (fun a => cleared (with_mail (filter (addressed_to i) (sent w)) a)) (im_find i (agents w))) /\
     (forall i, im_find i (wake_up_times w') = wake_up_after (im_find i (wake_up_times w)) (filter (addressed_to i) (sent w))).
Proof.
  intros Hs H. destruct (send_spec w Hs) as [S1 S2].
  assert (Hall : forall m, In m (sent w) -> local w (m_recipient m)).
  { intros m Hm E. rewrite S1 in H; [discriminate|]. exists m. split; [exact Hm|]. intros X. contradiction. }
  destruct (S2 Hall) as (w2 & E2 & X). rewrite E2 in H. injection H as <- <-. split; [exact Hall|]. split; [reflexivity|]. exact X.
Qed.
Lemma act_first lower upper n w p : sorted_world w -> act_phase lower upper n w = Ret p -> p_first p = determine_next_event (p_world p).
Proof.
  intros Hs H. eapply run_parts_first; [exact H|]. destruct (acting w lower) as [|i l] eqn:E; [left|right; reflexivity].
  change (determine_next_event w = determine_next_event (schedule_new w lower)). apply next_event_wake; [|reflexivity]. destruct Hs as [A B]. apply im_ext; [exact B|apply (emplace_all _ _ lower [] B)|].
  intros i. rewrite schedule_new_find by (split; assumption).
  destruct (im_find i (wake_up_times w)) eqn:Ei; [reflexivity|]. destruct (is_in (map fst (agents w)) i) eqn:X; [|reflexivity].
  exfalso. assert (D : In i (acting w lower)); [|rewrite E in D; exact D]. apply acting_due; [split; assumption|]. split; [|right; exact Ei]. apply local_in; [exact A|]. now apply is_in_iff.
Qed.
Lemma with_mail_sorted ms a : StronglySorted key_le (ag_inbox a) -> StronglySorted key_le (ag_inbox (with_mail ms a)).
Proof. intros H. apply (insert_all_spec ms (ag_inbox a) H). Qed.
Lemma send_wf w w' n : well_formed w -> send_messages w = Ret (w', n) -> well_formed w'.
Proof.
  intros Hwf H. pose proof (wf_sorted w Hwf) as Hs. destruct (send_ret w w' n Hs H) as (_ & _ & [S1 S2] & K & _ & _ & A & _). split; [exact S1|]. split; [exact S2|].
  apply Forall_forall. intros [i a] Hi. cbn. apply im_find_in in Hi; [|exact S1]. rewrite A in Hi. destruct (im_find i (agents w)) as [a0|] eqn:E; [|discriminate].
  cbn in Hi. injection Hi as <-. cbn. apply with_mail_sorted. eapply inbox_sorted; eauto.
Qed.
Lemma act_wf lower upper n w p : well_formed w -> act_phase lower upper n w = Ret p -> well_formed (p_world p).
Proof.
  intros Hwf H. destruct (act_phase_spec lower upper n w p Hwf H) as (F & [[S1 S2] _] & HA & HN). split; [exact S1|]. split; [exact S2|].
  apply Forall_forall. intros [i a'] Hi. cbn. apply im_find_in in Hi; [|exact S1].
  destruct (im_find i (agents w)) as [a|] eqn:Ha.
  - pose proof (inbox_sorted w i a Hwf Ha) as Hib. destruct (HA i a Ha) as [H1 H2].
    assert (D : is_due w lower i \/ ~ is_due w lower i). { destruct (is_in (acting w lower) i) eqn:X; [left; apply acting_due; [now apply wf_sorted|now apply is_in_iff]|right]. intros D. apply acting_due in D; [|now apply wf_sorted]. apply is_in_iff in D. congruence. }
    destruct D as [D|D].
    + destruct (H1 D) as (o & t & _ & _ & E & _). rewrite E in Hi. injection Hi as <-. cbn. clear - Hib. induction Hib as [|x l Hs IH Hf]; cbn; [constructor|].
      destruct (fst x >? lower); [|exact IH]. constructor; [exact IH|]. rewrite Forall_forall in *. intros y Hy. apply filter_In in Hy. now apply Hf.
    + destruct (H2 D) as [E _]. rewrite E in Hi. injection Hi as <-. exact Hib.
  - destruct (HN i) as [E _]; [unfold local; congruence|]. congruence.
Qed.
Lemma round_spec lower upper n w w' f : well_formed w -> round lower upper n w = Ret (w', f) ->
  well_formed w' /\ f = determine_next_event w' /\ w_end w' = w_end w /\ map fst (agents w') = map fst (agents w).
Proof.
  intros Hwf H. unfold Simulation.round in H. destruct (act_phase lower upper n w) as [p| |] eqn:Ea; [|discriminate|discriminate].
  unfold finish_round in H. destruct (send_messages (p_world p)) as [[w1 c]| |] eqn:Es; [|discriminate|discriminate]. injection H as <- <-.
  pose proof (act_wf _ _ _ _ _ Hwf Ea) as Hwp. destruct (act_phase_spec _ _ _ _ _ Hwf Ea) as ((K & N & _) & S & _).
  destruct (send_ret _ _ _ (wf_sorted _ Hwp) Es) as (_ & Ec & S1 & K1 & N1 & _ & _ & T).
  split; [eapply send_wf; eauto|]. split; [|split; [rewrite N1; exact N|rewrite K1; exact K]]. destruct (0 <? c) eqn:E; [reflexivity|].
  rewrite (act_first _ _ _ _ _ (wf_sorted _ Hwf) Ea). apply next_event_wake; [|symmetry; exact N1].
  assert (En : sent (p_world p) = []) by (destruct (sent (p_world p)); [reflexivity|cbn in Ec; lia]).
  apply im_ext; [apply Hwp|apply S1|]. intros i. rewrite T, En. reflexivity.
Qed.
Lemma quiet_next w lower t : is_next_event w t -> (lower < t <-> quiet w lower).
Proof. clear hash shuffle.
  intros (H1 & H2 & H3). split.
  - intros H. split; [lia|]. intros i x Hx. specialize (H3 i x Hx). lia.
  - intros [Q1 Q2]. destruct H1 as [->|(i & Hi)]; [exact Q1|eauto].
Qed.
Lemma rounds_spec fuel lower upper : forall n w w' t, well_formed w -> rounds fuel lower upper n w = Some (Ret (w', t)) ->
  well_formed w' /\ lower < t /\ is_next_event w' t /\ quiet w' lower /\ w_end w' = w_end w /\ map fst (agents w') = map fst (agents w).
Proof.
  induction fuel as [|fuel IH]; intros n w w' t Hwf H; cbn [Simulation.rounds] in H; [discriminate|].
  destruct (round lower upper n w) as [[w1 f]| |] eqn:E; [|discriminate|discriminate].
  destruct (round_spec _ _ _ _ _ _ Hwf E) as (W1 & F1 & N1 & K1). destruct (lower >=? f) eqn:G.
  - destruct (IH _ _ _ _ W1 H) as (A & B & C & D & X & Y). split; [exact A|]. split; [exact B|]. split; [exact C|]. split; [exact D|]. split; congruence.
  - injection H as <- <-. split; [exact W1|]. assert (lower < f) by lia. split; [assumption|].
    pose proof (next_event_spec w1 (wf_sorted _ W1)) as Hn. rewrite <- F1 in Hn. split; [exact Hn|]. split; [eapply quiet_next; eauto|]. split; assumption.
Qed.
Lemma ti_empty_iff lower upper : ti_empty lower upper = true <-> upper <= lower.
Proof. clear hash shuffle.
  unfold ti_empty, iv_empty. destruct (lower >? upper) eqn:?; [split; [lia|reflexivity]|]. destruct (lower =? upper) eqn:?; [split; [lia|reflexivity]|].
  destruct (1 =? sub_uint64 upper lower); split; try discriminate; lia.
Qed.
Lemma step_returns fuel lower upper w w' t : well_formed w -> step fuel lower upper w = Some (Ret (w', t)) ->
  lower < upper /\ well_formed w' /\ lower < t /\ is_next_event w' t /\ quiet w' lower /\ w_end w' = w_end w /\ map fst (agents w') = map fst (agents w).
Proof.
  unfold Simulation.step. intros Hwf H. destruct (ti_empty lower upper) eqn:E; [discriminate|].
  assert (~ upper <= lower) by (rewrite <- ti_empty_iff; congruence). split; [lia|]. eapply rounds_spec; eauto.
Qed.
Lemma step_empty fuel lower upper w : upper <= lower -> step fuel lower upper w = Some Throw.
Proof. intros H. apply ti_empty_iff in H. unfold Simulation.step. now rewrite H. Qed.

(** *** Termination. *)
Lemma wake_up_after_lower o ms lower : (forall t, o = Some t -> lower < t) -> (forall m, In m ms -> lower < m_received m) -> forall t, wake_up_after o ms = Some t -> lower < t.
Proof. clear hash shuffle.
  revert o. induction ms as [|m ms IH]; intros o Ho Hm t; cbn; [apply Ho|]. apply IH.
  - intros x [= <-]. assert (lower < m_received m) by (apply Hm; left; reflexivity). destruct o as [y|]; [specialize (Ho y eq_refl); lia|lia].
  - intros m' Hm'. apply Hm. right. exact Hm'.
Qed.
Lemma due_dec w lower i : sorted_world w -> is_due w lower i \/ ~ is_due w lower i.
Proof. clear hash shuffle.
  intros Hs. destruct (is_in (acting w lower) i) eqn:X; [left; apply acting_due; [exact Hs|now apply is_in_iff]|right].
  intros D. apply acting_due in D; [|exact Hs]. apply is_in_iff in D. congruence.
Qed.
Lemma same_local w1 w2 i : sorted_world w1 -> sorted_world w2 -> map fst (agents w1) = map fst (agents w2) -> (local w1 i <-> local w2 i).
Proof. intros [A1 _] [A2 _] K. rewrite !local_in by assumption. now rewrite K. Qed.
Lemma one_round lower upper n w : well_formed w -> lower < w_end w ->
  (forall i t, im_find i (wake_up_times w) = Some t -> lower < t \/ (t = lower /\ local w i)) ->
  produces_future lower upper n w -> exists w' t, round lower upper n w = Ret (w', t) /\ lower < t.
Proof.
  intros Hwf He Hwk [Hf Ho]. pose proof (wf_sorted w Hwf) as Hs.
  destruct (act_phase_total lower upper n w Hwf) as (p & Ep). { intros i a D Ha. destruct (Hf i a D Ha) as (o & t & E & Hlt & _). exists o, t. split; [exact E|lia]. }
  destruct (act_phase_spec _ _ _ _ _ Hwf Ep) as ((K & N & P) & S & HA & HN). pose proof (act_wf _ _ _ _ _ Hwf Ep) as Hwp. pose proof (wf_sorted _ Hwp) as Hsp.
  assert (Hsent : forall m, In m (sent (p_world p)) -> lower < m_received m /\ local w (m_recipient m)).
  { intros m Hm. unfold sent in Hm. apply in_concat in Hm. destruct Hm as (l & Hl & Hm). apply in_map_iff in Hl. destruct Hl as ([i a'] & <- & Hi). cbn in Hm.
    apply im_find_in in Hi; [|apply Hsp]. destruct (im_find i (agents w)) as [a|] eqn:Ha.
    - destruct (HA i a Ha) as [H1 H2]. destruct (due_dec w lower i Hs) as [D|D].
      + destruct (H1 D) as (o & t & E & _ & Ea & _). destruct (Hf i a D Ha) as (o' & t' & E' & _ & Fo). rewrite E in E'. injection E' as <- <-.
        rewrite Ea in Hi. injection Hi as <-. cbn in Hm. rewrite Forall_forall in Fo. exact (Fo m Hm).
      + destruct (H2 D) as [Ea _]. rewrite Ea in Hi. injection Hi as <-. rewrite (Ho i a D Ha) in Hm. destruct Hm.
    - destruct (HN i) as [Ea _]; [unfold local; congruence|]. congruence. }
  destruct (send_spec (p_world p) Hsp) as [_ H]. destruct H as (w' & Ew & S' & K' & N' & P' & A' & T').
  { intros m Hm. apply (same_local w (p_world p)); [exact Hs|exact Hsp|symmetry; exact K|]. now apply Hsent. }
  assert (Er : exists f, round lower upper n w = Ret (w', f)). { unfold Simulation.round, finish_round. rewrite Ep, Ew. eexists. reflexivity. }
  destruct Er as (f & Er). exists w', f. split; [exact Er|]. destruct (round_spec _ _ _ _ _ _ Hwf Er) as (W' & F' & _). rewrite F'.
  apply (quiet_next w' lower _ (next_event_spec w' S')). split; [rewrite N', N; exact He|].
  intros i t Hi. rewrite T' in Hi. revert Hi. apply wake_up_after_lower.
  - intros x Hx. destruct (im_find i (agents w)) as [a|] eqn:Ha.
    + destruct (HA i a Ha) as [H1 H2]. destruct (due_dec w lower i Hs) as [D|D].
      * destruct (H1 D) as (o & t1 & E & _ & _ & Et). destruct (Hf i a D Ha) as (o' & t' & E' & Hlt & _). rewrite E in E'. injection E' as <- <-. congruence.
      * destruct (H2 D) as [_ Et]. rewrite Et in Hx. destruct (Hwk i x Hx) as [|[-> L]]; [assumption|]. exfalso. apply D. split; [exact L|left; exact Hx].
    + destruct (HN i) as [_ Et]; [unfold local; congruence|]. rewrite Et in Hx. destruct (Hwk i x Hx) as [|[-> L]]; [assumption|]. exfalso. apply L. exact Ha.
  - intros m Hm. apply filter_In in Hm. apply Hsent. apply Hm.
Qed.
Lemma step_one_round lower upper w : well_formed w -> lower < upper -> lower < w_end w ->
  (forall i t, im_find i (wake_up_times w) = Some t -> lower < t \/ (t = lower /\ local w i)) ->
  produces_future lower upper 0 w -> exists w' t, forall fuel, step (S fuel) lower upper w = Some (Ret (w', t)).
Proof.
  intros Hwf Hlu He Hwk Hp. destruct (one_round lower upper 0 w Hwf He Hwk Hp) as (w' & t & E & Ht). exists w', t. intros fuel.
  unfold Simulation.step. destruct (ti_empty lower upper) eqn:X; [apply ti_empty_iff in X; lia|]. cbn [Simulation.rounds]. rewrite E. destruct (lower >=? t) eqn:G; [lia|reflexivity].
Qed.
(** Rounds that decrease a rank terminate. *)
Lemma ranked (Inv : world St -> Prop) (rank : world St -> nat) lower upper : lower < upper ->
  (forall n w, Inv w -> exists w' t, round lower upper n w = Ret (w', t) /\ (lower < t \/ (Inv w' /\ (rank w' < rank w)%nat))) ->
  forall w, Inv w -> exists w' t, step (S (rank w)) lower upper w = Some (Ret (w', t)).
Proof.
  intros Hlu Hr w Hi. unfold Simulation.step. destruct (ti_empty lower upper) eqn:X; [apply ti_empty_iff in X; lia|].
  assert (G : forall k n w, (rank w < k)%nat -> Inv w -> exists w' t, rounds k lower upper n w = Some (Ret (w', t))); [|apply G; [lia|exact Hi]].
  clear w Hi. induction k as [|k IH]; intros n w Hk Hi; [lia|]. cbn [Simulation.rounds]. destruct (Hr n w Hi) as (w' & t & E & H). rewrite E.
  destruct (lower >=? t) eqn:G; [|eauto]. destruct H as [H|[Hi' Hd]]; [lia|]. apply IH; [lia|exact Hi'].
Qed.
Lemma wake_up_after_le o ms t0 : o = Some t0 -> exists t, wake_up_after o ms = Some t /\ t <= t0.
Proof. clear hash shuffle.
  revert o t0. induction ms as [|m ms IH]; intros o t0 ->; cbn; [exists t0; split; [reflexivity|lia]|].
  destruct (IH (earlier (Some t0) (m_received m)) (Z.min t0 (m_received m)) eq_refl) as (t & E & H). exists t. split; [exact E|lia].
Qed.
Lemma stuck_round lower upper n w w' f : well_formed w -> stuck w lower -> round lower upper n w = Ret (w', f) -> stuck w' lower.
Proof.
  intros Hwf Hst Hr. pose proof (wf_sorted w Hwf) as Hs. destruct (round_spec _ _ _ _ _ _ Hwf Hr) as (W' & _ & N & K).
  destruct Hst as [He|(i & t & Hi & Ht)]; [left; lia|right].
  unfold Simulation.round in Hr. destruct (act_phase lower upper n w) as [p| |] eqn:Ep; [|discriminate|discriminate]. unfold finish_round in Hr.
  destruct (send_messages (p_world p)) as [[w1 c]| |] eqn:Es; [|discriminate|discriminate]. injection Hr as <- <-.
  destruct (act_phase_spec _ _ _ _ _ Hwf Ep) as (_ & _ & HA & HN). pose proof (act_wf _ _ _ _ _ Hwf Ep) as Hwp.
  destruct (send_ret _ _ _ (wf_sorted _ Hwp) Es) as (_ & _ & _ & _ & _ & _ & _ & T).
  assert (Hp : im_find i (wake_up_times (p_world p)) = Some t).
  { destruct (im_find i (agents w)) as [a|] eqn:Ha.
    - destruct (HA i a Ha) as [_ H2]. assert (L : local w i) by (unfold local; congruence). destruct H2 as [_ H2]; [|congruence]. intros [_ [D|D]]; destruct Ht as [Ht|[_ Ht]]; try contradiction; rewrite D in Hi; [injection Hi as ->; lia|discriminate].
    - destruct (HN i) as [_ E]; [unfold local; congruence|congruence]. }
  destruct (wake_up_after_le _ (filter (addressed_to i) (sent (p_world p))) t Hp) as (t' & E' & Hle). exists i, t'. split; [rewrite T; exact E'|].
  destruct Ht as [Ht|[Ht Hl]]; [left; lia|right]. split; [lia|]. intros L. apply Hl. apply (same_local w1 w); [now apply wf_sorted|exact Hs|exact K|exact L].
Qed.
Lemma stuck_forever lower upper w : well_formed w -> stuck w lower -> forall fuel r, step fuel lower upper w <> Some (Ret r).
Proof.
  intros Hwf Hst fuel r. unfold Simulation.step. destruct (ti_empty lower upper); [discriminate|].
  assert (G : forall n w, well_formed w -> stuck w lower -> rounds fuel lower upper n w <> Some (Ret r)); [|now apply G].
  clear w Hwf Hst. induction fuel as [|fuel IH]; intros n w Hwf Hst; cbn [Simulation.rounds]; [discriminate|].
  destruct (round lower upper n w) as [[w1 f]| |] eqn:E; [|discriminate|discriminate].
  pose proof (stuck_round _ _ _ _ _ _ Hwf Hst E) as H1. destruct (round_spec _ _ _ _ _ _ Hwf E) as (W1 & F1 & _).
  destruct (lower >=? f) eqn:G; [now apply IH|]. exfalso. assert (Q : quiet w1 lower) by (apply (quiet_next w1 lower f); [rewrite F1; apply next_event_spec; now apply wf_sorted|lia]).
  destruct Q as [Q1 Q2]. destruct H1 as [H1|(i & t & Hi & Ht)]; [lia|]. specialize (Q2 i t Hi). lia.
Qed.

(** *** Runs. *)
Lemma run_head fuel : forall lower w w' ts, run_from hash shuffle fuel lower w = Some (Ret (w', ts)) -> exists ts', ts = lower :: ts'.
Proof.
  destruct fuel as [|fuel]; intros lower w w' ts H; cbn [run_from] in H; [discriminate|].
  destruct (step (S fuel) lower (w_end w) w) as [[[w1 t]| |]|]; try discriminate. destruct (t <? w_end w1); [|injection H as <- <-; eauto].
  destruct (run_from hash shuffle fuel t w1) as [[[w2 ts2]| |]|]; try discriminate. injection H as <- <-. eauto.
Qed.
Lemma run_spec fuel : forall lower w w' ts, well_formed w -> run_from hash shuffle fuel lower w = Some (Ret (w', ts)) ->
  visited w ts w' /\ StronglySorted Z.lt ts /\ Forall (fun t => lower <= t < w_end w) ts /\ hd_error ts = Some lower /\
  (forall i t, im_find i (wake_up_times w') = Some t -> w_end w <= t).
Proof.
  induction fuel as [|fuel IH]; intros lower w w' ts Hwf H; cbn [run_from] in H; [discriminate|].
  destruct (step (S fuel) lower (w_end w) w) as [[[w1 t]| |]|] eqn:E; try discriminate.
  destruct (step_returns _ _ _ _ _ _ Hwf E) as (H1 & H2 & H3 & H4 & H5 & H6 & H7). destruct (t <? w_end w1) eqn:G.
  - destruct (run_from hash shuffle fuel t w1) as [[[w2 ts2]| |]|] eqn:E2; try discriminate. injection H as <- <-.
    destruct (run_head _ _ _ _ _ E2) as (ts3 & ->). destruct (IH _ _ _ _ H2 E2) as (V & S & F & _ & Q). rewrite H6 in *. split; [econstructor; eauto; lia|].
    assert (F' : Forall (fun x => lower < x < w_end w) (t :: ts3)) by (eapply Forall_impl; [|exact F]; cbn; intros; lia).
    split; [constructor; [exact S|eapply Forall_impl; [|exact F']; cbn; intros; lia]|].
    split; [constructor; [lia|eapply Forall_impl; [|exact F']; cbn; intros; lia]|]. split; [reflexivity|exact Q].
  - injection H as <- <-. destruct H4 as (_ & H4 & H8). split; [econstructor; [exact E|lia]|]. split; [repeat constructor|]. split; [constructor; [lia|constructor]|].
    split; [reflexivity|]. intros i x Hx. specialize (H8 i x Hx). lia.
Qed.
Lemma run_rejects fuel lower w : w_end w <= lower -> run_from hash shuffle (S fuel) lower w = Some Throw.
Proof. intros H. cbn [run_from]. now rewrite step_empty. Qed.

(** *** Threads. *)
Lemma interleaving_concat ts : interleaving ts (concat ts).
Proof. clear hash shuffle.
  assert (G : forall k ts, length (concat ts) = k -> interleaving ts (concat ts)); [|now apply (G (length (concat ts)))].
  clear. induction k as [|k IH]; intros ts Hk.
  - destruct (concat ts) eqn:E; [|discriminate]. constructor. apply Forall_forall. intros t Ht. destruct t as [|x t]; [reflexivity|]. exfalso.
    assert (In x (concat ts)) by (apply in_concat; exists (x :: t); split; [exact Ht|left; reflexivity]). rewrite E in H. exact H.
  - assert (exists (a : list (list part)) x t b, ts = a ++ (x :: t) :: b /\ concat a = []) as (a & x & t & b & -> & Ea).
    { clear IH. induction ts as [|[|x t] ts IHt]; [discriminate| |].
      - destruct (IHt Hk) as (a & x & t & b & -> & Ea). exists ([] :: a), x, t, b. split; [reflexivity|exact Ea].
      - exists [], x, t, ts. split; reflexivity. }
    assert (Ec : concat (a ++ (x :: t) :: b) = x :: concat (a ++ t :: b)) by (rewrite !concat_app, Ea; reflexivity).
    rewrite Ec in *. constructor. apply IH. cbn in Hk. lia.
Qed.
Lemma threads_equal threads lower upper n w chunks xs : well_formed w -> 1 <= threads ->
  thread_chunks threads (acting w lower) = Ret chunks -> Z.of_nat (length (acting w lower)) < W64 -> interleaving (map (flat_map job) chunks) xs ->
  forall p, run_parts lower upper n (begin_round w lower) xs = Ret p <-> act_phase lower upper n w = Ret p.
Proof.
  intros Hwf Ht Hc Hl Hx. pose proof (wf_sorted w Hwf) as Hs.
  destruct (thread_chunks_spec hash shuffle threads (acting w lower) Ht Hl) as (cs & E & C & L & _). rewrite Hc in E. injection E as <-.
  assert (Hne : chunks <> []) by (intros ->; cbn in L; lia).
  assert (Hproj : forall i, proj i xs = proj i (flat_map job (acting w lower))).
  { intros i. rewrite (interleaving_proj i _ _ Hx); [|apply chunks_solo; [exact Hne|rewrite C; now apply acting_nodup]]. rewrite <- flat_map_concat, C. reflexivity. }
  assert (Hex : existsb is_schedule xs = existsb is_schedule (flat_map job (acting w lower))).
  { apply existsb_in. intros x. rewrite (interleaving_in _ _ x Hx). rewrite <- flat_map_concat, C. reflexivity. }
  assert (Hfirst : p_first (begin_round w lower) = determine_next_event (p_world (begin_round w lower)) \/
     (existsb is_schedule xs = true /\ existsb is_schedule (flat_map job (acting w lower)) = true)).
  { rewrite Hex. destruct (acting w lower) as [|i l] eqn:Ea; [left|right; split; reflexivity].
    destruct (run_parts lower upper n (begin_round w lower) []) as [p| |] eqn:Ep; [|discriminate|discriminate].
    assert (act_phase lower upper n w = Ret p) by (unfold Simulation.act_phase; rewrite Ea; exact Ep).
    pose proof (act_first _ _ _ _ _ Hs H) as X. cbn in Ep. injection Ep as <-. exact X. }
  intros p. unfold Simulation.act_phase. split; intros H.
  - eapply same_projections; [now apply begin_sorted|exact Hproj|exact Hfirst|exact H].
  - eapply same_projections; [now apply begin_sorted|intros i; symmetry; apply Hproj| |exact H]. tauto.
Qed.
Lemma threaded_round_iff threads lower upper n w r : well_formed w -> 1 <= threads -> Z.of_nat (length (acting w lower)) < W64 ->
  (threaded_round hash shuffle threads lower upper n w r <-> round lower upper n w = Ret r).
Proof.
  intros Hwf Ht Hl. unfold threaded_round, Simulation.round. split.
  - intros (chunks & xs & p & Hc & Hx & Hp & Hf). apply (threads_equal threads lower upper n w chunks xs Hwf Ht Hc Hl Hx) in Hp. rewrite Hp. exact Hf.
  - intros H. destruct (act_phase lower upper n w) as [p| |] eqn:Ep; [|discriminate|discriminate].
    destruct (thread_chunks_spec hash shuffle threads (acting w lower) Ht Hl) as (cs & E & C & _). exists cs, (concat (map (flat_map job) cs)), p.
    split; [exact E|]. split; [apply interleaving_concat|]. split; [|exact H]. unfold Simulation.act_phase in Ep. rewrite <- flat_map_concat, C. exact Ep.
Qed.
Lemma acting_length w lower : (length (acting w lower) <= length (agents w))%nat.
Proof. clear hash shuffle. unfold acting. rewrite <- (map_length fst (agents w)). apply filter_length_le. Qed.
Lemma threaded_rounds_iff threads lower upper : 1 <= threads -> forall n w r, well_formed w -> Z.of_nat (length (agents w)) < W64 ->
  (threaded_rounds hash shuffle threads lower upper n w r <-> exists fuel, rounds fuel lower upper n w = Some (Ret r)).
Proof.
  intros Ht. assert (Hl : forall w, Z.of_nat (length (agents w)) < W64 -> Z.of_nat (length (acting w lower)) < W64) by (intros w H; pose proof (acting_length w lower); lia).
  intros n w r Hwf Hk. split.
  - intros H. induction H as [n w w' f Hr Hf|n w w' f r Hr Hf H IH]; apply threaded_round_iff in Hr; auto.
    + exists 1%nat. cbn. rewrite Hr. destruct (lower >=? f) eqn:E; [lia|reflexivity].
    + destruct (round_spec _ _ _ _ _ _ Hwf Hr) as (W & _ & _ & K). assert (Lk : length (agents w') = length (agents w)) by (rewrite <- (map_length fst (agents w')), K; apply map_length).
      destruct IH as (fuel & E); [exact W|lia|]. exists (S fuel). cbn. rewrite Hr. destruct (lower >=? f) eqn:G; [exact E|lia].
  - intros (fuel & H). revert n w Hwf Hk H. induction fuel as [|fuel IH]; intros n w Hwf Hk H; cbn in H; [discriminate|].
    destruct (round lower upper n w) as [[w' f]| |] eqn:Hr; [|discriminate|discriminate].
    destruct (round_spec _ _ _ _ _ _ Hwf Hr) as (W & _ & _ & K). assert (Lk : length (agents w') = length (agents w)) by (rewrite <- (map_length fst (agents w')), K; apply map_length).
    assert (Tr : threaded_round hash shuffle threads lower upper n w (w', f)) by (apply threaded_round_iff; auto).
    destruct (lower >=? f) eqn:G; [|injection H as <-; eapply tr_last; [exact Tr|lia]]. eapply tr_more; [exact Tr|lia|]. apply IH; [exact W|lia|exact H].
Qed.
End Steps.
