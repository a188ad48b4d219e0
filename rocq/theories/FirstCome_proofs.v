From Verif Require Import Base Identity Identity_proofs IdMap IdMap_proofs Multimap Multimap_proofs Communicator Communicator_spec Communicator_proofs
  Simulation Simulation_spec Simulation_proofs Simulation_proofs2 Simulation_proofs3 Punctual_spec Punctual_proofs Messages FirstCome FirstCome_spec.
From Verif Require Exchange.
From Coq Require Import ZifyBool ZifyNat.

Lemma filter_perm {X} (f : X -> bool) l1 l2 : Permutation l1 l2 -> Permutation (filter f l1) (filter f l2).
Proof. induction 1; cbn; [constructor|destruct (f x); [now constructor|exact IHPermutation]|destruct (f x), (f y); repeat constructor; reflexivity|now transitivity (filter f l')]. Qed.

Section Driven.
Context {St : Type} (hash : identity -> Z) (shuffle : seed -> list message -> list message) (i : identity) (effect : Z -> message -> St -> St) (acc : message -> bool).
Context (comm : communicator (@own St)) (act : @action St).
Definition applied (h : list (Z * message)) (x : St) : St := fold_left (fun x p => effect (fst p) (snd p) x) h x.
(** Agent [i] does nothing but what the effects of the messages are. *)
Context (Hd : forall inbox o lower upper s o' t, StronglySorted key_le inbox -> handle shuffle (mk_agent comm act inbox o) lower upper s = Ret (o', t) ->
  exists order, Permutation order (filter acc (due lower inbox)) /\ fst o' = applied (map (fun m => (lower, m)) order) (fst o)).

(** What holds of agent [i] between rounds. *)
Definition settled (lower : Z) (x : St) (inbox : list (Z * message)) (w : world St) : Prop :=
  well_formed w /\
  exists out, im_find i (agents w) = Some (mk_agent comm act inbox (x, out)) /\
    Forall (fun p => fst p = m_received (snd p)) inbox /\
    match im_find i (wake_up_times w) with Some t => Forall (fun p => acc (snd p) = true -> t <= fst p) inbox | None => Forall (fun p => acc (snd p) = true -> lower <= fst p) inbox end /\
    (attentive shuffle (mk_agent comm act inbox (x, out)) \/ all_prompt_to shuffle acc i w /\ Forall (fun p => acc (snd p) = true -> fst p <= lower) inbox).

(** Messages handled or in the inbox. *)
Definition accepted (inbox : list (Z * message)) : list message := filter acc (map snd inbox).
Lemma split_inbox lower (inbox : list (Z * message)) : Permutation (filter acc (due lower inbox) ++ accepted (filter (fun x => fst x >? lower) inbox)) (accepted inbox).
Proof.
  clear - acc. unfold accepted, due. induction inbox as [|[k m] l IH]; [constructor|]. cbn [filter fst map snd]. destruct (k <=? lower) eqn:E.
  - replace (k >? lower) with false by lia. cbn [map snd filter]. destruct (acc m); [cbn [app]; now constructor|exact IH].
  - replace (k >? lower) with true by lia. cbn [map snd filter]. destruct (acc m); [|exact IH]. rewrite <- Permutation_middle. now constructor.
Qed.
Lemma insert_accepted mail inbox : StronglySorted key_le inbox -> Permutation (accepted (insert_all mail inbox)) (accepted inbox ++ filter acc mail).
Proof.
  intros S. destruct (insert_all_spec mail inbox S) as (_ & P & _). unfold accepted. rewrite (filter_perm _ _ _ (Permutation_map snd P)), map_app, map_map, filter_app. cbn. now rewrite map_id.
Qed.
Definition for_us (m : message) : bool := addressed_to i m && acc m.
Lemma for_us_filter l : filter acc (filter (addressed_to i) l) = filter for_us l.
Proof. induction l as [|m l IH]; [reflexivity|]. unfold for_us in *. cbn. destruct (addressed_to i m); cbn; [destruct (acc m); now rewrite IH|exact IH]. Qed.

Lemma settled_round lower upper n x inbox w w' f : settled lower x inbox w -> round hash shuffle lower upper n w = Ret (w', f) ->
  exists h inbox' p, Forall (fun p => fst p = lower /\ m_received (snd p) = lower) h /\ settled lower (applied h x) inbox' w' /\ im_find i (wake_up_times w') <> None /\
    act_phase hash shuffle lower upper n w = Ret p /\ finish_round p = Ret (w', f) /\
    Permutation (map snd h ++ accepted inbox') (accepted inbox ++ filter for_us (sent (p_world p))).
Proof.
  intros (Hwf & out & Fi & Ke & Wk & Co) H. pose proof (round_spec _ _ _ _ _ _ _ _ Hwf H) as (Hwf' & _).
  assert (Sc : local w' i -> im_find i (wake_up_times w') <> None) by (apply (round_scheduled _ _ _ _ _ _ _ _ _ Hwf H)).
  unfold round in H. destruct (act_phase hash shuffle lower upper n w) as [p| |] eqn:Ea; [|discriminate|discriminate].
  pose proof H as Hfin. unfold finish_round in H. destruct (send_messages (p_world p)) as [[w1 c]| |] eqn:Es; [|discriminate|discriminate]. assert (w1 = w') as -> by congruence. clear H.
  pose proof (act_wf _ _ _ _ _ _ _ Hwf Ea) as Hwp. destruct (act_phase_spec _ _ _ _ _ _ _ Hwf Ea) as (_ & _ & HA & HN).
  destruct (send_ret _ _ _ (wf_sorted _ Hwp) Es) as (_ & _ & _ & _ & _ & _ & A & T).
  pose proof (inbox_sorted w i _ Hwf Fi) as Si. cbn [ag_inbox] in Si.
  (* the mail of the round *)
  assert (Pm : all_prompt_to shuffle acc i w -> (forall m, In m (filter (addressed_to i) (sent (p_world p))) -> acc m = true -> m_received m <= lower) /\ all_prompt_to shuffle acc i w').
  { intros Pr. assert (Pp : forall j a, im_find j (agents (p_world p)) = Some a -> prompt_to shuffle acc i a /\ Forall (fun m => m_recipient m = i -> acc m = true -> m_received m <= lower) (ag_outbox a)).
    { intros j a' Ha'. destruct (im_find j (agents w)) as [a|] eqn:E; [|destruct (HN j) as [X _]; [unfold local; congruence|congruence]]. destruct (Pr j a E) as [Pa Po]. destruct (HA j a E) as [H1 H2].
      destruct (due_dec w lower j (wf_sorted _ Hwf)) as [D|D].
      - destruct (H1 D) as (o & t & Eh & _ & Ef & _). rewrite Ef in Ha'. injection Ha' as <-. split; [exact Pa|]. unfold ag_outbox in *. cbn [ag_own]. destruct a as [ac aa ai [ao1 ao2]]. cbn in Po. subst ao2. exact (Pa ai ao1 lower upper _ o t Eh).
      - destruct (H2 D) as [Ef _]. rewrite Ef in Ha'. injection Ha' as <-. split; [exact Pa|]. rewrite Po. constructor. }
    split.
    - intros m Hm Hacc. apply filter_In in Hm. destruct Hm as [Hm Hi]. unfold sent in Hm. apply in_concat in Hm. destruct Hm as (l & Hl & Hm). apply in_map_iff in Hl. destruct Hl as ([j a'] & <- & Hj). cbn in Hm.
      apply im_find_in in Hj; [|apply (wf_sorted _ Hwp)]. destruct (Pp j a' Hj) as [_ F]. rewrite Forall_forall in F. apply F; [exact Hm| |exact Hacc]. unfold addressed_to in Hi. now apply id_eqb_eq.
    - intros j a' Ha'. rewrite A in Ha'. destruct (im_find j (agents (p_world p))) as [a|] eqn:E; [|discriminate]. cbn in Ha'. injection Ha' as <-. split; [exact (proj1 (Pp j a E))|reflexivity]. }
  set (mail := filter (addressed_to i) (sent (p_world p))) in *.
  destruct (HA i _ Fi) as [H1 H2]. destruct (due_dec w lower i (wf_sorted _ Hwf)) as [D|D].
  - destruct (H1 D) as (o & t & Eh & Lt & Ef & Ew). destruct (Hd _ _ _ _ _ _ _ Si Eh) as (order & Ho & Eo). cbn [fst] in Eo.
    assert (Kl : Forall (fun p0 => acc (snd p0) = true -> lower <= fst p0) inbox). { destruct D as [_ [D|D]]; rewrite D in Wk; exact Wk. }
    exists (map (fun m => (lower, m)) order), (insert_all mail (filter (fun x => fst x >? lower) inbox)), p. split.
    { apply Forall_forall. intros q Hq. apply in_map_iff in Hq. destruct Hq as (m & <- & Hm). cbn [fst snd]. split; [reflexivity|]. apply (Permutation_in _ Ho) in Hm. apply filter_In in Hm. destruct Hm as [Ho' Hacc]. unfold due in Ho'. apply in_map_iff in Ho'. destruct Ho' as (y & <- & Hy). apply filter_In in Hy. destruct Hy as [Hy L].
      rewrite Forall_forall in Kl, Ke. specialize (Kl y Hy Hacc). specialize (Ke y Hy). lia. }
    assert (Fi' : im_find i (agents w') = Some (mk_agent comm act (insert_all mail (filter (fun x => fst x >? lower) inbox)) (applied (map (fun m => (lower, m)) order) x, []))).
    { rewrite A, Ef. cbn. unfold with_mail, cleared. cbn. fold mail. rewrite Eo. reflexivity. }
    assert (Ss : StronglySorted key_le (filter (fun x : Z * message => fst x >? lower) inbox)). { pose proof (inbox_sorted _ i _ Hwp Ef) as X. exact X. }
    split; [|split; [apply Sc; unfold local; rewrite Fi'; discriminate|split; [reflexivity|split; [exact Hfin|]]]].
    2:{ rewrite map_map. cbn [snd]. rewrite map_id, (insert_accepted _ _ Ss), app_assoc, Ho, split_inbox. unfold mail. rewrite for_us_filter. reflexivity. }
    split; [exact Hwf'|]. eexists. split; [exact Fi'|].
    destruct (insert_all_spec mail _ Ss) as (_ & P & _). split; [|split].
    + apply Forall_forall. intros q Hq. apply (Permutation_in _ P) in Hq. apply in_app_or in Hq. destruct Hq as [Hq|Hq]; [apply filter_In in Hq; rewrite Forall_forall in Ke; now apply Ke|apply in_map_iff in Hq; destruct Hq as (m & <- & _); reflexivity].
    + destruct (im_find i (wake_up_times w')) as [t'|] eqn:Et; [|exfalso; apply Sc; [unfold local; rewrite Fi'; discriminate|reflexivity]]. rewrite T, Ew in Et. fold mail in Et. destruct (wake_after_le shuffle _ _ _ Et) as [W1 W2]. specialize (W1 t eq_refl).
      apply Forall_forall. intros q Hq Hacc. apply (Permutation_in _ P) in Hq. apply in_app_or in Hq. destruct Hq as [Hq|Hq]; [|apply in_map_iff in Hq; destruct Hq as (m & <- & Hm); now apply W2].
      apply filter_In in Hq. destruct Hq as [Hq L]. destruct Co as [Co|[_ Co]]; [|rewrite Forall_forall in Co; specialize (Co q Hq Hacc); lia].
      destruct q as [k m]. cbn [fst] in *. assert (t <= k); [|lia]. apply (Co inbox (x, out) lower upper _ o t Eh k m Hq). lia.
    + destruct Co as [Co|[Co1 Co2]]; [left; exact Co|right]. destruct (Pm Co1) as [P1 P2]. split; [exact P2|].
      apply Forall_forall. intros q Hq Hacc. apply (Permutation_in _ P) in Hq. apply in_app_or in Hq. destruct Hq as [Hq|Hq]; [apply filter_In in Hq; rewrite Forall_forall in Co2; apply Co2; [apply Hq|exact Hacc]|apply in_map_iff in Hq; destruct Hq as (m & <- & Hm); now apply P1].
  - destruct (H2 D) as [Ef Ew]. exists [], (insert_all mail inbox), p. split; [constructor|]. cbn [applied fold_left].
    assert (Fi' : im_find i (agents w') = Some (mk_agent comm act (insert_all mail inbox) (x, []))).
    { rewrite A, Ef. cbn. unfold with_mail, cleared. cbn. reflexivity. }
    split; [|split; [apply Sc; unfold local; rewrite Fi'; discriminate|split; [reflexivity|split; [exact Hfin|]]]].
    2:{ cbn [map app]. rewrite (insert_accepted _ _ Si). unfold mail. rewrite for_us_filter. reflexivity. }
    split; [exact Hwf'|]. eexists. split; [exact Fi'|].
    destruct (insert_all_spec mail _ Si) as (_ & P & _). split; [|split].
    + apply Forall_forall. intros q Hq. apply (Permutation_in _ P) in Hq. apply in_app_or in Hq. destruct Hq as [Hq|Hq]; [rewrite Forall_forall in Ke; now apply Ke|apply in_map_iff in Hq; destruct Hq as (m & <- & _); reflexivity].
    + destruct (im_find i (wake_up_times w')) as [t'|] eqn:Et; [|exfalso; apply Sc; [unfold local; rewrite Fi'; discriminate|reflexivity]]. rewrite T, Ew in Et. fold mail in Et. destruct (wake_after_le shuffle _ _ _ Et) as [W1 W2].
      destruct (im_find i (wake_up_times w)) as [t|] eqn:E0; [|exfalso; apply D; split; [unfold local; rewrite Fi; discriminate|now right]]. specialize (W1 t eq_refl).
      apply Forall_forall. intros q Hq Hacc. apply (Permutation_in _ P) in Hq. apply in_app_or in Hq. destruct Hq as [Hq|Hq]; [rewrite Forall_forall in Wk; specialize (Wk q Hq Hacc); cbn in Wk; lia|apply in_map_iff in Hq; destruct Hq as (m & <- & Hm); now apply W2].
    + destruct Co as [Co|[Co1 Co2]]; [left; exact Co|right]. destruct (Pm Co1) as [P1 P2]. split; [exact P2|].
      apply Forall_forall. intros q Hq Hacc. apply (Permutation_in _ P) in Hq. apply in_app_or in Hq. destruct Hq as [Hq|Hq]; [rewrite Forall_forall in Co2; now apply Co2|apply in_map_iff in Hq; destruct Hq as (m & <- & Hm); now apply P1].
Qed.
Lemma applied_app h1 h2 x : applied (h1 ++ h2) x = applied h2 (applied h1 x).
Proof. unfold applied. apply fold_left_app. Qed.
Lemma sending_app (w1 : world St) l1 w2 l2 w3 : rounds_sending hash shuffle w1 l1 w2 -> rounds_sending hash shuffle w2 l2 w3 -> rounds_sending hash shuffle w1 (l1 ++ l2) w3.
Proof. intros H. revert l2 w3. induction H; intros l2 w3 H2; [exact H2|]. rewrite <- app_assoc. econstructor; eauto. Qed.
Lemma balance (a b c d e g k : list message) : Permutation (a ++ b) (c ++ d) -> Permutation (e ++ g) (b ++ k) -> Permutation ((a ++ e) ++ g) (c ++ d ++ k).
Proof. intros H1 H2. rewrite <- app_assoc, H2, app_assoc, H1, <- app_assoc. reflexivity. Qed.
Lemma settled_rounds fuel lower upper : forall n x inbox w w' t, settled lower x inbox w -> rounds hash shuffle fuel lower upper n w = Some (Ret (w', t)) ->
  exists h inbox' ms, Forall (fun p => fst p = lower /\ m_received (snd p) = lower) h /\ settled t (applied h x) inbox' w' /\ im_find i (wake_up_times w') <> None /\
    rounds_sending hash shuffle w ms w' /\ Permutation (map snd h ++ accepted inbox') (accepted inbox ++ filter for_us ms).
Proof.
  induction fuel as [|fuel IH]; intros n x inbox w w' t S H; [discriminate|]. cbn [rounds] in H.
  destruct (round hash shuffle lower upper n w) as [[w1 f]| |] eqn:E; [|discriminate|discriminate]. destruct (settled_round _ _ _ _ _ _ _ _ S E) as (h1 & inbox1 & p & F1 & S1 & W1 & Ea & Ef & P1). destruct (lower >=? f) eqn:L.
  - destruct (IH _ _ _ _ _ _ S1 H) as (h2 & inbox2 & ms & F2 & S2 & W2 & R2 & P2). exists (h1 ++ h2), inbox2, (sent (p_world p) ++ ms). split; [apply Forall_app; now split|]. rewrite applied_app. split; [exact S2|]. split; [exact W2|]. split; [econstructor; eassumption|].
    rewrite map_app, filter_app. eapply balance; eassumption.
  - injection H as <- <-. exists h1, inbox1, (sent (p_world p) ++ []). split; [exact F1|]. split; [|split; [exact W1|split; [econstructor; [eassumption|eassumption|constructor]|now rewrite app_nil_r]]].
    destruct S1 as (Q1 & out & Q2 & Q3 & Q4 & Q5). split; [exact Q1|]. exists out. split; [exact Q2|]. split; [exact Q3|].
    destruct (im_find i (wake_up_times w1)) as [x0|]; [|now contradiction W1]. split; [exact Q4|]. destruct Q5 as [Q5|[Q5 Q6]]; [now left|right]. split; [exact Q5|]. eapply Forall_impl; [|exact Q6]. cbn. intros q Hq Hacc. specialize (Hq Hacc). lia.
Qed.
Lemma settled_run fuel : forall lower x inbox w w' ts, settled lower x inbox w -> run_from hash shuffle fuel lower w = Some (Ret (w', ts)) ->
  exists h inbox' ms, first_come h /\ Forall (fun p => lower <= fst p) h /\ rounds_sending hash shuffle w ms w' /\
    (exists out, im_find i (agents w') = Some (mk_agent comm act inbox' (applied h x, out))) /\ Forall (fun p => acc (snd p) = true -> w_end w <= m_received (snd p)) inbox' /\
    Permutation (map snd h ++ accepted inbox') (accepted inbox ++ filter for_us ms).
Proof.
  induction fuel as [|fuel IH]; intros lower x inbox w w' ts S H; [discriminate|]. cbn [run_from] in H.
  destruct (step hash shuffle (Datatypes.S fuel) lower (w_end w) w) as [[[w1 t]| |]|] eqn:E; try discriminate. unfold step in E. destruct (Interval.ti_empty lower (w_end w)); [discriminate|].
  destruct (rounds_spec _ _ _ _ _ _ _ _ _ (proj1 S) E) as (_ & Lt & Nx & _ & Ee & _). destruct (settled_rounds _ _ _ _ _ _ _ _ _ S E) as (h1 & inbox1 & ms1 & F1 & S1 & W1 & R1 & P1).
  assert (H1 : first_come h1).
  { split; [|eapply Forall_impl; [|exact F1]; cbn; intros q [A B]; lia]. clear - F1. induction F1 as [|q h [F _] Fh IH]; cbn; [constructor|]. constructor; [exact IH|]. apply Forall_forall. intros y Hy. apply in_map_iff in Hy. destruct Hy as (z & <- & Hz). rewrite Forall_forall in Fh. destruct (Fh z Hz). lia. }
  assert (L1 : Forall (fun p => lower <= fst p) h1) by (eapply Forall_impl; [|exact F1]; cbn; intros q [A B]; lia).
  destruct (t <? w_end w1) eqn:Et.
  - destruct (run_from hash shuffle fuel t w1) as [[[w2 ts2]| |]|] eqn:E2; try discriminate. injection H as <- <-. destruct (IH _ _ _ _ _ _ S1 E2) as (h2 & inbox2 & ms2 & [A2 B2] & L2 & R2 & F2 & K2 & P2).
    exists (h1 ++ h2), inbox2, (ms1 ++ ms2). split; [|split; [apply Forall_app; split; [exact L1|eapply Forall_impl; [|exact L2]; cbn; lia]|split; [eapply sending_app; eassumption|split; [rewrite applied_app; exact F2|split; [rewrite <- Ee; exact K2|rewrite map_app, filter_app; eapply balance; eassumption]]]]].
    destruct H1 as [A1 B1]. split; [|apply Forall_app; now split]. clear - A2 F1 L2 Lt. induction h1 as [|q h1 IHh]; [exact A2|]. apply Forall_cons_iff in F1. destruct F1 as [[F _] Fh].
    cbn [app map]. constructor; [now apply IHh|]. apply Forall_forall. intros y Hy. apply in_map_iff in Hy. destruct Hy as (z & <- & Hz). apply in_app_or in Hz. rewrite Forall_forall in Fh, L2. destruct Hz as [Hz|Hz]; [destruct (Fh z Hz); lia|specialize (L2 z Hz); cbn in L2; lia].
  - injection H as <- <-. exists h1, inbox1, ms1. split; [exact H1|]. split; [exact L1|]. split; [exact R1|]. destruct S1 as (_ & out & Q & K & Wk & _). split; [eauto|]. split; [|exact P1].
    destruct (im_find i (wake_up_times w1)) as [t0|] eqn:E0; [|now contradiction W1]. destruct Nx as (_ & _ & N). specialize (N i t0 E0). apply Forall_forall. intros q Hq Hacc. rewrite Forall_forall in K, Wk. specialize (K q Hq). specialize (Wk q Hq Hacc). cbn in *. lia.
Qed.
End Driven.

Lemma deaf_order {St} (c : communicator (@own St)) shuffle lower s inbox : (forall t, fm_find t (callbacks c) = None) -> handling_order c shuffle lower s inbox = [].
Proof.
  intros H. unfold handling_order. assert (X : by_priority c lower inbox [] = []). { generalize (@nil (Z * message)). induction inbox as [|[t m] l IH]; intros acc; [reflexivity|]. cbn [by_priority]. destruct (t >? lower); [reflexivity|]. rewrite H. apply IH. }
  rewrite X. reflexivity.
Qed.

Section Exchange.
Context (delay : identity -> Z) (event_of : message -> Exchange.event) (post : Exchange.message -> message) (watchful : bool).
Context {T : Type} (shuffle : seed -> list message -> list message) (Hsh : forall s l, Permutation (shuffle s l) l) (random : bool).
Notation cb := (exchange_callback delay event_of post).
Definition asked (now : Z) (m : message) (x : role T) : role T :=
  match x with
  | Hall (Ret x) => match Exchange.handle delay now (event_of m) x with Ret (x', _) => Hall (Ret x') | Throw => Hall Throw | UB => Hall UB end
  | r => r
  end.
Definition enrolments : list (registration (@own (role T))) :=
  map (fun k => mk_registration (kind_code k) 0 cb) [Logon; Logout; MarketDataRequest; NewOrderSingle; CancelOrder].
Lemma exchange_registers : exists c, registers (new_communicator random) enrolments c /\ exchange_communicator delay event_of post random = c /\
  forall m, handled enrolments m = true -> fm_find (m_type m) (callbacks c) = Some [(0, cb)].
Proof.
  eexists. split; [repeat (econstructor; [reflexivity|]); constructor|]. split; [reflexivity|]. intros m H. unfold handled in H. cbn [enrolments map existsb r_type] in H.
  rewrite !orb_true_iff, !Z.eqb_eq in H. destruct H as [<- |[<- |[<- |[<- |[<- |H]]]]]; try reflexivity. discriminate.
Qed.
Lemma handle_all_asked c lower upper s ms : forall acc o o' t, (forall m, In m ms -> fm_find (m_type m) (callbacks c) = Some [(0, cb)]) ->
  handle_all c lower upper s ms acc o = Ret (o', t) -> fst o' = applied asked (map (fun m => (lower, m)) ms) (fst o).
Proof.
  induction ms as [|m ms IH]; intros acc o o' t F H; cbn [handle_all] in H; [injection H as <- <-; reflexivity|].
  destruct (process_message c lower upper s m o) as [[o1 t1]| |] eqn:E; [|discriminate|discriminate]. cbn [map applied fold_left fst snd].
  assert (X : fst o1 = asked lower m (fst o)).
  { unfold process_message in E. rewrite (F m (or_introl eq_refl)) in E. cbn [rev app call_all] in E. destruct (cb m lower upper s o) as [o2 t2] eqn:Ec. destruct ((lower <=? t2) && (t2 <=? upper)); [|discriminate].
    assert (o2 = o1) by (cbn in E; congruence). subst o2. unfold exchange_callback in Ec. unfold asked. destruct (fst o) as [[x| |]|] eqn:Ex; [|injection Ec as <- <-; exact Ex|injection Ec as <- <-; exact Ex|injection Ec as <- <-; exact Ex].
    destruct (Exchange.handle delay lower (event_of m) x) as [[x' out]| |]; injection Ec as <- <-; reflexivity. }
  rewrite (IH _ _ _ _ (fun m' Hm => F m' (or_intror Hm)) H). unfold applied. rewrite X. reflexivity.
Qed.
Lemma exchange_driven inbox (o : @own (role T)) lower upper s o' t : StronglySorted key_le inbox ->
  handle shuffle (mk_agent (lock (exchange_communicator delay event_of post random)) (exchange_act watchful) inbox o) lower upper s = Ret (o', t) ->
  exists order, Permutation order (filter for_exchange (due lower inbox)) /\ fst o' = applied asked (map (fun m => (lower, m)) order) (fst o).
Proof.
  intros S H. unfold handle in H. cbn [ag_comm ag_inbox ag_own ag_act] in H. destruct exchange_registers as (c & R & Ec & Hc). rewrite Ec in H. unfold process_messages in H.
  assert (Eo : handling_order (lock c) shuffle lower s inbox = handling_order c shuffle lower s inbox).
  { unfold handling_order. f_equal. f_equal. f_equal. f_equal. generalize (@nil (Z * message)). clear. induction inbox as [|[t m] l IH]; intros acc; [reflexivity|]. cbn [by_priority].
    change (callbacks (lock c)) with (callbacks c). destruct (t >? lower); [reflexivity|]. destruct (fm_find (m_type m) (callbacks c)) as [[|x y]|]; apply IH. }
  assert (I8 : Forall (fun r => int8 (r_priority r)) enrolments) by (repeat constructor; unfold int8; cbn; lia).
  destruct (order_spec random enrolments c shuffle lower s inbox R I8 S Hsh) as (P & _). rewrite Eo in H.
  exists (handling_order c shuffle lower s inbox). split; [rewrite P; erewrite filter_ext; [reflexivity|]; intros m; unfold for_exchange, handled; cbn [enrolments map existsb r_type]; now rewrite !(Z.eqb_sym (m_type m))|].
  destruct (handle_all (lock c) lower upper s (handling_order c shuffle lower s inbox) upper o) as [[o1 t1]| |] eqn:E; [|discriminate|discriminate].
  cbn [exchange_act] in H. assert (o1 = o') by (unfold exchange_act in H; congruence). subst o1. eapply handle_all_asked; [|exact E].
  intros m Hm. apply (Permutation_in _ P) in Hm. apply filter_In in Hm. apply Hc, Hm.
Qed.
Lemma asked_operate h : forall x, applied asked h x =
  match x with
  | Hall (Ret x) => Hall match Exchange.operate delay (map (fun p => (fst p, event_of (snd p))) h) x with Ret (x', _) => Ret x' | Throw => Throw | UB => UB end
  | r => r
  end.
Proof.
  induction h as [|[t m] h IH]; intros x; [destruct x as [[]|]; reflexivity|]. unfold applied in *. cbn [fold_left map fst snd Exchange.operate]. rewrite IH. destruct x as [[x| |]|]; [|reflexivity|reflexivity|reflexivity]. cbn [asked].
  destruct (Exchange.handle delay t (event_of m) x) as [[x' ms]| |]; [|reflexivity|reflexivity]. destruct (Exchange.operate delay _ x') as [[x'' ms']| |]; reflexivity.
Qed.
Lemma watchful_attentive inbox (o : @own (role T)) : watchful = true -> attentive shuffle (mk_agent (lock (exchange_communicator delay event_of post random)) (exchange_act watchful) inbox o).
Proof.
  intros -> inbox' own lower upper s o' t H k m _ Hk. unfold handle in H. cbn [ag_comm ag_act ag_inbox ag_own] in H.
  destruct (process_messages _ shuffle lower upper s inbox' own) as [[o1 t1]| |]; [|discriminate|discriminate]. unfold exchange_act in H. assert (Z.min t1 (lower + 1) = t) by congruence. lia.
Qed.
(** What the exchange sends is not for an exchange. *)
Lemma call_all_quiet lower upper s m fs : (forall m, for_exchange (post m) = false) -> forall first (o o' : @own (role T)) t, Forall (fun f => snd f = cb) fs -> Forall (fun m => for_exchange m = false) (snd o) ->
  call_all m lower upper s fs first o = Ret (o', t) -> Forall (fun m => for_exchange m = false) (snd o').
Proof.
  intros Hp. induction fs as [|[p f] fs IH]; intros first o o' t F Fo H; cbn [call_all] in H; [injection H as <- <-; exact Fo|]. apply Forall_cons_iff in F. destruct F as [F1 F]. cbn [snd] in F1. subst f.
  destruct (cb m lower upper s o) as [o1 t1] eqn:E. destruct ((lower <=? t1) && (t1 <=? upper)); [|discriminate]. eapply IH; [exact F| |exact H]. unfold exchange_callback in E. destruct (fst o) as [[x| |]|]; [|injection E as <- <-; exact Fo|injection E as <- <-; exact Fo|injection E as <- <-; exact Fo].
  destruct (Exchange.handle delay lower (event_of m) x) as [[x' ms]| |]; injection E as <- <-; cbn [snd]; [|exact Fo|exact Fo]. apply Forall_app. split; [exact Fo|]. apply Forall_forall. intros y Hy. apply in_map_iff in Hy. destruct Hy as (z & <- & _). apply Hp.
Qed.
Lemma handle_all_quiet c lower upper s ms : (forall m, for_exchange (post m) = false) -> (forall k fs, fm_find k (callbacks c) = Some fs -> Forall (fun f => snd f = cb) fs) ->
  forall first (o o' : @own (role T)) t, Forall (fun m => for_exchange m = false) (snd o) -> handle_all c lower upper s ms first o = Ret (o', t) -> Forall (fun m => for_exchange m = false) (snd o').
Proof.
  intros Hp F. induction ms as [|m ms IH]; intros first o o' t Fo H; cbn [handle_all] in H; [injection H as <- <-; exact Fo|].
  destruct (process_message c lower upper s m o) as [[o1 t1]| |] eqn:E; [|discriminate|discriminate]. eapply IH; [|exact H]. unfold process_message in E. destruct (fm_find (m_type m) (callbacks c)) as [fs|] eqn:Ef; [|injection E as <- _; exact Fo].
  eapply call_all_quiet; [exact Hp|apply Forall_rev, (F _ _ Ef)|exact Fo|exact E].
Qed.
Lemma exchange_callbacks k fs : fm_find k (callbacks (lock (@exchange_communicator delay event_of post T random))) = Some fs -> Forall (fun f => snd f = cb) fs.
Proof.
  intros H. assert (X : forall (l : list (Z * list (Z * callback (@own (role T))))) k fs, fm_find k l = Some fs -> Forall (fun e => Forall (fun f => snd f = cb) (snd e)) l -> Forall (fun f => snd f = cb) fs).
  { clear. induction l as [|[k' v] l IH]; intros k fs H F; cbn [fm_find] in H; [discriminate|]. apply Forall_cons_iff in F. destruct F as [F1 F2]. destruct (k' <? k); [eapply IH; eauto|]. destruct (k' =? k); [|discriminate]. injection H as <-. exact F1. }
  eapply X; [exact H|]. repeat constructor.
Qed.
Lemma exchange_prompt i x : (forall m, for_exchange (post m) = false) -> prompt_to shuffle for_exchange i (@exchange_agent delay event_of post watchful T random x).
Proof.
  intros Hp inbox y lower upper s o t H. unfold handle in H. cbn [ag_comm ag_inbox ag_own ag_act exchange_agent] in H. unfold process_messages in H.
  destruct (handle_all (lock (exchange_communicator delay event_of post random)) lower upper s _ upper (y, [])) as [[o1 t1]| |] eqn:E; [|discriminate|discriminate]. unfold exchange_act in H. assert (o1 = o) by congruence. subst o1.
  pose proof (handle_all_quiet _ _ _ _ _ Hp exchange_callbacks _ (y, []) _ _ (Forall_nil _) E) as X. eapply Forall_impl; [|exact X]. cbn. intros m Hm _ Ht. congruence.
Qed.
Lemma exchange_run hash fuel lower i x (w w' : world (role T)) ts : well_formed w -> im_find i (agents w) = Some (exchange_agent delay event_of post watchful random x) -> watchful = true \/ all_prompt_to shuffle for_exchange i w ->
  run_from hash shuffle fuel lower w = Some (Ret (w', ts)) ->
  exists h sent a, first_come h /\ Forall (fun p => lower <= fst p) h /\ rounds_sending hash shuffle w sent w' /\ im_find i (agents w') = Some a /\
    fst (ag_own a) = Hall match Exchange.operate delay (map (fun p => (fst p, event_of (snd p))) h) x with Ret (x', _) => Ret x' | Throw => Throw | UB => UB end /\
    Permutation (map snd h ++ filter for_exchange (map snd (ag_inbox a))) (filter (fun m => addressed_to i m && for_exchange m) sent) /\
    Forall (fun p => for_exchange (snd p) = true -> w_end w <= m_received (snd p)) (ag_inbox a).
Proof.
  intros W F C H. assert (S : settled shuffle i for_exchange (lock (exchange_communicator delay event_of post random)) (exchange_act watchful) lower (Hall (Ret x)) [] w).
  { split; [exact W|]. exists []. split; [exact F|]. split; [constructor|]. split; [destruct (im_find i (wake_up_times w)); constructor|]. destruct C as [C|C]; [left; now apply watchful_attentive|right; split; [exact C|constructor]]. }
  destruct (settled_run hash shuffle i asked for_exchange _ _ exchange_driven fuel _ _ _ _ _ _ S H) as (h & inbox & sent & Fc & Lo & R & (out & Fi) & K & P).
  exists h, sent. eexists. split; [exact Fc|]. split; [exact Lo|]. split; [exact R|]. split; [exact Fi|]. cbn [ag_own ag_inbox fst]. split; [rewrite asked_operate; reflexivity|]. split; [exact P|exact K].
Qed.
End Exchange.
