(** Property theorems C73-C74. *)
From Verif Require Import Base Identity IdMap IdMap_proofs Multimap Communicator Simulation Simulation_spec
  Simulation_proofs Simulation_proofs2 Simulation_proofs3 Simulation_props Environment.
From Coq Require Import ZifyBool ZifyNat.

Lemma activate_loop_spec grow todo : forall v n, size v <= capacity v ->
  (size v + Z.of_nat (length todo) <= capacity v -> exists v', activate_loop grow todo v n = Ret (v', n + Z.of_nat (length todo)) /\
     elements v' = elements v ++ todo /\ capacity v' = capacity v) /\
  (capacity v < size v + Z.of_nat (length todo) -> activate_loop grow todo v n = UB).
Proof.
  induction todo as [|i todo IH]; intros v n Hv; cbn [activate_loop length].
  - split; [|lia]. intros _. exists v. rewrite Z.add_0_r, app_nil_r. repeat split.
  - destruct (size v =? capacity v) eqn:E; [split; [lia|reflexivity]|].
    assert (S1 : size (activate_agent grow v i) = size v + 1) by (unfold size, activate_agent, push_back; cbn; rewrite app_length; cbn; lia).
    assert (C1 : capacity (activate_agent grow v i) = capacity v) by (unfold activate_agent, push_back; cbn; now rewrite E).
    destruct (IH (activate_agent grow v i) (n + 1)) as [I1 I2]; [lia|]. split.
    + intros H. destruct I1 as (v' & A & B & C); [lia|]. exists v'. split; [rewrite A; do 2 f_equal; lia|]. split; [|congruence].
      rewrite B. unfold activate_agent, push_back. cbn. now rewrite <- app_assoc.
    + intros H. apply I2. lia.
Qed.
(** C73: activating works exactly when the vector has room for twice its elements. *)
Theorem C73_activation_needs_spare_capacity : forall grow v, size v <= capacity v ->
  (2 * size v <= capacity v -> activate grow v = Ret (mk_vector [] (capacity v), size v)) /\
  (capacity v < 2 * size v -> activate grow v = UB /\ deactivate grow v = UB).
Proof.
  intros grow v Hv. destruct (activate_loop_spec grow (elements v) v 0 Hv) as [H1 H2]. unfold activate, deactivate, size in *. split; intros H.
  - destruct H1 as (v' & E & _ & C); [lia|]. rewrite E, C. reflexivity.
  - rewrite H2 by lia. split; reflexivity.
Qed.
Print Assumptions C73_activation_needs_spare_capacity.
(** With vectors that at most double, a run after creating any agents is undefined. *)
Theorem C73_run_after_creating_agents_refuted : forall grow ids,
  (forall n, 0 <= n -> n + 1 <= grow n <= Z.max 1 (2 * n)) -> ids <> [] -> activate grow (after_creating grow ids) = UB.
Proof.
  intros grow ids Hg Hne.
  assert (G : forall l v, (size v <= capacity v /\ (capacity v < 2 * size v \/ (size v = 0 /\ capacity v = 0 /\ l <> []))) ->
     let r := fold_left (activate_agent grow) l v in size r <= capacity r < 2 * size r).
  { induction l as [|i l IH]; intros v [Hv Hc]; cbn [fold_left].
    - cbn. destruct Hc as [Hc|(_ & _ & Hc)]; [lia|congruence].
    - assert (S1 : size (activate_agent grow v i) = size v + 1) by (unfold size, activate_agent, push_back; cbn; rewrite app_length; cbn; lia).
      assert (0 <= size v) by (unfold size; lia). specialize (Hg (size v) ltac:(assumption)).
      apply IH. rewrite S1. unfold activate_agent, push_back. cbn. destruct (size v =? capacity v) eqn:E; lia. }
  specialize (G ids empty_vector). cbn zeta in G. unfold after_creating. apply C73_activation_needs_spare_capacity; apply G; split; cbn; try lia; right; repeat split; auto.
Qed.
Print Assumptions C73_run_after_creating_agents_refuted.
Example C73_case : activate (fun n => Z.max 1 (2 * n)) (after_creating (fun n => Z.max 1 (2 * n)) [[1]; [2]; [3]]) = UB /\
  activate (fun n => Z.max 1 (2 * n)) (mk_vector [[1]; [2]] 8) = Ret (mk_vector [] 8, 2).
Proof. split; reflexivity. Qed.

(** C74: stepping an environment never moves the model's time ... *)
Theorem C74_time_never_advances : forall (St : Type) hash shuffle fuel (w w' : world St) time time',
  env_step hash shuffle fuel (w, time) = Some (Ret (w', time')) -> time' = time.
Proof.
  intros St h s f w w' t t' H. unfold env_step in H. destruct (t <? w_end w); [|injection H as <- <-; reflexivity].
  destruct (step h s f t (w_end w) w) as [[[w1 n]| |]|]; try discriminate. injection H as <- <-. reflexivity.
Qed.
Print Assumptions C74_time_never_advances.

Section Stall.
Context {St : Type} (hash : identity -> Z) (shuffle : seed -> list message -> list message).
Definition all_scheduled (w : world St) : Prop := forall i, local w i -> im_find i (wake_up_times w) <> None.
Lemma wake_up_after_some o ms : o <> None -> wake_up_after o ms <> None.
Proof. revert o. induction ms as [|m ms IH]; intros o H; cbn; [exact H|]. apply IH. discriminate. Qed.
Lemma round_scheduled lower upper n (w w' : world St) f : well_formed w -> round hash shuffle lower upper n w = Ret (w', f) -> all_scheduled w' /\ sent w' = [].
Proof.
  intros Hwf Hr. pose proof (wf_sorted w Hwf) as Hs. destruct (round_spec hash shuffle _ _ _ _ _ _ Hwf Hr) as (W' & _ & _ & K).
  unfold round in Hr. destruct (act_phase hash shuffle lower upper n w) as [p| |] eqn:Ep; [|discriminate|discriminate]. unfold finish_round in Hr.
  destruct (send_messages (p_world p)) as [[w1 c]| |] eqn:Es; [|discriminate|discriminate]. injection Hr as <- <-.
  destruct (act_phase_spec hash shuffle _ _ _ _ _ Hwf Ep) as (_ & _ & HA & _). pose proof (act_wf hash shuffle _ _ _ _ _ Hwf Ep) as Hwp.
  destruct (send_ret _ _ _ (wf_sorted _ Hwp) Es) as (_ & _ & _ & _ & _ & _ & _ & T). split.
  - intros i L. rewrite T. apply wake_up_after_some. apply (same_local w1 w) in L; [|now apply wf_sorted|exact Hs|exact K].
    destruct (im_find i (agents w)) as [a|] eqn:Ha; [|exfalso; now apply L]. destruct (HA i a Ha) as [H1 H2]. destruct (due_dec w lower i Hs) as [D|D].
    + destruct (H1 D) as (o & t & _ & _ & _ & E). congruence.
    + destruct (H2 D) as [_ E]. rewrite E. intros X. apply D. split; [exact L|right; exact X].
  - destruct (C15_exactly_once_delivery _ _ _ _ Hwp Es) as (_ & _ & _ & X & _). exact X.
Qed.
Lemma rounds_scheduled fuel lower upper : forall n (w w' : world St) t, well_formed w -> rounds hash shuffle fuel lower upper n w = Some (Ret (w', t)) -> all_scheduled w' /\ sent w' = [].
Proof.
  induction fuel as [|fuel IH]; intros n w w' t Hwf H; cbn in H; [discriminate|].
  destruct (round hash shuffle lower upper n w) as [[w1 f]| |] eqn:E; [|discriminate|discriminate].
  destruct (lower >=? f); [|injection H as <- <-; eapply round_scheduled; eauto]. eapply IH; [|exact H]. eapply round_spec; eauto.
Qed.
Lemma idle_round lower upper n (w : world St) : well_formed w -> quiet w lower -> all_scheduled w -> sent w = [] ->
  round hash shuffle lower upper n w = Ret (w, determine_next_event w).
Proof.
  intros Hwf [_ Q] A C. pose proof (wf_sorted w Hwf) as Hs.
  assert (E : acting w lower = []).
  { destruct (acting w lower) as [|i l] eqn:E; [reflexivity|]. exfalso. assert (D : In i (acting w lower)) by (rewrite E; left; reflexivity).
    apply acting_due in D; [|exact Hs]. destruct D as [L [D|D]]; [specialize (Q _ _ D); lia|exact (A i L D)]. }
  assert (Ew : schedule_new w lower = w).
  { destruct w as [ag wk en sa]. unfold schedule_new. cbn [agents wake_up_times w_end w_sample] in *. f_equal. apply im_ext; [apply (emplace_all _ _ lower [] (proj2 Hs))|apply Hs|].
    intros i. pose proof (schedule_new_find _ lower i Hs) as X. cbn [wake_up_times schedule_new agents] in X. rewrite X. destruct (im_find i wk) eqn:Ei; [reflexivity|].
    destruct (is_in (map fst ag) i) eqn:Y; [|reflexivity]. exfalso. apply (A i); [|exact Ei]. apply local_in; [apply Hs|]. now apply is_in_iff. }
  unfold round, act_phase. rewrite E. cbn [flat_map run_parts]. unfold finish_round, begin_round. cbn [p_world p_first]. rewrite Ew.
  destruct (sent_nil_send w Hs C) as (w2 & E2 & T2 & N2). rewrite E2. change (0 <? 0) with false. cbv iota. do 2 f_equal.
  destruct (send_ret _ _ _ Hs E2) as (_ & _ & S2 & K2 & _ & P2 & A2 & _).
  assert (Ea : agents w2 = agents w).
  { apply im_ext; [apply S2|apply Hs|]. intros i. rewrite A2, C. cbn. destruct (im_find i (agents w)) as [a|] eqn:Ha; [|reflexivity]. cbn. f_equal.
    assert (O : ag_outbox a = []).
    { apply im_find_in in Ha; [|apply Hs]. unfold sent in C. clear - C Ha. induction (agents w) as [|x l IH]; [destruct Ha|]. cbn in C. apply app_eq_nil in C. destruct C as [C1 C2].
      destruct Ha as [->|Ha]; [exact C1|now apply IH]. }
    unfold cleared, with_mail, with_inbox, with_own. cbn. destruct a as [c ac ib [s o]]. cbn in *. rewrite O. reflexivity. }
  destruct w as [ag wk en sa], w2 as [ag2 wk2 en2 sa2]. cbn in *. congruence.
Qed.
Lemma stalls fuel fuel' (w w1 : world St) time time1 : well_formed w -> env_step hash shuffle fuel (w, time) = Some (Ret (w1, time1)) ->
  time < w_end w -> env_step hash shuffle (S fuel') (w1, time1) = Some (Ret (w1, time1)).
Proof.
  intros Hwf H Ht. unfold env_step in H. destruct (time <? w_end w) eqn:E; [|lia].
  destruct (step hash shuffle fuel time (w_end w) w) as [[[w2 n]| |]|] eqn:Es; try discriminate. injection H as <- <-.
  destruct (step_returns hash shuffle _ _ _ _ _ _ Hwf Es) as (_ & W2 & H2 & H3 & Q & N & _). unfold step in Es. destruct (Interval.ti_empty time (w_end w)) eqn:X; [discriminate|].
  destruct (rounds_scheduled _ _ _ _ _ _ _ Hwf Es) as [A C]. unfold env_step. rewrite N, E. unfold step. rewrite X. cbn [rounds].
  rewrite idle_round by assumption. assert (Y : time < determine_next_event w2) by (apply (quiet_next w2 time); [apply next_event_spec; now apply wf_sorted|exact Q]).
  destruct (time >=? determine_next_event w2) eqn:Z; [lia|reflexivity].
Qed.
End Stall.
(** ... so that the second call does nothing at all: the simulation stalls after its first step. *)
Theorem C74_second_step_does_nothing : forall (St : Type) hash shuffle fuel fuel' (w w1 : world St) time time1,
  well_formed w -> env_step hash shuffle fuel (w, time) = Some (Ret (w1, time1)) -> time < w_end w ->
  env_step hash shuffle (S fuel') (w1, time1) = Some (Ret (w1, time1)).
Proof. intros. eapply stalls; eauto. Qed.
Print Assumptions C74_second_step_does_nothing.
Theorem C74_stepping_reaches_the_end_refuted : exists (w : world (list Z)) time, well_formed w /\ time < w_end w /\
  (exists w', run_from h sh 50 time w = Some (Ret w')) /\
  forall n : nat, let iter := Nat.iter n (fun s => match s with Some (Ret s') => env_step h sh 50 s' | x => x end) (Some (Ret (w, time))) in
    exists w', iter = Some (Ret (w', time)).
Proof.
  exists calm_world, 10. assert (W : well_formed calm_world) by (split; [|split]; repeat constructor). split; [exact W|]. split; [cbn; lia|]. split; [eexists; vm_compute; reflexivity|].
  assert (E : exists w1, env_step h sh 50 (calm_world, 10) = Some (Ret (w1, 10))) by (eexists; vm_compute; reflexivity). destruct E as (w1 & E).
  assert (G : forall n, Nat.iter (S n) (fun s => match s with Some (Ret s') => env_step h sh 50 s' | x => x end) (Some (Ret (calm_world, 10))) = Some (Ret (w1, 10))).
  { induction n as [|n IH]; [exact E|]. change (Nat.iter (S (S n)) ?f ?x) with (f (Nat.iter (S n) f x)). rewrite IH. exact (stalls h sh 50 49 _ _ _ _ W E ltac:(cbn; lia)). }
  intros [|n]; [eexists; reflexivity|]. cbn zeta. rewrite G. eauto.
Qed.
Print Assumptions C74_stepping_reaches_the_end_refuted.
Example C74_case : well_formed calm_world /\ 10 < w_end calm_world /\ exists w1, env_step h sh 50 (calm_world, 10) = Some (Ret (w1, 10)).
Proof. split; [split; [|split]; repeat constructor|]. split; [cbn; lia|]. eexists. vm_compute. reflexivity. Qed.
