From Verif Require Import Base Interval Identity Identity_proofs IdMap IdMap_proofs Multimap Multimap_proofs Communicator Communicator_spec Communicator_proofs
  Simulation Simulation_spec Simulation_proofs Simulation_proofs2 Simulation_proofs3 Punctual_proofs Isolation_spec.
From Coq Require Import ZifyBool ZifyNat.

Lemma im_filter_sorted {V} (g : identity -> bool) (m : idmap V) : im_sorted m -> im_sorted (filter (fun x => g (fst x)) m).
Proof.
  unfold im_sorted. induction 1 as [|x m Hs IH Hf]; cbn; [constructor|]. destruct (g (fst x)); [|exact IH]. constructor; [exact IH|].
  rewrite Forall_forall in *. intros y Hy. apply filter_In in Hy. now apply Hf.
Qed.
Lemma im_filter_find {V} (g : identity -> bool) (m : idmap V) i : im_sorted m -> im_find i (filter (fun x => g (fst x)) m) = if g i then im_find i m else None.
Proof.
  intros Hs. pose proof (im_filter_sorted g m Hs) as Hf. destruct (g i) eqn:G.
  - destruct (im_find i m) as [v|] eqn:E.
    + apply im_find_in; [exact Hf|]. apply filter_In. split; [now apply im_find_in|exact G].
    + apply im_find_none; [exact Hf|]. apply im_find_none in E; [|exact Hs]. intros H. apply E. apply in_map_iff in H. destruct H as (x & Hx & H). apply filter_In in H. apply in_map_iff. exists x. tauto.
  - apply im_find_none; [exact Hf|]. intros H. apply in_map_iff in H. destruct H as (x & <- & H). apply filter_In in H. destruct H. congruence.
Qed.

Section I.
Context {St : Type} (hash : identity -> Z) (shuffle : seed -> list message -> list message) (g : identity -> bool).
Implicit Types (w : world St).

Lemma only_agents w i : sorted_world w -> im_find i (agents (only g w)) = if g i then im_find i (agents w) else None.
Proof. intros [A _]. now apply im_filter_find. Qed.
Lemma only_wake w i : sorted_world w -> im_find i (wake_up_times (only g w)) = if g i then im_find i (wake_up_times w) else None.
Proof. intros [_ A]. now apply im_filter_find. Qed.
Lemma only_sorted w : sorted_world w -> sorted_world (only g w).
Proof. intros [A B]. split; now apply im_filter_sorted. Qed.
Lemma only_wf w : well_formed w -> well_formed (only g w).
Proof.
  intros (A & B & C). split; [now apply im_filter_sorted|]. split; [now apply im_filter_sorted|]. rewrite Forall_forall in *. intros x Hx. apply filter_In in Hx. now apply C.
Qed.
Lemma only_due w lower i : sorted_world w -> (is_due (only g w) lower i <-> g i = true /\ is_due w lower i).
Proof. intros Hs. unfold is_due, local. rewrite only_agents, only_wake by exact Hs. destruct (g i); intuition congruence. Qed.
Lemma world_ext w1 w2 : sorted_world w1 -> sorted_world w2 -> (forall i, im_find i (agents w1) = im_find i (agents w2)) ->
  (forall i, im_find i (wake_up_times w1) = im_find i (wake_up_times w2)) -> w_end w1 = w_end w2 -> w_sample w1 = w_sample w2 -> w1 = w2.
Proof.
  destruct w1 as [a1 t1 e1 s1], w2 as [a2 t2 e2 s2]. cbn. intros [A1 B1] [A2 B2] H1 H2 -> ->. cbn in *. f_equal; apply im_ext; assumption.
Qed.
Lemma act_end lower upper n w p : well_formed w -> act_phase hash shuffle lower upper n w = Ret p -> w_end (p_world p) = w_end w /\ w_sample (p_world p) = w_sample w.
Proof. intros Hwf H. destruct (act_phase_spec _ _ _ _ _ _ _ Hwf H) as ((_ & A & B) & _). split; [exact A|exact B]. Qed.

Lemma only_act lower upper n w p : well_formed w -> act_phase hash shuffle lower upper n w = Ret p ->
  exists q, act_phase hash shuffle lower upper n (only g w) = Ret q /\ p_world q = only g (p_world p).
Proof.
  intros Hwf H. pose proof (wf_sorted _ Hwf) as Hs. pose proof (only_wf w Hwf) as Hwg. destruct (act_phase_spec _ _ _ _ _ _ _ Hwf H) as (_ & [Sp _] & HA & HN).
  destruct (act_phase_total hash shuffle lower upper n (only g w) Hwg) as (q & Eq).
  { intros i a D Ha. apply only_due in D; [|exact Hs]. destruct D as [G D]. rewrite only_agents, G in Ha by exact Hs. destruct (HA i a Ha) as [H1 _]. destruct (H1 D) as (o & t & Eh & Ht & _). exists o, t. split; [exact Eh|exact Ht]. }
  exists q. split; [exact Eq|]. destruct (act_phase_spec _ _ _ _ _ _ _ Hwg Eq) as (_ & [Sq _] & GA & GN).
  destruct (act_end _ _ _ _ _ Hwf H) as [E1 E2]. destruct (act_end _ _ _ _ _ Hwg Eq) as [E3 E4].
  assert (X : forall i, im_find i (agents (p_world q)) = im_find i (agents (only g (p_world p))) /\ im_find i (wake_up_times (p_world q)) = im_find i (wake_up_times (only g (p_world p)))).
  { intros i. rewrite only_agents, only_wake by exact Sp. destruct (g i) eqn:G.
    - destruct (im_find i (agents w)) as [a|] eqn:Ha.
      + destruct (HA i a Ha) as [H1 H2]. destruct (GA i a) as [G1 G2]; [rewrite only_agents, G by exact Hs; exact Ha|].
        destruct (due_dec w lower i Hs) as [D|D].
        * destruct (H1 D) as (o & t & Eh & _ & Ef & Ew). destruct (G1 (proj2 (only_due w lower i Hs) (conj G D))) as (o' & t' & Eh' & _ & Ef' & Ew').
          change (w_sample (only g w)) with (w_sample w) in Eh'. rewrite Eh in Eh'. injection Eh' as <- <-. split; congruence.
        * destruct (H2 D) as [Ef Ew]. destruct G2 as [Ef' Ew']; [intros X; apply only_due in X; [|exact Hs]; now apply D|]. rewrite only_wake, G in Ew' by exact Hs. split; congruence.
      + destruct (HN i) as [Ef Ew]; [unfold local; congruence|]. destruct (GN i) as [Ef' Ew']; [unfold local; rewrite only_agents, G by exact Hs; congruence|].
        rewrite only_wake, G in Ew' by exact Hs. split; congruence.
    - destruct (GN i) as [Ef' Ew']; [unfold local; rewrite only_agents, G by exact Hs; congruence|]. rewrite only_wake, G in Ew' by exact Hs. auto. }
  apply world_ext; [exact Sq|apply only_sorted; exact Sp|apply X|apply X|cbn in *; congruence|cbn in *; congruence].
Qed.
Lemma act_separate lower upper n w p : well_formed w -> separate shuffle g w -> act_phase hash shuffle lower upper n w = Ret p -> separate shuffle g (p_world p).
Proof.
  intros Hwf Hsep H i a' Ha'. destruct (act_phase_spec _ _ _ _ _ _ _ Hwf H) as (_ & _ & HA & HN).
  destruct (im_find i (agents w)) as [a|] eqn:E; [|destruct (HN i) as [X _]; [unfold local; congruence|congruence]].
  destruct (Hsep i a E) as [S1 S2]. destruct (HA i a E) as [H1 H2]. destruct (due_dec w lower i (wf_sorted _ Hwf)) as [D|D].
  - destruct (H1 D) as (o & t & Eh & _ & Ef & _). rewrite Ef in Ha'. injection Ha' as <-. split; [exact S1|]. cbn. destruct a as [ac aa ai ao]. exact (S1 ai ao _ _ _ _ _ S2 Eh).
  - destruct (H2 D) as [Ef _]. rewrite Ef in Ha'. injection Ha' as <-. split; assumption.
Qed.
Lemma filter_none {T} (f : T -> bool) l : Forall (fun x => f x = false) l -> filter f l = [].
Proof. induction 1 as [|x l H _ IH]; cbn; [reflexivity|]. now rewrite H. Qed.
Lemma only_sent w i : sorted_world w -> separate shuffle g w -> g i = true -> filter (addressed_to i) (sent (only g w)) = filter (addressed_to i) (sent w).
Proof.
  intros Hs Hsep G. unfold sent, only. cbn [agents].
  assert (F : forall j a, In (j, a) (agents w) -> same_side g j (ag_outbox a)) by (intros j a Hj; apply im_find_in in Hj; [|apply Hs]; apply (Hsep j a Hj)).
  induction (agents w) as [|[j a] l IH]; [reflexivity|]. cbn [filter map concat fst snd]. rewrite filter_app. rewrite <- IH by (intros; apply F; now right).
  specialize (F j a (or_introl eq_refl)). destruct (g j) eqn:Gj; cbn [map concat snd]; [now rewrite filter_app|].
  rewrite (filter_none (addressed_to i) (ag_outbox a)); [reflexivity|]. unfold same_side in F. rewrite Forall_forall in *. intros m Hm. specialize (F m Hm). unfold addressed_to.
  apply id_eqb_neq. congruence.
Qed.
Lemma only_send w w' c : sorted_world w -> separate shuffle g w -> send_messages w = Ret (w', c) -> exists c', send_messages (only g w) = Ret (only g w', c').
Proof.
  intros Hs Hsep H. destruct (send_ret w w' c Hs H) as (L & _ & S' & K & N & P & A & T). pose proof (only_sorted w Hs) as Hg.
  destruct (send_spec (only g w) Hg) as [_ X]. destruct X as (v & Ev & Sv & Kv & Nv & Pv & Av & Tv).
  { intros m Hm. assert (Hm2 : In m (sent w) /\ g (m_recipient m) = true).
    { unfold sent, only in *. cbn [agents] in Hm. apply in_concat in Hm. destruct Hm as (l & Hl & Hm). apply in_map_iff in Hl. destruct Hl as ([j a] & <- & Hj). apply filter_In in Hj. cbn in *.
      split; [apply in_concat; exists (ag_outbox a); split; [apply in_map_iff; exists (j, a); tauto|exact Hm]|]. destruct Hj as [Hj G]. apply im_find_in in Hj; [|apply Hs]. destruct (Hsep j a Hj) as [_ F].
      unfold same_side in F. rewrite Forall_forall in F. rewrite (F m Hm). exact G. }
    destruct Hm2 as [Hm2 G]. specialize (L m Hm2). unfold local in *. rewrite only_agents, G by exact Hs. exact L. }
  rewrite Ev. eexists. do 2 f_equal. apply world_ext; [exact Sv|now apply only_sorted| | |cbn in *; congruence|cbn in *; congruence].
  - intros i. rewrite Av, !only_agents by assumption. destruct (g i) eqn:G; [|reflexivity]. rewrite A. now rewrite only_sent.
  - intros i. rewrite Tv, !only_wake by assumption. destruct (g i) eqn:G; [rewrite T; now rewrite only_sent|].
    assert (Z : filter (addressed_to i) (sent (only g w)) = []); [|now rewrite Z].
    apply filter_none. apply Forall_forall. intros m Hm. unfold addressed_to. apply id_eqb_neq. intros <-.
    unfold sent, only in Hm. cbn [agents] in Hm. apply in_concat in Hm. destruct Hm as (l & Hl & Hm). apply in_map_iff in Hl. destruct Hl as ([j a] & <- & Hj). apply filter_In in Hj. cbn in *.
    destruct Hj as [Hj Gj]. apply im_find_in in Hj; [|apply Hs]. destruct (Hsep j a Hj) as [_ F]. unfold same_side in F. rewrite Forall_forall in F. specialize (F m Hm). congruence.
Qed.
(** Between rounds: nothing waits in an outbox, every agent is scheduled. *)
Definition rested w : Prop := (forall i a, im_find i (agents w) = Some a -> ag_outbox a = []) /\ (forall i, local w i -> im_find i (wake_up_times w) <> None).
Lemma round_rested lower upper n w w' f : well_formed w -> round hash shuffle lower upper n w = Ret (w', f) -> rested w'.
Proof.
  intros Hwf H. split; [|intros i; eapply round_scheduled; eauto]. intros i a Ha. unfold round in H. destruct (act_phase hash shuffle lower upper n w) as [p| |] eqn:Ea; [|discriminate|discriminate].
  unfold finish_round in H. destruct (send_messages (p_world p)) as [[w1 c]| |] eqn:Es; [|discriminate|discriminate]. assert (w1 = w') as -> by congruence. clear H.
  pose proof (act_wf _ _ _ _ _ _ _ Hwf Ea) as Hwp. destruct (send_ret _ _ _ (wf_sorted _ Hwp) Es) as (_ & _ & _ & _ & _ & _ & A & _).
  rewrite A in Ha. destruct (im_find i (agents (p_world p))) as [a0|]; [|discriminate]. cbn [option_map] in Ha. pose proof (f_equal (option_map ag_outbox) Ha) as X. cbn in X. congruence.
Qed.
Lemma only_rested w : sorted_world w -> rested w -> rested (only g w).
Proof.
  intros Hs [R1 R2]. split.
  - intros i a. rewrite only_agents by exact Hs. destruct (g i); [apply R1|discriminate].
  - intros i. unfold local. rewrite only_agents, only_wake by exact Hs. destruct (g i); [apply R2|congruence].
Qed.
Lemma only_round lower upper n w w' f : well_formed w -> separate shuffle g w -> round hash shuffle lower upper n w = Ret (w', f) ->
  separate shuffle g w' /\ round hash shuffle lower upper n (only g w) = Ret (only g w', determine_next_event (only g w')).
Proof.
  intros Hwf Hsep H. pose proof H as H0. unfold round in H |- *. destruct (act_phase hash shuffle lower upper n w) as [p| |] eqn:Ea; [|discriminate|discriminate].
  unfold finish_round in H. destruct (send_messages (p_world p)) as [[w1 c]| |] eqn:Es; [|discriminate|discriminate]. assert (w1 = w') as -> by congruence. clear H.
  pose proof (act_wf _ _ _ _ _ _ _ Hwf Ea) as Hwp. pose proof (act_separate _ _ _ _ _ Hwf Hsep Ea) as Hsp. destruct (only_act _ _ _ _ _ Hwf Ea) as (q & Eq & Ew).
  destruct (only_send _ _ _ (wf_sorted _ Hwp) Hsp Es) as (c' & Ec). split.
  - intros i a' Ha'. destruct (send_ret _ _ _ (wf_sorted _ Hwp) Es) as (_ & _ & _ & _ & _ & _ & A & _). rewrite A in Ha'. destruct (im_find i (agents (p_world p))) as [a|] eqn:E; [|discriminate].
    assert (a' = cleared (with_mail (filter (addressed_to i) (sent (p_world p))) a)) as -> by (cbn in Ha'; congruence). destruct (Hsp i a E) as [S1 _]. split; [exact S1|]. constructor.
  - rewrite Eq. unfold finish_round. rewrite Ew, Ec.
    assert (R : round hash shuffle lower upper n (only g w) = Ret (only g w', if 0 <? c' then determine_next_event (only g w') else p_first q)) by (unfold round; rewrite Eq; unfold finish_round; rewrite Ew, Ec; reflexivity).
    destruct (round_spec _ _ _ _ _ _ _ _ (only_wf w Hwf) R) as (_ & F & _). rewrite F. reflexivity.
Qed.
(** A group in which nobody is due stays as it is. *)
Lemma idle_round lower upper n w w' f : well_formed w -> rested w -> quiet w lower -> round hash shuffle lower upper n w = Ret (w', f) -> w' = w.
Proof.
  intros Hwf [R1 R2] [_ Q] H. pose proof (wf_sorted _ Hwf) as Hs. destruct (round_spec _ _ _ _ _ _ _ _ Hwf H) as (W' & _ & N & K).
  unfold round in H. destruct (act_phase hash shuffle lower upper n w) as [p| |] eqn:Ea; [|discriminate|discriminate].
  unfold finish_round in H. destruct (send_messages (p_world p)) as [[w1 c]| |] eqn:Es; [|discriminate|discriminate]. assert (w1 = w') as -> by congruence. clear H.
  pose proof (act_wf _ _ _ _ _ _ _ Hwf Ea) as Hwp. destruct (act_phase_spec _ _ _ _ _ _ _ Hwf Ea) as (_ & _ & HA & HN). destruct (act_end _ _ _ _ _ Hwf Ea) as [E1 E2].
  assert (D : forall i, ~ is_due w lower i). { intros i [Hl [Hd|Hd]]; [specialize (Q i lower Hd); lia|now apply (R2 i Hl)]. }
  assert (Ep : p_world p = w).
  { apply world_ext; [now apply wf_sorted|exact Hs| | |exact E1|exact E2].
    - intros i. destruct (im_find i (agents w)) as [a|] eqn:E; [apply (HA i a E); apply D|apply HN; unfold local; congruence].
    - intros i. destruct (im_find i (agents w)) as [a|] eqn:E; [apply (HA i a E); apply D|apply HN; unfold local; congruence]. }
  rewrite Ep in Es. destruct (send_ret _ _ _ Hs Es) as (_ & _ & S' & _ & _ & P & A & T).
  assert (Z : sent w = []).
  { unfold sent. assert (F : forall j a, In (j, a) (agents w) -> ag_outbox a = []) by (intros j a Hj; apply im_find_in in Hj; [|apply Hs]; exact (R1 j a Hj)). clear - F.
    induction (agents w) as [|[j a] l IH]; [reflexivity|]. cbn. rewrite (F j a (or_introl eq_refl)). apply IH. intros j' a' Hj'. apply (F j' a'). now right. }
  rewrite Z in A, T. apply world_ext; [exact S'|exact Hs| | |exact N|exact P].
  - intros i. rewrite A. cbn [filter]. destruct (im_find i (agents w)) as [a|] eqn:E; [|reflexivity]. cbn [option_map]. f_equal. rewrite with_mail_nil. specialize (R1 i a E).
    destruct a as [ac aa ai [s o]]. unfold ag_outbox in R1. cbn in R1. subst o. reflexivity.
  - intros i. rewrite T. reflexivity.
Qed.
Lemma next_later w : sorted_world w -> determine_next_event w <= determine_next_event (only g w).
Proof.
  intros Hs. destruct (next_event_spec w Hs) as (_ & L & M). destruct (next_event_spec (only g w) (only_sorted w Hs)) as ([E|(i & E)] & _ & _).
  - rewrite E. exact L.
  - rewrite only_wake in E by exact Hs. destruct (g i); [|discriminate]. exact (M i _ E).
Qed.
Lemma idle_rounds fuel lower upper : forall n w w' t, well_formed w -> separate shuffle g w -> rested w -> quiet (only g w) lower ->
  rounds hash shuffle fuel lower upper n w = Some (Ret (w', t)) -> only g w' = only g w /\ separate shuffle g w' /\ rested w'.
Proof.
  induction fuel as [|fuel IH]; intros n w w' t Hwf Hsep R Q H; cbn [rounds] in H; [discriminate|].
  destruct (round hash shuffle lower upper n w) as [[w1 f]| |] eqn:E; [|discriminate|discriminate].
  destruct (only_round _ _ _ _ _ _ Hwf Hsep E) as [Sep1 E1]. pose proof (idle_round _ _ _ _ _ _ (only_wf _ Hwf) (only_rested _ (wf_sorted _ Hwf) R) Q E1) as Eo.
  pose proof (round_rested _ _ _ _ _ _ Hwf E) as R1. destruct (round_spec _ _ _ _ _ _ _ _ Hwf E) as (W1 & _).
  destruct (lower >=? f).
  - rewrite <- Eo in Q. destruct (IH _ _ _ _ W1 Sep1 R1 Q H) as (A & B & C). split; [congruence|]. split; assumption.
  - assert (w1 = w') as -> by congruence. auto.
Qed.
Lemma rounds_mono fuel lower upper : forall n w r, rounds (St := St) hash shuffle fuel lower upper n w = Some r -> forall fuel', (fuel <= fuel')%nat -> rounds hash shuffle fuel' lower upper n w = Some r.
Proof.
  induction fuel as [|fuel IH]; intros n w r H fuel' L; [discriminate|]. destruct fuel' as [|fuel']; [lia|]. cbn [rounds] in *.
  destruct (round hash shuffle lower upper n w) as [[w1 f]| |]; [|exact H|exact H]. destruct (lower >=? f); [|exact H]. apply (IH _ _ _ H). lia.
Qed.
Lemma only_rounds fuel lower upper : forall n w w' t, well_formed w -> separate shuffle g w ->
  rounds hash shuffle fuel lower upper n w = Some (Ret (w', t)) -> lower < w_end w ->
  rounds hash shuffle fuel lower upper n (only g w) = Some (Ret (only g w', determine_next_event (only g w'))) /\ separate shuffle g w' /\ rested w'.
Proof.
  induction fuel as [|fuel IH]; intros n w w' t Hwf Hsep H He; cbn [rounds] in H |- *; [discriminate|].
  destruct (round hash shuffle lower upper n w) as [[w1 f]| |] eqn:E; [|discriminate|discriminate].
  destruct (only_round _ _ _ _ _ _ Hwf Hsep E) as [Sep1 E1]. rewrite E1. pose proof (round_rested _ _ _ _ _ _ Hwf E) as R1.
  destruct (round_spec _ _ _ _ _ _ _ _ Hwf E) as (W1 & F1 & N1 & _). pose proof (next_later w1 (wf_sorted _ W1)) as L.
  destruct (lower >=? f) eqn:G.
  - destruct (lower >=? determine_next_event (only g w1)) eqn:G2.
    + apply (IH _ _ _ _ W1 Sep1 H). congruence.
    + assert (Q : quiet (only g w1) lower) by (apply (quiet_next _ lower (determine_next_event (only g w1))); [apply next_event_spec; apply only_sorted; now apply wf_sorted|lia]).
      destruct (idle_rounds _ _ _ _ _ _ _ W1 Sep1 R1 Q H) as (Eo & A & B). rewrite Eo. auto.
  - assert (w1 = w') as -> by congruence. destruct (lower >=? determine_next_event (only g w')) eqn:G2; [lia|]. auto.
Qed.
Lemma only_step fuel lower upper w w' t : well_formed w -> separate shuffle g w -> step hash shuffle fuel lower upper w = Some (Ret (w', t)) ->
  exists t', step hash shuffle fuel lower upper (only g w) = Some (Ret (only g w', t')) /\ t <= t' /\ t' = determine_next_event (only g w') /\ separate shuffle g w' /\ rested w'.
Proof.
  intros Hwf Hsep H. destruct (step_returns _ _ _ _ _ _ _ _ Hwf H) as (_ & W' & _ & Nx & _ & N & _).
  assert (He : lower < w_end w). { destruct (step_returns _ _ _ _ _ _ _ _ Hwf H) as (_ & _ & Lt & (_ & Le & _) & _). lia. }
  unfold step in *. destruct (ti_empty lower upper); [discriminate|].
  destruct (only_rounds _ _ _ _ _ _ _ Hwf Hsep H He) as (A & B & C). eexists. split; [exact A|]. split; [|auto].
  assert (t = determine_next_event w') as -> by (clear - Nx W'; destruct (next_event_spec w' (wf_sorted _ W')) as (A1 & A2 & A3); destruct Nx as (B1 & B2 & B3);
     destruct A1 as [A1|(i & A1)], B1 as [B1|(j & B1)]; try (specialize (B3 _ _ A1)); try (specialize (A3 _ _ B1)); lia).
  apply next_later. now apply wf_sorted.
Qed.
Lemma idle_step fuel lower upper w w' t : well_formed w -> separate shuffle g w -> rested w -> quiet (only g w) lower -> step hash shuffle fuel lower upper w = Some (Ret (w', t)) ->
  only g w' = only g w /\ separate shuffle g w' /\ rested w'.
Proof. intros Hwf Hsep R Q H. unfold step in H. destruct (ti_empty lower upper); [discriminate|]. exact (idle_rounds _ _ _ _ _ _ _ Hwf Hsep R Q H). Qed.
Lemma run_mono fuel : forall lower w r, run_from (St := St) hash shuffle fuel lower w = Some r -> forall fuel', (fuel <= fuel')%nat -> run_from hash shuffle fuel' lower w = Some r.
Proof.
  induction fuel as [|fuel IH]; intros lower w r H fuel' L; [discriminate|]. destruct fuel' as [|fuel']; [lia|]. cbn [run_from] in *.
  assert (M : forall r, step hash shuffle (S fuel) lower (w_end w) w = Some r -> step hash shuffle (S fuel') lower (w_end w) w = Some r).
  { intros r0. unfold step. destruct (ti_empty lower (w_end w)); [auto|]. intros X. eapply rounds_mono; [exact X|lia]. }
  destruct (step hash shuffle (S fuel) lower (w_end w) w) as [[[w1 t]| |]|]; [|rewrite (M _ eq_refl); exact H|rewrite (M _ eq_refl); exact H|discriminate].
  rewrite (M _ eq_refl). destruct (t <? w_end w1); [|exact H].
  destruct (run_from hash shuffle fuel t w1) as [r1|] eqn:E1; [|discriminate]. rewrite (IH _ _ _ E1 fuel') by lia. exact H.
Qed.
Lemma only_run fuel : forall lower w w' ts, well_formed w -> separate shuffle g w -> run_from hash shuffle fuel lower w = Some (Ret (w', ts)) ->
  (exists ts', run_from hash shuffle fuel lower (only g w) = Some (Ret (only g w', ts')) /\ subsequence ts' ts) /\
  (rested w -> quiet (only g w) lower ->
     (determine_next_event (only g w) < w_end w -> exists ts', run_from hash shuffle fuel (determine_next_event (only g w)) (only g w) = Some (Ret (only g w', ts')) /\ subsequence ts' ts) /\
     (w_end w <= determine_next_event (only g w) -> only g w' = only g w)).
Proof.
  induction fuel as [|fuel IH]; intros lower w w' ts Hwf Hsep H; [discriminate|]. cbn [run_from] in H.
  destruct (step hash shuffle (S fuel) lower (w_end w) w) as [[[w1 t]| |]|] eqn:E; try discriminate.
  destruct (step_returns _ _ _ _ _ _ _ _ Hwf E) as (Hlu & W1 & Lt & Nx & _ & N1 & _). rewrite N1 in H.
  assert (En : t = determine_next_event w1) by (clear - Nx W1; destruct (next_event_spec w1 (wf_sorted _ W1)) as (A1 & A2 & A3); destruct Nx as (B1 & B2 & B3);
     destruct A1 as [A1|(i & A1)], B1 as [B1|(j & B1)]; try (specialize (B3 _ _ A1)); try (specialize (A3 _ _ B1)); lia).
  pose proof (next_later w1 (wf_sorted _ W1)) as Ln. rewrite <- En in Ln.
  pose proof (next_event_spec (only g w1) (only_sorted _ (wf_sorted _ W1))) as NG. destruct NG as (NG1 & NG2 & NG3). change (w_end (only g w1)) with (w_end w1) in NG1, NG2. rewrite N1 in NG2.
  (* what the rest of the run does, from the state after this step *)
  assert (Rest : separate shuffle g w1 -> rested w1 ->
     (determine_next_event (only g w1) < w_end w -> exists ts', run_from hash shuffle fuel (determine_next_event (only g w1)) (only g w1) = Some (Ret (only g w', ts')) /\ exists ts0, ts = lower :: ts0 /\ subsequence ts' ts0) /\
     (w_end w <= determine_next_event (only g w1) -> only g w' = only g w1 /\ exists ts0, ts = lower :: ts0)).
  { intros S1 R1. destruct (t <? w_end w) eqn:G.
    - destruct (run_from hash shuffle fuel t w1) as [[[w2 ts2]| |]|] eqn:E2; try discriminate. assert (w2 = w') as -> by congruence. assert (lower :: ts2 = ts) as <- by congruence. clear H.
      destruct (IH _ _ _ _ W1 S1 E2) as [I1 I2]. destruct (Z.eq_dec t (determine_next_event (only g w1))) as [Et|Et].
      + split; [|lia]. intros _. destruct I1 as (ts' & X & Y). rewrite <- Et. eauto.
      + assert (Q : quiet (only g w1) t) by (apply (quiet_next _ t (determine_next_event (only g w1))); [apply next_event_spec; apply only_sorted; now apply wf_sorted|lia]).
        destruct (I2 R1 Q) as [J1 J2]. rewrite N1 in J1, J2. split; [intros X; destruct (J1 X) as (ts' & Y & Z); eauto 6|intros X; split; [exact (J2 X)|eauto]].
    - assert (w1 = w') as -> by congruence. split; [lia|]. intros _. split; [reflexivity|]. exists []. congruence. }
  split.
  - destruct (only_step _ _ _ _ _ _ Hwf Hsep E) as (t' & Eg & _ & Et' & S1 & R1). destruct (Rest S1 R1) as [P1 P2]. cbn [run_from].
    change (w_end (only g w)) with (w_end w). rewrite Eg. change (w_end (only g w1)) with (w_end w1). rewrite N1, Et'. destruct (determine_next_event (only g w1) <? w_end w) eqn:G.
    + destruct P1 as (ts' & X & ts0 & -> & Y); [lia|]. rewrite X. eexists. split; [reflexivity|]. now apply sub_keep.
    + destruct P2 as [X (ts0 & ->)]; [lia|]. rewrite X. eexists. split; [reflexivity|]. apply sub_keep. clear. induction ts0; constructor; auto.
  - intros R Q. destruct (idle_step _ _ _ _ _ _ Hwf Hsep R Q E) as (Eo & S1 & R1). destruct (Rest S1 R1) as [P1 P2]. rewrite Eo in P1, P2. split.
    + intros X. destruct (P1 X) as (ts' & Y & ts0 & -> & Z). exists ts'. split; [eapply run_mono; [exact Y|lia]|now apply sub_skip].
    + intros X. apply P2. exact X.
Qed.
End I.

(** *** Callbacks and [act]. *)
Lemma order_in {A} (rs order : list (registration A)) r : call_order rs order -> In r order -> In r rs.
Proof.
  intros [_ O] H. specialize (O (r_priority r)). assert (X : In r (with_priority (r_priority r) order)) by (apply filter_In; split; [exact H|apply Z.eqb_refl]).
  rewrite O in X. apply in_rev in X. apply filter_In in X. apply X.
Qed.
Lemma calls_keep {A} (P : A -> Prop) m lower upper s fs a ts a' : calls m lower upper s fs a ts a' ->
  Forall (fun f => forall a, P a -> P (fst (f m lower upper s a))) fs -> P a -> P a'.
Proof.
  induction 1 as [a|f fs a a1 t ts a2 Hf Hc IH]; intros F Pa; [exact Pa|]. apply Forall_cons_iff in F. destruct F as [F1 F]. apply (IH F). specialize (F1 a Pa). now rewrite Hf in F1.
Qed.
Lemma sends_stays {St} shuffle g i (a : agent St) : sends_to_side g i a -> stays_on_side shuffle g i a.
Proof.
  intros ((b & rs & c & R & Hc & F) & Act) inbox own lower upper s o t Ho H. unfold handle in H. cbn [ag_comm ag_act ag_inbox ag_own] in H.
  destruct (process_messages (ag_comm a) shuffle lower upper s inbox own) as [[o1 t1]| |] eqn:E; [|discriminate|discriminate].
  assert (S1 : same_side g i (snd o1)).
  { assert (E' : process_messages c shuffle lower upper s inbox own = Ret (o1, t1)) by (destruct Hc as [Hc|Hc]; rewrite Hc in E; [exact E|rewrite lock_same_all in E; exact E]).
    unfold process_messages in E'. apply handle_all_spec in E'. destruct E' as (ts & Hh & _). clear - R F Hh Ho. induction Hh as [o|m ms o o1 t ts o2 Hp Hh IH]; [exact Ho|]. apply IH. clear IH Hh.
    destruct (message_callbacks b rs c lower upper s m o R) as (order & ts' & a' & O & C & G & B).
    assert (W : Forall (within lower upper) ts' \/ ~ Forall (within lower upper) ts').
    { clear. induction ts' as [|t l [IH|IH]]; [left; constructor| |right; intros X; apply IH; now inversion X].
      destruct (Z_le_dec lower t), (Z_le_dec t upper); [left; constructor; [split; assumption|assumption]|right; intros X; inversion X as [|? ? Y]; unfold within in Y; lia..]. }
    destruct W as [W|W]; [|rewrite (B W) in Hp; discriminate]. rewrite (G W) in Hp. assert (a' = o1) as -> by congruence.
    apply (calls_keep (fun o => same_side g i (snd o)) _ _ _ _ _ _ _ _ C); [|exact Ho]. apply Forall_map, Forall_forall. intros r Hr. apply (order_in _ _ _ O) in Hr. apply filter_In in Hr.
    rewrite Forall_forall in F. intros o' Ho'. now apply F. }
  specialize (Act lower upper s o1 S1). destruct (ag_act a lower upper s o1) as [o2 t2]. assert (o2 = o) as -> by congruence. exact Act.
Qed.
