From Verif Require Import Base Interval Identity Identity_proofs IdMap IdMap_proofs Multimap Multimap_proofs Communicator Communicator_proofs
  Simulation Simulation_spec Simulation_proofs Simulation_proofs2 Simulation_proofs3 Punctual_spec.
From Coq Require Import ZifyBool ZifyNat.

Section P.
Context {St : Type} (hash : identity -> Z) (shuffle : seed -> list message -> list message).
Implicit Types (w : world St).

Lemma wake_after_le ms : forall o t, wake_up_after o ms = Some t -> (forall x, o = Some x -> t <= x) /\ forall m, In m ms -> t <= m_received m.
Proof.
  induction ms as [|m ms IH]; intros o t H; cbn in H; [split; [intros x ->; injection H as ->; lia|intros m []]|].
  destruct (IH _ _ H) as [H1 H2]. unfold earlier in H1. specialize (H1 _ eq_refl). split.
  - intros x ->. lia.
  - intros m' [<-|Hm]; [destruct o; lia|now apply H2].
Qed.
Lemma round_punctual lower upper n w w' f : well_formed w -> all_attentive shuffle w -> punctual w -> round hash shuffle lower upper n w = Ret (w', f) ->
  punctual w' /\ all_attentive shuffle w'.
Proof.
  intros Hwf Ha Hp H. unfold round in H. destruct (act_phase hash shuffle lower upper n w) as [p| |] eqn:Ea; [|discriminate|discriminate].
  unfold finish_round in H. destruct (send_messages (p_world p)) as [[w1 c]| |] eqn:Es; [|discriminate|discriminate]. assert (w1 = w') as -> by congruence. clear H.
  pose proof (act_wf _ _ _ _ _ _ _ Hwf Ea) as Hwp. destruct (act_phase_spec _ _ _ _ _ _ _ Hwf Ea) as (_ & _ & HA & HN).
  destruct (send_ret _ _ _ (wf_sorted _ Hwp) Es) as (_ & _ & _ & _ & _ & _ & A & T).
  assert (P1 : forall i a', im_find i (agents (p_world p)) = Some a' -> attentive shuffle a' /\ forall k m t, In (k, m) (ag_inbox a') -> im_find i (wake_up_times (p_world p)) = Some t -> t <= k).
  { intros i a' Ha'. destruct (im_find i (agents w)) as [a|] eqn:E; [|destruct (HN i) as [X _]; [unfold local; congruence|congruence]].
    destruct (HA i a E) as [H1 H2]. destruct (due_dec w lower i (wf_sorted _ Hwf)) as [D|D].
    - destruct (H1 D) as (o & t & Eh & _ & Ef & Ew). rewrite Ef in Ha'. injection Ha' as <-. split; [exact (Ha i a E)|]. cbn. intros k m t' Hi Ht'. rewrite Ew in Ht'. injection Ht' as <-.
      apply filter_In in Hi. destruct Hi as [Hi Hk]. cbn in Hk. destruct a as [ac aa ai ao]. apply (Ha i _ E ai ao lower upper _ o t Eh k m Hi). lia.
    - destruct (H2 D) as [Ef Ew]. rewrite Ef in Ha'. injection Ha' as <-. split; [exact (Ha i a E)|]. intros k m t Hi Ht. rewrite Ew in Ht. exact (Hp i a k m t E Hi Ht). }
  split.
  - intros i a' k m t Ha' Hi Ht. rewrite A in Ha'. rewrite T in Ht. destruct (im_find i (agents (p_world p))) as [a|] eqn:E; [|discriminate].
    assert (a' = cleared (with_mail (filter (addressed_to i) (sent (p_world p))) a)) as -> by (cbn in Ha'; congruence). cbn in Hi.
    destruct (insert_all_spec (filter (addressed_to i) (sent (p_world p))) (ag_inbox a) (inbox_sorted _ i a Hwp E)) as (_ & P & _). apply (Permutation_in _ P) in Hi.
    destruct (wake_after_le _ _ _ Ht) as [W1 W2]. apply in_app_or in Hi. destruct Hi as [Hi|Hi].
    + destruct (im_find i (wake_up_times (p_world p))) as [x|] eqn:Ex; [|exfalso].
      * specialize (W1 x eq_refl). destruct (P1 i a E) as [_ X]. specialize (X k m x Hi Ex). lia.
      * (* every agent has a wake-up time after acting *)
        destruct (im_find i (agents w)) as [a0|] eqn:E0; [|destruct (HN i) as [X _]; [unfold local; congruence|congruence]].
        destruct (HA i a0 E0) as [H1 H2]. destruct (due_dec w lower i (wf_sorted _ Hwf)) as [D|D]; [destruct (H1 D) as (? & ? & _ & _ & _ & Ew); congruence|].
        destruct (H2 D) as [_ Ew]. apply D. split; [unfold local; congruence|]. right. congruence.
    + apply in_map_iff in Hi. destruct Hi as (m' & Em & Hm). injection Em as <- <-. now apply W2.
  - intros i a' Ha'. rewrite A in Ha'. destruct (im_find i (agents (p_world p))) as [a|] eqn:E; [|discriminate]. cbn in Ha'.
    assert (a' = cleared (with_mail (filter (addressed_to i) (sent (p_world p))) a)) as -> by congruence. destruct (P1 i a E) as [X _]. exact X.
Qed.
Lemma round_scheduled lower upper n w w' f i : well_formed w -> round hash shuffle lower upper n w = Ret (w', f) -> local w' i -> im_find i (wake_up_times w') <> None.
Proof.
  intros Hwf H Hl. unfold round in H. destruct (act_phase hash shuffle lower upper n w) as [p| |] eqn:Ea; [|discriminate|discriminate].
  unfold finish_round in H. destruct (send_messages (p_world p)) as [[w1 c]| |] eqn:Es; [|discriminate|discriminate]. assert (w1 = w') as -> by congruence. clear H.
  pose proof (act_wf _ _ _ _ _ _ _ Hwf Ea) as Hwp. destruct (act_phase_spec _ _ _ _ _ _ _ Hwf Ea) as (_ & _ & HA & HN).
  destruct (send_ret _ _ _ (wf_sorted _ Hwp) Es) as (_ & _ & _ & _ & _ & _ & A & T).
  unfold local in Hl. rewrite A in Hl. destruct (im_find i (agents (p_world p))) as [a|] eqn:E; [|exfalso; now apply Hl].
  assert (X : im_find i (wake_up_times (p_world p)) <> None).
  { destruct (im_find i (agents w)) as [a0|] eqn:E0; [|destruct (HN i) as [X _]; [unfold local; congruence|congruence]].
    destruct (HA i a0 E0) as [H1 H2]. destruct (due_dec w lower i (wf_sorted _ Hwf)) as [D|D]; [destruct (H1 D) as (? & ? & _ & _ & _ & Ew); congruence|].
    destruct (H2 D) as [_ Ew]. rewrite Ew. intros Z. apply D. split; [unfold local; congruence|]. now right. }
  rewrite T. destruct (im_find i (wake_up_times (p_world p))) as [x|]; [|now destruct X]. clear.
  revert x. induction (filter (addressed_to i) (sent (p_world p))) as [|m ms IH]; intros x; cbn; [discriminate|]. unfold earlier. apply IH.
Qed.
Lemma rounds_punctual fuel lower upper : forall n w w' t, well_formed w -> all_attentive shuffle w -> punctual w -> rounds hash shuffle fuel lower upper n w = Some (Ret (w', t)) ->
  punctual w' /\ all_attentive shuffle w' /\ forall i, local w' i -> im_find i (wake_up_times w') <> None.
Proof.
  induction fuel as [|fuel IH]; intros n w w' t Hwf Ha Hp H; cbn [rounds] in H; [discriminate|].
  destruct (round hash shuffle lower upper n w) as [[w1 f]| |] eqn:E; [|discriminate|discriminate]. destruct (round_punctual _ _ _ _ _ _ Hwf Ha Hp E) as [P1 A1].
  destruct (lower >=? f).
  - destruct (round_spec _ _ _ _ _ _ _ _ Hwf E) as (W1 & _). exact (IH _ _ _ _ W1 A1 P1 H).
  - assert (w1 = w') as -> by congruence. split; [exact P1|]. split; [exact A1|]. intros i. eapply round_scheduled; eauto.
Qed.
Lemma step_punctual fuel lower upper w w' t : well_formed w -> all_attentive shuffle w -> punctual w -> step hash shuffle fuel lower upper w = Some (Ret (w', t)) ->
  punctual w' /\ all_attentive shuffle w' /\ forall i a k m, im_find i (agents w') = Some a -> In (k, m) (ag_inbox a) -> t <= k.
Proof.
  intros Hwf Ha Hp H. unfold step in H. destruct (ti_empty lower upper); [discriminate|].
  destruct (rounds_punctual _ _ _ _ _ _ _ Hwf Ha Hp H) as (P1 & A1 & L). destruct (rounds_spec _ _ _ _ _ _ _ _ _ Hwf H) as (_ & _ & (_ & _ & N) & _).
  split; [exact P1|]. split; [exact A1|]. intros i a k m E Hi. specialize (L i). destruct (im_find i (wake_up_times w')) as [x|] eqn:Ex; [|exfalso; apply L; [unfold local; congruence|reflexivity]].
  specialize (P1 i a k m x E Hi Ex). specialize (N i x Ex). lia.
Qed.
Lemma run_punctual fuel : forall lower w w' ts, well_formed w -> all_attentive shuffle w -> punctual w -> run_from hash shuffle fuel lower w = Some (Ret (w', ts)) ->
  forall i a k m, im_find i (agents w') = Some a -> In (k, m) (ag_inbox a) -> w_end w <= k.
Proof.
  induction fuel as [|fuel IH]; intros lower w w' ts Hwf Ha Hp H; [discriminate|]. cbn [run_from] in H.
  destruct (step hash shuffle (S fuel) lower (w_end w) w) as [[[w1 t]| |]|] eqn:E; try discriminate.
  destruct (step_punctual _ _ _ _ _ _ Hwf Ha Hp E) as (P1 & A1 & B1).
  pose proof E as E'. unfold step in E'. destruct (ti_empty lower (w_end w)); [discriminate|]. destruct (rounds_spec _ _ _ _ _ _ _ _ _ Hwf E') as (W1 & _ & (_ & N & _) & _ & En & _).
  destruct (Z.ltb_spec t (w_end w1)).
  - destruct (run_from hash shuffle fuel t w1) as [[[w2 ts2]| |]|] eqn:E2; try discriminate. assert (w2 = w') as -> by congruence.
    rewrite <- En. exact (IH _ _ _ _ W1 A1 P1 E2).
  - assert (w1 = w') as -> by congruence. intros i a k m Hi Hk. specialize (B1 i a k m Hi Hk). lia.
Qed.
End P.
