From Verif Require Import Base Interval Identity Identity_proofs IdMap IdMap_proofs Multimap Multimap_proofs Communicator Communicator_spec Communicator_proofs
  Simulation Simulation_spec Simulation_proofs Simulation_proofs2 Simulation_proofs3 Isolation_proofs Causality_spec.
From Coq Require Import ZifyBool ZifyNat.

Section C.
Context {St : Type} (hash : identity -> Z) (shuffle : seed -> list message -> list message) (T : Z).
Implicit Types (w : world St).
Notation alike := (alike shuffle T).
Notation same_until := (same_until T).

Lemma alike_local w1 w2 i : alike w1 w2 -> (local w1 i <-> local w2 i).
Proof. intros (_ & _ & _ & H). destruct (H i) as [A _]. unfold local. unfold agents_alike in A. destruct (im_find i (agents w1)), (im_find i (agents w2)); (contradiction || intuition congruence). Qed.
Lemma alike_due w1 w2 lower i : lower < T -> alike w1 w2 -> (is_due w1 lower i <-> is_due w2 lower i).
Proof.
  intros L H. unfold is_due. rewrite (alike_local w1 w2 i H). destruct H as (_ & _ & _ & H). destruct (H i) as [_ W]. unfold Causality_spec.same_until in W.
  destruct (im_find i (wake_up_times w1)) as [t1|], (im_find i (wake_up_times w2)) as [t2|]; try contradiction; [|tauto].
  split; intros [A [B|B]]; split; auto; try discriminate; left; f_equal; injection B as B; lia.
Qed.
Lemma keys_alike w1 w2 : sorted_world w1 -> sorted_world w2 -> alike w1 w2 -> map fst (agents w1) = map fst (agents w2).
Proof.
  intros [S1 _] [S2 _] (_ & _ & _ & H).
  assert (E : map (fun x => (fst x, tt)) (agents w1) = map (fun x => (fst x, tt)) (agents w2)).
  { assert (S : forall (m : idmap (agent St)), im_sorted m -> im_sorted (map (fun x => (fst x, tt)) m)).
    { unfold im_sorted. induction 1 as [|x m Hs IH Hf]; cbn; [constructor|]. constructor; [exact IH|]. apply Forall_map. eapply Forall_impl; [|exact Hf]. intros y Hy. exact Hy. }
    assert (F : forall (m : idmap (agent St)) i, im_find i (map (fun x => (fst x, tt)) m) = match im_find i m with Some _ => Some tt | None => None end).
    { induction m as [|[k v] m IH]; intros i; cbn; [reflexivity|]. destruct (id_ltb k i); [apply IH|]. destruct (id_ltb i k); reflexivity. }
    apply im_ext; [now apply S|now apply S|]. intros i. rewrite !F. destruct (H i) as [A _]. unfold agents_alike in A. destruct (im_find i (agents w1)), (im_find i (agents w2)); (contradiction || reflexivity). }
  apply (f_equal (map fst)) in E. rewrite !map_map in E. exact E.
Qed.
Lemma sent_alike w1 w2 : sorted_world w1 -> sorted_world w2 -> alike w1 w2 -> sent w1 = sent w2.
Proof.
  intros S1 S2 H. assert (E : forall w, sorted_world w -> sent w = concat (map (outbox_of w) (map fst (agents w)))).
  { intros w [S _]. unfold sent. f_equal. rewrite map_map. apply map_ext_in. intros [i a] Hi. unfold outbox_of. cbn [fst snd]. apply im_find_in in Hi; [|exact S]. now rewrite Hi. }
  rewrite !E by assumption. rewrite (keys_alike _ _ S1 S2 H). f_equal. apply map_ext. intros i. unfold outbox_of. destruct H as (_ & _ & _ & H). destruct (H i) as [A _].
  unfold agents_alike in A. destruct (im_find i (agents w1)) as [a1|], (im_find i (agents w2)) as [a2|]; try contradiction; [|reflexivity]. unfold ag_outbox. destruct A as (_ & -> & _). reflexivity.
Qed.
Lemma wake_after_same ms : forall x y, same_until x y -> same_until (wake_up_after x ms) (wake_up_after y ms).
Proof.
  induction ms as [|m ms IH]; intros x y H; [exact H|]. cbn. apply IH. unfold earlier, Causality_spec.same_until in *. destruct x, y; try contradiction; lia.
Qed.
Lemma send_alike w1 w2 w1' c : sorted_world w1 -> sorted_world w2 -> alike w1 w2 -> send_messages w1 = Ret (w1', c) -> exists w2', send_messages w2 = Ret (w2', c) /\ alike w1' w2'.
Proof.
  intros S1 S2 H E. pose proof (sent_alike _ _ S1 S2 H) as Es. destruct (send_ret _ _ _ S1 E) as (L & -> & _ & _ & N1 & P1 & A1 & T1).
  destruct (send_spec w2 S2) as [_ X]. destruct X as (w2' & E2 & _ & _ & N2 & P2 & A2 & T2). { intros m Hm. rewrite <- Es in Hm. apply (alike_local _ _ _ H). now apply L. }
  exists w2'. rewrite Es. split; [exact E2|]. destruct H as (Hs & H1 & H2 & H). split; [congruence|]. split; [lia|]. split; [lia|]. intros i. rewrite A1, A2, T1, T2, Es, N1, N2. destruct (H i) as [HA HW].
  split; [|now apply wake_after_same]. unfold agents_alike in *. destruct (im_find i (agents w1)) as [a1|], (im_find i (agents w2)) as [a2|]; try contradiction; [|exact I]. destruct HA as (I1 & O1 & B1). cbn [option_map].
  split; [|split; [|exact B1]]; cbn; [now rewrite I1|]. now rewrite O1.
Qed.
Lemma act_alike lower n w1 w2 p1 : lower < T -> well_formed w1 -> well_formed w2 -> alike w1 w2 -> act_phase hash shuffle lower (w_end w1) n w1 = Ret p1 ->
  exists p2, act_phase hash shuffle lower (w_end w2) n w2 = Ret p2 /\ alike (p_world p1) (p_world p2).
Proof.
  intros L W1 W2 H E1. pose proof H as (Hs & He1 & He2 & HI). destruct (act_phase_spec _ _ _ _ _ _ _ W1 E1) as (_ & _ & A1 & B1).
  destruct (act_phase_total hash shuffle lower (w_end w2) n w2 W2) as (p2 & E2).
  { intros i a2 D Ha2. apply (alike_due w1 w2 lower i L H) in D. destruct (HI i) as [X _]. unfold agents_alike in X. rewrite Ha2 in X. destruct (im_find i (agents w1)) as [a1|] eqn:Ea; [|contradiction].
    destruct X as (X1 & X2 & X3). destruct (A1 i a1 Ea) as [Y _]. destruct (Y D) as (o & t & Eh & Ht & _). specialize (X3 (ag_inbox a1) (ag_own a1) lower (seed_of hash i lower n (w_sample w1)) L).
    destruct a1 as [ac aa ai ao], a2 as [bc ba bi bo]. cbn [ag_comm ag_act ag_inbox ag_own] in *. subst bi bo. rewrite Eh, Hs in X3.
    destruct (handle shuffle (mk_agent bc ba ai ao) lower (w_end w2) (seed_of hash i lower n (w_sample w2))) as [[o2 t2]| |]; try contradiction. exists o2, t2. split; [reflexivity|]. lia. }
  exists p2. split; [exact E2|]. destruct (act_phase_spec _ _ _ _ _ _ _ W2 E2) as (_ & _ & A2 & B2).
  destruct (act_end _ _ _ _ _ _ _ W1 E1) as [N1 P1]. destruct (act_end _ _ _ _ _ _ _ W2 E2) as [N2 P2].
  split; [congruence|]. split; [lia|]. split; [lia|]. rewrite N1, N2. intros i. destruct (HI i) as [X XW].
  destruct (im_find i (agents w1)) as [a1|] eqn:Ea1, (im_find i (agents w2)) as [a2|] eqn:Ea2; try contradiction.
  - destruct (A1 i a1 Ea1) as [Y1 Z1], (A2 i a2 Ea2) as [Y2 Z2]. destruct (due_dec w1 lower i (wf_sorted _ W1)) as [D|D].
    + destruct (Y1 D) as (o1 & t1 & Eh1 & _ & F1 & G1). apply (alike_due w1 w2 lower i L H) in D. destruct (Y2 D) as (o2 & t2 & Eh2 & _ & F2 & G2).
      rewrite F1, F2, G1, G2. destruct X as (X1 & X2 & X3). pose proof (X3 (ag_inbox a1) (ag_own a1) lower (seed_of hash i lower n (w_sample w1)) L) as X4.
      destruct a1 as [ac aa ai ao], a2 as [bc ba bi bo]. cbn [ag_comm ag_act ag_inbox ag_own] in *. subst bi bo. rewrite Eh1, Hs, Eh2 in X4. destruct X4 as [-> X5]. split; [|exact X5].
      cbn. auto.
    + destruct (Z1 D) as [F1 G1]. assert (D2 : ~ is_due w2 lower i) by (intros Q; apply D; now apply (alike_due w1 w2 lower i L H)). destruct (Z2 D2) as [F2 G2]. rewrite F1, F2, G1, G2. split; [exact X|exact XW].
  - destruct (B1 i) as [F1 G1]; [unfold local; congruence|]. destruct (B2 i) as [F2 G2]; [unfold local; congruence|]. rewrite F1, F2, G1, G2. split; [exact I|exact XW].
Qed.
Lemma next_alike w1 w2 : sorted_world w1 -> sorted_world w2 -> alike w1 w2 -> Z.min (determine_next_event w1) T = Z.min (determine_next_event w2) T.
Proof.
  intros S1 S2 (_ & E1 & E2 & H). destruct (next_event_spec w1 S1) as (A1 & A2 & A3). destruct (next_event_spec w2 S2) as (B1 & B2 & B3).
  assert (X : forall i t1, im_find i (wake_up_times w1) = Some t1 -> exists t2, im_find i (wake_up_times w2) = Some t2 /\ Z.min t1 T = Z.min t2 T).
  { intros i t1 Ht. destruct (H i) as [_ W]. rewrite Ht in W. unfold Causality_spec.same_until in W. destruct (im_find i (wake_up_times w2)); [eauto|contradiction]. }
  assert (Y : forall i t2, im_find i (wake_up_times w2) = Some t2 -> exists t1, im_find i (wake_up_times w1) = Some t1 /\ Z.min t1 T = Z.min t2 T).
  { intros i t2 Ht. destruct (H i) as [_ W]. rewrite Ht in W. unfold Causality_spec.same_until in W. destruct (im_find i (wake_up_times w1)); [eauto|contradiction]. }
  assert (L1 : Z.min (determine_next_event w2) T <= Z.min (determine_next_event w1) T).
  { destruct A1 as [A1|(i & A1)]; [lia|]. destruct (X _ _ A1) as (t2 & F & G). specialize (B3 _ _ F). lia. }
  assert (L2 : Z.min (determine_next_event w1) T <= Z.min (determine_next_event w2) T).
  { destruct B1 as [B1|(i & B1)]; [lia|]. destruct (Y _ _ B1) as (t1 & F & G). specialize (A3 _ _ F). lia. }
  lia.
Qed.
Lemma round_alike lower n w1 w2 w1' f1 : lower < T -> well_formed w1 -> well_formed w2 -> alike w1 w2 -> round hash shuffle lower (w_end w1) n w1 = Ret (w1', f1) ->
  exists w2' f2, round hash shuffle lower (w_end w2) n w2 = Ret (w2', f2) /\ alike w1' w2' /\ Z.min f1 T = Z.min f2 T.
Proof.
  intros L W1 W2 H R1. pose proof R1 as R. unfold round in R. destruct (act_phase hash shuffle lower (w_end w1) n w1) as [p1| |] eqn:Ea; [|discriminate|discriminate].
  unfold finish_round in R. destruct (send_messages (p_world p1)) as [[v1 c]| |] eqn:Es; [|discriminate|discriminate]. assert (v1 = w1') as -> by congruence. clear R.
  destruct (act_alike _ _ _ _ _ L W1 W2 H Ea) as (p2 & Ep & Hp). pose proof (act_wf _ _ _ _ _ _ _ W1 Ea) as Wp1. pose proof (act_wf _ _ _ _ _ _ _ W2 Ep) as Wp2.
  destruct (send_alike _ _ _ _ (wf_sorted _ Wp1) (wf_sorted _ Wp2) Hp Es) as (w2' & Es2 & Hw).
  assert (R2 : round hash shuffle lower (w_end w2) n w2 = Ret (w2', if 0 <? c then determine_next_event w2' else p_first p2)) by (unfold round; rewrite Ep; unfold finish_round; now rewrite Es2).
  exists w2'. eexists. split; [exact R2|]. split; [exact Hw|]. destruct (round_spec _ _ _ _ _ _ _ _ W1 R1) as (V1 & -> & _). destruct (round_spec _ _ _ _ _ _ _ _ W2 R2) as (V2 & -> & _).
  apply next_alike; [now apply wf_sorted|now apply wf_sorted|exact Hw].
Qed.
Lemma rounds_alike fuel lower : forall n w1 w2 w1' t1, lower < T -> well_formed w1 -> well_formed w2 -> alike w1 w2 -> rounds hash shuffle fuel lower (w_end w1) n w1 = Some (Ret (w1', t1)) ->
  exists w2' t2, rounds hash shuffle fuel lower (w_end w2) n w2 = Some (Ret (w2', t2)) /\ alike w1' w2' /\ Z.min t1 T = Z.min t2 T.
Proof.
  induction fuel as [|fuel IH]; intros n w1 w2 w1' t1 L W1 W2 H R; cbn [rounds] in R |- *; [discriminate|].
  destruct (round hash shuffle lower (w_end w1) n w1) as [[v1 f1]| |] eqn:E1; [|discriminate|discriminate].
  destruct (round_alike _ _ _ _ _ _ L W1 W2 H E1) as (v2 & f2 & E2 & Hv & Hf). rewrite E2. destruct (round_spec _ _ _ _ _ _ _ _ W1 E1) as (V1 & _ & N1 & _). destruct (round_spec _ _ _ _ _ _ _ _ W2 E2) as (V2 & _ & N2 & _).
  destruct (lower >=? f1) eqn:G1.
  - assert (lower >=? f2 = true) as -> by lia. rewrite <- N1 in R. rewrite <- N2. exact (IH _ _ _ _ _ L V1 V2 Hv R).
  - assert (lower >=? f2 = false) as -> by lia. assert (v1 = w1') as -> by congruence. assert (f1 = t1) as -> by congruence. eauto.
Qed.
Lemma step_alike fuel lower w1 w2 w1' t1 : lower < T -> well_formed w1 -> well_formed w2 -> alike w1 w2 -> step hash shuffle fuel lower (w_end w1) w1 = Some (Ret (w1', t1)) ->
  exists w2' t2, step hash shuffle fuel lower (w_end w2) w2 = Some (Ret (w2', t2)) /\ alike w1' w2' /\ Z.min t1 T = Z.min t2 T.
Proof.
  intros L W1 W2 H R. unfold step in *. destruct (ti_empty lower (w_end w1)); [discriminate|]. assert (ti_empty lower (w_end w2) = false) as ->.
  { destruct (ti_empty lower (w_end w2)) eqn:E; [|reflexivity]. apply ti_empty_iff in E. destruct H as (_ & _ & X & _). lia. }
  exact (rounds_alike _ _ _ _ _ _ _ L W1 W2 H R).
Qed.
Lemma reaches_alike lower w1 ts w1' t1 : reaches hash shuffle T lower w1 ts w1' t1 -> forall lower2 w2, Z.min lower T = Z.min lower2 T -> well_formed w1 -> well_formed w2 -> alike w1 w2 ->
  exists w2' t2, reaches hash shuffle T lower2 w2 ts w2' t2 /\ alike w1' w2' /\ T <= t1 /\ T <= t2.
Proof.
  induction 1 as [lower w HT|lower w fuel v1 t ts w' t' HL HS HR IH]; intros lower2 w2 El W1 W2 H.
  - exists w2, lower2. split; [constructor; lia|]. split; [exact H|]. split; [exact HT|]. lia.
  - assert (lower2 = lower) as -> by lia. destruct (step_alike _ _ _ _ _ _ HL W1 W2 H HS) as (v2 & t2 & E2 & Hv & Ht).
    destruct (step_returns _ _ _ _ _ _ _ _ W1 HS) as (_ & V1 & _). destruct (step_returns _ _ _ _ _ _ _ _ W2 E2) as (_ & V2 & _).
    destruct (IH t2 v2 Ht V1 V2 Hv) as (w2' & t3 & R & X & Y & Z). exists w2', t3. split; [econstructor; eauto|]. auto.
Qed.
(** Runs pass through the worlds reached. *)
Lemma run_reaches fuel : forall lower w w' ts, well_formed w -> T <= w_end w -> run_from hash shuffle fuel lower w = Some (Ret (w', ts)) ->
  exists ts1 ts2 wm t, reaches hash shuffle T lower w ts1 wm t /\ ts = ts1 ++ ts2 /\ Forall (fun x => T <= x) ts2 /\
    (ts2 = [] /\ wm = w' \/ exists fuel', run_from hash shuffle fuel' t wm = Some (Ret (w', ts2))).
Proof.
  induction fuel as [|fuel IH]; intros lower w w' ts Hwf He H; [discriminate|]. destruct (Z_lt_le_dec lower T) as [L|L].
  - cbn [run_from] in H. destruct (step hash shuffle (S fuel) lower (w_end w) w) as [[[w1 t]| |]|] eqn:E; try discriminate.
    destruct (step_returns _ _ _ _ _ _ _ _ Hwf E) as (_ & W1 & Lt & (_ & Le & _) & _ & N1 & _). rewrite N1 in H, Le. destruct (t <? w_end w) eqn:G.
    + destruct (run_from hash shuffle fuel t w1) as [[[w2 ts2]| |]|] eqn:E2; try discriminate. assert (w2 = w') as -> by congruence. assert (lower :: ts2 = ts) as <- by congruence.
      destruct (IH t w1 w' ts2 W1) as (a & b & wm & t' & R & -> & F & X); [lia|exact E2|]. exists (lower :: a), b, wm, t'. split; [econstructor; eauto|]. auto.
    + assert (w1 = w') as -> by congruence. assert ([lower] = ts) as <- by congruence. exists [lower], [], w', t. split; [econstructor; [exact L|exact E|constructor; lia]|]. split; [reflexivity|]. split; [constructor|]. now left.
  - exists [], ts, w, lower. split; [constructor; exact L|]. split; [reflexivity|]. split; [|right; eauto].
    clear - H L Hwf. revert lower w ts Hwf H L. generalize (S fuel). intros k. induction k as [|k IHk]; intros lower w ts Hwf H L; [discriminate|]. cbn [run_from] in H.
    destruct (step hash shuffle (S k) lower (w_end w) w) as [[[w1 t]| |]|] eqn:E; try discriminate. destruct (step_returns _ _ _ _ _ _ _ _ Hwf E) as (_ & W1 & Lt & _).
    destruct (t <? w_end w1); [|assert ([lower] = ts) as <- by congruence; repeat constructor; exact L].
    destruct (run_from hash shuffle k t w1) as [[[w2 ts2]| |]|] eqn:E2; try discriminate. assert (lower :: ts2 = ts) as <- by congruence. constructor; [exact L|].
    apply (IHk t w1 ts2 W1); [|lia]. assert (w2 = w') as -> by congruence. exact E2.
Qed.
End C.

(** *** A run that returns passes through every world reached. *)
Section P.
Context {St : Type} (hash : identity -> Z) (shuffle : seed -> list message -> list message) (T : Z).
Implicit Types (w : world St).
Lemma step_same fuel1 fuel2 lower upper w r1 r2 : step hash shuffle fuel1 lower upper w = Some r1 -> step hash shuffle fuel2 lower upper w = Some r2 -> r1 = r2.
Proof.
  intros H1 H2. unfold step in *. destruct (ti_empty lower upper); [congruence|].
  apply rounds_mono with (fuel' := Nat.max fuel1 fuel2) in H1; [|lia]. apply rounds_mono with (fuel' := Nat.max fuel1 fuel2) in H2; [|lia]. congruence.
Qed.
Lemma run_nonempty fuel lower w w' ts : run_from hash shuffle fuel lower w = Some (Ret (w', ts)) -> ts <> [].
Proof.
  destruct fuel as [|fuel]; [discriminate|]. cbn [run_from]. destruct (step hash shuffle (S fuel) lower (w_end w) w) as [[[w1 t]| |]|]; try discriminate.
  destruct (t <? w_end w1); [|congruence]. destruct (run_from hash shuffle fuel t w1) as [[[w2 ts2]| |]|]; congruence.
Qed.
Lemma run_at_least fuel : forall lower w w' ts, well_formed w -> run_from hash shuffle fuel lower w = Some (Ret (w', ts)) -> Forall (fun x => lower <= x) ts.
Proof.
  induction fuel as [|k IHk]; intros lower w w' ts Hwf H; [discriminate|]. cbn [run_from] in H.
  destruct (step hash shuffle (S k) lower (w_end w) w) as [[[w1 t]| |]|] eqn:E; try discriminate. destruct (step_returns _ _ _ _ _ _ _ _ Hwf E) as (_ & W1 & Lt & _).
  destruct (t <? w_end w1); [|assert ([lower] = ts) as <- by congruence; repeat constructor; lia].
  destruct (run_from hash shuffle k t w1) as [[[w2 ts2]| |]|] eqn:E2; try discriminate. assert (lower :: ts2 = ts) as <- by congruence. constructor; [lia|].
  eapply Forall_impl; [|exact (IHk _ _ _ _ W1 E2)]. cbv beta. intros x Hx. lia.
Qed.
Lemma reaches_run lower w ts wm t : reaches hash shuffle T lower w ts wm t -> forall fuel w' ts', well_formed w -> T <= w_end w -> run_from hash shuffle fuel lower w = Some (Ret (w', ts')) ->
  exists rest, ts' = ts ++ rest /\ Forall (fun x => T <= x) rest /\ (rest = [] /\ wm = w' \/ exists fuel', run_from hash shuffle fuel' t wm = Some (Ret (w', rest))).
Proof.
  induction 1 as [lower w HT|lower w f v1 t1 ts w1' t' HL HS HR IH]; intros fuel w' ts' Hwf He H.
  - exists ts'. split; [reflexivity|]. split; [|right; eauto]. eapply Forall_impl; [|exact (run_at_least _ _ _ _ _ Hwf H)]. cbv beta. intros x Hx. lia.
  - destruct fuel as [|fuel]; [discriminate|]. cbn [run_from] in H. destruct (step hash shuffle (S fuel) lower (w_end w) w) as [r|] eqn:E; [|discriminate].
    pose proof (step_same _ _ _ _ _ _ _ HS E) as <-. destruct (step_returns _ _ _ _ _ _ _ _ Hwf HS) as (_ & W1 & _ & (_ & Le & _) & _ & N1 & _). rewrite N1 in H, Le.
    destruct (t1 <? w_end w) eqn:G.
    + destruct (run_from hash shuffle fuel t1 v1) as [[[w2 ts2]| |]|] eqn:E2; try discriminate. assert (w2 = w') as -> by congruence. assert (lower :: ts2 = ts') as <- by congruence.
      destruct (IH fuel w' ts2 W1) as (rest & -> & F & X); [lia|exact E2|]. exists rest. auto.
    + assert (v1 = w') as -> by congruence. assert ([lower] = ts') as <- by congruence. inversion HR as [? ? L1|? ? ? ? ? ? ? ? L1]; subst; [|lia].
      exists []. split; [reflexivity|]. split; [constructor|]. now left.
Qed.
(** Two runs. *)
Lemma runs_alike lower w1 w2 fuel1 fuel2 w1' w2' ts1 ts2 : well_formed w1 -> well_formed w2 -> alike shuffle T w1 w2 ->
  run_from hash shuffle fuel1 lower w1 = Some (Ret (w1', ts1)) -> run_from hash shuffle fuel2 lower w2 = Some (Ret (w2', ts2)) ->
  exists ts wm1 wm2 t1 t2, reaches hash shuffle T lower w1 ts wm1 t1 /\ reaches hash shuffle T lower w2 ts wm2 t2 /\ alike shuffle T wm1 wm2 /\
    exists rest1 rest2, ts1 = ts ++ rest1 /\ ts2 = ts ++ rest2 /\ Forall (fun x => T <= x) rest1 /\ Forall (fun x => T <= x) rest2 /\
    (rest1 = [] /\ wm1 = w1' \/ exists fuel', run_from hash shuffle fuel' t1 wm1 = Some (Ret (w1', rest1))) /\
    (rest2 = [] /\ wm2 = w2' \/ exists fuel', run_from hash shuffle fuel' t2 wm2 = Some (Ret (w2', rest2))).
Proof.
  intros W1 W2 H R1 R2. pose proof H as (_ & H1 & H2 & _). destruct (run_reaches _ _ T _ _ _ _ _ W1 H1 R1) as (ts & rest1 & wm1 & t1 & Rc1 & E1 & F1 & X1).
  destruct (reaches_alike _ _ _ _ _ _ _ _ Rc1 lower w2 eq_refl W1 W2 H) as (wm2 & t2 & Rc2 & Hm & _). destruct (reaches_run _ _ _ _ _ Rc2 _ _ _ W2 H2 R2) as (rest2 & E2 & F2 & X2).
  exists ts, wm1, wm2, t1, t2. split; [exact Rc1|]. split; [exact Rc2|]. split; [exact Hm|]. exists rest1, rest2. auto 6.
Qed.
Lemma alike_seen w1 w2 i : alike shuffle T w1 w2 -> seen w1 i = seen w2 i.
Proof.
  intros (_ & _ & _ & H). destruct (H i) as [A _]. unfold seen. unfold agents_alike in A. destruct (im_find i (agents w1)), (im_find i (agents w2)); try contradiction; [|reflexivity]. cbn. destruct A as (-> & -> & _). reflexivity.
Qed.
End P.

(** *** Agents that ignore the end. *)
Section E.
Context {St : Type} (shuffle : seed -> list message -> list message).
Lemma calls_capped (e1 e2 T : Z) m lower s : T <= e1 -> T <= e2 -> lower < T -> forall (fs : list (Z * callback (@own St))),
  Forall (fun f => forall o, exists t o', (forall u, t = Some u -> lower <= u) /\ forall upper, snd f m lower upper s o = (o', cap t upper)) fs ->
  forall b1 b2 o, Z.min b1 T = Z.min b2 T -> exists o' t1 t2, call_all m lower e1 s fs b1 o = Ret (o', t1) /\ call_all m lower e2 s fs b2 o = Ret (o', t2) /\ Z.min t1 T = Z.min t2 T.
Proof.
  intros H1 H2 L fs F. induction F as [|[p f] fs Hf _ IH]; intros b1 b2 o E; cbn [call_all]; [eauto 6|]. cbn [snd] in Hf. destruct (Hf o) as (t & o' & Ht & Ho). rewrite !Ho. assert (X : forall e, T <= e -> lower <= cap t e /\ cap t e <= e) by (intros e He; destruct t as [t|]; cbn; [specialize (Ht t eq_refl)|]; lia).
  pose proof (X _ H1) as X1. pose proof (X _ H2) as X2. assert ((lower <=? cap t e1) && (cap t e1 <=? e1) = true) as -> by lia. assert ((lower <=? cap t e2) && (cap t e2 <=? e2) = true) as -> by lia. apply IH. destruct t as [t|]; cbn [cap]; lia.
Qed.
Lemma find_forall {V} (P : V -> Prop) k v l : Forall (fun x => P (snd x)) l -> fm_find k l = Some v -> P v.
Proof.
  induction 1 as [|[k' x] l Px F IH]; cbn; [discriminate|]. destruct (k' <? k); [exact IH|]. destruct (k' =? k); [|discriminate]. intros [= <-]. exact Px.
Qed.
Lemma set_forall {V} (P : V -> Prop) k v l : Forall (fun x => P (snd x)) l -> P v -> Forall (fun x => P (snd x)) (fm_set k v l).
Proof.
  intros F Pv. induction F as [|[k' x] l Px F IH]; cbn; [repeat constructor; exact Pv|]. destruct (k' <? k); [constructor; assumption|]. destruct (k' =? k); constructor; auto.
Qed.
Lemma registers_forall {A} (P : callback A -> Prop) (c : communicator A) rs c' : registers c rs c' -> Forall (fun r => P (r_callback r)) rs ->
  Forall (fun x => Forall (fun y => P (snd y)) (snd x)) (callbacks c) -> Forall (fun x => Forall (fun y => P (snd y)) (snd x)) (callbacks c').
Proof.
  induction 1 as [c|c r rs c1 c2 Hr _ IH]; intros F H; [exact H|]. apply Forall_cons_iff in F. destruct F as [F1 F]. apply (IH F). clear IH.
  unfold register in Hr. destruct (locked c); [discriminate|]. injection Hr as <-. cbn [callbacks]. apply (set_forall (Forall (fun y => P (snd y)))); [exact H|].
  eapply Permutation_Forall; [symmetry; apply mm_insert_perm|]. apply Forall_app. split; [|repeat constructor; exact F1].
  destruct (fm_find (r_type r) (callbacks c)) as [fs|] eqn:E; [|constructor]. exact (find_forall (Forall (fun y => P (snd y))) _ _ _ H E).
Qed.
Lemma ignores_alike T e1 e2 (a : agent St) : T <= e1 -> T <= e2 -> ignores_end a -> behave_alike shuffle T e1 e2 a a.
Proof.
  intros H1 H2 ((b & rs & c & R & Hc & F) & Act) inbox ow lower s L. unfold handle. cbn [ag_comm ag_act ag_inbox ag_own].
  assert (C : Forall (fun x => Forall (fun y => forall m lower s (o : own), exists t o', (forall u, t = Some u -> lower <= u) /\ forall upper, snd y m lower upper s o = (o', cap t upper)) (snd x)) (callbacks (ag_comm a))).
  { assert (X := registers_forall (fun f => forall m lower s (o : own), exists t o', (forall u, t = Some u -> lower <= u) /\ forall upper, f m lower upper s o = (o', cap t upper)) _ _ _ R F (Forall_nil _)).
    destruct Hc as [-> | ->]; exact X. }
  assert (E : forall l b1 b2 o, Z.min b1 T = Z.min b2 T -> exists o' t1 t2, handle_all (ag_comm a) lower e1 s l b1 o = Ret (o', t1) /\ handle_all (ag_comm a) lower e2 s l b2 o = Ret (o', t2) /\ Z.min t1 T = Z.min t2 T).
  { induction l as [|m l IH]; intros b1 b2 o Eb; cbn [handle_all]; [eauto 6|].
    assert (X : exists o' t1 t2, process_message (ag_comm a) lower e1 s m o = Ret (o', t1) /\ process_message (ag_comm a) lower e2 s m o = Ret (o', t2) /\ Z.min t1 T = Z.min t2 T).
    { unfold process_message. destruct (fm_find (m_type m) (callbacks (ag_comm a))) as [fs|] eqn:Ef; [|exists o, e1, e2; split; [reflexivity|split; [reflexivity|lia]]].
      apply calls_capped; try assumption; [|lia]. pose proof (find_forall (Forall _) _ _ _ C Ef) as G. cbv beta in G. apply Forall_rev. eapply Forall_impl; [|exact G]. cbv beta. intros f Hf o'. apply Hf. }
    destruct X as (o' & t1 & t2 & -> & -> & Et). apply IH. lia. }
  unfold process_messages. destruct (E (handling_order (ag_comm a) shuffle lower s inbox) e1 e2 ow) as (o & t1 & t2 & -> & -> & Et); [lia|].
  destruct (Act lower s o) as (o' & t & Ha). pose proof (Ha e1) as X1. pose proof (Ha e2) as X2. destruct (ag_act a lower e1 s o) as [x1 y1], (ag_act a lower e2 s o) as [x2 y2]. cbn [fst snd] in *. destruct X1 as [-> X1], X2 as [-> X2]. split; [reflexivity|]. destruct t as [t|]; cbn [cap] in *; lia.
Qed.
End E.
