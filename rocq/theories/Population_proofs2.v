From Verif Require Import Distributed_proofs.
From Verif Require Import Base Interval Identity Identity_proofs IdMap IdMap_proofs Multimap Multimap_proofs Communicator
  Simulation Simulation_spec Simulation_proofs Simulation_proofs2 Simulation_proofs3 Population Population_spec Population_proofs.
From Coq Require Import ZifyBool ZifyNat.

Section Removal.
Context {St : Type}.
Context (hash : identity -> Z) (shuffle : seed -> list message -> list message).
Implicit Types (w : world St) (s : sim St) (a : agent St).

Lemma remove_wf w i : well_formed w -> well_formed (remove_agent w i).
Proof. clear hash shuffle. intros (A & B & C). split; [cbn; now apply im_erase_sorted|]. split; [exact B|]. cbn. unfold im_erase. rewrite Forall_forall in *. intros x Hx. apply filter_In in Hx. now apply C. Qed.
Lemma remove_local w i j : im_sorted (agents w) -> (local (remove_agent w i) j <-> local w j /\ i <> j).
Proof. clear hash shuffle.
  intros H. unfold local, remove_agent. cbn [agents]. rewrite im_find_erase by exact H. destruct (id_eqb i j) eqn:E; [apply id_eqb_eq in E|].
  - split; [congruence|intros [_ X]; congruence].
  - split; [intros X; split; [exact X|intros ->; rewrite id_eqb_refl in E; discriminate]|tauto].
Qed.
Lemma filter_none {X} (f : X -> bool) l : (forall x, In x l -> f x = false) -> filter f l = [].
Proof. induction l as [|x l IH]; intros H; [reflexivity|]. cbn. rewrite (H x) by (left; reflexivity). apply IH. intros y Hy. apply H. right. exact Hy. Qed.
Lemma round_foreign lower upper n w w' f i : well_formed w -> ~ local w i -> round hash shuffle lower upper n w = Ret (w', f) ->
  im_find i (wake_up_times w') = im_find i (wake_up_times w).
Proof.
  intros Hwf Hl H. unfold round in H. destruct (act_phase hash shuffle lower upper n w) as [p| |] eqn:Ea; [|discriminate|discriminate].
  unfold finish_round in H. destruct (send_messages (p_world p)) as [[w1 c]| |] eqn:Es; [|discriminate|discriminate]. injection H as <- <-.
  pose proof (act_wf _ _ _ _ _ _ _ Hwf Ea) as Hwp. destruct (act_phase_spec _ _ _ _ _ _ _ Hwf Ea) as ((K & N & _) & S & _ & HN).
  destruct (send_ret _ _ _ (wf_sorted _ Hwp) Es) as (Hall & _ & _ & _ & _ & _ & _ & T). rewrite T.
  rewrite filter_none; [cbn; apply HN; exact Hl|]. intros m Hm. unfold addressed_to. apply id_eqb_neq. intros <-. specialize (Hall m Hm). apply Hl.
  apply (same_local w (p_world p)); [now apply wf_sorted|now apply wf_sorted|symmetry; exact K|exact Hall].
Qed.
Lemma rounds_foreign fuel lower upper i : forall n w w' t, well_formed w -> ~ local w i -> rounds hash shuffle fuel lower upper n w = Some (Ret (w', t)) ->
  im_find i (wake_up_times w') = im_find i (wake_up_times w) /\ ~ local w' i.
Proof.
  induction fuel as [|fuel IH]; intros n w w' t Hwf Hl H; cbn [rounds] in H; [discriminate|].
  destruct (round hash shuffle lower upper n w) as [[w1 f]| |] eqn:E; [|discriminate|discriminate].
  destruct (round_spec _ _ _ _ _ _ _ _ Hwf E) as (W1 & _ & _ & K). pose proof (round_foreign _ _ _ _ _ _ _ Hwf Hl E) as T.
  assert (L1 : ~ local w1 i) by (intros L; apply Hl; apply (same_local w1 w); [now apply wf_sorted|now apply wf_sorted|exact K|exact L]).
  destruct (lower >=? f); [|injection H as <- <-; split; assumption]. destruct (IH _ _ _ _ W1 L1 H) as [A B]. split; [congruence|exact B].
Qed.
Lemma step_foreign fuel lower upper i w w' t : well_formed w -> ~ local w i -> step hash shuffle fuel lower upper w = Some (Ret (w', t)) ->
  im_find i (wake_up_times w') = im_find i (wake_up_times w) /\ ~ local w' i.
Proof. unfold step. destruct (ti_empty lower upper); [discriminate|]. apply rounds_foreign. Qed.
Lemma run_foreign fuel i : forall lower w w' ts, well_formed w -> ~ local w i -> run_from hash shuffle fuel lower w = Some (Ret (w', ts)) ->
  im_find i (wake_up_times w') = im_find i (wake_up_times w).
Proof.
  induction fuel as [|fuel IH]; intros lower w w' ts Hwf Hl H; cbn [run_from] in H; [discriminate|].
  destruct (step hash shuffle (S fuel) lower (w_end w) w) as [[[w1 t]| |]|] eqn:E; try discriminate.
  destruct (step_returns _ _ _ _ _ _ _ _ Hwf E) as (_ & W1 & _). destruct (step_foreign _ _ _ _ _ _ _ Hwf Hl E) as [T L].
  destruct (t <? w_end w1); [|injection H as <- <-; exact T].
  destruct (run_from hash shuffle fuel t w1) as [[[w2 ts2]| |]|] eqn:E2; try discriminate. injection H as <- <-. specialize (IH _ _ _ _ W1 L E2). congruence.
Qed.
Lemma removed_never fuel lower w i t : well_formed w -> im_find i (wake_up_times w) = Some t -> t < w_end w ->
  forall r, run_from hash shuffle fuel lower (remove_agent w i) <> Some (Ret r).
Proof.
  intros Hwf Ht Hlt [w' ts] H. pose proof (remove_wf w i Hwf) as W. assert (L : ~ local (remove_agent w i) i) by (intros L; apply remove_local in L; [tauto|apply Hwf]).
  pose proof (run_foreign _ _ _ _ _ _ W L H) as T. cbn in T. destruct (run_spec _ _ _ _ _ _ _ W H) as (_ & _ & _ & _ & Q). specialize (Q i t). rewrite T in Q. specialize (Q Ht). cbn in Q. lia.
Qed.

(** *** Without the entry *)
Definition strip (i : identity) w : world St := mk_world (agents w) (im_erase i (wake_up_times w)) (w_end w) (w_sample w).
Lemma erase_set (i j : identity) (t : Z) m : im_sorted m -> i <> j -> im_erase i (im_set j t m) = im_set j t (im_erase i m).
Proof.
  intros H N. apply im_ext; [apply im_erase_sorted; now apply im_set_sorted|apply im_set_sorted; now apply im_erase_sorted|].
  intros k. rewrite im_find_erase, !im_find_set, im_find_erase by (try apply im_set_sorted; try apply im_erase_sorted; assumption).
  destruct (id_eqb i k) eqn:E1; [|reflexivity]. apply id_eqb_eq in E1. subst k. now rewrite id_eqb_neq by congruence.
Qed.
Lemma strip_sorted i w : sorted_world w -> sorted_world (strip i w).
Proof. intros [A B]. split; [exact A|now apply im_erase_sorted]. Qed.
Definition lift {X} (i : identity) (r : outcome (world St * X)) : outcome (world St * X) := match r with Ret (w, x) => Ret (strip i w, x) | Throw => Throw | UB => UB end.
Lemma next_strip i w : sorted_world w -> (forall t, im_find i (wake_up_times w) = Some t -> w_end w <= t) -> determine_next_event (strip i w) = determine_next_event w.
Proof.
  intros Hs Hi. pose proof (next_event_spec w Hs) as (A1 & A2 & A3). pose proof (next_event_spec _ (strip_sorted i w Hs)) as (B1 & B2 & B3).
  cbn [strip wake_up_times w_end] in B1, B2, B3.
  assert (F : forall j, im_find j (im_erase i (wake_up_times w)) = if id_eqb i j then None else im_find j (wake_up_times w)) by (intros j; apply im_find_erase; apply Hs).
  apply Z.le_antisymm.
  - destruct A1 as [A1|(j & A1)]; [lia|]. destruct (id_eqb i j) eqn:E; [apply id_eqb_eq in E; subst j; specialize (Hi _ A1); lia|]. apply (B3 j). rewrite F, E. exact A1.
  - destruct B1 as [B1|(j & B1)]; [lia|]. rewrite F in B1. destruct (id_eqb i j); [discriminate|]. exact (A3 _ _ B1).
Qed.
(** *** Delivery *)
Lemma deliver_strip i w m : sorted_world w -> ~ local w i -> deliver (strip i w) m = match deliver w m with Ret w' => Ret (strip i w') | Throw => Throw | UB => UB end.
Proof.
  intros [A B] L. unfold deliver. cbn [strip agents wake_up_times w_end w_sample]. destruct (im_find (m_recipient m) (agents w)) as [r|] eqn:E; [|reflexivity].
  assert (N : i <> m_recipient m) by (intros ->; apply L; unfold local; congruence). rewrite im_find_erase by exact B. rewrite (id_eqb_neq _ _ N). unfold strip. cbn [agents wake_up_times w_end w_sample]. rewrite erase_set by (try exact B; exact N). reflexivity.
Qed.
Lemma deliver_keeps w m w' : sorted_world w -> deliver w m = Ret w' -> sorted_world w' /\ map fst (agents w') = map fst (agents w).
Proof.
  intros [A B] H. unfold deliver in H. destruct (im_find (m_recipient m) (agents w)) as [r|] eqn:E; [|discriminate]. injection H as <-. cbn.
  split; [split; cbn; now apply im_set_sorted|]. apply im_set_keys; [exact A|congruence].
Qed.
Lemma not_local_keys w1 w2 i : sorted_world w1 -> sorted_world w2 -> map fst (agents w2) = map fst (agents w1) -> ~ local w1 i -> ~ local w2 i.
Proof. intros S1 S2 K L X. apply L. apply (same_local w2 w1 i); assumption. Qed.
Lemma deliver_all_strip i ms : forall w, sorted_world w -> ~ local w i ->
  deliver_all (strip i w) ms = match deliver_all w ms with Ret w' => Ret (strip i w') | Throw => Throw | UB => UB end.
Proof.
  induction ms as [|m ms IH]; intros w Hs L; cbn [deliver_all]; [reflexivity|]. rewrite deliver_strip by assumption.
  destruct (deliver w m) as [w'| |] eqn:E; [|reflexivity|reflexivity]. destruct (deliver_keeps w m w' Hs E) as [S' K']. apply IH; [exact S'|]. exact (not_local_keys w w' i Hs S' K' L).
Qed.
Lemma deliver_all_keeps ms : forall w w', sorted_world w -> deliver_all w ms = Ret w' -> sorted_world w' /\ map fst (agents w') = map fst (agents w).
Proof.
  induction ms as [|m ms IH]; intros w w' Hs H; cbn [deliver_all] in H; [injection H as <-; split; [exact Hs|reflexivity]|].
  destruct (deliver w m) as [w1| |] eqn:E; [|discriminate|discriminate]. destruct (deliver_keeps w m w1 Hs E) as [S1 K1]. destruct (IH _ _ S1 H) as [S2 K2]. split; [exact S2|congruence].
Qed.
Lemma send_from_strip i w j : sorted_world w -> ~ local w i -> send_from (strip i w) j = lift i (send_from w j).
Proof.
  intros Hs L. unfold send_from. cbn [strip agents]. destruct (im_find j (agents w)) as [a|] eqn:E; [|reflexivity].
  rewrite deliver_all_strip by assumption. destruct (deliver_all w (ag_outbox a)) as [w1| |] eqn:E1; [|reflexivity|reflexivity].
  cbn [strip agents wake_up_times w_end w_sample]. destruct (im_find j (agents w1)) as [a1|]; reflexivity.
Qed.
Lemma send_from_keeps w j w' n : sorted_world w -> send_from w j = Ret (w', n) -> sorted_world w' /\ map fst (agents w') = map fst (agents w).
Proof.
  intros Hs H. unfold send_from in H. destruct (im_find j (agents w)) as [a|] eqn:E; [|discriminate].
  destruct (deliver_all w (ag_outbox a)) as [w1| |] eqn:E1; [|discriminate|discriminate]. destruct (deliver_all_keeps _ _ _ Hs E1) as [[A1 B1] K1].
  destruct (im_find j (agents w1)) as [a1|] eqn:E2; [|discriminate]. injection H as <- <-. split; [split; cbn; [now apply im_set_sorted|exact B1]|]. cbn. rewrite im_set_keys; [exact K1|exact A1|congruence].
Qed.
Lemma send_all_strip i ids : forall w c, sorted_world w -> ~ local w i -> send_all (strip i w) ids c = lift i (send_all w ids c).
Proof.
  induction ids as [|j ids IH]; intros w c Hs L; cbn [send_all]; [reflexivity|]. rewrite send_from_strip by assumption.
  destruct (send_from w j) as [[w1 n]| |] eqn:E; cbn [lift]; [|reflexivity|reflexivity]. destruct (send_from_keeps _ _ _ _ Hs E) as [S1 K1].
  apply IH; [exact S1|exact (not_local_keys w w1 i Hs S1 K1 L)].
Qed.
Lemma send_strip i w : sorted_world w -> ~ local w i -> send_messages (strip i w) = lift i (send_messages w).
Proof. intros Hs L. unfold send_messages. cbn [strip agents]. now apply send_all_strip. Qed.
(** *** Work *)
Definition pstrip i (p : @progress St) : @progress St := mk_progress (strip i (p_world p)) (p_pending p) (p_first p).
Definition plift i (r : outcome (@progress St)) : outcome (@progress St) := match r with Ret p => Ret (pstrip i p) | Throw => Throw | UB => UB end.
Definition part_of (x : @part) : identity := match x with Handle i => i | Schedule i => i | Trim i => i end.
Definition good i (p : @progress St) : Prop := sorted_world (p_world p) /\ ~ local (p_world p) i /\ forall t, im_find i (wake_up_times (p_world p)) = Some t -> w_end (p_world p) <= t.
Lemma part_strip lower upper n i p x : good i p -> part_of x <> i ->
  run_part hash shuffle lower upper n (pstrip i p) x = plift i (run_part hash shuffle lower upper n p x) /\
  forall p', run_part hash shuffle lower upper n p x = Ret p' -> good i p'.
Proof.
  intros ([A B] & L & T) N. destruct p as [w pend f]. cbn [p_world] in *. destruct x as [j|j|j]; cbn [part_of] in N; cbn [run_part pstrip p_world p_pending p_first strip agents wake_up_times w_end w_sample].
  - destruct (im_find j (agents w)) as [a|] eqn:E; [|split; [reflexivity|discriminate]]. destruct (handle _ _ _ _ _) as [[o t]| |]; [|split; [reflexivity|discriminate]|split; [reflexivity|discriminate]].
    split; [reflexivity|]. intros p' [= <-]. split; [split; cbn; [now apply im_set_sorted|exact B]|]. split; [|exact T]. unfold local in *. cbn. rewrite im_find_set by exact A. now rewrite (id_eqb_neq _ _ N).
  - destruct (im_find j pend) as [t|]; [|split; [reflexivity|discriminate]]. destruct (t <? lower); [split; [reflexivity|discriminate]|].
    assert (G : forall x, im_find i (im_set j t (wake_up_times w)) = Some x -> w_end w <= x) by (intros x; rewrite im_find_set by exact B; rewrite (id_eqb_neq _ _ N); apply T).
    set (w' := mk_world (agents w) (im_set j t (wake_up_times w)) (w_end w) (w_sample w)). split.
    + cbn [plift pstrip p_world p_pending p_first]. rewrite <- erase_set by (try exact B; congruence). change (mk_world (agents w) (im_erase i (im_set j t (wake_up_times w))) (w_end w) (w_sample w)) with (strip i w').
      unfold pstrip. cbn [p_world p_pending p_first]. rewrite next_strip; [reflexivity|split; [exact A|now apply im_set_sorted]|exact G].
    + intros p' [= <-]. cbn. split; [split; [exact A|now apply im_set_sorted]|]. split; [exact L|exact G].
  - destruct (im_find j (agents w)) as [a|] eqn:E; [|split; [reflexivity|discriminate]].
    split; [reflexivity|]. intros p' [= <-]. split; [split; cbn; [now apply im_set_sorted|exact B]|]. split; [|exact T]. unfold local in *. cbn. rewrite im_find_set by exact A. now rewrite (id_eqb_neq _ _ N).
Qed.
Lemma parts_strip lower upper n i xs : forall p, good i p -> (forall x, In x xs -> part_of x <> i) ->
  run_parts hash shuffle lower upper n (pstrip i p) xs = plift i (run_parts hash shuffle lower upper n p xs) /\
  forall p', run_parts hash shuffle lower upper n p xs = Ret p' -> good i p'.
Proof.
  induction xs as [|x xs IH]; intros p G Hx; cbn [run_parts]; [split; [reflexivity|intros p' [= <-]; exact G]|].
  destruct (part_strip lower upper n i p x G (Hx x (or_introl eq_refl))) as [E1 E2]. rewrite E1.
  destruct (run_part hash shuffle lower upper n p x) as [p1| |] eqn:E; cbn [plift]; [|split; [reflexivity|discriminate]|split; [reflexivity|discriminate]].
  apply IH; [now apply E2|]. intros y Hy. apply Hx. right. exact Hy.
Qed.
Lemma emplace_strip i lower ids : forall m : idmap Z, im_sorted m -> ~ In i ids ->
  fold_left (fun t j => im_emplace j lower t) ids (im_erase i m) = im_erase i (fold_left (fun t j => im_emplace j lower t) ids m).
Proof.
  induction ids as [|j ids IH]; intros m Hs N; cbn [fold_left]; [reflexivity|]. assert (Nj : i <> j) by (intros ->; apply N; left; reflexivity).
  rewrite <- IH; [|now apply im_emplace_sorted|intros X; apply N; right; exact X]. f_equal. unfold im_emplace. rewrite im_find_erase by exact Hs. rewrite (id_eqb_neq _ _ Nj).
  destruct (im_find j m); [reflexivity|]. symmetry. now apply erase_set.
Qed.
Lemma act_strip lower upper n i w : well_formed w -> ~ local w i -> (forall t, im_find i (wake_up_times w) = Some t -> w_end w <= t) ->
  act_phase hash shuffle lower upper n (strip i w) = plift i (act_phase hash shuffle lower upper n w).
Proof.
  intros Hwf L T. pose proof (wf_sorted _ Hwf) as Hs. destruct Hs as [A B]. assert (N : ~ In i (map fst (agents w))) by (intros X; apply L; now apply local_in).
  unfold act_phase. assert (Ea : acting (strip i w) lower = acting w lower).
  { unfold acting. cbn [strip agents wake_up_times]. apply filter_ext_in. intros j Hj. rewrite im_find_erase by exact B. rewrite id_eqb_neq; [reflexivity|]. intros ->. contradiction. }
  rewrite Ea. assert (Eb : begin_round (strip i w) lower = pstrip i (begin_round w lower)).
  { unfold begin_round, pstrip. cbn [p_world p_pending p_first]. rewrite next_strip by (try exact T; split; assumption). f_equal. unfold schedule_new, strip. cbn [agents wake_up_times w_end w_sample]. f_equal. now apply emplace_strip. }
  rewrite Eb. apply parts_strip.
  - split; [apply begin_sorted; split; assumption|]. split; [exact L|]. cbn [begin_round p_world]. intros t. rewrite schedule_new_find by (split; assumption).
    destruct (im_find i (wake_up_times w)) as [x|] eqn:E; [intros [= <-]; now apply T|]. destruct (is_in (map fst (agents w)) i) eqn:X; [apply is_in_iff in X; contradiction|discriminate].
  - intros x Hx Ex. apply in_flat_map in Hx. destruct Hx as (j & Hj & Hx). unfold acting in Hj. apply filter_In in Hj. destruct Hj as [Hj _].
    destruct Hx as [<- | [<- | [<- | []]]]; cbn [part_of] in Ex; subst j; contradiction.
Qed.
Lemma round_strip lower upper n i w : well_formed w -> ~ local w i -> (forall t, im_find i (wake_up_times w) = Some t -> w_end w <= t) ->
  round hash shuffle lower upper n (strip i w) = lift i (round hash shuffle lower upper n w).
Proof.
  intros Hwf L T. unfold round. rewrite act_strip by assumption. destruct (act_phase hash shuffle lower upper n w) as [p| |] eqn:Ea; cbn [plift lift]; [|reflexivity|reflexivity].
  pose proof (act_wf _ _ _ _ _ _ _ Hwf Ea) as Hwp. destruct (act_phase_spec _ _ _ _ _ _ _ Hwf Ea) as ((K & N & _) & S & _ & HN).
  assert (Lp : ~ local (p_world p) i) by (intros X; apply L; apply (same_local (p_world p) w i); [now apply wf_sorted|now apply wf_sorted|exact K|exact X]).
  unfold finish_round. cbn [pstrip p_world p_first]. rewrite send_strip by (try exact Lp; now apply wf_sorted).
  destruct (send_messages (p_world p)) as [[w1 c]| |] eqn:Es; cbn [lift]; [|reflexivity|reflexivity].
  destruct (0 <? c); [|reflexivity]. do 2 f_equal. apply next_strip.
  - now apply wf_sorted, (send_wf _ _ _ Hwp Es).
  - assert (R : round hash shuffle lower upper n w = Ret (w1, if 0 <? c then determine_next_event w1 else p_first p)) by (unfold round; rewrite Ea; unfold finish_round; now rewrite Es).
    rewrite (round_foreign _ _ _ _ _ _ i Hwf L R). destruct (round_spec _ _ _ _ _ _ _ _ Hwf R) as (_ & _ & -> & _). exact T.
Qed.
Lemma rounds_strip fuel lower upper i : forall n w, well_formed w -> ~ local w i -> (forall t, im_find i (wake_up_times w) = Some t -> w_end w <= t) ->
  rounds hash shuffle fuel lower upper n (strip i w) = option_map (lift i) (rounds hash shuffle fuel lower upper n w).
Proof.
  induction fuel as [|fuel IH]; intros n w Hwf L T; cbn [rounds]; [reflexivity|]. rewrite round_strip by assumption.
  destruct (round hash shuffle lower upper n w) as [[w1 f]| |] eqn:E; cbn [lift option_map]; [|reflexivity|reflexivity].
  destruct (lower >=? f); [|reflexivity]. destruct (round_spec _ _ _ _ _ _ _ _ Hwf E) as (W1 & _ & N & K). apply IH; [exact W1|apply (not_local_keys w w1); [now apply wf_sorted|now apply wf_sorted|exact K|exact L]|].
  rewrite (round_foreign _ _ _ _ _ _ i Hwf L E), N. exact T.
Qed.
Lemma run_strip fuel i : forall lower w, well_formed w -> ~ local w i -> (forall t, im_find i (wake_up_times w) = Some t -> w_end w <= t) ->
  run_from hash shuffle fuel lower (strip i w) = option_map (lift i) (run_from hash shuffle fuel lower w).
Proof.
  induction fuel as [|fuel IH]; intros lower w Hwf L T; cbn [run_from]; [reflexivity|]. change (w_end (strip i w)) with (w_end w).
  assert (Es : step hash shuffle (S fuel) lower (w_end w) (strip i w) = option_map (lift i) (step hash shuffle (S fuel) lower (w_end w) w)).
  { unfold step. destruct (ti_empty lower (w_end w)); [reflexivity|]. now apply rounds_strip. }
  rewrite Es. destruct (step hash shuffle (S fuel) lower (w_end w) w) as [[[w1 t]| |]|] eqn:E; cbn [option_map lift]; try reflexivity.
  change (w_end (strip i w1)) with (w_end w1). destruct (t <? w_end w1); [|reflexivity].
  destruct (step_returns _ _ _ _ _ _ _ _ Hwf E) as (_ & W1 & _ & _ & _ & N & K). destruct (step_foreign _ _ _ i _ _ _ Hwf L E) as [T1 L1].
  rewrite IH; [|exact W1|exact L1|rewrite T1, N; exact T]. destruct (run_from hash shuffle fuel t w1) as [[[w2 ts2]| |]|]; reflexivity.
Qed.
Lemma removed_late fuel lower w i : well_formed w -> (forall t, im_find i (wake_up_times w) = Some t -> w_end w <= t) ->
  same_course (run_from hash shuffle fuel lower (remove_agent w i)) (run_from hash shuffle fuel lower (forget w i)).
Proof.
  intros Hwf T. pose proof (remove_wf w i Hwf) as W. assert (L : ~ local (remove_agent w i) i) by (intros L; apply remove_local in L; [tauto|apply Hwf]).
  change (forget w i) with (strip i (remove_agent w i)). rewrite (run_strip fuel i lower _ W L) by exact T.
  destruct (run_from hash shuffle fuel lower (remove_agent w i)) as [[[w2 ts2]| |]|]; cbn; auto.
Qed.
End Removal.
