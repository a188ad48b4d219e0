From Verif Require Import Base Interval Identity Identity_proofs IdMap IdMap_proofs Multimap Multimap_proofs Communicator
  Simulation Simulation_spec Simulation_proofs Simulation_proofs2 Simulation_proofs3 Population Population_spec.
From Coq Require Import ZifyBool ZifyNat.

(** *** Vectors *)
Lemma push_elements grow v x : elements (push_back grow v x) = elements v ++ [x].
Proof. unfold push_back. destruct (_ <? _)%nat; reflexivity. Qed.
Lemma announce_standard grow v : announce_all grow true v = match elements v with [] => Ret v | _ => UB end.
Proof. unfold announce_all. destruct v as [l c m]. destruct l as [|x l]; cbn; [reflexivity|]. now rewrite Nat.eqb_refl. Qed.
Lemma announce_memory grow n : forall k start v, moves v = start -> (length (elements v) <= capacity v)%nat -> (k + n <= length (elements v))%nat ->
  ((n = 0 \/ length (elements v) + n - 1 <= capacity v)%nat -> exists v', announce grow false n k start v = Ret v' /\
     elements v' = elements v ++ firstn n (skipn k (elements v))) /\
  ((n <> 0 /\ capacity v < length (elements v) + n - 1)%nat -> announce grow false n k start v = UB).
Proof.
  induction n as [|n IH]; intros k start v Hm Hc Hk; cbn [announce].
  - split; [intros _; exists v; split; [reflexivity|]; cbn [firstn]; now rewrite app_nil_r|intros [H _]; congruence].
  - rewrite Hm, Nat.eqb_refl. destruct (nth_error (elements v) k) as [x|] eqn:E; [|apply nth_error_None in E; lia].
    pose proof (push_elements grow v x) as Ep.
    assert (Es : skipn k (elements v) = x :: skipn (S k) (elements v)).
    { clear -E. revert E. generalize (elements v). induction k as [|k IHk]; intros [|y l] E; try discriminate; cbn in *; [injection E as ->; reflexivity|now apply IHk]. }
    destruct (Nat.ltb_spec (length (elements v)) (capacity v)) as [L|L].
    + assert (Em : moves (push_back grow v x) = start) by (unfold push_back; destruct (Nat.ltb_spec (length (elements v)) (capacity v)); [exact Hm|lia]).
      assert (Ec : capacity (push_back grow v x) = capacity v) by (unfold push_back; destruct (Nat.ltb_spec (length (elements v)) (capacity v)); [reflexivity|lia]).
      assert (El : length (elements (push_back grow v x)) = S (length (elements v))) by (rewrite Ep, app_length; cbn; lia).
      destruct (IH (S k) start (push_back grow v x) Em) as [I1 I2]; [lia|lia|]. rewrite Ec, El in I1, I2. split.
      * intros H. destruct I1 as (v' & E1 & E2); [lia|]. exists v'. split; [exact E1|]. rewrite E2, Ep, Es, <- app_assoc.
        assert (X : firstn n (skipn (S k) (elements v ++ [x])) = firstn n (skipn (S k) (elements v))).
        { rewrite skipn_app, firstn_app, skipn_length. replace (n - (length (elements v) - S k))%nat with 0%nat by lia. cbn [firstn]. now rewrite app_nil_r. }
        rewrite X. reflexivity.
      * intros [_ H]. apply I2. lia.
    + assert (Em : moves (push_back grow v x) = S start) by (unfold push_back; destruct (Nat.ltb_spec (length (elements v)) (capacity v)); [lia|cbn; now rewrite Hm]).
      split.
      * intros [H|H]; [discriminate|]. assert (n = 0)%nat by lia. subst n. cbn [announce]. eexists. split; [reflexivity|]. rewrite Ep, Es. reflexivity.
      * intros [_ H]. destruct n as [|n]; [lia|]. cbn [announce]. rewrite Em. destruct (Nat.eqb_spec (S start) start); [lia|reflexivity].
Qed.
(** Vectors as they come about by adding elements. *)
Lemma pushed_spec grow l : grows grow -> let v := fold_left (push_back grow) l empty_vector in
  elements v = l /\ (length l <= capacity v)%nat /\ (length l = 1%nat -> capacity v = 1%nat) /\ (2 <= length l -> capacity v <= 2 * length l - 2)%nat.
Proof.
  intros [G0 G]. cbn zeta. induction l as [|x l IH] using rev_ind; [cbn; repeat split; lia|].
  rewrite fold_left_app. cbn [fold_left]. set (v := fold_left (push_back grow) l empty_vector) in *. destruct IH as (E & L & O & T).
  rewrite push_elements, E, app_length. cbn [length]. split; [reflexivity|]. unfold push_back. rewrite E.
  destruct (Nat.ltb_spec (length l) (capacity v)) as [H|H]; cbn [capacity].
  - split; [lia|]. split; [intros H1|intros H1].
    + assert (length l = 0)%nat by lia. destruct l; [|discriminate]. cbn in v. subst v. cbn in H. lia.
    + destruct (Nat.eq_dec (length l) 1) as [E1|E1]; [specialize (O E1); lia|]. lia.
  - assert (Ec : capacity v = length l) by lia. rewrite Ec. destruct (length l) as [|[|n]] eqn:El.
    + rewrite G0. lia.
    + specialize (G 1%nat). lia.
    + specialize (G (S (S n))). lia.
Qed.
Lemma announce_pushed grow l : grows grow -> (2 <= length l)%nat -> announce_all grow false (fold_left (push_back grow) l empty_vector) = UB.
Proof.
  intros G H. destruct (pushed_spec grow l G) as (E & L & _ & T). unfold announce_all.
  apply announce_memory; [reflexivity|rewrite E; exact L|rewrite E; lia|rewrite E; lia].
Qed.

Section Population.
Context {St : Type} (grow : nat -> nat) (standard : bool).
Context (hash : identity -> Z) (shuffle : seed -> list message -> list message).
Implicit Types (w : world St) (s : sim St).

Lemma announce_empty v : elements v = [] -> announce_all grow standard v = Ret v.
Proof. unfold announce_all. intros ->. reflexivity. Qed.
Lemma announce_still s : still s -> announce_changes grow standard s = Ret s.
Proof.
  destruct s as [w [l c m] [l2 c2 m2]]. intros [A D]. cbn in A, D. subst. reflexivity.
Qed.
Definition none (l n : Z) (w : world St) : list (change St) := [].
Definition in_sim {X} (s : sim St) (r : outcome (world St * X)) : outcome (sim St * X) :=
  match r with Ret (w, x) => Ret (mk_sim w (s_activated s) (s_deactivated s), x) | Throw => Throw | UB => UB end.
Lemma round_none lower upper n s : round_of grow hash shuffle none lower upper n s = in_sim s (round hash shuffle lower upper n (s_world s)).
Proof.
  unfold round_of, round, none. destruct (act_phase _ _ _ _ _ _) as [p| |]; [|reflexivity|reflexivity]. cbn [fold_left s_world s_activated s_deactivated].
  destruct p as [pw pp pf]. cbn [p_world p_pending p_first]. destruct (finish_round _) as [[w' f]| |]; reflexivity.
Qed.
Lemma rounds_none fuel lower upper : forall n s, rounds_of grow hash shuffle none fuel lower upper n s = option_map (in_sim s) (rounds hash shuffle fuel lower upper n (s_world s)).
Proof.
  induction fuel as [|fuel IH]; intros n s; cbn [rounds_of rounds]; [reflexivity|]. rewrite round_none.
  destruct (round hash shuffle lower upper n (s_world s)) as [[w' f]| |]; cbn [in_sim]; [|reflexivity|reflexivity].
  destruct (lower >=? f); [|reflexivity]. rewrite IH. reflexivity.
Qed.
Lemma step_none fuel lower upper s : step_of grow hash shuffle none fuel lower upper s = option_map (in_sim s) (step hash shuffle fuel lower upper (s_world s)).
Proof. unfold step_of, step. destruct (ti_empty lower upper); [reflexivity|]. apply rounds_none. Qed.
Lemma run_none fuel : forall lower s, still s -> run_of grow standard hash shuffle none fuel lower s = option_map (in_sim s) (run_from hash shuffle fuel lower (s_world s)).
Proof.
  induction fuel as [|fuel IH]; intros lower s Hs; cbn [run_of run_from]; [reflexivity|]. rewrite announce_still by exact Hs. rewrite step_none.
  destruct (step hash shuffle (S fuel) lower (w_end (s_world s)) (s_world s)) as [[[w' t]| |]|]; cbn [option_map in_sim s_world]; try reflexivity.
  destruct (t <? w_end w'); [|reflexivity]. rewrite IH by exact Hs. cbn [s_world]. destruct (run_from hash shuffle fuel t w') as [[[w2 ts]| |]|]; reflexivity.
Qed.

(** *** A step that is repeated *)
Lemma send_quiet w : sorted_world w -> sent w = [] -> send_messages w = Ret (w, 0).
Proof.
  intros Hs E. destruct (send_spec w Hs) as [_ H]. destruct H as (w' & E1 & S & K & N & P & A & T); [rewrite E; intros m []|]. rewrite E in *. rewrite E1. do 2 f_equal.
  assert (Ea : agents w' = agents w).
  { apply im_ext; [apply S|apply Hs|]. intros i. rewrite A. destruct (im_find i (agents w)) as [a|] eqn:Ei; [|reflexivity]. cbn [option_map]. cbn [filter]. rewrite with_mail_nil. f_equal.
    assert (Eo : ag_outbox a = []).
    { assert (I : In (i, a) (agents w)) by (apply im_find_in; [apply Hs|exact Ei]). unfold sent in E. destruct (ag_outbox a) as [|m l] eqn:Eo; [reflexivity|].
      assert (X : In m (concat (map (fun x => ag_outbox (snd x)) (agents w)))) by (apply in_concat; exists (m :: l); split; [apply in_map_iff; exists (i, a); split; [exact Eo|exact I]|left; reflexivity]).
      rewrite E in X. destruct X. }
    unfold cleared, with_own. destruct a as [ac aa ai ao]. cbn in *. unfold ag_outbox in Eo. cbn in Eo. destruct ao as [x l]. cbn in *. now rewrite Eo. }
  assert (Et : wake_up_times w' = wake_up_times w) by (apply im_ext; [apply S|apply Hs|]; intros i; rewrite T; reflexivity).
  destruct w', w. cbn in *. now subst.
Qed.
Lemma sent_after w w' n : sorted_world w -> send_messages w = Ret (w', n) -> sent w' = [].
Proof.
  intros Hs H. destruct (send_ret w w' n Hs H) as (_ & _ & [S1 _] & _ & _ & _ & A & _). unfold sent.
  assert (G : Forall (fun x => ag_outbox (snd x) = []) (agents w')).
  { apply Forall_forall. intros [i a] Hi. apply im_find_in in Hi; [|exact S1]. rewrite A in Hi. destruct (im_find i (agents w)); [|discriminate]. cbn in Hi. injection Hi as <-. reflexivity. }
  clear - G. induction G as [|x l H G IH]; [reflexivity|]. cbn. rewrite H. exact IH.
Qed.
Lemma round_sent lower upper n w w' f : well_formed w -> round hash shuffle lower upper n w = Ret (w', f) ->
  sent w' = [] /\ forall i, local w' i -> im_find i (wake_up_times w') <> None.
Proof.
  intros Hwf H. unfold round in H. destruct (act_phase hash shuffle lower upper n w) as [p| |] eqn:Ea; [|discriminate|discriminate].
  unfold finish_round in H. destruct (send_messages (p_world p)) as [[w1 c]| |] eqn:Es; [|discriminate|discriminate]. injection H as <- <-.
  pose proof (act_wf _ _ _ _ _ _ _ Hwf Ea) as Hwp. split; [eapply sent_after; [|exact Es]; now apply wf_sorted|].
  destruct (act_phase_spec _ _ _ _ _ _ _ Hwf Ea) as ((K & N & _) & S & HA & HN).
  destruct (send_ret _ _ _ (wf_sorted _ Hwp) Es) as (_ & _ & S1 & K1 & _ & _ & _ & T).
  intros i Hl. assert (Hw : local w i). { apply (same_local w1 w i); [exact S1|now apply wf_sorted|rewrite K1; exact K|exact Hl]. }
  unfold local in Hw. destruct (im_find i (agents w)) as [a|] eqn:Ei; [|congruence]. destruct (HA i a Ei) as [H1 H2].
  assert (X : exists t, im_find i (wake_up_times (p_world p)) = Some t).
  { destruct (due_dec w lower i (wf_sorted _ Hwf)) as [D|D]; [destruct (H1 D) as (o & t & _ & _ & _ & E); eauto|]. destruct (H2 D) as [_ E]. rewrite E.
    destruct (im_find i (wake_up_times w)) eqn:Ew; [eauto|]. exfalso. apply D. split; [unfold local; congruence|right; exact Ew]. }
  destruct X as (t & X). rewrite T. destruct (wake_up_after_le _ (filter (addressed_to i) (sent (p_world p))) t X) as (t' & E' & _). congruence.
Qed.
Lemma rounds_sent fuel lower upper : forall n w w' t, well_formed w -> rounds hash shuffle fuel lower upper n w = Some (Ret (w', t)) ->
  sent w' = [] /\ forall i, local w' i -> im_find i (wake_up_times w') <> None.
Proof.
  induction fuel as [|fuel IH]; intros n w w' t Hwf H; cbn [rounds] in H; [discriminate|].
  destruct (round hash shuffle lower upper n w) as [[w1 f]| |] eqn:E; [|discriminate|discriminate].
  destruct (lower >=? f) eqn:G; [|injection H as <- <-; eapply round_sent; eauto].
  destruct (round_spec _ _ _ _ _ _ _ _ Hwf E) as (W1 & _). eapply IH; eauto.
Qed.
Lemma act_phase_nobody lower upper n w : sorted_world w -> (forall i, local w i -> exists t, im_find i (wake_up_times w) = Some t /\ lower < t) ->
  act_phase hash shuffle lower upper n w = Ret (mk_progress w [] (determine_next_event w)).
Proof.
  intros Hs H. unfold act_phase. assert (Ea : acting w lower = []).
  { destruct (acting w lower) as [|i l] eqn:E; [reflexivity|]. assert (D : is_due w lower i) by (apply acting_due; [exact Hs|rewrite E; left; reflexivity]).
    destruct D as [L D]. destruct (H i L) as (t & Et & Ht). destruct D as [D|D]; [rewrite D in Et; injection Et as <-; lia|congruence]. }
  rewrite Ea. cbn [flat_map run_parts]. unfold begin_round. do 2 f_equal. unfold schedule_new. destruct Hs as [A B].
  assert (Et : fold_left (fun t i => im_emplace i lower t) (map fst (agents w)) (wake_up_times w) = wake_up_times w).
  { apply im_ext; [apply (emplace_all _ _ lower [] B)|exact B|]. intros i. rewrite (proj2 (emplace_all _ _ lower i B)). destruct (im_find i (wake_up_times w)) eqn:E; [reflexivity|].
    destruct (is_in (map fst (agents w)) i) eqn:X; [|reflexivity]. apply is_in_iff in X. apply local_in in X; [|exact A]. destruct (H i X) as (t & Et & _). congruence. }
  rewrite Et. destruct w; reflexivity.
Qed.
Lemma step_again fuel k lower upper w w' t : well_formed w -> step hash shuffle fuel lower upper w = Some (Ret (w', t)) ->
  step hash shuffle (S k) lower upper w' = Some (Ret (w', t)).
Proof.
  intros Hwf H. destruct (step_returns _ _ _ _ _ _ _ _ Hwf H) as (Hlu & W' & Ht & Hn & Q & N & K).
  unfold step in *. destruct (ti_empty lower upper); [discriminate|]. destruct (rounds_sent _ _ _ _ _ _ _ Hwf H) as [Hsent Hall].
  cbn [rounds]. unfold round. pose proof (wf_sorted _ W') as Hs. rewrite act_phase_nobody; [|exact Hs|].
  - unfold finish_round. cbn [p_world p_first]. rewrite send_quiet by assumption. change (0 <? 0) with false. cbv iota.
    assert (Et : determine_next_event w' = t).
    { pose proof (next_event_spec w' Hs) as (A1 & A2 & A3). destruct Hn as (B1 & B2 & B3).
      destruct A1 as [A1|(i & A1)]; destruct B1 as [B1|(j & B1)]; try (specialize (A3 _ _ B1)); try (specialize (B3 _ _ A1)); lia. }
    rewrite Et. destruct (lower >=? t) eqn:G; [lia|reflexivity].
  - intros i Hl. specialize (Hall i Hl). destruct (im_find i (wake_up_times w')) as [x|] eqn:E; [|congruence]. exists x. split; [reflexivity|]. exact (proj2 Q _ _ E).
Qed.
End Population.
