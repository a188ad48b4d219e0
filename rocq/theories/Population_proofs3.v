From Verif Require Import Distributed_proofs.
From Verif Require Import Base Interval Identity Identity_proofs IdMap IdMap_proofs Multimap Multimap_proofs Communicator
  Simulation Simulation_spec Simulation_proofs Simulation_proofs2 Simulation_proofs3 Population Population_spec Population_proofs.
From Coq Require Import ZifyBool ZifyNat.

Section Births.
Context {St : Type} (grow : nat -> nat).
Context (hash : identity -> Z) (shuffle : seed -> list message -> list message).
Context (changes : Z -> Z -> world St -> list (change St)).
Implicit Types (w : world St) (s : sim St) (a : agent St).

Lemma apply_keeps s c : sorted_world (s_world s) -> sorted_world (s_world (apply_change grow s c)) /\
  wake_up_times (s_world (apply_change grow s c)) = wake_up_times (s_world s) /\ w_end (s_world (apply_change grow s c)) = w_end (s_world s) /\ w_sample (s_world (apply_change grow s c)) = w_sample (s_world s).
Proof.
  intros [A B]. destruct c as [i a|i]; cbn; repeat split; try exact B; [now apply im_emplace_sorted|now apply im_erase_sorted].
Qed.
Lemma apply_all_keeps cs : forall s, sorted_world (s_world s) -> let s1 := fold_left (apply_change grow) cs s in
  sorted_world (s_world s1) /\ wake_up_times (s_world s1) = wake_up_times (s_world s) /\ w_end (s_world s1) = w_end (s_world s) /\ w_sample (s_world s1) = w_sample (s_world s).
Proof.
  induction cs as [|c cs IH]; intros s H; cbn [fold_left]; [repeat split; apply H|]. destruct (apply_keeps s c H) as (A & B & C & D).
  destruct (IH _ A) as (A' & B' & C' & D'). cbn zeta in *. split; [exact A'|]. repeat split; congruence.
Qed.
Lemma apply_all_present j a cs : forall s, sorted_world (s_world s) -> ~ In (Remove j) cs -> im_find j (agents (s_world s)) = Some a ->
  im_find j (agents (s_world (fold_left (apply_change grow) cs s))) = Some a.
Proof.
  induction cs as [|c cs IH]; intros s H R E; cbn [fold_left]; [exact E|]. apply IH; [now apply apply_keeps|intros X; apply R; right; exact X|].
  destruct c as [i b|i]; cbn.
  - rewrite im_find_emplace by apply H. destruct (id_eqb i j) eqn:Ei; [apply id_eqb_eq in Ei; subst i; now rewrite E|exact E].
  - rewrite im_find_erase by apply H. rewrite id_eqb_neq; [exact E|]. intros ->. apply R. left. reflexivity.
Qed.
Lemma apply_all_created j a cs : forall s, sorted_world (s_world s) -> creates cs j a -> im_find j (agents (s_world s)) = None ->
  im_find j (agents (s_world (fold_left (apply_change grow) cs s))) = Some a.
Proof.
  induction cs as [|c cs IH]; intros s H (C1 & C2 & C3) E; cbn [fold_left]; [destruct C1|].
  assert (R : ~ In (Remove j) cs) by (intros X; apply C3; right; exact X). destruct (apply_keeps s c H) as (H' & _). destruct c as [i b|i].
  - destruct (id_eqb i j) eqn:Ei.
    + apply id_eqb_eq in Ei. subst i. assert (b = a) by (apply C2; left; reflexivity). subst b. apply apply_all_present; [exact H'|exact R|]. cbn. rewrite im_find_emplace by apply H. now rewrite id_eqb_refl, E.
    + apply IH; [exact H'| |cbn; rewrite im_find_emplace by apply H; rewrite Ei; exact E]. split; [|split; [|exact R]].
      * destruct C1 as [[= X _]|X]; [subst i; rewrite id_eqb_refl in Ei; discriminate|exact X].
      * intros x Hx. apply C2. right. exact Hx.
  - apply IH; [exact H'| |cbn; rewrite im_find_erase by apply H; destruct (id_eqb i j); [reflexivity|exact E]]. split; [|split; [|exact R]].
    + destruct C1 as [X|X]; [discriminate|exact X].
    + intros x Hx. apply C2. right. exact Hx.
Qed.
Lemma letters_eq ms a : cleared (with_mail ms a) = with_letters a ms.
Proof. reflexivity. Qed.
Lemma newborn lower upper n s s' f p j a : well_formed (s_world s) -> ~ local (s_world s) j ->
  act_phase hash shuffle lower upper n (s_world s) = Ret p -> creates (changes lower n (p_world p)) j a ->
  round_of grow hash shuffle changes lower upper n s = Ret (s', f) ->
  exists ms, Forall (fun m => m_recipient m = j) ms /\ im_find j (agents (s_world s')) = Some (with_letters a ms) /\
    im_find j (wake_up_times (s_world s')) = wake_up_after (im_find j (wake_up_times (s_world s))) ms /\ w_end (s_world s') = w_end (s_world s).
Proof.
  intros Hwf L Ea C H. unfold round_of in H. rewrite Ea in H. cbn zeta in H.
  pose proof (act_wf _ _ _ _ _ _ _ Hwf Ea) as Hwp. destruct (act_phase_spec _ _ _ _ _ _ _ Hwf Ea) as ((_ & N & _) & _ & _ & HN). destruct (HN j L) as [Ej Tj].
  set (s0 := mk_sim (p_world p) (s_activated s) (s_deactivated s)) in *. set (s1 := fold_left (apply_change grow) (changes lower n (p_world p)) s0) in *.
  assert (H0 : sorted_world (s_world s0)) by (now apply wf_sorted). destruct (apply_all_keeps (changes lower n (p_world p)) s0 H0) as (S1 & T1 & N1 & _). fold s1 in S1, T1, N1.
  assert (E1 : im_find j (agents (s_world s1)) = Some a) by (apply apply_all_created; assumption).
  unfold finish_round in H. cbn [p_world p_first] in H. destruct (send_messages (s_world s1)) as [[w1 c]| |] eqn:Es; [|discriminate|discriminate]. injection H as <- <-.
  destruct (send_ret _ _ _ S1 Es) as (_ & _ & _ & _ & N2 & _ & A & T). exists (filter (addressed_to j) (sent (s_world s1))). split; [|split; [|split]].
  - apply Forall_forall. intros m Hm. apply filter_In in Hm. destruct Hm as [_ Hm]. now apply id_eqb_eq in Hm.
  - cbn [s_world]. rewrite A, E1. reflexivity.
  - cbn [s_world]. rewrite T, T1. cbn [s0 s_world]. now rewrite Tj.
  - cbn [s_world]. rewrite N2, N1. exact N.
Qed.
Lemma run_of_last standard fuel lower s s' f : still s -> lower < w_end (s_world s) ->
  round_of grow hash shuffle changes lower (w_end (s_world s)) 0 s = Ret (s', f) -> w_end (s_world s') = w_end (s_world s) -> w_end (s_world s) <= f ->
  run_of grow standard hash shuffle changes (S fuel) lower s = Some (Ret (s', [lower])).
Proof.
  intros Hs Hl H N Hf. cbn [run_of]. rewrite announce_still by exact Hs. unfold step_of. destruct (ti_empty lower (w_end (s_world s))) eqn:E; [apply ti_empty_iff in E; lia|].
  cbn [rounds_of]. rewrite H. destruct (lower >=? f) eqn:G; [lia|]. rewrite N. destruct (f <? w_end (s_world s)) eqn:G2; [lia|reflexivity].
Qed.
Lemma run_of_later standard fuel lower s s' f : still s -> step_of grow hash shuffle changes (S (S fuel)) lower (w_end (s_world s)) s = Some (Ret (s', f)) ->
  f < w_end (s_world s') -> announce_changes grow standard s' = UB -> run_of grow standard hash shuffle changes (S (S fuel)) lower s = Some UB.
Proof.
  intros Hs H Hf U. remember (S fuel) as k eqn:Ek. cbn [run_of]. rewrite announce_still by exact Hs. rewrite H. destruct (f <? w_end (s_world s')) eqn:G; [|lia].
  subst k. cbn [run_of]. now rewrite U.
Qed.
End Births.
