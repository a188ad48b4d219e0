(** C210: the number of threads does not influence the outcome of a simulation. *)
From Verif Require Import Base Identity IdMap Communicator Simulation Simulation_spec Simulation_proofs3 Isolation_proofs Interval Threads.
From Verif Require Simulation_props.
From Coq Require Import ZifyBool ZifyNat.

(** What whole runs with any number of threads can return, whatever the interleaving in every round, is what the run in one thread returns: the same
    agents with the same messages and the same times. *)
Theorem C210_run : forall (St : Type) hash shuffle threads lower (w : world St) r,
  well_formed w -> 1 <= threads -> Z.of_nat (length (agents w)) < W64 ->
  (threaded_run hash shuffle threads lower w r <-> exists fuel, run_from hash shuffle fuel lower w = Some (Ret r)).
Proof.
  intros St hash shuffle threads lower w r Hwf Ht Hk. split.
  - intros H. induction H as [lower w w' next E H L|lower w w' next w2 ts E H L _ IH]; apply (Simulation_props.C18_threaded_steps St hash shuffle threads _ _ _ _ _ Hwf Ht Hk) in H; destruct H as (fuel & H).
    + exists (S fuel). cbn [run_from]. unfold step. rewrite E. rewrite (rounds_mono hash shuffle fuel _ _ _ _ _ H (S fuel)) by lia. destruct (Z.ltb_spec next (w_end w')); [lia|reflexivity].
    + destruct (rounds_spec hash shuffle _ _ _ _ _ _ _ Hwf H) as (W & _ & _ & _ & _ & K).
      assert (Lk : length (agents w') = length (agents w)) by (rewrite <- (map_length fst (agents w')), K; apply map_length).
      destruct IH as (fuel2 & R); [exact W|lia|]. exists (S (Nat.max fuel fuel2)). cbn [run_from]. unfold step. rewrite E. rewrite (rounds_mono hash shuffle fuel _ _ _ _ _ H) by lia.
      destruct (Z.ltb_spec next (w_end w')); [|lia]. rewrite (run_mono hash shuffle fuel2 _ _ _ R) by lia. reflexivity.
  - intros (fuel & H). revert lower w r Hwf Hk H. induction fuel as [|fuel IH]; intros lower w r Hwf Hk H; cbn [run_from] in H; [discriminate|].
    destruct (step hash shuffle (S fuel) lower (w_end w) w) as [[[w' next]| |]|] eqn:S; try discriminate.
    destruct (step_returns hash shuffle _ _ _ _ _ _ Hwf S) as (_ & W & _ & _ & _ & _ & K). unfold step in S. destruct (ti_empty lower (w_end w)) eqn:E; [discriminate|].
    assert (Lk : length (agents w') = length (agents w)) by (rewrite <- (map_length fst (agents w')), K; apply map_length).
    assert (T : threaded_rounds hash shuffle threads lower (w_end w) 0 w (w', next)) by (apply Simulation_props.C18_threaded_steps; eauto).
    destruct (Z.ltb_spec next (w_end w')) as [L|L]; [|injection H as <-; now apply (run_last hash shuffle threads lower w w' next)].
    destruct (run_from hash shuffle fuel next w') as [[[w2 ts]| |]|] eqn:R; try discriminate. injection H as <-.
    apply (run_more hash shuffle threads lower w w' next); try assumption. apply IH; [exact W|lia|exact R].
Qed.
Print Assumptions C210_run.
(** Runs with different numbers of threads return the same. *)
Theorem C210_same : forall (St : Type) hash shuffle threads threads' lower (w : world St) r r',
  well_formed w -> 1 <= threads -> 1 <= threads' -> Z.of_nat (length (agents w)) < W64 ->
  threaded_run hash shuffle threads lower w r -> threaded_run hash shuffle threads' lower w r' -> r = r'.
Proof.
  intros St hash shuffle threads threads' lower w r r' Hwf H1 H2 Hk R R'. apply C210_run in R; try assumption. apply C210_run in R'; try assumption. destruct R as (f & R). destruct R' as (f' & R').
  pose proof (run_mono hash shuffle f _ _ _ R (Nat.max f f') ltac:(lia)) as Q. pose proof (run_mono hash shuffle f' _ _ _ R' (Nat.max f f') ltac:(lia)) as Q'. congruence.
Qed.
Print Assumptions C210_same.
(** Three agents that exchange messages, with three threads: from time 10 there are several steps, in which up to three agents act. *)
Definition summary (w : world (list Z)) : list (list Z) := map (fun x => fst (ag_own (snd x))) (agents w).
Example C210_case : exists w' ts, threaded_run Simulation_props.h Simulation_props.sh 3 10 Simulation_props.the_world (w', ts) /\
  ts = [10; 15; 20; 25; 30; 35; 40; 45; 50; 55; 60; 65; 70; 75; 80; 85; 90; 95] /\ summary w' = [[]; [42; 42; 2; 14; 12; 1; 42; 42; 42; 42; 42; 42; 42]; [13; 11]].
Proof.
  destruct (run_from Simulation_props.h Simulation_props.sh 40 10 Simulation_props.the_world) as [[[w' ts]| |]|] eqn:E; [|vm_compute in E; discriminate..].
  exists w', ts. split; [|vm_compute in E; injection E as <- <-; vm_compute; split; reflexivity].
  apply C210_run; [apply Simulation_props.the_world_well_formed|lia|cbn; unfold W64; lia|]. eauto.
Qed.
