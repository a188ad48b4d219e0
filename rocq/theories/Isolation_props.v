(** Theorems on groups of agents that do not communicate with the rest of a simulation. *)
From Verif Require Import Base Identity Identity_proofs IdMap IdMap_proofs Multimap Multimap_proofs Communicator Communicator_spec Simulation Simulation_spec Isolation_spec Isolation_proofs.
From Coq Require Import ZifyBool ZifyNat.

(** ** C181: agents that do not communicate with a group do not influence it.
    Simulating the group alone gives the same agents (private states, inboxes, behaviour) and wake-up times as simulating it together
    with the others, and steps at some of the same times. *)
Theorem C181_run : forall (St : Type) hash shuffle (group : identity -> bool) fuel lower (w w' : world St) ts,
  well_formed w -> separate shuffle group w -> run_from hash shuffle fuel lower w = Some (Ret (w', ts)) ->
  exists ts', run_from hash shuffle fuel lower (only group w) = Some (Ret (only group w', ts')) /\ subsequence ts' ts.
Proof. intros. eapply only_run; eauto. Qed.
Print Assumptions C181_run.
(** Two simulations with the same group and different other agents. *)
Theorem C181_others : forall (St : Type) hash shuffle (group : identity -> bool) fuel1 fuel2 lower (w1 w2 w1' w2' : world St) ts1 ts2,
  well_formed w1 -> well_formed w2 -> separate shuffle group w1 -> separate shuffle group w2 -> only group w1 = only group w2 ->
  run_from hash shuffle fuel1 lower w1 = Some (Ret (w1', ts1)) -> run_from hash shuffle fuel2 lower w2 = Some (Ret (w2', ts2)) ->
  only group w1' = only group w2'.
Proof.
  intros St hash shuffle group fuel1 fuel2 lower w1 w2 w1' w2' ts1 ts2 W1 W2 S1 S2 E H1 H2.
  destruct (C181_run _ _ _ _ _ _ _ _ _ W1 S1 H1) as (t1 & R1 & _). destruct (C181_run _ _ _ _ _ _ _ _ _ W2 S2 H2) as (t2 & R2 & _). rewrite <- E in R2.
  apply (run_mono _ _ _ _ _ _) with (fuel' := Nat.max fuel1 fuel2) in R1; [|lia]. apply (run_mono _ _ _ _ _ _) with (fuel' := Nat.max fuel1 fuel2) in R2; [|lia]. congruence.
Qed.
Print Assumptions C181_others.
(** One step: the group alone needs no more rounds and its next event is no earlier. *)
Theorem C181_step : forall (St : Type) hash shuffle (group : identity -> bool) fuel lower upper (w w' : world St) t,
  well_formed w -> separate shuffle group w -> step hash shuffle fuel lower upper w = Some (Ret (w', t)) ->
  exists t', step hash shuffle fuel lower upper (only group w) = Some (Ret (only group w', t')) /\ t <= t' /\ separate shuffle group w'.
Proof. intros St hash shuffle group fuel lower upper w w' t Hwf Hs H. destruct (only_step _ _ _ _ _ _ _ _ _ Hwf Hs H) as (t' & A & B & _ & C & _). eauto. Qed.
Print Assumptions C181_step.
(** It suffices that the callbacks and the act of every agent add only messages to its own side. *)
Theorem C181_callbacks : forall (St : Type) shuffle (group : identity -> bool) (w : world St), well_formed w ->
  Forall (fun x => sends_to_side group (fst x) (snd x) /\ same_side group (fst x) (ag_outbox (snd x))) (agents w) -> separate shuffle group w.
Proof.
  intros St shuffle group w (A & _) F i a Ha. apply im_find_in in Ha; [|exact A]. rewrite Forall_forall in F. destruct (F _ Ha) as [F1 F2]. split; [now apply sends_stays|exact F2].
Qed.
Print Assumptions C181_callbacks.

(** Agents 1 and 2 exchange messages; agent 5 acts at its own times, agent 6 never wakes up by itself and agent 5 writes to it. *)
Definition logs : callback (@own (list Z)) := fun m lower upper _ o => ((fst o ++ [m_body m; lower], snd o), upper).
Definition logging : communicator (@own (list Z)) := match register (new_communicator true) 7 3 logs with Ret c => lock c | _ => new_communicator true end.
Definition writes_to (i j : identity) (first every delay : Z) : @action (list Z) := fun lower upper _ o =>
  ((fst o, snd o ++ [mk_message 7 i j lower (lower + delay) lower]), lower + every).
Definition waits : @action (list Z) := fun _ upper _ o => (o, upper).
Definition pair_with (others : idmap (agent (list Z))) : world (list Z) :=
  mk_world ([([1], mk_agent logging (writes_to [1] [2] 0 4 3) [] ([], [])); ([2], mk_agent logging waits [] ([], []))] ++ others) [] 10 0.
Definition noise : idmap (agent (list Z)) := [([5], mk_agent logging (writes_to [5] [6] 0 1 1) [] ([], [])); ([6], mk_agent logging waits [] ([], []))].
Definition first_two (i : identity) : bool := id_ltb i [3].
Lemma pair_wf others : im_sorted (agents (pair_with others)) -> Forall (fun x => ag_inbox (snd x) = []) others -> well_formed (pair_with others).
Proof.
  intros H F. split; [exact H|]. split; [constructor|]. cbn [pair_with agents]. apply Forall_app. split; [repeat constructor|]. eapply Forall_impl; [|exact F]. intros x ->. constructor.
Qed.
Example C181_case : well_formed (pair_with noise) /\ separate (fun _ l => l) first_two (pair_with noise) /\ only first_two (pair_with noise) = pair_with [] /\
  match run_from (fun _ => 0) (fun _ l => l) 30 0 (pair_with noise), run_from (fun _ => 0) (fun _ l => l) 30 0 (pair_with []) with
  | Some (Ret (w1, ts1)), Some (Ret (w2, ts2)) => ts1 = [0; 1; 2; 3; 4; 5; 6; 7; 8; 9] /\ ts2 = [0; 3; 4; 7; 8] /\
      map (fun x => (fst (ag_own (snd x)), map fst (ag_inbox (snd x)))) (agents (only first_two w1)) = [([], []); ([0; 3; 4; 7], [11])] /\
      map (fun x => (fst (ag_own (snd x)), map fst (ag_inbox (snd x)))) (agents w2) = [([], []); ([0; 3; 4; 7], [11])]
  | _, _ => False
  end.
Proof.
  assert (W : well_formed (pair_with noise)) by (apply pair_wf; [cbn; repeat constructor; cbn; reflexivity|repeat constructor]).
  split; [exact W|]. split; [|split; [reflexivity|vm_compute; auto]]. apply C181_callbacks; [exact W|]. cbn [agents pair_with].
  assert (Rg : forall i, exists b rs c, registers (new_communicator b) rs c /\ (logging = c \/ logging = lock c) /\
     Forall (fun r : registration (@own (list Z)) => forall m lower upper s o, same_side first_two i (snd o) -> same_side first_two i (snd (fst (r_callback r m lower upper s o)))) rs).
  { intros i. exists true, [mk_registration 7 3 logs]. eexists. split; [econstructor; [reflexivity|constructor]|]. split; [right; reflexivity|]. constructor; [|constructor]. intros m lower upper s o H. exact H. }
  assert (X : forall i j f e d, first_two j = first_two i -> sends_to_side first_two i (mk_agent logging (writes_to i j f e d) [] ([], []))).
  { intros i j f e d E. split; [apply Rg|]. intros lower upper s o H. cbn. apply Forall_app. split; [exact H|]. repeat constructor. exact E. }
  assert (Y : forall i, sends_to_side first_two i (mk_agent logging waits [] ([], []))).
  { intros i. split; [apply Rg|]. intros lower upper s o H. exact H. }
  repeat (constructor; [split; [cbn [fst snd]; first [apply X; reflexivity|apply Y]|constructor]|]). constructor.
Qed.
