(** Property theorems C185, C186. *)
From Verif Require Import Base Identity Identity_proofs IdMap IdMap_proofs Multimap Communicator Simulation Simulation_spec Simulation_proofs Simulation_proofs2 Simulation_proofs3 Isolation_proofs
  Distributed DistributedRun DistributedRun_spec DistributedRun_proofs DistributedRun_proofs2.
From Coq Require Import ZifyBool ZifyNat.

(** C185: a distributed run whose first step does not lead to the end is undefined, when no agents are deactivated: the exchange of the agents deactivated fails. *)
Theorem C185_undefined_refuted : forall A steps finish fuel lower (c c1 : cluster A) nexts, c1 <> [] -> lower < finish ->
  steps lower c = Ret (c1, nexts) -> least nexts < finish -> (forall n, In n c1 -> deactivated n = []) -> run steps finish (S fuel) lower c = Some UB.
Proof.
  intros A steps finish fuel lower c c1 nexts N L E Lt D. cbn [run]. assert (lower <? finish = true) as -> by lia. rewrite E. assert (least nexts >=? finish = false) as -> by lia.
  assert (exists xs, activate c1 = Ret xs) as (xs & Ea).
  { unfold activate. destruct (all_to_all _) as [r| |] eqn:Er; [eauto| |]; exfalso; unfold all_to_all in Er; destruct (forallb _ _) eqn:F; try discriminate Er.
    rewrite <- Bool.not_true_iff_false in F. apply F. apply forallb_forall. intros row Hr. apply in_map_iff in Hr. destruct Hr as (x & <- & _). rewrite repeat_length, map_length, combine_length, seq_length. lia. }
  rewrite Ea. destruct (deactivate (map fst xs)) as [ys| |] eqn:Ed; [exfalso| |reflexivity].
  - destruct (deactivate_defined _ _ Ed) as (_ & X & _). apply activate_keeps in Ea. destruct c1 as [|n c1]; [congruence|]. destruct xs as [|x xs]; [discriminate|]. cbn [map] in *. injection Ea as Ex _.
    specialize (X _ (or_introl eq_refl)). rewrite Ex, (D n) in X by now left. discriminate.
  - unfold deactivate in Ed. destruct (all_to_all _) as [? | |] eqn:Er; [discriminate| |discriminate]. unfold all_to_all in Er. destruct (forallb _ _); discriminate.
Qed.
Print Assumptions C185_undefined_refuted.
(** Whatever agents are deactivated, no run that returns gets to a third time. *)
Theorem C185_two_times_refuted : forall A steps finish fuel lower (c c' : cluster A) ts, keeps_deactivated steps -> c <> [] ->
  run steps finish fuel lower c = Some (Ret (c', ts)) ->
  ts = [] \/ ts = [lower] \/ exists t, lower < finish /\ t < finish /\ (ts = [lower; t] \/ ts = [lower; t; t]).
Proof. intros. eapply run_two; eauto. Qed.
Print Assumptions C185_two_times_refuted.
(** It is right if the first step leads to the end, for all processes. *)
Theorem C185_one_step : forall A steps finish fuel lower (c c1 : cluster A) nexts, lower < finish -> nexts <> [] ->
  steps lower c = Ret (c1, nexts) -> (Forall (fun t => finish <= t) nexts <-> run steps finish (S fuel) lower c = Some (Ret (c1, [lower]))).
Proof.
  assert (X : forall l b, fold_left Z.min l b <= b /\ (forall t, In t l -> fold_left Z.min l b <= t) /\ (fold_left Z.min l b = b \/ In (fold_left Z.min l b) l)).
  { induction l as [|x l IH]; intros b; cbn [fold_left]; [split; [lia|split; [intros t []|now left]]|]. destruct (IH (Z.min b x)) as (P & Q & R). split; [lia|]. split.
    - intros t [<-|Ht]; [lia|now apply Q].
    - destruct R as [R|R]; [|right; now right]. rewrite R. destruct (Z.min_spec b x) as [[_ M]|[_ M]]; rewrite M; [now left|right; now left]. }
  intros A steps finish fuel lower c c1 nexts L N E. cbn [run]. assert (lower <? finish = true) as -> by lia. rewrite E. destruct nexts as [|t0 l]; [congruence|]. cbn [least]. destruct (X l t0) as (P & Q & R). split.
  - intros F. apply Forall_cons_iff in F. destruct F as [F0 F]. rewrite Forall_forall in F. assert (finish <= fold_left Z.min l t0) by (destruct R as [R|R]; [lia|now apply F]). assert (fold_left Z.min l t0 >=? finish = true) as -> by lia. reflexivity.
  - destruct (fold_left Z.min l t0 >=? finish) eqn:G; [intros _; constructor; [lia|]; apply Forall_forall; intros t Ht; specialize (Q t Ht); lia|].
    destruct (activate c1) as [xs| |]; [|discriminate|discriminate]. destruct (deactivate _) as [ys| |]; [|discriminate|discriminate]. destruct (steps (fold_left Z.min l t0) (map fst ys)) as [[c2 ?]| |]; [|discriminate|discriminate].
    destruct (run steps finish fuel (fold_left Z.min l t0) c2) as [[[c3 ts]| |]|]; discriminate.
Qed.
Print Assumptions C185_one_step.
(** Two processes, one with an agent that wants to act at time 5, the other with nothing to do; in the second case each deactivates two agents. *)
Definition demo_steps (t : Z) (c : cluster Z) : outcome (cluster Z * list Z) := Ret (c, map (fun n => match local_agents n with [] => 10 | _ => if t <? 5 then 5 else 10 end) c).
Definition demo_cluster (gone0 gone1 : list identity) : cluster Z := [mk_node [([1], 0)] [([1], 7)] [] gone0; mk_node [([1], 0)] [] [] gone1].
Example C185_case : run demo_steps 10 9 0 (demo_cluster [] []) = Some UB /\ run demo_steps 10 9 6 (demo_cluster [] []) = Some (Ret (demo_cluster [] [], [6])) /\
  keeps_deactivated demo_steps /\ (match run demo_steps 10 9 0 (demo_cluster [[4]; [5]] [[6]; [7]]) with Some (Ret (_, ts)) => ts = [0; 5; 5] | _ => False end) /\
  demo_steps 0 (demo_cluster [] []) = Ret (demo_cluster [] [], [5; 10]).
Proof.
  split; [reflexivity|]. split; [reflexivity|]. split; [|split; reflexivity]. intros t c c' ts E. unfold demo_steps in E. injection E as <- _. split; [reflexivity|]. intros r n n' H1 H2. assert (n = n') as -> by congruence. lia.
Qed.

(** C186: messages do not wake up their recipients.  An agent that sleeps has the messages in its inbox after the round and sleeps as long as before. *)
Theorem C186_not_woken_refuted : forall (St : Type) hash shuffle here lower upper n (w w' : world St) f i a t, well_formed w -> informed here w ->
  mpi_round hash shuffle here lower upper n w = Ret (w', f) -> im_find i (agents w) = Some a -> im_find i (wake_up_times w) = Some t -> t <> lower ->
  im_find i (wake_up_times w') = Some t /\ exists p a', act_phase hash shuffle lower upper n w = Ret p /\ im_find i (agents w') = Some a' /\
    Permutation (ag_inbox a') (ag_inbox a ++ map (fun m => (m_received m, m)) (filter (addressed_to i) (sent (p_world p)))) /\ fst (ag_own a') = fst (ag_own a).
Proof.
  intros St hash shuffle here lower upper n w w' f i a t W H R Ha Ht Nt. destruct (mpi_round_view _ _ _ _ _ _ _ _ _ W H R) as (p & Ea & _ & Ew & Ev). destruct (act_phase_spec _ _ _ _ _ _ _ W Ea) as (_ & _ & A & _).
  destruct (A i a Ha) as [_ B]. destruct B as [B1 B2]; [intros [_ [D|D]]; congruence|]. rewrite Ew, B2. split; [exact Ht|]. exists p. eexists. split; [exact Ea|]. split; [rewrite Ev, B1; reflexivity|]. cbn.
  split; [|reflexivity]. apply (insert_all_spec (filter (addressed_to i) (sent (p_world p))) (ag_inbox a)). apply im_find_in in Ha; [|exact (proj1 (wf_sorted w W))]. destruct W as (_ & _ & W). rewrite Forall_forall in W. exact (W _ Ha).
Qed.
Print Assumptions C186_not_woken_refuted.
(** The round is the same as in a single process if every recipient is awake by the time of delivery anyway. *)
Theorem C186_awake : forall (St : Type) hash shuffle here lower upper n (w w' : world St) p f, well_formed w -> informed here w ->
  act_phase hash shuffle lower upper n w = Ret p -> expected (p_world p) -> round hash shuffle lower upper n w = Ret (w', f) ->
  mpi_round hash shuffle here lower upper n w = Ret (w', f).
Proof. intros. eapply mpi_round_awake; eauto. Qed.
Print Assumptions C186_awake.
(** Agent 1 writes to agent 2, which sleeps until time 8; the message is for time 3. *)
Definition writer : @action Z := fun lower upper s o => ((fst o, [mk_message 7 [1] [2] lower 3 5]), lower + 9).
Definition sleeper : @action Z := fun lower upper s o => (o, upper).
Definition sleepy (wakes : Z) : world Z :=
  mk_world [([1], mk_agent (new_communicator true) writer [] (0, [])); ([2], mk_agent (new_communicator true) sleeper [] (0, []))] [([1], 0); ([2], wakes)] 10 0.
Example C186_case : well_formed (sleepy 8) /\ informed (fun i => id_eqb i [1] || id_eqb i [2]) (sleepy 8) /\
  match mpi_round (fun _ => 0) (fun _ l => l) (fun i => id_eqb i [1] || id_eqb i [2]) 0 10 0 (sleepy 8), round (fun _ => 0) (fun _ l => l) 0 10 0 (sleepy 8) with
  | Ret (w1, f1), Ret (w2, f2) => wake_up_times w1 = [([1], 9); ([2], 8)] /\ f1 = 8 /\ wake_up_times w2 = [([1], 9); ([2], 3)] /\ f2 = 3 /\
      map (fun x => map fst (ag_inbox (snd x))) (agents w1) = [[]; [3]]
  | _, _ => False
  end /\
  match act_phase (fun _ => 0) (fun _ l => l) 0 10 0 (sleepy 2) with Ret p => expected (p_world p) /\ sent (p_world p) <> [] | _ => False end.
Proof.
  split; [split; [cbn; repeat constructor; reflexivity|split; repeat constructor]|]. split.
  - intros i. unfold local. cbn. rewrite Bool.orb_true_iff, !id_eqb_eq. split.
    + intros [-> | ->]; discriminate.
    + intros H. destruct (im_find i (agents (sleepy 8))) as [a|] eqn:E; [|exfalso; apply H; exact E]. apply im_find_in in E; [|cbn; repeat constructor; reflexivity].
      cbn in E. destruct E as [E|[E|[]]]; injection E as <- _; auto.
  - split; [vm_compute; auto 6|]. vm_compute. split; [|discriminate]. intros m [<-|[]]. exists 2. split; [reflexivity|discriminate].
Qed.
