From Verif Require Import Base Identity IdMap IdMap_proofs Communicator Simulation Simulation_spec Simulation_proofs3
  Population Population_spec Population_proofs Population_proofs2 Population_proofs3.
From Coq Require Import ZifyBool.

(** ** C193: a simulation to which agents have been added can be run. *)
(** Telling the environment about new agents is defined, by the standard, exactly when there are none. *)
Theorem C193_standard_exactly grow v :
  (activate grow true v = UB <-> elements v <> []) /\ (elements v = [] -> activate grow true v = Ret (clear v, 0)) /\
  (deactivate grow true v = UB <-> elements v <> []) /\ (elements v = [] -> deactivate grow true v = Ret (v, 0)).
Proof.
  unfold activate, deactivate. rewrite announce_standard. destruct (elements v) as [|x l] eqn:E; cbn [length Z.of_nat]; repeat split; intros; try reflexivity; try discriminate; congruence.
Qed.
Print Assumptions C193_standard_exactly.
(** So the run of any model with an agent that was created is undefined, before its first step... *)
Theorem C193_run_refuted {St} grow hash shuffle changes fuel lower (s : sim St) i a :
  run_of grow true hash shuffle changes (S fuel) lower (apply_change grow s (Create i a)) = Some UB.
Proof.
  cbn [run_of]. unfold announce_changes. cbn [apply_change s_activated].
  rewrite (proj2 (proj1 (C193_standard_exactly grow (push_back grow (s_activated s) i)))); [reflexivity|]. rewrite push_elements. intros E. apply app_eq_nil in E. destruct E. discriminate.
Qed.
Print Assumptions C193_run_refuted.
(** ... and so is going on after a step in which an agent was created or removed. *)
Theorem C193_later_refuted {St} grow hash shuffle changes fuel lower (s s' : sim St) next :
  still s -> step_of grow hash shuffle changes (S (S fuel)) lower (w_end (s_world s)) s = Some (Ret (s', next)) -> next < w_end (s_world s') -> ~ still s' ->
  run_of grow true hash shuffle changes (S (S fuel)) lower s = Some UB.
Proof.
  intros Hs H Hn N. eapply run_of_later; eauto. unfold announce_changes. destruct (C193_standard_exactly grow (s_activated s')) as (A & A' & _). destruct (C193_standard_exactly grow (s_deactivated s')) as (_ & _ & D & _).
  destruct (elements (s_activated s')) as [|x l] eqn:E; [|rewrite (proj2 A) by discriminate; reflexivity]. rewrite A' by reflexivity.
  rewrite (proj2 D); [reflexivity|]. intros X. apply N. split; assumption.
Qed.
Print Assumptions C193_later_refuted.
(** If only reading from memory that was given back counts, it is defined exactly as long as the list does not move before
    its last element is read. *)
Theorem C193_memory_exactly grow v : (length (elements v) <= capacity v)%nat ->
  (activate grow false v = UB <-> (2 <= length (elements v) /\ capacity v < 2 * length (elements v) - 1)%nat).
Proof.
  intros H. unfold activate, announce_all. destruct (announce_memory grow (length (elements v)) 0 (moves v) v eq_refl H) as [A B]; [lia|].
  split.
  - intros U. destruct (le_lt_dec (2 * length (elements v) - 1) (capacity v)) as [X|X].
    + destruct A as (v' & E & _); [lia|]. rewrite E in U. discriminate.
    + split; lia.
  - intros [X Y]. rewrite B by lia. reflexivity.
Qed.
Print Assumptions C193_memory_exactly.
(** With two agents or more that were created in a new environment the run is undefined in this sense too, whatever the
    library. *)
Theorem C193_two_agents_refuted {St} grow hash shuffle changes fuel lower (s : sim St) l : grows grow ->
  s_activated s = empty_vector -> (2 <= length l)%nat ->
  run_of grow false hash shuffle changes (S fuel) lower (fold_left (apply_change grow) (map (fun x => Create (fst x) (snd x)) l) s) = Some UB.
Proof.
  intros G E H. cbn [run_of]. unfold announce_changes, activate.
  assert (X : forall l s, s_activated (fold_left (apply_change grow) (map (fun x : identity * agent St => Create (fst x) (snd x)) l) s) = fold_left (push_back grow) (map fst l) (s_activated s)).
  { clear. induction l as [|[i a] l IH]; intros s; cbn [map fold_left fst snd]; [reflexivity|]. rewrite IH. reflexivity. }
  rewrite X, E, announce_pushed; [reflexivity|exact G|now rewrite map_length].
Qed.
Print Assumptions C193_two_agents_refuted.
(** One agent that was removed: telling of it twice is undefined, as the list is never cleared. *)
Theorem C193_removed_twice_refuted grow i v n : grows grow ->
  deactivate grow false (push_back grow empty_vector i) = Ret (v, n) -> deactivate grow false v = UB.
Proof.
  intros G H. unfold deactivate in H. change (push_back grow empty_vector i) with (fold_left (push_back grow) [i] empty_vector) in H.
  assert (E : announce_all grow false (fold_left (push_back grow) [i] empty_vector) = Ret (fold_left (push_back grow) [i; i] empty_vector)).
  { destruct G as [G0 G]. assert (P : push_back grow empty_vector i = mk_vector [i] 1 1) by (unfold push_back; cbn; now rewrite G0). cbn [fold_left]. rewrite P. reflexivity. }
  rewrite E in H. assert (X : v = fold_left (push_back grow) [i; i] empty_vector) by congruence. rewrite X. unfold deactivate. rewrite announce_pushed; [reflexivity|exact G|cbn; lia].
Qed.
Print Assumptions C193_removed_twice_refuted.
(** So after an agent was removed from an environment from which none was before, the environment tells of it once and fails the second time,
    even if nothing else happens. *)
Theorem C193_removed_refuted {St} grow (s s1 : sim St) i : grows grow -> elements (s_activated s) = [] -> s_deactivated s = empty_vector ->
  announce_changes grow false (apply_change grow s (Remove i)) = Ret s1 -> announce_changes grow false s1 = UB.
Proof.
  intros G A D H. unfold announce_changes in H. cbn [apply_change s_activated s_deactivated s_world] in H. rewrite D in H.
  assert (N : forall v, elements v = [] -> activate grow false v = Ret (clear v, 0)) by (intros v E; unfold activate, announce_all; rewrite E; reflexivity).
  rewrite (N _ A) in H. destruct (deactivate grow false (push_back grow empty_vector i)) as [[u n]| |] eqn:E; [|discriminate|discriminate]. injection H as <-.
  unfold announce_changes. cbn [s_activated s_deactivated]. rewrite (N (clear (s_activated s)) eq_refl). rewrite (C193_removed_twice_refuted grow i u n G E). reflexivity.
Qed.
Print Assumptions C193_removed_refuted.
(** Without agents that come or go, the environment runs the model as modelled in Simulation.v. *)
Theorem C193_nothing_to_tell {St} grow standard hash shuffle fuel lower (s : sim St) : still s ->
  match run_of grow standard hash shuffle (fun _ _ _ => []) fuel lower s, run_from hash shuffle fuel lower (s_world s) with
  | Some (Ret (s', ts)), Some (Ret (w', ts')) => s_world s' = w' /\ ts = ts' /\ still s'
  | Some Throw, Some Throw | Some UB, Some UB | None, None => True
  | _, _ => False
  end.
Proof.
  intros H. change (fun _ _ _ => []) with (@none St). rewrite run_none by exact H. destruct (run_from hash shuffle fuel lower (s_world s)) as [[[w' ts]| |]|]; cbn; auto.
Qed.
Print Assumptions C193_nothing_to_tell.

(** Agents that count how often they act, and wake up again after a number of time steps. *)
Definition counts (period : Z) : @action Z := fun lower _ _ o => ((fst o + 1, snd o), lower + period).
Definition counter (period : Z) : agent Z := mk_agent (new_communicator true) (counts period) [] (0, []).
Definition hash0 (i : identity) : Z := hd 0 i.
Definition keep (s : seed) (l : list message) : list message := l.
Definition world3 : world Z := mk_world [([1], counter 3); ([2], counter 4)] [] 10 0.
Definition sim3 : sim Z := mk_sim world3 empty_vector empty_vector.
Definition double (c : nat) : nat := match c with O => 1%nat | _ => (2 * c)%nat end.
Lemma double_grows : grows double.
Proof. split; [reflexivity|]. intros [|c] H; unfold double; lia. Qed.
Definition tally (w : world Z) : list (identity * Z) := map (fun x => (fst x, fst (ag_own (snd x)))) (agents w).
Example C193_case :
  run_of double true hash0 keep (fun _ _ _ => []) 30 0 (apply_change double (mk_sim (mk_world [] [] 10 0) empty_vector empty_vector) (Create [1] (counter 3))) = Some UB /\
  match run_of double true hash0 keep (fun _ _ _ => []) 30 0 sim3 with Some (Ret (s, ts)) => tally (s_world s) = [([1], 4); ([2], 3)] /\ ts = [0; 3; 4; 6; 8; 9] | _ => False end /\
  activate double false (push_back double empty_vector [1]) = Ret (mk_vector [] 2 2, 1) /\
  activate double false (fold_left (push_back double) [[1]; [2]] empty_vector) = UB.
Proof. vm_compute. repeat split. Qed.

(** ** C194: stepping the environment moves the model forward. *)
(** It does not: the time of the model stays, so that every step after the first finds nothing to do and leaves all agents as they are. *)
Theorem C194_no_progress_refuted {St} grow standard hash shuffle fuel k time (s s1 s2 : sim St) : well_formed (s_world s) ->
  environment_step grow standard hash shuffle (fun _ _ _ => []) fuel time s = Some (Ret s1) -> time < w_end (s_world s) ->
  environment_step grow standard hash shuffle (fun _ _ _ => []) (S k) time s1 = Some (Ret s2) -> s_world s2 = s_world s1.
Proof.
  change (fun _ _ _ => []) with (@none St). intros Hwf H1 Ht H2. unfold environment_step in *. destruct (time <? w_end (s_world s)) eqn:G; [|lia]. rewrite step_none in H1.
  destruct (step hash shuffle fuel time (w_end (s_world s)) (s_world s)) as [[[w' t]| |]|] eqn:E; cbn [option_map in_sim] in H1; try discriminate.
  assert (X : forall s s' : sim St, announce_changes grow standard s = Ret s' -> s_world s' = s_world s).
  { clear. intros s s' H. unfold announce_changes in H. destruct (activate _ _ _) as [[v n]| |]; try discriminate. destruct (deactivate _ _ _) as [[u n2]| |]; try discriminate. now injection H as <-. }
  injection H1 as H1. apply X in H1. cbn [s_world] in H1. rewrite H1 in *.
  destruct (step_returns _ _ _ _ _ _ _ _ Hwf E) as (_ & _ & _ & _ & _ & N & _). rewrite N, G in H2. rewrite step_none, H1 in H2.
  rewrite (step_again grow hash shuffle fuel k time (w_end (s_world s)) _ _ _ Hwf E) in H2. cbn [option_map in_sim] in H2. injection H2 as H2. apply X in H2. exact H2.
Qed.
Print Assumptions C194_no_progress_refuted.
(** The first step is the one of the model, at the time of the model. *)
Theorem C194_first {St} grow standard hash shuffle fuel time (s : sim St) : still s -> time < w_end (s_world s) ->
  match environment_step grow standard hash shuffle (fun _ _ _ => []) fuel time s, step hash shuffle fuel time (w_end (s_world s)) (s_world s) with
  | Some (Ret s'), Some (Ret (w', _)) => s_world s' = w' /\ still s'
  | Some Throw, Some Throw | Some UB, Some UB | None, None => True
  | _, _ => False
  end.
Proof.
  change (fun _ _ _ => []) with (@none St). intros Hs Ht. unfold environment_step. destruct (time <? w_end (s_world s)) eqn:G; [|lia]. rewrite step_none.
  destruct (step hash shuffle fuel time (w_end (s_world s)) (s_world s)) as [[[w' t]| |]|]; cbn [option_map in_sim]; auto.
  rewrite announce_still by exact Hs. split; [reflexivity|exact Hs].
Qed.
Print Assumptions C194_first.
(** At the end or later the model is not stepped. *)
Theorem C194_over {St} grow standard hash shuffle changes fuel time (s : sim St) : still s -> w_end (s_world s) <= time ->
  environment_step grow standard hash shuffle changes fuel time s = Some (Ret s).
Proof. intros Hs Ht. unfold environment_step. destruct (time <? w_end (s_world s)) eqn:G; [lia|]. now rewrite announce_still. Qed.
Print Assumptions C194_over.
Example C194_case : match environment_step double true hash0 keep (fun _ _ _ => []) 30 0 sim3 with
  | Some (Ret s1) => tally (s_world s1) = [([1], 1); ([2], 1)] /\
      match environment_step double true hash0 keep (fun _ _ _ => []) 30 0 s1 with Some (Ret s2) => tally (s_world s2) = [([1], 1); ([2], 1)] | _ => False end
  | _ => False end.
Proof. vm_compute. repeat split. Qed.

(** ** C195: the simulation goes on without an agent that is removed. *)
(** It does not when the agent would have woken up before the end: its wake-up time stays, and the run never ends. *)
Theorem C195_never_ends_refuted {St} hash shuffle fuel lower (w : world St) i t : well_formed w ->
  im_find i (wake_up_times w) = Some t -> t < w_end w -> forall r, run_from hash shuffle fuel lower (remove_agent w i) <> Some (Ret r).
Proof. apply removed_never. Qed.
Print Assumptions C195_never_ends_refuted.
(** It does when the agent would not have: the run is as if nothing of the agent were left. *)
Theorem C195_goes_on {St} hash shuffle fuel lower (w : world St) i : well_formed w ->
  (forall t, im_find i (wake_up_times w) = Some t -> w_end w <= t) ->
  same_course (run_from hash shuffle fuel lower (remove_agent w i)) (run_from hash shuffle fuel lower (forget w i)).
Proof. apply removed_late. Qed.
Print Assumptions C195_goes_on.
(** Others remain, as they are; messages that the agent has not sent yet are lost, and messages to it end the simulation. *)
Theorem C195_others {St} (w : world St) i j : well_formed w ->
  im_find j (agents (remove_agent w i)) = (if id_eqb i j then None else im_find j (agents w)) /\ im_find j (wake_up_times (remove_agent w i)) = im_find j (wake_up_times w).
Proof. intros (A & _). split; [|reflexivity]. cbn. now apply Distributed_proofs.im_find_erase. Qed.
Print Assumptions C195_others.
Theorem C195_mail {St} (w : world St) i : well_formed w ->
  sent (remove_agent w i) = concat (map (fun x => if id_eqb (fst x) i then [] else ag_outbox (snd x)) (agents w)) /\
  ((exists m, In m (sent (remove_agent w i)) /\ m_recipient m = i) -> send_messages (remove_agent w i) = Throw).
Proof.
  intros Hwf. split.
  - unfold sent, remove_agent. cbn [agents]. unfold im_erase. clear Hwf. induction (agents w) as [|[j a] l IH]; [reflexivity|]. cbn [filter map fst snd concat]. destruct (id_eqb j i); cbn [negb map concat fst snd]; [exact IH|]. now rewrite IH.
  - intros (m & Hm & E). apply Simulation_proofs.send_spec; [apply wf_sorted; now apply remove_wf|]. exists m. split; [exact Hm|]. rewrite E. intros L. apply (proj1 (remove_local w i i (proj1 Hwf))) in L; tauto.
Qed.
Print Assumptions C195_mail.
(** A model with an agent that is removed after the first step, though it would wake up at time 3, is still not done after any number of rounds;
    one whose agent would wake up after the end is. *)
Definition after_first (w : world Z) : world Z := match step hash0 keep 30 0 10 w with Some (Ret (w', _)) => w' | _ => w end.
Definition world4 : world Z := mk_world [([1], counter 3); ([2], counter 40)] [] 10 0.
Example C195_case :
  im_find [1] (wake_up_times (after_first world3)) = Some 3 /\ run_from hash0 keep 50 3 (remove_agent (after_first world3) [1]) = None /\
  im_find [2] (wake_up_times (after_first world4)) = Some 10 /\
  match run_from hash0 keep 50 3 (remove_agent (after_first world4) [2]) with Some (Ret (w, ts)) => tally w = [([1], 4)] /\ ts = [3; 6; 9] | _ => False end.
Proof. vm_compute. repeat split. Qed.

(** ** C196: an agent that is created while the model steps takes part from then on. *)
(** At the end of the round it is as it was created, apart from the messages sent to it; it has not acted.  Its wake-up time is that of
    the first message to it, and none without messages. *)
Theorem C196_created {St} grow hash shuffle changes lower upper n (s s' : sim St) f p i a : well_formed (s_world s) -> ~ local (s_world s) i ->
  act_phase hash shuffle lower upper n (s_world s) = Ret p -> creates (changes lower n (p_world p)) i a ->
  round_of grow hash shuffle changes lower upper n s = Ret (s', f) ->
  exists ms, Forall (fun m => m_recipient m = i) ms /\ im_find i (agents (s_world s')) = Some (with_letters a ms) /\
    im_find i (wake_up_times (s_world s')) = wake_up_after (im_find i (wake_up_times (s_world s))) ms.
Proof. intros Hwf L Ea C H. destruct (newborn grow hash shuffle changes lower upper n s s' f p i a Hwf L Ea C H) as (ms & A & B & D & _). eauto. Qed.
Print Assumptions C196_created.
(** Without messages it acts in the next round, at whatever time that is. *)
Theorem C196_acts_next {St} hash shuffle lower upper n (w : world St) p i a : well_formed w -> im_find i (agents w) = Some a -> im_find i (wake_up_times w) = None ->
  act_phase hash shuffle lower upper n w = Ret p ->
  exists o t, handle shuffle a lower upper (seed_of hash i lower n (w_sample w)) = Ret (o, t) /\
    option_map (@ag_own St) (im_find i (agents (p_world p))) = Some o /\ im_find i (wake_up_times (p_world p)) = Some t.
Proof.
  intros Hwf A B H. destruct (act_phase_spec _ _ _ _ _ _ _ Hwf H) as (_ & _ & HA & _). destruct (proj1 (HA i a A)) as (o & t & E & _ & Ea & Et); [split; [unfold local; congruence|right; exact B]|].
  exists o, t. rewrite Ea. repeat split; assumption.
Qed.
Print Assumptions C196_acts_next.
(** If the round is the last before the end, the agent never acts. *)
Theorem C196_never_acts_refuted {St} grow standard hash shuffle changes fuel lower (s s' : sim St) f p i a : well_formed (s_world s) -> still s ->
  lower < w_end (s_world s) -> ~ local (s_world s) i ->
  act_phase hash shuffle lower (w_end (s_world s)) 0 (s_world s) = Ret p -> creates (changes lower 0 (p_world p)) i a ->
  round_of grow hash shuffle changes lower (w_end (s_world s)) 0 s = Ret (s', f) -> w_end (s_world s) <= f ->
  run_of grow standard hash shuffle changes (S fuel) lower s = Some (Ret (s', [lower])) /\
  exists ms, im_find i (agents (s_world s')) = Some (with_letters a ms).
Proof.
  intros Hwf Hs Hl L Ea C H Hf. destruct (newborn grow hash shuffle changes _ _ _ s s' f p i a Hwf L Ea C H) as (ms & _ & B & _ & N).
  split; [now apply run_of_last with (f := f)|eauto].
Qed.
Print Assumptions C196_never_acts_refuted.
(** With messages that are delivered later it does not act before the first of these, other than an agent without messages. *)
Theorem C196_waits_refuted {St} hash shuffle lower upper n (w : world St) p i a ms : well_formed w -> im_find i (agents w) = Some a ->
  im_find i (wake_up_times w) = wake_up_after None ms -> ms <> [] -> Forall (fun m => lower < m_received m) ms ->
  act_phase hash shuffle lower upper n w = Ret p -> im_find i (agents (p_world p)) = Some a.
Proof.
  intros Hwf A B N F H. destruct (act_phase_spec _ _ _ _ _ _ _ Hwf H) as (_ & _ & HA & _). apply (HA i a A). intros [_ [D|D]]; rewrite B in D.
  - apply (wake_up_after_lower None ms lower) in D; [lia|discriminate|]. now rewrite Forall_forall in F.
  - destruct ms as [|m ms]; [congruence|]. cbn in D. destruct (wake_up_after_le (earlier None (m_received m)) ms (m_received m) eq_refl) as (t & E & _). unfold wake_up_after in E. congruence.
Qed.
Print Assumptions C196_waits_refuted.
(** Agent 1 creates agent 9 in its first step; one model goes on, one ends. *)
Definition with_child (lower n : Z) (w : world Z) : list (change Z) := if (lower =? 0) && (n =? 0) then [Create [9] (counter 2)] else [].
Definition summary (r : option (outcome (sim Z * list Z))) : option (list (identity * Z) * list Z) :=
  match r with Some (Ret (s, ts)) => Some (tally (s_world s), ts) | _ => None end.
Example C196_case :
  summary (run_of (fun c => c + 8)%nat false hash0 keep with_child 30 0 (mk_sim world3 (mk_vector [] 8 0) empty_vector)) = Some ([([1], 4); ([2], 3); ([9], 4)], [0; 3; 4; 5; 6; 7; 8; 9]) /\
  summary (run_of double true hash0 keep with_child 30 0 (mk_sim (mk_world [([1], counter 10)] [] 10 0) empty_vector empty_vector)) = Some ([([1], 1); ([9], 0)], [0]).
Proof. vm_compute. repeat split. Qed.

(** ** C197: looking up an agent changes nothing. *)
Theorem C197_present {A} (m : idmap (option A)) i a : im_find i m = Some a -> look_up i m = (a, m).
Proof. intros H. unfold look_up. now rewrite H. Qed.
Print Assumptions C197_present.
(** Looking up an identity without agent adds an entry without agent... *)
Theorem C197_absent_refuted {A} (m : idmap (option A)) i : im_sorted m -> im_find i m = None ->
  fst (look_up i m) = None /\ length (snd (look_up i m)) = S (length m) /\ im_find i (snd (look_up i m)) = Some None.
Proof.
  intros Hs H. unfold look_up. rewrite H. cbn [fst snd]. split; [reflexivity|]. split; [|rewrite im_find_set by exact Hs; now rewrite id_eqb_refl].
  clear Hs. induction m as [|[k v] m IH]; [reflexivity|]. cbn [im_set]. cbn [im_find] in H. destruct (id_ltb k i); [cbn [length]; now rewrite IH|]. destruct (id_ltb i k); [reflexivity|discriminate].
Qed.
Print Assumptions C197_absent_refuted.
(** ... after which a message to it, which was an error before, is undefined. *)
Theorem C197_message_refuted {A} (put : A -> A) (m : idmap (option A)) i : im_sorted m -> im_find i m = None ->
  put_in_inbox put i m = Throw /\ put_in_inbox put i (snd (look_up i m)) = UB.
Proof. intros Hs H. destruct (C197_absent_refuted m i Hs H) as (_ & _ & E). unfold put_in_inbox. rewrite H, E. split; reflexivity. Qed.
Print Assumptions C197_message_refuted.
(** Nothing else changes. *)
Theorem C197_others {A} (m : idmap (option A)) i j : im_sorted m -> i <> j -> im_find j (snd (look_up i m)) = im_find j m.
Proof. intros Hs N. unfold look_up. destruct (im_find i m); [reflexivity|]. cbn [snd]. rewrite im_find_set by exact Hs. now rewrite id_eqb_neq. Qed.
Print Assumptions C197_others.
Example C197_case : look_up [2] [([1], Some 5); ([3], Some 6)] = (None, [([1], Some 5); ([2], None); ([3], Some 6)]) /\ look_up [3] [([1], Some 5); ([3], Some 6)] = (Some 6, [([1], Some 5); ([3], Some 6)]).
Proof. vm_compute. repeat split. Qed.
