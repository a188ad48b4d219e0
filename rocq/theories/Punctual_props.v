(** Theorems on the times at which messages are handled. *)
From Verif Require Import Base Identity Identity_proofs IdMap IdMap_proofs Multimap Multimap_proofs Communicator Communicator_spec Simulation Simulation_spec Punctual_spec Punctual_proofs.
From Coq Require Import ZifyBool ZifyNat.

(** ** C176: a message is handled at its time of delivery.
    An agent that acts before the delivery of a message that is already in its inbox overwrites its wake-up time with what it
    returns; it then sleeps through the delivery, and the message may never be handled. *)
Definition logs : callback (@own (list Z)) := fun m lower upper _ o => ((fst o ++ [m_body m; lower], snd o), upper).
Definition logging : communicator (@own (list Z)) := match register (new_communicator true) 7 3 logs with Ret c => lock c | _ => new_communicator true end.
Definition letter (k : Z) (delivery : Z) : message := mk_message 7 [1] [2] 0 delivery k.
Definition sends_two : @action (list Z) := fun lower upper _ o =>
  match fst o with [] => (([0], snd o ++ [letter 1 0; letter 2 5]), lower + 1) | _ => (o, lower + 1) end.
Definition sleeps : @action (list Z) := fun _ upper _ o => (o, upper).
Definition every_time : @action (list Z) := fun lower _ _ o => (o, lower + 1).
Definition letters_world (act : @action (list Z)) : world (list Z) :=
  mk_world [([1], mk_agent logging sends_two [] ([], [])); ([2], mk_agent logging act [] ([], []))] [] 10 0.
Theorem C176_forgotten_refuted : exists w' ts a,
  run_from (fun _ => 0) (fun _ l => l) 20 0 (letters_world sleeps) = Some (Ret (w', ts)) /\ im_find [2] (agents w') = Some a /\
  fst (ag_own a) = [1; 0] /\ ag_inbox a = [(5, letter 2 5)] /\ ts = [0; 1; 2; 3; 4; 5; 6; 7; 8; 9] /\ w_end w' = 10.
Proof.
  assert (S : match run_from (fun _ => 0) (fun _ l => l) 20 0 (letters_world sleeps) with
    | Some (Ret (w', ts)) => match im_find [2] (agents w') with Some a => fst (ag_own a) = [1; 0] /\ ag_inbox a = [(5, letter 2 5)] /\ ts = [0; 1; 2; 3; 4; 5; 6; 7; 8; 9] /\ w_end w' = 10 | None => False end
    | _ => False end) by (vm_compute; auto).
  destruct (run_from _ _ 20 0 (letters_world sleeps)) as [[[w' ts]| |]|]; try contradiction. destruct (im_find [2] (agents w')) as [a|] eqn:E; [|contradiction]. exists w', ts, a. auto.
Qed.
Print Assumptions C176_forgotten_refuted.
(** When every agent asks to be woken no later than the delivery of the messages it already has, no delivery is missed: after a step no
    message that is still in an inbox was due before the time of the next step, and at the end of a run none that is due before the end. *)
Theorem C176_step : forall (St : Type) hash shuffle fuel lower upper (w w' : world St) t,
  well_formed w -> all_attentive shuffle w -> punctual w -> step hash shuffle fuel lower upper w = Some (Ret (w', t)) ->
  punctual w' /\ all_attentive shuffle w' /\ forall i a k m, im_find i (agents w') = Some a -> In (k, m) (ag_inbox a) -> t <= k.
Proof. intros. eapply step_punctual; eauto. Qed.
Print Assumptions C176_step.
Theorem C176_run : forall (St : Type) hash shuffle fuel lower (w w' : world St) ts,
  well_formed w -> all_attentive shuffle w -> punctual w -> run_from hash shuffle fuel lower w = Some (Ret (w', ts)) ->
  forall i a k m, im_find i (agents w') = Some a -> In (k, m) (ag_inbox a) -> w_end w <= k.
Proof. intros. eapply run_punctual; eauto. Qed.
Print Assumptions C176_run.
(** Agents that are woken at every time are attentive. *)
Theorem C176_every_time : forall (St : Type) shuffle (a : agent St), (forall lower upper s o, snd (ag_act a lower upper s o) <= lower + 1) -> attentive shuffle a.
Proof.
  intros St shuffle a H inbox own lower upper s o t Hh k m _ Hk. unfold handle in Hh. cbn [ag_comm ag_act ag_inbox ag_own] in Hh.
  destruct (process_messages (ag_comm a) shuffle lower upper s inbox own) as [[o1 t1]| |]; [|discriminate|discriminate]. specialize (H lower upper s o1).
  destruct (ag_act a lower upper s o1) as [o2 t2]. cbn [snd] in H. assert (Z.min t1 t2 = t) by congruence. lia.
Qed.
Print Assumptions C176_every_time.
(** With a recipient that wakes up at every time the same message is handled at time 5. *)
Example C176_case : attentive (fun _ l => l) (mk_agent logging every_time [] ([], [])) /\
  match run_from (fun _ => 0) (fun _ l => l) 20 0 (letters_world every_time) with
  | Some (Ret (w', ts)) => ts = [0; 1; 2; 3; 4; 5; 6; 7; 8; 9] /\ map (fun x => fst (ag_own (snd x))) (agents w') = [[0]; [1; 0; 2; 5]] /\ map (fun x => ag_inbox (snd x)) (agents w') = [[]; []]
  | _ => False
  end.
Proof. split; [|vm_compute; auto]. apply C176_every_time. intros. cbn. lia. Qed.
Example C176_world : well_formed (letters_world every_time) /\ punctual (letters_world every_time) /\ all_attentive (fun _ l => l) (letters_world every_time).
Proof.
  split; [split; [|split]|split].
  - cbn. repeat constructor; cbn; reflexivity.
  - constructor.
  - repeat constructor.
  - intros i a k m t _ _ H. discriminate.
  - intros i a H. apply im_find_in in H; [|cbn; repeat constructor; cbn; reflexivity]. destruct H as [H|[H|[]]]; injection H as <- <-; apply C176_every_time; intros lower upper s o; cbn; [|lia].
    unfold sends_two. destruct (fst o); cbn; lia.
Qed.
