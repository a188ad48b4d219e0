(** Theorems on simulations whose agents make no use of the seeds that they are given. *)
From Verif Require Import Base Identity IdMap Multimap Multimap_proofs Communicator Communicator_spec Simulation Simulation_spec Platform_spec Platform_proofs.
From Coq Require Import ZifyBool.

(** ** C182: the results of a simulation in which no agent uses its seed do not depend on the sample number or the platform.
    With the default schedule they do: messages of the same priority are shuffled by the seed. *)
Definition logs : callback (@own (list Z)) := fun m lower upper _ o => ((fst o ++ [m_body m], snd o), upper).
Definition logging (schedule : bool) : communicator (@own (list Z)) := match register (new_communicator schedule) 7 3 logs with Ret c => lock c | _ => new_communicator schedule end.
Definition sends_two : @action (list Z) := fun lower upper _ o =>
  if lower =? 0 then ((fst o, snd o ++ [mk_message 7 [1] [2] 0 2 5; mk_message 7 [1] [2] 0 2 6]), upper) else (o, upper).
Definition waits : @action (list Z) := fun _ upper _ o => (o, upper).
Definition letters (schedule : bool) : world (list Z) :=
  mk_world [([1], mk_agent (logging schedule) sends_two [] ([], [])); ([2], mk_agent (logging schedule) waits [] ([], []))] [] 10 0.
(** A shuffle that reverses or not, by the seed. *)
Definition some_shuffle (s : seed) (l : list message) : list message := if Z.even (fold_left Z.add s 0) then l else rev l.
Lemma letters_ignore schedule : Forall (fun x => ignores_seed (snd x)) (agents (letters schedule)).
Proof.
  assert (Rg : exists b rs c, registers (new_communicator b) rs c /\ (logging schedule = c \/ logging schedule = lock c) /\
     Forall (fun r : registration (@own (list Z)) => forall m lower upper s1 s2 o, r_callback r m lower upper s1 o = r_callback r m lower upper s2 o) rs).
  { exists schedule, [mk_registration 7 3 logs]. eexists. split; [econstructor; [reflexivity|constructor]|]. split; [right; reflexivity|]. repeat constructor. }
  cbn [letters agents]. constructor; [split; [exact Rg|reflexivity]|]. constructor; [split; [exact Rg|reflexivity]|constructor].
Qed.
Definition second_log (r : option (outcome (world (list Z) * list Z))) : option (list Z) :=
  match r with Some (Ret (w, _)) => option_map (fun a => fst (ag_own a)) (im_find [2] (agents w)) | _ => None end.
Lemma two_results r1 r2 l1 l2 : second_log r1 = Some l1 /\ second_log r2 = Some l2 -> exists w1 w2 ts1 ts2 a1 a2, r1 = Some (Ret (w1, ts1)) /\ r2 = Some (Ret (w2, ts2)) /\
  im_find [2] (agents w1) = Some a1 /\ im_find [2] (agents w2) = Some a2 /\ fst (ag_own a1) = l1 /\ fst (ag_own a2) = l2.
Proof.
  unfold second_log. intros [H1 H2]. destruct r1 as [[[w1 ts1]| |]|]; try discriminate. destruct r2 as [[[w2 ts2]| |]|]; try discriminate.
  destruct (im_find [2] (agents w1)) as [a1|] eqn:E1; [|discriminate]. destruct (im_find [2] (agents w2)) as [a2|] eqn:E2; [|discriminate]. cbn in H1, H2.
  exists w1, w2, ts1, ts2, a1, a2. repeat split; congruence.
Qed.
Lemma runs_differ : second_log (run_from (fun _ => 0) some_shuffle 20 0 (letters true)) = Some [6; 5] /\ second_log (run_from (fun _ => 0) some_shuffle 20 0 (with_sample 1 (letters true))) = Some [5; 6].
Proof. split; vm_compute; reflexivity. Qed.
Theorem C182_shuffled_refuted : exists (shuffle : seed -> list message -> list message) hash (w : world (list Z)) s w1 w2 ts1 ts2 a1 a2,
  (forall s l, Permutation (shuffle s l) l) /\ Forall (fun x => ignores_seed (snd x)) (agents w) /\ well_formed w /\
  run_from hash shuffle 20 0 w = Some (Ret (w1, ts1)) /\ run_from hash shuffle 20 0 (with_sample s w) = Some (Ret (w2, ts2)) /\
  im_find [2] (agents w1) = Some a1 /\ im_find [2] (agents w2) = Some a2 /\ fst (ag_own a1) = [6; 5] /\ fst (ag_own a2) = [5; 6].
Proof.
  exists some_shuffle, (fun _ => 0), (letters true), 1.
  assert (S := runs_differ). apply two_results in S. destruct S as (w1 & w2 & ts1 & ts2 & a1 & a2 & R1 & R2 & F1 & F2 & L1 & L2). exists w1, w2, ts1, ts2, a1, a2.
  split; [intros s l; unfold some_shuffle; destruct (Z.even _); [reflexivity|symmetry; apply Permutation_rev]|].
  split; [apply letters_ignore|]. split; [split; [cbn; repeat constructor; cbn; reflexivity|split; [constructor|repeat constructor]]|].
  exact (conj R1 (conj R2 (conj F1 (conj F2 (conj L1 L2))))).
Qed.
Print Assumptions C182_shuffled_refuted.
(** With messages handled in order, every sample, every hash of identities and every way of shuffling give the same run. *)
Theorem C182_in_order : forall (St : Type) hash1 hash2 shuffle1 shuffle2 s fuel lower (w : world St),
  Forall (fun x => ignores_seed (snd x) /\ in_order (snd x)) (agents w) ->
  run_from hash2 shuffle2 fuel lower (with_sample s w) = relabel s (run_from hash1 shuffle1 fuel lower w).
Proof. intros St hash1 hash2 shuffle1 shuffle2 s fuel lower w F. apply run_same. eapply Forall_impl; [|exact F]. intros x [I O]. now apply ignores_unaffected. Qed.
Print Assumptions C182_in_order.
(** The same whenever the order of the messages makes no difference to any agent. *)
Theorem C182_unaffected : forall (St : Type) hash1 hash2 shuffle1 shuffle2 s fuel lower (w : world St),
  Forall (fun x => unaffected shuffle1 shuffle2 (snd x)) (agents w) ->
  run_from hash2 shuffle2 fuel lower (with_sample s w) = relabel s (run_from hash1 shuffle1 fuel lower w).
Proof. intros. now apply run_same. Qed.
Print Assumptions C182_unaffected.
Example C182_case : Forall (fun x => ignores_seed (snd x) /\ in_order (snd x)) (agents (letters false)) /\
  match run_from (fun _ => 0) some_shuffle 20 0 (with_sample 1 (letters false)) with
  | Some (Ret (w, ts)) => ts = [0; 2] /\ map (fun x => fst (ag_own (snd x))) (agents w) = [[]; [6; 5]] /\ w_sample w = 1
  | _ => False
  end.
Proof.
  split; [|vm_compute; auto]. apply Forall_and; [apply letters_ignore|]. repeat constructor.
Qed.
