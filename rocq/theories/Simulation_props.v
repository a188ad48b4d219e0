(** Property theorems C15-C21. *)
From Verif Require Import Base Identity IdMap IdMap_proofs Multimap Multimap_proofs Communicator Simulation Simulation_spec
  Simulation_proofs Simulation_proofs2 Simulation_proofs3.
From Coq Require Import ZifyBool ZifyNat.

(** C15.  Any number of agents, any messages, any inboxes. *)
Theorem C15_exactly_once_delivery : forall (St : Type) (w w' : world St) n,
  well_formed w -> send_messages w = Ret (w', n) ->
  n = Z.of_nat (length (sent w)) /\ well_formed w' /\ map fst (agents w') = map fst (agents w) /\ sent w' = [] /\
  forall i a, im_find i (agents w) = Some a -> exists a', im_find i (agents w') = Some a' /\
    ag_comm a' = ag_comm a /\ ag_act a' = ag_act a /\ fst (ag_own a') = fst (ag_own a) /\ ag_outbox a' = [] /\
    Permutation (ag_inbox a') (ag_inbox a ++ map (fun m => (m_received m, m)) (filter (addressed_to i) (sent w))) /\
    forall t, filter (key_is t) (ag_inbox a') =
              filter (key_is t) (ag_inbox a) ++ filter (key_is t) (map (fun m => (m_received m, m)) (filter (addressed_to i) (sent w))).
Proof.
  intros St w w' n Hwf H. pose proof (wf_sorted w Hwf) as Hs. destruct (send_ret w w' n Hs H) as (_ & En & [S1 S2] & K & _ & _ & A & _).
  pose proof (send_wf w w' n Hwf H) as Hwf'. split; [exact En|]. split; [exact Hwf'|]. split; [exact K|].
  assert (G : forall i a, im_find i (agents w) = Some a -> im_find i (agents w') = Some (cleared (with_mail (filter (addressed_to i) (sent w)) a))) by (intros i a Ha; rewrite A, Ha; reflexivity).
  split.
  - unfold sent at 1. assert (X : Forall (fun x => ag_outbox (snd x) = []) (agents w')).
    { apply Forall_forall. intros [i a'] Hi. apply im_find_in in Hi; [|exact S1]. rewrite A in Hi. destruct (im_find i (agents w)); [|discriminate]. injection Hi as <-. reflexivity. }
    clear - X. induction X as [|x l Hx _ IH]; [reflexivity|]. cbn. rewrite Hx. exact IH.
  - intros i a Ha. exists (cleared (with_mail (filter (addressed_to i) (sent w)) a)). split; [now apply G|].
    destruct (insert_all_spec (filter (addressed_to i) (sent w)) (ag_inbox a) (inbox_sorted w i a Hwf Ha)) as (H1 & H2 & H3).
    repeat split; assumption.
Qed.
Print Assumptions C15_exactly_once_delivery.
(** It fails, with an exception, exactly when a recipient does not exist. *)
Theorem C15_unknown_recipient_reported : forall (St : Type) (w : world St), well_formed w ->
  (send_messages w = Throw <-> exists m, In m (sent w) /\ ~ local w (m_recipient m)) /\ send_messages w <> UB.
Proof.
  intros St w Hwf. pose proof (wf_sorted w Hwf) as Hs. destruct (send_spec w Hs) as [S1 S2].
  assert (D : (forall m, In m (sent w) -> local w (m_recipient m)) \/ exists m, In m (sent w) /\ ~ local w (m_recipient m)).
  { clear - Hs. induction (sent w) as [|m l IH]; [left; intros m []|]. destruct (im_find (m_recipient m) (agents w)) as [a|] eqn:E.
    - destruct IH as [IH|(m' & H1 & H2)]; [left|right; exists m'; split; [right; exact H1|exact H2]]. intros m' [<-|H]; [unfold local; congruence|now apply IH].
    - right. exists m. split; [left; reflexivity|]. unfold local. intros H. now apply H. }
  destruct D as [D|D].
  - destruct (S2 D) as (w' & E & _). rewrite E. split; [|discriminate]. split; [discriminate|]. intros (m & H1 & H2). exfalso. apply H2. now apply D.
  - rewrite (S1 D). split; [|discriminate]. split; auto.
Qed.
Print Assumptions C15_unknown_recipient_reported.

(** A small world: agents log the messages they handle; [act] sends what is scripted. *)
Definition log_message : callback (own (St:=list Z)) := fun m _ upper _ o => ((fst o ++ [m_body m], snd o), upper).
Definition logger : communicator (own (St:=list Z)) := match register (new_communicator false) 7 0 log_message with Ret c => c | _ => new_communicator false end.
Definition mail (from to received body : Z) : message := mk_message 7 [from] [to] 0 received body.
Definition no_act : action (St:=list Z) := fun _ upper _ o => (o, upper).
Definition greets (to : Z) : action (St:=list Z) := fun lower _ _ o => ((fst o, snd o ++ [mail 1 to (lower + 5) 42]), lower + 10).
Definition the_world : world (list Z) :=
  mk_world [([1], mk_agent logger (greets 2) [] ([], [mail 1 3 30 11; mail 1 2 20 12]));
            ([2], mk_agent logger no_act [(20, mail 9 2 20 1); (25, mail 9 2 25 2)] ([], [mail 2 3 30 13; mail 2 2 20 14]));
            ([3], mk_agent logger no_act [] ([], []))]
           [([1], 10); ([2], 40)] 100 0.
Lemma the_world_well_formed : well_formed the_world.
Proof.
  split; [|split]; [repeat constructor| repeat constructor|].
  repeat constructor; cbn; unfold key_le; cbn; lia.
Qed.
Definition h (i : identity) : Z := hd 0 i.
Definition sh (s : seed) (l : list message) : list message := l.
Example C15_case : well_formed the_world /\ length (sent the_world) = 4%nat /\
  match send_messages the_world with
  | Ret (w', n) => n = 4 /\ option_map (fun a => map (fun x => m_body (snd x)) (ag_inbox a)) (im_find [2] (agents w')) = Some [1; 12; 14; 2]
                   /\ wake_up_times w' = [([1], 10); ([2], 20); ([3], 30)]
  | _ => False
  end.
Proof. split; [exact the_world_well_formed|]. split; [reflexivity|]. vm_compute. repeat split. Qed.

(** C16. *)
Theorem C16_recipients_are_scheduled : forall (St : Type) (w w' : world St) n i,
  well_formed w -> send_messages w = Ret (w', n) ->
  let new := map m_received (filter (addressed_to i) (sent w)) in
  let before := match im_find i (wake_up_times w) with Some t => [t] | None => [] end in
  (new = [] -> im_find i (wake_up_times w') = im_find i (wake_up_times w)) /\
  (new <> [] -> exists t, im_find i (wake_up_times w') = Some t /\ In t (before ++ new) /\ Forall (fun x => t <= x) (before ++ new)).
Proof.
  intros St w w' n i Hwf H new before. destruct (send_ret w w' n (wf_sorted w Hwf) H) as (_ & _ & _ & _ & _ & _ & _ & T). rewrite T. subst new before.
  assert (G : forall ms o, (ms = [] -> wake_up_after o ms = o) /\
     (ms <> [] -> exists t, wake_up_after o ms = Some t /\ In t (match o with Some t => [t] | None => [] end ++ map m_received ms) /\
        Forall (fun x => t <= x) (match o with Some t => [t] | None => [] end ++ map m_received ms))).
  { induction ms as [|m ms IH]; intros o; [split; [reflexivity|congruence]|]. split; [discriminate|]. intros _. cbn [wake_up_after fold_left].
    set (x := match o with Some t => Z.min t (m_received m) | None => m_received m end).
    assert (Ex : earlier o (m_received m) = Some x) by (destruct o; reflexivity). rewrite Ex.
    assert (Hx : In x (match o with Some t => [t] | None => [] end ++ [m_received m]) /\ Forall (fun y => x <= y) (match o with Some t => [t] | None => [] end ++ [m_received m])).
    { destruct o as [t|]; subst x; cbn; [split; [lia|repeat constructor; lia]|split; [left; reflexivity|repeat constructor; lia]]. }
    destruct Hx as [Hx1 Hx2].
    replace (match o with Some t => [t] | None => [] end ++ map m_received (m :: ms)) with ((match o with Some t => [t] | None => [] end ++ [m_received m]) ++ map m_received ms) by (rewrite <- app_assoc; reflexivity).
    destruct (IH (Some x)) as [I1 I2]. destruct ms as [|m2 ms].
    - exists x. cbn. rewrite app_nil_r. split; [reflexivity|]. split; assumption.
    - destruct I2 as (t & E & Hin & Hall); [discriminate|]. exists t. split; [exact E|]. cbn [app] in Hin, Hall. inversion Hall as [|? ? Hh Ht]; subst. split.
      + apply in_or_app. destruct Hin as [<-|Hin]; [left; exact Hx1|right; exact Hin].
      + apply Forall_app. split; [|exact Ht]. eapply Forall_impl; [|exact Hx2]. cbn. intros; lia. }
  destruct (G (filter (addressed_to i) (sent w)) (im_find i (wake_up_times w))) as [G1 G2]. split.
  - intros E. apply G1. now apply map_eq_nil in E.
  - intros E. apply G2. intros X. apply E. now rewrite X.
Qed.
Print Assumptions C16_recipients_are_scheduled.
Example C16_case : well_formed the_world /\ map m_received (filter (addressed_to [2]) (sent the_world)) = [20; 20] /\
  im_find [2] (wake_up_times the_world) = Some 40 /\ im_find [3] (wake_up_times the_world) = None.
Proof. split; [exact the_world_well_formed|]. repeat split. Qed.

(** C17.  Any world, agents and behaviour: who acts, once, with which seed, and what remains. *)
Theorem C17_exactly_the_due_agents_act : forall (St : Type) hash shuffle lower upper n (w : world St) p,
  well_formed w -> act_phase hash shuffle lower upper n w = Ret p ->
  map fst (agents (p_world p)) = map fst (agents w) /\
  forall i a, im_find i (agents w) = Some a ->
   (is_due w lower i -> exists o t, handle shuffle a lower upper (seed_of hash i lower n (w_sample w)) = Ret (o, t) /\ lower <= t /\
      im_find i (agents (p_world p)) = Some (mk_agent (ag_comm a) (ag_act a) (filter (fun x => fst x >? lower) (ag_inbox a)) o) /\
      im_find i (wake_up_times (p_world p)) = Some t) /\
   (~ is_due w lower i -> im_find i (agents (p_world p)) = Some a /\ im_find i (wake_up_times (p_world p)) = im_find i (wake_up_times w)).
Proof. intros St h s lo up n w p Hwf H. destruct (act_phase_spec h s lo up n w p Hwf H) as ((K & _) & _ & A & _). split; [exact K|exact A]. Qed.
Print Assumptions C17_exactly_the_due_agents_act.
(** The work of an agent: its messages, then [act] on what they left; it is woken at the earliest
    time either of them asked for, not before the present. *)
Theorem C17_messages_then_act : forall (St : Type) hash shuffle lower upper n (w : world St) p i a,
  well_formed w -> act_phase hash shuffle lower upper n w = Ret p -> im_find i (agents w) = Some a -> is_due w lower i ->
  exists o1 t1 o2 t2, process_messages (ag_comm a) shuffle lower upper (seed_of hash i lower n (w_sample w)) (ag_inbox a) (ag_own a) = Ret (o1, t1) /\
    ag_act a lower upper (seed_of hash i lower n (w_sample w)) o1 = (o2, t2) /\
    im_find i (wake_up_times (p_world p)) = Some (Z.min t1 t2) /\ lower <= t1 /\ lower <= t2 /\
    exists a', im_find i (agents (p_world p)) = Some a' /\ ag_own a' = o2.
Proof.
  intros St h s lo up n w p i a Hwf H Ha D. destruct (act_phase_spec h s lo up n w p Hwf H) as (_ & _ & A & _).
  destruct (A i a Ha) as [A1 _]. destruct (A1 D) as (o & t & E & L & F & T). unfold handle in E.
  destruct (process_messages _ _ _ _ _ _ _) as [[o1 t1]| |]; try discriminate.
  destruct (ag_act a _ _ _ o1) as [o2 t2] eqn:E2. injection E as <- <-.
  exists o1, t1, o2, t2. split; [reflexivity|]. split; [exact E2|]. split; [exact T|]. split; [lia|]. split; [lia|].
  eexists. split; [exact F|reflexivity].
Qed.
Print Assumptions C17_messages_then_act.
(** The list of jobs has each due agent exactly once. *)
Theorem C17_each_once : forall (St : Type) (w : world St) lower, well_formed w ->
  NoDup (acting w lower) /\ forall i, In i (acting w lower) <-> is_due w lower i.
Proof. intros St w lo Hwf. pose proof (wf_sorted w Hwf) as Hs. split; [now apply acting_nodup|]. intros i. now apply acting_due. Qed.
Print Assumptions C17_each_once.
(** The round does not fail if no due agent does. *)
Theorem C17_round_acts : forall (St : Type) hash shuffle lower upper n (w : world St), well_formed w ->
  (forall i a, is_due w lower i -> im_find i (agents w) = Some a ->
     exists o t, handle shuffle a lower upper (seed_of hash i lower n (w_sample w)) = Ret (o, t) /\ lower <= t) ->
  exists p, act_phase hash shuffle lower upper n w = Ret p.
Proof. intros. now apply act_phase_total. Qed.
Print Assumptions C17_round_acts.
Example C17_case : well_formed the_world /\ is_due the_world 10 [1] /\ is_due the_world 10 [3] /\ ~ is_due the_world 10 [2] /\
  acting the_world 10 = [[1]; [3]] /\ exists p, act_phase h sh 10 100 0 the_world = Ret p.
Proof.
  split; [exact the_world_well_formed|]. split; [split; [discriminate|left; reflexivity]|]. split; [split; [discriminate|right; reflexivity]|].
  split; [intros [_ [H|H]]; discriminate|]. split; [reflexivity|]. eexists. vm_compute. reflexivity.
Qed.

(** C18.  Any number of threads and any interleaving of the atomic parts of the jobs. *)
Theorem C18_any_interleaving_same_result : forall (St : Type) hash shuffle threads lower upper n (w : world St) chunks xs,
  well_formed w -> 1 <= threads -> Z.of_nat (length (acting w lower)) < W64 ->
  thread_chunks threads (acting w lower) = Ret chunks -> interleaving (map (flat_map job) chunks) xs ->
  forall p, run_parts hash shuffle lower upper n (begin_round w lower) xs = Ret p <-> act_phase hash shuffle lower upper n w = Ret p.
Proof. intros. eapply threads_equal; eauto. Qed.
Print Assumptions C18_any_interleaving_same_result.
(** The chunks: as many as threads, contiguous, covering each acting agent once, balanced. *)
Theorem C18_chunks : forall threads (l : list identity), 1 <= threads -> Z.of_nat (length l) < W64 ->
  exists chunks, thread_chunks threads l = Ret chunks /\ concat chunks = l /\ Z.of_nat (length chunks) = threads /\
    forall i j, (i <= j < Z.to_nat threads)%nat -> (length (nth j chunks []) <= length (nth i chunks []) <= length (nth j chunks []) + 1)%nat.
Proof.
  intros threads l Ht Hl. destruct (thread_chunks_spec (fun _ => 0) (fun _ l => l) threads l Ht Hl) as (cs & H1 & H2 & H3 & H4).
  exists cs. split; [exact H1|]. split; [exact H2|]. split; [lia|exact H4].
Qed.
Print Assumptions C18_chunks.
(** Whole steps: what threads can return is what the sequential step returns. *)
Theorem C18_threaded_steps : forall (St : Type) hash shuffle threads lower upper n (w : world St) r,
  well_formed w -> 1 <= threads -> Z.of_nat (length (agents w)) < W64 ->
  (threaded_rounds hash shuffle threads lower upper n w r <-> exists fuel, rounds hash shuffle fuel lower upper n w = Some (Ret r)).
Proof. intros. now apply threaded_rounds_iff. Qed.
Print Assumptions C18_threaded_steps.
Example C18_case : well_formed the_world /\ thread_chunks 2 (acting the_world 10) = Ret [[[1]]; [[3]]] /\
  interleaving (map (flat_map job) [[[1]]; [[3]]]) [Handle [3]; Handle [1]; Schedule [3]; Schedule [1]; Trim [1]; Trim [3]] /\
  exists p, run_parts h sh 10 100 0 (begin_round the_world 10) [Handle [3]; Handle [1]; Schedule [3]; Schedule [1]; Trim [1]; Trim [3]] = Ret p.
Proof.
  split; [exact the_world_well_formed|]. split; [reflexivity|]. split.
  - apply (il_part [_] (Handle [3]) _ []). apply (il_part [] (Handle [1]) _ [_]). apply (il_part [_] (Schedule [3]) _ []). apply (il_part [] (Schedule [1]) _ [_]).
    apply (il_part [] (Trim [1]) _ [_]). apply (il_part [_] (Trim [3]) _ []). constructor. repeat constructor.
  - eexists. vm_compute. reflexivity.
Qed.

(** C19. *)
Theorem C19_step_advances_time : forall (St : Type) hash shuffle fuel lower upper (w w' : world St) t,
  well_formed w -> step hash shuffle fuel lower upper w = Some (Ret (w', t)) ->
  lower < t /\ is_next_event w' t /\ (forall i x, im_find i (wake_up_times w') = Some x -> lower < x) /\
  w_end w' = w_end w /\ well_formed w' /\ map fst (agents w') = map fst (agents w).
Proof.
  intros St h s f lo up w w' t Hwf H. destruct (step_returns h s f lo up w w' t Hwf H) as (_ & H1 & H2 & H3 & [_ H4] & H5 & H6).
  split; [exact H2|]. split; [exact H3|]. split; [exact H4|]. split; [exact H5|]. split; assumption.
Qed.
Print Assumptions C19_step_advances_time.
Theorem C19_empty_interval_rejected : forall (St : Type) hash shuffle fuel lower upper (w : world St),
  upper <= lower -> step hash shuffle fuel lower upper w = Some Throw.
Proof. intros. now apply step_empty. Qed.
Print Assumptions C19_empty_interval_rejected.
Example C19_case : well_formed the_world /\ match step h sh 3 10 100 the_world with Some (Ret (w', t)) => t = 15 /\ wake_up_times w' = [([1], 20); ([2], 15); ([3], 30)] | _ => False end.
Proof. split; [exact the_world_well_formed|]. vm_compute. split; reflexivity. Qed.

(** C20.  If everything lies in the future one round suffices. *)
Theorem C20_future_steps_terminate : forall (St : Type) hash shuffle lower upper (w : world St),
  well_formed w -> lower < upper -> lower < w_end w ->
  (forall i t, im_find i (wake_up_times w) = Some t -> lower < t \/ (t = lower /\ local w i)) ->
  produces_future hash shuffle lower upper 0 w ->
  exists w' t, forall fuel, step hash shuffle (S fuel) lower upper w = Some (Ret (w', t)).
Proof. intros. now apply step_one_round. Qed.
Print Assumptions C20_future_steps_terminate.
(** Instant messages are allowed as long as some rank decreases (an invariant-style criterion). *)
Theorem C20_ranked_steps_terminate : forall (St : Type) hash shuffle (Inv : world St -> Prop) (rank : world St -> nat) lower upper, lower < upper ->
  (forall n w, Inv w -> exists w' t, round hash shuffle lower upper n w = Ret (w', t) /\ (lower < t \/ (Inv w' /\ (rank w' < rank w)%nat))) ->
  forall w, Inv w -> exists w' t, step hash shuffle (S (rank w)) lower upper w = Some (Ret (w', t)).
Proof. intros. eapply ranked; eauto. Qed.
Print Assumptions C20_ranked_steps_terminate.
(** A wake-up before the present, one of an agent that does not exist, or a present at the end of
    the simulation is never resolved: the step does not return, whatever the agents do. *)
Theorem C20_stuck_steps_never_return : forall (St : Type) hash shuffle lower upper (w : world St),
  well_formed w -> stuck w lower -> forall fuel r, step hash shuffle fuel lower upper w <> Some (Ret r).
Proof. intros. now apply stuck_forever. Qed.
Print Assumptions C20_stuck_steps_never_return.
(** Nothing checks delivery times: one message dated before the present, sent in an ordinary
    world by an agent that asks for a wake-up in the future, hangs the step. *)
Definition late_sender : action (St:=list Z) := fun lower _ _ o => ((fst o, snd o ++ [mail 1 2 (lower - 1) 42]), lower + 10).
Definition late_world : world (list Z) :=
  mk_world [([1], mk_agent logger late_sender [] ([], [])); ([2], mk_agent logger no_act [] ([], []))] [([1], 10); ([2], 40)] 100 0.
Lemma late_world_well_formed : well_formed late_world.
Proof. split; [|split]; [repeat constructor| repeat constructor|]. repeat constructor. Qed.
Theorem C20_step_terminates_refuted : exists (w : world (list Z)) lower upper, well_formed w /\ lower < upper /\ lower < w_end w /\
  (forall i t, im_find i (wake_up_times w) = Some t -> lower <= t /\ local w i) /\
  forall fuel r, step h sh fuel lower upper w <> Some r.
Proof.
  exists late_world, 10, 100. split; [exact late_world_well_formed|]. split; [lia|]. split; [cbn; lia|]. split.
  - intros i t H. apply im_find_in in H; [|repeat constructor]. cbn in H. destruct H as [[= <- <-]|[[= <- <-]|[]]]; (split; [lia|discriminate]).
  - intros fuel r. unfold step. replace (Interval.ti_empty 10 100) with false by reflexivity.
    destruct fuel as [|fuel]; [discriminate|]. cbn [rounds].
    assert (E : exists w1, round h sh 10 100 0 late_world = Ret (w1, 9) /\ acting w1 10 = [] /\ im_find [2] (wake_up_times w1) = Some 9 /\ sent w1 = [] /\ well_formed w1).
    { destruct (round h sh 10 100 0 late_world) as [[w1 f]| |] eqn:E; [|vm_compute in E; discriminate|vm_compute in E; discriminate].
      pose proof (round_spec h sh 10 100 0 late_world w1 f late_world_well_formed E) as (W & _). vm_compute in E. injection E as <- <-.
      eexists. split; [reflexivity|]. repeat split; try reflexivity; apply W. }
    destruct E as (w1 & -> & A & B & C & W). change (10 >=? 9) with true. cbn [negb].
    (* from here on rounds in which nobody acts, and 2 is still scheduled in the past *)
    assert (G : forall fuel n w, well_formed w -> acting w 10 = [] -> im_find [2] (wake_up_times w) = Some 9 -> sent w = [] -> rounds h sh fuel 10 100 n w <> Some r).
    { clear. induction fuel as [|fuel IH]; intros n w W A B C; cbn [rounds]; [discriminate|]. unfold round.
      assert (Hs := wf_sorted w W). unfold act_phase. rewrite A. cbn [flat_map run_parts].
      assert (Ew : wake_up_times (schedule_new w 10) = wake_up_times w).
      { apply im_ext; [apply (begin_sorted w 10 Hs)|apply Hs|]. intros i. rewrite schedule_new_find by exact Hs. destruct (im_find i (wake_up_times w)) eqn:Ei; [reflexivity|].
        destruct (is_in (map fst (agents w)) i) eqn:X; [|reflexivity]. exfalso. assert (D : In i (acting w 10)); [|rewrite A in D; exact D].
        apply acting_due; [exact Hs|]. split; [|right; exact Ei]. apply local_in; [apply Hs|]. now apply is_in_iff. }
      assert (Ws : well_formed (schedule_new w 10)).
      { destruct W as (W1 & W2 & W3). split; [exact W1|]. split; [rewrite Ew; exact W2|exact W3]. }
      unfold finish_round. cbn [p_world begin_round p_first].
      destruct (sent_nil_send (schedule_new w 10) (wf_sorted _ Ws) C) as (w2 & E2 & T2 & _). rewrite E2. change (0 <? 0) with false. cbv iota.
      pose proof (send_wf _ _ _ Ws E2) as W2. destruct (send_ret _ _ _ (wf_sorted _ Ws) E2) as (_ & _ & _ & K & _ & _ & A2 & _).
      assert (H9 : determine_next_event w <= 9). { destruct (next_event_spec w Hs) as (_ & _ & H). exact (H _ _ B). }
      destruct (10 >=? determine_next_event w) eqn:G; [|lia]. apply IH; [exact W2| | |].
      - assert (N : forall i, ~ In i (acting w2 10)); [|destruct (acting w2 10) as [|x l]; [reflexivity|exfalso; apply (N x); left; reflexivity]].
        intros i Hi. assert (D : In i (acting w 10)); [|rewrite A in D; exact D]. apply acting_due in Hi; [|now apply wf_sorted]. apply acting_due; [exact Hs|].
        destruct Hi as [L D]. rewrite T2, Ew in D. split; [|exact D]. apply (same_local w2 w); [now apply wf_sorted|exact Hs|exact K|exact L].
      - rewrite T2, Ew. exact B.
      - destruct (C15_exactly_once_delivery _ _ _ _ Ws E2) as (_ & _ & _ & X & _). exact X. }
    now apply G.
Qed.
Print Assumptions C20_step_terminates_refuted.
(** A world meeting all hypotheses of [C20_future_steps_terminate]. *)
Definition calm_world : world (list Z) :=
  mk_world [([1], mk_agent logger (greets 2) [(10, mail 9 1 10 3)] ([], [])); ([2], mk_agent logger no_act [] ([], []))] [([1], 10); ([2], 40)] 100 0.
Example C20_future_case : well_formed calm_world /\ 10 < 100 /\ 10 < w_end calm_world /\ is_due calm_world 10 [1] /\
  (forall i t, im_find i (wake_up_times calm_world) = Some t -> 10 < t \/ (t = 10 /\ local calm_world i)) /\
  produces_future h sh 10 100 0 calm_world.
Proof.
  split; [split; [|split]; repeat constructor|]. split; [lia|]. split; [cbn; lia|]. split; [split; [discriminate|left; reflexivity]|]. split; [|split].
  - intros i t H. apply im_find_in in H; [|repeat constructor]. cbn in H. destruct H as [[= <- <-]|[[= <- <-]|[]]]; [right; split; [reflexivity|discriminate]|left; lia].
  - intros i a [_ D] H. apply im_find_in in H; [|repeat constructor]. cbn in H. destruct H as [[= <- <-]|[[= <- <-]|[]]].
    + eexists. eexists. split; [vm_compute; reflexivity|]. split; [lia|]. repeat constructor; cbn; try lia. discriminate.
    + exfalso. destruct D; discriminate.
  - intros i a _ H. apply im_find_in in H; [|repeat constructor]. cbn in H. destruct H as [[= <- <-]|[[= <- <-]|[]]]; reflexivity.
Qed.
Example C20_stuck_case : well_formed (mk_world (agents calm_world) [([1], 10); ([7], 5)] 100 0) /\ stuck (mk_world (agents calm_world) [([1], 10); ([7], 5)] 100 0) 10.
Proof. split; [split; [|split]; repeat constructor|]. right. exists [7], 5. split; [reflexivity|left; lia]. Qed.

(** C21. *)
Theorem C21_run_visits_increasing_times : forall (St : Type) hash shuffle fuel start (w w' : world St) ts,
  well_formed w -> run_from hash shuffle fuel start w = Some (Ret (w', ts)) ->
  visited hash shuffle w ts w' /\ StronglySorted Z.lt ts /\ hd_error ts = Some start /\
  Forall (fun t => start <= t < w_end w) ts /\
  (forall i t, im_find i (wake_up_times w') = Some t -> w_end w <= t).
Proof.
  intros St h s f st w w' ts Hwf H. destruct (run_spec h s f st w w' ts Hwf H) as (A & B & C & D & E).
  split; [exact A|]. split; [exact B|]. split; [exact D|]. split; [exact C|exact E].
Qed.
Print Assumptions C21_run_visits_increasing_times.
Theorem C21_empty_run_rejected : forall (St : Type) hash shuffle fuel start (w : world St),
  w_end w <= start -> run_from hash shuffle (S fuel) start w = Some Throw.
Proof. intros. now apply run_rejects. Qed.
Print Assumptions C21_empty_run_rejected.
Example C21_case : well_formed calm_world /\
  match run_from h sh 50 10 calm_world with Some (Ret (_, ts)) => ts = [10; 15; 20; 25; 30; 35; 40; 45; 50; 55; 60; 65; 70; 75; 80; 85; 90; 95] | _ => False end.
Proof. split; [split; [|split]; repeat constructor|]. vm_compute. reflexivity. Qed.
