(** C223, C228: copies of agents. *)
From Coq Require Import ZifyBool ZifyNat Permutation Sorting.Sorted.
From Verif Require Import Base Identity Identity_proofs Multimap Multimap_proofs Communicator Copies.

Lemma copy_unlocked {A} rs : forall c : communicator A, locked c = false -> exists c', enlist rs c = Ret c' /\ random c' = random c /\ locked c' = false.
Proof.
  induction rs as [|[[t p] f] rs IH]; intros c L; cbn [enlist]; [eauto|]. unfold register. rewrite L.
  destruct (IH (mk_communicator (fm_set t (mm_insert p f match fm_find t (callbacks c) with Some fs => fs | None => [] end) (callbacks c)) false (random c)) eq_refl) as (c' & E & R & L').
  exists c'. auto.
Qed.
(** A copy of an agent has its identity, but none of its callbacks: whatever messages are delivered to it, nothing happens... *)
Theorem C223_deaf_refuted {A} (a : agent A) ms shuffle lower upper s :
  respond shuffle lower upper s (fold_left (fun b m => deliver m b) ms (copy a)) = Ret (a_derived a, upper) /\
  a_identity (fold_left (fun b m => deliver m b) ms (copy a)) = a_identity a.
Proof.
  assert (G : forall ms (b : agent A), callbacks (a_communicator b) = [] -> let b' := fold_left (fun b m => deliver m b) ms b in
    callbacks (a_communicator b') = [] /\ a_derived b' = a_derived b /\ a_identity b' = a_identity b).
  { clear. induction ms as [|m ms IH]; intros b E; cbn [fold_left]; cbv zeta; [auto|]. destruct (IH (deliver m b) E) as (H1 & H2 & H3). auto. }
  destruct (G ms (copy a) eq_refl) as (E & D & I). split; [|exact I]. unfold respond, process_messages, handling_order. cbn [copy a_derived] in D. rewrite D.
  assert (B : forall inbox, by_priority (a_communicator (fold_left (fun b m => deliver m b) ms (copy a))) lower inbox [] = []).
  { induction inbox as [|[k m] inbox IH]; cbn [by_priority]; [reflexivity|]. destruct (k >? lower); [reflexivity|]. rewrite E. exact IH. }
  now rewrite B.
Qed.
Print Assumptions C223_deaf_refuted.
(** ...and messages that were waiting for the agent are not for the copy: even with callbacks it does nothing. *)
Theorem C223_waiting_refuted {A} rs (a b : agent A) shuffle lower upper s :
  register_again rs (copy a) = Ret b -> respond shuffle lower upper s b = Ret (a_derived a, upper).
Proof.
  intros H. unfold register_again in H. destruct (enlist rs (a_communicator (copy a))) as [c| |]; try discriminate. injection H as <-. reflexivity.
Qed.
Print Assumptions C223_waiting_refuted.
(** If the callbacks are registered again, it responds to any messages as the agent would have, had it received the same. *)
Theorem C223_registered {A} i schedule rs (d : A) a b ms shuffle lower upper s :
  construct i schedule rs d = Ret a -> register_again rs (copy a) = Ret b ->
  respond shuffle lower upper s (fold_left (fun x m => deliver m x) ms b) = respond shuffle lower upper s (fold_left (fun x m => deliver m x) ms a).
Proof.
  unfold construct, register_again. intros Ha Hb. destruct (enlist rs (new_communicator schedule)) as [c| |] eqn:E; try discriminate. injection Ha as <-.
  destruct (copy_unlocked rs (new_communicator schedule) eq_refl) as (c' & E' & R & _). rewrite E in E'. injection E' as <-. cbn [copy a_communicator] in Hb. cbn [new_communicator random] in R. rewrite R, E in Hb. injection Hb as <-. reflexivity.
Qed.
Print Assumptions C223_registered.
Lemma and_assoc_swap (P Q R : Prop) : P /\ Q /\ R <-> (P /\ Q) /\ R.
Proof. tauto. Qed.
(** And it has received exactly the messages delivered to it since, each once, in the order of their times; they are what it
    processes. *)
Theorem C223_received {A} rs (a b : agent A) ms shuffle lower upper s :
  register_again rs (copy a) = Ret b ->
  let inbox := a_inbox (fold_left (fun x m => deliver m x) ms b) in
  Permutation inbox (map (fun m => (m_received m, m)) ms) /\ StronglySorted (fun x y => fst x <= fst y) inbox /\
  respond shuffle lower upper s (fold_left (fun x m => deliver m x) ms b) = process_messages (a_communicator b) shuffle lower upper s inbox (a_derived a).
Proof.
  intros H. unfold register_again in H. destruct (enlist rs (a_communicator (copy a))) as [c| |]; try discriminate. injection H as <-. cbv zeta.
  assert (G : forall ms (x : agent A), StronglySorted key_le (a_inbox x) -> let inbox := a_inbox (fold_left (fun x m => deliver m x) ms x) in
    Permutation inbox (a_inbox x ++ map (fun m => (m_received m, m)) ms) /\ StronglySorted key_le inbox).
  { clear. induction ms as [|m ms IH]; intros x S; cbn [fold_left map]; cbv zeta; [rewrite app_nil_r; auto|].
    destruct (IH (deliver m x) (mm_insert_sorted _ _ _ S)) as (P & T). split; [|exact T]. rewrite P. cbn [deliver a_inbox].
    rewrite mm_insert_perm, <- app_assoc. reflexivity. }
  assert (R : forall ms (x : agent A), let y := fold_left (fun x m => deliver m x) ms x in a_communicator y = a_communicator x /\ a_derived y = a_derived x).
  { clear. induction ms as [|m ms IH]; intros x; cbn [fold_left]; cbv zeta; [auto|]. destruct (IH (deliver m x)) as (-> & ->). auto. }
  rewrite and_assoc_swap. split.
  2:{ unfold respond. match goal with |- context [fold_left ?f ms ?x] => destruct (R ms x) as (-> & ->) end. reflexivity. }
  exact (G ms (mk_agent (a_identity (copy a)) c (a_inbox (copy a)) (a_outbox (copy a)) (a_outputs (copy a)) (a_derived (copy a))) (SSorted_nil _)).
Qed.
Print Assumptions C223_received.
(** An agent that counts messages of type 7. *)
Definition demo_count : callback Z := fun m lower upper s n => (n + 1, upper).
Example C223_case :
  let m := mk_message 7 [2] [1] 0 3 0 in
  exists a b, construct [1] false [(7, 0, demo_count)] 5 = Ret a /\ register_again [(7, 0, demo_count)] (copy a) = Ret b /\
  respond (fun _ l => l) 3 4 [] (deliver m a) = Ret (6, 4) /\ respond (fun _ l => l) 3 4 [] (deliver m (copy a)) = Ret (5, 4) /\
  respond (fun _ l => l) 3 4 [] (deliver m b) = Ret (6, 4) /\ copy (deliver m a) = copy a.
Proof. do 2 eexists. split; [reflexivity|]. split; [reflexivity|]. vm_compute. auto. Qed.

(** An output created by an agent is found under its name, but not on a copy. *)
Theorem C228_outputs_refuted {A} name (a : agent A) : 
  (forall s, exists b, add_output_stream name s (create_output name a) = Ret b) /\ (forall s, add_output_stream name s (copy (create_output name a)) = Throw).
Proof.
  split; [|reflexivity]. intros s. unfold add_output_stream. assert (existsb (fun o => id_eqb (fst o) name) (a_outputs (create_output name a)) = true) as ->; [|eauto].
  unfold create_output. cbn [a_outputs]. destruct (existsb (fun o => id_eqb (fst o) name) (a_outputs a)) eqn:E; [exact E|]. rewrite existsb_app. cbn [existsb fst].
  assert (id_eqb name name = true) as -> by now apply id_eqb_eq. apply orb_true_r.
Qed.
Print Assumptions C228_outputs_refuted.
(** It has exactly the outputs that are created on the copy. *)
Theorem C228_created {A} names name s (a : agent A) :
  (exists b, add_output_stream name s (fold_left (fun x n => create_output n x) names (copy a)) = Ret b) <-> In name names.
Proof.
  assert (G : forall names (b : agent A), existsb (fun o => id_eqb (fst o) name) (a_outputs (fold_left (fun x n => create_output n x) names b)) = true <->
    existsb (fun o => id_eqb (fst o) name) (a_outputs b) = true \/ In name names).
  { clear. induction names as [|n names IH]; intros b; cbn [fold_left]; [cbn; tauto|]. rewrite IH. unfold create_output. cbn [a_outputs In].
    destruct (existsb (fun o => id_eqb (fst o) n) (a_outputs b)) eqn:E.
    - split; [tauto|]. intros [|[->|]]; auto.
    - rewrite existsb_app. cbn [existsb fst]. rewrite orb_false_r, orb_true_iff, id_eqb_eq. tauto. }
  specialize (G names (copy a)). unfold add_output_stream. set (b := fold_left (fun x n => create_output n x) names (copy a)) in *.
  destruct (existsb (fun o => id_eqb (fst o) name) (a_outputs b)) eqn:E.
  - split; [|eauto]. intros _. destruct (proj1 G eq_refl); [discriminate|assumption].
  - split; [intros (c & Q); discriminate|]. intros I. specialize (proj2 G (or_intror I)). discriminate.
Qed.
Print Assumptions C228_created.
Example C228_case :
  exists a b, construct [1] false [] 5 = Ret a /\ add_output_stream [7] 3 (create_output [8] (create_output [7] a)) = Ret b /\ a_outputs b = [([7], [3]); ([8], [])] /\
  add_output_stream [7] 3 (copy b) = Throw /\ exists c, add_output_stream [7] 4 (create_output [7] (copy b)) = Ret c /\ a_outputs c = [([7], [4])] /\ a_identity c = a_identity b.
Proof. do 2 eexists. split; [reflexivity|]. split; [reflexivity|]. split; [reflexivity|]. split; [reflexivity|]. eexists. split; [reflexivity|]. auto. Qed.
