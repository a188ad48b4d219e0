From Verif Require Import Base Identity Identity_proofs IdMap IdMap_proofs Multimap Multimap_proofs Communicator Communicator_spec Communicator_proofs
  Simulation Simulation_spec Simulation_proofs Simulation_proofs2 Simulation_proofs3 Walras Markets Messages Sessions Sessions_spec.
From Coq Require Import ZifyBool ZifyNat.

(** ** A whole round *)
Section Round.
Context {St : Type} (hash : identity -> Z) (shuffle : seed -> list message -> list message).
Implicit Types (w : world St).
Lemma in_concat' {X} (x : X) ls : In x (concat ls) <-> exists l, In l ls /\ In x l.
Proof.
  induction ls as [|l ls IH]; cbn; [split; [intros []|intros (? & [] & _)]|]. rewrite in_app_iff, IH. split.
  - intros [H|(k & H1 & H2)]; [exists l; auto|exists k; auto].
  - intros (k & [->|H1] & H2); [auto|right; eauto].
Qed.
(** [turn i] is what agent [i] has after its turn, with the time it asks for, if it acts. *)
Lemma whole_round lower upper n w (turn : identity -> option (@own St * Z)) : well_formed w ->
  (forall i a, im_find i (agents w) = Some a ->
     match turn i with
     | Some (o, t) => is_due w lower i /\ handle shuffle a lower upper (seed_of hash i lower n (w_sample w)) = Ret (o, t) /\ lower <= t /\ Forall (fun m => local w (m_recipient m)) (snd o)
     | None => ~ is_due w lower i /\ ag_outbox a = []
     end) ->
  exists w' f, round hash shuffle lower upper n w = Ret (w', f) /\ well_formed w' /\ is_next_event w' f /\ w_end w' = w_end w /\ map fst (agents w') = map fst (agents w) /\
    let mail := concat (map (fun i => match turn i with Some (o, _) => snd o | None => [] end) (map fst (agents w))) in
    (forall i a, im_find i (agents w) = Some a ->
       match turn i with
       | Some (o, t) => im_find i (agents w') = Some (mk_agent (ag_comm a) (ag_act a) (insert_all (filter (addressed_to i) mail) (filter (fun x => fst x >? lower) (ag_inbox a))) (fst o, [])) /\
           im_find i (wake_up_times w') = wake_up_after (Some t) (filter (addressed_to i) mail)
       | None => im_find i (agents w') = Some (mk_agent (ag_comm a) (ag_act a) (insert_all (filter (addressed_to i) mail) (ag_inbox a)) (fst (ag_own a), [])) /\
           im_find i (wake_up_times w') = wake_up_after (im_find i (wake_up_times w)) (filter (addressed_to i) mail)
       end) /\
    (forall i, ~ local w i -> im_find i (agents w') = None /\ im_find i (wake_up_times w') = im_find i (wake_up_times w)).
Proof.
  intros Hwf H. pose proof (wf_sorted w Hwf) as Hs.
  destruct (act_phase_total hash shuffle lower upper n w Hwf) as (p & Ep).
  { intros i a Di Ha. specialize (H i a Ha). destruct (turn i) as [[o t]|]; [exists o, t; tauto|tauto]. }
  destruct (act_phase_spec _ _ _ _ _ _ _ Hwf Ep) as ((K & N & P) & Sp & HA & HN). pose proof (act_wf _ _ _ _ _ _ _ Hwf Ep) as Hwp. pose proof (wf_sorted _ Hwp) as Hsp.
  change (map fst (agents (p_world p)) = map fst (agents w)) in K.
  assert (Em : sent (p_world p) = concat (map (fun i => match turn i with Some (o, _) => snd o | None => [] end) (map fst (agents w)))).
  { unfold sent. rewrite <- K, map_map. f_equal. apply map_ext_in. intros [i a'] Hi. cbn [fst snd]. apply im_find_in in Hi; [|apply Hsp].
    destruct (im_find i (agents w)) as [a|] eqn:Ha; [|destruct (HN i) as [E _]; [unfold local; congruence|congruence]].
    specialize (H i a Ha). destruct (HA i a Ha) as [H1 H2]. destruct (turn i) as [[o t]|].
    - destruct H as (D & Eh & _). destruct (H1 D) as (o' & t' & Eh' & _ & Ei & _). rewrite Eh in Eh'. injection Eh' as <- <-. rewrite Ei in Hi. injection Hi as <-. reflexivity.
    - destruct H as [D Eo]. destruct (H2 D) as [Ei _]. rewrite Ei in Hi. injection Hi as <-. exact Eo. }
  destruct (send_spec (p_world p) Hsp) as [_ Hsend]. destruct Hsend as (w' & Ew & S' & K' & N' & P' & A' & T').
  { intros m Hm. apply (same_local w (p_world p)); [exact Hs|exact Hsp|symmetry; exact K|]. rewrite Em in Hm. apply in_concat' in Hm. destruct Hm as (l & Hl & Hm). apply in_map_iff in Hl. destruct Hl as (i & <- & Hi).
    apply local_in in Hi; [|apply Hs]. unfold local in Hi. destruct (im_find i (agents w)) as [a|] eqn:Ha; [|contradiction]. specialize (H i a Ha).
    destruct (turn i) as [[o t]|]; [|destruct Hm]. destruct H as (_ & _ & _ & F). rewrite Forall_forall in F. now apply F. }
  assert (Er : exists f, round hash shuffle lower upper n w = Ret (w', f)). { unfold Simulation.round, finish_round. rewrite Ep, Ew. eexists. reflexivity. }
  destruct Er as (f & Er). exists w', f. split; [exact Er|]. destruct (round_spec _ _ _ _ _ _ _ _ Hwf Er) as (W' & F' & E' & KK). split; [exact W'|]. split; [rewrite F'; now apply next_event_spec|].
  split; [exact E'|]. split; [exact KK|]. cbn zeta. rewrite <- Em. split.
  - intros i a Ha. specialize (H i a Ha). destruct (HA i a Ha) as [H1 H2]. rewrite A', T'. destruct (turn i) as [[o t]|].
    + destruct H as (D & Eh & _). destruct (H1 D) as (o' & t' & Eh' & _ & Ei & Et). rewrite Eh in Eh'. injection Eh' as <- <-. rewrite Ei, Et. split; reflexivity.
    + destruct H as [D Eo]. destruct (H2 D) as [Ei Et]. rewrite Ei, Et. split; reflexivity.
  - intros i L. destruct (HN i L) as [Ei Et]. rewrite A', T', Ei, Et. split; [reflexivity|].
    assert (X : filter (addressed_to i) (sent (p_world p)) = []); [|rewrite X; reflexivity].
    apply Multimap_proofs.filter_none. apply Forall_forall. intros m Hm. unfold addressed_to. destruct (id_eqb (m_recipient m) i) eqn:Ex; [|reflexivity]. exfalso. apply id_eqb_eq in Ex.
    rewrite Em in Hm. apply in_concat' in Hm. destruct Hm as (l & Hl & Hm). apply in_map_iff in Hl. destruct Hl as (j & <- & Hj).
    apply local_in in Hj; [|apply Hs]. unfold local in Hj. destruct (im_find j (agents w)) as [a|] eqn:Ha; [|contradiction]. specialize (H j a Ha).
    destruct (turn j) as [[o t]|]; [|destruct Hm]. destruct H as (_ & _ & _ & F). rewrite Forall_forall in F. apply L. rewrite <- Ex. now apply F.
Qed.
End Round.
