(** A round of a simulation in which it is known what every acting agent does. *)
From Verif Require Import Base Interval Identity Identity_proofs IdMap IdMap_proofs Multimap Multimap_proofs Communicator Communicator_spec Communicator_proofs
  Simulation Simulation_spec Simulation_proofs Simulation_proofs2 Simulation_proofs3.
From Coq Require Import ZifyBool ZifyNat.

Section Known.
Context {St : Type} (hash : identity -> Z) (shuffle : seed -> list message -> list message).
Implicit Types (w : world St).
Lemma one_speaker (m : idmap (agent St)) i a : im_sorted m -> im_find i m = Some a -> (forall j b, j <> i -> im_find j m = Some b -> ag_outbox b = []) ->
  concat (map (fun x => ag_outbox (snd x)) m) = ag_outbox a.
Proof.
  intros S F H. assert (H' : forall j b, j <> i -> In (j, b) m -> ag_outbox b = []) by (intros j b Hj Hin; apply (H j b Hj); now apply im_find_in).
  apply im_find_in in F; [|exact S]. pose proof (im_keys_nodup m S) as N. clear S H. induction m as [|[j b] m IH]; [contradiction|]. cbn [map concat snd]. cbn [map fst] in N. apply NoDup_cons_iff in N. destruct N as [N1 N].
  destruct F as [[= -> ->]|F].
  - assert (X : concat (map (fun x => ag_outbox (snd x)) m) = []); [|rewrite X; apply app_nil_r]. clear IH N. induction m as [|[k c] m IHm]; [reflexivity|]. cbn [map concat snd]. rewrite (H' k c), IHm; [reflexivity| | |intros ->; apply N1; now left|right; now left].
    + intros Hi. apply N1. now right.
    + intros k' c' Hk Hc. apply (H' k' c' Hk). destruct Hc as [Hc|Hc]; [now left|right; now right].
  - rewrite (H' j b); [|intros ->; apply N1, in_map_iff; exists (i, a); now split|now left]. apply IH; [exact F| |exact N]. intros k c Hk Hc. apply (H' k c Hk). now right.
Qed.
Lemma sent_in w m : sorted_world w -> (In m (sent w) <-> exists i a, im_find i (agents w) = Some a /\ In m (ag_outbox a)).
Proof.
  intros [S _]. unfold sent. rewrite in_concat. split.
  - intros (l & Hl & Hm). apply in_map_iff in Hl. destruct Hl as ([i a] & <- & Hi). exists i, a. split; [now apply im_find_in|exact Hm].
  - intros (i & a & Hi & Hm). exists (ag_outbox a). split; [|exact Hm]. apply im_find_in in Hi; [|exact S]. apply in_map_iff. exists (i, a). now split.
Qed.
Lemma stuck_rounds fuel lower upper : forall n w r, well_formed w -> stuck w lower -> rounds hash shuffle fuel lower upper n w <> Some (Ret r).
Proof.
  induction fuel as [|fuel IH]; intros n w r Hwf Hst; cbn [rounds]; [discriminate|]. destruct (round hash shuffle lower upper n w) as [[w1 f]| |] eqn:E; [|discriminate|discriminate].
  pose proof (stuck_round _ _ _ _ _ _ _ _ Hwf Hst E) as H1. destruct (round_spec _ _ _ _ _ _ _ _ Hwf E) as (W1 & F1 & _).
  destruct (lower >=? f) eqn:G; [now apply IH|]. exfalso. assert (Q : quiet w1 lower) by (apply (quiet_next w1 lower f); [rewrite F1; apply next_event_spec; now apply wf_sorted|lia]).
  destruct Q as [Q1 Q2]. destruct H1 as [H1|(i & t & Hi & Ht)]; [lia|]. specialize (Q2 i t Hi). lia.
Qed.
Context (res : identity -> agent St -> @own St * Z).
Definition done (lower : Z) (i : identity) (a : agent St) : agent St := mk_agent (ag_comm a) (ag_act a) (filter (fun x => fst x >? lower) (ag_inbox a)) (fst (res i a)).
Lemma known_round lower upper n w : well_formed w ->
  (forall i a, is_due w lower i -> im_find i (agents w) = Some a -> handle shuffle a lower upper (seed_of hash i lower n (w_sample w)) = Ret (res i a) /\ lower <= snd (res i a)) ->
  (forall i a, ~ is_due w lower i -> im_find i (agents w) = Some a -> ag_outbox a = []) ->
  (forall i a m, is_due w lower i -> im_find i (agents w) = Some a -> In m (snd (fst (res i a))) -> local w (m_recipient m)) ->
  exists w' f ms, round hash shuffle lower upper n w = Ret (w', f) /\ well_formed w' /\ is_next_event w' f /\ w_end w' = w_end w /\ w_sample w' = w_sample w /\
    (forall m, In m ms <-> exists i a, is_due w lower i /\ im_find i (agents w) = Some a /\ In m (snd (fst (res i a)))) /\
    (forall i a, is_due w lower i -> im_find i (agents w) = Some a -> (forall j b, j <> i -> is_due w lower j -> im_find j (agents w) = Some b -> snd (fst (res j b)) = []) -> ms = snd (fst (res i a))) /\
    (forall i a, im_find i (agents w) = Some a ->
      (is_due w lower i -> im_find i (agents w') = Some (cleared (with_mail (filter (addressed_to i) ms) (done lower i a))) /\
         im_find i (wake_up_times w') = wake_up_after (Some (snd (res i a))) (filter (addressed_to i) ms)) /\
      (~ is_due w lower i -> im_find i (agents w') = Some (cleared (with_mail (filter (addressed_to i) ms) a)) /\
         im_find i (wake_up_times w') = wake_up_after (im_find i (wake_up_times w)) (filter (addressed_to i) ms))) /\
    (forall i, im_find i (agents w) = None -> im_find i (agents w') = None /\ im_find i (wake_up_times w') = im_find i (wake_up_times w)).
Proof.
  intros Hwf HR HO HL. pose proof (wf_sorted w Hwf) as Hs. destruct (act_phase_total hash shuffle lower upper n w Hwf) as [p Ep].
  { intros i a D F. destruct (HR i a D F) as [H1 H2]. destruct (res i a) as [o t] eqn:E. exists o, t. split; [exact H1|exact H2]. }
  pose proof (act_wf _ _ _ _ _ _ _ Hwf Ep) as Hwp. pose proof (wf_sorted _ Hwp) as Hsp. destruct (act_phase_spec _ _ _ _ _ _ _ Hwf Ep) as (Fr & _ & HA & HN).
  assert (P1 : forall i a, is_due w lower i -> im_find i (agents w) = Some a -> im_find i (agents (p_world p)) = Some (done lower i a) /\ im_find i (wake_up_times (p_world p)) = Some (snd (res i a))).
  { intros i a D F. destruct (HA i a F) as [H1 _]. destruct (H1 D) as (o & t & Eh & _ & Ef & Ew). destruct (HR i a D F) as [H2 _]. rewrite H2 in Eh. injection Eh as E. unfold done. rewrite E. cbn [fst snd]. split; assumption. }
  assert (P2 : forall i a, ~ is_due w lower i -> im_find i (agents w) = Some a -> im_find i (agents (p_world p)) = Some a /\ im_find i (wake_up_times (p_world p)) = im_find i (wake_up_times w)).
  { intros i a D F. destruct (HA i a F) as [_ H2]. exact (H2 D). }
  assert (Back : forall i a', im_find i (agents (p_world p)) = Some a' -> exists a, im_find i (agents w) = Some a /\ ((is_due w lower i /\ a' = done lower i a) \/ (~ is_due w lower i /\ a' = a))).
  { intros i a' F. destruct (im_find i (agents w)) as [a|] eqn:E; [|destruct (HN i) as [X _]; [unfold local; congruence|congruence]]. exists a. split; [reflexivity|].
    destruct (due_dec w lower i Hs) as [D|D]; [left; split; [exact D|]; destruct (P1 i a D E); congruence|right; split; [exact D|]; destruct (P2 i a D E); congruence]. }
  assert (In_iff : forall m, In m (sent (p_world p)) <-> exists i a, is_due w lower i /\ im_find i (agents w) = Some a /\ In m (snd (fst (res i a)))).
  { intros m. rewrite (sent_in _ m Hsp). split.
    - intros (i & a' & F & Hm). destruct (Back i a' F) as (a & E & [[D ->]|[D ->]]); [exists i, a; split; [exact D|split; [exact E|exact Hm]]|]. rewrite (HO i a D E) in Hm. contradiction.
    - intros (i & a & D & F & Hm). exists i, (done lower i a). split; [apply (P1 i a D F)|exact Hm]. }
  assert (Loc : forall m, In m (sent (p_world p)) -> local (p_world p) (m_recipient m)).
  { intros m Hm. apply In_iff in Hm. destruct Hm as (i & a & D & F & Hm). pose proof (HL i a m D F Hm) as L. unfold local in *. destruct (im_find (m_recipient m) (agents w)) as [b|] eqn:E; [|now contradiction L].
    destruct (due_dec w lower (m_recipient m) Hs) as [D'|D']; [destruct (P1 _ b D' E) as [X _]|destruct (P2 _ b D' E) as [X _]]; rewrite X; discriminate. }
  destruct (send_spec (p_world p) Hsp) as [_ HS]. destruct (HS Loc) as (w' & Es & S' & K & Ne & Ns & A & T). clear HS.
  assert (Er : round hash shuffle lower upper n w = Ret (w', if 0 <? Z.of_nat (length (sent (p_world p))) then determine_next_event w' else p_first p)) by (unfold round; rewrite Ep; unfold finish_round; now rewrite Es).
  destruct (round_spec _ _ _ _ _ _ _ _ Hwf Er) as (Wf' & Ef & En & _).
  eexists w', _, (sent (p_world p)). split; [exact Er|]. split; [exact Wf'|]. split; [rewrite Ef; apply next_event_spec; now apply wf_sorted|]. split; [exact En|]. split; [rewrite Ns; apply Fr|]. split; [exact In_iff|]. split; [|split].
  - intros i a D F O. unfold sent. apply (one_speaker _ i (done lower i a)); [apply Hsp|apply (P1 i a D F)|]. intros j b Hj Hb. destruct (Back j b Hb) as (b0 & E & [[D' ->]|[D' ->]]); [exact (O j b0 Hj D' E)|exact (HO j b0 D' E)].
  - intros i a F. split; intros D; rewrite A, T; [destruct (P1 i a D F) as [-> ->]|destruct (P2 i a D F) as [-> ->]]; split; reflexivity.
  - intros i F. destruct (HN i) as [X Y]; [unfold local; congruence|]. rewrite A, T, X. split; [reflexivity|]. rewrite Y.
    assert (Q : filter (addressed_to i) (sent (p_world p)) = []); [|rewrite Q; reflexivity]. destruct (filter (addressed_to i) (sent (p_world p))) as [|m l] eqn:E; [reflexivity|]. exfalso. assert (Hm : In m (filter (addressed_to i) (sent (p_world p)))) by (rewrite E; now left).
    apply filter_In in Hm. destruct Hm as [Hm Hi]. unfold addressed_to in Hi. apply id_eqb_eq in Hi. pose proof (Loc m Hm) as L. unfold local in L. rewrite Hi in L. contradiction.
Qed.
End Known.
