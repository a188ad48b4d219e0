From Verif Require Import Base Identity Identity_proofs IdMap IdMap_proofs Multimap Multimap_proofs Communicator Simulation Simulation_spec Simulation_proofs Simulation_proofs2 Simulation_proofs3
  Isolation_proofs DistributedRun DistributedRun_spec.
From Coq Require Import ZifyBool ZifyNat.

Section S.
Context {St : Type} (hash : identity -> Z) (shuffle : seed -> list message -> list message) (here : identity -> bool).
Implicit Types (w : world St).
(** What sending leaves. *)
Definition sent_to w w' (clear : identity -> bool) (ms : list message) : Prop := sorted_world w' /\ map fst (agents w') = map fst (agents w) /\ wake_up_times w' = wake_up_times w /\ w_end w' = w_end w /\ w_sample w' = w_sample w /\
  forall i, im_find i (agents w') = option_map (fun a => let a1 := with_mail (filter (addressed_to i) ms) a in if clear i then cleared a1 else a1) (im_find i (agents w)).
Lemma informed_keys w w' : sorted_world w -> sorted_world w' -> map fst (agents w') = map fst (agents w) -> informed here w -> informed here w'.
Proof. intros S S' K H i. rewrite (H i). unfold local. pose proof (find_keys (agents w) (agents w') i (proj1 S) (proj1 S') (eq_sym K)). tauto. Qed.
Lemma mpi_deliver_spec w m : sorted_world w -> informed here w -> exists w', mpi_deliver here w m = Ret w' /\ sent_to w w' (fun _ => false) [m].
Proof.
  intros [Ha Hw] H. unfold mpi_deliver. destruct (here (m_recipient m)) eqn:Eh.
  - apply H in Eh. unfold local in Eh. destruct (im_find (m_recipient m) (agents w)) as [r|] eqn:E; [|contradiction]. eexists. split; [reflexivity|]. unfold sent_to. cbn [agents wake_up_times w_end w_sample].
    split; [split; [now apply im_set_sorted|exact Hw]|]. split; [apply im_set_keys; [exact Ha|congruence]|]. split; [reflexivity|]. split; [reflexivity|]. split; [reflexivity|].
    intros i. rewrite im_find_set by exact Ha. cbn [filter]. unfold addressed_to. destruct (id_eqb (m_recipient m) i) eqn:Ei.
    + apply id_eqb_eq in Ei. subst i. rewrite E. reflexivity.
    + destruct (im_find i (agents w)); cbn; [now rewrite with_mail_nil|reflexivity].
  - exists w. split; [reflexivity|]. split; [split; assumption|]. repeat (split; [reflexivity|]). intros i. cbn [filter]. unfold addressed_to. destruct (id_eqb (m_recipient m) i) eqn:Ei.
    + apply id_eqb_eq in Ei. subst i. destruct (im_find (m_recipient m) (agents w)) eqn:E; [|reflexivity]. assert (here (m_recipient m) = true) by (apply H; unfold local; congruence). congruence.
    + destruct (im_find i (agents w)); cbn; [now rewrite with_mail_nil|reflexivity].
Qed.
Lemma mpi_deliver_all_spec ms : forall w, sorted_world w -> informed here w -> exists w', mpi_deliver_all here w ms = Ret w' /\ sent_to w w' (fun _ => false) ms.
Proof.
  induction ms as [|m ms IH]; intros w S H.
  - exists w. split; [reflexivity|]. split; [exact S|]. repeat (split; [reflexivity|]). intros i. destruct (im_find i (agents w)); cbn; [now rewrite with_mail_nil|reflexivity].
  - destruct (mpi_deliver_spec w m S H) as (w1 & E1 & S1 & K1 & T1 & N1 & P1 & A1). cbn [mpi_deliver_all]. rewrite E1.
    destruct (IH w1 S1 (informed_keys _ _ S S1 K1 H)) as (w2 & E2 & S2 & K2 & T2 & N2 & P2 & A2). exists w2. split; [exact E2|]. split; [exact S2|]. repeat (split; [congruence|]).
    intros i. rewrite A2, A1, (filter_cons_app _ m ms). destruct (im_find i (agents w)); cbn [option_map]; [|reflexivity]. now rewrite with_mail_app.
Qed.
Lemma mpi_send_all_spec ids : forall w, sorted_world w -> informed here w -> NoDup ids -> (forall i, In i ids -> im_find i (agents w) <> None) ->
  exists w', mpi_send_all here w ids = Ret w' /\ sent_to w w' (is_in ids) (concat (map (outbox_of w) ids)).
Proof.
  induction ids as [|i ids IH]; intros w S H Hnd Hloc.
  - exists w. split; [reflexivity|]. split; [exact S|]. repeat (split; [reflexivity|]). intros i. destruct (im_find i (agents w)); cbn; [now rewrite with_mail_nil|reflexivity].
  - inversion Hnd as [|? ? Hni Hnd']; subst. cbn [map concat]. destruct (im_find i (agents w)) as [a|] eqn:E; [|exfalso; eapply Hloc; [left; reflexivity|exact E]].
    assert (Eo : outbox_of w i = ag_outbox a) by (unfold outbox_of; now rewrite E). cbn [mpi_send_all]. unfold mpi_send_from. rewrite E, Eo.
    destruct (mpi_deliver_all_spec (ag_outbox a) w S H) as (w1 & E1 & S1 & K1 & T1 & N1 & P1 & A1). rewrite E1. pose proof (A1 i) as A1i. rewrite E in A1i. cbn [option_map] in A1i. rewrite A1i.
    set (a1 := with_mail (filter (addressed_to i) (ag_outbox a)) a) in *.
    set (w2 := mk_world (im_set i (with_own a1 (fst (ag_own a1), [])) (agents w1)) (wake_up_times w1) (w_end w1) (w_sample w1)).
    assert (S2 : sorted_world w2) by (split; [apply im_set_sorted; apply S1|apply S1]).
    assert (K2 : map fst (agents w2) = map fst (agents w)) by (cbn; rewrite im_set_keys; [exact K1|apply S1|congruence]).
    assert (F2 : forall j, im_find j (agents w2) = if id_eqb i j then Some (cleared a1) else im_find j (agents w1)) by (intros j; cbn; apply im_find_set; apply S1).
    assert (O2 : map (outbox_of w2) ids = map (outbox_of w) ids).
    { apply map_ext_in. intros j Hj. unfold outbox_of. rewrite F2. rewrite id_eqb_neq by (intros ->; contradiction). rewrite A1. destruct (im_find j (agents w)); reflexivity. }
    destruct (IH w2 S2 (informed_keys _ _ S S2 K2 H) Hnd') as (w3 & E3 & S3 & K3 & T3 & N3 & P3 & A3).
    { intros j Hj Hn. apply (Hloc j (or_intror Hj)). eapply find_keys; [exact (proj1 S)|exact (proj1 S2)|symmetry; exact K2|exact Hn]. }
    exists w3. split; [exact E3|]. split; [exact S3|]. split; [congruence|]. split; [cbn in T3; congruence|]. split; [cbn in N3; congruence|]. split; [cbn in P3; congruence|].
    intros j. rewrite A3, F2, O2. cbn [is_in existsb]. rewrite filter_app. destruct (id_eqb i j) eqn:Ej.
    + apply id_eqb_eq in Ej. subst j. rewrite E. cbn [option_map orb]. f_equal. unfold is_in in *.
      destruct (existsb (fun j => id_eqb j i) ids) eqn:X; [exfalso; apply Hni; apply is_in_iff; exact X|]. rewrite with_mail_app. fold a1. reflexivity.
    + rewrite A1. destruct (im_find j (agents w)); cbn [option_map orb]; [|reflexivity]. fold (is_in ids j). rewrite with_mail_app. reflexivity.
Qed.
Lemma mpi_send_spec w : sorted_world w -> informed here w -> exists w', mpi_send_all here w (map fst (agents w)) = Ret w' /\ sent_to w w' (fun _ => true) (sent w).
Proof.
  intros S H. assert (Es : concat (map (outbox_of w) (map fst (agents w))) = sent w).
  { unfold sent. f_equal. rewrite map_map. apply map_ext_in. intros [i a] Hi. unfold outbox_of. cbn [fst snd]. apply im_find_in in Hi; [|apply S]. now rewrite Hi. }
  destruct (mpi_send_all_spec (map fst (agents w)) w S H) as (w' & E & S1 & K1 & T1 & N1 & P1 & A1); [apply im_keys_nodup; apply S|intros i Hi Hn; apply im_find_none in Hn; [contradiction|apply S]|].
  exists w'. split; [exact E|]. split; [exact S1|]. repeat (split; [assumption|]). intros i. rewrite A1, Es. destruct (im_find i (agents w)) as [a|] eqn:Ea; [|reflexivity]. cbn [option_map].
  assert (is_in (map fst (agents w)) i = true) as ->; [|reflexivity]. apply is_in_iff. apply im_find_in in Ea; [|apply S]. apply in_map_iff. now exists (i, a).
Qed.
Lemma act_keys lower upper n w p : well_formed w -> act_phase hash shuffle lower upper n w = Ret p -> map fst (agents (p_world p)) = map fst (agents w).
Proof. intros W E. destruct (act_phase_spec _ _ _ _ _ _ _ W E) as ((K & _) & _). exact K. Qed.
Lemma act_informed lower upper n w p : well_formed w -> act_phase hash shuffle lower upper n w = Ret p -> informed here w -> informed here (p_world p).
Proof. intros W E H. exact (informed_keys _ _ (wf_sorted _ W) (wf_sorted _ (act_wf _ _ _ _ _ _ _ W E)) (act_keys _ _ _ _ _ W E) H). Qed.
Lemma wake_after_late ms : forall t, (forall m, In m ms -> t <= m_received m) -> wake_up_after (Some t) ms = Some t.
Proof. induction ms as [|m ms IH]; intros t H; [reflexivity|]. unfold wake_up_after in *. cbn [fold_left]. pose proof (H m (or_introl eq_refl)). replace (earlier (Some t) (m_received m)) with (Some t) by (unfold earlier; f_equal; lia). apply IH. intros m' Hm. apply H. now right. Qed.
Lemma mpi_round_awake lower upper n w p w' f : well_formed w -> informed here w -> act_phase hash shuffle lower upper n w = Ret p -> expected (p_world p) ->
  round hash shuffle lower upper n w = Ret (w', f) -> mpi_round hash shuffle here lower upper n w = Ret (w', f).
Proof.
  intros W H Ea Ex R. pose proof (act_wf _ _ _ _ _ _ _ W Ea) as Wp. destruct (round_spec _ _ _ _ _ _ _ _ W R) as (_ & Ef & _).
  unfold mpi_round. unfold round in R. rewrite Ea in R |- *. unfold finish_round in R. destruct (Simulation.send_messages (p_world p)) as [[v c]| |] eqn:Es; [|discriminate|discriminate]. assert (v = w') as -> by congruence.
  destruct (send_ret _ _ _ (wf_sorted _ Wp) Es) as (_ & _ & S1 & _ & N1 & P1 & A1 & T1).
  destruct (mpi_send_spec _ (wf_sorted _ Wp) (act_informed _ _ _ _ _ W Ea H)) as (w2 & -> & S2 & _ & T2 & N2 & P2 & A2).
  assert (wake_up_times w' = wake_up_times (p_world p)) as Et.
  { apply im_ext; [apply S1|apply (wf_sorted _ Wp)|]. intros i. rewrite T1. destruct (im_find i (wake_up_times (p_world p))) as [t|] eqn:Ew.
    - apply wake_after_late. intros m Hm. apply filter_In in Hm. destruct Hm as [Hm Hi]. apply id_eqb_eq in Hi. destruct (Ex m Hm) as (t' & E1 & E2). rewrite Hi in E1. assert (t' = t) by congruence. lia.
    - destruct (filter (addressed_to i) (sent (p_world p))) as [|m l] eqn:El; [reflexivity|]. assert (Hm : In m (filter (addressed_to i) (sent (p_world p)))) by (rewrite El; now left).
      apply filter_In in Hm. destruct Hm as [Hm Hi]. apply id_eqb_eq in Hi. destruct (Ex m Hm) as (t' & E1 & _). rewrite Hi in E1. congruence. }
  assert (agents w2 = agents w') as Eag.
  { apply im_ext; [apply S2|apply S1|]. intros i. rewrite A2, A1. reflexivity. }
  assert (w2 = w') as ->. { destruct w2, w'. cbn in *. congruence. }
  rewrite (act_first _ _ _ _ _ _ _ (wf_sorted _ W) Ea), Ef. unfold determine_next_event. rewrite Et, N1. reflexivity.
Qed.
Lemma mpi_round_view lower upper n w w' f : well_formed w -> informed here w -> mpi_round hash shuffle here lower upper n w = Ret (w', f) ->
  exists p, act_phase hash shuffle lower upper n w = Ret p /\ f = determine_next_event (p_world p) /\ wake_up_times w' = wake_up_times (p_world p) /\
    forall i, im_find i (agents w') = option_map (fun a => cleared (with_mail (filter (addressed_to i) (sent (p_world p))) a)) (im_find i (agents (p_world p))).
Proof.
  intros W H R. unfold mpi_round in R. destruct (act_phase hash shuffle lower upper n w) as [p| |] eqn:Ea; [|discriminate|discriminate]. exists p. split; [reflexivity|].
  pose proof (act_wf _ _ _ _ _ _ _ W Ea) as Wp. destruct (mpi_send_spec _ (wf_sorted _ Wp) (act_informed _ _ _ _ _ W Ea H)) as (w2 & E2 & _ & _ & T2 & _ & _ & A2). rewrite E2 in R.
  assert (w2 = w') as -> by congruence. assert (p_first p = f) as <- by congruence. split; [apply (act_first _ _ _ _ _ _ _ (wf_sorted _ W) Ea)|]. auto.
Qed.
End S.
