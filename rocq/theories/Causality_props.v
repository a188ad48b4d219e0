(** Property theorems C183, C184. *)
From Verif Require Import Base Identity Identity_proofs IdMap IdMap_proofs Multimap_proofs Communicator Communicator_spec Communicator_proofs Simulation Simulation_spec Simulation_proofs Simulation_proofs2 Simulation_proofs3
  Isolation_props Causality_spec Causality_proofs.

(** C184: simulations that do the same before [T] are in the same state at [T]: they visit the same times before [T] and pass through worlds in which everything that can be seen is the same, from which both go on at [T] or later. *)
Theorem C184_past : forall (St : Type) hash shuffle T lower (w1 w2 : world St) fuel1 fuel2 w1' w2' ts1 ts2, well_formed w1 -> well_formed w2 -> alike shuffle T w1 w2 ->
  run_from hash shuffle fuel1 lower w1 = Some (Ret (w1', ts1)) -> run_from hash shuffle fuel2 lower w2 = Some (Ret (w2', ts2)) ->
  exists ts wm1 wm2 t1 t2 rest1 rest2, reaches hash shuffle T lower w1 ts wm1 t1 /\ reaches hash shuffle T lower w2 ts wm2 t2 /\ (forall i, seen wm1 i = seen wm2 i) /\
    ts1 = ts ++ rest1 /\ ts2 = ts ++ rest2 /\ Forall (fun t => t < T) ts /\ Forall (fun t => T <= t) rest1 /\ Forall (fun t => T <= t) rest2 /\
    (rest1 = [] /\ wm1 = w1' \/ exists fuel, run_from hash shuffle fuel t1 wm1 = Some (Ret (w1', rest1))) /\
    (rest2 = [] /\ wm2 = w2' \/ exists fuel, run_from hash shuffle fuel t2 wm2 = Some (Ret (w2', rest2))).
Proof.
  intros St hash shuffle T lower w1 w2 fuel1 fuel2 w1' w2' ts1 ts2 W1 W2 H R1 R2.
  destruct (runs_alike _ _ _ _ _ _ _ _ _ _ _ _ W1 W2 H R1 R2) as (ts & wm1 & wm2 & t1 & t2 & A & B & C & rest1 & rest2 & D & E & F & G & X & Y).
  exists ts, wm1, wm2, t1, t2, rest1, rest2. split; [exact A|]. split; [exact B|]. split; [intros i; exact (alike_seen _ _ _ _ i C)|]. split; [exact D|]. split; [exact E|]. split; [|auto].
  clear - A. induction A; constructor; assumption.
Qed.
Print Assumptions C184_past.
(** The second simulation gets as far as [T] if the first does. *)
Theorem C184_reaches : forall (St : Type) hash shuffle T lower (w1 w2 : world St) ts w1' t1, well_formed w1 -> well_formed w2 -> alike shuffle T w1 w2 ->
  reaches hash shuffle T lower w1 ts w1' t1 -> exists w2' t2, reaches hash shuffle T lower w2 ts w2' t2 /\ forall i, seen w1' i = seen w2' i.
Proof.
  intros St hash shuffle T lower w1 w2 ts w1' t1 W1 W2 H R. destruct (reaches_alike _ _ _ _ _ _ _ _ R lower w2 eq_refl W1 W2 H) as (w2' & t2 & R2 & X & _). exists w2', t2. split; [exact R2|]. intros i. exact (alike_seen _ _ _ _ i X).
Qed.
Print Assumptions C184_reaches.
(** It suffices that the agents differ in how they act at [T] and later only. *)
Theorem C184_acts : forall (St : Type) shuffle T (w : world St) (acts : identity -> @action St), well_formed w -> T <= w_end w ->
  (forall i a lower upper s o, im_find i (agents w) = Some a -> lower < T -> acts i lower upper s o = ag_act a lower upper s o) ->
  alike shuffle T w (mk_world (map (fun x => (fst x, mk_agent (ag_comm (snd x)) (acts (fst x)) (ag_inbox (snd x)) (ag_own (snd x)))) (agents w)) (wake_up_times w) (w_end w) (w_sample w)).
Proof.
  intros St shuffle T w acts Hwf He H. split; [reflexivity|]. split; [exact He|]. split; [exact He|]. intros i. cbn [agents wake_up_times w_end]. split.
  - assert (E : forall m : idmap (agent St), im_find i (map (fun x => (fst x, mk_agent (ag_comm (snd x)) (acts (fst x)) (ag_inbox (snd x)) (ag_own (snd x)))) m) =
      option_map (fun a => mk_agent (ag_comm a) (acts i) (ag_inbox a) (ag_own a)) (im_find i m)).
    { induction m as [|[k a] m IH]; cbn; [reflexivity|]. destruct (id_ltb k i) eqn:E1; [exact IH|]. destruct (id_ltb i k) eqn:E2; [reflexivity|]. assert (k = i) as -> by (destruct (id_trichotomy k i) as [(Q & _)|[(_ & Q & _)|(_ & _ & Q)]]; congruence). reflexivity. }
    rewrite E. destruct (im_find i (agents w)) as [a|] eqn:Ha; cbn; [|exact I]. split; [reflexivity|]. split; [reflexivity|]. intros inbox ow lower s L. unfold handle. cbn [ag_comm ag_act ag_inbox ag_own].
    destruct (process_messages (ag_comm a) shuffle lower (w_end w) s inbox ow) as [[o1 t1]| |]; try exact I. rewrite (H i a lower (w_end w) s o1 Ha L). destruct (ag_act a lower (w_end w) s o1) as [o2 t2]. auto.
  - unfold same_until. destruct (im_find i (wake_up_times w)); auto.
Qed.
Print Assumptions C184_acts.

(** C183: a longer simulation begins with the shorter one. *)
Theorem C183_prolong : forall (St : Type) hash shuffle lower (w : world St) end1 end2 fuel1 fuel2 w1 w2 ts1 ts2, well_formed w -> end1 <= end2 ->
  (forall i a, im_find i (agents w) = Some a -> ignores_end a) ->
  run_from hash shuffle fuel1 lower (until end1 w) = Some (Ret (w1, ts1)) -> run_from hash shuffle fuel2 lower (until end2 w) = Some (Ret (w2, ts2)) ->
  exists wm t rest, ts2 = ts1 ++ rest /\ Forall (fun t => end1 <= t) rest /\ (forall i, seen wm i = seen w1 i) /\
    reaches hash shuffle end1 lower (until end2 w) ts1 wm t /\ (rest = [] /\ wm = w2 \/ exists fuel, run_from hash shuffle fuel t wm = Some (Ret (w2, rest))).
Proof.
  intros St hash shuffle lower w end1 end2 fuel1 fuel2 w1 w2 ts1 ts2 Hwf He HI R1 R2.
  assert (W : forall e, well_formed (until e w)) by (intros e; exact Hwf).
  assert (H : alike shuffle end1 (until end1 w) (until end2 w)).
  { split; [reflexivity|]. split; [cbn; lia|]. split; [cbn; lia|]. intros i. cbn [until agents wake_up_times w_end]. split; [|unfold same_until; destruct (im_find i (wake_up_times w)); auto].
    unfold agents_alike. destruct (im_find i (agents w)) as [a|] eqn:Ha; [|exact I]. split; [reflexivity|]. split; [reflexivity|]. apply ignores_alike; [lia|lia|]. now apply (HI i). }
  destruct (C184_past _ _ _ _ _ _ _ _ _ _ _ _ _ (W end1) (W end2) H R1 R2) as (ts & wm1 & wm2 & t1 & t2 & rest1 & rest2 & A & B & C & D & E & F & G & K & X & Y).
  assert (rest1 = [] /\ wm1 = w1) as [-> ->].
  { assert (L : Forall (fun t => t < end1) ts1) by (destruct (run_spec _ _ _ _ _ _ _ (W end1) R1) as (_ & _ & Q & _); eapply Forall_impl; [|exact Q]; cbn; intros x Hx; lia). rewrite D in L. apply Forall_app in L. destruct L as [_ L].
    assert (rest1 = []) as ->. { destruct rest1 as [|x r]; [reflexivity|]. apply Forall_cons_iff in L, G. lia. }
    split; [reflexivity|]. destruct X as [[_ X]|(f & X)]; [exact X|]. now apply run_nonempty in X. }
  rewrite app_nil_r in D. subst ts. exists wm2, t2, rest2. split; [exact E|]. split; [exact K|]. split; [intros i; now rewrite C|]. split; [exact B|exact Y].
Qed.
Print Assumptions C183_prolong.

(** The two pairs of agents of the example for C181, until time 6 and until time 10. *)
Lemma logging_ignores (i : identity) f inbox ow : (forall lower s o, exists o' t, forall upper, fst (f lower upper s o) = o' /\ Z.min upper (snd (f lower upper s o)) = cap t upper) ->
  ignores_end (mk_agent logging f inbox ow).
Proof.
  intros H. split; [|exact H]. exists true, [mk_registration 7 3 logs]. eexists. split; [econstructor; [reflexivity|constructor]|]. split; [right; reflexivity|]. constructor; [|constructor].
  intros m lower s o. exists None. eexists. split; [intros u; discriminate|]. intros upper. reflexivity.
Qed.
Example C183_case : well_formed (pair_with noise) /\ (forall i a, im_find i (agents (pair_with noise)) = Some a -> ignores_end a) /\
  match run_from (fun _ => 0) (fun _ l => l) 30 0 (until 6 (pair_with noise)), run_from (fun _ => 0) (fun _ l => l) 30 0 (until 10 (pair_with noise)) with
  | Some (Ret (w1, ts1)), Some (Ret (w2, ts2)) => ts1 = [0; 1; 2; 3; 4; 5] /\ ts2 = [0; 1; 2; 3; 4; 5; 6; 7; 8; 9] /\
      map (fun x => (fst (ag_own (snd x)), map fst (ag_inbox (snd x)))) (agents w1) = [([], []); ([0; 3], [7]); ([], []); ([0; 1; 1; 2; 2; 3; 3; 4; 4; 5], [6])]
  | _, _ => False
  end.
Proof.
  assert (S : im_sorted (agents (pair_with noise))) by (cbn; repeat constructor; cbn; reflexivity).
  split; [apply pair_wf; [exact S|repeat constructor]|]. split; [|vm_compute; auto].
  intros i a H. apply im_find_in in H; [|exact S]. cbn in H.
  destruct H as [H|[H|[H|[H|[]]]]]; injection H as <- <-; apply (logging_ignores []); intros lower s o.
  - exists (fst (writes_to [1] [2] 0 4 3 lower 0 s o)), (Some (lower + 4)). intros upper. split; [reflexivity|]. reflexivity.
  - exists o, None. intros upper. split; [reflexivity|]. cbn. lia.
  - exists (fst (writes_to [5] [6] 0 1 1 lower 0 s o)), (Some (lower + 1)). intros upper. split; [reflexivity|]. reflexivity.
  - exists o, None. intros upper. split; [reflexivity|]. cbn. lia.
Qed.
(** From time 6 on nobody but agent 1 writes any more. *)
Definition quiet_from_six (i : identity) : @action (list Z) := fun lower upper s o =>
  match im_find i (agents (pair_with noise)) with
  | Some a => if (lower <? 6) || id_eqb i [1] then ag_act a lower upper s o else (o, upper)
  | None => (o, upper)
  end.
Example C184_case : let w := pair_with noise in
  (forall i a lower upper s o, im_find i (agents w) = Some a -> lower < 6 -> quiet_from_six i lower upper s o = ag_act a lower upper s o) /\
  match run_from (fun _ => 0) (fun _ l => l) 30 0 w,
    run_from (fun _ => 0) (fun _ l => l) 30 0 (mk_world (map (fun x => (fst x, mk_agent (ag_comm (snd x)) (quiet_from_six (fst x)) (ag_inbox (snd x)) (ag_own (snd x)))) (agents w)) [] 10 0) with
  | Some (Ret (w1, ts1)), Some (Ret (w2, ts2)) => ts1 = [0; 1; 2; 3; 4; 5; 6; 7; 8; 9] /\ ts2 = [0; 1; 2; 3; 4; 5; 6; 7; 8] /\
      map (fun x => length (fst (ag_own (snd x)))) (agents w1) = [0; 4; 0; 18]%nat /\ map (fun x => length (fst (ag_own (snd x)))) (agents w2) = [0; 4; 0; 12]%nat
  | _, _ => False
  end.
Proof.
  cbv zeta. split; [|vm_compute; auto]. intros i a lower upper s o H L. unfold quiet_from_six. rewrite H. assert (lower <? 6 = true) as -> by lia. reflexivity.
Qed.
