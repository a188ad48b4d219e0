From Verif Require Import Base Interval Identity IdMap Multimap Multimap_proofs Communicator Communicator_spec Communicator_proofs Simulation Platform_spec.
From Coq Require Import ZifyBool.

Section P.
Context {St : Type} (hash1 hash2 : identity -> Z) (shuffle1 shuffle2 : seed -> list message -> list message) (s : Z).
Implicit Types (w : world St) (a : agent St) (p : @progress St).
Definition good w : Prop := Forall (fun x => unaffected shuffle1 shuffle2 (snd x)) (agents w).
Definition omap {X Y} (f : X -> Y) (r : outcome X) : outcome Y := match r with Ret x => Ret (f x) | Throw => Throw | UB => UB end.
Definition with_sample_p p : @progress St := mk_progress (with_sample s (p_world p)) (p_pending p) (p_first p).
Definition on_first {Y} (r : world St * Y) : world St * Y := (with_sample s (fst r), snd r).

Lemma good_set i a a0 (m : idmap (agent St)) : im_find i m = Some a0 -> ag_comm a = ag_comm a0 -> ag_act a = ag_act a0 ->
  Forall (fun x => unaffected shuffle1 shuffle2 (snd x)) m -> Forall (fun x => unaffected shuffle1 shuffle2 (snd x)) (im_set i a m).
Proof.
  induction m as [|[k x] m IH]; cbn; [discriminate|]. intros H C A F. apply Forall_cons_iff in F. destruct F as [F1 F].
  destruct (id_ltb k i); [constructor; [exact F1|now apply IH]|]. destruct (id_ltb i k); [discriminate|]. injection H as <-. constructor; [|exact F].
  unfold unaffected in *. cbn [snd] in *. rewrite C, A. exact F1.
Qed.
Lemma good_find i a w : good w -> im_find i (agents w) = Some a -> unaffected shuffle1 shuffle2 a.
Proof.
  unfold good. induction (agents w) as [|[k x] m IH]; cbn; [discriminate|]. intros F H. apply Forall_cons_iff in F. destruct F as [F1 F].
  destruct (id_ltb k i); [now apply IH|]. destruct (id_ltb i k); [discriminate|]. now injection H as <-.
Qed.
Lemma deliver_same w m : deliver (with_sample s w) m = omap (with_sample s) (deliver w m) /\ (good w -> forall w', deliver w m = Ret w' -> good w').
Proof.
  unfold deliver. cbn [agents wake_up_times w_end w_sample with_sample]. destruct (im_find (m_recipient m) (agents w)) as [r|] eqn:E; [|split; [reflexivity|discriminate]].
  split; [reflexivity|]. intros G w' H. injection H as <-. unfold good. cbn [agents]. eapply good_set; [exact E|reflexivity|reflexivity|exact G].
Qed.
Lemma deliver_all_same ms : forall w, deliver_all (with_sample s w) ms = omap (with_sample s) (deliver_all w ms) /\ (good w -> forall w', deliver_all w ms = Ret w' -> good w').
Proof.
  induction ms as [|m ms IH]; intros w; cbn [deliver_all]; [split; [reflexivity|intros G w' H; injection H as <-; exact G]|].
  destruct (deliver_same w m) as [D1 D2]. rewrite D1. destruct (deliver w m) as [w1| |]; cbn [omap]; [|split; [reflexivity|discriminate]|split; [reflexivity|discriminate]].
  destruct (IH w1) as [I1 I2]. split; [exact I1|]. intros G. apply I2. now apply D2.
Qed.
Lemma send_from_same w i : send_from (with_sample s w) i = omap on_first (send_from w i) /\ (good w -> forall w' c, send_from w i = Ret (w', c) -> good w').
Proof.
  unfold send_from. cbn [agents with_sample]. destruct (im_find i (agents w)) as [a|] eqn:E; [|split; [reflexivity|discriminate]].
  destruct (deliver_all_same (ag_outbox a) w) as [D1 D2]. change (mk_world (agents w) (wake_up_times w) (w_end w) s) with (with_sample s w). rewrite D1. destruct (deliver_all w (ag_outbox a)) as [w1| |]; cbn [omap]; [|split; [reflexivity|discriminate]|split; [reflexivity|discriminate]].
  cbn [agents with_sample]. destruct (im_find i (agents w1)) as [a1|] eqn:E1; [|split; [reflexivity|discriminate]]. split; [reflexivity|]. intros G w' c H. specialize (D2 G w1 eq_refl).
  assert (w' = mk_world (im_set i (with_own a1 (fst (ag_own a1), [])) (agents w1)) (wake_up_times w1) (w_end w1) (w_sample w1)) as -> by congruence.
  unfold good. cbn [agents]. eapply good_set; [exact E1|reflexivity|reflexivity|exact D2].
Qed.
Lemma send_all_same ids : forall w c, send_all (with_sample s w) ids c = omap on_first (send_all w ids c) /\ (good w -> forall w' n, send_all w ids c = Ret (w', n) -> good w').
Proof.
  induction ids as [|i ids IH]; intros w c; cbn [send_all]; [split; [reflexivity|intros G w' n H; injection H as <- _; exact G]|].
  destruct (send_from_same w i) as [D1 D2]. rewrite D1. destruct (send_from w i) as [[w1 n]| |]; cbn [omap on_first fst snd]; [|split; [reflexivity|discriminate]|split; [reflexivity|discriminate]].
  destruct (IH w1 (c + n)) as [I1 I2]. split; [exact I1|]. intros G. apply I2. eapply D2; [exact G|reflexivity].
Qed.
Lemma part_same lower upper n p x : good (p_world p) ->
  run_part hash2 shuffle2 lower upper n (with_sample_p p) x = omap with_sample_p (run_part hash1 shuffle1 lower upper n p x) /\
  forall p', run_part hash1 shuffle1 lower upper n p x = Ret p' -> good (p_world p').
Proof.
  intros G. destruct x as [i|i|i]; cbn [run_part with_sample_p p_world p_pending p_first with_sample agents wake_up_times w_end w_sample].
  - destruct (im_find i (agents (p_world p))) as [a|] eqn:E; [|split; [reflexivity|discriminate]].
    pose proof (good_find i a _ G E (ag_inbox a) (ag_own a) lower upper (seed_of hash1 i lower n (w_sample (p_world p))) (seed_of hash2 i lower n s)) as X.
    destruct a as [ac aa ai ao]. cbn [ag_comm ag_act ag_inbox ag_own] in X. rewrite <- X.
    destruct (handle shuffle1 _ lower upper _) as [[o t]| |]; cbn [omap]; [|split; [reflexivity|discriminate]|split; [reflexivity|discriminate]].
    split; [reflexivity|]. intros p' H. injection H as <-. unfold good. cbn [agents p_world]. eapply good_set; [exact E|reflexivity|reflexivity|exact G].
  - destruct (im_find i (p_pending p)) as [t|]; [|split; [reflexivity|discriminate]]. destruct (t <? lower); cbn [omap]; split; try reflexivity; try discriminate. intros p' H. injection H as <-. exact G.
  - destruct (im_find i (agents (p_world p))) as [a|] eqn:E; [|split; [reflexivity|discriminate]]. split; [reflexivity|]. intros p' H. injection H as <-. unfold good. cbn [agents p_world].
    eapply good_set; [exact E|reflexivity|reflexivity|exact G].
Qed.
Lemma parts_same lower upper n xs : forall p, good (p_world p) ->
  run_parts hash2 shuffle2 lower upper n (with_sample_p p) xs = omap with_sample_p (run_parts hash1 shuffle1 lower upper n p xs) /\
  forall p', run_parts hash1 shuffle1 lower upper n p xs = Ret p' -> good (p_world p').
Proof.
  induction xs as [|x xs IH]; intros p G; cbn [run_parts]; [split; [reflexivity|intros p' H; injection H as <-; exact G]|].
  destruct (part_same lower upper n p x G) as [D1 D2]. rewrite D1. destruct (run_part hash1 shuffle1 lower upper n p x) as [p1| |]; cbn [omap]; [|split; [reflexivity|discriminate]|split; [reflexivity|discriminate]].
  exact (IH p1 (D2 p1 eq_refl)).
Qed.
Lemma round_same lower upper n w : good w ->
  round hash2 shuffle2 lower upper n (with_sample s w) = omap on_first (round hash1 shuffle1 lower upper n w) /\
  forall w' t, round hash1 shuffle1 lower upper n w = Ret (w', t) -> good w'.
Proof.
  intros G. unfold round, act_phase. change (begin_round (with_sample s w) lower) with (with_sample_p (begin_round w lower)). change (acting (with_sample s w) lower) with (acting w lower).
  destruct (parts_same lower upper n (flat_map job (acting w lower)) (begin_round w lower) G) as [D1 D2]. rewrite D1.
  destruct (run_parts hash1 shuffle1 lower upper n (begin_round w lower) (flat_map job (acting w lower))) as [p| |]; cbn [omap]; [|split; [reflexivity|discriminate]|split; [reflexivity|discriminate]].
  specialize (D2 p eq_refl). unfold finish_round, send_messages. cbn [with_sample_p p_world]. destruct (send_all_same (map fst (agents (p_world p))) (p_world p) 0) as [S1 S2].
  change (agents (with_sample s (p_world p))) with (agents (p_world p)). rewrite S1. destruct (send_all (p_world p) (map fst (agents (p_world p))) 0) as [[w1 c]| |]; cbn [omap on_first fst snd]; [|split; [reflexivity|discriminate]|split; [reflexivity|discriminate]].
  split; [destruct (0 <? c); reflexivity|]. intros w' t H. assert (w1 = w') as <- by congruence. eapply S2; [exact D2|reflexivity].
Qed.
Lemma rounds_same fuel lower upper : forall n w, good w ->
  rounds hash2 shuffle2 fuel lower upper n (with_sample s w) = option_map (omap on_first) (rounds hash1 shuffle1 fuel lower upper n w) /\
  forall w' t, rounds hash1 shuffle1 fuel lower upper n w = Some (Ret (w', t)) -> good w'.
Proof.
  induction fuel as [|fuel IH]; intros n w G; cbn [rounds]; [split; [reflexivity|discriminate]|]. destruct (round_same lower upper n w G) as [D1 D2]. rewrite D1.
  destruct (round hash1 shuffle1 lower upper n w) as [[w1 f]| |]; cbn [omap on_first fst snd]; [|split; [reflexivity|discriminate]|split; [reflexivity|discriminate]].
  specialize (D2 w1 f eq_refl). destruct (lower >=? f); [exact (IH _ _ D2)|]. split; [reflexivity|]. intros w' t H. congruence.
Qed.
Lemma run_same fuel : forall lower w, good w -> run_from hash2 shuffle2 fuel lower (with_sample s w) = relabel s (run_from hash1 shuffle1 fuel lower w).
Proof.
  induction fuel as [|fuel IH]; intros lower w G; [reflexivity|]. cbn [run_from]. unfold step. change (w_end (with_sample s w)) with (w_end w).
  destruct (ti_empty lower (w_end w)); [reflexivity|]. destruct (rounds_same (S fuel) lower (w_end w) 0 w G) as [D1 D2]. rewrite D1.
  destruct (rounds hash1 shuffle1 (S fuel) lower (w_end w) 0 w) as [[[w1 t]| |]|]; cbn [option_map omap on_first fst snd]; try reflexivity.
  specialize (D2 w1 t eq_refl). change (w_end (with_sample s w1)) with (w_end w1). destruct (t <? w_end w1); [|reflexivity]. rewrite (IH t w1 D2).
  destruct (run_from hash1 shuffle1 fuel t w1) as [[[w2 ts]| |]|]; reflexivity.
Qed.
End P.

(** *** Agents that ignore the seed. *)
Lemma call_all_same {A} m lower upper s1 s2 (fs : list (Z * callback A)) : Forall (fun x => forall m lower upper s1 s2 o, snd x m lower upper s1 o = snd x m lower upper s2 o) fs ->
  forall first a, call_all m lower upper s1 fs first a = call_all m lower upper s2 fs first a.
Proof.
  induction 1 as [|[p f] fs F _ IH]; intros first a; cbn [call_all]; [reflexivity|]. cbn [snd] in F. rewrite (F m lower upper s1 s2 a). destruct (f m lower upper s2 a) as [a' next].
  destruct ((lower <=? next) && (next <=? upper)); [apply IH|reflexivity].
Qed.
Definition seedless {A} (f : callback A) : Prop := forall m lower upper s1 s2 o, f m lower upper s1 o = f m lower upper s2 o.
Definition all_seedless {A} (c : communicator A) : Prop := forall t fs, fm_find t (callbacks c) = Some fs -> Forall (fun x => seedless (snd x)) fs.
Lemma fm_find_forall {V} (P : V -> Prop) k v l : Forall (fun x => P (snd x)) l -> P v -> Forall (fun x => P (snd x)) (fm_set k v l).
Proof.
  intros F Pv. induction F as [|[k' x] l Px F IH]; cbn; [repeat constructor; exact Pv|]. destruct (k' <? k); [constructor; assumption|]. destruct (k' =? k); constructor; auto.
Qed.
Lemma fm_find_prop {V} (P : V -> Prop) k v l : Forall (fun x => P (snd x)) l -> fm_find k l = Some v -> P v.
Proof.
  induction 1 as [|[k' x] l Px F IH]; cbn; [discriminate|]. destruct (k' <? k); [exact IH|]. destruct (k' =? k); [|discriminate]. intros [= <-]. exact Px.
Qed.
Lemma registers_seedless {A} (c : communicator A) rs c' : registers c rs c' -> Forall (fun r => seedless (r_callback r)) rs ->
  Forall (fun x => Forall (fun y => seedless (snd y)) (snd x)) (callbacks c) -> Forall (fun x => Forall (fun y => seedless (snd y)) (snd x)) (callbacks c').
Proof.
  induction 1 as [c|c r rs c1 c2 Hr _ IH]; intros F H; [exact H|]. apply Forall_cons_iff in F. destruct F as [F1 F]. apply (IH F). clear IH.
  unfold register in Hr. destruct (locked c); [discriminate|]. injection Hr as <-. cbn [callbacks]. apply (fm_find_forall (Forall (fun y => seedless (snd y)))); [exact H|].
  assert (X : Forall (fun y => seedless (snd y)) match fm_find (r_type r) (callbacks c) with Some fs => fs | None => [] end).
  { destruct (fm_find (r_type r) (callbacks c)) as [fs|] eqn:E; [|constructor]. exact (fm_find_prop (Forall (fun y => seedless (snd y))) _ _ _ H E). }
  eapply Permutation_Forall; [symmetry; apply mm_insert_perm|]. apply Forall_app. split; [exact X|repeat constructor; exact F1].
Qed.
Lemma ignores_unaffected {St} sh1 sh2 (a : agent St) : ignores_seed a -> in_order a -> unaffected sh1 sh2 a.
Proof.
  intros ((b & rs & c & R & Hc & F) & Act) O inbox own lower upper s1 s2. unfold handle. cbn [ag_comm ag_act ag_inbox ag_own].
  assert (E : forall l first o, handle_all (ag_comm a) lower upper s1 l first o = handle_all (ag_comm a) lower upper s2 l first o).
  { assert (C : Forall (fun x => Forall (fun y => seedless (snd y)) (snd x)) (callbacks (ag_comm a))) by (destruct Hc as [-> | ->]; apply (registers_seedless _ _ _ R F); constructor).
    induction l as [|m l IH]; intros first o; cbn [handle_all]; [reflexivity|].
    assert (X : process_message (ag_comm a) lower upper s1 m o = process_message (ag_comm a) lower upper s2 m o).
    { unfold process_message. destruct (fm_find (m_type m) (callbacks (ag_comm a))) as [fs|] eqn:Ef; [|reflexivity]. apply call_all_same. apply Forall_rev. exact (fm_find_prop (Forall (fun y => seedless (snd y))) _ _ _ C Ef). }
    rewrite X. destruct (process_message (ag_comm a) lower upper s2 m o) as [[o' t]| |]; [apply IH|reflexivity|reflexivity]. }
  unfold process_messages, handling_order. unfold in_order in O. rewrite O. rewrite E. 
  destruct (handle_all (ag_comm a) lower upper s2 _ upper own) as [[o t]| |]; [|reflexivity|reflexivity]. now rewrite (Act lower upper s1 s2 o).
Qed.
