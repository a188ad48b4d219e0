From Verif Require Import Base Quantity_proofs Identity Identity_proofs IdMap IdMap_proofs Multimap Multimap_proofs Communicator Communicator_spec Communicator_proofs
  Simulation Simulation_spec Simulation_proofs Simulation_proofs2 Simulation_proofs3 Punctual_spec Punctual_proofs Messages FirstCome FirstCome_spec FirstCome_proofs.
From Verif Require Import Fills_spec Fills_proofs.
From Verif Require Exchange Exchange_spec Exchange_proofs BinaryBook BinaryBook_spec.
From Coq Require Import ZifyBool ZifyNat.

Section Speaking.
Context {St : Type} (hash : identity -> Z) (shuffle : seed -> list message -> list message) (i : identity) (effect : Z -> message -> St -> St * list message) (acc : message -> bool).
Context (comm : communicator (@own St)) (act : @action St) {R : Type} (read : message -> option R).
Definition heard (m : message) : bool := match read m with Some _ => true | None => false end.
Fixpoint spoken (h : list (Z * message)) (x : St) : St * list message :=
  match h with
  | [] => (x, [])
  | p :: h' => let '(x1, l1) := effect (fst p) (snd p) x in let '(x2, l2) := spoken h' x1 in (x2, l1 ++ l2)
  end.
Lemma spoken_app h1 h2 : forall x, spoken (h1 ++ h2) x = let '(x1, l1) := spoken h1 x in let '(x2, l2) := spoken h2 x1 in (x2, l1 ++ l2).
Proof.
  induction h1 as [|p h1 IH]; intros x; cbn [app spoken]; [destruct (spoken h2 x); reflexivity|]. destruct (effect (fst p) (snd p) x) as [x1 l1]. rewrite IH. destruct (spoken h1 x1) as [x2 l2]. destruct (spoken h2 x2) as [x3 l3]. now rewrite app_assoc.
Qed.
Context (Hd : forall inbox x lower upper s o' t, StronglySorted key_le inbox -> handle shuffle (mk_agent comm act inbox (x, [])) lower upper s = Ret (o', t) ->
  exists order, Permutation order (filter acc (due lower inbox)) /\ o' = spoken (map (fun m => (lower, m)) order) x).
Definition hushed (a : agent St) : Prop := ag_outbox a = [] /\
  forall inbox x lower upper s o t, handle shuffle (mk_agent (ag_comm a) (ag_act a) inbox (x, [])) lower upper s = Ret (o, t) -> Forall (fun m => read m = None) (snd o).
Definition vocal (x : St) (inbox : list (Z * message)) (w : world St) : Prop :=
  well_formed w /\ im_find i (agents w) = Some (mk_agent comm act inbox (x, [])) /\ forall j a, j <> i -> im_find j (agents w) = Some a -> hushed a.
Lemma filter_none l : Forall (fun m => read m = None) l -> filter heard l = [].
Proof. induction 1 as [|m l H _ IH]; [reflexivity|]. cbn [filter]. unfold heard at 1. now rewrite H. Qed.
Lemma only_one {A} (out : A -> list message) (m : idmap A) a : im_sorted m -> im_find i m = Some a -> (forall j b, j <> i -> im_find j m = Some b -> filter heard (out b) = []) ->
  filter heard (concat (map (fun x => out (snd x)) m)) = filter heard (out a).
Proof.
  intros S F H. assert (H' : forall j b, j <> i -> In (j, b) m -> filter heard (out b) = []) by (intros j b Hj Hin; apply (H j b Hj); now apply im_find_in).
  apply im_find_in in F; [|exact S]. pose proof (im_keys_nodup m S) as N. clear S H. induction m as [|[j b] m IH]; [contradiction|]. cbn [map concat snd]. rewrite filter_app. cbn [map fst] in N. apply NoDup_cons_iff in N. destruct N as [N1 N].
  destruct F as [[= -> ->]|F].
  - assert (X : filter heard (concat (map (fun x => out (snd x)) m)) = []); [|rewrite X; apply app_nil_r]. clear IH N. induction m as [|[k c] m IHm]; [reflexivity|]. cbn [map concat snd]. rewrite filter_app, (H' k c), IHm; [reflexivity| | |intros ->; apply N1; now left|right; now left].
    + intros Hi. apply N1. now right.
    + intros k' c' Hk Hc. apply (H' k' c' Hk). destruct Hc as [Hc|Hc]; [now left|right; now right].
  - rewrite (H' j b); [|intros ->; apply N1, in_map_iff; exists (i, a); now split|now left]. apply IH; [exact F| |exact N]. intros k c Hk Hc. apply (H' k c Hk). now right.
Qed.
Lemma vocal_round lower upper n x inbox w w' f : vocal x inbox w -> round hash shuffle lower upper n w = Ret (w', f) ->
  exists h inbox' p, vocal (fst (spoken h x)) inbox' w' /\ act_phase hash shuffle lower upper n w = Ret p /\ finish_round p = Ret (w', f) /\
    filter heard (sent (p_world p)) = filter heard (snd (spoken h x)) /\
    Permutation (map snd h ++ accepted acc inbox') (accepted acc inbox ++ filter (for_us i acc) (sent (p_world p))).
Proof.
  intros (Hwf & Fi & Mu) H. pose proof (round_spec _ _ _ _ _ _ _ _ Hwf H) as (Hwf' & _).
  unfold round in H. destruct (act_phase hash shuffle lower upper n w) as [p| |] eqn:Ea; [|discriminate|discriminate].
  pose proof H as Hfin. unfold finish_round in H. destruct (send_messages (p_world p)) as [[w1 c]| |] eqn:Es; [|discriminate|discriminate]. assert (w1 = w') as -> by congruence. clear H.
  pose proof (act_wf _ _ _ _ _ _ _ Hwf Ea) as Hwp. destruct (act_phase_spec _ _ _ _ _ _ _ Hwf Ea) as (_ & _ & HA & HN).
  destruct (send_ret _ _ _ (wf_sorted _ Hwp) Es) as (_ & _ & _ & _ & _ & _ & A & T).
  pose proof (inbox_sorted w i _ Hwf Fi) as Si. cbn [ag_inbox] in Si.
  assert (Pp : forall j a, j <> i -> im_find j (agents (p_world p)) = Some a -> (forall inbox x lower upper s o t, handle shuffle (mk_agent (ag_comm a) (ag_act a) inbox (x, [])) lower upper s = Ret (o, t) -> Forall (fun m => read m = None) (snd o)) /\ Forall (fun m => read m = None) (ag_outbox a)).
  { intros j a' Hj Ha'. destruct (im_find j (agents w)) as [a|] eqn:E; [|destruct (HN j) as [X _]; [unfold local; congruence|congruence]]. destruct (Mu j a Hj E) as [Po Pa]. destruct (HA j a E) as [H1 H2].
    destruct (due_dec w lower j (wf_sorted _ Hwf)) as [D|D].
    - destruct (H1 D) as (o & t & Eh & _ & Ef & _). rewrite Ef in Ha'. injection Ha' as <-. split; [exact Pa|]. unfold ag_outbox in *. cbn [ag_own]. destruct a as [ac aa ai [ao1 ao2]]. cbn in Po. subst ao2. exact (Pa ai ao1 lower upper _ o t Eh).
    - destruct (H2 D) as [Ef _]. rewrite Ef in Ha'. injection Ha' as <-. split; [exact Pa|]. rewrite Po. constructor. }
  assert (Mu' : forall j a, j <> i -> im_find j (agents w') = Some a -> hushed a).
  { intros j a' Hj Ha'. rewrite A in Ha'. destruct (im_find j (agents (p_world p))) as [a|] eqn:E; [|discriminate]. cbn in Ha'. injection Ha' as <-. destruct (Pp j a Hj E) as [P1 _]. split; [reflexivity|exact P1]. }
  assert (Out : forall a, im_find i (agents (p_world p)) = Some a -> filter heard (sent (p_world p)) = filter heard (ag_outbox a)).
  { intros a Ha. unfold sent. apply (only_one (@ag_outbox St) (agents (p_world p)) a); [apply Hwp|exact Ha|]. intros j b Hj Hb. apply filter_none, (proj2 (Pp j b Hj Hb)). }
  set (mail := filter (addressed_to i) (sent (p_world p))) in *.
  destruct (HA i _ Fi) as [H1 H2]. destruct (due_dec w lower i (wf_sorted _ Hwf)) as [D|D].
  - destruct (H1 D) as (o & t & Eh & Lt & Ef & Ew). destruct (Hd _ _ _ _ _ _ _ Si Eh) as (order & Ho & Eo).
    exists (map (fun m => (lower, m)) order), (insert_all mail (filter (fun x => fst x >? lower) inbox)), p.
    assert (Fi' : im_find i (agents w') = Some (mk_agent comm act (insert_all mail (filter (fun x => fst x >? lower) inbox)) (fst (spoken (map (fun m => (lower, m)) order) x), []))).
    { rewrite A, Ef. cbn. unfold with_mail, cleared. cbn. fold mail. rewrite Eo. reflexivity. }
    assert (Ss : StronglySorted key_le (filter (fun x : Z * message => fst x >? lower) inbox)). { pose proof (inbox_sorted _ i _ Hwp Ef) as X. exact X. }
    split; [split; [exact Hwf'|split; [exact Fi'|exact Mu']]|]. split; [reflexivity|]. split; [exact Hfin|]. split; [rewrite (Out _ Ef); unfold ag_outbox; cbn [ag_own]; now rewrite Eo|].
    rewrite map_map. cbn [snd]. rewrite map_id, (insert_accepted _ _ _ Ss), app_assoc, Ho, split_inbox. unfold mail. rewrite for_us_filter. reflexivity.
  - destruct (H2 D) as [Ef Ew]. exists [], (insert_all mail inbox), p.
    assert (Fi' : im_find i (agents w') = Some (mk_agent comm act (insert_all mail inbox) (x, []))).
    { rewrite A, Ef. cbn. unfold with_mail, cleared. cbn. reflexivity. }
    split; [split; [exact Hwf'|split; [exact Fi'|exact Mu']]|]. split; [reflexivity|]. split; [exact Hfin|]. split; [rewrite (Out _ Ef); reflexivity|].
    cbn [map app]. rewrite (insert_accepted _ _ _ Si). unfold mail. rewrite for_us_filter. reflexivity.
Qed.
Lemma spoken_snd h1 h2 x : snd (spoken (h1 ++ h2) x) = snd (spoken h1 x) ++ snd (spoken h2 (fst (spoken h1 x))).
Proof. rewrite spoken_app. destruct (spoken h1 x) as [x1 l1]. cbn [fst snd]. destruct (spoken h2 x1). reflexivity. Qed.
Lemma spoken_fst h1 h2 x : fst (spoken (h1 ++ h2) x) = fst (spoken h2 (fst (spoken h1 x))).
Proof. rewrite spoken_app. destruct (spoken h1 x) as [x1 l1]. cbn [fst]. destruct (spoken h2 x1). reflexivity. Qed.
Lemma vocal_rounds fuel lower upper : forall n x inbox w w' t, vocal x inbox w -> rounds hash shuffle fuel lower upper n w = Some (Ret (w', t)) ->
  exists h inbox' ms, vocal (fst (spoken h x)) inbox' w' /\ rounds_sending hash shuffle w ms w' /\ filter heard ms = filter heard (snd (spoken h x)) /\
    Permutation (map snd h ++ accepted acc inbox') (accepted acc inbox ++ filter (for_us i acc) ms).
Proof.
  induction fuel as [|fuel IH]; intros n x inbox w w' t S H; [discriminate|]. cbn [rounds] in H.
  destruct (round hash shuffle lower upper n w) as [[w1 f]| |] eqn:E; [|discriminate|discriminate]. destruct (vocal_round _ _ _ _ _ _ _ _ S E) as (h1 & inbox1 & p & S1 & Ea & Ef & O1 & P1). destruct (lower >=? f) eqn:L.
  - destruct (IH _ _ _ _ _ _ S1 H) as (h2 & inbox2 & ms & S2 & R2 & O2 & P2). exists (h1 ++ h2), inbox2, (sent (p_world p) ++ ms). rewrite spoken_fst, spoken_snd. split; [exact S2|]. split; [econstructor; eassumption|]. split; [rewrite !filter_app; congruence|].
    rewrite map_app, filter_app. eapply balance; eassumption.
  - injection H as <- <-. exists h1, inbox1, (sent (p_world p) ++ []). split; [exact S1|]. split; [econstructor; [eassumption|eassumption|constructor]|]. rewrite app_nil_r. split; assumption.
Qed.
Lemma vocal_run fuel : forall lower x inbox w w' ts, vocal x inbox w -> run_from hash shuffle fuel lower w = Some (Ret (w', ts)) ->
  exists h inbox' ms, vocal (fst (spoken h x)) inbox' w' /\ rounds_sending hash shuffle w ms w' /\ filter heard ms = filter heard (snd (spoken h x)) /\
    Permutation (map snd h ++ accepted acc inbox') (accepted acc inbox ++ filter (for_us i acc) ms).
Proof.
  induction fuel as [|fuel IH]; intros lower x inbox w w' ts S H; [discriminate|]. cbn [run_from] in H.
  destruct (step hash shuffle (Datatypes.S fuel) lower (w_end w) w) as [[[w1 t]| |]|] eqn:E; try discriminate. unfold step in E. destruct (Interval.ti_empty lower (w_end w)); [discriminate|].
  destruct (vocal_rounds _ _ _ _ _ _ _ _ _ S E) as (h1 & inbox1 & ms1 & S1 & R1 & O1 & P1).
  destruct (t <? w_end w1) eqn:Et.
  - destruct (run_from hash shuffle fuel t w1) as [[[w2 ts2]| |]|] eqn:E2; try discriminate. injection H as <- <-. destruct (IH _ _ _ _ _ _ S1 E2) as (h2 & inbox2 & ms2 & S2 & R2 & O2 & P2).
    exists (h1 ++ h2), inbox2, (ms1 ++ ms2). rewrite spoken_fst, spoken_snd. split; [exact S2|]. split; [eapply sending_app; eassumption|]. split; [rewrite !filter_app; congruence|]. rewrite map_app, filter_app. eapply balance; eassumption.
  - injection H as <- <-. exists h1, inbox1, ms1. split; [exact S1|]. split; [exact R1|]. split; assumption.
Qed.
End Speaking.

Section Exchange.
Context (delay : identity -> Z) (event_of : message -> Exchange.event) (post : Exchange.message -> message) (watchful : bool).
Context {T : Type} (shuffle : seed -> list message -> list message) (Hsh : forall s l, Permutation (shuffle s l) l) (random : bool).
Notation cb := (exchange_callback delay event_of post).
Definition replied (now : Z) (m : message) (x : role T) : role T * list message :=
  match x with
  | Hall (Ret x) => match Exchange.handle delay now (event_of m) x with Ret (x', ms) => (Hall (Ret x'), map post ms) | Throw => (Hall Throw, []) | UB => (Hall UB, []) end
  | r => (r, [])
  end.
Lemma handle_all_replied c lower upper s ms : forall acc (o o' : @own (role T)) t, (forall m, In m ms -> fm_find (m_type m) (callbacks c) = Some [(0, cb)]) ->
  handle_all c lower upper s ms acc o = Ret (o', t) -> o' = let '(x, l) := spoken replied (map (fun m => (lower, m)) ms) (fst o) in (x, snd o ++ l).
Proof.
  induction ms as [|m ms IH]; intros acc o o' t F H; cbn [handle_all] in H; [injection H as <- <-; cbn; rewrite app_nil_r; now destruct o|].
  destruct (process_message c lower upper s m o) as [[o1 t1]| |] eqn:E; [|discriminate|discriminate]. cbn [map spoken fst snd].
  assert (X : o1 = let '(x, l) := replied lower m (fst o) in (x, snd o ++ l)).
  { unfold process_message in E. rewrite (F m (or_introl eq_refl)) in E. cbn [rev app call_all] in E. destruct (cb m lower upper s o) as [o2 t2] eqn:Ec. destruct ((lower <=? t2) && (t2 <=? upper)); [|discriminate].
    assert (o2 = o1) by (cbn in E; congruence). subst o2. unfold exchange_callback in Ec. unfold replied. destruct o as [ox ol]. cbn [fst snd] in *. destruct ox as [[x| |]|];
      [|injection Ec as <- <-; now rewrite app_nil_r|injection Ec as <- <-; now rewrite app_nil_r|injection Ec as <- <-; now rewrite app_nil_r].
    destruct (Exchange.handle delay lower (event_of m) x) as [[x' out]| |]; injection Ec as <- <-; rewrite ?app_nil_r; reflexivity. }
  rewrite (IH _ _ _ _ (fun m' Hm => F m' (or_intror Hm)) H), X. destruct (replied lower m (fst o)) as [x1 l1]. cbn [fst snd]. destruct (spoken replied (map (fun m0 => (lower, m0)) ms) x1) as [x2 l2]. now rewrite app_assoc.
Qed.
Lemma exchange_speaks inbox x lower upper s o' t : StronglySorted key_le inbox ->
  handle shuffle (mk_agent (lock (exchange_communicator delay event_of post random)) (exchange_act watchful) inbox (x, [])) lower upper s = Ret (o', t) ->
  exists order, Permutation order (filter for_exchange (due lower inbox)) /\ o' = spoken replied (map (fun m => (lower, m)) order) x.
Proof.
  intros S H. unfold handle in H. cbn [ag_comm ag_inbox ag_own ag_act] in H. destruct (exchange_registers delay event_of post (T:=T) random) as (c & R & Ec & Hc). rewrite Ec in H. unfold process_messages in H.
  assert (Eo : handling_order (lock c) shuffle lower s inbox = handling_order c shuffle lower s inbox).
  { unfold handling_order. f_equal. f_equal. f_equal. f_equal. generalize (@nil (Z * message)). clear. induction inbox as [|[t m] l IH]; intros acc; [reflexivity|]. cbn [by_priority].
    change (callbacks (lock c)) with (callbacks c). destruct (t >? lower); [reflexivity|]. destruct (fm_find (m_type m) (callbacks c)) as [[|y z]|]; apply IH. }
  assert (I8 : Forall (fun r => int8 (r_priority r)) (@enrolments delay event_of post T)) by (repeat constructor; unfold int8; cbn; lia).
  destruct (order_spec random (enrolments delay event_of post) c shuffle lower s inbox R I8 S Hsh) as (P & _). rewrite Eo in H.
  exists (handling_order c shuffle lower s inbox). split; [rewrite P; erewrite filter_ext; [reflexivity|]; intros m; unfold for_exchange, handled; cbn [enrolments map existsb r_type]; now rewrite !(Z.eqb_sym (m_type m))|].
  destruct (handle_all (lock c) lower upper s (handling_order c shuffle lower s inbox) upper (x, [])) as [[o1 t1]| |] eqn:E; [|discriminate|discriminate].
  cbn [exchange_act] in H. assert (o1 = o') by (unfold exchange_act in H; congruence). subst o1. eapply handle_all_replied in E.
  2:{ intros m Hm. apply (Permutation_in _ P) in Hm. apply filter_In in Hm. apply Hc, Hm. }
  cbn [fst snd app] in E. rewrite E. destruct (spoken replied _ x). reflexivity.
Qed.
Lemma spoken_operate h : forall x x' l, spoken replied h (Hall (Ret x)) = (Hall (Ret x'), l) ->
  exists ms, Exchange.operate delay (map (fun p => (fst p, event_of (snd p))) h) x = Ret (x', ms) /\ l = map post ms.
Proof.
  assert (Q : forall h r, (forall x, r <> Ret x) -> fst (spoken replied h (Hall r)) = Hall r).
  { clear h. induction h as [|p h IH]; intros r Hr; [reflexivity|]. cbn [spoken]. destruct r as [x| |]; [now contradiction (Hr x)| |]; cbn [replied]; specialize (IH _ Hr); destruct (spoken replied h _) as [x2 l2]; cbn [fst] in *; exact IH. }
  induction h as [|[t m] h IH]; intros x x' l H; cbn [spoken] in H; [injection H as <- <-; exists []; now split|]. cbn [map fst snd Exchange.operate] in *. cbn [replied] in H.
  destruct (Exchange.handle delay t (event_of m) x) as [[x1 ms1]| |].
  - destruct (spoken replied h (Hall (Ret x1))) as [x2 l2] eqn:E. injection H as -> <-. destruct (IH _ _ _ E) as (ms2 & -> & ->). exists (ms1 ++ ms2). split; [reflexivity|now rewrite map_app].
  - specialize (Q h Throw ltac:(discriminate)). destruct (spoken replied h (Hall Throw)) as [x2 l2]. cbn [fst] in Q. injection H as -> _. discriminate.
  - specialize (Q h UB ltac:(discriminate)). destruct (spoken replied h (Hall UB)) as [x2 l2]. cbn [fst] in Q. injection H as -> _. discriminate.
Qed.
Lemma exchange_transcript {R} (read : message -> option R) hash fuel lower i x (w w' : world (role T)) ts a x' : well_formed w ->
  im_find i (agents w) = Some (exchange_agent delay event_of post watchful random x) -> (forall j b, j <> i -> im_find j (agents w) = Some b -> hushed shuffle read b) ->
  run_from hash shuffle fuel lower w = Some (Ret (w', ts)) -> im_find i (agents w') = Some a -> fst (ag_own a) = Hall (Ret x') ->
  exists h sent ms, rounds_sending hash shuffle w sent w' /\
    Permutation (map snd h ++ filter for_exchange (map snd (ag_inbox a))) (filter (fun m => addressed_to i m && for_exchange m) sent) /\
    Exchange.operate delay (map (fun p => (fst p, event_of (snd p))) h) x = Ret (x', ms) /\ filter (heard read) sent = filter (heard read) (map post ms).
Proof.
  intros W F M H Fa Ea. assert (V : vocal shuffle i (lock (exchange_communicator delay event_of post random)) (exchange_act watchful) read (Hall (Ret x)) [] w) by (split; [exact W|split; [exact F|exact M]]).
  destruct (vocal_run hash shuffle i replied for_exchange _ _ read exchange_speaks fuel _ _ _ _ _ _ V H) as (h & inbox & sent & (_ & F' & _) & R' & O & P). rewrite F' in Fa. injection Fa as <-. cbn [ag_own fst ag_inbox] in *.
  destruct (spoken replied h (Hall (Ret x))) as [y l] eqn:E. cbn [fst snd] in *. subst y. destruct (spoken_operate _ _ _ _ E) as (ms & Eo & ->). exists h, sent, ms. split; [exact R'|]. split; [exact P|]. split; [exact Eo|exact O].
Qed.
End Exchange.
