From Verif Require Import Base Identity Identity_proofs IdMap IdMap_proofs Multimap Multimap_proofs Communicator Simulation Simulation_spec.
From Coq Require Import ZifyBool.

Section Delivery.
Context {St : Type}.
Implicit Types (w : world St) (a : agent St).

Definition insert_all (ms : list message) (inbox : list (Z * message)) : list (Z * message) :=
  fold_left (fun acc m => mm_insert (m_received m) m acc) ms inbox.
Definition with_mail (ms : list message) a : agent St := with_inbox a (insert_all ms (ag_inbox a)).
Definition sorted_world w : Prop := im_sorted (agents w) /\ im_sorted (wake_up_times w).

Lemma insert_all_app l1 l2 b : insert_all (l1 ++ l2) b = insert_all l2 (insert_all l1 b).
Proof. apply fold_left_app. Qed.
Lemma with_mail_nil a : with_mail [] a = a.
Proof. now destruct a. Qed.
Lemma with_mail_app l1 l2 a : with_mail (l1 ++ l2) a = with_mail l2 (with_mail l1 a).
Proof. unfold with_mail. now rewrite insert_all_app. Qed.

Lemma deliver_spec w m : sorted_world w ->
  (im_find (m_recipient m) (agents w) = None -> deliver w m = Throw) /\
  (im_find (m_recipient m) (agents w) <> None -> exists w', deliver w m = Ret w' /\ sorted_world w' /\
     map fst (agents w') = map fst (agents w) /\ w_end w' = w_end w /\ w_sample w' = w_sample w /\
     (forall i, im_find i (agents w') = option_map (with_mail (filter (addressed_to i) [m])) (im_find i (agents w))) /\
     (forall i, im_find i (wake_up_times w') = wake_up_after (im_find i (wake_up_times w)) (filter (addressed_to i) [m]))).
Proof.
  intros [Ha Hw]. unfold deliver. destruct (im_find (m_recipient m) (agents w)) as [r|] eqn:E; split; try congruence. intros _.
  eexists. split; [reflexivity|]. cbn [agents wake_up_times w_end w_sample]. split; [split; now apply im_set_sorted|].
  split; [apply im_set_keys; [exact Ha|congruence]|]. split; [reflexivity|]. split; [reflexivity|]. split.
  - intros i. rewrite im_find_set by exact Ha. cbn [filter]. unfold addressed_to. destruct (id_eqb (m_recipient m) i) eqn:Ei.
    + apply id_eqb_eq in Ei. subst i. rewrite E. reflexivity.
    + destruct (im_find i (agents w)); cbn; [now rewrite with_mail_nil|reflexivity].
  - intros i. rewrite im_find_set by exact Hw. cbn [filter]. unfold addressed_to. destruct (id_eqb (m_recipient m) i) eqn:Ei; [|reflexivity].
    apply id_eqb_eq in Ei. subst i. cbn. unfold earlier. destruct (im_find (m_recipient m) (wake_up_times w)); reflexivity.
Qed.
Lemma filter_cons_app {X} (f : X -> bool) x l : filter f (x :: l) = filter f [x] ++ filter f l.
Proof. cbn. destruct (f x); reflexivity. Qed.
Lemma find_keys {V W} (m1 : idmap V) (m2 : idmap W) i : im_sorted m1 -> im_sorted m2 -> map fst m1 = map fst m2 -> (im_find i m1 = None <-> im_find i m2 = None).
Proof. intros H1 H2 E. rewrite !im_find_none by assumption. now rewrite E. Qed.

Lemma deliver_all_spec ms : forall w, sorted_world w ->
  ((exists m, In m ms /\ im_find (m_recipient m) (agents w) = None) -> deliver_all w ms = Throw) /\
  ((forall m, In m ms -> im_find (m_recipient m) (agents w) <> None) -> exists w', deliver_all w ms = Ret w' /\ sorted_world w' /\
     map fst (agents w') = map fst (agents w) /\ w_end w' = w_end w /\ w_sample w' = w_sample w /\
     (forall i, im_find i (agents w') = option_map (with_mail (filter (addressed_to i) ms)) (im_find i (agents w))) /\
     (forall i, im_find i (wake_up_times w') = wake_up_after (im_find i (wake_up_times w)) (filter (addressed_to i) ms))).
Proof.
  induction ms as [|m ms IH]; intros w Hw.
  - split; [intros (m & [] & _)|]. intros _. exists w. cbn. split; [reflexivity|]. split; [exact Hw|]. repeat split; auto.
    intros i. destruct (im_find i (agents w)); cbn; [now rewrite with_mail_nil|reflexivity].
  - destruct (deliver_spec w m Hw) as [D1 D2]. destruct (im_find (m_recipient m) (agents w)) as [r|] eqn:E.
    + destruct D2 as (w1 & E1 & S1 & K1 & N1 & P1 & A1 & T1); [congruence|]. cbn [deliver_all]. rewrite E1.
      destruct (IH w1 S1) as [I1 I2]. split.
      * intros (m' & [<-|Hm] & Hn); [congruence|]. apply I1. exists m'. split; [exact Hm|]. eapply find_keys; [exact (proj1 S1)|exact (proj1 Hw)|exact K1|exact Hn].
      * intros Hall. destruct I2 as (w2 & E2 & S2 & K2 & N2 & P2 & A2 & T2).
        { intros m' Hm Hn. apply (Hall m' (or_intror Hm)). eapply find_keys; [exact (proj1 Hw)|exact (proj1 S1)|symmetry; exact K1|exact Hn]. }
        exists w2. split; [exact E2|]. split; [exact S2|]. split; [congruence|]. split; [congruence|]. split; [congruence|]. split.
        -- intros i. rewrite A2, A1, (filter_cons_app _ m ms). destruct (im_find i (agents w)); cbn [option_map]; [|reflexivity]. now rewrite with_mail_app.
        -- intros i. rewrite T2, T1, (filter_cons_app _ m ms). unfold wake_up_after. now rewrite fold_left_app.
    + split.
      * intros _. cbn [deliver_all]. now rewrite D1.
      * intros Hall. exfalso. apply (Hall m (or_introl eq_refl)). exact E.
Qed.

Definition outbox_of w (i : identity) : list message := match im_find i (agents w) with Some a => ag_outbox a | None => [] end.
Definition cleared a : agent St := with_own a (fst (ag_own a), []).
Definition is_in (ids : list identity) (i : identity) : bool := existsb (fun j => id_eqb j i) ids.
Lemma is_in_iff ids i : is_in ids i = true <-> In i ids.
Proof. unfold is_in. rewrite existsb_exists. split; [intros (j & Hj & E); apply id_eqb_eq in E; now subst|]. intros H. exists i. split; [exact H|apply id_eqb_refl]. Qed.
Lemma with_mail_outbox ms a : ag_outbox (with_mail ms a) = ag_outbox a.
Proof. reflexivity. Qed.

Lemma send_all_spec ids : forall w c, sorted_world w -> NoDup ids -> (forall i, In i ids -> im_find i (agents w) <> None) ->
  let ms := concat (map (outbox_of w) ids) in
  ((exists m, In m ms /\ im_find (m_recipient m) (agents w) = None) -> send_all w ids c = Throw) /\
  ((forall m, In m ms -> im_find (m_recipient m) (agents w) <> None) -> exists w', send_all w ids c = Ret (w', c + Z.of_nat (length ms)) /\ sorted_world w' /\
     map fst (agents w') = map fst (agents w) /\ w_end w' = w_end w /\ w_sample w' = w_sample w /\
     (forall i, im_find i (agents w') = option_map (fun a => let a1 := with_mail (filter (addressed_to i) ms) a in if is_in ids i then cleared a1 else a1) (im_find i (agents w))) /\
     (forall i, im_find i (wake_up_times w') = wake_up_after (im_find i (wake_up_times w)) (filter (addressed_to i) ms))).
Proof.
  induction ids as [|i ids IH]; intros w c Hw Hnd Hloc; cbn zeta.
  - cbn. split; [intros (m & [] & _)|]. intros _. exists w. split; [do 2 f_equal; lia|]. split; [exact Hw|]. repeat split; auto.
    intros i. destruct (im_find i (agents w)); cbn; [now rewrite with_mail_nil|reflexivity].
  - inversion Hnd as [|? ? Hni Hnd']; subst. cbn [map concat].
    destruct (im_find i (agents w)) as [a|] eqn:E; [|exfalso; eapply Hloc; [left; reflexivity|exact E]].
    assert (Eo : outbox_of w i = ag_outbox a) by (unfold outbox_of; now rewrite E).
    cbn [send_all]. unfold send_from. rewrite E, Eo.
    destruct (deliver_all_spec (ag_outbox a) w Hw) as [D1 D2].
    assert (Hdec : (exists m, In m (ag_outbox a) /\ im_find (m_recipient m) (agents w) = None) \/ (forall m, In m (ag_outbox a) -> im_find (m_recipient m) (agents w) <> None)).
    { clear. induction (ag_outbox a) as [|m l IHl]; [right; intros m []|]. destruct (im_find (m_recipient m) (agents w)) eqn:E.
      - destruct IHl as [(m' & H1 & H2)|H]; [left; exists m'; cbn; auto|]. right. intros m' [<-|Hm]; [congruence|auto].
      - left. exists m. cbn. auto. }
    destruct Hdec as [Hbad|Hok].
    + rewrite (D1 Hbad). split; [reflexivity|]. intros Hall. exfalso. destruct Hbad as (m & Hm & Hn). apply (Hall m); [apply in_or_app; auto|exact Hn].
    + destruct (D2 Hok) as (w1 & E1 & S1 & K1 & N1 & P1 & A1 & T1). rewrite E1.
      pose proof (A1 i) as A1i. rewrite E in A1i. cbn [option_map] in A1i. rewrite A1i.
      set (a1 := with_mail (filter (addressed_to i) (ag_outbox a)) a) in *.
      set (w2 := mk_world (im_set i (with_own a1 (fst (ag_own a1), [])) (agents w1)) (wake_up_times w1) (w_end w1) (w_sample w1)).
      assert (S2 : sorted_world w2) by (split; [apply im_set_sorted; apply S1|apply S1]).
      assert (K2 : map fst (agents w2) = map fst (agents w)) by (cbn; rewrite im_set_keys; [exact K1|apply S1|congruence]).
      assert (F2 : forall j, im_find j (agents w2) = if id_eqb i j then Some (cleared a1) else im_find j (agents w1)) by (intros j; cbn; apply im_find_set; apply S1).
      assert (O2 : map (outbox_of w2) ids = map (outbox_of w) ids).
      { apply map_ext_in. intros j Hj. unfold outbox_of. rewrite F2. rewrite id_eqb_neq by (intros ->; contradiction). rewrite A1. destruct (im_find j (agents w)); reflexivity. }
      destruct (IH w2 (c + Z.of_nat (length (ag_outbox a))) S2 Hnd') as [I1 I2].
      { intros j Hj Hn. apply (Hloc j (or_intror Hj)). eapply find_keys; [exact (proj1 Hw)|exact (proj1 S2)|symmetry; exact K2|exact Hn]. }
      cbn zeta in I1, I2. rewrite O2 in I1, I2. set (ms2 := concat (map (outbox_of w) ids)) in *. split.
      * intros (m & Hm & Hn). apply I1. apply in_app_or in Hm. destruct Hm as [Hm|Hm]; [exfalso; eapply Hok; eauto|]. exists m. split; [exact Hm|]. eapply find_keys; [exact (proj1 S2)|exact (proj1 Hw)|exact K2|exact Hn].
      * intros Hall. destruct I2 as (w3 & E3 & S3 & K3 & N3 & P3 & A3 & T3).
        { intros m Hm Hn. apply (Hall m (in_or_app _ _ _ (or_intror Hm))). eapply find_keys; [exact (proj1 Hw)|exact (proj1 S2)|symmetry; exact K2|exact Hn]. }
        exists w3. split; [rewrite E3; do 2 f_equal; rewrite app_length; lia|]. split; [exact S3|]. split; [congruence|].
        split; [cbn in N3; congruence|]. split; [cbn in P3; congruence|]. split.
        -- intros j. rewrite A3, F2. cbn [is_in existsb]. rewrite filter_app. destruct (id_eqb i j) eqn:Ej.
           ++ apply id_eqb_eq in Ej. subst j. rewrite E. cbn [option_map orb]. f_equal. unfold is_in in *.
              destruct (existsb (fun j => id_eqb j i) ids) eqn:X; [exfalso; apply Hni; apply is_in_iff; exact X|].
              rewrite with_mail_app. fold a1. reflexivity.
           ++ rewrite A1. destruct (im_find j (agents w)); cbn [option_map orb]; [|reflexivity]. fold (is_in ids j). rewrite with_mail_app. reflexivity.
        -- intros j. rewrite T3. cbn. rewrite T1, filter_app. unfold wake_up_after. now rewrite fold_left_app.
Qed.
Lemma send_spec w : sorted_world w ->
  ((exists m, In m (sent w) /\ ~ local w (m_recipient m)) -> send_messages w = Throw) /\
  ((forall m, In m (sent w) -> local w (m_recipient m)) -> exists w', send_messages w = Ret (w', Z.of_nat (length (sent w))) /\ sorted_world w' /\
     map fst (agents w') = map fst (agents w) /\ w_end w' = w_end w /\ w_sample w' = w_sample w /\
     (forall i, im_find i (agents w') = option_map (fun a => cleared (with_mail (filter (addressed_to i) (sent w)) a)) (im_find i (agents w))) /\
     (forall i, im_find i (wake_up_times w') = wake_up_after (im_find i (wake_up_times w)) (filter (addressed_to i) (sent w)))).
Proof.
  intros Hw. unfold send_messages, local.
  assert (Es : concat (map (outbox_of w) (map fst (agents w))) = sent w).
  { unfold sent. f_equal. rewrite map_map. apply map_ext_in. intros [i a] Hi. unfold outbox_of. cbn [fst snd]. apply im_find_in in Hi; [|apply Hw]. now rewrite Hi. }
  destruct (send_all_spec (map fst (agents w)) w 0 Hw) as [S1 S2].
  - apply im_keys_nodup. apply Hw.
  - intros i Hi Hn. apply im_find_none in Hn; [contradiction|apply Hw].
  - cbn zeta in S1, S2. rewrite Es in S1, S2. split.
    + intros (m & Hm & Hn). apply S1. exists m. split; [exact Hm|]. destruct (im_find (m_recipient m) (agents w)); [|reflexivity]. exfalso. apply Hn. discriminate.
    + intros H. destruct (S2 H) as (w' & E & S & K & N & P & A & T). exists w'. split; [rewrite E; do 2 f_equal; lia|]. repeat split; try assumption; try apply S.
      intros i. rewrite A. destruct (im_find i (agents w)) eqn:Ei; cbn [option_map]; [|reflexivity]. do 2 f_equal.
      assert (X : is_in (map fst (agents w)) i = true). { apply is_in_iff. destruct (in_dec (list_eq_dec Z.eq_dec) i (map fst (agents w))) as [|X]; [assumption|]. apply im_find_none in X; [congruence|apply Hw]. }
      rewrite X. reflexivity.
Qed.

Lemma insert_all_spec ms inbox : StronglySorted key_le inbox -> StronglySorted key_le (insert_all ms inbox) /\
  Permutation (insert_all ms inbox) (inbox ++ map (fun m => (m_received m, m)) ms) /\
  forall t, filter (key_is t) (insert_all ms inbox) = filter (key_is t) inbox ++ filter (key_is t) (map (fun m => (m_received m, m)) ms).
Proof.
  revert inbox. induction ms as [|m ms IH]; intros inbox Hs; cbn; [rewrite app_nil_r; split; [exact Hs|]; split; [reflexivity|intros t; now rewrite app_nil_r]|].
  destruct (IH _ (mm_insert_sorted (m_received m) m inbox Hs)) as (H1 & H2 & H3). split; [exact H1|]. split.
  - unfold insert_all in H2. rewrite H2, mm_insert_perm. now rewrite <- app_assoc.
  - intros t. fold (insert_all ms (mm_insert (m_received m) m inbox)). rewrite H3, mm_insert_filter by exact Hs. rewrite <- app_assoc. f_equal. change (key_is t (m_received m, m)) with (m_received m =? t). destruct (m_received m =? t); reflexivity.
Qed.
End Delivery.
