From Verif Require Import Base Interval Identity Identity_proofs IdMap IdMap_proofs Multimap Multimap_proofs Communicator Communicator_spec Communicator_proofs
  Simulation Inventory Inventory_spec Inventory_proofs Messages Ownership Ownership_spec.
From Verif Require Simulation_spec Communicator_props.
From Verif Require Import Simulation_proofs Simulation_proofs2 Simulation_proofs3.
From Coq Require Import ZifyBool ZifyNat Znumtheory.

Lemma zsum_app l1 l2 : zsum (l1 ++ l2) = zsum l1 + zsum l2.
Proof. induction l1 as [|x l1 IH]; cbn; [reflexivity|]. unfold zsum in *. cbn. lia. Qed.
Lemma zsum_cons x l : zsum (x :: l) = x + zsum l.
Proof. reflexivity. Qed.
Lemma zsum_perm l1 l2 : Permutation l1 l2 -> zsum l1 = zsum l2.
Proof. intros H. induction H; rewrite ?zsum_cons in *; lia. Qed.
Lemma zsum_plus {T} (f g : T -> Z) l : zsum (map (fun x => f x + g x) l) = zsum (map f l) + zsum (map g l).
Proof. induction l as [|x l IH]; [reflexivity|]. cbn [map]. rewrite !zsum_cons. lia. Qed.

Section Accounts.
Context {St : Type} (modulus : Z) (worth : identity -> St -> Z) (effect : message -> Z) (good : identity -> St -> Prop) (fit : message -> Prop).
Context (hash : identity -> Z) (shuffle : seed -> list message -> list message).
Notation same := (same modulus).
Notation in_transit := (in_transit effect).
Notation proper := (proper good fit).
Notation balance := (balance worth effect).
Notation keeps_accounts := (keeps_accounts modulus worth effect good fit).
Notation account := (account worth effect).
Notation orderly := (orderly modulus worth effect good fit).

Lemma same_refl x : same x x.
Proof. unfold Ownership_spec.same. rewrite Z.sub_diag. apply Z.divide_0_r. Qed.
Lemma same_eq x y : x = y -> same x y.
Proof. intros ->. apply same_refl. Qed.
Lemma same_sym x y : same x y -> same y x.
Proof. intros [k H]. exists (- k). lia. Qed.
Lemma same_trans x y z : same x y -> same y z -> same x z.
Proof. intros [k H] [j G]. exists (k + j). lia. Qed.
Lemma same_add x y u v : same x y -> same u v -> same (x + u) (y + v).
Proof. intros [k H] [j G]. exists (k + j). lia. Qed.

Lemma handles_balance i c lower upper s : 
  (forall m o o' t, fit m -> m_recipient m = i -> proper i o -> process_message c lower upper s m o = Ret (o', t) -> proper i o' /\ same (balance i o') (balance i o + effect m)) ->
  forall ms o ts o', Forall (fun m => fit m /\ m_recipient m = i) ms -> proper i o -> handles c lower upper s ms o ts o' ->
  proper i o' /\ same (balance i o') (balance i o + in_transit ms).
Proof.
  intros K ms o ts o' F P H. revert F P. induction H as [o|m ms o o1 t ts o2 Hp Hh IH]; intros F P.
  - split; [exact P|]. apply same_eq. unfold Ownership_spec.in_transit. cbn. lia.
  - apply Forall_cons_iff in F. destruct F as [[F1 F2] F]. destruct (K _ _ _ _ F1 F2 P Hp) as [P1 S1]. destruct (IH F P1) as [P2 S2]. split; [exact P2|].
    eapply same_trans; [exact S2|]. unfold Ownership_spec.in_transit. cbn [map]. rewrite zsum_cons, Z.add_assoc. apply same_add; [exact S1|apply same_refl].
Qed.
Lemma unhandled {A} b (rs : list (registration A)) c lower upper s m a : registers (new_communicator b) rs c -> handled rs m = false ->
  process_message c lower upper s m a = Ret (a, upper).
Proof.
  intros R H. destruct (message_callbacks b rs c lower upper s m a R) as (order & ts & a' & [_ O] & C & G & _).
  assert (E : for_type (m_type m) rs = []).
  { unfold for_type. unfold handled in H. clear - H. induction rs as [|r rs IH]; [reflexivity|]. cbn in *. apply orb_false_iff in H. destruct H as [H1 H2]. rewrite H1. auto. }
  assert (order = []) as ->. { destruct order as [|r order]; [reflexivity|]. specialize (O (r_priority r)). rewrite E in O. cbn in O. rewrite Z.eqb_refl in O. discriminate. }
  cbn in C. inversion C; subst. apply G. constructor.
Qed.
Lemma in_transit_app l1 l2 : in_transit (l1 ++ l2) = in_transit l1 + in_transit l2.
Proof. unfold Ownership_spec.in_transit. rewrite map_app. apply zsum_app. Qed.
Lemma in_transit_perm l1 l2 : Permutation l1 l2 -> in_transit l1 = in_transit l2.
Proof. intros H. apply zsum_perm. now apply Permutation_map. Qed.
Lemma in_transit_cons m l : in_transit (m :: l) = effect m + in_transit l.
Proof. reflexivity. Qed.

Lemma handle_balance i a lower upper s o t : (forall s l, Permutation (shuffle s l) l) -> keeps_accounts i a -> proper i (ag_own a) -> StronglySorted key_le (ag_inbox a) ->
  Forall (fun x => fit (snd x) /\ m_recipient (snd x) = i) (ag_inbox a) -> handle shuffle a lower upper s = Ret (o, t) ->
  proper i o /\ same (balance i o) (balance i (ag_own a) + in_transit (due lower (ag_inbox a))).
Proof.
  intros Hsh ((b & rs & c & R & I8 & Hc) & Km & Ka) P Hs F H. unfold handle in H.
  destruct (process_messages (ag_comm a) shuffle lower upper s (ag_inbox a) (ag_own a)) as [[o1 t1]| |] eqn:E; [|discriminate|discriminate].
  destruct (ag_act a lower upper s o1) as [o2 t2] eqn:Ea. injection H as <- <-.
  assert (Kc : forall m o o' t, fit m -> m_recipient m = i -> proper i o -> process_message c lower upper s m o = Ret (o', t) -> proper i o' /\ same (balance i o') (balance i o + effect m)).
  { intros m o o' t F1 F2 F3 F4. apply (Km lower upper s m o o' t F1 F2 F3). destruct Hc as [->| ->]; [exact F4|]. rewrite lock_same. exact F4. }
  assert (E' : process_messages c shuffle lower upper s (ag_inbox a) (ag_own a) = Ret (o1, t1)).
  { destruct Hc as [Hc|Hc]; rewrite Hc in E; [exact E|]. rewrite lock_same_all in E. exact E. }
  clear E. unfold process_messages in E'. apply handle_all_spec in E'. destruct E' as (ts & Hh & _).
  destruct (order_spec b rs c shuffle lower s (ag_inbox a) R I8 Hs Hsh) as (Po & _).
  assert (Fd : Forall (fun m => fit m /\ m_recipient m = i) (due lower (ag_inbox a))).
  { unfold due. apply Forall_forall. intros m Hm. apply in_map_iff in Hm. destruct Hm as ([k m'] & <- & Hm). apply filter_In in Hm. rewrite Forall_forall in F. exact (F _ (proj1 Hm)). }
  assert (Fo : Forall (fun m => fit m /\ m_recipient m = i) (handling_order c shuffle lower s (ag_inbox a))).
  { apply Forall_forall. intros m Hm. apply (Permutation_in _ Po) in Hm. apply filter_In in Hm. rewrite Forall_forall in Fd. exact (Fd _ (proj1 Hm)). }
  destruct (handles_balance i c lower upper s Kc _ _ _ _ Fo P Hh) as [P1 S1]. destruct (Ka _ _ _ _ _ _ P1 Ea) as [P2 S2]. split; [exact P2|].
  eapply same_trans; [exact S2|]. eapply same_trans; [exact S1|]. apply same_add; [apply same_refl|]. rewrite (in_transit_perm _ _ Po).
  clear - Fd P Kc R. induction (due lower (ag_inbox a)) as [|m l IH]; [apply same_refl|]. apply Forall_cons_iff in Fd. destruct Fd as [[F1 F2] Fd]. specialize (IH Fd).
  rewrite in_transit_cons. cbn [filter]. destruct (handled rs m) eqn:Eh.
  - rewrite in_transit_cons. apply same_add; [apply same_refl|exact IH].
  - destruct (Kc m (ag_own a) (ag_own a) upper F1 F2 P (unhandled _ _ _ _ _ _ _ _ R Eh)) as [_ [k Hk]]. destruct IH as [j Hj]. exists (k + j). lia.
Qed.

(** *** The world. *)
Definition contribution (i : identity) (o : option (agent St)) : Z :=
  match o with Some a => balance i (ag_own a) + in_transit (map snd (ag_inbox a)) | None => 0 end.
Lemma account_keys w : im_sorted (agents w) -> account w = zsum (map (fun i => contribution i (im_find i (agents w))) (map fst (agents w))).
Proof.
  intros Hs. unfold Ownership_spec.account. f_equal. rewrite map_map. apply map_ext_in. intros [i a] Hi. cbn [fst snd]. apply im_find_in in Hi; [|exact Hs]. now rewrite Hi.
Qed.
Lemma same_sum (l : list identity) f g : (forall i, In i l -> same (f i) (g i)) -> same (zsum (map f l)) (zsum (map g l)).
Proof.
  induction l as [|i l IH]; intros H; [apply same_refl|]. cbn [map]. rewrite !zsum_cons. apply same_add; [apply H; now left|apply IH; intros j Hj; apply H; now right].
Qed.
Lemma split_due lower (inbox : list (Z * message)) : in_transit (map snd inbox) = in_transit (due lower inbox) + in_transit (map snd (filter (fun x => fst x >? lower) inbox)).
Proof.
  unfold due. induction inbox as [|[k m] l IH]; [reflexivity|]. cbn [map snd filter fst]. rewrite in_transit_cons.
  destruct (Z.leb_spec k lower); destruct (Z.gtb_spec k lower); try lia; cbn [map snd]; rewrite in_transit_cons; lia.
Qed.
Lemma act_account lower upper n w p : (forall s l, Permutation (shuffle s l) l) -> orderly w -> act_phase hash shuffle lower upper n w = Ret p ->
  orderly (p_world p) /\ same (account (p_world p)) (account w).
Proof.
  intros Hsh [Hwf Ho] H. destruct (act_phase_spec hash shuffle lower upper n w p Hwf H) as ((K & _) & [[S1 S2] _] & HA & HN).
  assert (K' : map fst (agents (p_world p)) = map fst (agents w)) by exact K.
  assert (D : forall i, is_in (acting w lower) i = true /\ Simulation_spec.is_due w lower i \/ ~ Simulation_spec.is_due w lower i).
  { intros i. destruct (is_in (acting w lower) i) eqn:X; [left|right]. 
    - split; [reflexivity|]. apply acting_due; [now apply wf_sorted|]. now apply is_in_iff.
    - intros D. apply acting_due in D; [|now apply wf_sorted]. apply is_in_iff in D. congruence. }
  assert (M : forall i a, im_find i (agents w) = Some a -> exists a', im_find i (agents (p_world p)) = Some a' /\ keeps_accounts i a' /\ proper i (ag_own a') /\
    Forall (fun x => fit (snd x) /\ m_recipient (snd x) = i) (ag_inbox a') /\ same (contribution i (Some a')) (contribution i (Some a))).
  { intros i a Ha. destruct (Ho i a Ha) as (A1 & A2 & A3). destruct (HA i a Ha) as [H1 H2]. destruct (D i) as [[_ Di]|Di].
    - destruct (H1 Di) as (o & t & Eh & _ & Ef & _). destruct (handle_balance i a lower upper _ o t Hsh A1 A2 (inbox_sorted w i a Hwf Ha) A3 Eh) as [Po So].
      eexists. split; [exact Ef|]. split; [exact A1|]. split; [exact Po|]. cbn [ag_inbox ag_own contribution]. split.
      + apply Forall_forall. intros x Hx. apply filter_In in Hx. rewrite Forall_forall in A3. apply A3. apply Hx.
      + rewrite (split_due lower (ag_inbox a)). rewrite Z.add_assoc. apply same_add; [exact So|apply same_refl].
    - destruct (H2 Di) as [Ef _]. exists a. split; [exact Ef|]. split; [exact A1|]. split; [exact A2|]. split; [exact A3|apply same_refl]. }
  split.
  - split; [exact (act_wf hash shuffle _ _ _ _ _ Hwf H)|]. intros i a' Ha'. destruct (im_find i (agents w)) as [a|] eqn:Ha.
    + destruct (M i a Ha) as (a2 & E2 & X1 & X2 & X3 & _). assert (a2 = a') as -> by congruence. auto.
    + destruct (HN i) as [E _]; [unfold Simulation_spec.local; congruence|]. congruence.
  - rewrite (account_keys w (proj1 Hwf)), (account_keys (p_world p) S1), K'. apply same_sum. intros i Hi. destruct (im_find i (agents w)) as [a|] eqn:Ha.
    + destruct (M i a Ha) as (a2 & -> & _ & _ & _ & X). exact X.
    + destruct (HN i) as [-> _]; [unfold Simulation_spec.local; congruence|]. apply same_refl.
Qed.

Lemma sum_addressed ids ms : NoDup ids -> (forall m, In m ms -> In (m_recipient m) ids) ->
  zsum (map (fun i => in_transit (filter (Simulation_spec.addressed_to i) ms)) ids) = in_transit ms.
Proof.
  intros N. induction ms as [|m ms IH]; intros H.
  - clear. unfold Ownership_spec.in_transit. cbn. induction ids as [|i ids IH]; [reflexivity|]. cbn [map]. rewrite zsum_cons, IH. reflexivity.
  - rewrite in_transit_cons, <- IH by (intros x Hx; apply H; now right). specialize (H m (or_introl eq_refl)). clear IH.
    induction ids as [|i ids IH]; [destruct H|]. cbn [map]. rewrite !zsum_cons. apply NoDup_cons_iff in N. destruct N as [N1 N2].
    change (filter (Simulation_spec.addressed_to i) (m :: ms)) with (if id_eqb (m_recipient m) i then m :: filter (Simulation_spec.addressed_to i) ms else filter (Simulation_spec.addressed_to i) ms).
    destruct (id_eqb (m_recipient m) i) eqn:E.
    + apply id_eqb_eq in E. rewrite in_transit_cons. assert (X : map (fun j => in_transit (filter (Simulation_spec.addressed_to j) (m :: ms))) ids = map (fun j => in_transit (filter (Simulation_spec.addressed_to j) ms)) ids).
      { apply map_ext_in. intros j Hj. cbn [filter]. unfold Simulation_spec.addressed_to at 1. rewrite id_eqb_neq; [reflexivity|]. intros Y. apply N1. congruence. }
      rewrite X. lia.
    + destruct H as [H|H]; [subst i; rewrite id_eqb_refl in E; discriminate|]. specialize (IH N2 H). lia.
Qed.
Lemma in_concat {T} (x : T) ls : In x (concat ls) <-> exists l, In l ls /\ In x l.
Proof.
  induction ls as [|l ls IH]; cbn; [split; [intros []|intros (? & [] & _)]|]. rewrite in_app_iff, IH. split.
  - intros [H|(k & H1 & H2)]; [exists l; auto|exists k; auto].
  - intros (k & [->|H1] & H2); [auto|right; eauto].
Qed.
Lemma transit_concat ls : in_transit (concat ls) = zsum (map in_transit ls).
Proof. induction ls as [|l ls IH]; [reflexivity|]. cbn [concat map]. rewrite in_transit_app, zsum_cons. lia. Qed.
Lemma send_account w w' n : orderly w -> send_messages w = Ret (w', n) -> orderly w' /\ account w' = account w.
Proof.
  intros [Hwf Ho] H. pose proof (wf_sorted w Hwf) as Hs. destruct (send_ret w w' n Hs H) as (L & _ & [S1 S2] & K & _ & _ & A & _). split.
  - split; [exact (send_wf w w' n Hwf H)|]. intros i a' Ha'. rewrite A in Ha'. destruct (im_find i (agents w)) as [a|] eqn:Ha; [|discriminate]. cbn in Ha'. assert (a' = cleared (with_mail (filter (Simulation_spec.addressed_to i) (Simulation_spec.sent w)) a)) as -> by congruence.
    destruct (Ho i a Ha) as (A1 & [A2 A2'] & A3). split; [exact A1|]. split; [split; [exact A2|constructor]|]. cbn.
    destruct (insert_all_spec (filter (Simulation_spec.addressed_to i) (Simulation_spec.sent w)) (ag_inbox a) (inbox_sorted w i a Hwf Ha)) as (_ & P & _).
    apply Forall_forall. intros x Hx. apply (Permutation_in _ P) in Hx. apply in_app_or in Hx. destruct Hx as [Hx|Hx]; [rewrite Forall_forall in A3; now apply A3|].
    apply in_map_iff in Hx. destruct Hx as (m & <- & Hm). apply filter_In in Hm. destruct Hm as [Hm Hr]. cbn. split; [|now apply id_eqb_eq].
    unfold Simulation_spec.sent in Hm. apply in_concat in Hm. destruct Hm as (l & Hl & Hm). apply in_map_iff in Hl. destruct Hl as ([j b] & <- & Hj). cbn in Hm. apply im_find_in in Hj; [|apply Hs].
    destruct (Ho j b Hj) as (_ & [_ B] & _). rewrite Forall_forall in B. now apply B.
  - rewrite (account_keys w (proj1 Hs)), (account_keys w' S1), K.
    assert (X : forall i, In i (map fst (agents w)) -> contribution i (im_find i (agents w')) + match im_find i (agents w) with Some a => in_transit (ag_outbox a) | None => 0 end = contribution i (im_find i (agents w)) + in_transit (filter (Simulation_spec.addressed_to i) (Simulation_spec.sent w))).
    { intros i Hi. rewrite A. destruct (im_find i (agents w)) as [a|] eqn:Ha; [|apply im_find_none in Ha; [contradiction|apply Hs]]. cbn [option_map contribution].
      destruct (insert_all_spec (filter (Simulation_spec.addressed_to i) (Simulation_spec.sent w)) (ag_inbox a) (inbox_sorted w i a Hwf Ha)) as (_ & P & _).
      unfold Ownership_spec.balance, ag_outbox. cbn [cleared with_mail with_inbox with_own ag_own ag_inbox fst snd].
      rewrite (in_transit_perm _ _ (Permutation_map snd P)), map_app, in_transit_app, map_map. cbn [snd]. rewrite map_id. unfold Ownership_spec.in_transit at 1. cbn. lia. }
    assert (T : zsum (map (fun i => match im_find i (agents w) with Some a => in_transit (ag_outbox a) | None => 0 end) (map fst (agents w))) = in_transit (Simulation_spec.sent w)).
    { unfold Simulation_spec.sent. rewrite transit_concat, !map_map. f_equal. apply map_ext_in. intros [i a] Hi. cbn [fst snd]. apply im_find_in in Hi; [|apply Hs]. now rewrite Hi. }
    pose proof (sum_addressed (map fst (agents w)) (Simulation_spec.sent w) (im_keys_nodup _ (proj1 Hs))) as Q.
    rewrite <- Q in T. 2:{ intros m Hm. apply local_in; [apply Hs|]. now apply L. }
    assert (Y : zsum (map (fun i => contribution i (im_find i (agents w')) + match im_find i (agents w) with Some a => in_transit (ag_outbox a) | None => 0 end) (map fst (agents w))) =
      zsum (map (fun i => contribution i (im_find i (agents w)) + in_transit (filter (Simulation_spec.addressed_to i) (Simulation_spec.sent w))) (map fst (agents w)))).
    { f_equal. apply map_ext_in. exact X. }
    rewrite !zsum_plus in Y. lia.
Qed.
Lemma round_account lower upper n w w' f : (forall s l, Permutation (shuffle s l) l) -> orderly w -> round hash shuffle lower upper n w = Ret (w', f) ->
  orderly w' /\ same (account w') (account w).
Proof.
  intros Hsh Ho H. unfold round in H. destruct (act_phase hash shuffle lower upper n w) as [p| |] eqn:Ea; [|discriminate|discriminate].
  unfold finish_round in H. destruct (send_messages (p_world p)) as [[w1 c]| |] eqn:Es; [|discriminate|discriminate]. assert (w1 = w') as -> by congruence.
  destruct (act_account _ _ _ _ _ Hsh Ho Ea) as [O1 S1]. destruct (send_account _ _ _ O1 Es) as [O2 S2]. split; [exact O2|]. rewrite S2. exact S1.
Qed.
Lemma rounds_account fuel lower upper : (forall s l, Permutation (shuffle s l) l) -> forall n w w' t, orderly w -> rounds hash shuffle fuel lower upper n w = Some (Ret (w', t)) ->
  orderly w' /\ same (account w') (account w).
Proof.
  intros Hsh. induction fuel as [|fuel IH]; intros n w w' t Ho H; cbn [rounds] in H; [discriminate|].
  destruct (round hash shuffle lower upper n w) as [[w1 f]| |] eqn:E; [|discriminate|discriminate].
  destruct (round_account _ _ _ _ _ _ Hsh Ho E) as [O1 S1]. destruct (lower >=? f).
  - destruct (IH _ _ _ _ O1 H) as [O2 S2]. split; [exact O2|]. eapply same_trans; eauto.
  - assert (w1 = w') as -> by congruence. auto.
Qed.
Lemma step_account fuel lower upper w w' t : (forall s l, Permutation (shuffle s l) l) -> orderly w -> step hash shuffle fuel lower upper w = Some (Ret (w', t)) ->
  orderly w' /\ same (account w') (account w).
Proof. intros Hsh Ho H. unfold step in H. destruct (ti_empty lower upper); [discriminate|]. eapply rounds_account; eauto. Qed.
Lemma run_account fuel : (forall s l, Permutation (shuffle s l) l) -> forall lower w w' ts, orderly w -> run_from hash shuffle fuel lower w = Some (Ret (w', ts)) ->
  orderly w' /\ same (account w') (account w).
Proof.
  intros Hsh. induction fuel as [|fuel IH]; intros lower w w' ts Ho H; [discriminate|]. cbn [run_from] in H.
  destruct (step hash shuffle (S fuel) lower (w_end w) w) as [[[w1 t]| |]|] eqn:E; try discriminate.
  destruct (step_account _ _ _ _ _ _ Hsh Ho E) as [O1 S1]. destruct (t <? w_end w1).
  - destruct (run_from hash shuffle fuel t w1) as [[[w2 ts2]| |]|] eqn:E2; try discriminate. assert (w2 = w') as -> by congruence.
    destruct (IH _ _ _ _ O1 E2) as [O2 S2]. split; [exact O2|]. eapply same_trans; eauto.
  - assert (w1 = w') as -> by congruence. auto.
Qed.
End Accounts.

Section Owners.
Context {X : Type} (content : Z -> transfer).
Notation effect := (transfer_effect content).
Notation fit := (fit_transfer content).
Notation balanced := (balanced content).
Notation state := (@owner_state X).

Lemma balanced_nil : balanced [].
Proof. split; [constructor|]. intros p. apply Z.divide_0_r. Qed.
Lemma balanced_app l1 l2 : balanced l1 -> balanced l2 -> balanced (l1 ++ l2).
Proof. intros [A1 A2] [B1 B2]. split; [now apply Forall_app|]. intros p. rewrite in_transit_app. apply Z.divide_add_r; auto. Qed.
Lemma leaves_refl (o : @own state) : leaves_inventory content o o.
Proof. split; [reflexivity|]. exists []. split; [now rewrite app_nil_r|apply balanced_nil]. Qed.
Lemma leaves_trans (o1 o2 o3 : @own state) : leaves_inventory content o1 o2 -> leaves_inventory content o2 o3 -> leaves_inventory content o1 o3.
Proof.
  intros [A (m1 & A1 & A2)] [B (m2 & B1 & B2)]. split; [congruence|]. exists (m1 ++ m2). split; [rewrite B1, A1; now rewrite <- app_assoc|now apply balanced_app].
Qed.
Lemma calls_neutral m lower upper s fs (o : @own state) ts o' : Forall (neutral content) fs -> calls m lower upper s fs o ts o' -> leaves_inventory content o o'.
Proof.
  intros F H. induction H as [o|f fs o o1 t ts o2 Hf Hc IH]; [apply leaves_refl|]. apply Forall_cons_iff in F. destruct F as [F1 F2].
  eapply leaves_trans; [|apply IH; exact F2]. specialize (F1 m lower upper s o). rewrite Hf in F1. exact F1.
Qed.
Lemma calls_app {A} m lower upper s (f1 f2 : list (callback A)) o ts o' : calls m lower upper s (f1 ++ f2) o ts o' ->
  exists ts1 ts2 o1, ts = ts1 ++ ts2 /\ calls m lower upper s f1 o ts1 o1 /\ calls m lower upper s f2 o1 ts2 o'.
Proof.
  revert o ts. induction f1 as [|f f1 IH]; intros o ts H.
  - exists [], ts, o. split; [reflexivity|]. split; [constructor|exact H].
  - cbn in H. inversion H as [|f' fs' o0 o2 t ts' o3 Hf Hc]; subst. destruct (IH _ _ Hc) as (t1 & t2 & o1 & -> & C1 & C2). exists (t :: t1), t2, o1. split; [reflexivity|]. split; [econstructor; eauto|exact C2].
Qed.
Definition worth (p : identity) (i : identity) (st : state) : Z := held (fst st) p.
Definition good (i : identity) (st : state) : Prop := valid (fst st).
Lemma leaves_balance p i (o o' : @own state) : leaves_inventory content o o' -> proper good fit i o ->
  proper good fit i o' /\ same (2 ^ 64) (balance (worth p) (effect p) i o') (balance (worth p) (effect p) i o).
Proof.
  intros [A (ms & B & C1 & C2)] [P1 P2]. split.
  - split; [unfold good; now rewrite A|]. rewrite B. apply Forall_app. auto.
  - unfold balance, worth. rewrite A, B, in_transit_app. destruct (C2 p) as [k Hk]. exists k. lia.
Qed.
Lemma transfer_balance p i m lower upper s (o : @own state) o' t : m_type m = transfer_code -> m_recipient m = i -> fit m -> proper good fit i o ->
  owner_callback content i m lower upper s o = (o', t) -> within lower upper t ->
  proper good fit i o' /\ same (2 ^ 64) (balance (worth p) (effect p) i o') (balance (worth p) (effect p) i o + effect p m).
Proof.
  intros Ht Hr Hf [P1 P2] H W. unfold owner_callback in H. set (tr := content (m_body m)) in *.
  assert (T : is_transfer m = true) by (unfold is_transfer; now apply Z.eqb_eq). specialize (Hf T). fold tr in Hf.
  destruct (process_transfer i tr (fst (fst o))) as [h|] eqn:E; injection H as <- <-; [|unfold within in W; lia].
  assert (Q : valid h /\ same (2 ^ 64) (held h p) (held (fst (fst o)) p + effect p m)).
  { unfold transfer_effect. fold tr. rewrite T, Hr. cbn [negb orb]. unfold process_transfer in E.
    destruct (id_eqb (transferor tr) (transferee tr)). { assert (fst (fst o) = h) as <- by congruence. split; [exact P1|]. apply same_eq. lia. }
    destruct (id_eqb i (transferor tr)).
    { destruct (erase_from_held (transferred tr) (fst (fst o)) P1 Hf) as (V & S & _). destruct (erase_from (transferred tr) (fst (fst o))) as [m' []]; [discriminate|]. assert (m' = h) as -> by congruence.
      cbn in *. split; [exact V|]. apply same_eq. rewrite (proj2 (S eq_refl)). lia. }
    destruct (id_eqb i (transferee tr)).
    { destruct (insert_into_held (transferred tr) (fst (fst o)) P1 Hf) as (V & S). assert (insert_into (transferred tr) (fst (fst o)) = h) as <- by congruence. split; [exact V|]. rewrite S. unfold w64, W64.
      unfold same. exists (- ((held (fst (fst o)) p + held (transferred tr) p) / 2 ^ 64)). pose proof (Z.div_mod (held (fst (fst o)) p + held (transferred tr) p) (2 ^ 64) ltac:(lia)). lia. }
    assert (fst (fst o) = h) as <- by congruence. split; [exact P1|]. apply same_eq. lia. }
  destruct Q as [V S]. split; [split; [exact V|exact P2]|]. unfold balance, worth. cbn [fst snd]. destruct S as [k Hk]. exists k. lia.
Qed.

Lemma for_type_split t (l1 l2 : list (registration (@own state))) r : r_type r = t -> for_type t (l1 ++ r :: l2) = for_type t l1 ++ r :: for_type t l2.
Proof. intros <-. unfold for_type. rewrite filter_app. cbn. now rewrite Z.eqb_refl. Qed.
Lemma for_type_other t (l1 l2 : list (registration (@own state))) r : r_type r <> t -> for_type t (l1 ++ r :: l2) = for_type t (l1 ++ l2).
Proof. intros H. unfold for_type. rewrite !filter_app. cbn. now destruct (Z.eqb_spec (r_type r) t). Qed.
Lemma for_type_sub (P : registration (@own state) -> Prop) t l : Forall P l -> Forall P (for_type t l).
Proof. intros H. apply Forall_forall. intros r Hr. apply filter_In in Hr. rewrite Forall_forall in H. now apply H. Qed.
Lemma owner_accounts p i a : is_owner content i a -> keeps_accounts (2 ^ 64) (worth p) (effect p) good fit i a.
Proof.
  intros [(b & rs1 & rs2 & c & R & N & Hc) Ha]. split; [|split].
  - exists b, (rs1 ++ mk_registration transfer_code owner_priority (owner_callback content i) :: rs2), c. split; [exact R|]. split; [|exact Hc].
    apply Forall_app in N. destruct N as [N1 N2]. apply Forall_app. split; [eapply Forall_impl; [|exact N1]; now intros r [? _]|]. constructor; [unfold int8; cbn; unfold owner_priority; lia|].
    eapply Forall_impl; [|exact N2]. now intros r [? _].
  - intros lower upper s m o o' t F Er P H.
    assert (H' : process_message c lower upper s m o = Ret (o', t)). { destruct Hc as [Hc|Hc]; rewrite Hc in H; [exact H|]. rewrite lock_same in H. exact H. }
    clear H. destruct (message_callbacks b _ c lower upper s m o R) as (order & ts & a' & O & C & G1 & G2). apply Communicator_props.C11_every_callback_once in O.
    destruct (Forall_dec (within lower upper)) with (l := ts) as [W|W]. { intros x. unfold within. destruct (Z_le_dec lower x), (Z_le_dec x upper); [left; lia|right; lia..]. }
    2:{ rewrite (G2 W) in H'. discriminate. }
    rewrite (G1 W) in H'. assert (a' = o') as -> by congruence. clear G1 G2 H'.
    destruct (Z.eq_dec (m_type m) transfer_code) as [Et|Et].
    + rewrite for_type_split in O by (symmetry; exact Et). set (r := mk_registration _ _ _) in *.
      destruct (in_split r order) as (l1 & l2 & ->). { apply (Permutation_in _ (Permutation_sym O)). apply in_or_app. right. now left. }
      apply Permutation_app_inv in O. assert (N' : Forall (fun r => neutral content (r_callback r)) (l1 ++ l2)).
      { apply Forall_forall. intros x Hx. apply (Permutation_in _ O) in Hx. rewrite Forall_forall in N. apply in_app_or in Hx. apply N. unfold for_type in Hx. rewrite !filter_In in Hx. apply in_or_app. tauto. }
      apply Forall_app in N'. destruct N' as [N1 N2]. rewrite map_app in C. cbn [map] in C. destruct (calls_app _ _ _ _ _ _ _ _ _ C) as (ts1 & ts2 & o1 & -> & C1 & C2). inversion C2 as [|f fs o1' o2 t2 ts3 o3 Hf Hc2]; subst.
      apply Forall_app in W. destruct W as [_ W]. apply Forall_cons_iff in W. destruct W as [W _].
      assert (L1 : leaves_inventory content o o1) by (eapply calls_neutral; [|exact C1]; rewrite Forall_map; exact N1).
      assert (L2 : leaves_inventory content o2 o') by (eapply calls_neutral; [|exact Hc2]; rewrite Forall_map; exact N2).
      destruct (leaves_balance p _ _ _ L1 P) as [P1 S1]. destruct (transfer_balance p _ m lower upper s o1 o2 t2 Et eq_refl F P1 Hf W) as [P2 S2].
      destruct (leaves_balance p _ _ _ L2 P2) as [P3 S3]. split; [exact P3|]. eapply same_trans; [exact S3|]. eapply same_trans; [exact S2|]. apply same_add; [exact S1|apply same_refl].
    + rewrite for_type_other in O by (cbn; congruence). assert (L : leaves_inventory content o o').
      { eapply calls_neutral; [|exact C]. rewrite Forall_map. apply Forall_forall. intros x Hx. apply (Permutation_in _ O) in Hx. apply filter_In in Hx. rewrite Forall_forall in N. apply N. apply Hx. }
      destruct (leaves_balance p i _ _ L P) as [P1 S1]. split; [exact P1|]. assert (E : effect p m = 0). { unfold transfer_effect, is_transfer. destruct (Z.eqb_spec (m_type m) transfer_code); [contradiction|reflexivity]. }
      rewrite E, Z.add_0_r. exact S1.
  - intros lower upper s o o' t P H. specialize (Ha lower upper s o). rewrite H in Ha. now apply leaves_balance.
Qed.
Lemma owners_orderly p w : all_owners content w -> orderly (2 ^ 64) (worth p) (effect p) good fit w.
Proof.
  intros [W H]. split; [exact W|]. intros i a Ha. destruct (H i a Ha) as (H1 & H2 & H3 & H4). split; [now apply owner_accounts|]. split; [split; assumption|exact H4].
Qed.
Lemma account_owned p (w : world state) : account (worth p) (effect p) w = owned w p + underway content w p.
Proof. unfold account, owned, underway. rewrite <- zsum_plus. f_equal. apply map_ext. intros x. unfold balance, worth, ag_outbox. exact (eq_sym (Z.add_assoc _ _ _)). Qed.
End Owners.
