(** Proofs about the markets that send quotes and collect orders. *)
From Coq Require Import SpecFloat ZifyBool ZifyNat Permutation.
From Verif Require Import Base Interval Identity Identity_proofs Quantity IdMap IdMap_proofs Multimap Communicator Simulation Simulation_spec Simulation_proofs Simulation_proofs2 Simulation_proofs3 Walras Markets Markets_spec.

Section Collect.
Context {D : Type}.
Implicit Types (inbox : list (Z * letter D)).
Definition has (orders : list (identity * D)) (s : identity) : Prop := exists d, In (s, d) orders.
Lemma existsb_has (orders : list (identity * D)) s : existsb (fun x => id_eqb (fst x) s) orders = true <-> has orders s.
Proof.
  rewrite existsb_exists. split.
  - intros ([k d] & H & E). apply id_eqb_eq in E. cbn in E. subst. now exists d.
  - intros (d & H). exists (s, d). split; [exact H|]. apply id_eqb_refl.
Qed.
Lemma collect_spec lower inbox : forall orders, NoDup (map fst orders) ->
  exists before, before_stale lower inbox before /\ NoDup (map fst (fst (collect lower inbox orders))) /\
    forall s d, In (s, d) (fst (collect lower inbox orders)) <-> In (s, d) orders \/ (~ has orders s /\ first_order s d before).
Proof.
  induction inbox as [|[r x] l IH]; intros orders N; cbn [collect].
  - exists []. split; [split; [constructor|now left]|]. split; [exact N|]. intros s d. split; [now left|]. intros [H|[_ H]]; [exact H|inversion H].
  - destruct x as [sender sent content|sent].
    + destruct (sent <? lower) eqn:E.
      * exists []. split; [split; [constructor|right]|]. { exists (r, Order sender sent content), l. split; [reflexivity|]. cbn. lia. }
        split; [exact N|]. intros s d. split; [now left|]. intros [H|[_ H]]; [exact H|inversion H].
      * unfold emplace_order. destruct (existsb (fun x => id_eqb (fst x) sender) orders) eqn:X.
        -- destruct (IH orders N) as (b & [B1 B2] & N' & S). exists ((r, Order sender sent content) :: b). split; [|split; [exact N'|]].
           ++ split; [constructor; [cbn; lia|exact B1]|]. destruct B2 as [->|(y & l' & -> & Hy)]; [now left|right]. now exists y, l'.
           ++ intros s d. rewrite S. apply existsb_has in X. split.
              ** intros [H|[H F]]; [now left|right]. split; [exact H|]. constructor; [|exact F]. intros z d' [= -> -> ->]. contradiction.
              ** intros [H|[H F]]; [now left|right]. split; [exact H|]. inversion F; subst; [contradiction|assumption].
        -- assert (X' : ~ has orders sender) by (rewrite <- existsb_has; congruence).
           destruct (IH (orders ++ [(sender, content)])) as (b & [B1 B2] & N' & S).
           { rewrite map_app. cbn [map fst]. apply (Permutation_NoDup (Permutation_cons_append _ _)). constructor; [|exact N].
             intros H. apply in_map_iff in H. destruct H as ([k d] & E' & H). cbn in E'. subst. apply X'. now exists d. }
           exists ((r, Order sender sent content) :: b). split; [|split; [exact N'|]].
           ++ split; [constructor; [cbn; lia|exact B1]|]. destruct B2 as [->|(y & l' & -> & Hy)]; [now left|right]. now exists y, l'.
           ++ intros s d. rewrite S. split.
              ** intros [H|[H F]].
                 --- apply in_app_or in H. destruct H as [H|[[= <- <-]|[]]]; [now left|right]. split; [exact X'|constructor].
                 --- right. split; [intros (d' & Hd); apply H; exists d'; apply in_or_app; now left|]. constructor; [|exact F].
                     intros z d' [= -> -> ->]. apply H. exists d'. apply in_or_app. right. now left.
              ** intros [H|[H F]]; [left; apply in_or_app; now left|]. inversion F; subst.
                 --- left. apply in_or_app. right. now left.
                 --- right. split; [|assumption]. intros (d' & Hd). apply in_app_or in Hd. destruct Hd as [Hd|[[= <- <-]|[]]]; [apply H; now exists d'|]. cbn in *. eapply H2. reflexivity.
    + destruct (IH orders N) as (b & [B1 B2] & N' & S). exists ((r, Other sent) :: b). split; [|split; [exact N'|]].
      * split; [constructor; [cbn; tauto|exact B1]|]. destruct B2 as [->|(y & l' & -> & Hy)]; [now left|right]. now exists y, l'.
      * intros s d. rewrite S. split.
        -- intros [H|[H F]]; [now left|right]. split; [exact H|]. constructor; [discriminate|exact F].
        -- intros [H|[H F]]; [now left|right]. split; [exact H|]. inversion F; subst; assumption.
Qed.
End Collect.

Section Setter.
Context {D : Type} (solver : list (identity * D) -> list (identity * Z) -> option (list (identity * spec_float))).
Lemma announcement_map participants date quotes : announcement participants date quotes (map (fun p => mk_quotation p date quotes) participants).
Proof. split; [rewrite map_map; apply map_id|]. apply Forall_map, Forall_forall. intros p _. now split. Qed.
Lemma setter_act_ret lower upper inbox s s' ms t : 0 <= lower < 2 ^ 64 - 1 -> setter_act solver lower upper inbox s = Ret (s', ms, t) ->
  (t = match fst (collect lower inbox []) with [] => lower | _ => lower + 1 end) /\ s_clearing s' = true /\ s_participants s' = s_participants s /\
  ((ms = [] /\ s_date s' = s_date s /\ (s_clearing s = true \/ s_date s <> 0) /\ t <= s_date s) \/
   (announcement (s_participants s) t (s_quotes s') ms /\ s_date s' = t /\ ((s_clearing s = false /\ s_date s = 0) \/ s_date s < t))).
Proof.
  intros B. unfold setter_act. destruct (collect lower inbox []) as [orders st]. cbn [fst].
  assert (E : forall o, o = 0 \/ o = 1 -> w64 (lower + o) = lower + o) by (intros o Ho; apply Z.mod_small; unfold W64; lia).
  destruct orders as [|o orders].
  - rewrite E by tauto. rewrite Z.add_0_r. destruct ((negb (s_clearing s) && (s_date s =? 0)) || (s_date s <? lower)) eqn:C; intros [= <- <- <-]; cbn [s_clearing s_participants s_date s_quotes].
    + repeat split; auto. right. split; [apply announcement_map|]. split; [reflexivity|]. destruct (s_clearing s); cbn in C; lia.
    + repeat split; auto. left. repeat split; auto; destruct (s_clearing s); cbn in C; lia.
  - rewrite E by tauto. destruct (clear_quotes solver (o :: orders) (s_quotes s)) as [q| |]; try discriminate.
    destruct ((negb (s_clearing s) && (s_date s =? 0)) || (s_date s <? lower + 1)) eqn:C; intros [= <- <- <-]; cbn [s_clearing s_participants s_date s_quotes].
    + repeat split; auto. right. split; [apply announcement_map|]. split; [reflexivity|]. destruct (s_clearing s); cbn in C; lia.
    + repeat split; auto. left. repeat split; auto; destruct (s_clearing s); cbn in C; lia.
Qed.
Definition in_time (a : Z * Z * list (Z * letter D)) : Prop := 0 <= fst (fst a) < 2 ^ 64 - 1.
Lemma setter_acts_dates l : Forall in_time l -> forall s s' mss, setter_acts solver l s = Ret (s', mss) ->
  s_participants s' = s_participants s /\ length mss = length l /\
  Forall (fun ms => ms = [] \/ exists date quotes, announcement (s_participants s) date quotes ms) mss /\
  (s_clearing s = true -> s_date s <= s_date s' /\ Forall (fun n => s_date s < n_received n) (concat mss)) /\
  (forall i j mi mj n n', (i < j)%nat -> nth_error mss i = Some mi -> nth_error mss j = Some mj -> In n mi -> In n' mj -> n_received n < n_received n').
Proof.
  induction 1 as [|[[lower upper] inbox] l B F IH]; intros s s' mss; cbn [setter_acts].
  - intros [= <- <-]. split; [reflexivity|]. split; [reflexivity|]. split; [constructor|]. split; [intros _; split; [lia|constructor]|]. intros [|i] j mi mj n n' _ H; discriminate H.
  - destruct (setter_act solver lower upper inbox s) as [[[s1 ms] t]| |] eqn:E; try discriminate. destruct (setter_acts solver l s1) as [[s2 mss']| |] eqn:E2; try discriminate. intros [= <- <-].
    unfold in_time in B. cbn [fst] in B. destruct (setter_act_ret _ _ _ _ _ _ _ B E) as (_ & C1 & P1 & A). destruct (IH _ _ _ E2) as (P2 & L & A2 & M & I). destruct (M C1) as [D1 D2].
    split; [congruence|]. split; [cbn; congruence|].
    assert (X : ms = [] \/ exists date quotes, announcement (s_participants s) date quotes ms) by (destruct A as [(-> & _)|(A & _)]; [now left|right; eauto]).
    split; [constructor; [exact X|]; rewrite <- P1; exact A2|].
    assert (Y : Forall (fun n => n_received n = s_date s1) ms).
    { destruct A as [(-> & _)|((_ & A) & -> & _)]; [constructor|]. eapply Forall_impl; [|exact A]. cbn. tauto. }
    split.
    + intros C. assert (Z1 : s_date s <= s_date s1 /\ Forall (fun n => s_date s < n_received n) ms).
      { destruct A as [(-> & -> & _)|(_ & Es & [(C' & _)|Lt])]; [split; [lia|constructor]|congruence|]. split; [lia|]. eapply Forall_impl; [|exact Y]. cbn. intros. lia. }
      destruct Z1 as [Z1 Z2]. split; [lia|]. cbn [concat]. apply Forall_app. split; [exact Z2|]. eapply Forall_impl; [|exact D2]. cbn. intros. lia.
    + intros i j mi mj n n' Lt Hi Hj Hn Hn'. destruct j as [|j]; [lia|]. cbn in Hj. destruct i as [|i]; cbn in Hi.
      * injection Hi as <-. rewrite Forall_forall in Y. rewrite (Y n Hn). rewrite Forall_forall in D2. apply D2. apply in_concat. exists mj. split; [eapply nth_error_In; eauto|exact Hn'].
      * apply (I i j mi mj n n'); [lia|assumption..].
Qed.
End Setter.

(** *** The impact market. *)
Lemma touch_fst q p : incl (map fst q) (map fst (touch q p)).
Proof. unfold touch. destruct (existsb _ q); [apply incl_refl|]. rewrite map_app. apply incl_appl, incl_refl. Qed.
Lemma touched l : forall q, exists extra, fold_left touch l q = q ++ extra /\ Forall (fun x => snd x = 0) extra /\ (forall p, In p l -> In p (map fst (q ++ extra))) /\
  (forall x, In x extra -> In (fst x) l /\ ~ In (fst x) (map fst q)).
Proof.
  induction l as [|p l IH]; intros q; cbn [fold_left].
  - exists []. rewrite app_nil_r. repeat split; try constructor; try contradiction.
  - destruct (IH (touch q p)) as (e & -> & Z & P & N). unfold touch in *. destruct (existsb (fun x => id_eqb (fst x) p) q) eqn:E.
    + exists e. split; [reflexivity|]. split; [exact Z|]. split.
      * intros x [<-|Hx]; [|now apply P]. apply existsb_exists in E. destruct E as (y & Hy & E). apply id_eqb_eq in E. subst. apply in_map, in_or_app. now left.
      * intros x Hx. destruct (N x Hx). split; [now right|assumption].
    + exists ((p, 0) :: e). rewrite <- app_assoc in *. cbn [app] in *. split; [reflexivity|]. split; [constructor; [reflexivity|exact Z]|]. split.
      * intros x [<-|Hx]; [|now apply P]. rewrite map_app. apply in_or_app. right. now left.
      * intros x [<-|Hx].
        -- split; [now left|]. intros H. cbn in H. apply in_map_iff in H. destruct H as (y & E' & Hy). assert (existsb (fun x => id_eqb (fst x) p) q = true); [|congruence]. apply existsb_exists. exists y. split; [exact Hy|]. rewrite E'. apply id_eqb_refl.
        -- destruct (N x Hx) as [A B]. split; [now right|]. intros H. apply B. rewrite map_app. apply in_or_app. now left.
Qed.
Lemma impact_act_quotes lower upper inbox s s' ms calls t : impact_act lower upper inbox s = (s', ms, calls, t) ->
  announcement (i_participants s) (w64 (lower + 1)) (i_quotes s') ms /\ i_participants s' = i_participants s /\ i_clearing s' = true /\
  exists extra, i_quotes s' = i_quotes s ++ extra /\ Forall (fun x => snd x = 0) extra.
Proof.
  unfold impact_act. destruct (i_clearing s).
  - destruct (collect lower inbox []) as [orders st]. destruct orders as [|o orders].
    + intros [= <- <- <- <-]. cbn. repeat split; try apply announcement_map. exists []. rewrite app_nil_r. repeat constructor.
    + unfold clear_impact. intros [= <- <- <- <-]. cbn [i_quotes i_participants i_clearing]. split; [apply announcement_map|]. repeat split.
      destruct (touched (map fst (net_volumes (o :: orders))) (i_quotes s)) as (e & -> & Z & _). now exists e.
  - intros [= <- <- <- <-]. cbn. repeat split; try apply announcement_map. exists []. rewrite app_nil_r. repeat constructor.
Qed.
Lemma impact_acts_quotes l : forall s s' mss, impact_acts l s = (s', mss) ->
  Forall (Forall (fun n => exists extra, n_quotes n = i_quotes s ++ extra /\ Forall (fun x => snd x = 0) extra)) mss /\
  (exists extra, i_quotes s' = i_quotes s ++ extra /\ Forall (fun x => snd x = 0) extra).
Proof.
  induction l as [|[[lower upper] inbox] l IH]; intros s s' mss; cbn [impact_acts].
  - intros [= <- <-]. split; [constructor|]. exists []. rewrite app_nil_r. repeat constructor.
  - destruct (impact_act lower upper inbox s) as [[[s1 ms] c] t] eqn:E. destruct (impact_acts l s1) as [s2 mss'] eqn:E2. intros [= <- <-].
    destruct (impact_act_quotes _ _ _ _ _ _ _ _ E) as ((_ & A) & _ & _ & (e & Eq & Ze)). destruct (IH _ _ _ E2) as (F & (e' & Eq' & Ze')). rewrite Eq in F, Eq'. split.
    + constructor.
      * eapply Forall_impl; [|exact A]. cbn. intros n [_ ->]. exists e. now split.
      * eapply Forall_impl; [|exact F]. cbn. intros ms' H. eapply Forall_impl; [|exact H]. cbn. intros n (x & -> & Zx). exists (e ++ x). rewrite app_assoc. split; [reflexivity|]. apply Forall_app. now split.
    + exists (e ++ e'). rewrite Eq', app_assoc. split; [reflexivity|]. apply Forall_app. now split.
Qed.
Lemma value_bump p q d m : value_of p (bump q d m) = value_of p m + (if id_eqb p q then d else 0).
Proof.
  unfold value_of. induction m as [|[k v] m IH]; cbn [bump find fst snd].
  - destruct (id_eqb p q); cbn; lia.
  - destruct (id_eqb q k) eqn:E.
    + apply id_eqb_eq in E. subst k. cbn [find fst snd]. destruct (id_eqb p q); cbn; [lia|]. destruct (find _ m); lia.
    + cbn [find fst snd]. destruct (id_eqb p k) eqn:E2; [|exact IH]. apply id_eqb_eq in E2. subst k. cbn [snd]. destruct (id_eqb p q) eqn:E3; [|lia]. apply id_eqb_eq in E3. subst. rewrite id_eqb_refl in E. discriminate.
Qed.
Lemma value_inner p l : forall m, value_of p (fold_left (fun m (pv : identity * (Z * side)) => bump (fst pv) (volume_change (snd pv)) m) l m) =
  value_of p m + zsum (map (fun pv => if id_eqb p (fst pv) then volume_change (snd pv) else 0) l).
Proof. induction l as [|x l IH]; intros m; cbn [fold_left map zsum fold_right]; [lia|]. rewrite IH, value_bump. unfold zsum. lia. Qed.
Lemma value_net p orders : value_of p (net_volumes orders) = zsum (map (fun o => zsum (map (fun pv => if id_eqb p (fst pv) then volume_change (snd pv) else 0) (snd o))) orders).
Proof.
  unfold net_volumes. enough (forall m, value_of p (fold_left (fun m (o : identity * volumes) => fold_left (fun m pv => bump (fst pv) (volume_change (snd pv)) m) (snd o) m) orders m) =
    value_of p m + zsum (map (fun o => zsum (map (fun pv => if id_eqb p (fst pv) then volume_change (snd pv) else 0) (snd o))) orders)) as H by (rewrite H; cbn; lia).
  induction orders as [|o l IH]; intros m; cbn [fold_left map]; [cbn; lia|]. rewrite IH, value_inner. unfold zsum. cbn [fold_right]. now rewrite Z.add_assoc.
Qed.
Lemma net_sells p orders : value_of p (net_volumes orders) = sells p 0 orders - sells p 1 orders.
Proof.
  rewrite value_net. unfold sells. induction orders as [|o l IH]; cbn [map zsum fold_right]; [reflexivity|]. unfold zsum in *. rewrite IH.
  match goal with |- ?a + (?b - ?c) = (?d + ?b) - (?e + ?c) => enough (a = d - e) by lia end.
  destruct o as [w vs0]; unfold volumes in vs0; cbn [snd]; clear IH; induction vs0 as [|[q [v s]] vs IHv]; cbn [map fold_right fst snd]; [reflexivity|]. rewrite IHv. unfold volume_change. cbn [fst snd]. destruct (id_eqb p q); cbn [andb]; [|lia].
  destruct s; cbn [side_number]; destruct (v =? 0) eqn:E0, (v =? 1) eqn:E1; lia.
Qed.

(** *** An agent that asks to act again at the same time holds up the simulation. *)
Section Blocking.
Context {St : Type} (hash : identity -> Z) (shuffle : seed -> list message -> list message).
Implicit Types (w : world St).
Definition blocked w (lower : Z) (i : identity) : Prop :=
  exists a, im_find i (agents w) = Some a /\ (forall upper s o, snd (ag_act a lower upper s o) = lower) /\
    (im_find i (wake_up_times w) = None \/ exists t, im_find i (wake_up_times w) = Some t /\ t <= lower).
Lemma blocked_round lower upper n w w' f i : Simulation_spec.well_formed w -> blocked w lower i -> round hash shuffle lower upper n w = Ret (w', f) ->
  blocked w' lower i /\ f <= lower.
Proof.
  intros Hwf (a & Ha & Hact & Ht) Hr. pose proof (wf_sorted w Hwf) as Hs. destruct (round_spec hash shuffle _ _ _ _ _ _ Hwf Hr) as (W' & F & N & K).
  unfold Simulation.round in Hr. destruct (act_phase hash shuffle lower upper n w) as [p| |] eqn:Ep; [|discriminate|discriminate]. unfold finish_round in Hr.
  destruct (send_messages (p_world p)) as [[w1 c]| |] eqn:Es; [|discriminate|discriminate]. injection Hr as <- Ef.
  destruct (act_phase_spec hash shuffle _ _ _ _ _ Hwf Ep) as (_ & _ & HA & HN). pose proof (act_wf hash shuffle _ _ _ _ _ Hwf Ep) as Hwp.
  destruct (send_ret _ _ _ (wf_sorted _ Hwp) Es) as (_ & _ & _ & _ & _ & _ & Ag & T).
  assert (Hp : exists a' t, im_find i (agents (p_world p)) = Some a' /\ ag_act a' = ag_act a /\ im_find i (wake_up_times (p_world p)) = Some t /\ t <= lower).
  { destruct (HA i a Ha) as [H1 H2]. destruct (due_dec w lower i Hs) as [D|D].
    - destruct (H1 D) as (o & t & Eh & _ & Ea & Et). eexists _, t. split; [exact Ea|]. split; [reflexivity|]. split; [exact Et|].
      unfold handle in Eh. destruct (process_messages _ _ _ _ _ _ _) as [[o1 mt]| |]; try discriminate. specialize (Hact upper (seed_of hash i lower n (w_sample w)) o1).
      destruct (ag_act a lower upper (seed_of hash i lower n (w_sample w)) o1) as [o2 at_]. cbn in Hact. injection Eh as _ <-. lia.
    - destruct (H2 D) as [E1 E2]. exists a. destruct Ht as [Ht|(t & Ht & Le)]; [exfalso; apply D; split; [unfold local; congruence|now right]|]. exists t. repeat split; congruence || assumption. }
  destruct Hp as (a' & t & Ea & Eact & Et & Le). destruct (wake_up_after_le _ (filter (addressed_to i) (sent (p_world p))) t Et) as (t' & E' & Hle).
  assert (Et' : im_find i (wake_up_times w1) = Some t') by (rewrite T; exact E').
  split.
  - exists (cleared (with_mail (filter (addressed_to i) (sent (p_world p))) a')). split; [rewrite Ag, Ea; reflexivity|]. split; [|right; exists t'; split; [exact Et'|lia]].
    intros u s o. transitivity (snd (ag_act a lower u s o)); [rewrite <- Eact; reflexivity|apply Hact].
  - rewrite F. destruct (next_event_spec w1 (wf_sorted _ W')) as (_ & _ & M). specialize (M i t' Et'). lia.
Qed.
Lemma blocked_forever lower upper i fuel : forall n w, Simulation_spec.well_formed w -> blocked w lower i -> forall r, rounds hash shuffle fuel lower upper n w <> Some (Ret r).
Proof.
  induction fuel as [|fuel IH]; intros n w Hwf B r; cbn [rounds]; [discriminate|]. destruct (round hash shuffle lower upper n w) as [[w' f]| |] eqn:E; [|discriminate|discriminate].
  destruct (blocked_round _ _ _ _ _ _ _ Hwf B E) as [B' L]. destruct (round_spec hash shuffle _ _ _ _ _ _ Hwf E) as (W' & _). replace (lower >=? f) with true by lia. now apply IH.
Qed.
End Blocking.
Lemma bump_keys p q d m : In p (map fst (bump q d m)) <-> p = q \/ In p (map fst m).
Proof.
  induction m as [|[k v] m IH]; cbn [bump map fst In]; [split; [intros [H|[]]; auto|intros [H|[]]; auto]|].
  destruct (id_eqb q k) eqn:E; cbn [map fst In]; [apply id_eqb_eq in E; subst; split; [tauto|intros [->|H]; tauto]|]. rewrite IH. split; intuition.
Qed.
Lemma inner_keys p (l : volumes) : forall m, In p (map fst (fold_left (fun m (pv : identity * (Z * side)) => bump (fst pv) (volume_change (snd pv)) m) l m)) <-> In p (map fst l) \/ In p (map fst m).
Proof. induction l as [|x l IH]; intros m; cbn [fold_left map In]; [tauto|]. rewrite IH, bump_keys. intuition. Qed.
Lemma net_keys orders sender vs p x : In (sender, vs) orders -> In (p, x) vs -> In p (map fst (net_volumes orders)).
Proof.
  intros Ho Hv. unfold net_volumes. enough (forall m, In p (map fst (fold_left (fun m (o : identity * volumes) => fold_left (fun m pv => bump (fst pv) (volume_change (snd pv)) m) (snd o) m) orders m)) <->
    In p (map fst m) \/ exists o, In o orders /\ In p (map fst (snd o))) as H.
  { rewrite H. right. exists (sender, vs). split; [exact Ho|]. apply in_map_iff. now exists (p, x). }
  clear. induction orders as [|o l IH]; intros m; cbn [fold_left].
  - split; [now left|]. intros [H|(o & [] & _)]; exact H.
  - rewrite IH, inner_keys. split.
    + intros [[H|H]|(o' & H & K)]; [right; exists o; split; [now left|exact H]|now left|right; exists o'; split; [now right|exact K]].
    + intros [H|(o' & [<-|H] & K)]; [left; now right|left; now left|right; now exists o'].
Qed.
