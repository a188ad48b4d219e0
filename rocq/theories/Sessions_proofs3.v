From Verif Require Import Base Identity Identity_proofs IdMap IdMap_proofs Multimap Multimap_proofs Communicator Communicator_spec Communicator_proofs
  Simulation Simulation_spec Simulation_proofs Simulation_proofs2 Simulation_proofs3 Walras Markets Messages Sessions Sessions_spec Sessions_proofs Sessions_proofs2.
From Coq Require Import ZifyBool ZifyNat.

Section Course.
Context {T D : Type} (encode : list (identity * Z) -> Z) (order_of : Z -> D).
Context (solver : list (identity * D) -> list (identity * Z) -> option (list (identity * SpecFloat.spec_float))).
Context (answer : identity -> Z -> T -> Z -> T * Z) (settlement : list (identity * D) -> list (identity * Z) -> list (identity * Z)).
Context (booked : identity -> Z -> T -> Z -> T) (eager : identity -> bool).
Context (hash : identity -> Z) (shuffle : seed -> list message -> list message).
Context (Hsh : forall s l, Permutation (shuffle s l) l).
Context (random : identity -> bool) (mk : identity) (ps : list identity) (Hnd : NoDup ps) (Hmk : ~ In mk ps) (Hne : ps <> []).
Implicit Types (w : world (member T)) (q : list (identity * Z)) (st : identity -> T).
Notation the_market inbox st := (mk_agent (lock (registered (new_communicator (random mk)) WalrasOrder 0 order_callback)) (market_act encode order_of solver settlement mk) inbox st).
Notation comm i := (lock (registered (registered (new_communicator (random i)) Transfer 50 (transfer_callback booked i)) WalrasQuote 0 (quote_callback answer i))).
Notation the_participant i inbox st := (mk_agent (comm i) (participant_act eager i) inbox st).
Notation quote_to i t q := (quote_message encode mk (mk_quotation i t q)).
Notation asks := (asks eager).
Definition order_from (t : Z) q st (i : identity) : message := mk_message (kind_code WalrasOrder) i mk t t (snd (answer i t (st i) (encode q))).
Definition answered (t : Z) q st (i : identity) : T := fst (answer i t (st i) (encode q)).

(** Quotes have been delivered; orders have been delivered; transfers [l] have been delivered. *)
Definition answering (until t : Z) q st outputs w : Prop :=
  well_formed w /\ w_end w = until /\
  im_find mk (agents w) = Some (the_market [] (Setter (mk_setter true q t ps) [] outputs, [])) /\ im_find mk (wake_up_times w) = Some t /\
  (forall i, In i ps -> im_find i (agents w) = Some (the_participant i [(t, quote_to i t q)] (Participant (st i), [])) /\ im_find i (wake_up_times w) = Some t) /\
  (forall i, i <> mk -> ~ In i ps -> im_find i (agents w) = None /\ im_find i (wake_up_times w) = None).
Definition collecting (until t : Z) q st outputs w : Prop :=
  well_formed w /\ w_end w = until /\
  (exists inbox, im_find mk (agents w) = Some (the_market inbox (Setter (mk_setter true q t ps) [] outputs, [])) /\ StronglySorted key_le inbox /\
     Permutation inbox (map (fun m => (t, m)) (map (order_from t q st) ps))) /\ im_find mk (wake_up_times w) = Some t /\
  (forall i, In i ps -> im_find i (agents w) = Some (the_participant i [] (Participant (answered t q st i), [])) /\ im_find i (wake_up_times w) = Some (asks i t until)) /\
  (forall i, i <> mk -> ~ In i ps -> im_find i (agents w) = None /\ im_find i (wake_up_times w) = None).
Definition settling (until t : Z) (l : list (identity * Z)) q st outputs w : Prop :=
  well_formed w /\ w_end w = until /\
  im_find mk (agents w) = Some (the_market [] (Setter (mk_setter true q (t + 1) ps) [] outputs, [])) /\ im_find mk (wake_up_times w) = Some (t + 1) /\
  (forall i, In i ps ->
     (exists inbox, im_find i (agents w) = Some (the_participant i inbox (Participant (st i), [])) /\ StronglySorted key_le inbox /\
        Permutation inbox ((t + 1, quote_to i (t + 1) q) :: map (fun b => (t, transfer_message mk t (i, b))) (sent_to i l))) /\
     im_find i (wake_up_times w) = Some (match sent_to i l with [] => t + 1 | _ => t end)) /\
  (forall i, i <> mk -> ~ In i ps -> im_find i (agents w) = None /\ im_find i (wake_up_times w) = None).

Lemma agent_cases w i a : (forall i, i <> mk -> ~ In i ps -> im_find i (agents w) = None /\ im_find i (wake_up_times w) = None) -> im_find i (agents w) = Some a -> i = mk \/ (In i ps /\ i <> mk).
Proof.
  intros H E. destruct (id_eqb i mk) eqn:X; [left; now apply id_eqb_eq|right]. assert (N : i <> mk) by (intros ->; rewrite id_eqb_refl in X; discriminate).
  split; [|exact N]. destruct (in_dec (list_eq_dec Z.eq_dec) i ps) as [I|I]; [exact I|]. destruct (H i N I) as [F _]. congruence.
Qed.
Lemma keys w : well_formed w -> (forall i, In i (mk :: ps) -> local w i) -> (forall i, i <> mk -> ~ In i ps -> im_find i (agents w) = None) -> Permutation (map fst (agents w)) (mk :: ps).
Proof.
  intros W L N. apply NoDup_Permutation.
  - apply im_keys_nodup. apply W.
  - constructor; assumption.
  - intros i. rewrite <- local_in by apply W. split; [|apply L]. intros H. destruct (id_eqb i mk) eqn:X; [left; symmetry; now apply id_eqb_eq|right].
    destruct (in_dec (list_eq_dec Z.eq_dec) i ps) as [I|I]; [exact I|]. exfalso. apply H. apply N; [intros ->; rewrite id_eqb_refl in X; discriminate|exact I].
Qed.
Lemma mail_perm {X} (f : identity -> list X) ks : Permutation ks (mk :: ps) -> Permutation (concat (map f ks)) (f mk ++ concat (map f ps)).
Proof. intros P. rewrite <- !flat_map_concat_map. rewrite (Permutation_flat_map f P). reflexivity. Qed.
Lemma wake_same t ms : Forall (fun m => m_received m = t) ms -> wake_up_after (Some t) ms = Some t.
Proof. unfold wake_up_after. induction 1 as [|m l H F IH]; [reflexivity|]. cbn [fold_left]. replace (earlier (Some t) (m_received m)) with (Some t); [exact IH|]. unfold earlier. f_equal. lia. Qed.
Lemma filter_perm {X} (f : X -> bool) l1 l2 : Permutation l1 l2 -> Permutation (filter f l1) (filter f l2).
Proof. induction 1; cbn; [constructor|destruct (f x); auto|destruct (f x), (f y); auto using perm_swap|etransitivity; eauto]. Qed.
Lemma to_one i t q : In i ps -> filter (addressed_to i) (map (fun p => quote_to p t q) ps) = [quote_to i t q].
Proof.
  clear - Hnd. induction ps as [|j l IH]; intros H; [destruct H|]. inversion_clear Hnd as [|? ? N1 N2]. cbn [map filter]. unfold addressed_to at 1. cbn [m_recipient quote_message n_recipient].
  destruct (id_eqb j i) eqn:E.
  - apply id_eqb_eq in E. subst j. f_equal. apply Multimap_proofs.filter_none. apply Forall_forall. intros m Hm. apply in_map_iff in Hm. destruct Hm as (k & <- & Hk). unfold addressed_to. cbn. apply id_eqb_neq. intros ->. contradiction.
  - destruct H as [->|H]; [rewrite id_eqb_refl in E; discriminate|]. now apply IH.
Qed.
Lemma to_none i ms : Forall (fun m => m_recipient m <> i) ms -> filter (addressed_to i) ms = [].
Proof. intros F. apply Multimap_proofs.filter_none. eapply Forall_impl; [|exact F]. intros m H. unfold addressed_to. now apply id_eqb_neq. Qed.
Lemma mk_neq i : In i ps -> id_eqb i mk = false.
Proof. intros H. apply id_eqb_neq. intros ->. contradiction. Qed.
Lemma concat_nil {X Y} (f : X -> list Y) l : (forall x, In x l -> f x = []) -> concat (map f l) = [].
Proof. induction l as [|x l IH]; intros H; [reflexivity|]. cbn. rewrite H by now left. apply IH. intros; apply H; now right. Qed.
Lemma concat_one {X Y} (f : X -> list Y) g l : (forall x, In x l -> f x = [g x]) -> concat (map f l) = map g l.
Proof. induction l as [|x l IH]; intros H; [reflexivity|]. cbn. rewrite H by now left. cbn. f_equal. apply IH. intros; apply H; now right. Qed.

Lemma wake_min t ms : forall x, t <= x -> Forall (fun m => t <= m_received m) ms -> x = t \/ (exists m, In m ms /\ m_received m = t) -> wake_up_after (Some x) ms = Some t.
Proof.
  unfold wake_up_after. induction ms as [|m l IH]; intros x H F E; [destruct E as [-> |(m & [] & _)]; reflexivity|]. apply Forall_cons_iff in F. destruct F as [F1 F2]. cbn [fold_left]. unfold earlier at 2. apply IH; [lia|exact F2|].
  destruct E as [-> |(m0 & [-> |H0] & E)]; [left; lia|left; lia|right; eauto].
Qed.
Lemma choice {X} (d : X) (P : identity -> X -> Prop) (l : list identity) : (forall i, In i l -> exists x, P i x) -> exists f, forall i, In i l -> P i (f i).
Proof.
  induction l as [|j l IH]; intros H; [exists (fun _ => d); intros i []|]. destruct IH as [f Hf]; [intros i Hi; apply H; now right|]. destruct (H j) as [x Hx]; [now left|].
  exists (fun i => if id_eqb i j then x else f i). intros i [<- |Hi]; [now rewrite id_eqb_refl|]. destruct (id_eqb i j) eqn:E; [apply id_eqb_eq in E; now subst|now apply Hf].
Qed.
Lemma transfers_to i t l : filter (addressed_to i) (map (transfer_message mk t) l) = map (fun b => transfer_message mk t (i, b)) (sent_to i l).
Proof.
  unfold sent_to. induction l as [|[j b] l IH]; [reflexivity|]. cbn [map filter fst]. unfold addressed_to at 1. cbn [m_recipient transfer_message fst]. destruct (id_eqb j i) eqn:E; [|exact IH].
  cbn [map snd]. rewrite IH. apply id_eqb_eq in E. now subst j.
Qed.
Lemma answering_next until t q st outputs w f : t <= until -> answering until t q st outputs w -> is_next_event w f -> f = t.
Proof.
  intros L (W & En & Fm & Wm & Fp & Fo) (N1 & N2 & N3). pose proof (N3 mk _ Wm) as N4. destruct N1 as [N1|(i & Hi)]; [rewrite En in N1; lia|].
  destruct (id_eqb i mk) eqn:X; [apply id_eqb_eq in X; subst i; congruence|]. destruct (in_dec (list_eq_dec Z.eq_dec) i ps) as [I|I].
  - destruct (Fp i I) as [_ B]. congruence.
  - destruct (Fo i) as [_ B]; [intros ->; rewrite id_eqb_refl in X; discriminate|exact I|]. congruence.
Qed.

(** *** Quotes go out at time 0. *)
Lemma opening_round until q st w : 0 < until -> market_world encode order_of solver answer settlement booked eager random mk ps q st w -> w_end w = until ->
  exists w' f, round hash shuffle 0 until 0 w = Ret (w', f) /\ f <= 0 /\ answering until 0 q st [] w'.
Proof.
  intros U (W & Wu & Fm & Fp & Fo) En.
  set (turn := fun i : identity => if id_eqb i mk then Some ((Setter (T:=T) (mk_setter true q 0 ps) [] [], map (fun p => quote_to p 0 q) ps), 0) else Some ((Participant (st i), []), asks i 0 until)).
  assert (Fo' : forall i, i <> mk -> ~ In i ps -> im_find i (agents w) = None /\ im_find i (wake_up_times w) = None). { intros i H1 H2. split; [now apply Fo|]. now rewrite Wu. }
  assert (Lo : forall i, In i (mk :: ps) -> local w i). { intros i [<- |Hi]; unfold local; [rewrite Fm; discriminate|rewrite (Fp i Hi); discriminate]. }
  destruct (whole_round hash shuffle 0 until 0 w turn W) as (w' & f & Er & W' & Nx & En' & Ks & Ag & Ab).
  { intros i a Ha. destruct (agent_cases w i a Fo' Ha) as [->|[Hi N]]; unfold turn.
    - rewrite id_eqb_refl. split; [split; [apply Lo; now left|right; now rewrite Wu]|]. rewrite Fm in Ha. injection Ha as <-. split; [apply (market_opens encode order_of solver answer settlement booked eager); try assumption; lia|]. split; [lia|]. cbn [snd].
      apply Forall_forall. intros m Hm. apply in_map_iff in Hm. destruct Hm as (j & <- & Hj). cbn. apply Lo. now right.
    - rewrite mk_neq by exact Hi. split; [split; [apply Lo; now right|right; now rewrite Wu]|]. rewrite (Fp i Hi) in Ha. injection Ha as <-. split; [apply (participant_idle order_of); try assumption; lia|]. split; [unfold Sessions_proofs2.asks; destruct (eager i); lia|constructor]. }
  exists w', f. split; [exact Er|]. cbn zeta in Ag.
  match type of Ag with context [filter _ ?m] => set (mail := m) in * end.
  assert (Pm : Permutation mail (map (fun p => quote_to p 0 q) ps)).
  { unfold mail. rewrite (mail_perm _ _ (keys w W Lo (fun i H1 H2 => proj1 (Fo' i H1 H2)))). unfold turn at 1. rewrite id_eqb_refl. cbn [snd]. rewrite concat_nil; [now rewrite app_nil_r|].
    intros i Hi. unfold turn. rewrite mk_neq by exact Hi. reflexivity. }
  assert (Em : filter (addressed_to mk) mail = []).
  { apply to_none. apply Forall_forall. intros m Hm. apply (Permutation_in _ Pm) in Hm. apply in_map_iff in Hm. destruct Hm as (j & <- & Hj). cbn. intros ->. contradiction. }
  assert (Ei : forall i, In i ps -> filter (addressed_to i) mail = [quote_to i 0 q]).
  { intros i Hi. apply Permutation_length_1_inv. rewrite <- (to_one i 0 q Hi). apply filter_perm. now symmetry. }
  pose proof (Ag mk _ Fm) as A0. unfold turn in A0. rewrite id_eqb_refl in A0. rewrite Em in A0. destruct A0 as [A1 A2]. cbn in A2.
  split; [apply (proj2 (proj2 Nx) mk 0 A2)|]. split; [exact W'|]. split; [congruence|]. split; [exact A1|]. split; [exact A2|]. split.
  - intros i Hi. pose proof (Ag i _ (Fp i Hi)) as B0. unfold turn in B0. rewrite mk_neq in B0 by exact Hi. rewrite (Ei i Hi) in B0. destruct B0 as [B1 B2]. split; [exact B1|]. transitivity (Some (Z.min (asks i 0 until) 0)); [exact B2|f_equal; unfold Sessions_proofs2.asks; destruct (eager i); lia].
  - intros i H1 H2. destruct (Ab i) as [B1 B2]; [intros L; apply L; now apply Fo|]. split; [exact B1|]. rewrite B2. now rewrite Wu.
Qed.

(** *** Participants answer. *)
Lemma answering_round n until t q st outputs w : 0 <= t < until -> until < W64 -> answering until t q st outputs w ->
  exists w' f, round hash shuffle t until n w = Ret (w', f) /\ f <= t /\ collecting until t q st outputs w'.
Proof.
  intros Ht U (W & En & Fm & Wm & Fp & Fo).
  set (turn := fun i : identity => if id_eqb i mk then Some ((Setter (T:=T) (mk_setter true q t ps) [] outputs, []), t)
     else Some ((Participant (answered t q st i), [order_from t q st i]), asks i t until)).
  assert (Lo : forall i, In i (mk :: ps) -> local w i). { intros i [<- |Hi]; unfold local; [rewrite Fm; discriminate|rewrite (proj1 (Fp i Hi)); discriminate]. }
  destruct (whole_round hash shuffle t until n w turn W) as (w' & f & Er & W' & Nx & En' & Ks & Ag & Ab).
  { intros i a Ha. destruct (agent_cases w i a Fo Ha) as [->|[Hi N]]; unfold turn.
    - rewrite id_eqb_refl. split; [split; [apply Lo; now left|now left]|]. rewrite Fm in Ha. injection Ha as <-. split; [apply (market_waits encode order_of solver answer settlement booked eager); try assumption; lia|]. split; [lia|constructor].
    - rewrite mk_neq by exact Hi. destruct (Fp i Hi) as [F1 F2]. split; [split; [apply Lo; now right|now left]|]. rewrite F1 in Ha. injection Ha as <-.
      split; [apply (participant_turn order_of); try assumption; [lia|reflexivity|reflexivity]|]. split; [unfold Sessions_proofs2.asks; destruct (eager i); lia|]. repeat constructor. cbn. apply Lo. now left. }
  exists w', f. split; [exact Er|]. cbn zeta in Ag.
  match type of Ag with context [filter _ ?m] => set (mail := m) in * end.
  assert (Pm : Permutation mail (map (order_from t q st) ps)).
  { unfold mail. rewrite (mail_perm _ _ (keys w W Lo (fun i H1 H2 => proj1 (Fo i H1 H2)))). unfold turn at 1. rewrite id_eqb_refl. cbn [snd app]. rewrite (concat_one _ (order_from t q st)); [reflexivity|].
    intros i Hi. unfold turn. rewrite mk_neq by exact Hi. reflexivity. }
  assert (Hm : forall m, In m mail -> exists i, In i ps /\ m = order_from t q st i). { intros m H. apply (Permutation_in _ Pm) in H. apply in_map_iff in H. destruct H as (i & <- & Hi). eauto. }
  assert (Em : filter (addressed_to mk) mail = mail).
  { apply filter_all. apply Forall_forall. intros m H. destruct (Hm m H) as (i & _ & ->). apply id_eqb_refl. }
  assert (Ei : forall i, In i ps -> filter (addressed_to i) mail = []).
  { intros i Hi. apply to_none. apply Forall_forall. intros m H. destruct (Hm m H) as (j & _ & ->). cbn. intros ->. contradiction. }
  pose proof (Ag mk _ Fm) as A0. unfold turn in A0. rewrite id_eqb_refl in A0. rewrite Em in A0. destruct A0 as [A1 A2]. cbn [filter ag_inbox] in A1. rewrite wake_same in A2.
  2:{ apply Forall_forall. intros m H. destruct (Hm m H) as (j & _ & ->). reflexivity. }
  split; [apply (proj2 (proj2 Nx) mk t A2)|]. split; [exact W'|]. split; [congruence|]. split.
  - exists (insert_all mail []). split; [exact A1|]. destruct (insert_all_spec mail [] (SSorted_nil _)) as (S1 & S2 & _). split; [exact S1|]. cbn [app] in S2. rewrite S2.
    assert (X : map (fun m => (m_received m, m)) mail = map (fun m => (t, m)) mail). { apply map_ext_in. intros m H. destruct (Hm m H) as (j & _ & ->). reflexivity. }
    rewrite X. apply Permutation_map. exact Pm.
  - split; [exact A2|]. split.
    + intros i Hi. destruct (Fp i Hi) as [F1 F2]. pose proof (Ag i _ F1) as B0. unfold turn in B0. rewrite mk_neq in B0 by exact Hi. rewrite (Ei i Hi) in B0. destruct B0 as [B1 B2].
      cbn [ag_inbox filter fst] in B1. replace (t >? t) with false in B1 by lia. split; [exact B1|exact B2].
    + intros i H1 H2. destruct (Fo i H1 H2) as [F1 F2]. destruct (Ab i) as [B1 B2]; [intros L; apply L; exact F1|]. split; [exact B1|congruence].
Qed.

(** *** The market clears. *)
Lemma clearing_round n until t q st outputs w : settles_with_orderers settlement -> 0 <= t < until -> until < W64 -> collecting until t q st outputs w ->
  exists orders, Permutation orders (all_orders encode order_of answer ps t q st) /\
  (forall q', clear_quotes solver orders q = Ret q' ->
    exists w' f, round hash shuffle t until n w = Ret (w', f) /\ is_next_event w' f /\ settling until t (settlement orders q) q' (answered t q st) (outputs ++ [(t, q')]) w') /\
  ((forall q', clear_quotes solver orders q <> Ret q') -> forall r, round hash shuffle t until n w <> Ret r).
Proof.
  intros He Ht U (W & En & (inbox & Fm & Sm & Pi) & Wm & Fp & Fo).
  destruct (market_clears encode order_of solver answer settlement booked eager shuffle Hsh (random mk) mk t until (seed_of hash mk t n (w_sample w)) q ps inbox (map (order_from t q st) ps) outputs) as (orders & Po & Ho & Hf); try assumption; try lia.
  { apply Forall_forall. intros m Hm. apply in_map_iff in Hm. destruct Hm as (j & <- & _). split; reflexivity. }
  { rewrite map_map. cbn. rewrite map_id. exact Hnd. }
  { intros X. apply map_eq_nil in X. contradiction. }
  rewrite map_map in Po. exists orders. split; [exact Po|]. assert (Lo : forall i, In i (mk :: ps) -> local w i). { intros i [<- |Hi]; unfold local; [rewrite Fm; discriminate|rewrite (proj1 (Fp i Hi)); discriminate]. }
  split.
  2:{ intros Nq r. destruct (Hf Nq) as (o & Eo). unfold Simulation.round. destruct (act_phase hash shuffle t until n w) as [p| |] eqn:Ep; [|discriminate|discriminate]. exfalso.
      destruct (act_phase_spec _ _ _ _ _ _ _ W Ep) as (_ & _ & HA & _). destruct (HA mk _ Fm) as [H1 _]. destruct H1 as (o' & t' & Eh & Lt & _); [split; [apply Lo; now left|now left]|].
      rewrite Eo in Eh. injection Eh as <- <-. lia. }
  intros q' C. specialize (Ho q' C). set (l := settlement orders q) in *.
  assert (Hl : forall x, In x l -> In (fst x) ps).
  { intros x Hx. pose proof (He _ _ _ Hx) as H1. apply (Permutation_in _ (Permutation_map fst Po)) in H1. rewrite map_map in H1. cbn in H1. now rewrite map_id in H1. }
  set (turn := fun i : identity => if id_eqb i mk then Some ((Setter (T:=T) (mk_setter true q' (t + 1) ps) [] (outputs ++ [(t, q')]), map (transfer_message mk t) l ++ map (fun p => quote_to p (t + 1) q') ps), t + 1) else None).
  destruct (whole_round hash shuffle t until n w turn W) as (w' & f & Er & W' & Nx & En' & Ks & Ag & Ab).
  { intros i a Ha. destruct (agent_cases w i a Fo Ha) as [->|[Hi N]]; unfold turn.
    - rewrite id_eqb_refl. split; [split; [apply Lo; now left|now left]|]. rewrite Fm in Ha. injection Ha as <-. split; [exact Ho|split; [lia|]].
      cbn [snd]. apply Forall_app. split; apply Forall_forall; intros m Hm; apply in_map_iff in Hm; destruct Hm as (j & <- & Hj); cbn; apply Lo; right; [now apply Hl|exact Hj].
    - rewrite mk_neq by exact Hi. destruct (Fp i Hi) as [F1 F2]. rewrite F1 in Ha. injection Ha as <-. split; [|reflexivity]. intros [_ [X|X]]; rewrite F2 in X; [|discriminate]. injection X as X. unfold Sessions_proofs2.asks in X. destruct (eager i); lia. }
  cbn zeta in Ag. match type of Ag with context [filter _ ?m] => set (mail := m) in * end.
  assert (Pm : Permutation mail (map (transfer_message mk t) l ++ map (fun p => quote_to p (t + 1) q') ps)).
  { unfold mail. rewrite (mail_perm _ _ (keys w W Lo (fun i H1 H2 => proj1 (Fo i H1 H2)))). unfold turn at 1. rewrite id_eqb_refl. cbn [snd]. rewrite concat_nil; [now rewrite app_nil_r|].
    intros i Hi. unfold turn. rewrite mk_neq by exact Hi. reflexivity. }
  assert (Em : filter (addressed_to mk) mail = []).
  { apply to_none. apply Forall_forall. intros m Hm. apply (Permutation_in _ Pm) in Hm. apply in_app_or in Hm. destruct Hm as [Hm|Hm]; apply in_map_iff in Hm; destruct Hm as (j & <- & Hj); cbn; intros E; apply Hmk; rewrite <- E; [now apply Hl|exact Hj]. }
  assert (Ei : forall i, In i ps -> Permutation (filter (addressed_to i) mail) (map (fun b => transfer_message mk t (i, b)) (sent_to i l) ++ [quote_to i (t + 1) q'])).
  { intros i Hi. rewrite (filter_perm _ _ _ Pm), filter_app, transfers_to, (to_one i (t + 1) q' Hi). reflexivity. }
  pose proof (Ag mk _ Fm) as A0. unfold turn in A0. rewrite id_eqb_refl in A0. rewrite Em in A0. destruct A0 as [A1 A2]. cbn [wake_up_after fold_left] in A2.
  assert (Fi : filter (fun x : Z * message => fst x >? t) inbox = []).
  { apply Multimap_proofs.filter_none. apply Forall_forall. intros x Hx. apply (Permutation_in _ Pi) in Hx. apply in_map_iff in Hx. destruct Hx as (m & <- & _). cbn. lia. }
  cbn [ag_inbox] in A1. rewrite Fi in A1. cbn [insert_all fold_left] in A1.
  exists w', f. split; [exact Er|]. split; [exact Nx|]. split; [exact W'|]. split; [congruence|]. split; [exact A1|]. split; [exact A2|]. split.
  - intros i Hi. destruct (Fp i Hi) as [F1 F2]. pose proof (Ag i _ F1) as B0. unfold turn in B0. rewrite mk_neq in B0 by exact Hi. destruct B0 as [B1 B2]. split.
    + exists (insert_all (filter (addressed_to i) mail) []). split; [exact B1|]. destruct (insert_all_spec (filter (addressed_to i) mail) [] (SSorted_nil _)) as (S1 & S2 & _). split; [exact S1|]. cbn [app] in S2. rewrite S2, (Ei i Hi), map_app, map_map. cbn [map m_received transfer_message quote_message n_received]. apply Permutation_sym, Permutation_cons_append.
    + rewrite F2 in B2. rewrite B2. specialize (Ei i Hi). destruct (sent_to i l) as [|b bs] eqn:Eb.
      * cbn [map app] in Ei. apply Permutation_sym, Permutation_length_1_inv in Ei. rewrite Ei. transitivity (Some (Z.min (asks i t until) (t + 1))); [reflexivity|f_equal; unfold Sessions_proofs2.asks; destruct (eager i); lia].
      * apply wake_min; [unfold Sessions_proofs2.asks; destruct (eager i); lia| |right; exists (transfer_message mk t (i, b)); split; [apply (Permutation_in _ (Permutation_sym Ei)); now left|reflexivity]].
        apply Forall_forall. intros m Hm. apply (Permutation_in _ Ei) in Hm. apply in_app_or in Hm. destruct Hm as [Hm|[<- |[]]]; [apply in_map_iff in Hm; destruct Hm as (x & <- & _); cbn; lia|cbn; lia].
  - intros i H1 H2. destruct (Fo i H1 H2) as [F1 F2]. destruct (Ab i) as [B1 B2]; [intros L; apply L; exact F1|]. split; [exact B1|congruence].
Qed.
Lemma sent_nonempty i (l : list (identity * Z)) b bs : sent_to i l = b :: bs -> exists x, In x l /\ fst x = i.
Proof. intros E. assert (In b (sent_to i l)) by (rewrite E; now left). unfold sent_to in H. apply in_map_iff in H. destruct H as (x & _ & H). apply filter_In in H. destruct H as [H1 H2]. exists x. split; [exact H1|now apply id_eqb_eq]. Qed.
(** Without transfers the next time comes. *)
Lemma settled_at_once until t l q st outputs w : (forall i, In i ps -> sent_to i l = []) -> settling until t l q st outputs w -> answering until (t + 1) q st outputs w.
Proof.
  intros He (W & En & Fm & Wm & Fp & Fo). split; [exact W|]. split; [exact En|]. split; [exact Fm|]. split; [exact Wm|]. split; [|exact Fo].
  intros i Hi. destruct (Fp i Hi) as [(inbox & F1 & _ & P) F2]. rewrite (He i Hi) in P, F2. cbn [map] in P. apply Permutation_sym, Permutation_length_1_inv in P. subst inbox. split; [exact F1|exact F2].
Qed.
(** *** Transfers are booked. *)
Lemma settling_round n until t l q st outputs w : (forall x, In x l -> eager (fst x) = true) -> 0 <= t < until -> settling until t l q st outputs w ->
  exists st' w' f, (forall i, In i ps -> exists bodies, Permutation bodies (sent_to i l) /\ st' i = fold_left (booked i t) bodies (st i)) /\
    round hash shuffle t until n w = Ret (w', f) /\ is_next_event w' f /\ answering until (t + 1) q st' outputs w'.
Proof.
  intros He Ht (W & En & Fm & Wm & Fp & Fo).
  destruct ps as [|p0 ps0] eqn:Eps; [now contradiction Hne|]. rewrite <- Eps in *.
  assert (Hc : exists st', forall i, In i ps -> (exists bodies, Permutation bodies (sent_to i l) /\ st' i = fold_left (booked i t) bodies (st i)) /\
     (sent_to i l <> [] -> forall a, im_find i (agents w) = Some a -> handle shuffle a t until (seed_of hash i t n (w_sample w)) = Ret ((Participant (st' i), []), t + 1))).
  { apply (choice (st p0) (fun i x => (exists bodies, Permutation bodies (sent_to i l) /\ x = fold_left (booked i t) bodies (st i)) /\
      (sent_to i l <> [] -> forall a, im_find i (agents w) = Some a -> handle shuffle a t until (seed_of hash i t n (w_sample w)) = Ret ((Participant x, []), t + 1)))).
    intros i Hi. destruct (Fp i Hi) as [(inbox & F1 & S & P) F2].
    destruct (participant_books order_of answer booked eager shuffle Hsh (random i) i t until (seed_of hash i t n (w_sample w)) inbox (st i)) as (bodies & Pb & Eh).
    - lia.
    - exact S.
    - apply Forall_forall. intros x Hx Lx. apply (Permutation_in _ P) in Hx. destruct Hx as [<- |Hx]; [cbn in Lx; lia|]. apply in_map_iff in Hx. destruct Hx as (b & <- & _). reflexivity.
    - exists (fold_left (booked i t) bodies (st i)). split.
      + exists bodies. split; [|reflexivity]. rewrite Pb. unfold due. rewrite (Permutation_map m_body (Permutation_map snd (filter_perm _ _ _ P))). cbn [filter fst]. replace (t + 1 <=? t) with false by lia. rewrite filter_all.
        * rewrite !map_map. cbn. now rewrite map_id.
        * apply Forall_forall. intros x Hx. apply in_map_iff in Hx. destruct Hx as (b & <- & _). cbn. lia.
      + intros Hs a Ha. rewrite F1 in Ha. injection Ha as <-. rewrite Eh. f_equal. f_equal. unfold Sessions_proofs2.asks. destruct (sent_to i l) as [|b bs] eqn:Eb; [now contradiction Hs|]. destruct (sent_nonempty i l b bs Eb) as (x & Hx & <-). now rewrite (He x Hx). }
  destruct Hc as (st' & Hst). clear Eps.
  set (turn := fun i : identity => if id_eqb i mk then None else match sent_to i l with [] => None | _ => Some ((Participant (T:=T) (st' i), @nil message), t + 1) end).
  assert (Lo : forall i, In i (mk :: ps) -> local w i). { intros i [<- |Hi]; unfold local; [rewrite Fm; discriminate|destruct (Fp i Hi) as [(inbox & F1 & _) _]; rewrite F1; discriminate]. }
  destruct (whole_round hash shuffle t until n w turn W) as (w' & f & Er & W' & Nx & En' & Ks & Ag & Ab).
  { intros i a Ha. destruct (agent_cases w i a Fo Ha) as [->|[Hi N]]; unfold turn.
    - rewrite id_eqb_refl. rewrite Fm in Ha. injection Ha as <-. split; [|reflexivity]. intros [_ [X|X]]; rewrite Wm in X; [|discriminate]. injection X as X. lia.
    - rewrite mk_neq by exact Hi. destruct (Fp i Hi) as [(inbox & F1 & S & P) F2]. destruct (Hst i Hi) as [_ Hh]. destruct (sent_to i l) as [|b bs].
      + rewrite F1 in Ha. injection Ha as <-. split; [|reflexivity]. intros [_ [X|X]]; rewrite F2 in X; [|discriminate]. injection X as X. lia.
      + split; [split; [apply Lo; now right|now left]|]. split; [apply Hh; [discriminate|exact Ha]|]. split; [lia|constructor]. }
  cbn zeta in Ag. match type of Ag with context [filter _ ?m] => set (mail := m) in * end.
  assert (Em : mail = []). { unfold mail. apply concat_nil. intros i _. unfold turn. destruct (id_eqb i mk); [reflexivity|]. destruct (sent_to i l); reflexivity. }
  rewrite Em in Ag. cbn [filter] in Ag. unfold insert_all, wake_up_after in Ag. cbn [fold_left] in Ag.
  exists st', w', f. split; [intros i Hi; apply (Hst i Hi)|]. split; [exact Er|]. split; [exact Nx|].
  pose proof (Ag mk _ Fm) as A0. unfold turn in A0. rewrite id_eqb_refl in A0. destruct A0 as [A1 A2]. rewrite Wm in A2.
  split; [exact W'|]. split; [congruence|]. split; [exact A1|]. split; [exact A2|]. split.
  - intros i Hi. destruct (Fp i Hi) as [(inbox & F1 & S & P) F2]. pose proof (Ag i _ F1) as B0. unfold turn in B0. rewrite mk_neq in B0 by exact Hi. destruct (Hst i Hi) as [(bodies & Pb & Eb) _].
    assert (Pf : filter (fun x : Z * message => fst x >? t) inbox = [(t + 1, quote_to i (t + 1) q)]).
    { apply Permutation_length_1_inv. rewrite (filter_perm _ _ _ P). cbn [filter fst]. replace (t + 1 >? t) with true by lia. rewrite Multimap_proofs.filter_none; [reflexivity|]. apply Forall_forall. intros x Hx. apply in_map_iff in Hx. destruct Hx as (b & <- & _). cbn. lia. }
    destruct (sent_to i l) as [|b bs]; destruct B0 as [B1 B2].
    + cbn [map] in P. apply Permutation_sym, Permutation_length_1_inv in P. subst inbox. apply Permutation_sym, Permutation_nil in Pb. subst bodies. cbn [fold_left] in Eb. rewrite Eb. split; [exact B1|congruence].
    + cbn [ag_inbox fst] in B1. rewrite Pf in B1. split; [exact B1|exact B2].
  - intros i H1 H2. destruct (Fo i H1 H2) as [F1 F2]. destruct (Ab i) as [B1 B2]; [intros L; apply L; exact F1|]. split; [exact B1|congruence].
Qed.

(** *** Steps and the run. *)
Lemma answering_rounds fuel n until t q st outputs w : settles_with_eager settlement eager -> (3 <= fuel)%nat -> 0 <= t < until -> until < W64 -> answering until t q st outputs w ->
  exists orders, Permutation orders (all_orders encode order_of answer ps t q st) /\
  (forall q', clear_quotes solver orders q = Ret q' ->
    exists w' st', rounds hash shuffle fuel t until n w = Some (Ret (w', t + 1)) /\
     (forall i, In i ps -> exists bodies, Permutation bodies (sent_to i (settlement orders q)) /\ st' i = fold_left (booked i t) bodies (answered t q st i)) /\
      answering until (t + 1) q' st' (outputs ++ [(t, q')]) w') /\
  ((forall q', clear_quotes solver orders q <> Ret q') -> forall r, rounds hash shuffle fuel t until n w <> Some (Ret r)).
Proof.
  intros He Hf Ht U A. destruct fuel as [|[|[|fuel]]]; [lia|lia|lia|]. destruct (answering_round n until t q st outputs w Ht U A) as (w1 & f1 & E1 & L1 & C).
  destruct (clearing_round (w32 (n + 1)) until t q st outputs w1 (proj1 He) Ht U C) as (orders & Po & Ho & Hs). exists orders. split; [exact Po|]. split.
  - intros q' Hq. destruct (Ho q' Hq) as (w2 & f2 & E2 & N2 & S2). set (l := settlement orders q) in *.
    assert (Hl : forall x, In x l -> eager (fst x) = true). { intros x Hx. apply (proj2 He _ _ _ Hx). }
    assert (Dec : (forall i, In i ps -> sent_to i l = []) \/ exists i, In i ps /\ sent_to i l <> []).
    { clear. induction ps as [|j k IH]; [left; intros i []|]. destruct (sent_to j l) eqn:E; [|right; exists j; split; [now left|rewrite E; discriminate]]. destruct IH as [IH|(i & Hi & Ei)]; [left; intros i [<- |Hi]; [exact E|now apply IH]|right; exists i; split; [now right|exact Ei]]. }
    destruct Dec as [Dec|(i & Hi & Ei)].
    + pose proof (settled_at_once _ _ _ _ _ _ _ Dec S2) as A2. assert (f2 = t + 1) by (eapply answering_next; [|exact A2|exact N2]; lia). subst f2.
      exists w2, (answered t q st). split; [cbn [rounds]; rewrite E1; replace (t >=? f1) with true by lia; rewrite E2; replace (t >=? t + 1) with false by lia; reflexivity|]. split; [|exact A2].
      intros i Hi. exists []. split; [now rewrite (Dec i Hi)|reflexivity].
    + assert (f2 <= t).
      { destruct S2 as (_ & _ & _ & _ & Fp & _). destruct (Fp i Hi) as [_ F2]. destruct (sent_to i l); [now contradiction Ei|]. now apply (proj2 (proj2 N2) i). }
      destruct (settling_round (w32 (w32 (n + 1) + 1)) until t l q' _ _ w2 Hl Ht S2) as (st' & w3 & f3 & Hst & E3 & N3 & A3). assert (f3 = t + 1) by (eapply answering_next; [|exact A3|exact N3]; lia). subst f3.
      exists w3, st'. split; [|split; [exact Hst|exact A3]]. cbn [rounds]. rewrite E1. replace (t >=? f1) with true by lia. rewrite E2. replace (t >=? f2) with true by lia. rewrite E3. replace (t >=? t + 1) with false by lia. reflexivity.
  - intros Nq r. cbn [rounds]. rewrite E1. replace (t >=? f1) with true by lia. pose proof (Hs Nq) as Hr. destruct (round hash shuffle t until (w32 (n + 1)) w1) as [[w2 f2]| |]; [now contradiction (Hr (w2, f2))|discriminate|discriminate].
Qed.
Lemma times_cons t n : times t (S n) = t :: times (t + 1) n.
Proof. unfold times. cbn [seq map]. f_equal; [lia|]. rewrite <- seq_shift, map_map. apply map_ext. intros. lia. Qed.
Lemma answering_outcome until t q st outputs w : answering until t q st outputs w -> outcome_of mk ps q st outputs w.
Proof. intros (_ & _ & F & _ & Fp & _). split; [do 5 eexists; split; [exact F|reflexivity]|]. intros i Hi. do 4 eexists. exact (proj1 (Fp i Hi)). Qed.
(** What comes of a run. *)
Definition comes_of (t : Z) (n : nat) (outputs outs : list (Z * list (identity * Z))) (last : option (list (identity * Z) * (identity -> T))) (r : option (outcome (world (member T) * list Z))) : Prop :=
  match last with
  | Some (q', st') => (exists w', r = Some (Ret (w', times t n)) /\ outcome_of mk ps q' st' (outputs ++ outs) w') /\ map fst outs = times t n
  | None => forall x, r <> Some (Ret x)
  end.
Lemma run_sessions n : settles_with_eager settlement eager -> forall fuel until t q st outputs w, (n + 3 <= fuel)%nat -> 0 <= t -> until = t + Z.of_nat (S n) -> until < W64 -> answering until t q st outputs w ->
  exists outs last, sessions encode order_of solver answer settlement booked ps until t q st outs last /\ comes_of t (S n) outputs outs last (run_from hash shuffle fuel t w).
Proof.
  intros He. induction n as [|n IH]; intros fuel until t q st outputs w Hf H0 Hu U A; (destruct fuel as [|fuel]; [lia|]);
    assert (Ee : w_end w = until) by apply A; destruct (answering_rounds (S fuel) 0 until t q st outputs w He ltac:(lia) ltac:(lia) U A) as (orders & Po & Ho & Hs);
    (assert (Es : step hash shuffle (S fuel) t until w = rounds hash shuffle (S fuel) t until 0 w) by (unfold step; destruct (Interval.ti_empty t until) eqn:X; [apply ti_empty_iff in X; lia|reflexivity]));
    (destruct (clear_quotes solver orders q) as [q'| |] eqn:Hq;
      [|exists [], None; split; [eapply stuck; [lia|exact Po|intros q'; rewrite Hq; discriminate]|]; intros x; cbn [run_from]; rewrite Ee, Es; assert (Hr := Hs ltac:(intros; discriminate)); destruct (rounds hash shuffle (S fuel) t until 0 w) as [[[w2 f2]| |]|]; [now contradiction (Hr (w2, f2))|discriminate|discriminate|discriminate]
       |exists [], None; split; [eapply stuck; [lia|exact Po|intros q'; rewrite Hq; discriminate]|]; intros x; cbn [run_from]; rewrite Ee, Es; assert (Hr := Hs ltac:(intros; discriminate)); destruct (rounds hash shuffle (S fuel) t until 0 w) as [[[w2 f2]| |]|]; [now contradiction (Hr (w2, f2))|discriminate|discriminate|discriminate]]);
    destruct (Ho q' eq_refl) as (w' & st' & E & Hst & A').
  - exists [(t, q')], (Some (q', st')). split.
    + eapply session; [lia|exact Po|exact Hq|exact Hst|]. replace (t + 1) with until by lia. constructor.
    + split; [|unfold times; cbn; f_equal; lia]. exists w'. split; [|eapply answering_outcome; exact A'].
      cbn [run_from]. rewrite Ee, Es, E. replace (w_end w') with until by (symmetry; apply A'). replace (t + 1 <? until) with false by lia. unfold times. cbn. f_equal. f_equal. f_equal. f_equal. lia.
  - destruct (IH fuel until (t + 1) q' st' _ w' ltac:(lia) ltac:(lia) ltac:(lia) U A') as (outs & last & Se & Co).
    exists ((t, q') :: outs), last. split; [eapply session; [lia|exact Po|exact Hq|exact Hst|exact Se]|].
    assert (Er : run_from hash shuffle (S fuel) t w = match run_from hash shuffle fuel (t + 1) w' with Some (Ret (w2, ts)) => Some (Ret (w2, t :: ts)) | r => r end).
    { cbn [run_from]. rewrite Ee, Es, E. replace (w_end w') with until by (symmetry; apply A'). replace (t + 1 <? until) with true by lia. reflexivity. }
    rewrite Er. destruct last as [[q2 st2]|].
    + destruct Co as [(w2 & E2 & O2) M2]. split; [|cbn [map fst]; rewrite M2, (times_cons t); reflexivity]. exists w2. rewrite E2, (times_cons t). split; [reflexivity|]. rewrite <- app_assoc in O2. exact O2.
    + intros x. destruct (run_from hash shuffle fuel (t + 1) w') as [[[w2 ts]| |]|]; [now contradiction (Co (w2, ts))|discriminate|discriminate|discriminate].
Qed.
Lemma run_market fuel q st w : settles_with_eager settlement eager -> 0 < w_end w < W64 -> market_world encode order_of solver answer settlement booked eager random mk ps q st w -> (Z.to_nat (w_end w) + 3 <= fuel)%nat ->
  exists outs last, sessions encode order_of solver answer settlement booked ps (w_end w) 0 q st outs last /\ comes_of 0 (Z.to_nat (w_end w)) [] outs last (run_from hash shuffle fuel 0 w).
Proof.
  intros He. remember (w_end w) as until eqn:Ee. symmetry in Ee. intros U M Hf. destruct (opening_round until q st w ltac:(lia) M Ee) as (w1 & f1 & E1 & L1 & A).
  destruct fuel as [|fuel]; [lia|]. destruct (answering_rounds fuel (w32 (0 + 1)) until 0 q st [] w1 He ltac:(lia) ltac:(lia) ltac:(lia) A) as (orders & Po & Ho & Hs).
  assert (Es : step hash shuffle (S fuel) 0 until w = rounds hash shuffle fuel 0 until (w32 (0 + 1)) w1).
  { unfold step. destruct (Interval.ti_empty 0 until) eqn:X; [apply ti_empty_iff in X; lia|]. cbn [rounds]. rewrite E1. replace (0 >=? f1) with true by lia. reflexivity. }
  assert (Bad : (forall q', clear_quotes solver orders q <> Ret q') -> exists outs last, sessions encode order_of solver answer settlement booked ps until 0 q st outs last /\ comes_of 0 (Z.to_nat until) [] outs last (run_from hash shuffle (S fuel) 0 w)).
  { intros Nq. exists [], None. split; [eapply stuck; [lia|exact Po|exact Nq]|]. intros x. cbn [run_from]. rewrite Ee, Es. pose proof (Hs Nq) as Hr. destruct (rounds hash shuffle fuel 0 until (w32 (0 + 1)) w1) as [[[w2 f2]| |]|]; [now contradiction (Hr (w2, f2))|discriminate|discriminate|discriminate]. }
  destruct (clear_quotes solver orders q) as [q'| |] eqn:Hq; [|apply Bad; intros; discriminate|apply Bad; intros; discriminate]. clear Bad.
  destruct (Ho q' eq_refl) as (w2 & st' & E & Hst & A2).
  destruct (Z.ltb_spec (0 + 1) until).
  - destruct (Z.to_nat until) as [|[|n]] eqn:En; [lia|lia|]. destruct (run_sessions n He fuel until (0 + 1) q' st' _ w2 ltac:(lia) ltac:(lia) ltac:(lia) ltac:(lia) A2) as (outs & last & Se & Co).
    exists ((0, q') :: outs), last. split; [eapply session; [lia|exact Po|exact Hq|exact Hst|exact Se]|].
    assert (Er : run_from hash shuffle (S fuel) 0 w = match run_from hash shuffle fuel (0 + 1) w2 with Some (Ret (w3, ts)) => Some (Ret (w3, 0 :: ts)) | r => r end).
    { cbn [run_from]. rewrite Ee, Es, E. replace (w_end w2) with until by (symmetry; apply A2). replace (0 + 1 <? until) with true by lia. reflexivity. }
    rewrite Er. destruct last as [[q2 st2]|].
    + destruct Co as [(w3 & E2 & O2) M2]. split; [|cbn [map fst]; rewrite M2, (times_cons 0); reflexivity]. exists w3. rewrite E2, (times_cons 0). split; [reflexivity|exact O2].
    + intros x. destruct (run_from hash shuffle fuel (0 + 1) w2) as [[[w3 ts]| |]|]; [now contradiction (Co (w3, ts))|discriminate|discriminate|discriminate].
  - exists [(0, q')], (Some (q', st')). split.
    + eapply session; [lia|exact Po|exact Hq|exact Hst|]. replace (0 + 1) with until by lia. constructor.
    + assert (N1 : Z.to_nat until = 1%nat) by lia. rewrite N1. split; [|reflexivity]. exists w2. split; [|eapply answering_outcome; exact A2].
      cbn [run_from]. rewrite Ee, Es, E. replace (w_end w2) with until by (symmetry; apply A2). replace (0 + 1 <? until) with false by lia. reflexivity.
Qed.
(** *** Participants that trade and are not eager. *)
Definition sleeping (until t : Z) q outputs w : Prop :=
  well_formed w /\ w_end w = until /\
  im_find mk (agents w) = Some (the_market [] (Setter (mk_setter true q t ps) [] outputs, [])) /\ im_find mk (wake_up_times w) = Some t /\
  (forall i, In i ps -> exists a, im_find i (agents w) = Some a /\ ag_outbox a = [] /\ im_find i (wake_up_times w) = Some until) /\
  (forall i, i <> mk -> ~ In i ps -> im_find i (agents w) = None /\ im_find i (wake_up_times w) = None).
Lemma sleeping_round_books n until t l q st outputs w : (forall i, In i ps -> eager i = false /\ sent_to i l <> []) -> 0 <= t < until -> settling until t l q st outputs w ->
  exists w' f, round hash shuffle t until n w = Ret (w', f) /\ is_next_event w' f /\ sleeping until (t + 1) q outputs w'.
Proof.
  intros He Ht (W & En & Fm & Wm & Fp & Fo).
  destruct ps as [|p0 ps0] eqn:Eps; [now contradiction Hne|]. rewrite <- Eps in *.
  assert (Hc : exists st', forall i, In i ps -> forall a, im_find i (agents w) = Some a -> handle shuffle a t until (seed_of hash i t n (w_sample w)) = Ret ((Participant (st' i), []), until)).
  { apply (choice (st p0) (fun i x => forall a, im_find i (agents w) = Some a -> handle shuffle a t until (seed_of hash i t n (w_sample w)) = Ret ((Participant x, []), until))).
    intros i Hi. destruct (Fp i Hi) as [(inbox & F1 & S & P) F2].
    destruct (participant_books order_of answer booked eager shuffle Hsh (random i) i t until (seed_of hash i t n (w_sample w)) inbox (st i)) as (bodies & Pb & Eh).
    - lia.
    - exact S.
    - apply Forall_forall. intros x Hx Lx. apply (Permutation_in _ P) in Hx. destruct Hx as [<- |Hx]; [cbn in Lx; lia|]. apply in_map_iff in Hx. destruct Hx as (b & <- & _). reflexivity.
    - exists (fold_left (booked i t) bodies (st i)). intros a Ha. rewrite F1 in Ha. injection Ha as <-. rewrite Eh. f_equal. f_equal. unfold Sessions_proofs2.asks. now rewrite (proj1 (He i Hi)). }
  destruct Hc as (st' & Hst). clear Eps.
  set (turn := fun i : identity => if id_eqb i mk then None else Some ((Participant (T:=T) (st' i), @nil message), until)).
  assert (Lo : forall i, In i (mk :: ps) -> local w i). { intros i [<- |Hi]; unfold local; [rewrite Fm; discriminate|destruct (Fp i Hi) as [(inbox & F1 & _) _]; rewrite F1; discriminate]. }
  destruct (whole_round hash shuffle t until n w turn W) as (w' & f & Er & W' & Nx & En' & Ks & Ag & Ab).
  { intros i a Ha. destruct (agent_cases w i a Fo Ha) as [->|[Hi N]]; unfold turn.
    - rewrite id_eqb_refl. rewrite Fm in Ha. injection Ha as <-. split; [|reflexivity]. intros [_ [X|X]]; rewrite Wm in X; [|discriminate]. injection X as X. lia.
    - rewrite mk_neq by exact Hi. destruct (Fp i Hi) as [_ F2]. destruct (He i Hi) as [_ Hs]. destruct (sent_to i l) as [|b bs]; [now contradiction Hs|].
      split; [split; [apply Lo; now right|now left]|]. split; [apply (Hst i Hi a Ha)|]. split; [lia|constructor]. }
  cbn zeta in Ag. match type of Ag with context [filter _ ?m] => set (mail := m) in * end.
  assert (Em : mail = []). { unfold mail. apply concat_nil. intros i _. unfold turn. destruct (id_eqb i mk); reflexivity. }
  rewrite Em in Ag. cbn [filter] in Ag. unfold insert_all, wake_up_after in Ag. cbn [fold_left] in Ag.
  exists w', f. split; [exact Er|]. split; [exact Nx|].
  pose proof (Ag mk _ Fm) as A0. unfold turn in A0. rewrite id_eqb_refl in A0. destruct A0 as [A1 A2]. rewrite Wm in A2.
  split; [exact W'|]. split; [congruence|]. split; [exact A1|]. split; [exact A2|]. split.
  - intros i Hi. destruct (Fp i Hi) as [(inbox & F1 & S & P) F2]. pose proof (Ag i _ F1) as B0. unfold turn in B0. rewrite mk_neq in B0 by exact Hi. destruct B0 as [B1 B2]. eexists. split; [exact B1|]. split; [reflexivity|exact B2].
  - intros i H1 H2. destruct (Fo i H1 H2) as [F1 F2]. destruct (Ab i) as [B1 B2]; [intros L; apply L; exact F1|]. split; [exact B1|congruence].
Qed.
Lemma sleeping_round n until t q outputs w : 0 < t -> t < until -> until < W64 -> sleeping until t q outputs w ->
  exists w' f, round hash shuffle t until n w = Ret (w', f) /\ f <= t /\ sleeping until t q outputs w'.
Proof.
  intros H0 Ht U (W & En & Fm & Wm & Fp & Fo).
  set (turn := fun i : identity => if id_eqb i mk then Some ((Setter (T:=T) (mk_setter true q t ps) [] outputs, @nil message), t) else None).
  destruct (whole_round hash shuffle t until n w turn W) as (w' & f & Er & W' & Nx & En' & Ks & Ag & Ab).
  { intros i a Ha. destruct (agent_cases w i a Fo Ha) as [->|[Hi N]]; unfold turn.
    - rewrite id_eqb_refl. split; [split; [unfold local; rewrite Fm; discriminate|now left]|]. rewrite Fm in Ha. injection Ha as <-. split; [apply (market_waits encode order_of solver answer settlement booked eager); try assumption; lia|]. split; [lia|constructor].
    - rewrite mk_neq by exact Hi. destruct (Fp i Hi) as (a' & F1 & F0 & F2). split; [|rewrite Ha in F1; injection F1 as <-; exact F0]. intros [_ [X|X]]; rewrite F2 in X; [|discriminate]. injection X as X. lia. }
  cbn zeta in Ag. match type of Ag with context [filter _ ?m] => set (mail := m) in * end.
  assert (Em : mail = []). { unfold mail. apply concat_nil. intros i _. unfold turn. destruct (id_eqb i mk); reflexivity. }
  rewrite Em in Ag. cbn [filter] in Ag. unfold insert_all, wake_up_after in Ag. cbn [fold_left] in Ag.
  pose proof (Ag mk _ Fm) as A0. unfold turn in A0. rewrite id_eqb_refl in A0. destruct A0 as [A1 A2].
  exists w', f. split; [exact Er|]. split; [apply (proj2 (proj2 Nx) mk t A2)|].
  split; [exact W'|]. split; [congruence|]. split; [exact A1|]. split; [exact A2|]. split.
  - intros i Hi. destruct (Fp i Hi) as (a & F1 & F0 & F2). pose proof (Ag i _ F1) as B0. unfold turn in B0. rewrite mk_neq in B0 by exact Hi. destruct B0 as [B1 B2]. eexists. split; [exact B1|]. split; [reflexivity|congruence].
  - intros i H1 H2. destruct (Fo i H1 H2) as [F1 F2]. destruct (Ab i) as [B1 B2]; [intros L; apply L; exact F1|]. split; [exact B1|congruence].
Qed.
Lemma sleeping_rounds fuel : forall n until t q outputs w, 0 < t -> t < until -> until < W64 -> sleeping until t q outputs w -> rounds hash shuffle fuel t until n w = None.
Proof.
  induction fuel as [|fuel IH]; intros n until t q outputs w H0 Ht U A; [reflexivity|]. destruct (sleeping_round n until t q outputs w H0 Ht U A) as (w' & f & E & L & A'). cbn [rounds]. rewrite E. replace (t >=? f) with true by lia. eapply IH; eassumption.
Qed.
Lemma sleeping_next until t q outputs w f : t < until -> sleeping until t q outputs w -> is_next_event w f -> f = t.
Proof.
  intros L (W & En & Fm & Wm & Fp & Fo) (N1 & N2 & N3). pose proof (N3 mk _ Wm) as N4. destruct N1 as [N1|(i & Hi)]; [rewrite En in N1; lia|].
  destruct (id_eqb i mk) eqn:X; [apply id_eqb_eq in X; subst i; congruence|]. destruct (in_dec (list_eq_dec Z.eq_dec) i ps) as [I|I].
  - destruct (Fp i I) as (a & _ & _ & B). rewrite B in Hi. injection Hi as Hi. lia.
  - destruct (Fo i) as [_ B]; [intros ->; rewrite id_eqb_refl in X; discriminate|exact I|]. congruence.
Qed.
Lemma all_sleep fuel q st w : settles_with_orderers settlement -> (forall i, In i ps -> eager i = false) -> all_trade encode order_of answer settlement ps 0 q st -> 1 < w_end w < W64 ->
  market_world encode order_of solver answer settlement booked eager random mk ps q st w -> forall r, run_from hash shuffle fuel 0 w <> Some (Ret r).
Proof.
  intros Ho He Ht. remember (w_end w) as until eqn:Ee. symmetry in Ee. intros U M r. destruct (opening_round until q st w ltac:(lia) M Ee) as (w1 & f1 & E1 & L1 & A1).
  destruct (answering_round (w32 (0 + 1)) until 0 q st [] w1 ltac:(lia) ltac:(lia) A1) as (w2 & f2 & E2 & L2 & A2).
  destruct (clearing_round (w32 (w32 (0 + 1) + 1)) until 0 q st [] w2 Ho ltac:(lia) ltac:(lia) A2) as (orders & Po & Hs & Hf).
  assert (Es : forall k, step hash shuffle k 0 until w = rounds hash shuffle k 0 until 0 w). { intros k. unfold step. destruct (Interval.ti_empty 0 until) eqn:X; [apply ti_empty_iff in X; lia|reflexivity]. }
  destruct fuel as [|fuel]; [discriminate|]. cbn [run_from]. rewrite Ee, Es.
  destruct fuel as [|fuel]; [cbn [rounds]; rewrite E1; replace (0 >=? f1) with true by lia; discriminate|].
  destruct fuel as [|fuel]; [cbn [rounds]; rewrite E1; replace (0 >=? f1) with true by lia; rewrite E2; replace (0 >=? f2) with true by lia; discriminate|].
  assert (Er : forall k, rounds hash shuffle (S (S k)) 0 until 0 w = rounds hash shuffle k 0 until (w32 (w32 (0 + 1) + 1)) w2).
  { intros k. cbn [rounds]. rewrite E1. replace (0 >=? f1) with true by lia. rewrite E2. replace (0 >=? f2) with true by lia. reflexivity. }
  rewrite Er.
  assert (Bad : (forall q', clear_quotes solver orders q <> Ret q') -> forall x, rounds hash shuffle (S fuel) 0 until (w32 (w32 (0 + 1) + 1)) w2 <> Some (Ret x)).
  { intros Nq x. cbn [rounds]. pose proof (Hf Nq) as Hr. destruct (round hash shuffle 0 until (w32 (w32 (0 + 1) + 1)) w2) as [[w3 f3]| |]; [now contradiction (Hr (w3, f3))|discriminate|discriminate]. }
  destruct (clear_quotes solver orders q) as [q'| |] eqn:Hq.
  2:{ assert (Hr := Bad ltac:(intros; discriminate)). destruct (rounds hash shuffle (S fuel) 0 until (w32 (w32 (0 + 1) + 1)) w2) as [[[w3 f3]| |]|]; [now contradiction (Hr (w3, f3))|discriminate|discriminate|discriminate]. }
  2:{ assert (Hr := Bad ltac:(intros; discriminate)). destruct (rounds hash shuffle (S fuel) 0 until (w32 (w32 (0 + 1) + 1)) w2) as [[[w3 f3]| |]|]; [now contradiction (Hr (w3, f3))|discriminate|discriminate|discriminate]. }
  clear Bad. destruct (Hs q' eq_refl) as (w3 & f3 & E3 & N3 & A3). set (l := settlement orders q) in *.
  assert (Hl : forall i, In i ps -> eager i = false /\ sent_to i l <> []).
  { intros i Hi. split; [now apply He|]. destruct (Ht orders i Po Hi) as (b & Hb). intros X. assert (In b (sent_to i l)); [|rewrite X in H; destruct H]. unfold sent_to. apply in_map_iff. exists (i, b). split; [reflexivity|]. apply filter_In. split; [exact Hb|apply id_eqb_refl]. }
  assert (L3 : f3 <= 0).
  { assert (Hp : exists p, In p ps) by (destruct ps as [|p0 ps0]; [now contradiction Hne|exists p0; now left]). destruct Hp as (p0 & Hp). destruct A3 as (_ & _ & _ & _ & Fp & _). destruct (Fp p0 Hp) as [_ F2]. destruct (Hl p0 Hp) as [_ X]. destruct (sent_to p0 l); [now contradiction X|]. now apply (proj2 (proj2 N3) p0). }
  destruct (sleeping_round_books (w32 (w32 (w32 (0 + 1) + 1) + 1)) until 0 l q' _ _ w3 Hl ltac:(lia) A3) as (w4 & f4 & E4 & N4 & A4).
  assert (f4 = 0 + 1) by (eapply sleeping_next; [|exact A4|exact N4]; lia). subst f4.
  cbn [rounds]. rewrite E3. replace (0 >=? f3) with true by lia. destruct fuel as [|fuel]; [discriminate|]. cbn [rounds]. rewrite E4. change (0 >=? 0 + 1) with false. cbv iota.
  replace (w_end w4) with until by (symmetry; apply A4). replace (0 + 1 <? until) with true by lia.
  remember (S (S (S fuel))) as k eqn:Ek. clear Ek. destruct k as [|k]; [discriminate|]. cbn [run_from]. replace (w_end w4) with until by (symmetry; apply A4).
  assert (X : step hash shuffle (S k) (0 + 1) until w4 = rounds hash shuffle (S k) (0 + 1) until 0 w4). { unfold step. destruct (Interval.ti_empty (0 + 1) until) eqn:X; [apply ti_empty_iff in X; lia|reflexivity]. }
  rewrite X. rewrite (sleeping_rounds (S k) 0 until (0 + 1) q' _ w4 ltac:(lia) ltac:(lia) ltac:(lia) A4). discriminate.
Qed.
End Course.
