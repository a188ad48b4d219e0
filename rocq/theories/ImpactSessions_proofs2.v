From Verif Require Import Base Identity Identity_proofs IdMap IdMap_proofs Multimap Multimap_proofs Communicator Communicator_spec Communicator_proofs
  Simulation Simulation_spec Simulation_proofs Simulation_proofs2 Simulation_proofs3 Walras Markets Messages ImpactSessions ImpactSessions_spec ImpactSessions_proofs.
From Verif Require Sessions_spec Sessions_proofs.
From Coq Require Import ZifyBool ZifyNat.
Notation times := Sessions_spec.times.

Section Course.
Context {T : Type} (encode : list (identity * Z) -> Z) (order_of : Z -> volumes) (answer : identity -> Z -> T -> Z -> T * Z) (stamped : bool).
Context (hash : identity -> Z) (shuffle : seed -> list message -> list message).
Context (Hsh : forall s l, Permutation (shuffle s l) l).
Context (random : identity -> bool) (mk : identity) (ps : list identity) (Hnd : NoDup ps) (Hmk : ~ In mk ps) (Hne : ps <> []).
Implicit Types (w : world (party T)) (q : list (identity * Z)) (st : identity -> T).
Notation the_market inbox st := (mk_agent (lock (registered (new_communicator (random mk)) ImpactOrder volumes_callback)) (impact_action encode order_of mk) inbox st).
Notation comm i := (lock (registered (new_communicator (random i)) ImpactQuote (answer_callback answer stamped i))).
Notation the_trader i inbox st := (mk_agent (comm i) trader_action inbox st).
Notation quote_to i t q := (impact_quote encode mk (mk_quotation i t q)).
Notation quotes_at t q := (map (fun p => quote_to p t q) ps).
Definition orders_from (n : nat) (t : Z) q st (i : identity) : list message :=
  map (mk_message (kind_code ImpactOrder) i mk (stamp stamped t) t) (snd (answers answer i t n (st i) (encode q))).
Definition answered (n : nat) (t : Z) q st (i : identity) : T := fst (answers answer i t n (st i) (encode q)).
Definition nobody w : Prop := forall i, i <> mk -> ~ In i ps -> im_find i (agents w) = None /\ im_find i (wake_up_times w) = None.

(** Quotes have been delivered, each [n] times, and the market sleeps; orders have been delivered. *)
Definition quoted (n : nat) (wake until t : Z) q st log w : Prop :=
  well_formed w /\ w_end w = until /\
  im_find mk (agents w) = Some (the_market [] (Impact (mk_impact true q ps) [] log, [])) /\ im_find mk (wake_up_times w) = Some wake /\
  (forall i, In i ps -> im_find i (agents w) = Some (the_trader i (repeat (t, quote_to i t q) n) (Trader (st i), [])) /\ im_find i (wake_up_times w) = Some t) /\ nobody w.
Definition ordered (n : nat) (until t : Z) q st log w : Prop :=
  well_formed w /\ w_end w = until /\
  (exists inbox, im_find mk (agents w) = Some (the_market inbox (Impact (mk_impact true q ps) [] log, [])) /\ StronglySorted key_le inbox /\
     Permutation inbox (map (fun m => (t, m)) (concat (map (orders_from n t q st) ps)))) /\ im_find mk (wake_up_times w) = Some t /\
  (forall i, In i ps -> im_find i (agents w) = Some (the_trader i [] (Trader (answered n t q st i), [])) /\ im_find i (wake_up_times w) = Some until) /\ nobody w.

Lemma mk_neq i : In i ps -> id_eqb i mk = false.
Proof. intros H. apply id_eqb_neq. intros ->. contradiction. Qed.
Lemma cases w i a : nobody w -> im_find i (agents w) = Some a -> i = mk \/ (In i ps /\ i <> mk).
Proof.
  intros H E. destruct (id_eqb i mk) eqn:X; [left; now apply id_eqb_eq|right]. assert (N : i <> mk) by (intros ->; rewrite id_eqb_refl in X; discriminate).
  split; [|exact N]. destruct (in_dec (list_eq_dec Z.eq_dec) i ps) as [I|I]; [exact I|]. destruct (H i N I) as [F _]. congruence.
Qed.
Lemma keys w : well_formed w -> (forall i, In i (mk :: ps) -> local w i) -> nobody w -> Permutation (map fst (agents w)) (mk :: ps).
Proof.
  intros W L N. apply NoDup_Permutation.
  - apply im_keys_nodup. apply W.
  - constructor; assumption.
  - intros i. rewrite <- local_in by apply W. split; [|apply L]. intros H. destruct (id_eqb i mk) eqn:X; [left; symmetry; now apply id_eqb_eq|right].
    destruct (in_dec (list_eq_dec Z.eq_dec) i ps) as [I|I]; [exact I|]. exfalso. apply H. apply N; [intros ->; rewrite id_eqb_refl in X; discriminate|exact I].
Qed.
Lemma mail_perm {X} (f : identity -> list X) ks : Permutation ks (mk :: ps) -> Permutation (concat (map f ks)) (f mk ++ concat (map f ps)).
Proof. intros P. rewrite <- !flat_map_concat_map. rewrite (Permutation_flat_map f P). reflexivity. Qed.
Lemma filter_perm {X} (f : X -> bool) l1 l2 : Permutation l1 l2 -> Permutation (filter f l1) (filter f l2).
Proof. induction 1; cbn; [constructor|destruct (f x); auto|destruct (f x), (f y); auto using perm_swap|etransitivity; eauto]. Qed.
Lemma to_one i t q : In i ps -> filter (addressed_to i) (quotes_at t q) = [quote_to i t q].
Proof.
  clear - Hnd. induction ps as [|j l IH]; intros H; [destruct H|]. inversion_clear Hnd as [|? ? N1 N2]. cbn [map filter]. unfold addressed_to at 1. cbn [m_recipient impact_quote n_recipient].
  destruct (id_eqb j i) eqn:E.
  - apply id_eqb_eq in E. subst j. f_equal. apply Multimap_proofs.filter_none. apply Forall_forall. intros m Hm. apply in_map_iff in Hm. destruct Hm as (k & <- & Hk). unfold addressed_to. cbn. apply id_eqb_neq. intros ->. contradiction.
  - destruct H as [->|H]; [rewrite id_eqb_refl in E; discriminate|]. now apply IH.
Qed.
Lemma to_none i ms : Forall (fun m => m_recipient m <> i) ms -> filter (addressed_to i) ms = [].
Proof. intros F. apply Multimap_proofs.filter_none. eapply Forall_impl; [|exact F]. intros m H. unfold addressed_to. now apply id_eqb_neq. Qed.
Lemma concat_nil {X Y} (f : X -> list Y) l : (forall x, In x l -> f x = []) -> concat (map f l) = [].
Proof. induction l as [|x l IH]; intros H; [reflexivity|]. cbn. rewrite H by now left. apply IH. intros; apply H; now right. Qed.
Lemma concat_ext {X Y} (f g : X -> list Y) l : (forall x, In x l -> f x = g x) -> concat (map f l) = concat (map g l).
Proof. intros H. f_equal. now apply map_ext_in. Qed.
Lemma in_orders m n t q st : In m (concat (map (orders_from n t q st) ps)) <-> exists i b, In i ps /\ In b (snd (answers answer i t n (st i) (encode q))) /\ m = mk_message (kind_code ImpactOrder) i mk (stamp stamped t) t b.
Proof.
  rewrite Sessions_proofs.in_concat'. split.
  - intros (l & Hl & Hm). apply in_map_iff in Hl. destruct Hl as (i & <- & Hi). unfold orders_from in Hm. apply in_map_iff in Hm. destruct Hm as (b & <- & Hb). eauto.
  - intros (i & b & Hi & Hb & ->). exists (orders_from n t q st i). split; [now apply in_map|]. unfold orders_from. now apply in_map.
Qed.
Lemma answers_length i t n : forall x b, length (snd (answers answer i t n x b)) = n.
Proof. induction n as [|n IH]; intros x b; [reflexivity|]. cbn [answers]. destruct (answer i t x b) as [t1 b1]. specialize (IH t1 b). destruct (answers answer i t n t1 b) as [t2 bs]. cbn in *. now rewrite IH. Qed.
Lemma orders_nonempty n t q st : concat (map (orders_from (S n) t q st) ps) <> [].
Proof.
  destruct ps as [|p l]; [contradiction|]. cbn [map concat]. intros H. apply app_eq_nil in H. destruct H as [H _]. apply (f_equal (@length _)) in H. unfold orders_from in H. rewrite map_length, answers_length in H. discriminate.
Qed.
Lemma wake_min t ms : forall x, t <= x -> Forall (fun m => t <= m_received m) ms -> x = t \/ (exists m, In m ms /\ m_received m = t) -> wake_up_after (Some x) ms = Some t.
Proof.
  unfold wake_up_after. induction ms as [|m l IH]; intros x H F E; [destruct E as [-> |(m & [] & _)]; reflexivity|]. apply Forall_cons_iff in F. destruct F as [F1 F2]. cbn [fold_left]. unfold earlier at 2. apply IH; [lia|exact F2|].
  destruct E as [-> |(m0 & [-> |H0] & E)]; [left; lia|left; lia|right; eauto].
Qed.
Lemma wake_all t x ms : t <= x -> Forall (fun m => m_received m = t) ms -> ms <> [] -> wake_up_after (Some x) ms = Some t.
Proof.
  intros L F N. apply wake_min; [exact L|eapply Forall_impl; [|exact F]; cbn; lia|]. right. destruct ms as [|m ms]; [contradiction|]. exists m. split; [now left|]. now apply Forall_cons_iff in F.
Qed.

(** A round of the market alone. *)
Lemma market_round n t until w inbox o wake q' log' : well_formed w -> nobody w -> im_find mk (agents w) = Some (the_market inbox o) -> Forall (fun x => fst x <= t) inbox ->
  im_find mk (wake_up_times w) = Some t ->
  handle shuffle (the_market inbox o) t until (seed_of hash mk t n (w_sample w)) = Ret ((Impact (T:=T) (mk_impact true q' ps) [] log', quotes_at (t + 1) q'), wake) -> t <= wake ->
  (forall i, In i ps -> exists inbox x t', im_find i (agents w) = Some (the_trader i inbox (Trader x, [])) /\ im_find i (wake_up_times w) = Some t' /\ t < t') ->
  exists w' f, round hash shuffle t until n w = Ret (w', f) /\ is_next_event w' f /\ well_formed w' /\ w_end w' = w_end w /\ nobody w' /\
    im_find mk (agents w') = Some (the_market [] (Impact (mk_impact true q' ps) [] log', [])) /\ im_find mk (wake_up_times w') = Some wake /\
    (forall i inbox x t', In i ps -> im_find i (agents w) = Some (the_trader i inbox (Trader x, [])) -> im_find i (wake_up_times w) = Some t' ->
       im_find i (agents w') = Some (the_trader i (insert_all [quote_to i (t + 1) q'] inbox) (Trader x, [])) /\ im_find i (wake_up_times w') = Some (Z.min t' (t + 1))).
Proof.
  intros W Fo Fm Fi Wm Hh Lw Fp.
  set (turn := fun i : identity => if id_eqb i mk then Some ((Impact (T:=T) (mk_impact true q' ps) [] log', quotes_at (t + 1) q'), wake) else None).
  assert (Lo : forall i, In i (mk :: ps) -> local w i). { intros i [<- |Hi]; unfold local; [rewrite Fm; discriminate|destruct (Fp i Hi) as (? & ? & ? & F1 & _); rewrite F1; discriminate]. }
  destruct (Sessions_proofs.whole_round hash shuffle t until n w turn W) as (w' & f & Er & W' & Nx & En' & Ks & Ag & Ab).
  { intros i a Ha. destruct (cases w i a Fo Ha) as [->|[Hi N]]; unfold turn.
    - rewrite id_eqb_refl. split; [split; [apply Lo; now left|now left]|]. rewrite Fm in Ha. injection Ha as <-. split; [exact Hh|]. split; [exact Lw|]. cbn [snd].
      apply Forall_forall. intros m Hm. apply in_map_iff in Hm. destruct Hm as (j & <- & Hj). cbn. apply Lo. now right.
    - rewrite mk_neq by exact Hi. destruct (Fp i Hi) as (inb & x & t' & F1 & F2 & F3). rewrite F1 in Ha. injection Ha as <-. split; [|reflexivity]. intros [_ [X|X]]; rewrite F2 in X; [|discriminate]. injection X as X. lia. }
  exists w', f. split; [exact Er|]. split; [exact Nx|]. split; [exact W'|]. split; [exact En'|]. cbn zeta in Ag.
  match type of Ag with context [filter _ ?m] => set (mail := m) in * end.
  assert (Pm : Permutation mail (quotes_at (t + 1) q')).
  { unfold mail. rewrite (mail_perm _ _ (keys w W Lo Fo)). unfold turn at 1. rewrite id_eqb_refl. cbn [snd]. rewrite concat_nil; [now rewrite app_nil_r|]. intros i Hi. unfold turn. rewrite mk_neq by exact Hi. reflexivity. }
  assert (Em : filter (addressed_to mk) mail = []).
  { apply to_none. apply Forall_forall. intros m Hm. apply (Permutation_in _ Pm) in Hm. apply in_map_iff in Hm. destruct Hm as (j & <- & Hj). cbn. intros ->. contradiction. }
  assert (Ei : forall i, In i ps -> filter (addressed_to i) mail = [quote_to i (t + 1) q']).
  { intros i Hi. apply Permutation_length_1_inv. rewrite <- (to_one i (t + 1) q' Hi). apply filter_perm. now symmetry. }
  split. { intros i H1 H2. destruct (Fo i H1 H2) as [F1 F2]. destruct (Ab i) as [B1 B2]; [intros L; apply L; exact F1|]. split; [exact B1|congruence]. }
  pose proof (Ag mk _ Fm) as A0. unfold turn in A0. rewrite id_eqb_refl in A0. rewrite Em in A0. destruct A0 as [A1 A2]. cbn [ag_inbox] in A1.
  rewrite (Multimap_proofs.filter_none (fun x : Z * message => fst x >? t)) in A1 by (eapply Forall_impl; [|exact Fi]; cbn; intros; lia).
  split; [exact A1|]. split; [exact A2|]. intros i inb x t' Hi F1 F2. pose proof (Ag i _ F1) as B0. unfold turn in B0. rewrite mk_neq in B0 by exact Hi. rewrite (Ei i Hi) in B0. destruct B0 as [B1 B2]. split; [exact B1|]. rewrite B2, F2. reflexivity.
Qed.

Lemma insert_first x : insert_all [x] [] = [(m_received x, x)].
Proof. reflexivity. Qed.

(** *** Quotes go out at time 0, twice. *)
Lemma opening_round until q st w : 0 < until -> impact_world encode order_of answer stamped random mk ps q st w -> w_end w = until ->
  exists w' f, round hash shuffle 0 until 0 w = Ret (w', f) /\ f <= 0 /\ quoted 1 0 until 1 q st [] w'.
Proof.
  intros U (W & Wu & Fm & Fp & Fo) En.
  set (turn := fun i : identity => if id_eqb i mk then Some ((Impact (T:=T) (mk_impact true q ps) [] [], quotes_at 1 q), 0) else Some ((Trader (st i), []), until)).
  assert (Fo' : nobody w). { intros i H1 H2. split; [now apply Fo|]. now rewrite Wu. }
  assert (Lo : forall i, In i (mk :: ps) -> local w i). { intros i [<- |Hi]; unfold local; [rewrite Fm; discriminate|rewrite (Fp i Hi); discriminate]. }
  destruct (Sessions_proofs.whole_round hash shuffle 0 until 0 w turn W) as (w' & f & Er & W' & Nx & En' & Ks & Ag & Ab).
  { intros i a Ha. destruct (cases w i a Fo' Ha) as [->|[Hi N]]; unfold turn.
    - rewrite id_eqb_refl. split; [split; [apply Lo; now left|right; now rewrite Wu]|]. rewrite Fm in Ha. injection Ha as <-. split; [apply (market_opens encode order_of answer shuffle Hsh); lia|]. split; [lia|]. cbn [snd].
      apply Forall_forall. intros m Hm. apply in_map_iff in Hm. destruct Hm as (j & <- & Hj). cbn. apply Lo. now right.
    - rewrite mk_neq by exact Hi. split; [split; [apply Lo; now right|right; now rewrite Wu]|]. rewrite (Fp i Hi) in Ha. injection Ha as <-. split; [apply trader_idle|]. split; [lia|constructor]. }
  exists w', f. split; [exact Er|]. cbn zeta in Ag.
  match type of Ag with context [filter _ ?m] => set (mail := m) in * end.
  assert (Pm : Permutation mail (quotes_at 1 q)).
  { unfold mail. rewrite (mail_perm _ _ (keys w W Lo Fo')). unfold turn at 1. rewrite id_eqb_refl. cbn [snd]. rewrite concat_nil; [now rewrite app_nil_r|].
    intros i Hi. unfold turn. rewrite mk_neq by exact Hi. reflexivity. }
  assert (Em : filter (addressed_to mk) mail = []).
  { apply to_none. apply Forall_forall. intros m Hm. apply (Permutation_in _ Pm) in Hm. apply in_map_iff in Hm. destruct Hm as (j & <- & Hj). cbn. intros ->. contradiction. }
  assert (Ei : forall i, In i ps -> filter (addressed_to i) mail = [quote_to i 1 q]).
  { intros i Hi. apply Permutation_length_1_inv. rewrite <- (to_one i 1 q Hi). apply filter_perm. now symmetry. }
  pose proof (Ag mk _ Fm) as A0. unfold turn in A0. rewrite id_eqb_refl in A0. rewrite Em in A0. destruct A0 as [A1 A2]. cbn in A2.
  split; [apply (proj2 (proj2 Nx) mk 0 A2)|]. split; [exact W'|]. split; [congruence|]. split; [exact A1|]. split; [exact A2|]. split.
  - intros i Hi. pose proof (Ag i _ (Fp i Hi)) as B0. unfold turn in B0. rewrite mk_neq in B0 by exact Hi. rewrite (Ei i Hi) in B0. destruct B0 as [B1 B2]. split; [exact B1|]. transitivity (Some (Z.min until 1)); [exact B2|f_equal; lia].
  - intros i H1 H2. destruct (Ab i) as [B1 B2]; [intros L; apply L; now apply Fo|]. split; [exact B1|]. rewrite B2. now rewrite Wu.
Qed.
Lemma quoted_next n wake until t q st log w f : t <= until -> t <= wake -> quoted n wake until t q st log w -> is_next_event w f -> f = t.
Proof.
  intros L Lw (W & En & Fm & Wm & Fp & Fo) (N1 & N2 & N3). assert (Hp : exists p, In p ps) by (destruct ps as [|p l]; [contradiction|exists p; now left]). destruct Hp as (p & Hp).
  pose proof (N3 p _ (proj2 (Fp p Hp))) as N4. destruct N1 as [N1|(i & Hi)]; [rewrite En in N1; lia|].
  destruct (id_eqb i mk) eqn:X; [apply id_eqb_eq in X; subst i; rewrite Wm in Hi; injection Hi as Hi; lia|]. destruct (in_dec (list_eq_dec Z.eq_dec) i ps) as [I|I].
  - destruct (Fp i I) as [_ B]. congruence.
  - destruct (Fo i) as [_ B]; [intros ->; rewrite id_eqb_refl in X; discriminate|exact I|]. congruence.
Qed.
Lemma second_round n until t q st log w : 0 <= t <= 1 -> t < until -> until < W64 -> quoted 1 t until (t + 1) q st log w ->
  exists w' f, round hash shuffle t until n w = Ret (w', f) /\ f = t + 1 /\ quoted 2 until until (t + 1) q st log w'.
Proof.
  intros Ht U B (W & En & Fm & Wm & Fp & Fo).
  pose proof (market_idle (T:=T) encode order_of answer shuffle Hsh (random mk) mk t until (seed_of hash mk t n (w_sample w)) q ps log ltac:(lia) B) as Hh. replace (t >? 1) with false in Hh by lia.
  destruct (market_round n t until w [] _ until q log W Fo Fm (Forall_nil _) Wm Hh) as (w' & f & Er & Nx & W' & En' & Fo' & Fm' & Wm' & Fp'); [lia| |].
  { intros i Hi. destruct (Fp i Hi) as [F1 F2]. eexists _, _, _. split; [exact F1|]. split; [exact F2|lia]. }
  assert (A : quoted 2 until until (t + 1) q st log w').
  { split; [exact W'|]. split; [congruence|]. split; [exact Fm'|]. split; [exact Wm'|]. split; [|exact Fo']. intros i Hi. destruct (Fp i Hi) as [F1 F2]. destruct (Fp' i _ _ _ Hi F1 F2) as [B1 B2]. rewrite Z.min_id in B2. split; [|exact B2]. rewrite B1. f_equal. f_equal. cbn [repeat]. unfold insert_all. cbn [fold_left m_received impact_quote n_received].
    unfold Multimap.mm_insert. cbn. replace (t + 1 <=? t + 1) with true by lia. reflexivity. }
  exists w', f. split; [exact Er|]. split; [eapply quoted_next; [| |exact A|exact Nx]; lia|exact A].
Qed.

(** *** Participants answer. *)
Lemma answering_round k n until t q st log w : 1 <= t < until -> until < W64 -> quoted (S k) until until t q st log w ->
  exists w' f, round hash shuffle t until n w = Ret (w', f) /\ f <= t /\ ordered (S k) until t q st log w'.
Proof.
  intros Ht U (W & En & Fm & Wm & Fp & Fo).
  set (turn := fun i : identity => if id_eqb i mk then None else Some ((Trader (T:=T) (answered (S k) t q st i), orders_from (S k) t q st i), until)).
  assert (Lo : forall i, In i (mk :: ps) -> local w i). { intros i [<- |Hi]; unfold local; [rewrite Fm; discriminate|rewrite (proj1 (Fp i Hi)); discriminate]. }
  destruct (Sessions_proofs.whole_round hash shuffle t until n w turn W) as (w' & f & Er & W' & Nx & En' & Ks & Ag & Ab).
  { intros i a Ha. destruct (cases w i a Fo Ha) as [->|[Hi N]]; unfold turn.
    - rewrite id_eqb_refl. rewrite Fm in Ha. injection Ha as <-. split; [|reflexivity]. intros [_ [X|X]]; rewrite Wm in X; [|discriminate]. injection X as X. lia.
    - rewrite mk_neq by exact Hi. destruct (Fp i Hi) as [F1 F2]. split; [split; [apply Lo; now right|now left]|]. rewrite F1 in Ha. injection Ha as <-.
      split; [apply (trader_turn order_of answer stamped shuffle Hsh (random i) i t until _ (quote_to i t q) (S k) (st i)); [lia|reflexivity]|]. split; [lia|]. cbn [snd]. apply Forall_forall. intros m Hm. unfold orders_from in Hm. apply in_map_iff in Hm. destruct Hm as (b & <- & _). cbn. apply Lo. now left. }
  exists w', f. split; [exact Er|]. cbn zeta in Ag.
  match type of Ag with context [filter _ ?m] => set (mail := m) in * end.
  assert (Pm : Permutation mail (concat (map (orders_from (S k) t q st) ps))).
  { unfold mail. rewrite (mail_perm _ _ (keys w W Lo Fo)). unfold turn at 1. rewrite id_eqb_refl. cbn [snd app]. rewrite (concat_ext _ (orders_from (S k) t q st)); [reflexivity|].
    intros i Hi. unfold turn. rewrite mk_neq by exact Hi. reflexivity. }
  assert (Hm : forall m, In m mail -> m_recipient m = mk /\ m_received m = t). { intros m H. apply (Permutation_in _ Pm) in H. apply in_orders in H. destruct H as (i & b & _ & _ & ->). split; reflexivity. }
  assert (Em : filter (addressed_to mk) mail = mail).
  { apply filter_all. apply Forall_forall. intros m H. destruct (Hm m H) as [E _]. unfold addressed_to. rewrite E. apply id_eqb_refl. }
  assert (Ei : forall i, In i ps -> filter (addressed_to i) mail = []).
  { intros i Hi. apply to_none. apply Forall_forall. intros m H. destruct (Hm m H) as [E _]. rewrite E. intros ->. contradiction. }
  pose proof (Ag mk _ Fm) as A0. unfold turn in A0. rewrite id_eqb_refl in A0. rewrite Em in A0. destruct A0 as [A1 A2]. cbn [filter ag_inbox] in A1. rewrite Wm, (wake_all t) in A2.
  2:{ lia. }
  2:{ apply Forall_forall. intros m H. now apply Hm. }
  2:{ intros X. rewrite X in Pm. apply Permutation_nil in Pm. now apply orders_nonempty in Pm. }
  split; [apply (proj2 (proj2 Nx) mk t A2)|]. split; [exact W'|]. split; [congruence|]. split.
  - exists (insert_all mail []). split; [exact A1|]. destruct (insert_all_spec mail [] (SSorted_nil _)) as (S1 & S2 & _). split; [exact S1|]. cbn [app] in S2. rewrite S2.
    assert (X : map (fun m => (m_received m, m)) mail = map (fun m => (t, m)) mail). { apply map_ext_in. intros m H. destruct (Hm m H) as [_ ->]. reflexivity. }
    rewrite X. apply Permutation_map. exact Pm.
  - split; [exact A2|]. split.
    + intros i Hi. destruct (Fp i Hi) as [F1 F2]. pose proof (Ag i _ F1) as B0. unfold turn in B0. rewrite mk_neq in B0 by exact Hi. rewrite (Ei i Hi) in B0. destruct B0 as [B1 B2].
      cbn [ag_inbox fst] in B1. rewrite (Multimap_proofs.filter_none (fun x : Z * message => fst x >? t)) in B1; [split; [exact B1|exact B2]|]. apply Forall_forall. intros x Hx. apply repeat_spec in Hx. subst x. cbn. lia.
    + intros i H1 H2. destruct (Fo i H1 H2) as [F1 F2]. destruct (Ab i) as [B1 B2]; [intros L; apply L; exact F1|]. split; [exact B1|congruence].
Qed.
Lemma inbox_due n t q st (inbox : list (Z * message)) : Permutation inbox (map (fun m => (t, m)) (concat (map (orders_from n t q st) ps))) -> Forall (fun x => fst x <= t) inbox.
Proof. intros P. apply Forall_forall. intros x Hx. apply (Permutation_in _ P) in Hx. apply in_map_iff in Hx. destruct Hx as (m & <- & _). cbn. lia. Qed.

(** *** The market clears. *)
Lemma clearing_round k n until t q st log w : stamped = true -> 1 <= t < until -> until < W64 -> ordered (S k) until t q st log w ->
  exists orders extra w', one_each encode order_of answer ps t (S k) q st orders /\ Forall (fun x => snd x = 0 /\ exists o, In o orders /\ In (fst x) (map fst (snd o))) extra /\
    round hash shuffle t until n w = Ret (w', t + 1) /\ quoted 1 until until (t + 1) (q ++ extra) (answered (S k) t q st) (log ++ [(t, (net_volumes orders, q ++ extra))]) w'.
Proof.
  intros St Ht U (W & En & (inbox & Fm & Sm & Pi) & Wm & Fp & Fo).
  destruct (market_clears (T:=T) encode order_of answer shuffle Hsh (random mk) mk t until (seed_of hash mk t n (w_sample w)) q ps inbox (concat (map (orders_from (S k) t q st) ps)) log) as (orders & extra & N & I & K & He & Hh); try assumption; try lia.
  { apply Forall_forall. intros m Hm. apply in_orders in Hm. destruct Hm as (i & b & _ & _ & ->). cbn. unfold stamp. rewrite St. auto. }
  { apply orders_nonempty. }
  destruct (market_round n t until w inbox _ until _ _ W Fo Fm (inbox_due _ _ _ _ _ Pi) Wm Hh) as (w' & f & Er & Nx & W' & En' & Fo' & Fm' & Wm' & Fp'); try reflexivity; try lia.
  { intros i Hi. destruct (Fp i Hi) as [F1 F2]. eexists _, _, _. split; [exact F1|]. split; [exact F2|lia]. }
  assert (A : quoted 1 until until (t + 1) (q ++ extra) (answered (S k) t q st) (log ++ [(t, (net_volumes orders, q ++ extra))]) w').
  { split; [exact W'|]. split; [congruence|]. split; [exact Fm'|]. split; [exact Wm'|]. split; [|exact Fo']. intros i Hi. destruct (Fp i Hi) as [F1 F2]. destruct (Fp' i _ _ _ Hi F1 F2) as [B1 B2]. split; [exact B1|]. rewrite B2. f_equal. lia. }
  assert (f = t + 1) by (eapply quoted_next; [| |exact A|exact Nx]; lia). subst f.
  exists orders, extra, w'. split; [|split; [exact He|split; [exact Er|exact A]]]. split.
  - apply NoDup_Permutation; [exact N|exact Hnd|]. intros j. rewrite K. rewrite in_map_iff. split.
    + intros (m & <- & Hm). apply in_orders in Hm. destruct Hm as (i & b & Hi & _ & ->). exact Hi.
    + intros Hj. destruct (snd (answers answer j t (S k) (st j) (encode q))) as [|b bs] eqn:Eb; [apply (f_equal (@length _)) in Eb; rewrite answers_length in Eb; discriminate|].
      exists (mk_message (kind_code ImpactOrder) j mk (stamp stamped t) t b). split; [reflexivity|]. apply in_orders. exists j, b. split; [exact Hj|]. split; [rewrite Eb; now left|reflexivity].
  - intros i d Hd. destruct (I _ Hd) as (m & Hm & E). apply in_orders in Hm. destruct Hm as (j & b & _ & Hb & ->). injection E as -> ->. eauto.
Qed.

(** *** Steps and the run. *)
Lemma session_step k fuel until t q st log w : stamped = true -> (2 <= fuel)%nat -> 1 <= t < until -> until < W64 -> quoted (S k) until until t q st log w ->
  exists orders extra w', one_each encode order_of answer ps t (S k) q st orders /\ Forall (fun x => snd x = 0 /\ exists o, In o orders /\ In (fst x) (map fst (snd o))) extra /\
    step hash shuffle fuel t until w = Some (Ret (w', t + 1)) /\ quoted 1 until until (t + 1) (q ++ extra) (answered (S k) t q st) (log ++ [(t, (net_volumes orders, q ++ extra))]) w'.
Proof.
  intros St Hf Ht U A. destruct fuel as [|[|fuel]]; [lia|lia|]. destruct (answering_round k 0 until t q st log w Ht U A) as (w1 & f1 & E1 & L1 & C).
  destruct (clearing_round k (w32 (0 + 1)) until t q st log w1 St Ht U C) as (orders & extra & w2 & Ho & He & E2 & A2). exists orders, extra, w2. split; [exact Ho|]. split; [exact He|]. split; [|exact A2].
  unfold step. destruct (Interval.ti_empty t until) eqn:X; [apply ti_empty_iff in X; lia|]. cbn [rounds]. rewrite E1. replace (t >=? f1) with true by lia. rewrite E2. replace (t >=? t + 1) with false by lia. reflexivity.
Qed.
Lemma quoted_outcome n wake until t q st log w : quoted n wake until t q st log w -> impact_outcome mk ps q st log w.
Proof. intros (_ & _ & F & _ & Fp & _). split; [do 5 eexists; split; [exact F|reflexivity]|]. intros i Hi. do 4 eexists. exact (proj1 (Fp i Hi)). Qed.
Lemma times_cons t n : times t (S n) = t :: times (t + 1) n.
Proof. unfold times. cbn [seq map]. f_equal; [lia|]. rewrite <- seq_shift, map_map. apply map_ext. intros. lia. Qed.
Lemma run_sessions n : stamped = true -> forall k fuel until t q st log w, (n + 3 <= fuel)%nat -> 1 <= t -> until = t + Z.of_nat (S n) -> until < W64 -> quoted (S k) until until t q st log w ->
  exists outs q' st' w', impact_sessions encode order_of answer ps until (S k) t q st outs q' st' /\ map fst outs = times t (S n) /\
    run_from hash shuffle fuel t w = Some (Ret (w', times t (S n))) /\ impact_outcome mk ps q' st' (log ++ outs) w'.
Proof.
  intros St. induction n as [|n IH]; intros k fuel until t q st log w Hf H0 Hu U A; (destruct fuel as [|fuel]; [lia|]);
    assert (Ee : w_end w = until) by apply A; destruct (session_step k (S fuel) until t q st log w St ltac:(lia) ltac:(lia) U A) as (orders & extra & w1 & Ho & He & E1 & A1);
    assert (Ee1 : w_end w1 = until) by apply A1.
  - exists [(t, (net_volumes orders, q ++ extra))], (q ++ extra), (answered (S k) t q st), w1. split; [|split; [|split]].
    + eapply impact_session; [lia|exact Ho|exact He|reflexivity|]. replace (t + 1) with until by lia. constructor.
    + rewrite times_cons. reflexivity.
    + cbn [run_from]. rewrite Ee, E1, Ee1. replace (t + 1 <? until) with false by lia. rewrite times_cons. reflexivity.
    + eapply quoted_outcome. exact A1.
  - destruct (IH 0%nat fuel until (t + 1) _ _ _ w1 ltac:(lia) ltac:(lia) ltac:(lia) U A1) as (outs & q' & st' & w' & Se & Mo & Er & Ou).
    exists ((t, (net_volumes orders, q ++ extra)) :: outs), q', st', w'. split; [|split; [|split]].
    + eapply impact_session; [lia|exact Ho|exact He|reflexivity|exact Se].
    + rewrite times_cons. cbn [map fst]. now rewrite Mo.
    + cbn [run_from]. rewrite Ee, E1, Ee1. replace (t + 1 <? until) with true by lia. rewrite Er, (times_cons t). reflexivity.
    + rewrite <- app_assoc in Ou. exact Ou.
Qed.
Lemma opening_step fuel until q st w : 0 < until < W64 -> (2 <= fuel)%nat -> impact_world encode order_of answer stamped random mk ps q st w -> w_end w = until ->
  exists w', step hash shuffle fuel 0 until w = Some (Ret (w', 1)) /\ quoted 2 until until 1 q st [] w'.
Proof.
  intros U Hf M Ee. destruct (opening_round until q st w ltac:(lia) M Ee) as (w1 & f1 & E1 & L1 & A1). destruct (second_round (w32 (0 + 1)) until 0 q st [] w1 ltac:(lia) ltac:(lia) ltac:(lia) A1) as (w2 & f2 & E2 & -> & A2).
  exists w2. split; [|exact A2]. destruct fuel as [|[|fuel]]; [lia|lia|]. unfold step. destruct (Interval.ti_empty 0 until) eqn:X; [apply ti_empty_iff in X; lia|]. cbn [rounds]. rewrite E1. replace (0 >=? f1) with true by lia. rewrite E2. reflexivity.
Qed.
Lemma run_market fuel q st w : stamped = true -> 0 < w_end w < W64 -> impact_world encode order_of answer stamped random mk ps q st w -> (Z.to_nat (w_end w) + 3 <= fuel)%nat ->
  exists outs q' st' w', impact_sessions encode order_of answer ps (w_end w) 2 1 q st outs q' st' /\ map fst outs = times 1 (Z.to_nat (w_end w) - 1) /\
    run_from hash shuffle fuel 0 w = Some (Ret (w', times 0 (Z.to_nat (w_end w)))) /\ impact_outcome mk ps q' st' outs w'.
Proof.
  intros St. remember (w_end w) as until eqn:Ee. symmetry in Ee. intros U M Hf. destruct fuel as [|fuel]; [lia|]. destruct (opening_step (S fuel) until q st w U ltac:(lia) M Ee) as (w1 & E1 & A1). assert (Ee1 : w_end w1 = until) by apply A1.
  destruct (Z.to_nat until) as [|[|n]] eqn:En; [lia| |].
  - exists [], q, st, w1. assert (until = 1) by lia. split; [rewrite H; constructor|]. split; [reflexivity|]. split; [|eapply quoted_outcome; exact A1].
    cbn [run_from]. rewrite Ee, E1, Ee1. replace (1 <? until) with false by lia. reflexivity.
  - destruct (run_sessions n St 1%nat fuel until 1 q st [] w1 ltac:(lia) ltac:(lia) ltac:(lia) ltac:(lia) A1) as (outs & q' & st' & w' & Se & Mo & Er & Ou). exists outs, q', st', w'. split; [exact Se|]. split; [replace (S (S n) - 1)%nat with (S n) by lia; exact Mo|]. split; [|exact Ou].
    cbn [run_from]. rewrite Ee, E1, Ee1. replace (1 <? until) with true by lia. rewrite Er, (times_cons 0). reflexivity.
Qed.

(** *** Orders without the time of sending. *)
Definition waiting (wake until t : Z) q log w : Prop :=
  well_formed w /\ w_end w = until /\
  im_find mk (agents w) = Some (the_market [] (Impact (mk_impact true q ps) [] log, [])) /\ im_find mk (wake_up_times w) = Some wake /\
  (forall i, In i ps -> exists inbox x, im_find i (agents w) = Some (the_trader i inbox (Trader x, [])) /\ im_find i (wake_up_times w) = Some (t + 1)) /\ nobody w.
Lemma refusing_round k n until t q st log w : stamped = false -> 1 <= t < until -> until < W64 -> ordered (S k) until t q st log w ->
  exists w' f, round hash shuffle t until n w = Ret (w', f) /\ f <= t /\ quoted 1 t until (t + 1) q (answered (S k) t q st) log w'.
Proof.
  intros St Ht U (W & En & (inbox & Fm & Sm & Pi) & Wm & Fp & Fo).
  pose proof (market_refuses (T:=T) encode order_of answer shuffle Hsh (random mk) mk t until (seed_of hash mk t n (w_sample w)) q ps inbox (concat (map (orders_from (S k) t q st) ps)) log ltac:(lia) ltac:(lia) U Sm Pi) as Hh.
  destruct (market_round n t until w inbox _ t _ _ W Fo Fm (inbox_due _ _ _ _ _ Pi) Wm (Hh ltac:(apply Forall_forall; intros m Hm; apply in_orders in Hm; destruct Hm as (i & b & _ & _ & ->); cbn; unfold stamp; rewrite St; split; [reflexivity|lia]) (orders_nonempty _ _ _ _))) as (w' & f & Er & Nx & W' & En' & Fo' & Fm' & Wm' & Fp'); try reflexivity; try lia.
  { intros i Hi. destruct (Fp i Hi) as [F1 F2]. eexists _, _, _. split; [exact F1|]. split; [exact F2|lia]. }
  exists w', f. split; [exact Er|]. split; [apply (proj2 (proj2 Nx) mk t Wm')|].
  split; [exact W'|]. split; [congruence|]. split; [exact Fm'|]. split; [exact Wm'|]. split; [|exact Fo']. intros i Hi. destruct (Fp i Hi) as [F1 F2]. destruct (Fp' i _ _ _ Hi F1 F2) as [B1 B2]. split; [exact B1|]. rewrite B2. f_equal. lia.
Qed.
Lemma idle_round n until t q log w : 1 < t < until -> until < W64 -> waiting t until t q log w ->
  exists w' f, round hash shuffle t until n w = Ret (w', f) /\ f <= t /\ waiting t until t q log w'.
Proof.
  intros Ht U (W & En & Fm & Wm & Fp & Fo).
  pose proof (market_idle (T:=T) encode order_of answer shuffle Hsh (random mk) mk t until (seed_of hash mk t n (w_sample w)) q ps log ltac:(lia) U) as Hh. replace (t >? 1) with true in Hh by lia.
  destruct (market_round n t until w [] _ t q log W Fo Fm (Forall_nil _) Wm Hh) as (w' & f & Er & Nx & W' & En' & Fo' & Fm' & Wm' & Fp'); [lia| |].
  { intros i Hi. destruct (Fp i Hi) as (inbox & x & F1 & F2). eexists _, _, _. split; [exact F1|]. split; [exact F2|lia]. }
  exists w', f. split; [exact Er|]. split; [apply (proj2 (proj2 Nx) mk t Wm')|].
  split; [exact W'|]. split; [congruence|]. split; [exact Fm'|]. split; [exact Wm'|]. split; [|exact Fo']. intros i Hi. destruct (Fp i Hi) as (inbox & x & F1 & F2). destruct (Fp' i _ _ _ Hi F1 F2) as [B1 B2]. eexists _, _. split; [exact B1|]. rewrite B2. f_equal. lia.
Qed.
Lemma idle_rounds fuel : forall n until t q log w, 1 < t < until -> until < W64 -> waiting t until t q log w -> rounds hash shuffle fuel t until n w = None.
Proof.
  induction fuel as [|fuel IH]; intros n until t q log w Ht U A; [reflexivity|]. destruct (idle_round n until t q log w Ht U A) as (w' & f & E & L & A'). cbn [rounds]. rewrite E. replace (t >=? f) with true by lia. eapply IH; eassumption.
Qed.
Lemma run_refused fuel q st w : stamped = false -> 2 < w_end w < W64 -> impact_world encode order_of answer stamped random mk ps q st w -> run_from hash shuffle fuel 0 w = None.
Proof.
  intros St. remember (w_end w) as until eqn:Ee. symmetry in Ee. intros U M.
  (* the step at time 0 *)
  destruct (opening_round until q st w ltac:(lia) M Ee) as (w1 & f1 & E1 & L1 & A1). destruct (second_round (w32 (0 + 1)) until 0 q st [] w1 ltac:(lia) ltac:(lia) ltac:(lia) A1) as (w2 & f2 & E2 & -> & A2). change (0 + 1) with 1 in *.
  (* the step at time 1 *)
  destruct (answering_round 1 0 until 1 q st [] w2 ltac:(lia) ltac:(lia) A2) as (w3 & f3 & E3 & L3 & A3).
  destruct (refusing_round 1 (w32 (0 + 1)) until 1 q st [] w3 St ltac:(lia) ltac:(lia) A3) as (w4 & f4 & E4 & L4 & A4).
  destruct (second_round (w32 (w32 (0 + 1) + 1)) until 1 q _ [] w4 ltac:(lia) ltac:(lia) ltac:(lia) A4) as (w5 & f5 & E5 & -> & A5). change (1 + 1) with 2 in *.
  (* the step at time 2 *)
  destruct (answering_round 1 0 until 2 q _ [] w5 ltac:(lia) ltac:(lia) A5) as (w6 & f6 & E6 & L6 & A6).
  destruct (refusing_round 1 (w32 (0 + 1)) until 2 q _ [] w6 St ltac:(lia) ltac:(lia) A6) as (w7 & f7 & E7 & L7 & A7).
  assert (A8 : waiting 2 until 2 q [] w7).
  { destruct A7 as (B1 & B2 & B3 & B4 & B5 & B6). split; [exact B1|]. split; [exact B2|]. split; [exact B3|]. split; [exact B4|]. split; [|exact B6]. intros i Hi. destruct (B5 i Hi) as [C1 C2]. eauto. }
  assert (R2 : forall k, step hash shuffle k 2 until w5 = None).
  { intros k. unfold step. destruct (Interval.ti_empty 2 until) eqn:X; [apply ti_empty_iff in X; lia|]. destruct k as [|[|k]]; [reflexivity|cbn [rounds]; rewrite E6; replace (2 >=? f6) with true by lia; reflexivity|].
    cbn [rounds]. rewrite E6. replace (2 >=? f6) with true by lia. rewrite E7. replace (2 >=? f7) with true by lia. apply (idle_rounds k _ until 2 q [] w7); [lia|lia|exact A8]. }
  assert (R1 : forall k, step hash shuffle k 1 until w2 = None \/ step hash shuffle k 1 until w2 = Some (Ret (w5, 2))).
  { intros k. unfold step. destruct (Interval.ti_empty 1 until) eqn:X; [apply ti_empty_iff in X; lia|]. destruct k as [|[|[|k]]]; [left; reflexivity|left; cbn [rounds]; rewrite E3; replace (1 >=? f3) with true by lia; reflexivity| |].
    - left. cbn [rounds]. rewrite E3. replace (1 >=? f3) with true by lia. rewrite E4. replace (1 >=? f4) with true by lia. reflexivity.
    - right. cbn [rounds]. rewrite E3. replace (1 >=? f3) with true by lia. rewrite E4. replace (1 >=? f4) with true by lia. rewrite E5. reflexivity. }
  assert (R0 : forall k, step hash shuffle k 0 until w = None \/ step hash shuffle k 0 until w = Some (Ret (w2, 1))).
  { intros k. unfold step. destruct (Interval.ti_empty 0 until) eqn:X; [apply ti_empty_iff in X; lia|]. destruct k as [|[|k]]; [left; reflexivity|left; cbn [rounds]; rewrite E1; replace (0 >=? f1) with true by lia; reflexivity|].
    right. cbn [rounds]. rewrite E1. replace (0 >=? f1) with true by lia. change (w32 (0 + 1)) with (w32 1). rewrite E2. reflexivity. }
  assert (En2 : w_end w2 = until) by apply A2. assert (En5 : w_end w5 = until) by apply A5.
  destruct fuel as [|fuel]; [reflexivity|]. cbn [run_from]. rewrite Ee. destruct (R0 (S fuel)) as [-> | ->]; [reflexivity|]. rewrite En2. replace (1 <? until) with true by lia.
  destruct fuel as [|fuel]; [reflexivity|]. cbn [run_from]. rewrite En2. destruct (R1 (S fuel)) as [-> | ->]; [reflexivity|]. rewrite En5. replace (2 <? until) with true by lia.
  destruct fuel as [|fuel]; [reflexivity|]. cbn [run_from]. rewrite En5, R2. reflexivity.
Qed.
End Course.
