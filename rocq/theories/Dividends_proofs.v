(** Proofs about companies and shareholders in a simulation. *)
From Verif Require Import Company Company_proofs.
From Verif Require Import Base Interval Identity Identity_proofs IdMap IdMap_proofs Multimap Multimap_proofs Communicator Communicator_spec Communicator_proofs Messages
  Simulation Simulation_spec Simulation_proofs Simulation_proofs2 Simulation_proofs3 Punctual_proofs FirstCome_proofs KnownRound_proofs Dividends Dividends_spec.
From Coq Require Import ZifyBool ZifyNat.

Section D.
Context (hash : identity -> Z) (shuffle : seed -> list message -> list message).
Context (write : policy -> Z) (ex_date : Z -> Z) (write_record : list (Z * Z) -> Z) {T : Type}.
Implicit Types (w : world (party T)).

Lemma firm_handles r self p c inbox lower upper s out :
  handle shuffle (mk_agent (lock (new_communicator r)) (firm_act (T:=T) write self (fun _ _ _ => Some p)) inbox (Firm c, out)) lower upper s =
  let '(c', ms, next) := Company.act lower upper (Some p) c in Ret ((Firm c', out ++ map (announce write self) ms), Z.min upper next).
Proof.
  unfold handle, process_messages. cbn [ag_comm ag_inbox ag_own ag_act]. rewrite deaf_order by (intros t; reflexivity). cbn [handle_all]. unfold firm_act. cbn [fst snd].
  destruct (Company.act lower upper (Some p) c) as [[c' ms] next]. reflexivity.
Qed.
(** *** A company that waits to pay. *)
Definition waits (self : identity) (p : policy) (w : world (party T)) : Prop := exists r inbox c out,
  im_find self (agents w) = Some (mk_agent (lock (new_communicator r)) (firm_act write self (fun _ _ _ => Some p)) inbox (Firm c, out)) /\
  forall t, im_find self (wake_up_times w) = Some t -> t <= p_announcement p.
Lemma act_early lower upper p c : lower <= p_announcement p < p_payable p -> p_announcement p < upper -> snd (Company.act lower upper (Some p) c) <= p_announcement p.
Proof.
  intros H1 H2. unfold Company.act. destruct (p_announcement p <=? lower) eqn:A, (c_last_announced c <? p_announcement p), (p_payable p <=? lower) eqn:B; cbn [snd]; lia.
Qed.
Lemma waits_round self p lower upper n w w' f : well_formed w -> waits self p w -> lower <= p_announcement p < p_payable p -> p_announcement p < upper ->
  round hash shuffle lower upper n w = Ret (w', f) -> well_formed w' /\ waits self p w' /\ f <= p_announcement p /\ w_end w' = w_end w.
Proof.
  intros Hwf (r & inbox & c & out & F & K) L U H. destruct (round_spec _ _ _ _ _ _ _ _ Hwf H) as (W1 & F1 & N1 & _).
  unfold round in H. destruct (act_phase hash shuffle lower upper n w) as [q| |] eqn:Ea; [|discriminate|discriminate].
  unfold finish_round in H. destruct (send_messages (p_world q)) as [[w1 k]| |] eqn:Es; [|discriminate|discriminate]. assert (w1 = w') as -> by congruence. clear H.
  pose proof (act_wf _ _ _ _ _ _ _ Hwf Ea) as Hwp. destruct (act_phase_spec _ _ _ _ _ _ _ Hwf Ea) as (_ & _ & HA & _).
  destruct (send_ret _ _ _ (wf_sorted _ Hwp) Es) as (_ & _ & _ & _ & _ & _ & A & B).
  assert (X : exists inbox c out t, im_find self (agents (p_world q)) = Some (mk_agent (lock (new_communicator r)) (firm_act write self (fun _ _ _ => Some p)) inbox (Firm c, out)) /\
    im_find self (wake_up_times (p_world q)) = Some t /\ t <= p_announcement p).
  { destruct (HA self _ F) as [H1 H2]. destruct (due_dec w lower self (wf_sorted _ Hwf)) as [D|D].
    - destruct (H1 D) as (o & t & Eh & _ & Ef & Ew). rewrite firm_handles in Eh. pose proof (act_early lower upper p c L U) as Q. destruct (Company.act lower upper (Some p) c) as [[c' ms] next]. cbn [snd] in Q.
      injection Eh as <- <-. cbn [ag_comm ag_act] in Ef. eexists _, _, _, _. split; [exact Ef|]. split; [exact Ew|]. lia.
    - destruct (H2 D) as [Ef Ew]. destruct (im_find self (wake_up_times w)) as [t|] eqn:Et; [exists inbox, c, out, t; split; [congruence|split; [congruence|now apply K]]|].
      exfalso. apply D. split; [unfold local; congruence|now right]. }
  destruct X as (inbox' & c' & out' & t & Xf & Xt & Xl).
  destruct (wake_up_after_le (Some t) (filter (addressed_to self) (sent (p_world q))) t eq_refl) as (t' & Et' & Lt').
  assert (Ew : im_find self (wake_up_times w') = Some t') by (rewrite B, Xt; exact Et').
  split; [exact W1|]. split; [|split; [|exact N1]].
  - exists r. specialize (A self). rewrite Xf in A. cbn [option_map] in A. unfold cleared, with_mail, with_own, with_inbox in A. cbn [ag_comm ag_act ag_inbox ag_own fst] in A. eexists _, _, _. split; [exact A|]. intros x Hx. rewrite Ew in Hx. injection Hx as <-. lia.
  - destruct (next_event_spec w' (wf_sorted _ W1)) as (_ & _ & Q). specialize (Q self t' Ew). lia.
Qed.
Lemma waits_rounds self p lower upper fuel : lower <= p_announcement p < p_payable p -> p_announcement p < upper -> forall n w w' t, well_formed w -> waits self p w ->
  rounds hash shuffle fuel lower upper n w = Some (Ret (w', t)) -> well_formed w' /\ waits self p w' /\ t <= p_announcement p /\ w_end w' = w_end w.
Proof.
  intros L U. induction fuel as [|fuel IH]; intros n w w' t Hwf Hw H; cbn [rounds] in H; [discriminate|]. destruct (round hash shuffle lower upper n w) as [[w1 f]| |] eqn:E; [|discriminate|discriminate].
  destruct (waits_round self p _ _ _ _ _ _ Hwf Hw L U E) as (W1 & Q1 & F1 & N1). destruct (lower >=? f) eqn:G.
  - destruct (IH _ _ _ _ W1 Q1 H) as (? & ? & ? & ?). split; [assumption|]. split; [assumption|]. split; [assumption|congruence].
  - injection H as <- <-. split; [assumption|]. split; [assumption|]. split; assumption.
Qed.
Lemma waits_forever self p fuel : forall lower w r, well_formed w -> waits self p w -> lower <= p_announcement p < p_payable p -> p_announcement p < w_end w -> run_from hash shuffle fuel lower w <> Some (Ret r).
Proof.
  induction fuel as [|fuel IH]; intros lower w r Hwf Hw L U H; [discriminate|]. cbn [run_from] in H. remember (S fuel) as fu. unfold step in H. destruct (ti_empty lower (w_end w)); [discriminate|].
  destruct (rounds hash shuffle fu lower (w_end w) 0 w) as [[[w1 t]| |]|] eqn:E; try discriminate.
  destruct (waits_rounds self p _ _ _ L U _ _ _ _ Hwf Hw E) as (W1 & Q1 & F1 & N1). assert (t <? w_end w1 = true) as X by lia. rewrite X in H.
  destruct (run_from hash shuffle fuel t w1) as [[[w2 ts]| |]|] eqn:E2; try discriminate. apply (IH t w1 (w2, ts) W1 Q1); [lia|lia|exact E2].
Qed.

(** *** The exact condition. *)
Context (Hsh : forall s l, Permutation (shuffle s l) l) (random : identity -> bool) (firm : identity) (holders : list identity) (p : policy) (shares : identity -> list (identity * list (Z * Z))).
Context (Hread : ex_date (write p) = p_ex_dividend p) (ND : NoDup (firm :: holders)).
Definition holder_like (j : identity) (h : shareholder) (inbox : list (Z * message)) : agent (party T) :=
  mk_agent (lock (holder_communicator ex_date write_record (random j) j)) idle_act inbox (Holder h, []).
Definition firm_like (c : company) : agent (party T) :=
  mk_agent (lock (new_communicator (random firm))) (firm_act write firm (fun _ _ _ => Some p)) [] (Firm c, []).
Lemma holder_quiet j h lower upper s : handle shuffle (holder_like j h []) lower upper s = Ret ((Holder h, []), upper).
Proof. unfold handle, holder_like, process_messages, handling_order. cbn. now rewrite Z.min_id. Qed.
Lemma single_order (c : communicator (@own (party T))) fs lower s m : fm_find (m_type m) (callbacks c) = Some fs -> fs <> [] -> handling_order c shuffle lower s [(lower, m)] = [m].
Proof.
  intros F N. unfold handling_order. cbn [by_priority]. rewrite F. destruct (lower >? lower) eqn:L; [lia|]. destruct fs; [contradiction|]. cbn [mm_insert rev app runs map snd concat].
  destruct (Communicator.random c); [|reflexivity]. pose proof (Permutation_length_1_inv (Permutation_sym (Hsh s [m]))) as ->. reflexivity.
Qed.
Lemma holder_told j h m lower upper s : m_type m = kind_code DividendAnnouncement -> lower <= upper ->
  handle shuffle (holder_like j h [(lower, m)]) lower upper s =
  let '(h', rs) := on_announcement lower upper (m_sender m) (ex_date (m_body m)) h in Ret ((Holder h', map (submit write_record j) rs), upper).
Proof.
  intros K L. unfold handle, holder_like, process_messages. cbn [ag_comm ag_inbox ag_own ag_act].
  assert (F : fm_find (m_type m) (callbacks (lock (holder_communicator (T:=T) ex_date write_record (random j) j))) = Some [(0, holder_callback ex_date write_record j)]) by (rewrite K; reflexivity).
  rewrite (single_order _ _ _ _ _ F) by discriminate. cbn [handle_all]. unfold process_message. rewrite F. cbn [rev app call_all]. unfold holder_callback at 1. cbn [fst snd].
  destruct (on_announcement lower upper (m_sender m) (ex_date (m_body m)) h) as [h' rs]. assert ((lower <=? upper) && (upper <=? upper) = true) as -> by lia. cbn [app]. unfold idle_act. rewrite !Z.min_id. reflexivity.
Qed.
(** The world in a state in which all outboxes are empty. *)
Definition in_state (until : Z) (c : company) (h : identity -> shareholder) (inbox : identity -> list (Z * message)) (wake : identity -> option Z) (w : world (party T)) : Prop :=
  well_formed w /\ w_end w = until /\ im_find firm (agents w) = Some (firm_like c) /\ im_find firm (wake_up_times w) = wake firm /\
  (forall j, In j holders -> im_find j (agents w) = Some (holder_like j (h j) (inbox j)) /\ im_find j (wake_up_times w) = wake j) /\
  (forall j, j <> firm -> ~ In j holders -> im_find j (agents w) = None /\ im_find j (wake_up_times w) = None).
Lemma state_find until c h inbox wake w j a : in_state until c h inbox wake w -> im_find j (agents w) = Some a -> (j = firm /\ a = firm_like c) \/ (j <> firm /\ In j holders /\ a = holder_like j (h j) (inbox j)).
Proof.
  intros (_ & _ & F & _ & H & O) E. destruct (list_eq_dec Z.eq_dec j firm) as [->|N]; [left; split; [reflexivity|congruence]|right]. split; [exact N|].
  destruct (in_dec (list_eq_dec Z.eq_dec) j holders) as [I|I]; [|destruct (O j N I); congruence]. split; [exact I|]. destruct (H j I). congruence.
Qed.
Lemma not_firm j : In j holders -> j <> firm.
Proof. intros I ->. apply NoDup_cons_iff in ND. now destruct ND. Qed.
(** All of the wake-up times are known, so is the next event. *)
Lemma state_next until c h inbox wake w t f : in_state until c h inbox wake w -> is_next_event w f ->
  (forall j x, (j = firm \/ In j holders) -> wake j = Some x -> t <= x) -> t <= until -> (t = until \/ exists j, (j = firm \/ In j holders) /\ wake j = Some t) -> f = t.
Proof.
  clear hash shuffle Hsh shares Hread ND. intros (_ & E & _ & Wf & H & O) (N1 & N2 & N3) L U Ex. rewrite E in *. assert (A : t <= f).
  { destruct N1 as [->|(i & Hi)]; [lia|]. destruct (list_eq_dec Z.eq_dec i firm) as [->|N]; [apply (L firm); [now left|congruence]|]. destruct (in_dec (list_eq_dec Z.eq_dec) i holders) as [I|I]; [apply (L i); [now right|destruct (H i I); congruence]|destruct (O i N I); congruence]. }
  assert (B : f <= t); [|lia]. destruct Ex as [->|(j & Hj & Wj)]; [lia|]. apply (N3 j). destruct Hj as [->|I]; [congruence|destruct (H j I); congruence].
Qed.

Lemma announced_to j t : In j holders -> filter (addressed_to j) (map (announce write firm) (map (fun s => mk_announcement s t p) holders)) = [announce write firm (mk_announcement j t p)].
Proof.
  clear - ND. apply NoDup_cons_iff in ND. destruct ND as [_ N]. clear ND. induction holders as [|k l IH]; [intros []|]. apply NoDup_cons_iff in N. destruct N as [N1 N]. cbn [map filter]. unfold addressed_to at 1. cbn [announce m_recipient a_to].
  intros [->|I].
  - rewrite id_eqb_refl. f_equal. clear IH N. induction l as [|i l IH]; [reflexivity|]. cbn [map filter]. unfold addressed_to at 1. cbn [announce m_recipient a_to].
    rewrite id_eqb_neq by (intros ->; apply N1; now left). apply IH. intros H. apply N1. now right.
  - rewrite id_eqb_neq by (intros ->; contradiction). now apply IH.
Qed.
Lemma announced_not t : filter (addressed_to firm) (map (announce write firm) (map (fun s => mk_announcement s t p) holders)) = [].
Proof.
  clear - ND. apply NoDup_cons_iff in ND. destruct ND as [N _]. clear ND. induction holders as [|k l IH]; [reflexivity|]. cbn [map filter]. unfold addressed_to at 1. cbn [announce m_recipient a_to].
  rewrite id_eqb_neq by (intros ->; apply N; now left). apply IH. intros H. apply N. now right.
Qed.
Lemma local_state until c h inbox wake w j : in_state until c h inbox wake w -> j = firm \/ In j holders -> local w j.
Proof. intros (_ & _ & F & _ & H & _) [->|I]; unfold local; [rewrite F|destruct (H j I) as [-> _]]; discriminate. Qed.
(** The first round. *)
Lemma start_round until c h c' next n w : in_state until c h (fun _ => []) (fun _ => None) w -> 0 < until -> Company.act 0 until (Some p) c = (c', [], next) -> 0 <= next ->
  exists w' f, round hash shuffle 0 until n w = Ret (w', f) /\ is_next_event w' f /\
    in_state until c' h (fun _ => []) (fun j => Some (if id_eqb j firm then Z.min until next else until)) w'.
Proof.
  intros St U EA Ln. pose proof St as (Wf & En & Ff & Fw & Hh & Ho).
  set (res := fun (i : identity) (a : agent (party T)) => if id_eqb i firm then ((Firm c', []), Z.min until next) else (ag_own a, until)).
  assert (Due : forall i, is_due w 0 i -> i = firm \/ In i holders).
  { intros i [L _]. unfold local in L. destruct (im_find i (agents w)) as [a|] eqn:E; [|contradiction]. destruct (state_find _ _ _ _ _ _ _ _ St E) as [[-> _]|(_ & I & _)]; auto. }
  destruct (known_round hash shuffle res 0 until n w Wf) as (w' & f & ms & E & Wf' & Nx & En' & _ & Ms & _ & Fi & No).
  { intros i a D F. destruct (state_find _ _ _ _ _ _ _ _ St F) as [[-> ->]|(N & I & ->)]; unfold res.
    - rewrite id_eqb_refl. unfold firm_like. rewrite firm_handles, EA. cbn. split; [reflexivity|lia].
    - rewrite id_eqb_neq by exact N. rewrite holder_quiet. cbn. split; [reflexivity|lia]. }
  { intros i a D F. destruct (state_find _ _ _ _ _ _ _ _ St F) as [[-> ->]|(N & I & ->)]; reflexivity. }
  { intros i a m D F. unfold res. destruct (state_find _ _ _ _ _ _ _ _ St F) as [[-> ->]|(N & I & ->)]; [rewrite id_eqb_refl; intros []|rewrite id_eqb_neq by exact N; intros []]. }
  assert (Z0 : ms = []).
  { destruct ms as [|m ms]; [reflexivity|]. exfalso. destruct (proj1 (Ms m) (or_introl eq_refl)) as (i & a & D & F & I). unfold res in I. destruct (state_find _ _ _ _ _ _ _ _ St F) as [[-> ->]|(N & _ & ->)]; [rewrite id_eqb_refl in I|rewrite id_eqb_neq in I by exact N]; exact I. }
  subst ms. exists w', f. split; [exact E|]. split; [exact Nx|]. split; [exact Wf'|]. split; [congruence|].
  assert (Df : is_due w 0 firm) by (split; [eapply local_state; [exact St|now left]|right; exact Fw]).
  destruct (Fi firm _ Ff) as [X _]. destruct (X Df) as [X1 X2]. unfold res in X2. rewrite id_eqb_refl in X2. unfold done, res in X1. rewrite id_eqb_refl in X1. split; [exact X1|]. split; [rewrite id_eqb_refl; exact X2|]. split.
  - intros j I. destruct (Hh j I) as [Hf Hw]. assert (D : is_due w 0 j) by (split; [eapply local_state; [exact St|now right]|right; exact Hw]). destruct (Fi j _ Hf) as [Y _]. destruct (Y D) as [Y1 Y2]. pose proof (not_firm j I) as N. unfold done, res in Y1, Y2. rewrite id_eqb_neq in Y1, Y2 |- * by exact N. split; [exact Y1|exact Y2].
  - intros j N I. destruct (Ho j N I) as [O1 O2]. destruct (No j O1) as [Q1 Q2]. split; [exact Q1|congruence].
Qed.
(** The round of the announcement. *)
Lemma announcing_round until c h c' next lower n w : in_state until c h (fun _ => []) (fun j => Some (if id_eqb j firm then lower else until)) w -> lower < until ->
  Company.act lower until (Some p) c = (c', map (fun s => mk_announcement s lower p) holders, next) -> lower <= next ->
  exists w' f, round hash shuffle lower until n w = Ret (w', f) /\ is_next_event w' f /\
    in_state until c' h (fun j => [(lower, announce write firm (mk_announcement j lower p))]) (fun j => Some (if id_eqb j firm then Z.min until next else lower)) w'.
Proof.
  intros St U EA Ln. pose proof St as (Wf & En & Ff & Fw & Hh & Ho). rewrite id_eqb_refl in Fw.
  set (out := map (announce write firm) (map (fun s => mk_announcement s lower p) holders)).
  set (res := fun (i : identity) (a : agent (party T)) => ((Firm c', out), Z.min until next) : @own (party T) * Z).
  assert (Df : is_due w lower firm) by (split; [eapply local_state; [exact St|now left]|left; exact Fw]).
  assert (Due : forall i, is_due w lower i -> i = firm).
  { intros i [L D]. unfold local in L. destruct (im_find i (agents w)) as [a|] eqn:E; [|contradiction]. destruct (state_find _ _ _ _ _ _ _ _ St E) as [[-> _]|(N & I & _)]; [reflexivity|]. exfalso.
    destruct (Hh i I) as [_ Hw]. rewrite id_eqb_neq in Hw by exact N. destruct D as [D|D]; rewrite D in Hw; [injection Hw as Hw; lia|discriminate]. }
  destruct (known_round hash shuffle res lower until n w Wf) as (w' & f & ms & E & Wf' & Nx & En' & _ & _ & One & Fi & No).
  { intros i a D F. pose proof (Due i D) as ->. assert (a = firm_like c) as -> by congruence. unfold res, firm_like. rewrite firm_handles, EA. cbn. split; [reflexivity|lia]. }
  { intros i a D F. destruct (state_find _ _ _ _ _ _ _ _ St F) as [[-> ->]|(N & I & ->)]; reflexivity. }
  { intros i a m D F I. cbn [res fst snd] in I. unfold out in I. rewrite map_map in I. apply in_map_iff in I. destruct I as (j & <- & Hj). eapply local_state; [exact St|]. right. exact Hj. }
  assert (ms = out) as ->. { apply (One firm _ Df Ff). intros j b N D _. now contradiction N; apply Due. }
  exists w', f. split; [exact E|]. split; [exact Nx|]. split; [exact Wf'|]. split; [congruence|].
  destruct (Fi firm _ Ff) as [X _]. destruct (X Df) as [X1 X2]. unfold out in X1, X2. rewrite announced_not in X1, X2. split; [exact X1|]. split; [rewrite id_eqb_refl; exact X2|]. split.
  - intros j I. destruct (Hh j I) as [Hf Hw]. pose proof (not_firm j I) as N. rewrite id_eqb_neq in Hw |- * by exact N. assert (D : ~ is_due w lower j) by (intros D; now contradiction N; apply Due).
    destruct (Fi j _ Hf) as [_ Y]. destruct (Y D) as [Y1 Y2]. unfold out in Y1, Y2. rewrite announced_to in Y1, Y2 by exact I. split; [exact Y1|]. rewrite Y2, Hw. unfold wake_up_after, earlier. cbn [fold_left announce m_received a_arrival]. f_equal. lia.
  - intros j N I. destruct (Ho j N I) as [O1 O2]. destruct (No j O1) as [Q1 Q2]. split; [exact Q1|congruence].
Qed.
(** The round in which the shareholders are told. *)
Definition told_of (j : identity) (lower until : Z) (h : shareholder) := on_announcement lower until firm (p_ex_dividend p) h.
Lemma told_round until c h lower n w : in_state until c h (fun j => [(lower, announce write firm (mk_announcement j lower p))]) (fun j => Some (if id_eqb j firm then until else lower)) w -> 0 < lower < until ->
  (forall j r, In j holders -> In r (snd (told_of j lower until (h j))) -> r_to r = firm /\ r_delivery r = 0) ->
  exists w' f, round hash shuffle lower until n w = Ret (w', f) /\ is_next_event w' f /\ well_formed w' /\
    ((forall j, In j holders -> snd (told_of j lower until (h j)) = []) -> in_state until c (fun j => fst (told_of j lower until (h j))) (fun _ => []) (fun _ => Some until) w') /\
    (forall j, In j holders -> snd (told_of j lower until (h j)) <> [] -> stuck w' lower).
Proof.
  intros St U Rec. pose proof St as (Wf & En & Ff & Fw & Hh & Ho). rewrite id_eqb_refl in Fw.
  set (res := fun (i : identity) (a : agent (party T)) => let '(h', rs) := told_of i lower until (h i) in ((Holder h', map (submit write_record i) rs), until) : @own (party T) * Z).
  assert (Nf : ~ is_due w lower firm) by (intros [_ [D|D]]; rewrite Fw in D; [injection D as D; lia|discriminate]).
  assert (Due : forall i, In i holders -> is_due w lower i).
  { intros i I. split; [eapply local_state; [exact St|now right]|left]. destruct (Hh i I) as [_ Hw]. rewrite id_eqb_neq in Hw by (now apply not_firm). exact Hw. }
  destruct (known_round hash shuffle res lower until n w Wf) as (w' & f & ms & E & Wf' & Nx & En' & _ & Ms & _ & Fi & No).
  { intros i a D F. destruct (state_find _ _ _ _ _ _ _ _ St F) as [[-> ->]|(N & I & ->)]; [contradiction|]. rewrite holder_told by (reflexivity || lia). cbn [announce m_sender m_body a_policy]. rewrite Hread. unfold res, told_of.
    destruct (on_announcement lower until firm (p_ex_dividend p) (h i)) as [h' rs]. split; [reflexivity|cbn; lia]. }
  { intros i a D F. destruct (state_find _ _ _ _ _ _ _ _ St F) as [[-> ->]|(N & I & ->)]; reflexivity. }
  { intros i a m D F Im. destruct (state_find _ _ _ _ _ _ _ _ St F) as [[-> ->]|(N & I & ->)]; [contradiction|]. unfold res in Im. pose proof (Rec i) as Ri. destruct (told_of i lower until (h i)) as [h' rs]. cbn [fst snd] in Im, Ri. apply in_map_iff in Im. destruct Im as (r & <- & Hr).
    cbn [submit m_recipient]. destruct (Ri r I Hr) as [-> _]. eapply local_state; [exact St|now left]. }
  exists w', f. split; [exact E|]. split; [exact Nx|]. split; [exact Wf'|]. split.
  - intros None. assert (Z0 : ms = []).
    { destruct ms as [|m ms]; [reflexivity|]. exfalso. destruct (proj1 (Ms m) (or_introl eq_refl)) as (i & a & D & F & I). destruct (state_find _ _ _ _ _ _ _ _ St F) as [[-> ->]|(N & Ii & ->)]; [contradiction|]. unfold res in I.
      specialize (None i Ii). destruct (told_of i lower until (h i)) as [h' rs]. cbn [snd] in None. subst rs. exact I. }
    subst ms. split; [exact Wf'|]. split; [congruence|]. destruct (Fi firm _ Ff) as [_ X]. destruct (X Nf) as [X1 X2]. split; [exact X1|]. split; [rewrite X2, Fw; reflexivity|]. split.
    + intros j I. destruct (Hh j I) as [Hf Hw]. destruct (Fi j _ Hf) as [Y _]. destruct (Y (Due j I)) as [Y1 Y2]. unfold done in Y1. cbn [holder_like ag_comm ag_act ag_inbox filter fst] in Y1. assert (lower >? lower = false) as L by lia. rewrite L in Y1.
      unfold res in Y1, Y2. specialize (None j I). destruct (told_of j lower until (h j)) as [h' rs]. cbn [snd] in None. subst rs. cbn [fst]. split; [exact Y1|exact Y2].
    + intros j N I. destruct (Ho j N I) as [O1 O2]. destruct (No j O1) as [Q1 Q2]. split; [exact Q1|congruence].
  - intros j I R. right. exists firm. destruct (Fi firm _ Ff) as [_ X]. destruct (X Nf) as [_ X2]. rewrite Fw in X2.
    destruct (wake_up_after_le (Some until) (filter (addressed_to firm) ms) until eq_refl) as (t & Et & _). exists t. split; [rewrite X2; exact Et|]. left.
    destruct (wake_after_le shuffle _ _ _ Et) as [_ Q]. destruct (snd (told_of j lower until (h j))) as [|r rs] eqn:Er; [contradiction|].
    assert (Hr : In r (snd (told_of j lower until (h j)))) by (rewrite Er; now left). destruct (Rec j r I Hr) as [R1 R2].
    assert (Im : In (submit write_record j r) ms). { apply Ms. exists j. destruct (Hh j I) as [Hf _]. eexists. split; [exact (Due j I)|]. split; [exact Hf|]. unfold res. destruct (told_of j lower until (h j)) as [h' rs']. cbn [fst snd] in *. now apply in_map. }
    assert (L : t <= m_received (submit write_record j r)). { apply Q. apply filter_In. split; [exact Im|]. unfold addressed_to. cbn [submit m_recipient]. rewrite R1. apply id_eqb_refl. }
    cbn [submit m_received] in L. lia.
Qed.
End D.
