From Verif Require Import Base Identity Identity_proofs IdMap IdMap_proofs Multimap Multimap_proofs Communicator Communicator_spec Communicator_proofs
  Simulation Simulation_spec Simulation_proofs Simulation_proofs2 Simulation_proofs3 Walras Markets Messages Sessions Sessions_spec Sessions_proofs.
From Coq Require Import ZifyBool ZifyNat.

Section Turns.
Context {T D : Type} (encode : list (identity * Z) -> Z) (order_of : Z -> D).
Context (solver : list (identity * D) -> list (identity * Z) -> option (list (identity * SpecFloat.spec_float))).
Context (answer : identity -> Z -> T -> Z -> T * Z) (settlement : list (identity * D) -> list (identity * Z) -> list (identity * Z)).
Context (booked : identity -> Z -> T -> Z -> T) (eager : identity -> bool).
Context (shuffle : seed -> list message -> list message).
Context (Hsh : forall s l, Permutation (shuffle s l) l).

(** *** Messages of one type with one callback. *)
Lemma one_message c p (f : callback (@own (member T))) lower upper s m o : fm_find (m_type m) (callbacks c) = Some [(p, f)] -> lower <= upper -> snd (f m lower upper s o) = upper ->
  process_message c lower upper s m o = Ret (fst (f m lower upper s o), upper).
Proof.
  intros E L U. unfold process_message. rewrite E. cbn [rev app call_all]. destruct (f m lower upper s o) as [o' t]. cbn in U. subst t.
  replace ((lower <=? upper) && (upper <=? upper)) with true by lia. rewrite Z.min_id. reflexivity.
Qed.
Lemma all_messages c k p (f : callback (@own (member T))) lower upper s ms : fm_find (kind_code k) (callbacks c) = Some [(p, f)] ->
  forall o, Forall (fun m => m_type m = kind_code k) ms -> lower <= upper -> (forall m o, snd (f m lower upper s o) = upper) ->
  handle_all c lower upper s ms upper o = Ret (fold_left (fun o m => fst (f m lower upper s o)) ms o, upper).
Proof.
  intros Ef. induction ms as [|m ms IH]; intros o F L U; [reflexivity|]. apply Forall_cons_iff in F. destruct F as [F1 F]. cbn [handle_all].
  rewrite (one_message c p f lower upper s m o); [|now rewrite F1|exact L|exact (U m o)]. rewrite Z.min_id. now apply IH.
Qed.
Lemma one_callback b rs c k p (f : callback (@own (member T))) lower upper s inbox o : registers (new_communicator b) rs c -> Forall (fun r => int8 (r_priority r)) rs ->
  fm_find (kind_code k) (callbacks c) = Some [(p, f)] -> existsb (fun r => r_type r =? kind_code k) rs = true ->
  StronglySorted key_le inbox -> Forall (fun x => fst x <= lower -> m_type (snd x) = kind_code k) inbox ->
  lower <= upper -> (forall m o, snd (f m lower upper s o) = upper) ->
  exists order, Permutation order (due lower inbox) /\
    process_messages (lock c) shuffle lower upper s inbox o = Ret (fold_left (fun o m => fst (f m lower upper s o)) order o, upper).
Proof.
  intros R I8 Ef Hk S F L U. unfold process_messages.
  assert (Eo : handling_order (lock c) shuffle lower s inbox = handling_order c shuffle lower s inbox).
  { unfold handling_order. f_equal. f_equal. f_equal. f_equal. generalize (@nil (Z * message)). clear. induction inbox as [|[t m] l IH]; intros acc; [reflexivity|]. cbn [by_priority].
    change (callbacks (lock c)) with (callbacks c). destruct (t >? lower); [reflexivity|]. destruct (fm_find (m_type m) (callbacks c)) as [[|x y]|]; apply IH. }
  destruct (order_spec b rs c shuffle lower s inbox R I8 S Hsh) as (P & _).
  assert (Ft : Forall (fun m => m_type m = kind_code k) (due lower inbox)).
  { unfold due. apply Forall_forall. intros m Hm. apply in_map_iff in Hm. destruct Hm as (x & <- & Hx). apply filter_In in Hx. destruct Hx as [Hx Hl]. rewrite Forall_forall in F. apply F; [exact Hx|lia]. }
  assert (X : filter (handled rs) (due lower inbox) = due lower inbox).
  { apply filter_all. eapply Forall_impl; [|exact Ft]. intros m Hm. unfold handled. rewrite Hm. exact Hk. }
  rewrite X in P. exists (handling_order c shuffle lower s inbox). split; [exact P|]. rewrite Eo. apply (all_messages (lock c) k p); [exact Ef| |exact L|exact U].
  apply Forall_forall. intros m Hm. apply (Permutation_in _ P) in Hm. rewrite Forall_forall in Ft. now apply Ft.
Qed.

(** *** The turn of a participant. *)
Notation comm b i := (lock (registered (registered (new_communicator b) Transfer 50 (transfer_callback booked i)) WalrasQuote 0 (quote_callback answer i))).
Notation the_participant b i inbox st := (mk_agent (comm b i) (participant_act eager i) inbox st).
Definition asks (i : identity) (lower upper : Z) : Z := if eager i then lower + 1 else upper.
Lemma participant_registers b i : exists c, registers (new_communicator b) [mk_registration (kind_code Transfer) 50 (transfer_callback (T:=T) booked i); mk_registration (kind_code WalrasQuote) 0 (quote_callback answer i)] c /\ comm b i = lock c /\
  fm_find (kind_code Transfer) (callbacks c) = Some [(50, transfer_callback booked i)] /\ fm_find (kind_code WalrasQuote) (callbacks c) = Some [(0, quote_callback answer i)].
Proof. eexists. split; [econstructor; [reflexivity|econstructor; [reflexivity|constructor]]|]. split; [reflexivity|]. split; reflexivity. Qed.
Lemma registrations_int8 i : Forall (fun r => int8 (r_priority r)) [mk_registration (kind_code Transfer) 50 (transfer_callback (T:=T) booked i); mk_registration (kind_code WalrasQuote) 0 (quote_callback answer i)].
Proof. repeat constructor; unfold int8; cbn; lia. Qed.
Lemma participant_turn b i lower upper s m t q : lower < upper -> m_type m = kind_code WalrasQuote -> m_body m = q ->
  handle shuffle (the_participant b i [(lower, m)] (Participant t, [])) lower upper s =
  Ret ((Participant (fst (answer i lower t q)), [mk_message (kind_code WalrasOrder) i (m_sender m) lower lower (snd (answer i lower t q))]), asks i lower upper).
Proof.
  intros L E <-. unfold handle. cbn [ag_comm ag_inbox ag_own ag_act]. destruct (participant_registers b i) as (c & R & -> & _ & Eq).
  destruct (one_callback b _ c WalrasQuote 0 (quote_callback answer i) lower upper s [(lower, m)] (Participant t, []) R (registrations_int8 i) Eq) as (order & P & ->).
  - reflexivity.
  - repeat constructor.
  - repeat constructor. cbn. intros _. exact E.
  - lia.
  - intros m0 [[]]; [reflexivity|]. unfold quote_callback. cbn [fst]. destruct (answer i lower t0 (m_body m0)). reflexivity.
  - unfold due in P. cbn [filter fst] in P. replace (lower <=? lower) with true in P by lia. cbn [map snd] in P. apply Permutation_sym in P. apply Permutation_length_1_inv in P. subst order. cbn [fold_left]. unfold quote_callback, participant_act. cbn [fst snd]. destruct (answer i lower t (m_body m)) as [t' body]. cbn [fst snd app]. f_equal. f_equal. unfold asks. destruct (eager i); lia.
Qed.
Lemma booked_all i lower upper s order : forall t out, fold_left (fun o m => fst (transfer_callback booked i m lower upper s o)) order ((Participant t, out) : @own (member T)) = (Participant (fold_left (booked i lower) (map m_body order) t), out).
Proof. induction order as [|m order IH]; intros; [reflexivity|]. cbn [fold_left transfer_callback fst snd map]. apply IH. Qed.
Lemma participant_books b i lower upper s inbox t : lower < upper -> StronglySorted key_le inbox -> Forall (fun x => fst x <= lower -> m_type (snd x) = kind_code Transfer) inbox ->
  exists bodies, Permutation bodies (map m_body (due lower inbox)) /\
  handle shuffle (the_participant b i inbox (Participant t, [])) lower upper s = Ret ((Participant (fold_left (booked i lower) bodies t), []), asks i lower upper).
Proof.
  intros L S F. unfold handle. cbn [ag_comm ag_inbox ag_own ag_act]. destruct (participant_registers b i) as (c & R & -> & Et & _).
  destruct (one_callback b _ c Transfer 50 (transfer_callback booked i) lower upper s inbox (Participant t, []) R (registrations_int8 i) Et) as (order & P & ->).
  - reflexivity.
  - exact S.
  - exact F.
  - lia.
  - intros m0 [[]]; reflexivity.
  - exists (map m_body order). split; [now apply Permutation_map|]. rewrite booked_all. unfold participant_act. cbn [fst snd]. f_equal. f_equal. unfold asks. destruct (eager i); lia.
Qed.
Lemma no_mail (c : communicator (@own (member T))) lower upper s o : process_messages c shuffle lower upper s [] o = Ret (o, upper).
Proof. reflexivity. Qed.
Lemma participant_idle b i lower upper s t : lower < upper ->
  handle shuffle (the_participant b i [] (Participant t, [])) lower upper s = Ret ((Participant t, []), asks i lower upper).
Proof. intros L. unfold handle. cbn [ag_comm ag_inbox ag_own ag_act]. rewrite no_mail. unfold participant_act, asks. f_equal. f_equal. destruct (eager i); lia. Qed.

(** *** The turn of the market. *)
Lemma collected lower ms : forall acc : list (identity * D), Forall (fun m => m_sent m = lower) ms -> NoDup (map fst acc ++ map m_sender ms) ->
  collect lower (map (letter_of order_of) ms) acc = (acc ++ map (fun m => (m_sender m, order_of (m_body m))) ms, false).
Proof.
  induction ms as [|m ms IH]; intros acc F N; [cbn; now rewrite app_nil_r|]. apply Forall_cons_iff in F. destruct F as [F1 F]. cbn [map collect letter_of]. rewrite F1, Z.ltb_irrefl.
  assert (E : emplace_order acc (m_sender m) (order_of (m_body m)) = acc ++ [(m_sender m, order_of (m_body m))]).
  { unfold emplace_order. replace (existsb (fun x => id_eqb (fst x) (m_sender m)) acc) with false; [reflexivity|]. symmetry. apply not_true_iff_false. intros X. apply existsb_exists in X. destruct X as (x & Hx & Ex). apply id_eqb_eq in Ex.
    cbn [map] in N. apply NoDup_remove_2 in N. apply N. apply in_or_app. left. rewrite <- Ex. now apply in_map. }
  rewrite E. rewrite IH; [|exact F|]. { rewrite <- app_assoc. reflexivity. }
  rewrite map_app. cbn [map fst]. rewrite <- app_assoc. exact N.
Qed.
Lemma delivered_all lower upper s order : forall st delivered outputs out, fold_left (fun o m => fst (order_callback m lower upper s o)) order ((Setter st delivered outputs, out) : @own (member T)) = (Setter st (delivered ++ order) outputs, out).
Proof. induction order as [|m order IH]; intros; [cbn; now rewrite app_nil_r|]. cbn [fold_left order_callback fst snd]. rewrite IH, <- app_assoc. reflexivity. Qed.
Lemma order_callback_time lower upper s m (o : @own (member T)) : snd (order_callback m lower upper s o) = upper.
Proof. destruct o as [[]]; reflexivity. Qed.
Notation the_market b mk inbox st := (mk_agent (lock (registered (new_communicator b) WalrasOrder 0 order_callback)) (market_act encode order_of solver settlement mk) inbox st).

Lemma market_waits b mk lower upper s q ps outputs date : 0 <= lower -> lower <= upper -> lower < W64 -> (date = lower \/ 0 < date /\ lower <= date) ->
  handle shuffle (the_market b mk [] (Setter (T:=T) (mk_setter true q date ps) [] outputs, [])) lower upper s = Ret ((Setter (mk_setter true q date ps) [] outputs, []), lower).
Proof.
  intros L0 L B Hd. unfold handle. cbn [ag_comm ag_inbox ag_own ag_act]. rewrite no_mail. unfold market_act, setter_act. cbn [fst snd map collect s_clearing s_quotes s_date s_participants negb andb orb app].
  replace (w64 (lower + 0)) with lower by (unfold w64; rewrite Z.add_0_r, Z.mod_small; [reflexivity|lia]). destruct (Z.ltb_spec date lower); [lia|]. cbn [map app]. rewrite Z.min_r by lia. reflexivity.
Qed.
Lemma market_opens b mk upper s q ps : 0 <= upper ->
  handle shuffle (the_market b mk [] (Setter (T:=T) (new_setter q ps) [] [], [])) 0 upper s =
  Ret ((Setter (mk_setter true q 0 ps) [] [], map (fun p => quote_message encode mk (mk_quotation p 0 q)) ps), 0).
Proof.
  intros L. unfold handle. cbn [ag_comm ag_inbox ag_own ag_act]. rewrite no_mail. unfold market_act, setter_act, new_setter. cbn [fst snd map collect s_clearing s_quotes s_date s_participants negb andb orb]. change (0 =? 0) with true. cbn [orb andb app]. change (w64 (0 + 0)) with 0. rewrite map_map. rewrite Z.min_r by lia. reflexivity.
Qed.
Lemma market_clears b mk lower upper s q ps inbox msgs outputs : 0 <= lower -> lower < upper -> lower < W64 - 1 ->
  StronglySorted key_le inbox -> Permutation inbox (map (fun m => (lower, m)) msgs) ->
  Forall (fun m => m_type m = kind_code WalrasOrder /\ m_sent m = lower) msgs -> NoDup (map m_sender msgs) -> msgs <> [] ->
  exists orders, Permutation orders (map (fun m => (m_sender m, order_of (m_body m))) msgs) /\
  (forall q', clear_quotes solver orders q = Ret q' ->
    handle shuffle (the_market b mk inbox (Setter (T:=T) (mk_setter true q lower ps) [] outputs, [])) lower upper s =
    Ret ((Setter (mk_setter true q' (lower + 1) ps) [] (outputs ++ [(lower, q')]),
          map (transfer_message mk lower) (settlement orders q) ++ map (fun p => quote_message encode mk (mk_quotation p (lower + 1) q')) ps), lower + 1)) /\
  ((forall q', clear_quotes solver orders q <> Ret q') ->
    exists o, handle shuffle (the_market b mk inbox (Setter (T:=T) (mk_setter true q lower ps) [] outputs, [])) lower upper s = Ret (o, lower - 1)).
Proof.
  intros L0 L B S P F N Ne. unfold handle. cbn [ag_comm ag_inbox ag_own ag_act].
  assert (R : exists c, registers (new_communicator b) [mk_registration (kind_code WalrasOrder) 0 (order_callback (T:=T))] c /\ lock (registered (new_communicator b) WalrasOrder 0 (order_callback (T:=T))) = lock c /\
    fm_find (kind_code WalrasOrder) (callbacks c) = Some [(0, order_callback (T:=T))]).
  { eexists. split; [econstructor; [reflexivity|constructor]|]. split; reflexivity. }
  destruct R as (c & R & -> & Ec).
  destruct (one_callback b _ c WalrasOrder 0 (order_callback (T:=T)) lower upper s inbox (Setter (mk_setter true q lower ps) [] outputs, []) R) as (order & Po & ->).
  - repeat constructor; unfold int8; cbn; lia.
  - exact Ec.
  - reflexivity.
  - exact S.
  - apply Forall_forall. intros x Hx _. apply (Permutation_in _ P) in Hx. apply in_map_iff in Hx. destruct Hx as (m & <- & Hm). cbn. rewrite Forall_forall in F. now apply F.
  - lia.
  - intros. apply order_callback_time.
  - assert (Pd : Permutation (due lower inbox) msgs).
    { unfold due. rewrite filter_all; [rewrite (Permutation_map snd P), map_map; cbn; now rewrite map_id|]. apply Forall_forall. intros x Hx. apply (Permutation_in _ P) in Hx. apply in_map_iff in Hx. destruct Hx as (m & <- & _). cbn. lia. }
    rewrite Pd in Po. rename Po into Pm. rewrite delivered_all. cbn [app]. unfold market_act. cbn [fst snd].
    assert (Eo : collect lower (map (letter_of order_of) order) [] = (map (fun m => (m_sender m, order_of (m_body m))) order, false)).
    { apply (collected lower order []).
      - apply Forall_forall. intros m Hm. apply (Permutation_in _ Pm) in Hm. rewrite Forall_forall in F. now apply F.
      - cbn [map app]. eapply Permutation_NoDup; [apply Permutation_map; symmetry; exact Pm|exact N]. }
    exists (map (fun m => (m_sender m, order_of (m_body m))) order). split; [now apply Permutation_map|].
    unfold setter_act. rewrite Eo. cbn [fst s_quotes s_clearing s_date s_participants].
    destruct order as [|m0 order]; [exfalso; apply Ne; symmetry in Pm; now apply Permutation_sym, Permutation_nil in Pm|].
    cbn [map]. split.
    + intros q' Cq. rewrite Cq. replace (w64 (lower + 1)) with (lower + 1) by (unfold w64; rewrite Z.mod_small; [reflexivity|lia]).
      replace (negb true && (lower =? 0) || (lower <? lower + 1)) with true by lia. cbn [s_quotes app]. rewrite map_map, Z.min_r by lia. reflexivity.
    + intros Nq. destruct (clear_quotes solver _ q) as [q'| |]; [exfalso; now apply (Nq q')| |]; (eexists; f_equal; f_equal; lia).
Qed.
End Turns.
