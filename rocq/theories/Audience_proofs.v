(** Proofs for C226, C227: whom market data go to, and when they arrive. *)
From Coq Require Import ZifyBool ZifyNat.
From Verif Require Import Base Identity Identity_proofs BinaryBook Exchange Exchange_spec Exchange_proofs Audience_spec.

Lemma reports_data delay now sender o changed b rs : forall subs a t sym ts asks bids,
  In (MarketData a t sym ts asks bids) (snd (send_reports delay now sender o changed b rs subs)) ->
  sym = o_symbol o /\ t = w64 (now + delay a) /\ exists l, f_find Z.eqb sym subs = Some l /\ In a (map fst l).
Proof.
  induction rs as [|r rs IH]; intros subs a t sym ts asks bids H; cbn [send_reports] in H; [contradiction|].
  destruct (f_find Z.eqb (o_symbol o) subs) as [l|] eqn:F.
  - destruct ((is_match r && id_eqb (rp_owner r) sender) || changed).
    + pose proof (update_keys delay now (o_symbol o) r (is_match r) b l) as K. pose proof (update_only delay now (o_symbol o) r (is_match r) b l) as O.
      destruct (update_subscribers delay now (o_symbol o) r (is_match r) b l) as [l' ms]. cbn [fst snd] in K, O.
      specialize (IH (f_assign Z.eqb (o_symbol o) l' subs) a t sym ts asks bids). destruct (send_reports _ _ _ _ _ _ rs _) as [s2 ms2]. cbn [snd] in *.
      destruct H as [H|H]; [discriminate|]. apply in_app_or in H. destruct H as [H|H].
      * destruct (O _ H) as (c & s & I & _ & Q). injection Q as -> -> -> _ _ _. split; [reflexivity|]. split; [reflexivity|]. exists l. split; [exact F|]. now apply (in_map fst) in I.
      * destruct (IH H) as (-> & -> & l2 & F2 & I2). split; [reflexivity|]. split; [reflexivity|]. exists l. split; [exact F|].
        rewrite (f_find_assign Z.eqb Zeqb_eq), F, Z.eqb_refl in F2. injection F2 as <-. now rewrite <- K.
    + specialize (IH subs a t sym ts asks bids). destruct (send_reports _ _ _ _ _ _ rs _) as [s2 ms2]. cbn [snd app] in *. destruct H as [H|H]; [discriminate|]. exact (IH H).
  - specialize (IH subs a t sym ts asks bids). destruct (send_reports _ _ _ _ _ _ rs _) as [s2 ms2]. cbn [snd app] in *. destruct H as [H|H]; [discriminate|]. exact (IH H).
Qed.
Lemma handle_data delay now e x x' ms a t sym ts asks bids : handle delay now e x = Ret (x', ms) -> In (MarketData a t sym ts asks bids) ms ->
  t = w64 (now + delay a) /\ (exists sender o, e = NewOrder sender o /\ o_symbol o = sym) /\ exists l, f_find Z.eqb sym (x_subscriptions x) = Some l /\ In a (map fst l).
Proof.
  intros H I. destruct e as [c sup|c|c ty dp is|c o|s i]; cbn [handle] in H; try (injection H as <- <-; contradiction).
  - destruct (request_all _ _ _ _ _ _); try discriminate. injection H as <- <-. contradiction.
  - unfold insert_order in H. destruct (f_find Z.eqb (o_symbol o) (x_books x)) as [[bk p]|]; [|discriminate]. destruct (insert bk o) as [b' new].
    match type of H with context [send_reports delay now c o ?ch b' ?rs ?subs] => pose proof (reports_data delay now c o ch b' rs subs a t sym ts asks bids) as R; destruct (send_reports delay now c o ch b' rs subs) as [s m] end.
    injection H as <- <-. destruct (R I) as (-> & -> & L). split; [reflexivity|]. split; [eauto|exact L].
Qed.

(** Those on a list of subscribers have asked to be. *)
Definition on_list (subs : list (Z * list (identity * subscription))) (sym : Z) (a : identity) : Prop := exists l, f_find Z.eqb sym subs = Some l /\ In a (map fst l).
Lemma put_keys a c s (l : list (identity * subscription)) : In a (map fst (f_put id_eqb c s l)) -> a = c \/ In a (map fst l).
Proof.
  unfold f_put. destruct (f_find id_eqb c l); [rewrite f_assign_keys; auto|]. rewrite map_app. intros H. apply in_app_or in H. destruct H as [|[<-|[]]]; auto.
Qed.
Lemma request_one_list now c ty dp i subs subs' sym a : request_one now c ty dp i subs = Ret subs' -> on_list subs' sym a ->
  on_list subs sym a \/ (a = c /\ sym = i /\ ty <> CancelData).
Proof.
  intros H (l & F & I). unfold request_one in H. destruct ty.
  - injection H as <-. rewrite (f_find_put Z.eqb Zeqb_eq) in F. destruct (Z.eqb_spec i sym) as [<-|Ne]; [|left; exists l; auto]. injection F as <-.
    destruct (put_keys _ _ _ _ I) as [->|J]; [right; repeat split; discriminate|]. destruct (f_find Z.eqb i subs) as [l0|] eqn:G; [|contradiction]. left. exists l0. auto.
  - left. destruct (f_find Z.eqb i subs) as [l0|] eqn:G; [|injection H as <-; exists l; auto]. destruct (f_find id_eqb c l0); [|discriminate]. injection H as <-.
    rewrite (f_find_assign Z.eqb Zeqb_eq), G in F. destruct (Z.eqb_spec i sym) as [<-|Ne]; [|exists l; auto]. injection F as <-. exists l0. split; [exact G|].
    apply in_map_iff in I. destruct I as (p & <- & I). apply in_map. exact (f_erase_incl id_eqb c l0 p I).
  - destruct (f_find Z.eqb i subs) as [l0|] eqn:G; [|injection H as <-; left; exists l; auto]. injection H as <-.
    rewrite (f_find_assign Z.eqb Zeqb_eq), G in F. destruct (Z.eqb_spec i sym) as [<-|Ne]; [|left; exists l; auto]. injection F as <-.
    destruct (put_keys _ _ _ _ I) as [->|J]; [right; repeat split; discriminate|]. left. exists l0. auto.
Qed.
Lemma request_list now c ty dp is : forall subs subs' sym a, request_all now c ty dp is subs = Ret subs' -> on_list subs' sym a ->
  on_list subs sym a \/ (a = c /\ In sym is /\ ty <> CancelData).
Proof.
  induction is as [|i is IH]; intros subs subs' sym a H L; cbn [request_all] in H; [injection H as <-; now left|].
  destruct (request_one now c ty dp i subs) as [s1| |] eqn:E; try discriminate. destruct (IH s1 subs' sym a H L) as [L1|(-> & I & N)]; [|right; cbn; auto].
  destruct (request_one_list _ _ _ _ _ _ _ _ _ E L1) as [|(-> & -> & N)]; [now left|right; cbn; auto].
Qed.
Lemma cancel_list now c dp is : forall subs subs' sym, uniq subs -> request_all now c CancelData dp is subs = Ret subs' -> In sym is -> ~ on_list subs' sym c.
Proof.
  induction is as [|i is IH]; intros subs subs' sym U H I L; [contradiction|]. cbn [request_all] in H.
  destruct (request_one now c CancelData dp i subs) as [s1| |] eqn:E; try discriminate.
  assert (U1 : uniq s1) by (apply (request_uniq now c CancelData dp [i] subs s1 U); cbn [request_all]; now rewrite E).
  destruct (in_dec Z.eq_dec sym is) as [J|J]; [exact (IH s1 subs' sym U1 H J L)|]. destruct I as [->|I]; [|contradiction].
  destruct (request_list _ _ _ _ _ _ _ _ _ H L) as [(l & F & K)|(_ & _ & N)]; [|congruence].
  cbn [request_one] in E. destruct (f_find Z.eqb sym subs) as [l0|] eqn:G; [|injection E as <-; congruence]. destruct (f_find id_eqb c l0); [|discriminate]. injection E as <-.
  rewrite (f_find_assign Z.eqb Zeqb_eq), G, Z.eqb_refl in F. injection F as <-.
  assert (Nd : NoDup (map fst l0)). { apply (f_find_in Z.eqb Zeqb_eq) in G. unfold uniq in U. rewrite Forall_forall in U. exact (U _ G). }
  assert (X : f_find id_eqb c (f_erase id_eqb c l0) = None). { rewrite (f_find_erase id_eqb id_eqb_eq) by exact Nd. assert (id_eqb c c = true) as -> by now apply id_eqb_eq. reflexivity. }
  apply (f_find_none id_eqb id_eqb_eq) in X. contradiction.
Qed.
(** Other events leave the lists. *)
Lemma handle_list delay now e x x' ms sym a : uniq (x_subscriptions x) -> handle delay now e x = Ret (x', ms) -> on_list (x_subscriptions x') sym a ->
  (on_list (x_subscriptions x) sym a /\ forall d is, e = Request a CancelData d is -> ~ In sym is) \/ (exists ty d is, e = Request a ty d is /\ ty <> CancelData /\ In sym is).
Proof.
  intros U H L. destruct e as [c sup|c|c ty dp is|c o|s i]; cbn [handle] in H.
  - injection H as <- <-. left. split; [exact L|discriminate].
  - injection H as <- <-. left. split; [exact L|discriminate].
  - destruct (request_all now c ty dp is (x_subscriptions x)) as [subs| |] eqn:R; try discriminate. injection H as <- <-. cbn [x_subscriptions] in L.
    destruct (request_list _ _ _ _ _ _ _ _ _ R L) as [L0|(-> & I & N)]; [left|right; eauto 7]. split; [exact L0|]. intros d is' Q J. injection Q as -> -> -> ->. exact (cancel_list _ _ _ _ _ _ _ U R J L).
  - left. split; [|discriminate]. unfold insert_order in H. destruct (f_find Z.eqb (o_symbol o) (x_books x)) as [[bk p]|]; [|discriminate]. destruct (insert bk o) as [b' new].
    match type of H with context [send_reports delay now c o ?ch b' ?rs ?subs] => pose proof (send_reports_spec delay now c o ch b' rs subs U) as R; destruct (send_reports delay now c o ch b' rs subs) as [s m] end.
    injection H as <- <-. cbn [x_subscriptions] in L. destruct R as (_ & _ & _ & K & _). specialize (K sym a). destruct L as (l & F & I).
    unfold sub_in in K. rewrite F in K. unfold on_list. destruct (f_find Z.eqb sym (x_subscriptions x)) as [l0|].
    + exists l0. split; [reflexivity|]. destruct (f_find id_eqb a l0) as [s0|] eqn:G; [apply (f_find_in id_eqb id_eqb_eq) in G; now apply (in_map fst) in G|]. apply (f_find_none id_eqb id_eqb_eq) in K. contradiction.
    + apply (f_find_none id_eqb id_eqb_eq) in K. contradiction.
  - left. split; [|discriminate]. injection H as <- <-. unfold cancel_order in L. destruct (f_find Z.eqb s (x_books x)) as [[bk p]|]; [|exact L]. destruct (cancel bk i). exact L.
Qed.
Lemma operate_list delay h : forall past x x' ms, uniq (x_subscriptions x) -> (forall sym a, on_list (x_subscriptions x) sym a -> wants past sym a) ->
  operate delay h x = Ret (x', ms) -> forall sym a, on_list (x_subscriptions x') sym a -> wants (past ++ h) sym a.
Proof.
  induction h as [|[t e] h IH]; intros past x x' ms U J H sym a; cbn [operate] in H; [injection H as <- <-; rewrite app_nil_r; apply J|].
  destruct (handle delay t e x) as [[x1 m1]| |] eqn:E; try discriminate. destruct (operate delay h x1) as [[x2 m2]| |] eqn:E2; try discriminate. injection H as <- <-.
  replace (past ++ (t, e) :: h) with ((past ++ [(t, e)]) ++ h) by now rewrite <- app_assoc. apply (IH (past ++ [(t, e)]) x1 x2 m2); [exact (handle_uniq _ _ _ _ _ _ U E)| |exact E2].
  clear sym a. intros sym a L. destruct (handle_list _ _ _ _ _ _ _ _ U E L) as [[L0 N]|(ty & d & is & -> & N & I)].
  - destruct (J sym a L0) as (h1 & t0 & ty & d & is & h2 & -> & A & B & C). exists h1, t0, ty, d, is, (h2 ++ [(t, e)]). split; [now rewrite <- app_assoc|]. split; [exact A|]. split; [exact B|].
    intros t' d' is' I'. apply in_app_or in I'. destruct I' as [I'|[Q|[]]]; [exact (C _ _ _ I')|]. injection Q as -> ->. exact (N _ _ eq_refl).
  - exists past, t, ty, d, is, []. repeat split; auto.
Qed.
