(** Lemmas for market data. *)
From Coq Require Import ZifyBool ZifyNat.
From Verif Require Import Base Identity Identity_proofs BinaryBook BinaryBook_spec Exchange Exchange_spec Exchange_proofs Feed_spec.

Section U.
Context (delay : identity -> Z) (now : Z).
Definition update_of (a : identity) (symbol : Z) (b : book) (r : report) : message :=
  MarketData a (w64 (now + delay a)) symbol (if is_match r then [(rp_limit r, rp_quantity r)] else []) (to_list (ask b)) (to_list (bid b)).
Lemma update_none symbol r trade b l a : ~ In a (map fst l) -> updates a symbol (snd (update_subscribers delay now symbol r trade b l)) = [].
Proof.
  intros H. destruct (updates _ _ _) as [|m q] eqn:E; [reflexivity|]. exfalso. assert (I : In m (m :: q)) by now left. rewrite <- E in I. unfold updates in I. apply filter_In in I as [I B].
  destruct (update_only delay now symbol r trade b l m I) as (c & s & J & _ & ->). apply andb_true_iff in B as [B _]. apply id_eqb_eq in B. subst c. apply H. apply in_map_iff. exists (a, s). auto.
Qed.
Lemma update_exact symbol r b l a s : NoDup (map fst l) -> f_find id_eqb a l = Some s -> due now s = true ->
  updates a symbol (snd (update_subscribers delay now symbol r (is_match r) b l)) = [update_of a symbol b r].
Proof.
  intros N F D. induction l as [|[c s'] l IH]; cbn [f_find] in F; [discriminate|]. cbn [map fst] in N. inversion_clear N. cbn [update_subscribers].
  pose proof (update_none symbol r (is_match r) b l a) as Nn. destruct (update_subscribers delay now symbol r (is_match r) b l) as [rest ms]. cbn [snd] in IH, Nn.
  destruct (id_eqb c a) eqn:E.
  - injection F as ->. apply id_eqb_eq in E. subst c. unfold due in D. apply negb_true_iff in D. rewrite D. cbn [snd]. unfold updates in *. cbn [filter].
    rewrite (proj2 (id_eqb_eq a a) eq_refl), Z.eqb_refl. cbn [andb]. now rewrite Nn.
  - destruct (_ >? now); cbn [snd]; [exact (IH H0 F)|]. unfold updates in *. cbn [filter]. rewrite E. cbn [andb]. exact (IH H0 F).
Qed.
Lemma send_exact sender o changed b a rs : forall subs s, uniq subs -> sub_in subs (o_symbol o) a = Some s -> due now s = true -> due now (touch now s) = true ->
  updates a (o_symbol o) (snd (send_reports delay now sender o changed b rs subs)) =
  map (update_of a (o_symbol o) b) (filter (fun r => (is_match r && id_eqb (rp_owner r) sender) || changed) rs).
Proof.
  induction rs as [|r rs IH]; intros subs s U S D D'; cbn [send_reports]; [reflexivity|].
  pose proof S as S'. unfold sub_in in S'. destruct (f_find Z.eqb (o_symbol o) subs) as [l|] eqn:F; [|discriminate].
  assert (Nl : NoDup (map fst l)) by (unfold uniq in U; rewrite Forall_forall in U; apply (U (o_symbol o, l)); now apply (f_find_in Z.eqb Zeqb_eq)).
  cbn [filter]. destruct ((is_match r && id_eqb (rp_owner r) sender) || changed) eqn:W.
  - pose proof (update_exact (o_symbol o) r b l a s Nl S' D) as E1. pose proof (update_keys delay now (o_symbol o) r (is_match r) b l) as Kk. pose proof (update_find delay now (o_symbol o) r (is_match r) b l a) as Kf.
    destruct (update_subscribers delay now (o_symbol o) r (is_match r) b l) as [l' ms]. cbn [fst snd] in *.
    specialize (IH (f_assign Z.eqb (o_symbol o) l' subs) (touch now s)).
    assert (U' : uniq (f_assign Z.eqb (o_symbol o) l' subs)) by (apply f_assign_forall; [intros k'; cbn [snd]; now rewrite Kk|exact U]).
    assert (S1 : sub_in (f_assign Z.eqb (o_symbol o) l' subs) (o_symbol o) a = Some (touch now s)).
    { unfold sub_in. rewrite (f_find_assign Z.eqb Zeqb_eq), F, Z.eqb_refl, Kf, S'. reflexivity. }
    specialize (IH U' S1 D'). rewrite touch_touch in IH. specialize (IH D').
    destruct (send_reports delay now sender o changed b rs _) as [subs'' ms']. cbn [snd] in *.
    change (Execution (rp_owner r) (w64 (now + delay sender)) o r :: ms ++ ms') with ([Execution (rp_owner r) (w64 (now + delay sender)) o r] ++ ms ++ ms').
    rewrite !updates_app, E1, IH. reflexivity.
  - specialize (IH subs s U S D D'). destruct (send_reports delay now sender o changed b rs subs) as [subs'' ms']. cbn [snd] in *. exact IH.
Qed.
End U.

Definition tells (x : exchange) (sender : identity) (o : order) (r : report) : bool :=
  (is_match r && id_eqb (rp_owner r) sender) ||
  match book_of x (o_symbol o) with Some b => negb (option_eqb (ask b) (ask (fst (insert b o))) && option_eqb (bid b) (bid (fst (insert b o)))) | None => false end.

Lemma live_exact delay a sym h t b o x x2 ms2 x3 ms3 s T bk : uniq (x_subscriptions x) -> subscribed x sym a = Some s -> live T s ->
  timed T (h ++ [(t, NewOrder b o)]) -> Forall (fun te => asks_by a (snd te) = false) h -> operate delay h x = Ret (x2, ms2) ->
  o_symbol o = sym -> book_of x2 sym = Some bk -> handle delay t (NewOrder b o) x2 = Ret (x3, ms3) ->
  book_of x3 sym = Some (fst (insert bk o)) /\
  updates a sym ms3 = map (update_of delay t a sym (fst (insert bk o))) (filter (tells x2 b o) (unsent x2 sym ++ snd (insert bk o))).
Proof.
  intros U Hs L Ti F H Es Bk H3. apply timed_app in Ti as [T1 T2]. destruct (operate_live delay a sym h T x x2 ms2 s U T1 Hs L F H) as (U2 & s2 & Hs2 & L2).
  destruct (live_due _ t s2 L2 T2) as (D & _ & D'). subst sym. rewrite subscribed_in in Hs2. cbn [handle] in H3. unfold insert_order in H3. unfold unsent. unfold tells. rewrite Bk.
  unfold book_of in Bk |- *. destruct (f_find Z.eqb (o_symbol o) (x_books x2)) as [[bk' pd]|] eqn:G; [|discriminate]. cbn [option_map fst] in Bk. injection Bk as ->.
  destruct (insert bk o) as [b' new] eqn:I. cbn [fst snd].
  pose proof (send_exact delay t b o (negb (option_eqb (ask bk) (ask b') && option_eqb (bid bk) (bid b'))) b' a (pd ++ new) (x_subscriptions x2) s2 U2 Hs2 D D') as X.
  destruct (send_reports _ _ _ _ _ _ _ _) as [subs ms]. injection H3 as <- <-. cbn [snd] in X. split; [|exact X].
  cbn [x_books]. rewrite (f_find_assign Z.eqb Zeqb_eq), Z.eqb_refl, G. reflexivity.
Qed.

(** Reports held back are of cancellations. *)
Definition quiet (rs : list report) : Prop := Forall (fun r => is_match r = false) rs.
Lemma cancel_quiet b i : quiet (snd (cancel b i)).
Proof.
  unfold cancel. destruct (map_find i (b_index b)); [|constructor]. destruct (match bid b with Some q => q >=? z | None => false end).
  - destruct (remove_entry z i (b_bids b)) as [[e l]|]; repeat constructor.
  - repeat (match goal with |- context [match ?c with _ => _ end] => destruct c end; cbn [snd]); repeat constructor.
Qed.
Lemma handle_quiet delay now e x x' ms sym : handle delay now e x = Ret (x', ms) -> quiet (unsent x sym) -> quiet (unsent x' sym).
Proof.
  intros H Q. destruct e as [c sup|c|c ty dp is|c o|s i]; cbn [handle] in H.
  - injection H as <- <-. exact Q.
  - injection H as <- <-. exact Q.
  - destruct (request_all now c ty dp is (x_subscriptions x)); try discriminate. injection H as <- <-. exact Q.
  - unfold insert_order in H. destruct (f_find Z.eqb (o_symbol o) (x_books x)) as [[bk p]|] eqn:F; [|discriminate]. destruct (insert bk o) as [b' nw]. destruct (send_reports _ _ _ _ _ _ _ _). injection H as <- <-.
    unfold unsent in *. cbn [x_books]. rewrite (f_find_assign Z.eqb Zeqb_eq), F. destruct (o_symbol o =? sym); [constructor|exact Q].
  - injection H as <- <-. unfold cancel_order. destruct (f_find Z.eqb s (x_books x)) as [[bk p]|] eqn:F; [|exact Q]. pose proof (cancel_quiet bk i) as C. destruct (cancel bk i) as [b' nw]. cbn [snd] in C.
    unfold unsent in *. cbn [x_books]. rewrite (f_find_assign Z.eqb Zeqb_eq), F. destruct (Z.eqb_spec s sym) as [->|]; [|exact Q]. rewrite F in Q. apply Forall_app. auto.
Qed.
Lemma operate_quiet delay h sym : forall x x' ms, operate delay h x = Ret (x', ms) -> quiet (unsent x sym) -> quiet (unsent x' sym).
Proof.
  induction h as [|[t e] h IH]; intros x x' ms H Q; cbn [operate] in H; [injection H as <- <-; exact Q|].
  destruct (handle delay t e x) as [[x1 m1]| |] eqn:E; try discriminate. destruct (operate delay h x1) as [[x2 m2]| |] eqn:E2; try discriminate. injection H as <- <-.
  eapply IH; [exact E2|]. eapply handle_quiet; eassumption.
Qed.

(** What an insertion reports: pairs of matches, then a placement. *)
Lemma loop_pairs crosses o l : forall rem, exists ps, snd (fst (fst (match_loop crosses o rem l))) = flat_map (fun p => match_reports o (fst p) (snd p)) ps /\ Forall (fun p => In (fst p) l) ps.
Proof.
  induction l as [|e l IH]; intros rem; cbn [match_loop]; [exists []; split; [reflexivity|constructor]|].
  destruct (crosses (e_key e)); [|exists []; split; [reflexivity|constructor]].
  destruct (Z.min rem (e_qty e) =? 0); [exists []; split; [reflexivity|constructor]|].
  destruct (IH (rem - Z.min rem (e_qty e))) as (ps & P1 & P2). destruct (match_loop crosses o (rem - Z.min rem (e_qty e)) l) as [[[l'' rs] ids] rm]. cbn [fst snd] in P1.
  exists ((e, Z.min rem (e_qty e)) :: ps). destruct (e_qty e - Z.min rem (e_qty e) =? 0); cbn [fst snd flat_map]; rewrite P1; (split; [reflexivity|]); constructor; try (now left); (eapply Forall_impl; [|exact P2]; intros; now right).
Qed.
Lemma insert_pairs b o : exists ps tail, snd (insert b o) = flat_map (fun p => match_reports o (fst p) (snd p)) ps ++ tail /\ quiet tail /\ Forall (fun p => In (fst p) (b_bids b ++ b_asks b)) ps.
Proof.
  unfold insert. destruct (o_side o).
  - destruct (loop_pairs (fun k => o_limit o >=? k) o (b_asks b) (o_quantity o)) as (ps & P1 & P2). destruct (match_loop _ _ _ _) as [[[l'' rs] ids] rm]. cbn [fst snd] in P1.
    assert (P3 : Forall (fun p => In (fst p) (b_bids b ++ b_asks b)) ps) by (eapply Forall_impl; [|exact P2]; intros; apply in_or_app; now right).
    destruct (rm >? 0); cbn [snd]; rewrite P1; [eexists _, _; split; [reflexivity|split; [repeat constructor|exact P3]]|exists ps, []; rewrite app_nil_r; split; [reflexivity|split; [constructor|exact P3]]].
  - destruct (loop_pairs (fun k => o_limit o <=? k) o (b_bids b) (o_quantity o)) as (ps & P1 & P2). destruct (match_loop _ _ _ _) as [[[l'' rs] ids] rm]. cbn [fst snd] in P1.
    assert (P3 : Forall (fun p => In (fst p) (b_bids b ++ b_asks b)) ps) by (eapply Forall_impl; [|exact P2]; intros; apply in_or_app; now left).
    destruct (rm >? 0); cbn [snd]; rewrite P1; [eexists _, _; split; [reflexivity|split; [repeat constructor|exact P3]]|exists ps, []; rewrite app_nil_r; split; [reflexivity|split; [constructor|exact P3]]].
Qed.

(** The trades named by a list of updates. *)
Definition named (rs : list report) : list (Z * Z) := flat_map (fun r => if is_match r then [(rp_limit r, rp_quantity r)] else []) rs.
Lemma feed_updates delay now a sym b rs : feed (map (update_of delay now a sym b) rs) = named rs.
Proof. induction rs as [|r rs IH]; cbn [map feed named flat_map update_of]; [reflexivity|]. unfold feed, named in IH. now rewrite IH. Qed.
Lemma named_app a b : named (a ++ b) = named a ++ named b. Proof. apply flat_map_app. Qed.
Lemma named_quiet rs f : quiet rs -> named (filter f rs) = [].
Proof. intros Q. induction Q as [|r rs E Q IH]; cbn [filter]; [reflexivity|]. destruct (f r); [|exact IH]. cbn [named flat_map]. rewrite E. exact IH. Qed.
Lemma trades_quiet who rs : quiet rs -> trades_of who rs = [].
Proof. unfold trades_of. intros Q. induction Q as [|r rs E Q IH]; cbn [filter]; [reflexivity|]. replace (is_state Matched r) with (is_match r) by reflexivity. rewrite E. exact IH. Qed.
Lemma absent_pairs who b ps : absent who b -> Forall (fun p : entry * Z => In (fst p) (b_bids b ++ b_asks b)) ps -> Forall (fun p => id_eqb (o_owner (e_order (fst p))) who = false) ps.
Proof.
  intros A F. eapply Forall_impl; [|exact F]. cbv beta. intros p I. destruct (id_eqb (o_owner (e_order (fst p))) who) eqn:E; [|reflexivity]. apply id_eqb_eq in E. exfalso.
  apply (A (e_ident (fst p)) (e_order (fst p))); [|exact E]. unfold resting. apply in_map_iff. exists (fst p). auto.
Qed.
Lemma trades_app who a b : trades_of who (a ++ b) = trades_of who a ++ trades_of who b.
Proof. unfold trades_of. now rewrite filter_app, map_app. Qed.
Lemma trades_pairs o ps : Forall (fun p : entry * Z => id_eqb (o_owner (e_order (fst p))) (o_owner o) = false) ps ->
  trades_of (o_owner o) (flat_map (fun p => match_reports o (fst p) (snd p)) ps) = map (fun p => (o_limit (e_order (fst p)), snd p)) ps.
Proof.
  intros F. induction F as [|p ps E F IH]; [reflexivity|]. cbn [flat_map]. rewrite trades_app, IH. unfold match_reports, trades_of. cbn [filter is_state rp_state rp_owner andb].
  rewrite (proj2 (id_eqb_eq (o_owner o) (o_owner o)) eq_refl), E. reflexivity.
Qed.
Lemma named_all o (ps : list (entry * Z)) : named (flat_map (fun p => match_reports o (fst p) (snd p)) ps) = flat_map (fun u => [u; u]) (map (fun p => (o_limit (e_order (fst p)), snd p)) ps).
Proof. induction ps as [|p ps IH]; [reflexivity|]. cbn [flat_map map]. rewrite named_app, IH. reflexivity. Qed.
Lemma named_trades who rs : named (filter (fun r => (is_match r && id_eqb (rp_owner r) who) || false) rs) = trades_of who rs.
Proof.
  unfold trades_of. induction rs as [|r rs IH]; cbn [filter]; [reflexivity|]. rewrite orb_false_r. replace (is_state Matched r) with (is_match r) by reflexivity.
  destruct (is_match r) eqn:E; cbn [andb]; [|exact IH]. destruct (id_eqb (rp_owner r) who); [|exact IH]. cbn [named flat_map map]. rewrite E. cbn [app]. f_equal. exact IH.
Qed.
Lemma insert_not_cancelled b o : Forall (fun r => rp_state r <> Cancelled) (snd (insert b o)).
Proof.
  assert (L : forall c l rem, Forall (fun r => rp_state r <> Cancelled) (snd (fst (fst (match_loop c o rem l))))).
    { intros c l. induction l as [|e l IH]; intros rem; cbn [match_loop]; [constructor|]. destruct (c (e_key e)); [|constructor]. destruct (_ =? 0); [constructor|]. specialize (IH (rem - Z.min rem (e_qty e))).
      destruct (match_loop c o (rem - Z.min rem (e_qty e)) l) as [[[l'' rs] ids] rm]. cbn [fst snd] in IH. destruct (_ =? 0); cbn [fst snd match_reports app]; repeat (constructor; [discriminate|]); exact IH. }
    unfold insert. destruct (o_side o); [specialize (L (fun k => o_limit o >=? k) (b_asks b) (o_quantity o))|specialize (L (fun k => o_limit o <=? k) (b_bids b) (o_quantity o))];
      destruct (match_loop _ _ _ _) as [[[l'' rs] ids] rm]; cbn [fst snd] in L; destruct (rm >? 0); cbn [snd]; try exact L; apply Forall_app; (split; [exact L|repeat constructor; discriminate]).
Qed.
