(** Lemmas about companies and investors. *)
From Coq Require Import QArith Qround Qfield ZifyBool ZifyNat.
From Verif Require Import Base Identity Identity_proofs Quantity Money StaticTicks StaticTicks_proofs Exchange Exchange_proofs Company Company_spec Inventory_proofs.
Local Open Scope Z_scope.

Lemma policy_eqb_eq p q : policy_eqb p q = true <-> p = q.
Proof. destruct p, q. unfold policy_eqb. cbn. rewrite !andb_true_iff, !Z.eqb_eq. split; [intros [[[-> ->] ->] ->]; reflexivity|intros H; injection H; auto]. Qed.
Lemma id_refl a : id_eqb a a = true. Proof. now apply id_eqb_eq. Qed.
Lemma told_app a p m1 m2 : told a p (m1 ++ m2) = told a p m1 ++ told a p m2.
Proof. unfold told. now rewrite filter_app, map_app. Qed.
Lemma told_all a p q t l : NoDup l -> In a l -> told a p (map (fun s => mk_announcement s t q) l) = if policy_eqb q p then [t] else [].
Proof.
  unfold told. induction 1 as [|s l N ND IH]; intros I; [easy|]. cbn [map filter a_to a_policy]. destruct (id_eqb s a) eqn:E.
  - apply id_eqb_eq in E. subst s. cbn [andb]. assert (filter (fun m => id_eqb (a_to m) a && policy_eqb (a_policy m) p) (map (fun s => mk_announcement s t q) l) = []) as X.
    { clear - N. induction l as [|s l IH]; [reflexivity|]. cbn [map filter a_to]. destruct (id_eqb s a) eqn:E; [apply id_eqb_eq in E; subst; cbn in N; tauto|]. cbn [andb]. apply IH. cbn in N. tauto. }
    destruct (policy_eqb q p); cbn [map a_arrival]; now rewrite X.
  - cbn [andb]. apply IH. destruct I as [->|I]; [rewrite id_refl in E; discriminate|exact I].
Qed.
(** What one activation does. *)
Lemma act_spec lower upper o c c' ms next : act lower upper o c = (c', ms, next) ->
  c_shareholders c' = c_shareholders c /\
  match o with
  | Some p => if (p_announcement p <=? lower) && (c_last_announced c <? p_announcement p)
              then c_last_announced c' = p_announcement p /\ ms = map (fun s => mk_announcement s lower p) (c_shareholders c)
              else c_last_announced c' = c_last_announced c /\ ms = []
  | None => c_last_announced c' = c_last_announced c /\ ms = []
  end.
Proof.
  unfold act. destruct o as [p|]; [|intros H; injection H as <- <- <-; auto].
  destruct (p_announcement p <=? lower), (c_last_announced c <? p_announcement p), (p_payable p <=? lower); cbn [andb c_last_payment c_shareholders c_last_announced]; intros H; injection H as <- <- <-;
    try destruct (c_last_payment c <? p_announcement p); auto.
Qed.
Lemma first_due_none p h : ~ In p (offers h) -> first_due p h = None.
Proof.
  induction h as [|v h IH]; cbn [first_due offers flat_map]; [reflexivity|]. destruct (v_offered v) as [q|]; cbn [app In]; intros N; [|now apply IH].
  destruct (policy_eqb q p) eqn:E; [apply policy_eqb_eq in E; tauto|]. cbn [andb]. apply IH. tauto.
Qed.
Lemma dated_in from ps p : dated from ps -> In p ps -> from <= p_announcement p.
Proof. revert from. induction ps as [|q ps IH]; intros from D I; [easy|]. destruct D as [D1 D2]. destruct I as [->|I]; [exact D1|]. specialize (IH _ D2 I). lia. Qed.
Lemma dated_weaken from from' ps : from' <= from -> dated from ps -> dated from' ps.
Proof. destruct ps; cbn; [auto|]. intros ? []. split; [lia|auto]. Qed.
Lemma announced_spec a p h : forall c c' ms, NoDup (c_shareholders c) -> In a (c_shareholders c) ->
  dated (c_last_announced c) (offers h) -> one_per_date (p :: offers h) -> activations h c = (c', ms) ->
  told a p ms = if c_last_announced c <? p_announcement p then match first_due p h with Some t => [t] | None => [] end else [].
Proof.
  induction h as [|v h IH]; intros c c' ms ND I D O H; cbn [activations] in H; [injection H as <- <-; cbn; now destruct (c_last_announced c <? p_announcement p)|].
  destruct (act (v_lower v) (v_upper v) (v_offered v) c) as [[c1 ms1] nx] eqn:E. destruct (activations h c1) as [c2 ms2] eqn:E2. injection H as <- <-.
  apply act_spec in E. destruct E as [Es E]. rewrite told_app. rewrite <- Es in ND, I. cbn [first_due]. unfold offers in *. cbn [flat_map] in *. fold (offers h) in *.
  destruct (v_offered v) as [q|]; cbn [app] in *.
  - destruct D as [D1 D2]. assert (O' : one_per_date (p :: offers h)) by (intros x y Hx Hy; apply O; cbn in *; tauto).
    destruct (p_announcement q <=? v_lower v) eqn:L; [destruct (c_last_announced c <? p_announcement q) eqn:L2|]; cbn [andb] in E; destruct E as [El ->].
    + rewrite (IH c1 c2 ms2 ND I) by (rewrite ?El; auto). rewrite <- Es, (told_all a p q (v_lower v) _ ND I), El.
      destruct (policy_eqb q p) eqn:Q.
      * apply policy_eqb_eq in Q. subst q. rewrite Z.ltb_irrefl, L, L2. reflexivity.
      * cbn [app andb]. destruct (p_announcement q <? p_announcement p) eqn:C.
        -- assert (c_last_announced c <? p_announcement p = true) as -> by lia. reflexivity.
        -- destruct (Z.eq_dec (p_announcement q) (p_announcement p)) as [Eq|Nq].
           ++ assert (q = p) by (apply O; cbn; auto). subst. assert (policy_eqb p p = true) by now apply policy_eqb_eq. congruence.
           ++ rewrite first_due_none; [now destruct (c_last_announced c <? p_announcement p)|]. intros Hp. pose proof (dated_in _ _ _ D2 Hp). lia.
    + cbn [told filter map app]. change (told a p ([] : list announcement)) with (@nil Z). cbn [app]. rewrite (IH c1 c2 ms2 ND I) by (rewrite ?El; auto; apply (dated_weaken (p_announcement q)); auto). rewrite El.
      destruct (c_last_announced c <? p_announcement p) eqn:C; [|reflexivity]. destruct (policy_eqb q p) eqn:Q; [apply policy_eqb_eq in Q; subst; congruence|]. reflexivity.
    + change (told a p ([] : list announcement)) with (@nil Z). cbn [app]. rewrite (IH c1 c2 ms2 ND I) by (rewrite ?El; auto; apply (dated_weaken (p_announcement q)); auto). rewrite El.
      destruct (c_last_announced c <? p_announcement p) eqn:C; [|reflexivity]. destruct (policy_eqb q p) eqn:Q; [apply policy_eqb_eq in Q; subst; rewrite L; reflexivity|]. reflexivity.
  - destruct E as [El ->]. change (told a p ([] : list announcement)) with (@nil Z). cbn [app]. rewrite (IH c1 c2 ms2 ND I) by (rewrite ?El; auto). now rewrite El.
Qed.
(** Nothing dated at or before the last announcement is announced any more. *)
Lemma announced_above h : forall c c' ms m, activations h c = (c', ms) -> In m ms -> c_last_announced c < p_announcement (a_policy m).
Proof.
  induction h as [|v h IH]; intros c c' ms m H I; cbn [activations] in H; [injection H as <- <-; easy|].
  destruct (act (v_lower v) (v_upper v) (v_offered v) c) as [[c1 ms1] nx] eqn:E. destruct (activations h c1) as [c2 ms2] eqn:E2. injection H as <- <-.
  apply act_spec in E. destruct E as [_ E]. apply in_app_or in I. destruct I as [I|I].
  - destruct (v_offered v) as [q|]; [|destruct E as [_ ->]; easy]. destruct ((p_announcement q <=? v_lower v) && (c_last_announced c <? p_announcement q)) eqn:L; destruct E as [_ ->]; [|easy].
    apply in_map_iff in I. destruct I as (s & <- & _). cbn. lia.
  - specialize (IH c1 c2 ms2 m E2 I). destruct (v_offered v) as [q|]; [destruct ((p_announcement q <=? v_lower v) && (c_last_announced c <? p_announcement q)) eqn:L|]; destruct E as [E _]; rewrite E in IH; lia.
Qed.

(** ** Dividends *)
Lemma total_shares_sum classes : total_shares classes = zsum (map k_shares classes) mod W64.
Proof.
  unfold total_shares. assert (G : forall l n, fold_left (fun n k => w64 (n + k_shares k)) l (n mod W64) = (n + zsum (map k_shares l)) mod W64).
  { induction l as [|k l IH]; intros n; cbn [fold_left map]; [change (zsum []) with 0; now rewrite Z.add_0_r|]. unfold w64 at 2. rewrite Z.add_mod_idemp_l by (unfold W64; lia). rewrite IH, zsum_cons. f_equal. lia. }
  specialize (G classes 0). change (0 mod W64) with 0 in G. exact G.
Qed.
Lemma dividend_exact denominator profit total q : 0 < denominator -> 0 < profit -> 0 < total -> 0 <= q ->
  trunc_Z exact (mul exact (mul exact (div exact (div exact (of_Z exact profit) (of_Z exact denominator)) (of_Z exact total)) (of_Z exact q)) (of_Z exact denominator)) = profit * q / total.
Proof.
  intros Hd Hp Ht Hq. cbn [exact trunc_Z mul div of_Z num].
  assert (E : (inject_Z profit / inject_Z denominator / inject_Z total * inject_Z q * inject_Z denominator == (profit * q) # Z.to_pos total)%Q).
  { rewrite (Qmake_Qdiv (profit * q)). rewrite Z2Pos.id by exact Ht. rewrite inject_Z_mult. field. split; apply inject_nz; lia. }
  assert (Qle_bool 0 (inject_Z profit / inject_Z denominator / inject_Z total * inject_Z q * inject_Z denominator) = true) as ->.
  { apply Qle_bool_iff. rewrite E. unfold Qle. cbn. nia. }
  rewrite E. unfold Qfloor. rewrite Z2Pos.id by exact Ht. reflexivity.
Qed.
Lemma compute_exact denominator profit classes : 0 < denominator -> 0 < profit -> Forall (fun k => 0 <= k_shares k) classes -> 0 < zsum (map k_shares classes) < W64 ->
  compute_dividend exact denominator profit classes =
    map (fun k => (k_rank k, (k_shares k, profit * k_shares k / zsum (map k_shares classes)))) (filter k_dividend classes).
Proof.
  intros Hd Hp F T. unfold compute_dividend. assert (profit <=? 0 = false) as -> by lia. rewrite total_shares_sum, Z.mod_small by lia.
  set (total := zsum (map k_shares classes)) in *. clearbody total. induction F as [|k l H F IH]; [reflexivity|]. cbn [flat_map filter]. destruct (k_dividend k); cbn [app map]; rewrite IH; [|reflexivity].
  rewrite dividend_exact by lia. reflexivity.
Qed.
Lemma floors_sum profit total l : 0 < total -> 0 <= profit -> Forall (fun k => 0 <= k_shares k) l ->
  total * zsum (map (fun k => profit * k_shares k / total) (filter k_dividend l)) <= profit * zsum (map k_shares l).
Proof.
  intros Ht Hp. induction 1 as [|k l H F IH]; [change (zsum _) with 0; change (zsum (map k_shares [])) with 0; lia|]. cbn [map filter]. rewrite zsum_cons.
  destruct (k_dividend k); cbn [map]; rewrite ?zsum_cons; [|nia]. pose proof (Z.mul_div_le (profit * k_shares k) total Ht). nia.
Qed.

(** ** Records *)
Lemma insert_date_in d e l : In e (insert_date d l) <-> (e = d \/ In e l).
Proof.
  induction l as [|x l IH]; cbn [insert_date In]; [intuition|]. destruct (date_eqb d x) eqn:E.
  - unfold date_eqb in E. apply andb_prop in E. destruct E as [E1 E2]. apply Z.eqb_eq in E1. apply id_eqb_eq in E2. destruct d, x. cbn in *. subst. intuition.
  - destruct (date_ltb d x); cbn [In]; [intuition|]. rewrite IH. intuition.
Qed.
Lemma submit_in lower upper h r : In r (submit_records lower upper h) <->
  exists d, In d (h_dates h) /\ lower <= fst d <= upper /\ f_find id_eqb (snd d) (h_shares h) = Some (r_shares r) /\ r_to r = snd d /\ r_delivery r = 0.
Proof.
  unfold submit_records. rewrite in_flat_map. split.
  - intros (d & I & H). destruct ((lower <=? fst d) && (fst d <=? upper)) eqn:E; [|easy]. destruct (f_find id_eqb (snd d) (h_shares h)) as [s|] eqn:F; [|easy]. destruct H as [<-|[]]. exists d. cbn. repeat split; auto; lia.
  - intros (d & I & B & F & T & D). exists d. split; [exact I|]. assert ((lower <=? fst d) && (fst d <=? upper) = true) as -> by lia. rewrite F. left. destruct r. cbn in *. now subst.
Qed.
(** The dates known after some arrivals, and what is sent at each. *)
Lemma arrivals_spec ls : forall h h' out, arrivals ls h = (h', out) ->
  h_shares h' = h_shares h /\ map fst out = ls /\
  (forall d, In d (h_dates h') <-> In d (h_dates h) \/ exists l, In l ls /\ d = (l_ex_dividend l, l_sender l)) /\
  (forall l rs r, In (l, rs) out -> In r rs -> exists d, (In d (h_dates h) \/ exists l', In l' ls /\ d = (l_ex_dividend l', l_sender l')) /\
      l_lower l <= fst d <= l_upper l /\ r_to r = snd d /\ r_delivery r = 0).
Proof.
  induction ls as [|l ls IH]; intros h h' out H; cbn [arrivals] in H.
  - injection H as <- <-. repeat split; auto; [intros [?|(? & [] & _)]; auto|intros ? ? ? []].
  - unfold on_announcement in H. set (h1 := mk_shareholder (insert_date (l_ex_dividend l, l_sender l) (h_dates h)) (h_shares h) (h_stocks h)) in *.
    destruct (arrivals ls h1) as [h2 o] eqn:E. injection H as <- <-. destruct (IH _ _ _ E) as (S & M & D & R).
    split; [rewrite S; reflexivity|]. split; [cbn; now rewrite M|]. split.
    + intros d. rewrite D. unfold h1. cbn [h_dates]. rewrite insert_date_in. split.
      * intros [[->|I]|(l' & I & ->)]; [right; exists l; cbn; auto|now left|right; exists l'; cbn; auto].
      * intros [I|(l' & [<-|I] & ->)]; [auto|auto|right; eauto].
    + intros l0 rs r [I|I] Hr.
      * injection I as <- <-. apply submit_in in Hr. destruct Hr as (d & Id & B & _ & T & Z0). exists d. split; [|auto]. unfold h1 in Id. cbn [h_dates] in Id. apply insert_date_in in Id.
        destruct Id as [->|Id]; [right; exists l; cbn; auto|now left].
      * destruct (R l0 rs r I Hr) as (d & Id & B). exists d. split; [|exact B]. unfold h1 in Id. cbn [h_dates] in Id. rewrite insert_date_in in Id.
        destruct Id as [[->|Id]|(l' & Il & ->)]; [right; exists l; cbn; auto|now left|right; exists l'; cbn; auto].
Qed.

(** ** Holdings *)
Definition held_at (p : identity) (acc : list (identity * Z)) : Z := match f_find id_eqb p acc with Some q => q | None => 0 end.
Definition in_class stocks (p : identity) c (l : list (Z * Z)) : list Z :=
  flat_map (fun ra : Z * Z => match f_find stock_eqb (c, fst ra) stocks with Some p' => if id_eqb p' p then [snd ra] else [] | None => [] end) l.
Lemma holdings_of_spec (stocks : list ((identity * Z) * identity)) c l : forall acc, (forall ra, In ra l -> f_find stock_eqb (c, fst ra) stocks <> None /\ 0 <= snd ra < W64) -> (forall p, 0 <= held_at p acc < W64) ->
  exists acc', holdings_of stocks c l acc = Ret acc' /\ (forall p, held_at p acc' = (held_at p acc + zsum (in_class stocks p c l)) mod W64).
Proof.
  induction l as [|[r a] l IH]; intros acc K B; cbn [holdings_of].
  - exists acc. split; [reflexivity|]. intros p. cbn [in_class flat_map]. change (zsum []) with 0. rewrite Z.add_0_r, Z.mod_small; auto.
  - destruct (K (r, a) (or_introl eq_refl)) as [K1 K2]. cbn [fst snd] in *. destruct (f_find stock_eqb (c, r) stocks) as [p|] eqn:F; [|congruence].
    set (acc1 := match f_find id_eqb p acc with Some _ => _ | None => _ end).
    assert (H1 : forall k, held_at k acc1 = if id_eqb p k then (held_at k acc + a) mod W64 else held_at k acc).
    { intros k. unfold acc1, held_at. destruct (f_find id_eqb p acc) as [q|] eqn:P.
      - rewrite (f_find_assign id_eqb id_eqb_eq), P. destruct (id_eqb p k) eqn:Q; [apply id_eqb_eq in Q; subst; now rewrite P|reflexivity].
      - rewrite (f_find_app id_eqb). cbn [f_find]. destruct (id_eqb p k) eqn:Q; [apply id_eqb_eq in Q; subst; rewrite P; now rewrite Z.mod_small by lia|]. now destruct (f_find id_eqb k acc). }
    assert (WP : 0 < W64) by (unfold W64; lia).
    destruct (IH acc1) as (acc' & -> & H2).
    { intros ra I. apply K. now right. }
    { intros k. rewrite H1. destruct (id_eqb p k); [apply Z.mod_pos_bound; exact WP|apply B]. }
    exists acc'. split; [reflexivity|]. intros k. rewrite H2, H1. unfold in_class. cbn [flat_map fst snd]. rewrite F. destruct (id_eqb p k); [|reflexivity].
    cbn [app]. rewrite zsum_cons. rewrite Z.add_mod_idemp_l by lia. f_equal. lia.
Qed.
Lemma all_holdings_spec (stocks : list ((identity * Z) * identity)) m : forall acc, (forall c l ra, In (c, l) m -> In ra l -> f_find stock_eqb (c, fst ra) stocks <> None /\ 0 <= snd ra < W64) -> (forall p, 0 <= held_at p acc < W64) ->
  exists acc', all_holdings stocks m acc = Ret acc' /\
    (forall p, held_at p acc' = (held_at p acc + zsum (flat_map (fun cl => in_class stocks p (fst cl) (snd cl)) m)) mod W64).
Proof.
  assert (WP : 0 < W64) by (unfold W64; lia).
  induction m as [|[c l] m IH]; intros acc K B; cbn [all_holdings].
  - exists acc. split; [reflexivity|]. intros p. cbn [flat_map]. change (zsum []) with 0. rewrite Z.add_0_r, Z.mod_small; auto.
  - destruct (holdings_of_spec stocks c l acc) as (acc1 & -> & H1); [intros; eapply K; [now left|assumption]|exact B|].
    destruct (IH acc1) as (acc' & -> & H2); [intros; eapply K; [right; eassumption|assumption]|intros p; rewrite H1; now apply Z.mod_pos_bound|].
    exists acc'. split; [reflexivity|]. intros p. rewrite H2, H1. cbn [flat_map fst snd]. rewrite Z.add_mod_idemp_l by lia. f_equal.
    assert (G : forall a b, zsum (a ++ b) = zsum a + zsum b) by (clear; induction a; intros; [reflexivity|cbn [app]; rewrite !zsum_cons, IHa; lia]). rewrite G. lia.
Qed.

(** ** Quotes *)
Lemma bond_quotes quotes : forall m k, f_find id_eqb k (process_quotes quotes m) = match f_find id_eqb k m with Some p => Some p | None => first_quoted k quotes end.
Proof.
  unfold process_quotes. induction quotes as [|[j p] l IH]; intros m k; cbn [fold_left first_quoted fst snd]; [now destruct (f_find id_eqb k m)|].
  rewrite IH, (f_find_emplace id_eqb id_eqb_eq). destruct (f_find id_eqb k m); [reflexivity|]. destruct (id_eqb j k); reflexivity.
Qed.
Lemma last_quoted_app k a b : last_quoted k (a ++ b) = match last_quoted k b with Some p => Some p | None => last_quoted k a end.
Proof.
  unfold last_quoted. rewrite rev_app_distr. generalize (rev b) as x, (rev a) as y. clear. induction x as [|[j p] x IH]; intros y; cbn [first_quoted app]; [reflexivity|]. destruct (id_eqb j k); [reflexivity|apply IH].
Qed.
Lemma share_quotes quotes : forall m k, f_find id_eqb k (extract_prices quotes m) =
  match last_quoted k quotes with
  | None => f_find id_eqb k m
  | Some q => Some (mk_price (value q) (match f_find id_eqb k m with Some p => valuation p | None => match first_quoted k quotes with Some p => valuation p | None => valuation q end end))
  end.
Proof.
  unfold extract_prices. induction quotes as [|[j p] l IH]; intros m k; cbn [fold_left]; [reflexivity|]. rewrite IH.
  change ((j, p) :: l) with ([(j, p)] ++ l). rewrite last_quoted_app.
  assert (E : f_find id_eqb k (extract_price m (j, p)) = if id_eqb j k then Some (mk_price (value p) (match f_find id_eqb k m with Some x => valuation x | None => valuation p end)) else f_find id_eqb k m).
  { unfold extract_price. cbn [fst snd]. destruct (f_find id_eqb j m) as [x|] eqn:F.
    - rewrite (f_find_assign id_eqb id_eqb_eq), F. destruct (id_eqb j k) eqn:J; [apply id_eqb_eq in J; subst; now rewrite F|reflexivity].
    - rewrite (f_find_app id_eqb). cbn [f_find]. destruct (id_eqb j k) eqn:J; [apply id_eqb_eq in J; subst; rewrite F; now destruct p|]. now destruct (f_find id_eqb k m). }
  rewrite E. cbn [app first_quoted]. assert (last_quoted k [(j, p)] = if id_eqb j k then Some p else None) as -> by reflexivity.
  destruct (id_eqb j k) eqn:J; destruct (last_quoted k l) as [q|]; try reflexivity; cbn [valuation]; destruct (f_find id_eqb k m); reflexivity.
Qed.
