(** C66, C91-C94: companies and investors. *)
From Coq Require Import QArith ZifyBool ZifyNat.
From Verif Require Import Base Identity Identity_proofs Money StaticTicks Exchange Exchange_proofs Company Company_spec Company_proofs Inventory_proofs Rounding_proofs.
Local Open Scope Z_scope.

(** Policies with positive announcement dates that do not decrease are each announced exactly once to each shareholder, at the first
    activation at or after the date in which they are offered. *)
Theorem C66_once : forall shareholders h c ms a p, NoDup shareholders -> In a shareholders ->
  dated 0 (offers h) -> one_per_date (p :: offers h) -> 1 <= p_announcement p -> activations h (new_company shareholders) = (c, ms) ->
  told a p ms = match first_due p h with Some t => [t] | None => [] end.
Proof.
  intros sh h c ms a p ND I D O P H. rewrite (announced_spec a p h (new_company sh) c ms ND I D O H). cbn [new_company c_last_announced]. assert (0 <? p_announcement p = true) as -> by lia. reflexivity.
Qed.
Print Assumptions C66_once.
(** A policy dated 0 is never announced. *)
Theorem C66_date_zero_refuted : forall shareholders h c ms a p, p_announcement p = 0 -> activations h (new_company shareholders) = (c, ms) -> told a p ms = [].
Proof.
  intros sh h c ms a p P H. unfold told. assert (filter (fun m => id_eqb (a_to m) a && policy_eqb (a_policy m) p) ms = []) as ->; [|reflexivity].
  assert (X : forall m, In m ms -> id_eqb (a_to m) a && policy_eqb (a_policy m) p = false).
  { intros m I. pose proof (announced_above _ _ _ _ _ H I) as L. cbn in L. destruct (policy_eqb (a_policy m) p) eqn:E; [apply policy_eqb_eq in E; subst p; lia|]. apply andb_false_r. }
  clear H. induction ms as [|m ms IH]; [reflexivity|]. cbn [filter]. rewrite (X m (or_introl eq_refl)). apply IH. intros. apply X. now right.
Qed.
Print Assumptions C66_date_zero_refuted.
(** Between the announcement and the payable date the next activation asked for is the announcement date, in the past. *)
Theorem C66_next_in_past_refuted : forall lower upper p c, p_announcement p < lower -> lower < p_payable p -> lower <= upper ->
  snd (act lower upper (Some p) c) = p_announcement p.
Proof.
  intros lower upper p c H1 H2 H3. unfold act. assert (p_announcement p <=? lower = true) as -> by lia. assert (p_payable p <=? lower = false) as -> by lia.
  destruct (c_last_announced c <? p_announcement p); cbn [snd]; lia.
Qed.
Print Assumptions C66_next_in_past_refuted.
(** And only then. *)
Theorem C66_next_exactly : forall lower upper offered c, lower <= upper ->
  (lower <= snd (act lower upper offered c) <= upper <-> forall p, offered = Some p -> p_payable p <= lower \/ lower <= p_announcement p).
Proof.
  intros lower upper [p|] c H; [|cbn; split; [discriminate|lia]]. split.
  - intros K q [= <-]. revert K. unfold act. destruct (p_announcement p <=? lower) eqn:A, (c_last_announced c <? p_announcement p), (p_payable p <=? lower) eqn:B; cbn [snd c_last_payment]; lia.
  - intros K. specialize (K p eq_refl). unfold act.
    destruct (p_announcement p <=? lower) eqn:A, (c_last_announced c <? p_announcement p), (p_payable p <=? lower) eqn:B; cbn [snd c_last_payment]; lia.
Qed.
Print Assumptions C66_next_exactly.
(** It never comes after a date of announcement still ahead. *)
Theorem C66_wakes_in_time : forall lower upper p c, lower < p_announcement p -> snd (act lower upper (Some p) c) <= p_announcement p.
Proof.
  intros lower upper p c H. unfold act. assert (p_announcement p <=? lower = false) as -> by lia. destruct (p_payable p <=? lower); cbn [snd]; lia.
Qed.
Print Assumptions C66_wakes_in_time.
Example C66_example :
  let p := mk_policy 5 8 10 100 in let q := mk_policy 12 15 20 100 in
  let h := [mk_activation 0 5 (Some p); mk_activation 6 20 (Some p); mk_activation 7 20 (Some p); mk_activation 11 20 None; mk_activation 12 20 (Some q)] in
  told [1] p (snd (activations h (new_company [[1]; [2]]))) = [6] /\ told [2] q (snd (activations h (new_company [[1]; [2]]))) = [12] /\ first_due p h = Some 6 /\ dated 0 (offers h) /\
  snd (act 6 20 (Some p) (new_company [[1]; [2]])) = 5.
Proof. cbn. repeat split; vm_compute; try discriminate; auto. Qed.

(** Records are only ever sent when an announcement arrives in a step that contains the ex-dividend date; an investor told before the
    date, as intended, sends none. *)
Theorem C91_told_early_refuted : forall shares stocks ls h out l rs,
  arrivals ls (mk_shareholder [] shares stocks) = (h, out) ->
  (forall l l', In l ls -> In l' ls -> l_upper l < l_ex_dividend l') -> In (l, rs) out -> rs = [].
Proof.
  intros shares stocks ls h out l rs H K I. destruct rs as [|r rs]; [reflexivity|]. exfalso. destruct (arrivals_spec _ _ _ _ H) as (_ & M & _ & R).
  destruct (R l (r :: rs) r I (or_introl eq_refl)) as (d & [[]|(l' & Il' & ->)] & B & _). assert (In l ls) as Il by (rewrite <- M; now apply (in_map fst) in I). specialize (K l l' Il Il'). cbn in B. lia.
Qed.
Print Assumptions C91_told_early_refuted.
(** An investor that holds shares and is told in the step of the date sends a record with its shares at once - and again with every further
    announcement of that step, whatever it is about. The delivery time is 0. *)
Theorem C91_sent : forall shares stocks ls h out l c held,
  arrivals ls (mk_shareholder [] shares stocks) = (h, out) -> f_find id_eqb c shares = Some held -> In (l_ex_dividend l, c) (h_dates h) ->
  forall now, l_lower now <= l_ex_dividend l <= l_upper now -> In (mk_record c 0 held) (snd (on_announcement (l_lower now) (l_upper now) (l_sender now) (l_ex_dividend now) h)).
Proof.
  intros shares stocks ls h out l c held H F D now B. destruct (arrivals_spec _ _ _ _ H) as (S & _ & _ & _). cbn [on_announcement snd]. apply submit_in. exists (l_ex_dividend l, c). cbn [h_dates h_shares fst snd r_to r_delivery r_shares]. rewrite S. cbn [h_shares].
  repeat split; try lia; auto. apply insert_date_in. now right.
Qed.
Print Assumptions C91_sent.
(** Every record there ever is is delivered at time 0. *)
Theorem C91_delivery_refuted : forall shares stocks ls h out l rs r, arrivals ls (mk_shareholder [] shares stocks) = (h, out) -> In (l, rs) out -> In r rs -> r_delivery r = 0.
Proof. intros shares stocks ls h out l rs r H I Hr. destruct (arrivals_spec _ _ _ _ H) as (_ & _ & _ & R). destruct (R l rs r I Hr) as (d & _ & _ & _ & E). exact E. Qed.
Print Assumptions C91_delivery_refuted.
Example C91_example :
  map snd (snd (arrivals [mk_arrival 0 5 [1] 9; mk_arrival 8 10 [2] 30; mk_arrival 8 10 [3] 31] (mk_shareholder [] [([1], [(0, 100)])] []))) = [[]; [mk_record [1] 0 [(0, 100)]]; [mk_record [1] 0 [(0, 100)]]] /\
  map snd (snd (arrivals [mk_arrival 0 5 [1] 9; mk_arrival 6 8 [2] 30] (mk_shareholder [] [([1], [(0, 100)])] []))) = [[]; []].
Proof. split; vm_compute; reflexivity. Qed.

(** In exact arithmetic the classes that are paid get their share of the profit, rounded down, and together no more than the profit. *)
Theorem C92_shares : forall denominator profit classes, 0 < denominator -> 0 < profit -> Forall (fun k => 0 <= k_shares k) classes -> 0 < zsum (map k_shares classes) < W64 ->
  compute_dividend exact denominator profit classes = map (fun k => (k_rank k, (k_shares k, profit * k_shares k / zsum (map k_shares classes)))) (filter k_dividend classes) /\
  zsum (map (fun d => snd (snd d)) (compute_dividend exact denominator profit classes)) <= profit.
Proof.
  intros denominator profit classes Hd Hp F T. rewrite (compute_exact denominator profit classes Hd Hp F T). split; [reflexivity|]. rewrite map_map. cbn [snd].
  pose proof (floors_sum profit (zsum (map k_shares classes)) classes ltac:(lia) ltac:(lia) F). nia.
Qed.
Print Assumptions C92_shares.
(** The total of a policy made of them multiplies by the number of shares once more: with one class of at least two shares it exceeds the profit. *)
Theorem C92_total_refuted : forall denominator profit rank shares, 0 < denominator -> 0 < profit -> 2 <= shares < W64 -> profit * shares < 2 ^ 63 ->
  total_dividends (compute_dividend exact denominator profit [mk_class rank true shares]) = Ret (profit * shares) /\ profit < profit * shares.
Proof.
  intros denominator profit rank shares Hd Hp Hs Hb. rewrite compute_exact; auto; [|repeat constructor; cbn; lia|cbn; lia]. cbn [map filter k_dividend k_rank k_shares].
  change (zsum [shares]) with (shares + 0). rewrite Z.add_0_r, Z.div_mul by lia. unfold total_dividends. cbn [total_from].
  assert (s64 (profit * shares) = profit * shares) as ->. { unfold s64. cbv zeta. rewrite Z.mod_small by (unfold W64; lia). assert (profit * shares <? 2 ^ 63 = true) as -> by lia. reflexivity. }
  rewrite Z.add_0_l. assert (in_i64 (profit * shares) = true) as -> by (unfold in_i64; lia). split; [reflexivity|nia].
Qed.
Print Assumptions C92_total_refuted.
(** In double precision the only shareholder of a company that made 29 cents gets 28. *)
Theorem C92_double_refuted : compute_dividend double 100 29 [mk_class 0 true 1] = [(0, (1, 28))].
Proof. vm_compute. reflexivity. Qed.
Print Assumptions C92_double_refuted.
(** But as the code computes, in double precision, no class gets more than its share, none gets more than one unit less than that rounded down,
    and this one only when the share is a whole number of units; so the classes together never get more than the profit. *)
Theorem C92_doubles : forall denominator profit classes, 1 <= denominator <= 2 ^ 53 -> 0 < profit -> Forall (fun k => 0 <= k_shares k) classes ->
  let total := zsum (map k_shares classes) in 0 < total <= 2 ^ 53 -> profit * total < 2 ^ 50 ->
  Forall2 (fun k d => fst d = k_rank k /\ fst (snd d) = k_shares k /\
      (snd (snd d) = profit * k_shares k / total \/ ((profit * k_shares k) mod total = 0 /\ 0 < k_shares k /\ snd (snd d) = profit * k_shares k / total - 1)))
    (filter k_dividend classes) (compute_dividend double denominator profit classes) /\
  zsum (map (fun d => snd (snd d)) (compute_dividend double denominator profit classes)) <= profit.
Proof.
  intros denominator profit classes Hd Hp F total Ht Hb. unfold compute_dividend. assert (profit <=? 0 = false) as -> by lia.
  rewrite total_shares_sum, Z.mod_small by (fold total; unfold W64; lia). fold total.
  assert (B : Forall (fun k => k_shares k <= total) classes).
  { unfold total. clear - F. induction F as [|k l H F IH]; [constructor|]. cbn [map]. rewrite zsum_cons. assert (0 <= zsum (map k_shares l)).
    { clear - F. induction F as [|k l H F IH]; [change (zsum _) with 0; lia|]. cbn [map]. rewrite zsum_cons. lia. }
    constructor; [lia|]. eapply Forall_impl; [|exact IH]. cbn beta. intros a Ha. lia. }
  assert (G : Forall2 (fun k d => fst d = k_rank k /\ fst (snd d) = k_shares k /\
      (snd (snd d) = profit * k_shares k / total \/ ((profit * k_shares k) mod total = 0 /\ 0 < k_shares k /\ snd (snd d) = profit * k_shares k / total - 1)))
    (filter k_dividend classes) (flat_map (fun k => if k_dividend k then
    [(k_rank k, (k_shares k, trunc_Z double (mul double (mul double (div double (div double (of_Z double profit) (of_Z double denominator)) (of_Z double total)) (of_Z double (k_shares k))) (of_Z double denominator))))] else []) classes)).
  { clearbody total. induction F as [|k l H F IH]; [constructor|]. cbn [flat_map filter]. inversion_clear B as [|? ? B1 B2]. specialize (IH B2). destruct (k_dividend k); [|exact IH]. cbn [app]. constructor; [|exact IH]. cbn [fst snd].
    split; [reflexivity|]. split; [reflexivity|]. assert (profit <= 2 ^ 53) by nia. apply class_amount_double; nia. }
  split; [exact G|]. apply Z.le_trans with (zsum (map (fun k => profit * k_shares k / total) (filter k_dividend classes))).
  - clear - G. induction G as [|k d l l' H G IH]; [reflexivity|]. cbn [map]. rewrite !zsum_cons. lia.
  - pose proof (floors_sum profit total classes ltac:(lia) ltac:(lia) F). fold total in H. nia.
Qed.
Print Assumptions C92_doubles.
Example C92_example :
  compute_dividend exact 100 1000 [mk_class 0 true 200; mk_class 1 false 50; mk_class 2 true 53] = [(0, (200, 660)); (2, (53, 174))] /\
  total_dividends (compute_dividend exact 100 1000 [mk_class 0 true 200; mk_class 1 false 50; mk_class 2 true 53]) = Ret 141222 /\
  compute_dividend double 100 1000 [mk_class 0 true 200; mk_class 1 false 50; mk_class 2 true 53] = [(0, (200, 660)); (2, (53, 174))] /\
  compute_dividend double 100 58 [mk_class 0 true 1; mk_class 1 true 1] = [(0, (1, 28)); (1, (1, 28))].
Proof. vm_compute. repeat split. Qed.

(** Holdings by stock: the sum of the shares that stand for it, modulo 2^64. *)
Theorem C93_holdings : forall h, (forall c l ra, In (c, l) (h_shares h) -> In ra l -> f_find stock_eqb (c, fst ra) (h_stocks h) <> None /\ 0 <= snd ra < W64) ->
  exists m, stock_holdings h = Ret m /\
    forall p, match f_find id_eqb p m with Some q => q | None => 0 end = shares_in (fun k => f_find stock_eqb k (h_stocks h)) p (h_shares h) mod W64.
Proof.
  intros h K. destruct (all_holdings_spec (h_stocks h) (h_shares h) [] K) as (m & E & H); [intros p; cbn; unfold W64; lia|]. exists m. split; [exact E|]. intros p. specialize (H p). unfold held_at in H. exact H.
Qed.
Print Assumptions C93_holdings.
(** The stock that stands for a share is the one registered for its company and its class. *)
Theorem C93_classes : forall h c rank p, NoDup (map fst (h_stocks h)) -> (f_find stock_eqb (c, rank) (h_stocks h) = Some p <-> In ((c, rank), p) (h_stocks h)).
Proof.
  intros h c rank p. induction (h_stocks h) as [|[k v] l IH]; cbn [f_find map fst In]; intros N; [split; [discriminate|intros []]|].
  inversion N as [|? ? N1 N2]; subst. specialize (IH N2). destruct (stock_eqb k (c, rank)) eqn:E.
  - assert (k = (c, rank)) as ->. { unfold stock_eqb in E. cbn [fst snd] in E. apply andb_true_iff in E. destruct E as [E1 E2]. apply id_eqb_eq in E1. apply Z.eqb_eq in E2. destruct k; cbn in *; congruence. }
    split; [intros H; left; congruence|]. intros [H|H]; [congruence|]. exfalso. apply N1. apply in_map_iff. now exists ((c, rank), p).
  - rewrite IH. split; [auto|]. intros [H|H]; [|exact H]. assert (k = (c, rank)) as -> by congruence. exfalso. unfold stock_eqb in E. cbn [fst snd] in E. rewrite Z.eqb_refl in E.
    assert (id_eqb c c = true) as X by now apply id_eqb_eq. rewrite X in E. discriminate.
Qed.
Print Assumptions C93_classes.
(** A share that no stock stands for makes the call undefined. *)
Theorem C93_unknown_refuted : forall c rank amount m dates stocks, f_find stock_eqb (c, rank) stocks = None -> stock_holdings (mk_shareholder dates ((c, [(rank, amount)]) :: m) stocks) = UB.
Proof. intros c rank amount m dates stocks F. unfold stock_holdings. cbn [h_shares h_stocks all_holdings holdings_of]. now rewrite F. Qed.
Print Assumptions C93_unknown_refuted.
Example C93_example :
  let stocks := [(([1], 0), [10]); (([1], 1), [11]); (([2], 0), [10])] in
  stock_holdings (mk_shareholder [] [([1], [(0, 5); (1, 7)]); ([2], [(0, 6)])] stocks) = Ret [([10], 11); ([11], 7)] /\ stock_holdings (mk_shareholder [] [([2], [(1, 6)])] stocks) = UB.
Proof. split; vm_compute; reflexivity. Qed.

(** A bondholder values a bond at the first price it ever saw. *)
Theorem C94_bond_refuted : forall quotes k, f_find id_eqb k (process_quotes quotes []) = first_quoted k quotes.
Proof. intros. rewrite bond_quotes. reflexivity. Qed.
Print Assumptions C94_bond_refuted.
(** A shareholder values a stock at the last price quoted - in the currency of the first. *)
Theorem C94_share : forall quotes k first last, first_quoted k quotes = Some first -> last_quoted k quotes = Some last ->
  f_find id_eqb k (extract_prices quotes []) = Some (mk_price (value last) (valuation first)).
Proof. intros quotes k f l F L. rewrite share_quotes, L, F. reflexivity. Qed.
Print Assumptions C94_share.
Example C94_example :
  let usd := mk_currency 85 83 68 100 in let eur := mk_currency 69 85 82 100 in
  let quotes := [([1], mk_price 10 usd); ([2], mk_price 3 usd); ([1], mk_price 12 eur)] in
  f_find id_eqb [1] (process_quotes quotes []) = Some (mk_price 10 usd) /\ f_find id_eqb [1] (extract_prices quotes []) = Some (mk_price 12 usd).
Proof. split; vm_compute; reflexivity. Qed.
