From Verif Require Import Base Identity Identity_proofs Communicator Inventory Inventory_spec Inventory_proofs StaticTicks Walras Walras_spec Clearing Clearing_spec Ownership Ownership_spec Ownership_proofs.
From Verif Require Walras_proofs.
From Coq Require Import ZifyBool ZifyNat.
Import Walras_proofs.

Lemma net_keys receive : forall send s l, net_all receive send = Ret (s, l) -> map fst s = map fst send /\ map fst l = map fst receive.
Proof.
  induction receive as [|[a r] receive IH]; intros send s l H; cbn [net_all] in H; [injection H as <- <-; auto|].
  destruct (p_find a send) as [x|].
  - destruct (net_items r x) as [r' x']. destruct r' as [|y r']; [discriminate|]. destruct (net_all receive (p_assign a x' send)) as [[s1 l1]| |] eqn:E; try discriminate.
    injection H as <- <-. destruct (IH _ _ _ E) as [H1 H2]. rewrite p_assign_keys in H1. cbn [map fst]. split; congruence.
  - destruct (net_all receive send) as [[s1 l1]| |] eqn:E; try discriminate. injection H as <- <-. destruct (IH _ _ _ E) as [H1 H2]. cbn [map fst]. split; congruence.
Qed.
Section C.
Context (A : arith) (usd : identity) (short_of : identity -> identity) (supply : identity -> identity -> Z * Z) (t : traded).
Context (trades : list (identity * Z)) (send receive : parties).
Hypothesis (Hu : t_id t <> usd) (Nd : NoDup (map fst trades)) (Ns : no_shorts supply (t_id t) trades).
Hypothesis Hcl : clear A usd short_of supply [(t, trades)] = Ret (send, receive).

Lemma clear_keys : NoDup (map fst send) /\ NoDup (map fst receive).
Proof.
  unfold clear in Hcl. destruct (settle_all_good A usd short_of supply [(t, trades)]) as [[G1 _] [G2 _]]. destruct (settle_all A usd short_of supply [(t, trades)]) as [s r]. cbn [fst snd] in *.
  destruct (net_keys _ _ _ _ Hcl) as [-> ->]. auto.
Qed.
Lemma clear_find a : 
  (~ In a (map fst trades) -> p_find a send = None /\ p_find a receive = None) /\
  forall v, In (a, v) trades ->
    p_find a send = (if v >? 0 then Some [(t_id t, v)] else if v <? 0 then Some [(usd, - cost A t v)] else None) /\
    p_find a receive = (if v >? 0 then Some [(usd, cost A t v)] else if v <? 0 then Some [(t_id t, - v)] else None).
Proof.
  unfold clear in Hcl. destruct (settle_all A usd short_of supply [(t, trades)]) as [s r] eqn:E. unfold settle_all in E. cbn [fold_left fst snd] in E.
  pose proof (settle_list_good A usd short_of supply t trades ([], []) good_nil good_nil) as [_ [Nr _]]. rewrite E in Nr. cbn [fst snd] in Nr.
  pose proof (net_all_view _ _ _ _ Nr Hcl a) as W. split.
  - intros Ha. pose proof (settle_list_other A usd short_of supply t trades ([], []) a Ha) as V. rewrite E in V. unfold view in V. cbn [fst snd p_find] in V. injection V as V1 V2. rewrite V1, V2 in W. tauto.
  - intros v Ha. pose proof (settle_list_own A usd short_of supply t trades ([], []) a v Nd Ha) as V. rewrite E in V. unfold view, own in V. cbn [fst snd p_find] in V.
    destruct (Ns a v Ha) as [N1 N2]. destruct (supply a (t_id t)) as [long short]. cbn [fst snd] in N1, N2. subst short. change (0 >? 0) with false in V. cbv iota zeta in V.
    assert (K1 : id_eqb (t_id t) usd = false) by (now apply eqb_neq). assert (K2 : id_eqb usd (t_id t) = false) by (apply eqb_neq; congruence). unfold cost.
    destruct (Z.eqb_spec v 0) as [->|V0].
    { injection V as V1 V2. rewrite V1, V2 in W. cbn. tauto. }
    destruct (Z.gtb_spec v 0) as [Vp|Vn].
    + rewrite Z.sub_0_r in V. destruct (Z.gtb_spec v 0); [|lia]. cbn [opt] in V. unfold inv_insert, h_insert in V. cbn [h_find app] in V. injection V as V1 V2. rewrite V1, V2 in W.
      cbn [net_items h_find] in W. rewrite K1 in W. assert (X : forall q : Z, (if q =? 0 then (q, [(t_id t, v)]) else (q, [(t_id t, v)])) = (q, [(t_id t, v)])) by (intros q; destruct (q =? 0); reflexivity).
      rewrite X in W. cbn [fst snd] in W. tauto.
    + destruct (Z.ltb_spec v 0); [|lia]. destruct (Z.gtb_spec long 0); [|lia]. replace (Z.min (- v) long) with (- v) in V by lia. destruct (Z.ltb_spec (v + - v) 0); [lia|].
      cbn [opt] in V. unfold inv_insert, h_insert in V. cbn [h_find app] in V. injection V as V1 V2. rewrite V1, V2 in W.
      cbn [net_items h_find] in W. rewrite K2 in W. assert (X : forall q x : Z, (if q =? 0 then (q, [(usd, x)]) else (q, [(usd, x)])) = (q, [(usd, x)])) by (intros q x; destruct (q =? 0); reflexivity).
      rewrite X in W. cbn [fst snd] in W. rewrite Z.opp_involutive. tauto.
Qed.
End C.
Lemma filter_key (m : parties) a : NoDup (map fst m) -> filter (fun x => id_eqb (fst x) a) m = match p_find a m with Some h => [(a, h)] | None => [] end.
Proof.
  induction m as [|[k h] m IH]; intros N; [reflexivity|]. cbn [map fst] in N. apply NoDup_cons_iff in N. destruct N as [N1 N2]. cbn [filter fst p_find].
  destruct (id_eqb k a) eqn:E; [|exact (IH N2)]. apply id_eqb_eq in E. subst k. rewrite (IH N2). apply p_find_none in N1. rewrite N1. reflexivity.
Qed.
Lemma received_spec market send receive a : NoDup (map fst send) -> NoDup (map fst receive) ->
  received a (market_transfers market send receive) =
  match p_find a send with Some h => [mk_transfer market a h] | None => [] end ++ match p_find a receive with Some h => [mk_transfer a market h] | None => [] end.
Proof.
  intros N1 N2. unfold received, market_transfers. rewrite filter_app, map_app. f_equal.
  - rewrite Communicator_proofs.filter_map_swap. cbn [fst]. rewrite filter_key by exact N1. destruct (p_find a send); reflexivity.
  - rewrite Communicator_proofs.filter_map_swap. cbn [fst]. rewrite filter_key by exact N2. destruct (p_find a receive); reflexivity.
Qed.
Lemma valid_one k x : u64 x -> valid [(k, x)].
Proof. intros H. split; [constructor; [intros []|constructor]|constructor; [exact H|constructor]]. Qed.
Lemma held_one k x i : held [(k, x)] i = if id_eqb k i then x else 0.
Proof. unfold held. cbn. destruct (id_eqb k i); reflexivity. Qed.
Lemma gets self other k x inventory : other <> self -> valid inventory -> u64 x -> held inventory k + x < 2 ^ 64 ->
  exists after, process_transfer self (mk_transfer other self [(k, x)]) inventory = Some after /\ valid after /\ forall i, held after i = held inventory i + (if id_eqb i k then x else 0).
Proof.
  intros N V U B. unfold process_transfer. cbn [transferor transferee transferred]. rewrite (eqb_neq other self) by exact N. rewrite (eqb_neq self other) by congruence. rewrite eqb_refl.
  destruct (insert_into_held [(k, x)] inventory V (valid_one k x U)) as [V' H]. eexists. split; [reflexivity|]. split; [exact V'|]. intros i. rewrite H, held_one, (IdMap_proofs.id_eqb_sym k i).
  destruct (id_eqb i k) eqn:E; [|rewrite Z.add_0_r; apply w64_id; now apply held_bound]. apply id_eqb_eq in E. subst i. apply w64_id. pose proof (held_bound inventory k V). unfold u64, W64 in *. lia.
Qed.
Lemma gives self other k x inventory : other <> self -> valid inventory -> u64 x -> x <= held inventory k ->
  exists after, process_transfer self (mk_transfer self other [(k, x)]) inventory = Some after /\ valid after /\ forall i, held after i = held inventory i - (if id_eqb i k then x else 0).
Proof.
  intros N V U B. unfold process_transfer. cbn [transferor transferee transferred]. rewrite (eqb_neq self other) by congruence. rewrite eqb_refl.
  destruct (erase_from_held [(k, x)] inventory V (valid_one k x U)) as (V' & S & F). destruct (erase_from [(k, x)] inventory) as [m b]. cbn [fst snd] in *. destruct b.
  - exfalso. apply (F eq_refl). intros i. rewrite held_one. destruct (id_eqb k i) eqn:E; [apply id_eqb_eq in E; subst i; exact B|]. pose proof (held_bound inventory i V) as W. unfold u64 in W. apply W.
  - destruct (S eq_refl) as [_ S']. exists m. split; [reflexivity|]. split; [exact V'|]. intros i. rewrite S', held_one, (IdMap_proofs.id_eqb_sym k i). reflexivity.
Qed.
Lemma exchange self other k x l y inventory order : other <> self -> valid inventory -> u64 x -> u64 y -> k <> l -> held inventory k + x < 2 ^ 64 -> y <= held inventory l ->
  Permutation order [mk_transfer other self [(k, x)]; mk_transfer self other [(l, y)]] ->
  exists after, process_all self order inventory = Some after /\ valid after /\ forall i, held after i = held inventory i + (if id_eqb i k then x else if id_eqb i l then - y else 0).
Proof.
  intros N V Ux Uy Nk Bx By P. assert (K : id_eqb l k = false) by (apply eqb_neq; congruence). assert (K' : id_eqb k l = false) by (now apply eqb_neq).
  apply Permutation_sym in P. apply Permutation_length_2_inv in P. destruct P as [-> | ->]; cbn [process_all].
  - destruct (gets self other k x inventory N V Ux Bx) as (m1 & -> & V1 & H1). destruct (gives self other l y m1 N V1 Uy) as (m2 & -> & V2 & H2); [rewrite H1, K; lia|].
    exists m2. split; [reflexivity|]. split; [exact V2|]. intros i. rewrite H2, H1. destruct (id_eqb i k) eqn:E; [apply id_eqb_eq in E; subst i; rewrite K'; lia|]. destruct (id_eqb i l); lia.
  - destruct (gives self other l y inventory N V Uy By) as (m1 & -> & V1 & H1). destruct (gets self other k x m1 N V1 Ux) as (m2 & -> & V2 & H2); [rewrite H1, K'; lia|].
    exists m2. split; [reflexivity|]. split; [exact V2|]. intros i. rewrite H2, H1. destruct (id_eqb i k) eqn:E; [apply id_eqb_eq in E; subst i; rewrite K'; lia|]. destruct (id_eqb i l); lia.
Qed.
Lemma sum_indicator (trades : list (identity * Z)) k x : NoDup (map fst trades) -> In k (map fst trades) -> zsum (map (fun tr => if id_eqb k (fst tr) then x else 0) trades) = x.
Proof.
  induction trades as [|[a v] l IH]; intros N H; [destruct H|]. cbn [map fst] in *. apply NoDup_cons_iff in N. destruct N as [N1 N2]. rewrite zsum_cons. destruct (id_eqb k a) eqn:E.
  - apply id_eqb_eq in E. subst a. assert (G : zsum (map (fun tr => if id_eqb k (fst tr) then x else 0) l) = 0); [|lia].
    clear - N1. induction l as [|[b w] l IH]; [reflexivity|]. cbn [map fst In] in *. rewrite zsum_cons, IH by tauto. rewrite eqb_neq by (intros ->; apply N1; now left). reflexivity.
  - destruct H as [->|H]; [rewrite eqb_refl in E; discriminate|]. rewrite IH by assumption. lia.
Qed.
Lemma sum_parties (m : parties) (trades : list (identity * Z)) p : NoDup (map fst m) -> NoDup (map fst trades) -> (forall a, In a (map fst m) -> In a (map fst trades)) ->
  zsum (map (fun x => held (snd x) p) m) = zsum (map (fun tr => listed m (fst tr) p) trades).
Proof.
  intros Nm Nt. induction m as [|[k h] m IH]; intros S.
  - clear. induction trades as [|tr l IHl]; [reflexivity|]. cbn [map] in *. rewrite zsum_cons, <- IHl. reflexivity.
  - cbn [map snd fst] in *. apply NoDup_cons_iff in Nm. destruct Nm as [N1 N2]. rewrite zsum_cons, IH by first [exact N2|intros b Hb; apply S; now right].
    rewrite <- (sum_indicator trades k (held h p) Nt) at 1 by (apply S; now left). rewrite <- zsum_plus. f_equal. apply map_ext. intros tr. unfold listed. cbn [p_find].
    destruct (id_eqb k (fst tr)) eqn:E; [|lia]. apply id_eqb_eq in E. rewrite <- E. apply p_find_none in N1. rewrite N1. lia.
Qed.
Lemma transit_carry content p ms l : carry content ms l ->
  in_transit (transfer_effect content p) ms = zsum (map (fun x => if id_eqb (transferor (snd x)) (transferee (snd x)) then 0 else if id_eqb (fst x) (transferor (snd x)) then - held (transferred (snd x)) p
    else if id_eqb (fst x) (transferee (snd x)) then held (transferred (snd x)) p else 0) l).
Proof.
  intros H. induction H as [|m x ms l (H1 & H2 & H3) H IH]; [reflexivity|]. rewrite in_transit_cons. cbn [map]. rewrite zsum_cons, IH. f_equal. unfold transfer_effect, is_transfer. rewrite H1, H2, H3, Z.eqb_refl. reflexivity.
Qed.
Lemma keys_sub (m : parties) a : In a (map fst m) -> p_find a m <> None.
Proof. intros H E. now apply p_find_none in E. Qed.
Lemma clearing_effects A usd short_of supply t trades send receive market content ms p :
  t_id t <> usd -> NoDup (map fst trades) -> no_shorts supply (t_id t) trades -> clear A usd short_of supply [(t, trades)] = Ret (send, receive) ->
  ~ In market (map fst trades) -> carry content ms (market_transfers market send receive) ->
  in_transit (transfer_effect content p) ms = if id_eqb p (t_id t) then total trades else if id_eqb p usd then - zsum (map (fun x => cost A t (snd x)) trades) else 0.
Proof.
  intros Hu Nd Ns Hcl Hm C. destruct (clear_keys A usd short_of supply t trades send receive Hcl) as [K1 K2].
  assert (F := clear_find A usd short_of supply t trades send receive Hu Nd Ns Hcl).
  assert (S1 : forall a, In a (map fst send) -> In a (map fst trades)).
  { intros a Ha. destruct (in_dec (list_eq_dec Z.eq_dec) a (map fst trades)) as [|N]; [assumption|]. exfalso. apply (keys_sub send a Ha). now apply F. }
  assert (S2 : forall a, In a (map fst receive) -> In a (map fst trades)).
  { intros a Ha. destruct (in_dec (list_eq_dec Z.eq_dec) a (map fst trades)) as [|N]; [assumption|]. exfalso. apply (keys_sub receive a Ha). now apply F. }
  rewrite (transit_carry content p ms _ C). unfold market_transfers. rewrite map_app, zsum_app, !map_map. cbn [fst snd transferor transferee transferred].
  assert (E1 : zsum (map (fun x : identity * holdings => if id_eqb market (fst x) then 0 else if id_eqb (fst x) market then - held (snd x) p else if id_eqb (fst x) (fst x) then held (snd x) p else 0) send) = zsum (map (fun x => held (snd x) p) send)).
  { f_equal. apply map_ext_in. intros [a h] Ha. cbn [fst snd]. assert (a <> market) by (intros ->; apply Hm, S1; apply in_map_iff; now exists (market, h)). rewrite !eqb_neq by congruence. now rewrite eqb_refl. }
  assert (E2 : zsum (map (fun x : identity * holdings => if id_eqb (fst x) market then 0 else if id_eqb (fst x) (fst x) then - held (snd x) p else if id_eqb (fst x) market then held (snd x) p else 0) receive) = - zsum (map (fun x => held (snd x) p) receive)).
  { assert (G : forall l : parties, (forall a, In a (map fst l) -> a <> market) -> zsum (map (fun x : identity * holdings => if id_eqb (fst x) market then 0 else if id_eqb (fst x) (fst x) then - held (snd x) p else if id_eqb (fst x) market then held (snd x) p else 0) l) = - zsum (map (fun x => held (snd x) p) l)).
    { induction l as [|[a h] l IH]; intros H; [reflexivity|]. cbn [map fst snd] in *. rewrite !zsum_cons, IH by (intros; apply H; now right). rewrite eqb_neq by (apply H; now left). rewrite eqb_refl. lia. }
    apply G. intros a Ha ->. apply Hm. auto. }
  rewrite E1, E2. rewrite (sum_parties send trades p K1 Nd S1), (sum_parties receive trades p K2 Nd S2).
  assert (X : forall a v, In (a, v) trades -> listed send a p - listed receive a p = if id_eqb p (t_id t) then v else if id_eqb p usd then - cost A t v else 0).
  { intros a v Ha. unfold listed. destruct (proj2 (F a) v Ha) as [-> ->]. assert (Ku : id_eqb usd (t_id t) = false) by (apply eqb_neq; congruence).
    destruct (Z.gtb_spec v 0); [|destruct (Z.ltb_spec v 0)].
    - rewrite !held_one, (IdMap_proofs.id_eqb_sym (t_id t) p), (IdMap_proofs.id_eqb_sym usd p). destruct (id_eqb p (t_id t)) eqn:E; [apply id_eqb_eq in E; subst p; rewrite IdMap_proofs.id_eqb_sym, Ku; lia|]. destruct (id_eqb p usd); lia.
    - rewrite !held_one, (IdMap_proofs.id_eqb_sym (t_id t) p), (IdMap_proofs.id_eqb_sym usd p). destruct (id_eqb p (t_id t)) eqn:E; [apply id_eqb_eq in E; subst p; rewrite IdMap_proofs.id_eqb_sym, Ku; lia|]. destruct (id_eqb p usd); lia.
    - assert (v = 0) by lia. subst v. change (cost A t 0) with 0. destruct (id_eqb p (t_id t)), (id_eqb p usd); reflexivity. }
  clear - X. unfold total. transitivity (zsum (map (fun x => if id_eqb p (t_id t) then snd x else if id_eqb p usd then - cost A t (snd x) else 0) trades)).
  - induction trades as [|[a v] l IH]; [reflexivity|]. cbn [map fst snd]. rewrite !zsum_cons. specialize (X a v (or_introl eq_refl)) as X1. specialize (IH (fun b w H => X b w (or_intror H))). lia.
  - clear. induction trades as [|[a v] l IH]; [destruct (id_eqb p (t_id t)), (id_eqb p usd); reflexivity|]. cbn [map fst snd]. rewrite !zsum_cons, IH. destruct (id_eqb p (t_id t)), (id_eqb p usd); lia.
Qed.
