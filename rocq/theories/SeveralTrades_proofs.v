(** Proofs for C201. *)
From Coq Require Import ZifyBool ZifyNat.
From Verif Require Import Base Identity Identity_proofs IdMap_proofs Quantity Inventory Inventory_spec Inventory_proofs StaticTicks Walras Walras_spec Walras_proofs Clearing Clearing_spec Clearing_proofs SeveralTrades_spec.

Lemma zsum_app a b : zsum (a ++ b) = zsum a + zsum b.
Proof. unfold zsum. induction a as [|x a IH]; cbn; lia. Qed.
Section S.
Context (A : arith) (usd : identity) (short_of : identity -> identity) (supply : identity -> identity -> Z * Z).
Local Notation own' := (own A usd short_of supply).
Definition own_all (a : identity) (ts : list (traded * Z)) (st : option holdings * option holdings) : option holdings * option holdings :=
  fold_left (fun st tv => own' (fst tv) a st (snd tv)) ts st.
Lemma own_zero t a st : own' t a st 0 = st.
Proof. unfold own. destruct st as [s r]. destruct (supply a (t_id t)). reflexivity. Qed.
Lemma list_view t a trades : forall st,
  view a (fold_left (settle A usd short_of supply t) trades st) =
  own_all a (map (fun x => (t, snd x)) (filter (fun x => id_eqb (fst x) a && negb (snd x =? 0)) trades)) (view a st).
Proof.
  induction trades as [|[b v] trades IH]; intros st; [reflexivity|]. cbn [fold_left filter fst snd]. rewrite IH. destruct (id_eqb b a) eqn:E; cbn [andb].
  - apply id_eqb_eq in E. subst b. destruct (Z.eqb_spec v 0) as [->|N]; cbn [negb map].
    + rewrite settle_own, own_zero. reflexivity.
    + rewrite settle_own. reflexivity.
  - rewrite settle_other by exact E. reflexivity.
Qed.
Lemma own_all_app a ts ts' st : own_all a (ts ++ ts') st = own_all a ts' (own_all a ts st).
Proof. apply fold_left_app. Qed.
Lemma all_view a l : view a (settle_all A usd short_of supply l) = own_all a (trades_of a l) (None, None).
Proof.
  unfold settle_all. change (None, None) with (view a (([], []) : parties * parties)). generalize (([], []) : parties * parties).
  induction l as [|[t trades] l IH]; intros st; [reflexivity|]. cbn [fold_left fst snd]. rewrite IH, list_view. unfold trades_of at 2. cbn [flat_map fst snd].
  rewrite own_all_app. reflexivity.
Qed.
Definition netted (st : option holdings * option holdings) : option holdings * option holdings :=
  match snd st, fst st with
  | Some r, Some x => (Some (snd (net_items r x)), Some (fst (net_items r x)))
  | _, _ => st
  end.
Lemma clear_view l send receive a : clear A usd short_of supply l = Ret (send, receive) ->
  (p_find a send, p_find a receive) = netted (own_all a (trades_of a l) (None, None)).
Proof.
  intros H. unfold clear in H. destruct (settle_all_good A usd short_of supply l) as [_ [G _]]. pose proof (all_view a l) as V.
  destruct (settle_all A usd short_of supply l) as [s r]. cbn [snd] in G. unfold view in V. cbn [fst snd] in V. rewrite <- V. clear V.
  pose proof (net_all_view _ _ _ _ G H a) as W. unfold netted. cbn [fst snd]. destruct (p_find a r), (p_find a s); destruct W as [-> ->]; reflexivity.
Qed.
Lemma clear_nodup l send receive : clear A usd short_of supply l = Ret (send, receive) -> NoDup (map fst send) /\ NoDup (map fst receive).
Proof.
  intros H. unfold clear in H. destruct (settle_all_good A usd short_of supply l) as [[G1 _] [G2 _]]. destruct (settle_all A usd short_of supply l) as [s r]. cbn [fst snd] in *.
  destruct (net_keys _ _ _ _ H) as [-> ->]. auto.
Qed.
(** ** Sellers *)
Definition sold (ts : list (traded * Z)) : holdings := map (fun x => (t_id (fst x), - snd x)) ts.
Definition proceeds (ts : list (traded * Z)) : Z := zsum (map (fun x => cash A (- snd x) (t_price (fst x)) (t_lot (fst x))) ts).
Lemma find_sold k ts : ~ In k (map (fun x => t_id (fst x)) ts) -> h_find k (sold ts) = None.
Proof.
  induction ts as [|[t v] ts IH]; cbn; [reflexivity|]. intros H. rewrite eqb_neq by tauto. apply IH. tauto.
Qed.
Lemma own_sells a ts : NoDup (map (fun x => t_id (fst x)) ts) -> Forall (fun x => snd x < 0) ts -> covered supply a ts ->
  Forall (fun x => 0 <= cash A (- snd x) (t_price (fst x)) (t_lot (fst x))) ts -> proceeds ts < 2 ^ 64 -> ts <> [] ->
  own_all a ts (None, None) = (Some [(usd, proceeds ts)], Some (sold ts)).
Proof.
  induction ts as [|[t v] ts IH] using rev_ind; intros N F C P B Ne; [congruence|]. clear Ne.
  rewrite map_app in N. cbn [map fst] in N. pose proof (NoDup_remove_1 _ _ _ N) as N1. pose proof (NoDup_remove_2 _ _ _ N) as N2. rewrite app_nil_r in N1, N2.
  apply Forall_app in F, C, P. destruct F as [F Fv], C as [C Cv], P as [P Pv]. inversion_clear Fv as [|? ? Hv _]. inversion_clear Cv as [|? ? [C1 C2] _]. inversion_clear Pv as [|? ? Pp _]. cbn [fst snd] in *.
  assert (Pr : proceeds (ts ++ [(t, v)]) = proceeds ts + cash A (- v) (t_price t) (t_lot t)).
  { unfold proceeds. rewrite map_app, zsum_app. cbn [map fst snd zsum fold_right]. unfold zsum. cbn [fold_right]. lia. }
  assert (P0 : 0 <= proceeds ts).
  { clear - P. unfold proceeds. induction P; [cbn; lia|]. cbn [map]. rewrite zsum_cons. lia. }
  rewrite own_all_app. destruct ts as [|x ts].
  - cbn [own_all fold_left app fst snd]. unfold own. destruct (supply a (t_id t)) as [long short]. cbn [fst snd] in C1, C2. subst short.
    destruct (Z.eqb_spec v 0); [lia|]. destruct (Z.gtb_spec v 0); [lia|]. destruct (Z.gtb_spec long 0); [|lia]. replace (Z.min (- v) long) with (- v) by lia.
    destruct (Z.ltb_spec (v + - v) 0); [lia|]. cbn [opt]. unfold inv_insert. cbn [h_find]. unfold h_insert. cbn [h_find app]. unfold proceeds. cbn [map fst snd zsum fold_right]. unfold zsum. cbn [fold_right]. rewrite Z.add_0_r. reflexivity.
  - rewrite IH by (auto; first [lia|discriminate]). cbn [own_all fold_left fst snd]. unfold own. destruct (supply a (t_id t)) as [long short]. cbn [fst snd] in C1, C2. subst short.
    destruct (Z.eqb_spec v 0); [lia|]. destruct (Z.gtb_spec v 0); [lia|]. destruct (Z.gtb_spec long 0); [|lia]. replace (Z.min (- v) long) with (- v) by lia.
    destruct (Z.ltb_spec (v + - v) 0); [lia|]. cbn [opt]. f_equal.
    + unfold inv_insert. cbn [h_find]. rewrite eqb_refl. cbn [h_assign]. rewrite eqb_refl. unfold q_add. rewrite w64_id by (unfold u64, W64; lia). rewrite Pr. reflexivity.
    + unfold inv_insert. rewrite find_sold by exact N2. unfold h_insert. rewrite find_sold by exact N2. unfold sold. rewrite map_app. reflexivity.
Qed.
Lemma net_apart r : forall k x, ~ In k (map fst r) -> net_items r [(k, x)] = (r, [(k, x)]).
Proof.
  induction r as [|[j v] r IH]; intros k x H; [reflexivity|]. cbn [net_items h_find]. cbn [map fst In] in H. rewrite eqb_neq by (intros ->; tauto).
  cbv beta iota zeta. destruct (v =? 0); rewrite IH by tauto; reflexivity.
Qed.
Lemma held_sold ts k : NoDup (map (fun x => t_id (fst x)) ts) -> held (sold ts) k = - bought ts k.
Proof.
  induction ts as [|[t v] ts IH]; intros N; [reflexivity|]. cbn [map fst] in N. inversion_clear N. unfold bought. cbn [sold map fst snd]. fold (sold ts). rewrite zsum_cons. unfold sold at 1. cbn [map fst snd]. fold (sold ts). rewrite held_cons.
  destruct (id_eqb (t_id t) k) eqn:E; [|rewrite IH by assumption; unfold bought; lia]. apply id_eqb_eq in E. subst k.
  assert (Z0 : zsum (map (fun x => if id_eqb (t_id (fst x)) (t_id t) then snd x else 0) ts) = 0); [|lia].
  clear - H. induction ts as [|[t' v'] ts IH]; [reflexivity|]. cbn [map fst snd In] in *. rewrite zsum_cons, IH by tauto. rewrite eqb_neq by tauto. reflexivity.
Qed.
Lemma sold_valid ts : NoDup (map (fun x => t_id (fst x)) ts) -> Forall (fun x => snd x < 0) ts -> Forall (fun x => Z.abs (snd x) < 2 ^ 64) ts -> valid (sold ts).
Proof.
  intros N F B. split; [unfold sold; rewrite map_map; exact N|]. unfold sold. rewrite Forall_map. rewrite Forall_forall in *. intros x Hx. specialize (F x Hx). specialize (B x Hx). cbn [snd]. unfold u64, W64. lia.
Qed.
Lemma costs_proceeds ts : Forall (fun x => snd x < 0) ts -> all_costs A ts = - proceeds ts.
Proof.
  unfold all_costs, proceeds. induction 1 as [|[t v] ts H F IH]; [reflexivity|]. cbn [map fst snd]. rewrite !zsum_cons, IH. unfold cost. cbn [snd] in H.
  destruct (Z.gtb_spec v 0); [lia|]. destruct (Z.ltb_spec v 0); lia.
Qed.
Lemma gives_many self other items inventory : other <> self -> valid inventory -> valid items -> covers inventory items ->
  exists after, process_transfer self (mk_transfer self other items) inventory = Some after /\ valid after /\ forall i, held after i = held inventory i - held items i.
Proof.
  intros N V U B. unfold process_transfer. cbn [transferor transferee transferred]. rewrite (eqb_neq self other) by congruence. rewrite eqb_refl.
  destruct (erase_from_held items inventory V U) as (V' & S & F). destruct (erase_from items inventory) as [m b]. cbn [fst snd] in *. destruct b.
  - exfalso. exact (F eq_refl B).
  - exists m. split; [reflexivity|]. split; [exact V'|]. apply S. reflexivity.
Qed.
Lemma bought_absent ts k : ~ In k (map (fun x => t_id (fst x)) ts) -> bought ts k = 0.
Proof.
  unfold bought. induction ts as [|[t v] ts IH]; intros H; [reflexivity|]. cbn [map fst snd In] in *. rewrite zsum_cons, IH by tauto. rewrite eqb_neq by tauto. reflexivity.
Qed.
Lemma bought_bounds ts k : Forall (fun x => snd x < 0) ts -> bought ts k <= 0.
Proof. unfold bought. induction 1 as [|[t v] ts H F IH]; [cbn; lia|]. cbn [map fst snd] in *. rewrite zsum_cons. destruct (id_eqb (t_id t) k); lia. Qed.
Lemma seller_settled market a ts inventory order : market <> a -> ~ In usd (map (fun x => t_id (fst x)) ts) -> NoDup (map (fun x => t_id (fst x)) ts) ->
  Forall (fun x => snd x < 0) ts -> affordable A usd ts inventory -> valid inventory ->
  Permutation order [mk_transfer market a [(usd, proceeds ts)]; mk_transfer a market (sold ts)] ->
  exists after, process_all a order inventory = Some after /\ valid after /\ settled A usd ts inventory after.
Proof.
  intros N Hu Nd F (P0 & B1 & B2 & B3 & B4) V P. pose proof (costs_proceeds ts F) as Ec. rewrite Ec in B3, B4.
  assert (Pp : 0 <= proceeds ts).
  { clear - P0 F. unfold proceeds. induction P0 as [|[t v] ts H P IH]; [cbn; lia|]. inversion_clear F. cbn [map fst snd] in *. rewrite zsum_cons. rewrite Z.abs_neq in H by lia. specialize (IH H1). lia. }
  assert (U : u64 (proceeds ts)) by (unfold u64, W64; lia).
  pose proof (sold_valid ts Nd F B2) as Vs.
  assert (Hs : held (sold ts) usd = 0) by (rewrite held_sold by exact Nd; rewrite bought_absent by exact Hu; reflexivity).
  apply Permutation_sym in P. apply Permutation_length_2_inv in P. destruct P as [-> | ->]; cbn [process_all].
  - destruct (gets a market usd (proceeds ts) inventory N V U) as (m1 & E1 & V1 & H1); [lia|]. rewrite E1.
    destruct (gives_many a market (sold ts) m1 N V1 Vs) as (m2 & E2 & V2 & H2).
    { intros i. rewrite H1, held_sold by exact Nd. specialize (B1 i). destruct (id_eqb i usd); lia. }
    rewrite E2. exists m2. split; [reflexivity|]. split; [exact V2|]. intros k. rewrite H2, H1, held_sold by exact Nd. destruct (id_eqb k usd) eqn:E; [|lia].
    apply id_eqb_eq in E. subst k. rewrite bought_absent by exact Hu. lia.
  - destruct (gives_many a market (sold ts) inventory N V Vs) as (m1 & E1 & V1 & H1).
    { intros i. rewrite held_sold by exact Nd. specialize (B1 i). lia. }
    rewrite E1. destruct (gets a market usd (proceeds ts) m1 N V1 U) as (m2 & E2 & V2 & H2); [rewrite H1, Hs; lia|].
    rewrite E2. exists m2. split; [reflexivity|]. split; [exact V2|]. intros k. rewrite H2, H1, held_sold by exact Nd. destruct (id_eqb k usd) eqn:E; [|lia].
    apply id_eqb_eq in E. subst k. rewrite bought_absent by exact Hu. lia.
Qed.
(** ** One purchase *)
Lemma own_buys a t v : 0 < v -> snd (supply a (t_id t)) = 0 -> own_all a [(t, v)] (None, None) = (Some [(t_id t, v)], Some [(usd, cash A v (t_price t) (t_lot t))]).
Proof.
  intros Hv C. cbn [own_all fold_left fst snd]. unfold own. destruct (supply a (t_id t)) as [long short]. cbn [snd] in C. subst short.
  destruct (Z.eqb_spec v 0); [lia|]. destruct (Z.gtb_spec v 0); [|lia]. change (0 >? 0) with false. cbv iota zeta. rewrite Z.sub_0_r. destruct (Z.gtb_spec v 0); [|lia].
  cbn [opt]. unfold inv_insert, h_insert. cbn [h_find app]. reflexivity.
Qed.
Lemma simple_settled l send receive market a inventory order :
  clear A usd short_of supply l = Ret (send, receive) -> market <> a ->
  let ts := trades_of a l in
  NoDup (usd :: map (fun x => t_id (fst x)) ts) -> covered supply a ts -> simple ts -> affordable A usd ts inventory -> valid inventory ->
  Permutation order (received a (market_transfers market send receive)) ->
  exists after, process_all a order inventory = Some after /\ valid after /\ settled A usd ts inventory after.
Proof.
  intros Hcl N ts Nd C Si Af V P. destruct (clear_nodup _ _ _ Hcl) as [K1 K2]. rewrite received_spec in P by assumption.
  pose proof (clear_view _ _ _ a Hcl) as W. fold ts in W. inversion_clear Nd as [|? ? Hu Nd'].
  assert (Nz : Forall (fun x => snd x <> 0) ts).
  { unfold ts, trades_of. apply Forall_forall. intros x Hx. apply in_flat_map in Hx. destruct Hx as (y & _ & Hx). apply in_map_iff in Hx. destruct Hx as (z & <- & Hz). apply filter_In in Hz. cbn [snd]. lia. }
  clearbody ts. 
  assert (Sells : Forall (fun x => snd x < 0) ts -> ts <> [] -> exists after, process_all a order inventory = Some after /\ valid after /\ settled A usd ts inventory after).
  { intros F Ne. apply (seller_settled market a ts inventory order N Hu Nd' F Af V). pose proof Af as (P0 & B1 & B2 & B3 & B4).
    rewrite (own_sells a ts Nd' F C) in W; [|rewrite Forall_forall in *; intros x Hx; specialize (P0 x Hx); specialize (F x Hx); rewrite Z.abs_neq in P0 by lia; exact P0|rewrite (costs_proceeds ts F) in B3; lia|exact Ne].
    unfold netted in W. cbn [fst snd] in W. rewrite net_apart in W by (unfold sold; rewrite map_map; exact Hu). cbn [fst snd] in W. injection W as W1 W2. rewrite W1, W2 in P. exact P. }
  destruct ts as [|[t v] ts].
  - cbn in W. injection W as W1 W2. rewrite W1, W2 in P. cbn in P. apply Permutation_sym, Permutation_nil in P. subst order. exists inventory. split; [reflexivity|]. split; [exact V|].
    intros k. unfold all_costs, bought, zsum. cbn. destruct (id_eqb k usd); lia.
  - destruct (Z.lt_ge_cases v 0) as [Hv|Hv].
    + apply Sells; [|discriminate]. destruct Si as [L|F]; [|exact F]. destruct ts; [|cbn in L; lia]. constructor; [exact Hv|constructor].
    + inversion_clear Nz as [|? ? Hz _]. cbn [snd] in Hz. destruct Si as [L|F]; [|inversion_clear F; cbn [snd] in *; lia]. destruct ts; [|cbn in L; lia].
      inversion_clear C as [|? ? [C1 C2] _]. cbn [fst snd] in C1, C2. rewrite own_buys in W by (try assumption; lia).
      cbn [map fst In] in Hu. unfold netted in W. cbn [fst snd] in W. rewrite net_apart in W by (cbn [map fst In]; intros [X|[]]; apply Hu; left; congruence). cbn [fst snd] in W. injection W as W1 W2. rewrite W1, W2 in P. cbn [app] in P.
      destruct Af as (P0 & B1 & B2 & B3 & B4). inversion_clear P0 as [|? ? P1 _]. inversion_clear B2 as [|? ? B5 _]. cbn [fst snd] in *. rewrite Z.abs_eq in P1, B5 by lia.
      assert (Ec : all_costs A [(t, v)] = cash A v (t_price t) (t_lot t)).
      { unfold all_costs, zsum, cost. cbn [map fst snd fold_right]. destruct (Z.gtb_spec v 0); lia. }
      assert (Eb : forall k, bought [(t, v)] k = if id_eqb (t_id t) k then v else 0) by (intros k; unfold bought, zsum; cbn [map fst snd fold_right]; lia).
      rewrite Ec in B3, B4. pose proof (B1 (t_id t)) as B6. rewrite Eb, eqb_refl in B6.
      destruct (exchange a market (t_id t) v usd (cash A v (t_price t) (t_lot t)) inventory order) as (after & E & Va & H'); try assumption; try (unfold u64, W64); try lia; try (intros X; apply Hu; left; exact X).
      exists after. split; [exact E|]. split; [exact Va|]. intros k. rewrite H', Ec, Eb, (id_eqb_sym (t_id t) k). destruct (id_eqb k (t_id t)) eqn:Ek.
      * apply id_eqb_eq in Ek. subst k. rewrite eqb_neq by (intros X; apply Hu; left; exact X). reflexivity.
      * destruct (id_eqb k usd); lia.
Qed.
End S.

(** ** All participants together *)
Definition weight (g : traded -> Z -> Z) (ts : list (traded * Z)) : Z := zsum (map (fun x => g (fst x) (snd x)) ts).
Lemma zsum_map_add {X} (f g : X -> Z) l : zsum (map (fun x => f x + g x) l) = zsum (map f l) + zsum (map g l).
Proof. induction l as [|x l IH]; [reflexivity|]. cbn [map]. rewrite !zsum_cons, IH. lia. Qed.
Lemma zsum_map_zero {X} (f : X -> Z) l : (forall x, In x l -> f x = 0) -> zsum (map f l) = 0.
Proof. induction l as [|x l IH]; intros H; [reflexivity|]. cbn [map]. rewrite zsum_cons, IH by (intros; apply H; now right). rewrite H by now left. reflexivity. Qed.
Lemma once (ps : list identity) b x : NoDup ps -> In b ps -> zsum (map (fun a => if id_eqb b a then x else 0) ps) = x.
Proof.
  induction ps as [|c ps IH]; intros N H; [destruct H|]. inversion_clear N. cbn [map]. rewrite zsum_cons. destruct H as [->|H].
  - rewrite eqb_refl, zsum_map_zero; [lia|]. intros y Hy. rewrite eqb_neq; [reflexivity|]. intros ->. tauto.
  - rewrite eqb_neq by (intros ->; tauto). rewrite IH by assumption. lia.
Qed.
Lemma weights_one g t ps trades : (forall t, g t 0 = 0) -> NoDup ps -> (forall a, In a (map fst trades) -> In a ps) ->
  zsum (map (fun a => weight g (map (fun x => (t, snd x)) (filter (fun x => id_eqb (fst x) a && negb (snd x =? 0)) trades))) ps) = zsum (map (fun x => g t (snd x)) trades).
Proof.
  intros G N. induction trades as [|[b v] trades IH]; intros H.
  - cbn [filter map]. apply zsum_map_zero. reflexivity.
  - cbn [map snd]. rewrite zsum_cons, <- IH by (intros; apply H; now right). rewrite <- (once ps b (g t v) N) by (apply H; now left). rewrite <- zsum_map_add. f_equal. apply map_ext. intros a.
    cbn [filter fst snd]. destruct (id_eqb b a); cbn [andb]; [|lia]. destruct (Z.eqb_spec v 0) as [->|]; cbn [negb]; [rewrite G; lia|]. unfold weight. cbn [map fst snd]. rewrite zsum_cons. reflexivity.
Qed.
Lemma weights g ps l : (forall t, g t 0 = 0) -> NoDup ps -> (forall t trades a, In (t, trades) l -> In a (map fst trades) -> In a ps) ->
  zsum (map (fun a => weight g (trades_of a l)) ps) = zsum (map (fun tl => zsum (map (fun x => g (fst tl) (snd x)) (snd tl))) l).
Proof.
  intros G N. induction l as [|[t trades] l IH]; intros H.
  - cbn [map]. apply zsum_map_zero. reflexivity.
  - cbn [map fst snd]. rewrite zsum_cons, <- IH by (intros t' tr' a Hl; apply (H t' tr'); now right). rewrite <- (weights_one g t ps trades G N) by (intros a; apply (H t trades); now left).
    rewrite <- zsum_map_add. f_equal. apply map_ext. intros a. unfold trades_of at 1. cbn [flat_map fst snd]. unfold weight. rewrite map_app, zsum_app. reflexivity.
Qed.
Lemma conserved usd ps l (before after : identity -> holdings) : NoDup ps -> (forall t trades a, In (t, trades) l -> In a (map fst trades) -> In a ps) ->
  (forall t trades, In (t, trades) l -> total trades = 0 /\ t_lot t = 1 /\ 0 <= t_price t) ->
  (forall a, In a ps -> settled exact usd (trades_of a l) (before a) (after a)) ->
  forall k, zsum (map (fun a => held (after a) k) ps) = zsum (map (fun a => held (before a) k) ps).
Proof.
  intros N H T S k.
  assert (B : zsum (map (fun a => bought (trades_of a l) k) ps) = 0).
  { pose proof (weights (fun t v => if id_eqb (t_id t) k then v else 0) ps l (fun t => match id_eqb (t_id t) k with true => eq_refl | false => eq_refl end) N H) as W. unfold weight in W. unfold bought.
    etransitivity; [exact W|]. apply zsum_map_zero. intros [t trades] Ht. cbn [fst snd]. destruct (T t trades Ht) as [T1 _]. destruct (id_eqb (t_id t) k); [exact T1|]. apply zsum_map_zero. reflexivity. }
  assert (C : zsum (map (fun a => all_costs exact (trades_of a l)) ps) = 0).
  { pose proof (weights (cost exact) ps l (fun t => eq_refl) N H) as W. unfold weight in W. unfold all_costs. etransitivity; [exact W|]. apply zsum_map_zero. intros [t trades] Ht. cbn [fst snd].
    destruct (T t trades Ht) as (T1 & T2 & T3). assert (E : zsum (map (fun x => cost exact t (snd x)) trades) = t_price t * total trades); [|rewrite E, T1; lia].
    clear - T2 T3. unfold total. induction trades as [|[a v] trades IH]; [cbn; lia|]. cbn [map snd]. rewrite !zsum_cons, IH. unfold cost.
    destruct (Z.gtb_spec v 0); [rewrite cash_exact, T2, Z.div_1_r by lia; lia|]. destruct (Z.ltb_spec v 0); [rewrite cash_exact, T2, Z.div_1_r by lia; lia|]. replace v with 0 by lia. lia. }
  assert (E : forall a, In a ps -> held (after a) k = held (before a) k + (if id_eqb k usd then - all_costs exact (trades_of a l) else bought (trades_of a l) k)).
  { intros a Ha. rewrite (S a Ha k). destruct (id_eqb k usd); lia. }
  rewrite (map_ext_in _ _ _ E), zsum_map_add. destruct (id_eqb k usd); [|lia].
  assert (zsum (map (fun a => - all_costs exact (trades_of a l)) ps) = 0); [|lia].
  clear - C. revert C. generalize ps. intros q C. assert (forall q, zsum (map (fun a => - all_costs exact (trades_of a l)) q) = - zsum (map (fun a => all_costs exact (trades_of a l)) q)) as ->; [|lia].
  clear. induction q as [|a q IH]; [reflexivity|]. cbn [map]. rewrite !zsum_cons, IH. lia.
Qed.
