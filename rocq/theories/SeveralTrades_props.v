(** C201: participants that trade several properties in one clearing. *)
From Coq Require Import ZifyBool.
From Verif Require Import Base Identity Identity_proofs Quantity Inventory Inventory_spec Inventory_proofs StaticTicks Walras Walras_spec Walras_proofs Clearing Clearing_spec SeveralTrades_spec SeveralTrades_proofs.

(** What a participant gets and gives depends on its own trades only, whatever others trade. *)
Theorem C201_own_trades : forall A usd short_of supply l l' send receive send' receive' market a,
  trades_of a l = trades_of a l' ->
  clear A usd short_of supply l = Ret (send, receive) -> clear A usd short_of supply l' = Ret (send', receive') ->
  received a (market_transfers market send receive) = received a (market_transfers market send' receive').
Proof.
  intros A usd so supply l l' send receive send' receive' market a E H H'.
  destruct (clear_nodup _ _ _ _ _ _ _ H) as [K1 K2]. destruct (clear_nodup _ _ _ _ _ _ _ H') as [K3 K4]. rewrite !Clearing_proofs.received_spec by assumption.
  pose proof (clear_view _ _ _ _ _ _ _ a H) as V. pose proof (clear_view _ _ _ _ _ _ _ a H') as V'. rewrite E in V. rewrite <- V in V'. injection V' as -> ->. reflexivity.
Qed.
Print Assumptions C201_own_trades.

(** A participant that trades one property, or sells several, ends with its trades and its money less what they cost, however many
    properties are cleared and in whatever order it processes the transfers. *)
Theorem C201_settled : forall A usd short_of supply l send receive market a inventory order,
  clear A usd short_of supply l = Ret (send, receive) -> market <> a ->
  NoDup (usd :: map (fun x => t_id (fst x)) (trades_of a l)) -> covered supply a (trades_of a l) -> simple (trades_of a l) ->
  affordable A usd (trades_of a l) inventory -> valid inventory ->
  Permutation order (received a (market_transfers market send receive)) ->
  exists after, process_all a order inventory = Some after /\ valid after /\ settled A usd (trades_of a l) inventory after.
Proof. intros A usd so supply l send receive market a inventory order H1 H2 H3 H4 H5 H6 H7 H8. eapply simple_settled; eassumption. Qed.
Print Assumptions C201_settled.

(** All participants together then have what they had before, of each property and of money: in exact arithmetic, with unit lots, when
    the trades of each property add up to zero (C60). *)
Theorem C201_conserved : forall usd ps l (before after : identity -> holdings), NoDup ps ->
  (forall t trades a, In (t, trades) l -> In a (map fst trades) -> In a ps) ->
  (forall t trades, In (t, trades) l -> total trades = 0 /\ t_lot t = 1 /\ 0 <= t_price t) ->
  (forall a, In a ps -> settled exact usd (trades_of a l) (before a) (after a)) ->
  forall k, zsum (map (fun a => held (after a) k) ps) = zsum (map (fun a => held (before a) k) ps).
Proof. exact conserved. Qed.
Print Assumptions C201_conserved.

(** A participant whose sale is settled before its purchase is not sent what it buys, and pays the full price at least. *)
Theorem C201_sale_then_purchase_refuted : forall A usd short_of supply l send receive a t1 v t2 w,
  clear A usd short_of supply l = Ret (send, receive) -> trades_of a l = [(t1, - v); (t2, w)] -> 0 < v -> 0 < w ->
  t_id t1 <> usd -> t_id t2 <> usd -> covered supply a [(t1, - v); (t2, w)] ->
  let gain := cash A v (t_price t1) (t_lot t1) in let price := cash A w (t_price t2) (t_lot t2) in 0 <= gain -> 0 <= price ->
  listed send a (t_id t2) = 0 /\ price - gain <= listed receive a usd - listed send a usd.
Proof.
  intros A usd so supply l send receive a t1 v t2 w H E Hv Hw N1 N2 C gain price Hg Hp.
  pose proof (clear_view _ _ _ _ _ _ _ a H) as V. rewrite E in V.
  change [(t1, - v); (t2, w)] with ([(t1, - v)] ++ [(t2, w)]) in V, C. apply Forall_app in C. destruct C as [C1 C2].
  assert (O1 : own_all A usd so supply a [(t1, - v)] (None, None) = (Some [(usd, gain)], Some [(t_id t1, v)])).
  { cbn [own_all fold_left fst snd]. unfold own. inversion_clear C1 as [|? ? [S1 S2] _]. cbn [fst snd] in S1, S2. destruct (supply a (t_id t1)) as [long short]. cbn [fst snd] in S1, S2. subst short.
    destruct (Z.eqb_spec (- v) 0); [lia|]. destruct (Z.gtb_spec (- v) 0); [lia|]. destruct (Z.gtb_spec long 0); [|lia]. replace (Z.min (- - v) long) with v by lia.
    destruct (Z.ltb_spec (- v + v) 0); [lia|]. reflexivity. }
  rewrite own_all_app, O1 in V. cbn [own_all fold_left fst snd] in V. unfold own in V. inversion_clear C2 as [|? ? [S1 _] _]. cbn [fst snd] in S1. destruct (supply a (t_id t2)) as [long short]. cbn [snd] in S1. subst short.
  destruct (Z.eqb_spec w 0); [lia|]. destruct (Z.gtb_spec w 0); [|lia]. change (0 >? 0) with false in V. cbv iota zeta in V. rewrite Z.sub_0_r in V. destruct (Z.gtb_spec w 0); [|lia].
  cbn [opt] in V. fold price in V. unfold inv_insert, h_insert in V. cbn [h_find] in V. rewrite (eqb_neq (t_id t1) usd) in V by assumption. cbn [h_find app] in V.
  unfold netted in V. cbn [fst snd net_items h_find] in V. rewrite (eqb_neq usd (t_id t1)) in V by congruence.
  destruct (Z.eqb_spec v 0); [lia|]. cbv beta iota zeta in V. cbn [net_items h_find] in V. rewrite ?eqb_refl in V. cbv beta iota zeta in V.
  rewrite !listed_opt.
  destruct (Z.eqb_spec price 0); [|destruct (Z.gtb_spec price gain); [|destruct (Z.ltb_spec price gain)]]; cbn [h_assign h_erase fst snd] in V; rewrite ?eqb_refl in V; cbn [negb fst snd] in V; injection V as -> ->; cbn [opt]; rewrite ?held_cons; cbn [h_find]; rewrite ?eqb_refl, ?(eqb_neq usd (t_id t2)), ?(eqb_neq (t_id t1) usd) by congruence; change (held [] usd) with 0; change (held [] (t_id t2)) with 0; lia.
Qed.
Print Assumptions C201_sale_then_purchase_refuted.

(** A participant whose purchase is settled before a sale that brings as much or more pays twice for what it buys. *)
Theorem C201_purchase_then_sale_refuted : forall A usd short_of supply l send receive a t1 v t2 w,
  clear A usd short_of supply l = Ret (send, receive) -> trades_of a l = [(t1, v); (t2, - w)] -> 0 < v -> 0 < w ->
  t_id t1 <> usd -> t_id t2 <> usd -> t_id t1 <> t_id t2 -> covered supply a [(t1, v); (t2, - w)] ->
  let gain := cash A w (t_price t2) (t_lot t2) in let price := cash A v (t_price t1) (t_lot t1) in 0 < price <= gain ->
  listed send a (t_id t1) = v /\ listed receive a (t_id t2) = w /\ listed send a usd - listed receive a usd = gain - 2 * price.
Proof.
  intros A usd so supply l send receive a t1 v t2 w H E Hv Hw N1 N2 N3 C gain price Hp.
  pose proof (clear_view _ _ _ _ _ _ _ a H) as V. rewrite E in V.
  change [(t1, v); (t2, - w)] with ([(t1, v)] ++ [(t2, - w)]) in V, C. apply Forall_app in C. destruct C as [C1 C2].
  rewrite own_all_app, own_buys in V by (try assumption; inversion_clear C1; tauto). fold price in V. cbn [own_all fold_left fst snd] in V. unfold own in V.
  inversion_clear C2 as [|? ? [S1 S2] _]. cbn [fst snd] in S1, S2. destruct (supply a (t_id t2)) as [long short]. cbn [fst snd] in S1, S2. subst short.
  destruct (Z.eqb_spec (- w) 0); [lia|]. destruct (Z.gtb_spec (- w) 0); [lia|]. destruct (Z.gtb_spec long 0); [|lia]. replace (Z.min (- - w) long) with w in V by lia.
  destruct (Z.ltb_spec (- w + w) 0); [lia|]. fold gain in V. cbn [opt] in V. unfold inv_insert, h_insert in V. cbn [h_find] in V. rewrite (eqb_neq (t_id t1) usd), (eqb_neq usd (t_id t2)) in V by congruence. cbn [h_find app] in V.
  unfold netted in V. cbn [fst snd net_items h_find] in V. rewrite (eqb_neq (t_id t1) usd), eqb_refl in V by congruence. cbv beta iota zeta in V.
  destruct (Z.eqb_spec price 0); [lia|]. destruct (Z.gtb_spec price gain); [lia|]. rewrite !listed_opt.
  destruct (Z.ltb_spec price gain); cbn [h_assign h_erase filter fst snd h_find] in V; rewrite ?(eqb_neq (t_id t1) usd), ?eqb_refl in V by congruence; cbn [h_assign h_erase filter fst snd h_find negb] in V;
    rewrite ?(eqb_neq (t_id t1) usd), ?(eqb_neq (t_id t1) (t_id t2)), ?(eqb_neq usd (t_id t2)), ?eqb_refl in V by congruence; cbn [h_assign h_erase filter fst snd h_find negb] in V;
    rewrite ?(eqb_neq (t_id t1) usd), ?(eqb_neq (t_id t1) (t_id t2)), ?(eqb_neq usd (t_id t2)), ?eqb_refl in V by congruence;
    destruct (Z.eqb_spec w 0); try lia; cbn [fst snd] in V; injection V as -> ->; cbn [opt]; rewrite ?held_cons;
    rewrite ?(eqb_neq (t_id t1) usd), ?(eqb_neq usd (t_id t2)), ?(eqb_neq usd (t_id t1)), ?(eqb_neq (t_id t2) usd), ?eqb_refl by congruence; change (held [] usd) with 0; change (held [] (t_id t1)) with 0; change (held [] (t_id t2)) with 0; lia.
Qed.
Print Assumptions C201_purchase_then_sale_refuted.

(** Three properties cleared at once: [5] sells two of them, [6] buys one, [8] sells one and buys another, and [9] does both in the
    other order: the money it is owed for 3 units at 29 cents, less 10 for its purchase, is 10 short. *)
Definition demo_l : list (traded * list (identity * Z)) :=
  [(mk_traded [1] 10 10 1, [([5], -4); ([6], 0); ([8], 3); ([9], 1)]);
   (mk_traded [2] 29 29 1, [([5], -2); ([6], 5); ([8], 0); ([9], -3)]);
   (mk_traded [3] 7 7 1, [([5], 0); ([6], 0); ([8], -6); ([9], 0)])].
Definition demo_usd' : identity := [0; 840].
Definition demo_supply' (a p : identity) : Z * Z := (10, 0).
Example C201_case : exists send receive,
  clear exact demo_usd' (fun p => 99 :: p) demo_supply' demo_l = Ret (send, receive) /\
  trades_of [5] demo_l = [(mk_traded [1] 10 10 1, -4); (mk_traded [2] 29 29 1, -2)] /\
  simple (trades_of [5] demo_l) /\ covered demo_supply' [5] (trades_of [5] demo_l) /\
  affordable exact demo_usd' (trades_of [5] demo_l) [([1], 4); ([2], 10); (demo_usd', 1)] /\
  process_all [5] (rev (received [5] (market_transfers [4] send receive))) [([1], 4); ([2], 10); (demo_usd', 1)] = Some [([2], 8); (demo_usd', 99)] /\
  process_all [6] (received [6] (market_transfers [4] send receive)) [(demo_usd', 145)] = Some [([2], 5)] /\
  trades_of [9] demo_l = [(mk_traded [1] 10 10 1, 1); (mk_traded [2] 29 29 1, -3)] /\
  process_all [9] (received [9] (market_transfers [4] send receive)) [([2], 3); (demo_usd', 100)] = Some [(demo_usd', 167); ([1], 1)].
Proof.
  eexists _, _. split; [vm_compute; reflexivity|]. split; [reflexivity|]. split; [right; repeat constructor|].
  split; [repeat (constructor; [vm_compute; split; congruence|]); constructor|]. split.
  { split; [repeat (constructor; [vm_compute; congruence|]); constructor|]. split.
    { intros k. change (bought (trades_of [5] demo_l) k) with ((if id_eqb [1] k then -4 else 0) + ((if id_eqb [2] k then -2 else 0) + 0)).
      rewrite !held_cons. destruct (id_eqb [1] k) eqn:E1; [apply id_eqb_eq in E1; subst k; vm_compute; intuition congruence|].
      destruct (id_eqb [2] k); [lia|]. destruct (id_eqb demo_usd' k); [lia|]. change (held [] k) with 0. lia. }
    split; [repeat (constructor; [vm_compute; reflexivity|]); constructor|]. vm_compute. intuition congruence. }
  repeat split; vm_compute; reflexivity.
Qed.
