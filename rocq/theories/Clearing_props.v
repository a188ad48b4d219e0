(** Theorems on the settlement of a clearing by the participants. *)
From Coq Require Import SpecFloat.
From Verif Require Import Base Identity Identity_proofs Communicator Inventory Inventory_spec Inventory_proofs StaticTicks Walras Walras_spec Clearing Clearing_spec Ownership Ownership_spec Ownership_proofs Clearing_proofs.
From Verif Require Walras_proofs Walras_props Rounding_proofs.
From Coq Require Import ZifyBool ZifyNat.

(** ** C175: after a clearing each participant has what it traded and has paid for it, and nobody else has lost or gained.
    In whatever order a participant processes the transfers that it is sent. *)
Theorem C175_settled : forall A usd short_of supply t trades send receive market a v inventory order,
  t_id t <> usd -> NoDup (map fst trades) -> no_shorts supply (t_id t) trades -> ~ In market (map fst trades) ->
  clear A usd short_of supply [(t, trades)] = Ret (send, receive) -> In (a, v) trades ->
  - 2 ^ 64 < v < 2 ^ 64 -> 0 <= cash A (Z.abs v) (t_price t) (t_lot t) < 2 ^ 64 -> valid inventory ->
  0 <= held inventory (t_id t) + v < 2 ^ 64 -> 0 <= held inventory usd - cost A t v < 2 ^ 64 ->
  Permutation order (received a (market_transfers market send receive)) ->
  exists after, process_all a order inventory = Some after /\ valid after /\
    forall k, held after k = if id_eqb k (t_id t) then held inventory k + v else if id_eqb k usd then held inventory k - cost A t v else held inventory k.
Proof.
  intros A usd so supply t trades send receive market a v inv order Hu Nd Ns Hm Hcl Ha Bv Bc V B1 B2 P.
  destruct (clear_keys A usd so supply t trades send receive Hcl) as [K1 K2]. rewrite received_spec in P by assumption.
  destruct (clear_find A usd so supply t trades send receive Hu Nd Ns Hcl a) as [_ F]. destruct (F v Ha) as [F1 F2]. rewrite F1, F2 in P. clear F F1 F2.
  assert (N : market <> a). { intros ->. apply Hm. apply in_map_iff. now exists (a, v). }
  assert (Ku : id_eqb (t_id t) usd = false) by (now apply Walras_proofs.eqb_neq). assert (Ku' : id_eqb usd (t_id t) = false) by (apply Walras_proofs.eqb_neq; congruence).
  unfold cost in *. destruct (Z.gtb_spec v 0); [|destruct (Z.ltb_spec v 0)].
  - rewrite Z.abs_eq in Bc by lia. destruct (exchange a market (t_id t) v usd (cash A v (t_price t) (t_lot t)) inv order) as (after & E & Va & H'); try assumption; try (unfold u64, W64); try lia.
    exists after. split; [exact E|]. split; [exact Va|]. intros k. rewrite H'. destruct (id_eqb k (t_id t)); [lia|]. destruct (id_eqb k usd); lia.
  - rewrite Z.abs_neq in Bc by lia. rewrite Z.opp_involutive in P. destruct (exchange a market usd (cash A (- v) (t_price t) (t_lot t)) (t_id t) (- v) inv order) as (after & E & Va & H'); try assumption; try congruence; try (unfold u64, W64); try lia.
    exists after. split; [exact E|]. split; [exact Va|]. intros k. rewrite H'. destruct (id_eqb k usd) eqn:E1; [apply id_eqb_eq in E1; subst k; rewrite Ku'; lia|]. destruct (id_eqb k (t_id t)); lia.
  - cbn in P. apply Permutation_sym, Permutation_nil in P. subst order. exists inv. split; [reflexivity|]. split; [exact V|]. intros k. destruct (id_eqb k (t_id t)), (id_eqb k usd); lia.
Qed.
Print Assumptions C175_settled.
(** Those that did not trade are sent nothing. *)
Theorem C175_others : forall A usd short_of supply t trades send receive market a,
  t_id t <> usd -> NoDup (map fst trades) -> no_shorts supply (t_id t) trades ->
  clear A usd short_of supply [(t, trades)] = Ret (send, receive) -> ~ In a (map fst trades) -> received a (market_transfers market send receive) = [].
Proof.
  intros A usd so supply t trades send receive market a Hu Nd Ns Hcl Ha. destruct (clear_keys A usd so supply t trades send receive Hcl) as [K1 K2]. rewrite received_spec by assumption.
  destruct (clear_find A usd so supply t trades send receive Hu Nd Ns Hcl a) as [F _]. destruct (F Ha) as [-> ->]. reflexivity.
Qed.
Print Assumptions C175_others.
(** What the transfers of a clearing add up to, for every property: the trades, what they cost, and nothing else. *)
Theorem C175_effects : forall A usd short_of supply t trades send receive market content ms p,
  t_id t <> usd -> NoDup (map fst trades) -> no_shorts supply (t_id t) trades -> clear A usd short_of supply [(t, trades)] = Ret (send, receive) ->
  ~ In market (map fst trades) -> carry content ms (market_transfers market send receive) ->
  in_transit (transfer_effect content p) ms = if id_eqb p (t_id t) then total trades else if id_eqb p usd then - zsum (map (fun x => cost A t (snd x)) trades) else 0.
Proof. exact clearing_effects. Qed.
Print Assumptions C175_effects.
(** From the demands to the transfers: in exact arithmetic with unit lots, the messages of a clearing are balanced, so that a market among
    owners does not create or destroy property or cash (C174). *)
Theorem C175_balanced : forall demands usd short_of supply t trades send receive market content ms,
  NoDup (map fst demands) -> computes demands trades ->
  t_id t <> usd -> no_shorts supply (t_id t) trades -> clear exact usd short_of supply [(t, trades)] = Ret (send, receive) ->
  ~ In market (map fst demands) -> t_lot t = 1 -> 0 <= t_price t -> (forall a v, In (a, v) trades -> Z.abs v < 2 ^ 64 /\ Z.abs v * t_price t < 2 ^ 64) ->
  carry content ms (market_transfers market send receive) ->
  balanced content ms /\ forall p, in_transit (transfer_effect content p) ms = 0.
Proof.
  intros demands usd so supply t trades send receive market content ms Dd Hc Hu Ns Hcl Hm Hl Hp Hb C.
  assert (Hc' := Hc). destruct Hc' as (l & _ & _ & Hl' & _). destruct (Walras_props.C60_allocation demands l trades Dd Hl' Hc) as (Pm & T & _). clear l Hl'.
  assert (Nd : NoDup (map fst trades)) by (apply (Permutation_NoDup (l := map fst demands)); [now apply Permutation_sym|exact Dd]).
  assert (Hm' : ~ In market (map fst trades)) by (intros X; apply Hm; now apply (Permutation_in _ Pm)).
  assert (Cost : forall a v, In (a, v) trades -> cost exact t v = v * t_price t).
  { intros a v Ha. unfold cost. destruct (Z.gtb_spec v 0); [rewrite Walras_proofs.cash_exact, Hl by lia; apply Z.div_1_r|]. destruct (Z.ltb_spec v 0); [rewrite Walras_proofs.cash_exact, Hl by lia; rewrite Z.div_1_r; lia|]. assert (v = 0) by lia. subst v. reflexivity. }
  assert (E : forall p, in_transit (transfer_effect content p) ms = 0).
  { intros p. rewrite (C175_effects exact usd so supply t trades send receive market content ms p Hu Nd Ns Hcl Hm' C). rewrite T. destruct (id_eqb p (t_id t)); [reflexivity|]. destruct (id_eqb p usd); [|reflexivity].
    assert (G : zsum (map (fun x => cost exact t (snd x)) trades) = total trades * t_price t); [|rewrite G, T; reflexivity].
    clear - Cost. unfold total. induction trades as [|[a v] l IH]; [reflexivity|]. cbn [map snd]. rewrite !zsum_cons, IH by (intros; eapply Cost; right; eassumption). rewrite (Cost a v (or_introl eq_refl)). ring. }
  split; [|exact E]. split; [|intros p; rewrite E; apply Z.divide_0_r].
  destruct (clear_keys exact usd so supply t trades send receive Hcl) as [K1 K2].
  assert (F := clear_find exact usd so supply t trades send receive Hu Nd Ns Hcl).
  assert (Vx : forall a h, (p_find a send = Some h \/ p_find a receive = Some h) -> valid h).
  { intros a h Hh. destruct (in_dec (list_eq_dec Z.eq_dec) a (map fst trades)) as [I|I].
    - apply in_map_iff in I. destruct I as ([a' v] & <- & I). cbn [fst] in *. destruct (proj2 (F a') v I) as [F1 F2]. rewrite F1, F2, (Cost a' v I) in Hh. destruct (Hb a' v I) as [B1 B2].
      destruct (Z.gtb_spec v 0); [|destruct (Z.ltb_spec v 0); [|destruct Hh; discriminate]].
      + rewrite Z.abs_eq in B2 by lia. destruct Hh as [Hh|Hh]; injection Hh as <-; apply valid_one; unfold u64, W64; [lia|]. split; [now apply Z.mul_nonneg_nonneg; [lia|]|exact B2].
      + rewrite Z.abs_neq in B2 by lia. destruct Hh as [Hh|Hh]; injection Hh as <-; apply valid_one; unfold u64, W64; [|lia]. rewrite <- Z.mul_opp_l. split; [apply Z.mul_nonneg_nonneg; lia|exact B2].
    - destruct (proj1 (F a) I) as [F1 F2]. destruct Hh; congruence. }
  assert (G : Forall (fun x => valid (transferred (snd x))) (market_transfers market send receive)).
  { unfold market_transfers. apply Forall_app. split; apply Forall_forall; intros x Hx; apply in_map_iff in Hx; destruct Hx as ([a h] & <- & Hx); cbn.
    - apply (Vx a). left. assert (X := filter_key send a K1). assert (Hf : In (a, h) (filter (fun x => id_eqb (fst x) a) send)) by (apply filter_In; split; [exact Hx|apply Walras_proofs.eqb_refl]).
      rewrite X in Hf. destruct (p_find a send); [|destruct Hf]. destruct Hf as [Hf|[]]. congruence.
    - apply (Vx a). right. assert (X := filter_key receive a K2). assert (Hf : In (a, h) (filter (fun x => id_eqb (fst x) a) receive)) by (apply filter_In; split; [exact Hx|apply Walras_proofs.eqb_refl]).
      rewrite X in Hf. destruct (p_find a receive); [|destruct Hf]. destruct Hf as [Hf|[]]. congruence. }
  clear - C G. induction C as [|m x ms l (H1 & H2 & H3) C IH]; [constructor|]. apply Forall_cons_iff in G. destruct G as [G1 G2]. constructor; [intros _; rewrite H3; exact G1|auto].
Qed.
Print Assumptions C175_balanced.
(** In double precision cash is lost or created: a seller of two units gets a cent that no buyer paid (C81_doubles_refuted), and so the messages of that
    clearing are not balanced. *)
Definition demo_usd : identity := [9].
Definition demo_short (p : identity) : identity := p ++ [0].
Definition demo_supply (a p : identity) : Z * Z := if id_eqb a [5] then (10, 0) else (0, 0).
Definition demo_trades : list (identity * Z) := [([5], -2); ([6], 1); ([8], 1)].
Definition demo_traded : traded := mk_traded [1] 29 29 1.
Definition demo_content (b : Z) : transfer :=
  nth (Z.to_nat b) (map snd (match clear double demo_usd demo_short demo_supply [(demo_traded, demo_trades)] with Ret (s, r) => market_transfers [3] s r | _ => [] end)) (mk_transfer [] [] []).
Definition demo_messages : list message := map (fun x => mk_message transfer_code [3] (fst x) 0 0 (snd x)) [([5], 0); ([6], 1); ([8], 2); ([5], 3); ([6], 4); ([8], 5)].
Theorem C175_doubles_refuted : exists send receive, clear double demo_usd demo_short demo_supply [(demo_traded, demo_trades)] = Ret (send, receive) /\
  total demo_trades = 0 /\ no_shorts demo_supply [1] demo_trades /\ carry demo_content demo_messages (market_transfers [3] send receive) /\
  in_transit (transfer_effect demo_content demo_usd) demo_messages = 1.
Proof.
  eexists _, _. split; [vm_compute; reflexivity|]. split; [reflexivity|]. split.
  { intros a v [H|[H|[H|[]]]]; injection H as <- <-; split; vm_compute; congruence. }
  split; [|vm_compute; reflexivity]. repeat (constructor; [vm_compute; auto|]). constructor.
Qed.
Print Assumptions C175_doubles_refuted.
(** In the arithmetic of the code, and for any lot, the properties that are traded are still balanced; cash is created by at most a cent for each buyer, and lost
    by at most a cent for each seller. *)
Theorem C175_doubles : forall demands usd short_of supply t trades send receive market content ms,
  NoDup (map fst demands) -> computes demands trades ->
  t_id t <> usd -> no_shorts supply (t_id t) trades -> clear double usd short_of supply [(t, trades)] = Ret (send, receive) ->
  ~ In market (map fst demands) -> 1 <= t_lot t <= 2 ^ 53 -> 0 <= t_price t <= 2 ^ 53 -> (forall a v, In (a, v) trades -> Z.abs v <= 2 ^ 53 /\ Z.abs v * t_price t < 2 ^ 50) ->
  carry content ms (market_transfers market send receive) ->
  (forall p, p <> usd -> in_transit (transfer_effect content p) ms = 0) /\
  - Z.of_nat (length (filter (fun x => snd x <? 0) trades)) <= in_transit (transfer_effect content usd) ms <= Z.of_nat (length (filter (fun x => 0 <? snd x) trades)).
Proof.
  intros demands usd so supply t trades send receive market content ms Dd Hc Hu Ns Hcl Hm Hl Hp Hb C.
  assert (Hc' := Hc). destruct Hc' as (l & _ & _ & Hl' & _). destruct (Walras_props.C60_allocation demands l trades Dd Hl' Hc) as (Pm & T & _). clear l Hl'.
  assert (Nd : NoDup (map fst trades)) by (apply (Permutation_NoDup (l := map fst demands)); [now apply Permutation_sym|exact Dd]).
  assert (Hm' : ~ In market (map fst trades)) by (intros X; apply Hm; now apply (Permutation_in _ Pm)).
  assert (E : forall p, in_transit (transfer_effect content p) ms = if id_eqb p (t_id t) then total trades else if id_eqb p usd then - zsum (map (fun x => cost double t (snd x)) trades) else 0)
    by (intros p; apply (C175_effects double usd so supply t trades send receive market content ms p Hu Nd Ns Hcl Hm' C)).
  split.
  - intros p N. rewrite E, T, (Walras_proofs.eqb_neq p usd) by exact N. now destruct (id_eqb p (t_id t)).
  - rewrite E, (Walras_proofs.eqb_neq usd (t_id t)) by congruence. rewrite Walras_proofs.eqb_refl.
    assert (Cash : forall n, 0 <= n <= 2 ^ 53 -> n * t_price t < 2 ^ 50 -> n * t_price t - t_lot t <= t_lot t * cash double n (t_price t) (t_lot t) <= n * t_price t).
    { intros n H1 H2. assert (X := Z.div_mod (n * t_price t) (t_lot t) ltac:(lia)). assert (Y := Z.mod_pos_bound (n * t_price t) (t_lot t) ltac:(lia)).
      destruct (Rounding_proofs.cash_double n (t_price t) (t_lot t) H1 Hp H2 Hl) as [->|(M & _ & ->)]; [lia|]. rewrite M in X. lia. }
    set (buyers := fun l : list (identity * Z) => Z.of_nat (length (filter (fun x => 0 <? snd x) l))). set (sellers := fun l : list (identity * Z) => Z.of_nat (length (filter (fun x => snd x <? 0) l))).
    assert (G : forall l, (forall x, In x l -> In x trades) -> t_price t * total l - t_lot t * buyers l <= t_lot t * zsum (map (fun x => cost double t (snd x)) l) <= t_price t * total l + t_lot t * sellers l).
    { unfold total, buyers, sellers. induction l as [|[a v] l IH]; intros S; [cbn; lia|]. specialize (IH (fun x I => S x (or_intror I))). destruct (Hb a v (S _ (or_introl eq_refl))) as [B1 B2]. cbn [map snd filter]. rewrite !zsum_cons. unfold cost at 1 3.
      destruct (Z.gtb_spec v 0) as [P|P].
      - rewrite Z.abs_eq in B1, B2 by lia. specialize (Cash v ltac:(lia) B2). assert (0 <? v = true) as -> by lia. assert (v <? 0 = false) as -> by lia. cbn [length]. rewrite Nat2Z.inj_succ. lia.
      - destruct (Z.ltb_spec v 0) as [Q|Q].
        + rewrite Z.abs_neq in B1, B2 by lia. specialize (Cash (- v) ltac:(lia) B2). assert (0 <? v = false) as -> by lia. cbn [length]. rewrite Nat2Z.inj_succ. lia.
        + assert (v = 0) by lia. subst v. change (0 <? 0) with false. cbn iota. rewrite !Z.add_0_l. exact IH. }
    specialize (G trades (fun x I => I)). rewrite T, Z.mul_0_r in G. fold (buyers trades) (sellers trades).
    assert (B0 : 0 <= buyers trades) by (unfold buyers; lia). assert (S0 : 0 <= sellers trades) by (unfold sellers; lia). nia.
Qed.
Print Assumptions C175_doubles.
(** A clearing in which [5] sells 12 units to [6] and [8], for 29 cents each. *)
Example C175_case : no_shorts (fun a _ => if id_eqb a [5] then (20, 0) else (0, 0)) [1] [([5], -12); ([6], 7); ([8], 5)] /\
  exists send receive, clear exact demo_usd demo_short (fun a _ => if id_eqb a [5] then (20, 0) else (0, 0)) [(demo_traded, [([5], -12); ([6], 7); ([8], 5)])] = Ret (send, receive) /\
  process_all [5] (received [5] (market_transfers [3] send receive)) [([1], 20); (demo_usd, 2)] = Some [([1], 8); (demo_usd, 350)] /\
  process_all [6] (rev (received [6] (market_transfers [3] send receive))) [(demo_usd, 1000)] = Some [(demo_usd, 797); ([1], 7)] /\
  process_all [8] (received [8] (market_transfers [3] send receive)) [(demo_usd, 145)] = Some [([1], 5)].
Proof.
  split.
  - intros a v [H|[H|[H|[]]]]; injection H as <- <-; split; vm_compute; congruence.
  - eexists _, _. split; [vm_compute; reflexivity|]. vm_compute. auto.
Qed.
(** The hypotheses of C175_balanced, from the demands on: two buyers and two sellers at a price of 29. *)
Definition balanced_supply (a p : identity) : Z * Z := (9, 0).
Definition balanced_trades : list (identity * Z) := [([3], -1); ([1], 2); ([2], 3); ([4], -4)].
Definition balanced_content (b : Z) : transfer :=
  nth (Z.to_nat b) (map snd (match clear exact demo_usd demo_short balanced_supply [(mk_traded [11] 29 29 1, balanced_trades)] with Ret (s, r) => market_transfers [12] s r | _ => [] end)) (mk_transfer [] [] []).
Definition balanced_messages : list message :=
  let l := match clear exact demo_usd demo_short balanced_supply [(mk_traded [11] 29 29 1, balanced_trades)] with Ret (s, r) => market_transfers [12] s r | _ => [] end in
  map (fun x => mk_message transfer_code [12] (fst (fst x)) 0 0 (Z.of_nat (snd x))) (combine l (seq 0 (length l))).
Example C175_balanced_case : exists send receive,
  computes [([1], Walras_props.tenths 25); ([2], Walras_props.tenths 39); ([3], Walras_props.tenths (-12)); ([4], Walras_props.tenths (-42))] balanced_trades /\
  no_shorts balanced_supply [11] balanced_trades /\ clear exact demo_usd demo_short balanced_supply [(mk_traded [11] 29 29 1, balanced_trades)] = Ret (send, receive) /\
  carry balanced_content balanced_messages (market_transfers [12] send receive) /\ length balanced_messages = 8%nat.
Proof.
  eexists _, _. split; [exact (proj1 Walras_props.C60_example)|]. split; [|split; [vm_compute; reflexivity|split; [|reflexivity]]].
  - intros a v [H|[H|[H|[H|[]]]]]; injection H as <- <-; split; vm_compute; congruence.
  - repeat (constructor; [vm_compute; auto|]). constructor.
Qed.
(** The same demands in double precision, at 17 cents for three units: one cent is lost. *)
Definition rounded_content (b : Z) : transfer :=
  nth (Z.to_nat b) (map snd (match clear double demo_usd demo_short balanced_supply [(mk_traded [11] 17 17 3, balanced_trades)] with Ret (s, r) => market_transfers [12] s r | _ => [] end)) (mk_transfer [] [] []).
Definition rounded_messages : list message := map (fun x => mk_message transfer_code [12] (fst x) 0 0 (snd x)) [([3], 0); ([1], 1); ([2], 2); ([4], 3); ([3], 4); ([1], 5); ([2], 6); ([4], 7)].
Example C175_doubles_case : exists send receive,
  clear double demo_usd demo_short balanced_supply [(mk_traded [11] 17 17 3, balanced_trades)] = Ret (send, receive) /\
  carry rounded_content rounded_messages (market_transfers [12] send receive) /\ in_transit (transfer_effect rounded_content demo_usd) rounded_messages = -1 /\
  length (filter (fun x => snd x <? 0) balanced_trades) = 2%nat /\ (forall a v, In (a, v) balanced_trades -> Z.abs v <= 2 ^ 53 /\ Z.abs v * 17 < 2 ^ 50).
Proof.
  eexists _, _. split; [vm_compute; reflexivity|]. split; [repeat (constructor; [vm_compute; auto|]); constructor|]. split; [vm_compute; reflexivity|]. split; [reflexivity|].
  intros a v [H|[H|[H|[H|[]]]]]; injection H as <- <-; cbn; lia.
Qed.
