(** Proofs on an economy with a Walrasian market. *)
From Verif Require Import Base Identity Identity_proofs IdMap_proofs Inventory Inventory_spec Inventory_proofs StaticTicks Walras Walras_spec Walras_proofs Markets Clearing Clearing_spec Clearing_proofs SeveralTrades_spec Ownership_proofs Sessions Sessions_spec Economy Economy_spec.
From Verif Require Walras_props Clearing_props SeveralTrades_props.
From Coq Require Import SpecFloat ZifyBool ZifyNat.

(** ** Trades that add up to nothing *)
Lemma zsum_app' l l' : zsum (l ++ l') = zsum l + zsum l'.
Proof. induction l as [|x l IH]; [reflexivity|]. cbn [app]. rewrite !zsum_cons, IH. lia. Qed.
Lemma zsum_le {X} (f g : X -> Z) (l : list X) : (forall x, In x l -> f x <= g x) -> zsum (map f l) <= zsum (map g l).
Proof. induction l as [|x l IH]; intros H; cbn [map]; [reflexivity|]. rewrite !zsum_cons. pose proof (H x (or_introl eq_refl)). specialize (IH (fun y Hy => H y (or_intror Hy))). lia. Qed.
Lemma zsum_mul {X} (c : Z) (f : X -> Z) (l : list X) : zsum (map (fun x => c * f x) l) = c * zsum (map f l).
Proof. induction l as [|x l IH]; cbn [map]; [now rewrite Z.mul_0_r|]. rewrite !zsum_cons, IH. ring. Qed.
Lemma zsum_perm l l' : Permutation l l' -> zsum l = zsum l'.
Proof. induction 1; rewrite ?zsum_cons; lia. Qed.
Lemma other_side (trades : list (identity * Z)) c (g : identity -> Z) i v : total trades = 0 -> In (i, v) trades ->
  (forall j w, In (j, w) trades -> w * c <= g j /\ 0 <= g j) -> - v * c <= zsum (map g (map fst trades)).
Proof.
  intros T H G. apply in_split in H. destruct H as (l1 & l2 & ->). unfold total in T. rewrite map_app in T. cbn [map snd] in T. rewrite zsum_app', zsum_cons in T.
  rewrite !map_app. cbn [map fst]. rewrite zsum_app', zsum_cons, !map_map.
  assert (G1 : zsum (map (fun x => c * snd x) l1) <= zsum (map (fun x => g (fst x)) l1)). { apply zsum_le. intros [j w] Hj. cbn [fst snd]. destruct (G j w); [apply in_app_iff; now left|]. lia. }
  assert (G2 : zsum (map (fun x => c * snd x) l2) <= zsum (map (fun x => g (fst x)) l2)). { apply zsum_le. intros [j w] Hj. cbn [fst snd]. destruct (G j w); [apply in_app_iff; right; now right|]. lia. }
  rewrite zsum_mul in G1, G2. destruct (G i v) as [_ G3]; [apply in_app_iff; right; now left|]. nia.
Qed.
Lemma bought_in trades i v : NoDup (map fst trades) -> In (i, v) trades -> bought i trades = v.
Proof.
  unfold bought. induction trades as [|[j w] l IH]; intros N H; [destruct H|]. cbn [map fst] in N. apply NoDup_cons_iff in N. destruct N as [N1 N2]. cbn [filter fst].
  assert (F : forall k, ~ In k (map fst l) -> filter (fun x : identity * Z => id_eqb (fst x) k) l = []).
  { clear. intros k Hk. induction l as [|[j w] l IH]; [reflexivity|]. cbn [map fst In] in Hk. cbn [filter fst]. rewrite eqb_neq by tauto. apply IH. tauto. }
  destruct H as [H|H].
  - injection H as -> ->. rewrite eqb_refl, F by exact N1. cbn. lia.
  - rewrite eqb_neq by (intros ->; apply N1, in_map_iff; now exists (i, v)). now apply IH.
Qed.
Lemma sum_bought trades ps : NoDup (map fst trades) -> Permutation (map fst trades) ps -> zsum (map (fun i => bought i trades) ps) = total trades.
Proof.
  intros N P. rewrite <- (zsum_perm _ _ (Permutation_map (fun i => bought i trades) P)). rewrite map_map. unfold total. f_equal. apply map_ext_in. intros [i v] H. cbn [fst snd]. now apply bought_in.
Qed.

Section Proofs.
Context {M D : Type} (A : arith) (usd p market : identity) (short_of : identity -> identity) (encode : list (identity * Z) -> Z) (order_of : Z -> D).
Context (solver : list (identity * D) -> list (identity * Z) -> option (list (identity * spec_float))).
Context (trade : list (identity * D) -> list (identity * spec_float) -> list (identity * Z)) (stated : D -> Z * Z).
Context (code : transfer -> Z) (content : Z -> transfer).
Context (strategy : identity -> Z -> option holdings * M -> Z -> M * Z).
Notation settlement := (market_settlement A usd market short_of solver trade stated code).
Notation answer := (trader_answer strategy).
Notation booked := (trader_booked (M := M) content).

Lemma orderers : of_orderers trade -> settles_with_orderers settlement.
Proof.
  intros O orders quotes x Hx. unfold market_settlement in Hx. destruct (solver orders quotes) as [result|]; [|destruct Hx]. destruct quotes as [|[q old] [|]]; try destruct Hx.
  destruct (apply_results result [(q, old)]) as [l| |]; try destruct Hx. destruct l as [|[k new] [|]]; try destruct Hx.
  destruct (clear A usd short_of (fun a _ => stated_by stated orders a) [(mk_traded q new old 1, trade orders result)]) as [[send receive]| |] eqn:C; try destruct Hx.
  apply in_map_iff in Hx. destruct Hx as (y & <- & Hy). cbn [fst]. apply (O orders result).
  destruct (in_dec (list_eq_dec Z.eq_dec) (fst y) (map fst (trade orders result))) as [I|N]; [exact I|]. exfalso.
  assert (C' : clear A usd short_of (fun a _ => stated_by stated orders a) [] = Ret ([], [])) by reflexivity.
  assert (E : received (fst y) (market_transfers market send receive) = received (fst y) (market_transfers market [] [])).
  { eapply SeveralTrades_props.C201_own_trades; [|exact C|exact C']. unfold trades_of. cbn [flat_map fst snd]. rewrite app_nil_r.
    replace (filter (fun x => id_eqb (fst x) (fst y) && negb (snd x =? 0)) (trade orders result)) with (@nil (identity * Z)); [reflexivity|].
    symmetry. clear - N. induction (trade orders result) as [|[j w] l IH]; [reflexivity|]. cbn [map fst In] in N. cbn [filter fst]. rewrite eqb_neq by tauto. apply IH. tauto. }
  assert (R : In (snd y) (received (fst y) (market_transfers market send receive))). { unfold received. apply in_map_iff. exists y. split; [reflexivity|]. apply filter_In. split; [exact Hy|apply eqb_refl]. }
  rewrite E in R. destruct R.
Qed.
Lemma booked_all i time bodies : forall s, fst (fold_left (booked i time) bodies s) = match fst s with Some inventory => process_all i (map content bodies) inventory | None => None end.
Proof.
  clear. induction bodies as [|b bodies IH]; intros [o m]; cbn [fold_left map process_all]; [destruct o; reflexivity|]. rewrite IH. unfold trader_booked. cbn [fst snd].
  destruct o as [inv|]; [|reflexivity]. destruct (process_transfer i (content b) inv); reflexivity.
Qed.
Lemma answer_keeps i time s body : fst (fst (answer i time s body)) = fst s.
Proof. clear. unfold trader_answer. destruct (strategy i time s body). reflexivity. Qed.
Lemma sent_map i l : sent_to i (map (fun x : identity * transfer => (fst x, code (snd x))) l) = map code (received i l).
Proof. clear. unfold sent_to, received. induction l as [|[a t] l IH]; [reflexivity|]. cbn [map filter fst snd]. destruct (id_eqb a i); cbn [map snd]; [f_equal|]; exact IH. Qed.

(** ** One session *)
Section One.
Context (e : Z) (participants : list identity) (Am : amounts A e) (E0 : 0 <= e) (Pu : p <> usd) (Nd : NoDup participants) (Nm : ~ In market participants).
Context (Cc : forall t, content (code t) = t) (Pr : prudent usd p encode order_of solver trade stated strategy participants).
Lemma has_bound (states : identity -> option holdings * M) i k : solvent participants states -> In i participants -> 0 <= has states k i < 2 ^ 64.
Proof. clear. intros S H. destruct (S i H) as (inv & E & V). unfold has. rewrite E. pose proof (held_bound inv k V) as B. unfold u64, W64 in B. exact B. Qed.
Lemma has_le (states : identity -> option holdings * M) i k : solvent participants states -> In i participants -> has states k i <= all_have participants states k.
Proof.
  intros S H. unfold all_have. assert (G : forall l, incl l participants -> In i l -> has states k i <= zsum (map (has states k) l) /\ 0 <= zsum (map (has states k) l)).
  { clear - S. assert (P : forall l, incl l participants -> 0 <= zsum (map (has states k) l)).
    { induction l as [|j l IH]; intros L; cbn [map]; [reflexivity|]. rewrite zsum_cons. specialize (IH (fun x Hx => L x (or_intror Hx))). pose proof (has_bound states j k S (L j (or_introl eq_refl))). lia. }
    induction l as [|j l IH]; intros L Hi; [destruct Hi|]. split; [|now apply P]. cbn [map]. rewrite zsum_cons. pose proof (has_bound states j k S (L j (or_introl eq_refl))).
    destruct Hi as [->|Hi]; [specialize (P l (fun x Hx => L x (or_intror Hx))); lia|]. destruct (IH (fun x Hx => L x (or_intror Hx)) Hi). lia. }
  apply G; [apply incl_refl|exact H].
Qed.
Lemma stated_found orders i : In i (map fst orders) -> exists d, In (i, d) orders /\ stated_by stated orders i = stated d.
Proof.
  clear. induction orders as [|[j d] l IH]; [intros []|]. cbn [map fst stated_by]. intros H. destruct (id_eqb j i) eqn:E.
  - apply id_eqb_eq in E. subst j. exists d. split; [now left|reflexivity].
  - destruct H as [->|H]; [rewrite eqb_refl in E; discriminate|]. destruct (IH H) as (x & Ix & Ex). exists x. split; [now right|exact Ex].
Qed.
Lemma one_session time old quotes' states states' orders :
  solvent participants states -> all_have participants states p <= 2 ^ 53 -> all_have participants states usd < 2 ^ 50 ->
  Permutation orders (all_orders encode order_of answer participants time [(p, old)] states) -> clear_quotes solver orders [(p, old)] = Ret quotes' ->
  (forall i, In i participants -> exists bodies, Permutation bodies (sent_to i (settlement orders [(p, old)])) /\
     states' i = fold_left (booked i time) bodies (fst (answer i time (states i) (encode [(p, old)])))) ->
  exists new trades, quotes' = [(p, new)] /\ NoDup (map fst trades) /\ Permutation (map fst trades) participants /\ total trades = 0 /\ solvent participants states' /\
    forall i, In i participants -> exists paid, has states' p i = has states p i + bought i trades /\ has states' usd i = has states usd i - paid /\
      Z.abs (paid - new * bought i trades) <= (if bought i trades =? 0 then 0 else e) /\ forall k, k <> p -> k <> usd -> has states' k i = has states k i.
Proof.
  intros So Bp Bu P Q St. unfold clear_quotes in Q. destruct (solver orders [(p, old)]) as [result|] eqn:Es.
  2: { injection Q as <-. exists old, (map (fun i => (i, 0)) participants). split; [reflexivity|]. rewrite map_map. cbn [fst]. rewrite map_id. split; [exact Nd|]. split; [reflexivity|]. split.
    { unfold total. rewrite map_map. cbn [snd]. clear. induction participants as [|x l IH]; [reflexivity|]. cbn [map]. now rewrite zsum_cons, IH. }
    assert (E : forall i, In i participants -> fst (states' i) = fst (states i)).
    { intros i Hi. destruct (St i Hi) as (bodies & B & ->). unfold market_settlement in B. rewrite Es in B. apply Permutation_sym, Permutation_nil in B. subst bodies. cbn [fold_left]. apply answer_keeps. }
    assert (Hh : forall k i, In i participants -> has states' k i = has states k i) by (intros k i Hi; unfold has; now rewrite E). split.
    { intros i Hi. rewrite E by exact Hi. exact (So i Hi). }
    intros i Hi. exists 0. assert (Eb : bought i (map (fun i => (i, 0)) participants) = 0).
    { apply bought_in; [rewrite map_map; cbn [fst]; now rewrite map_id|]. apply in_map_iff. now exists i. }
    rewrite Eb, !Hh by exact Hi. split; [lia|]. split; [lia|]. split; [rewrite Z.mul_0_r; apply Z.le_refl|]. intros k _ _. now apply Hh. }
  assert (Qn : exists new, quotes' = [(p, new)] /\ apply_results result [(p, old)] = Ret [(p, new)]).
  { cbn [apply_results] in Q |- *. destruct (m_find p result); [|discriminate]. destruct (new_price old s); try discriminate. injection Q as <-. eauto. }
  destruct Qn as (new & -> & An). destruct (Pr time old states orders result new So P Es An) as ((demands & Pd & Hc) & Bn & Hv0). set (trades := trade orders result) in *.
  assert (Hc' := Hc). destruct Hc' as (l & _ & _ & Hl' & _). assert (Ndd : NoDup (map fst demands)) by (apply (Permutation_NoDup (l := participants)); [now apply Permutation_sym|exact Nd]).
  destruct (Walras_props.C60_allocation demands l trades Ndd Hl' Hc) as (Pm & T & _). clear l Hl'.
  assert (Pt : Permutation (map fst trades) participants) by (eapply Permutation_trans; eassumption).
  assert (Nt : NoDup (map fst trades)) by (apply (Permutation_NoDup (l := participants)); [now apply Permutation_sym|exact Nd]).
  assert (Ip : forall i v, In (i, v) trades -> In i participants). { intros i v H. apply (Permutation_in _ Pt). apply in_map_iff. now exists (i, v). }
  assert (Hv : forall i v, In (i, v) trades -> stated_by stated orders i = (has states p i, 0) /\ - v <= has states p i /\ v * new <= has states usd i).
  { intros i v H. destruct (Hv0 i v H) as (V0 & V1 & V2). split; [|split; assumption]. destruct (stated_found orders i) as (d & Id & ->); [|now apply V0].
    apply (Permutation_in _ (Permutation_sym (Permutation_map fst P))). unfold all_orders. rewrite map_map. cbn [fst]. rewrite map_id. exact (Ip i v H). }
  assert (Vu : forall i v, In (i, v) trades -> Z.abs v * new < 2 ^ 50 /\ Z.abs v <= 2 ^ 53).
  { intros i v H. destruct (Hv i v H) as (_ & V1 & V2).
    assert (S1 := other_side trades new (has states usd) i v T H ltac:(intros j w Hj; destruct (Hv j w Hj) as (_ & _ & ?); pose proof (has_bound states j usd So (Ip j w Hj)); lia)).
    assert (S2 := other_side trades (-1) (has states p) i v T H ltac:(intros j w Hj; destruct (Hv j w Hj) as (_ & ? & _); pose proof (has_bound states j p So (Ip j w Hj)); lia)).
    rewrite (zsum_perm _ _ (Permutation_map (has states usd) Pt)) in S1. rewrite (zsum_perm _ _ (Permutation_map (has states p) Pt)) in S2. fold (all_have participants states usd) in S1. fold (all_have participants states p) in S2.
    pose proof (has_le states i p So (Ip i v H)). pose proof (has_le states i usd So (Ip i v H)). destruct (Z.abs_spec v) as [[? ->]|[? ->]]; split; lia. }
  destruct (Walras_props.C61_defined A usd short_of (fun a _ => stated_by stated orders a) [(mk_traded p new old 1, trades)]) as (send & receive & Cl).
  assert (Ns : no_shorts (fun a _ => stated_by stated orders a) (t_id (mk_traded p new old 1)) trades). { intros a v H. destruct (Hv a v H) as (-> & V1 & _). cbn [fst snd]. split; [reflexivity|exact V1]. }
  assert (Nmt : ~ In market (map fst trades)) by (intros X; apply Nm; now apply (Permutation_in _ Pt)).
  assert (St' : forall i, In i participants -> exists v inv after, In (i, v) trades /\ fst (states i) = Some inv /\ fst (states' i) = Some after /\ valid after /\
    forall k, held after k = if id_eqb k p then held inv k + v else if id_eqb k usd then held inv k - cost A (mk_traded p new old 1) v else held inv k).
  { intros i Hi. assert (Hi' : In i (map fst trades)) by (apply (Permutation_in _ (Permutation_sym Pt)), Hi). apply in_map_iff in Hi'. destruct Hi' as ([i' v] & Ei & H). cbn [fst] in Ei. subst i'.
    destruct (So i Hi) as (inv & Ei & Vi). destruct (St i Hi) as (bodies & B & E). unfold market_settlement in B. rewrite Es, An in B. fold trades in B. rewrite Cl, sent_map in B.
    destruct (Hv i v H) as (Hs & V1 & V2). destruct (Vu i v H) as [U1 U2]. assert (Ei' := Ei). unfold has in V1, V2, Hs. rewrite Ei in V1, V2, Hs.
    pose proof (has_le states i p So Hi) as L1. pose proof (has_le states i usd So Hi) as L2. unfold has in L1, L2. rewrite Ei in L1, L2.
    pose proof (held_bound inv p Vi) as W1. pose proof (held_bound inv usd Vi) as W2. unfold u64, W64 in W1, W2.
    destruct (Am (Z.abs v) new ltac:(lia) Bn U1) as [C0 C1].
    assert (Cst : - (Z.abs v * new) <= cost A (mk_traded p new old 1) v <= held inv usd). { unfold cost. cbn [t_price t_lot]. destruct (Z.gtb_spec v 0); [rewrite Z.abs_eq in * by lia; lia|]. destruct (Z.ltb_spec v 0); [rewrite Z.abs_neq in * by lia; lia|lia]. }
    assert (Pb : Permutation (map content bodies) (received i (market_transfers market send receive))).
    { replace (received i (market_transfers market send receive)) with (map content (map code (received i (market_transfers market send receive)))); [now apply Permutation_map|]. rewrite map_map. rewrite <- map_id. apply map_ext. exact Cc. }
    destruct (Clearing_props.C175_settled A usd short_of (fun a _ => stated_by stated orders a) (mk_traded p new old 1) trades send receive market i v inv (map content bodies)) as (after & Pa & Va & Ha); try assumption; cbn [t_id t_price t_lot]; try lia.
    exists v, inv, after. split; [exact H|]. split; [exact Ei'|]. split; [|split; [exact Va|exact Ha]]. rewrite E, booked_all, answer_keeps, Ei'. exact Pa. }
  exists new, trades. split; [reflexivity|]. split; [exact Nt|]. split; [exact Pt|]. split; [exact T|]. split.
  { intros i Hi. destruct (St' i Hi) as (v & inv & after & _ & _ & E & V & _). eauto. }
  intros i Hi. destruct (St' i Hi) as (v & inv & after & H & E1 & E2 & Va & Ha). destruct (Vu i v H) as [U1 U2]. destruct (Am (Z.abs v) new ltac:(lia) Bn U1) as [C0 C1].
  exists (cost A (mk_traded p new old 1) v). rewrite (bought_in trades i v Nt H). unfold has. rewrite E1, E2. rewrite !Ha. rewrite eqb_refl, (eqb_neq usd p), eqb_refl by congruence. split; [reflexivity|]. split; [reflexivity|]. split.
  - unfold cost. cbn [t_price t_lot]. destruct (Z.eqb_spec v 0) as [->|]; [rewrite Z.mul_0_r; apply Z.le_refl|]. destruct (Z.gtb_spec v 0); [rewrite Z.abs_eq in C1 by lia; lia|]. destruct (Z.ltb_spec v 0); [rewrite Z.abs_neq in C1 by lia; lia|lia].
  - intros k K1 K2. rewrite Ha, (eqb_neq k p), (eqb_neq k usd) by assumption. reflexivity.
Qed.
(** ** All sessions *)
Lemma zsum_const (c : Z) {X} (l : list X) : zsum (map (fun _ => c) l) = c * Z.of_nat (length l).
Proof. clear. induction l as [|x l IH]; cbn [map length]; [now rewrite Z.mul_0_r|]. rewrite zsum_cons, IH. lia. Qed.
Lemma zsum_abs {X} (f : X -> Z) (c : Z) (l : list X) : (forall x, In x l -> Z.abs (f x) <= c) -> Z.abs (zsum (map f l)) <= c * Z.of_nat (length l).
Proof. clear. induction l as [|x l IH]; intros H; cbn [map length]; [cbn; lia|]. rewrite zsum_cons. pose proof (H x (or_introl eq_refl)). specialize (IH (fun y Hy => H y (or_intror Hy))). lia. Qed.
Lemma all_sessions until time quotes states outputs last :
  sessions encode order_of solver answer settlement booked participants until time quotes states outputs last ->
  forall old, quotes = [(p, old)] -> solvent participants states -> all_have participants states p <= 2 ^ 53 ->
  all_have participants states usd + e * Z.of_nat (length participants) * (until - time) < 2 ^ 50 ->
  exists h, closed participants h /\ map snd outputs = map (fun x => [(p, fst x)]) h /\
    match last with
    | Some (_, final) => solvent participants final /\ accounted usd p e participants states final h /\ all_have participants final p = all_have participants states p /\
        Z.abs (all_have participants final usd - all_have participants states usd) <= e * Z.of_nat (length participants) * Z.of_nat (length h)
    | None => True
    end.
Proof.
  induction 1 as [quotes states|time quotes states orders Lt P C|time quotes states orders quotes' states' outputs last Lt P C St _ IH]; intros old -> So Bp Bu.
  - exists []. split; [constructor|]. split; [reflexivity|]. split; [exact So|]. split; [|split; [reflexivity|cbn; lia]].
    intros i Hi. cbn [map]. unfold active. cbn. split; [lia|]. split; [lia|]. reflexivity.
  - exists []. split; [constructor|]. split; [reflexivity|exact I].
  - assert (Nn : 0 <= e * Z.of_nat (length participants)) by (apply Z.mul_nonneg_nonneg; lia).
    destruct (one_session time old quotes' states states' orders So Bp ltac:(nia) P C St) as (new & trades & -> & Nt & Pt & T & So' & F).
    assert (Up : all_have participants states' p = all_have participants states p).
    { unfold all_have. transitivity (zsum (map (fun i => has states p i + bought i trades) participants)).
      - f_equal. apply map_ext_in. intros i Hi. destruct (F i Hi) as (paid & -> & _). reflexivity.
      - rewrite zsum_plus, sum_bought, T by assumption. lia. }
    assert (Uu : Z.abs (all_have participants states' usd - all_have participants states usd) <= e * Z.of_nat (length participants)).
    { unfold all_have. assert (X : zsum (map (has states' usd) participants) = zsum (map (fun i => has states usd i + ((has states' usd i - has states usd i + new * bought i trades) - new * bought i trades)) participants)).
      { f_equal. apply map_ext. intros i. lia. }
      rewrite X, zsum_plus. replace (zsum (map (fun i => has states' usd i - has states usd i + new * bought i trades - new * bought i trades) participants)) with
        (zsum (map (fun i => has states' usd i - has states usd i + new * bought i trades) participants)).
      2: { transitivity (zsum (map (fun i => has states' usd i - has states usd i + new * bought i trades) participants) + zsum (map (fun i => (- new) * bought i trades) participants)).
           - rewrite zsum_mul, sum_bought, T by assumption. lia.
           - rewrite <- zsum_plus. f_equal. apply map_ext. intros i. lia. }
      match goal with |- Z.abs (?a + ?b - ?a) <= _ => replace (a + b - a) with b by lia end. apply zsum_abs. intros i Hi. destruct (F i Hi) as (paid & _ & -> & Hb & _). destruct (bought i trades =? 0); lia. }
    destruct (IH new eq_refl So') as (h & Hcl & Ho & Hl); [lia|nia|].
    exists ((new, trades) :: h). split; [constructor; [split; [exact Pt|exact T]|exact Hcl]|]. split; [cbn [map fst snd]; now rewrite Ho|].
    destruct last as [[q final]|]; [|exact I]. destruct Hl as (Sf & Ac & Fp & Fu). split; [exact Sf|]. split; [|split; [lia|cbn [length]; nia]].
    intros i Hi. destruct (F i Hi) as (paid & F1 & F2 & F3 & F4). destruct (Ac i Hi) as (A1 & A2 & A3). cbn [map fst snd]. rewrite !zsum_cons. split; [lia|]. split.
    + unfold active in *. cbn [filter snd]. destruct (bought i trades =? 0) eqn:E; cbn [negb length]; [|rewrite Nat2Z.inj_succ]; nia.
    + intros k K1 K2. rewrite A3, F4 by assumption. reflexivity.
Qed.
End One.
End Proofs.
(** ** The amounts *)
Lemma exact_amounts : amounts exact 0.
Proof. intros n price Hn Hp _. rewrite cash_exact, Z.div_1_r by lia. split; [apply Z.mul_nonneg_nonneg; lia|lia]. Qed.
Lemma double_amounts : amounts double 1.
Proof.
  intros n price Hn Hp Hb. assert (0 <= n * price) by (apply Z.mul_nonneg_nonneg; lia). destruct (Walras_props.C80_doubles n price 1 Hn Hp Hb ltac:(lia)) as [->|(_ & B & ->)]; rewrite Z.div_1_r; lia.
Qed.
