(** Lemmas on demands for money's worth, and volumes. *)
From Coq Require Import SpecFloat QArith Qabs Qround Lqa.
From Verif Require Import Base Identity Identity_proofs IdMap IdMap_proofs Inventory StaticTicks StaticTicks_proofs Inventory_proofs Walras Walras_spec Demands Demands_spec.
From Verif Require Walras_proofs.
From Coq Require Import ZifyBool ZifyNat.
Local Open Scope Z_scope.

Section Gather.
Context (A : arith) (absolute : num A -> num A) (solution : idmap (quoted * num A)).
Let flat (orders : list (identity * list (identity * num A))) : list (identity * (identity * num A)) := flat_map (fun o => map (fun d => (fst o, d)) (snd o)) orders.
Let step (st : outcome (book A)) (i : identity * (identity * num A)) : outcome (book A) := demand_one A absolute solution (fst i) st (snd i).
Let items (p : identity) (l : list (identity * (identity * num A))) : list (identity * num A) := map (fun i => (fst i, snd (snd i))) (filter (fun i => id_eqb (fst (snd i)) p) l).
Lemma gather_flat orders : gather A absolute solution orders = fold_left step (flat orders) (Ret ([], [])).
Proof.
  unfold gather. generalize (Ret ([], []) : outcome (book A)). induction orders as [|o os IH]; intros st; [reflexivity|]. cbn [fold_left flat flat_map]. rewrite IH. fold (flat os). rewrite fold_left_app. f_equal.
  generalize st. clear IH st. induction (snd o) as [|d ds IHd]; intros st; [reflexivity|]. cbn [map fold_left]. now rewrite IHd.
Qed.
Lemma items_flat orders p : items p (flat orders) = demanded orders p.
Proof.
  unfold items, flat, demanded. induction orders as [|o os IH]; [reflexivity|]. cbn [flat_map]. rewrite filter_app, map_app, IH. f_equal.
  induction (snd o) as [|d ds IHd]; [reflexivity|]. cbn [map filter fst snd]. destruct (id_eqb (fst d) p); cbn [map fst snd]; now rewrite IHd.
Qed.
Definition add_all (q : quoted) (x : num A) (l : list (identity * num A)) : num A := fold_left (fun s i => add A s (absolute (units A q x (snd i)))) l (of_Z A 0).
Definition enter_all (q : quoted) (x : num A) (l : list (identity * num A)) : idmap (num A) := fold_left (fun o i => im_emplace (fst i) (units A q x (snd i)) o) l [].
Let good (l : list (identity * (identity * num A))) (st : book A) : Prop := im_sorted (fst st) /\ im_sorted (snd st) /\
  forall p, (items p l = [] -> im_find p (fst st) = None /\ im_find p (snd st) = None) /\
    (items p l <> [] -> exists q x, im_find p solution = Some (q, x) /\ im_find p (fst st) = Some (add_all q x (items p l)) /\ im_find p (snd st) = Some (enter_all q x (items p l))).
Lemma step_bad l st : (forall b, st <> Ret b) -> forall b, fold_left step l st <> Ret b.
Proof. revert st. induction l as [|i l IH]; intros st H b; [apply H|]. cbn [fold_left]. apply IH. intros b'. unfold step, demand_one. destruct st as [[V0 O0]| |]; [now destruct (H (V0, O0))|discriminate|discriminate]. Qed.
Lemma items_app p l i : items p (l ++ [i]) = items p l ++ (if id_eqb (fst (snd i)) p then [(fst i, snd (snd i))] else []).
Proof. unfold items. rewrite filter_app, map_app. f_equal. cbn [filter]. now destruct (id_eqb (fst (snd i)) p). Qed.
Lemma step_good l st i st' : good l st -> step (Ret st) i = Ret st' -> good (l ++ [i]) st'.
Proof.
  destruct st as [V O]. intros (S1 & S2 & G) H. unfold step, demand_one in H. cbn [fst snd] in *. destruct i as [a [p e]]. cbn [fst snd] in *. destruct (im_find p solution) as [[q x]|] eqn:Es; [|discriminate].
  assert (F : forall p', p' <> p -> items p' (l ++ [(a, (p, e))]) = items p' l). { intros p' N. rewrite items_app. cbn [fst snd]. rewrite id_eqb_neq by congruence. apply app_nil_r. }
  assert (Fp : items p (l ++ [(a, (p, e))]) = items p l ++ [(a, e)]). { rewrite items_app. cbn [fst snd]. now rewrite id_eqb_refl. }
  destruct (G p) as [G1 G2]. destruct (items p l) as [|i0 il] eqn:Ei.
  - destruct (G1 eq_refl) as [E1 E2]. rewrite E1 in H. rewrite !im_find_emplace in H by assumption. rewrite E1, E2, !id_eqb_refl in H. assert (st' = (im_set p (add A (of_Z A 0) (absolute (units A q x e))) (im_emplace p (of_Z A 0) V), im_set p (im_emplace a (units A q x e) []) (im_emplace p [] O))) as -> by congruence.
    unfold good. cbn [fst snd]. assert (S1' := im_emplace_sorted p (of_Z A 0) V S1). assert (S2' := im_emplace_sorted p ([] : idmap (num A)) O S2). split; [now apply im_set_sorted|]. split; [now apply im_set_sorted|]. intros p'.
    rewrite !im_find_set, !im_find_emplace by assumption. destruct (id_eqb p p') eqn:Ep.
    + apply id_eqb_eq in Ep. subst p'. rewrite Fp. split; [discriminate|]. intros _. exists q, x. auto.
    + assert (N : p' <> p) by (intros ->; now rewrite id_eqb_refl in Ep). rewrite (F p' N). destruct (G p') as [G1' G2']. destruct (im_find p' V), (im_find p' O); split; auto.
  - destruct (G2 ltac:(discriminate)) as (q' & x' & Es' & E1 & E2). assert (q' = q /\ x' = x) as [-> ->] by (split; congruence). rewrite E1 in H. rewrite E1, E2 in H. assert (st' = (im_set p (add A (add_all q x (i0 :: il)) (absolute (units A q x e))) V, im_set p (im_emplace a (units A q x e) (enter_all q x (i0 :: il))) O)) as -> by congruence.
    unfold good. cbn [fst snd]. split; [now apply im_set_sorted|]. split; [now apply im_set_sorted|]. intros p'.
    rewrite !im_find_set by assumption. destruct (id_eqb p p') eqn:Ep.
    + apply id_eqb_eq in Ep. subst p'. rewrite Fp. split; [discriminate|]. intros _. exists q, x. split; [exact Es|]. unfold add_all, enter_all. rewrite !fold_left_app. auto.
    + assert (N : p' <> p) by (intros ->; now rewrite id_eqb_refl in Ep). rewrite (F p' N). apply G.
Qed.
Lemma fold_good l2 : forall l1 st st', good l1 st -> fold_left step l2 (Ret st) = Ret st' -> good (l1 ++ l2) st'.
Proof.
  induction l2 as [|i l2 IH]; intros l1 st st' G H; cbn [fold_left] in H.
  - assert (st = st') as <- by congruence. now rewrite app_nil_r.
  - destruct (step (Ret st) i) as [st1| |] eqn:E.
    + specialize (IH (l1 ++ [i]) st1 st' (step_good _ _ _ _ G E) H). now rewrite <- app_assoc in IH.
    + exfalso. now apply (step_bad l2 Throw ltac:(discriminate) st').
    + exfalso. now apply (step_bad l2 UB ltac:(discriminate) st').
Qed.
Lemma gather_spec orders V O : gather A absolute solution orders = Ret (V, O) -> im_sorted V /\ im_sorted O /\
  forall p, (demanded orders p = [] -> im_find p V = None /\ im_find p O = None) /\
    (demanded orders p <> [] -> exists q x, im_find p solution = Some (q, x) /\ im_find p V = Some (add_all q x (demanded orders p)) /\ im_find p O = Some (enter_all q x (demanded orders p))).
Proof.
  intros H. rewrite gather_flat in H. apply (fold_good _ []) in H.
  - destruct H as (S1 & S2 & G). cbn [fst snd app] in *. split; [exact S1|]. split; [exact S2|]. intros p. rewrite <- items_flat. apply G.
  - split; [constructor|]. split; [constructor|]. intros p. split; [auto|]. intros N. now destruct N.
Qed.
(** It is defined exactly when every demanded property is quoted. *)
Lemma step_defined l st i : good l st -> im_find (fst (snd i)) solution <> None -> exists st', step (Ret st) i = Ret st'.
Proof.
  destruct st as [V O], i as [a [p e]]. cbn [fst snd]. intros (S1 & S2 & G) H. unfold step, demand_one. cbn [fst snd] in *. destruct (im_find p solution) as [[q x]|] eqn:Es; [|congruence].
  destruct (G p) as [G1 G2]. destruct (items p l) as [|i0 il].
  - destruct (G1 eq_refl) as [E1 E2]. rewrite E1. rewrite !im_find_emplace by assumption. rewrite E1, E2, !id_eqb_refl. eauto.
  - destruct (G2 ltac:(discriminate)) as (q' & x' & _ & E1 & E2). rewrite E1. rewrite E1, E2. eauto.
Qed.
Lemma fold_defined l2 : forall l1 st, good l1 st -> (forall i, In i l2 -> im_find (fst (snd i)) solution <> None) -> exists st', fold_left step l2 (Ret st) = Ret st'.
Proof.
  induction l2 as [|i l2 IH]; intros l1 st G H; [now exists st|]. cbn [fold_left]. destruct (step_defined l1 st i G (H i (or_introl eq_refl))) as [st1 E]. rewrite E. apply (IH (l1 ++ [i])); [eapply step_good; eauto|]. intros j Hj. apply H. now right.
Qed.
Lemma gather_defined orders : (exists b, gather A absolute solution orders = Ret b) <-> (forall o d, In o orders -> In d (snd o) -> im_find (fst d) solution <> None).
Proof.
  split.
  - intros [[V O] H] o d Ho Hd. destruct (gather_spec _ _ _ H) as (_ & _ & G). destruct (G (fst d)) as [_ G2]. destruct G2 as (q & x & E & _).
    + intros N. assert (X : In (fst o, snd d) (demanded orders (fst d))). { unfold demanded. apply in_flat_map. exists o. split; [exact Ho|]. apply in_map_iff. exists d. split; [reflexivity|]. apply filter_In. split; [exact Hd|apply id_eqb_refl]. } rewrite N in X. destruct X.
    + congruence.
  - intros H. rewrite gather_flat. apply (fold_defined _ []).
    + split; [constructor|]. split; [constructor|]. intros p. split; [auto|]. intros N. now destruct N.
    + intros i Hi. apply in_flat_map in Hi. destruct Hi as (o & Ho & Hi). apply in_map_iff in Hi. destruct Hi as (d & <- & Hd). cbn. eauto.
Qed.
End Gather.

(** One entry for each participant. *)
Lemma enter_spec {V} (f : identity * V -> V) l : NoDup (map fst l) -> Permutation (fold_left (fun o i => im_emplace (fst i) (f i) o) l []) (map (fun i => (fst i, f i)) l).
Proof.
  intros N. assert (G : forall o, im_sorted o -> (forall a, In a (map fst l) -> im_find a o = None) -> let r := fold_left (fun o i => im_emplace (fst i) (f i) o) l o in
    im_sorted r /\ forall a v, In (a, v) r <-> In (a, v) o \/ In (a, v) (map (fun i => (fst i, f i)) l)).
  { induction l as [|[a e] l IH]; intros o So Ho r; subst r; cbn [fold_left].
    - split; [exact So|]. intros a v. cbn. tauto.
    - apply NoDup_cons_iff in N. destruct N as [Na N]. cbn [fst] in *. assert (S' := im_emplace_sorted a (f (a, e)) o So). destruct (IH N (im_emplace a (f (a, e)) o) S') as [I1 I2].
      + intros b Hb. rewrite im_find_emplace by exact So. rewrite (Ho b (or_intror Hb)). rewrite id_eqb_neq; [reflexivity|]. intros <-. now apply Na.
      + split; [exact I1|]. intros b v. rewrite I2. cbn [map fst In]. rewrite <- (im_find_in b (im_emplace a (f (a, e)) o) v S'), <- (im_find_in b o v So). rewrite im_find_emplace by exact So. rewrite (Ho a (or_introl eq_refl)). destruct (id_eqb a b) eqn:E; [apply id_eqb_eq in E; subst b|].
        * rewrite (Ho a (or_introl eq_refl)). split; [intros [X|X]; [right; left; congruence|auto]|intros [X|[X|X]]; [discriminate|left; congruence|auto]].
        * assert (a <> b) by (intros ->; now rewrite id_eqb_refl in E). split; [intros [X|X]; auto|intros [X|[X|X]]; [auto|injection X; congruence|auto]]. }
  destruct (G [] ltac:(constructor) ltac:(reflexivity)) as [G1 G2]. apply NoDup_Permutation.
  - apply NoDup_map_inv with (f := fst). now apply im_keys_nodup.
  - apply NoDup_map_inv with (f := fst). rewrite map_map. exact N.
  - intros [a v]. rewrite G2. cbn. tauto.
Qed.
Lemma demanded_nodup {N} (orders : list (identity * list (identity * N))) p : one_demand_each orders -> NoDup (map fst (demanded orders p)).
Proof.
  intros [N1 N2]. unfold demanded. induction orders as [|o os IH]; [constructor|]. cbn [flat_map]. rewrite map_app. cbn [map] in N1. apply NoDup_cons_iff in N1. destruct N1 as [Na N1]. apply Forall_cons_iff in N2. destruct N2 as [N2 N3].
  assert (X : map fst (map (fun d => (fst o, snd d)) (filter (fun d => id_eqb (fst d) p) (snd o))) = [] \/ map fst (map (fun d => (fst o, snd d)) (filter (fun d => id_eqb (fst d) p) (snd o))) = [fst o]).
  { clear - N2. induction (snd o) as [|d ds IHd]; [now left|]. cbn [map] in N2. apply NoDup_cons_iff in N2. destruct N2 as [Nd N2]. cbn [filter]. destruct (id_eqb (fst d) p) eqn:E; [|auto]. right. apply id_eqb_eq in E. subst p. cbn [map fst].
    assert (Z : filter (fun d0 => id_eqb (fst d0) (fst d)) ds = []); [|now rewrite Z]. clear - Nd. induction ds as [|d0 ds IH]; [reflexivity|]. cbn [filter]. rewrite id_eqb_neq by (intros E; apply Nd; left; exact E). apply IH. intros H. apply Nd. now right. }
  destruct X as [-> | ->]; [now apply IH|]. cbn. constructor; [|now apply IH]. intros H. apply Na. apply in_map_iff in H. destruct H as ([a e] & <- & H). apply in_flat_map in H. destruct H as (o' & Ho & H). apply in_map_iff in H. destruct H as (d & E & _). apply in_map_iff. exists o'. split; [|exact Ho]. cbn [fst] in *. congruence.
Qed.

(** ** Exact arithmetic *)
Lemma trunc_whole q : whole (trunc_Z exact q) q.
Proof.
  unfold whole. cbn [trunc_Z exact]. destruct (Qle_bool 0 q) eqn:E.
  - left. apply Qle_bool_iff in E. split; [exact E|]. split; [apply Qfloor_le|]. pose proof (Qlt_floor q) as H. rewrite inject_Z_plus in H. exact H.
  - right. assert (H : (q < 0)%Q). { apply Qnot_le_lt. intros H. apply Qle_bool_iff in H. congruence. } split; [lra|]. split; [|apply Qle_ceiling]. pose proof (Qceiling_lt q) as G. assert (I : (inject_Z (Qceiling q - 1) == inject_Z (Qceiling q) - 1)%Q) by (unfold Z.sub; rewrite inject_Z_plus; reflexivity). lra.
Qed.
Lemma whole_nonneg z q : whole z q -> (0 <= q)%Q -> 0 <= z.
Proof.
  intros W H. assert (-1 < z); [|lia]. rewrite Zlt_Qlt. destruct W as [[_ W]|[W1 W]].
  - change (inject_Z (-1)) with (-(1))%Q. lra.
  - change (inject_Z (-1)) with (-(1))%Q. lra.
Qed.
Lemma whole_opp z q : whole z q -> whole (- z) (- q).
Proof. intros [[H1 H2]|[H1 H2]]; [right|left]; rewrite inject_Z_opp; split; lra. Qed.
Lemma whole_pos z q : whole z q -> (0 <= q)%Q -> (inject_Z z <= q < inject_Z z + 1)%Q.
Proof. intros [[H1 H2]|[H1 H2]] H; [exact H2|]. assert (q == 0)%Q by lra. assert (Z : z = 0). { assert (-1 < z /\ z < 1); [|lia]. split; rewrite Zlt_Qlt; change (inject_Z (-1)) with (-(1))%Q; change (inject_Z 1) with 1%Q; lra. } subst z. change (inject_Z 0) with 0%Q in *. lra. Qed.
Lemma units_value q x e : 0 < q_value q -> 0 < q_denominator q -> 0 < q_lot q -> (0 < x)%Q ->
  (units exact q x e * (inject_Z (q_value q) * x) == e * inject_Z (q_denominator q) * inject_Z (q_lot q))%Q.
Proof.
  intros Hv Hd Hl Hx. unfold units, unit_price. cbn [div mul of_Z exact]. field. repeat split; try (apply inject_nz; lia). intros E. rewrite E in Hx. now apply Qlt_irrefl in Hx.
Qed.
Lemma pos_inject z : 0 < z -> (0 < inject_Z z)%Q.
Proof. intros H. change 0%Q with (inject_Z 0). now rewrite Zlt_Qlt in H. Qed.
Lemma nonneg_inject z : 0 <= z -> (0 <= inject_Z z)%Q.
Proof. intros H. change 0%Q with (inject_Z 0). now rewrite Zle_Qle in H. Qed.
Lemma units_sign q x e : 0 < q_value q -> 0 < q_denominator q -> 0 < q_lot q -> (0 < x)%Q -> (0 <= e)%Q -> (0 <= units exact q x e)%Q.
Proof.
  intros Hv Hd Hl Hx He. pose proof (units_value q x e Hv Hd Hl Hx) as U. apply pos_inject in Hv. apply pos_inject in Hd. apply pos_inject in Hl.
  assert (P : (0 < inject_Z (q_value q) * x)%Q) by (now apply Qmult_lt_0_compat). assert (R : (0 <= e * inject_Z (q_denominator q) * inject_Z (q_lot q))%Q).
  { apply Qmult_le_0_compat; [|lra]. apply Qmult_le_0_compat; lra. }
  apply Qnot_lt_le. intros N. assert (G : (0 < - units exact q x e)%Q) by lra. pose proof (Qmult_lt_0_compat _ _ G P). lra.
Qed.
(** Costs within the demand. *)
Lemma within_demand q x e z p : 0 < q_value q -> 0 < q_denominator q -> 0 < q_lot q -> (0 < x)%Q -> (0 <= e)%Q ->
  whole z (units exact q x e) -> whole p (inject_Z (q_value q) * x) ->
  0 <= z /\ (inject_Z (z * p) <= e * inject_Z (q_denominator q * q_lot q))%Q /\ (e * inject_Z (q_denominator q * q_lot q) < inject_Z ((z + 1) * (p + 1)))%Q.
Proof.
  intros Hv Hd Hl Hx He Wz Wp. pose proof (units_value q x e Hv Hd Hl Hx) as U. pose proof (units_sign q x e Hv Hd Hl Hx He) as Us.
  assert (P : (0 < inject_Z (q_value q) * x)%Q) by (apply Qmult_lt_0_compat; [now apply pos_inject|exact Hx]).
  apply (whole_nonneg z) in Wz as Z0; [|exact Us]. apply (whole_nonneg p) in Wp as P0; [|lra].
  apply whole_pos in Wz; [|exact Us]. apply whole_pos in Wp; [|lra]. split; [exact Z0|].
  apply nonneg_inject in Z0. apply nonneg_inject in P0. rewrite !inject_Z_mult, !inject_Z_plus, Qmult_assoc. change (inject_Z 1) with 1%Q. rewrite <- U.
  remember (units exact q x e) as u. remember (inject_Z (q_value q) * x)%Q as P'. split; nra.
Qed.

(** ** Allocation *)
Lemma zsum_same_sign (s r : list (identity * Z)) d : Forall2 (fun x y => fst x = fst y /\ exists h, 0 <= h /\ snd y = snd x + d * h) s r -> -1 <= d <= 1 ->
  Z.abs (zsum (map (fun x => Z.abs (snd x)) r) - zsum (map (fun x => Z.abs (snd x)) s)) <= d * (total r - total s).
Proof.
  intros F D. unfold total. induction F as [|x y s r (_ & h & H1 & H2) F IH]; cbn [map]; [cbn; lia|]. rewrite !zsum_cons. destruct (Z.eq_dec d 0) as [->|]; [lia|]. assert (d = 1 \/ d = -1) as [-> | ->] by lia; lia.
Qed.
Lemma forall2_nth {X Y} (P : X -> Y -> Prop) : forall (l1 : list X) (l2 : list Y), length l1 = length l2 -> (forall i x y, nth_error l1 i = Some x -> nth_error l2 i = Some y -> P x y) -> Forall2 P l1 l2.
Proof.
  induction l1 as [|x l1 IH]; intros [|y l2] L H; try discriminate; [constructor|]. constructor; [apply (H 0%nat); reflexivity|]. apply IH; [now injection L|]. intros i. apply (H (S i)).
Qed.
Lemma allots_spec l trades : NoDup (map fst l) -> allots l trades ->
  Permutation (map fst trades) (map fst l) /\ total trades = 0 /\
  (forall a z v, In (a, z) l -> In (a, v) trades -> let n := Z.of_nat (length l) in Z.abs (v - z) <= Z.abs (total l) / n + 1) /\
  Z.abs (zsum (map (fun x => Z.abs (snd x)) trades) - zsum (map (fun x => Z.abs (snd x)) l)) <= Z.abs (total l).
Proof.
  intros N (e & s & He & [Ps Ss] & Ha). apply Walras_proofs.sum_spec in He. rewrite Z.add_0_l in He.
  assert (Es : e = total s) by (rewrite He; now apply Walras_proofs.total_perm).
  destruct (Walras_proofs.allocate_spec e s trades Es Ha) as (d & (Ft & T & Nt) & T0 & Ed).
  assert (Ns : NoDup (map fst s)). { apply (Permutation_NoDup (l := map fst l)); [now apply Permutation_map|exact N]. }
  split. { rewrite Ft. apply Permutation_map. now symmetry. }
  split; [exact T0|]. assert (Len : length s = length l) by (symmetry; now apply Permutation_length). split.
  - intros a z v H1 H2. cbv zeta. apply (Permutation_in _ Ps) in H1. apply In_nth_error in H1 as [i Hi]. apply In_nth_error in H2 as [j Hj].
    rewrite Nt in Hj. destruct (nth_error s j) as [[b y]|] eqn:Hj'; [|discriminate]. cbn [option_map fst snd] in Hj. injection Hj as -> Hv.
    pose proof (Walras_proofs.nodup_nth s i j a z y Ns Hi Hj') as ->. rewrite Hi in Hj'. injection Hj' as ->.
    assert (Lp : (0 < length s)%nat) by (apply Nat.le_lt_trans with j; [lia|apply nth_error_Some; congruence]).
    pose proof (Walras_proofs.hits_bounds (length s) (Z.to_nat (Z.abs e)) j Lp) as Hb.
    assert (D : Z.of_nat (Z.to_nat (Z.abs e) / length s) = Z.abs e / Z.of_nat (length l)). { rewrite Nat2Z.inj_div, Len. f_equal. lia. }
    rewrite <- He. remember (Walras_proofs.hits (length s) (Z.to_nat (Z.abs e)) j) as h. destruct (e <? 0); lia.
  - assert (F : Forall2 (fun x y => fst x = fst y /\ exists h, 0 <= h /\ snd y = snd x + d * h) s trades).
    { apply forall2_nth; [rewrite <- (map_length fst), <- Ft, map_length; reflexivity|]. intros i x y Hx Hy. rewrite Nt, Hx in Hy. injection Hy as <-. cbn [fst snd]. split; [reflexivity|]. eexists. split; [|reflexivity]. lia. }
    assert (D : -1 <= d <= 1) by (rewrite Ed; destruct (e <? 0); lia). pose proof (zsum_same_sign s trades d F D) as G.
    assert (Q : zsum (map (fun x => Z.abs (snd x)) s) = zsum (map (fun x => Z.abs (snd x)) l)).
    { clear - Ps. assert (P := Permutation_map (fun x => Z.abs (snd x)) Ps). clear Ps. induction P; [reflexivity| | |congruence]; rewrite ?zsum_cons; lia. }
    rewrite Q in G. rewrite T0, <- Es, Ed in G. rewrite <- He. destruct (Z.ltb_spec e 0); lia.
Qed.

(** ** Sums of rational numbers *)
Lemma qsum_cons x l : qsum (x :: l) = (x + qsum l)%Q. Proof. reflexivity. Qed.
Lemma qsum_nonneg (l : list (identity * Q)) : (0 <= qsum (map (fun y => Qabs (snd y)) l))%Q.
Proof. induction l as [|d l IH]; [apply Qle_bool_iff; reflexivity|]. cbn [map]. rewrite qsum_cons. pose proof (Qabs_nonneg (snd d)). lra. Qed.
Lemma qsum_perm l l' : Permutation l l' -> (qsum l == qsum l')%Q.
Proof. induction 1; rewrite ?qsum_cons; lra. Qed.
Lemma add_all_exact q x l : (add_all exact Qabs q x l == qsum (map (fun i => Qabs (units exact q x (snd i))) l))%Q.
Proof.
  unfold add_all. cbn [of_Z exact add]. assert (G : forall s, (fold_left (fun s i => s + Qabs (units exact q x (snd i)))%Q l s == s + qsum (map (fun i => Qabs (units exact q x (snd i))) l))%Q); [|rewrite G; change (inject_Z 0) with 0%Q; lra].
  induction l as [|i l IH]; intros s; cbn [fold_left map]; [cbn; lra|]. rewrite IH, qsum_cons. lra.
Qed.
Lemma fold_left_same q x l : fold_left (fun s i => add exact s (Qabs (units exact q x (snd i)))) l (of_Z exact 0) = add_all exact Qabs q x l. Proof. reflexivity. Qed.
Lemma inject_minus a b : (inject_Z (a - b) == inject_Z a - inject_Z b)%Q.
Proof. unfold Z.sub. rewrite inject_Z_plus, inject_Z_opp. lra. Qed.
Lemma whole_abs z q : whole z q -> (inject_Z (Z.abs z) <= Qabs q < inject_Z (Z.abs z) + 1)%Q.
Proof.
  intros W. destruct (Qlt_le_dec q 0) as [L|L].
  - rewrite Qabs_neg by lra. pose proof (whole_opp _ _ W) as W'. assert (N := whole_nonneg _ _ W' ltac:(lra)). rewrite Z.abs_neq by lia. apply whole_pos; [exact W'|lra].
  - rewrite Qabs_pos by lra. assert (N := whole_nonneg _ _ W L). rewrite Z.abs_eq by lia. now apply whole_pos.
Qed.
Lemma whole_near z q : whole z q -> (-(1) < inject_Z z - q < 1)%Q.
Proof. intros [[H1 H2]|[H1 H2]]; lra. Qed.
Lemma sums_abs (us : list Q) : (qsum (map Qabs us) - inject_Z (Z.of_nat (length us)) <= inject_Z (zsum (map (fun u => Z.abs (trunc_Z exact u)) us)) <= qsum (map Qabs us))%Q.
Proof.
  induction us as [|u us IH]; [split; apply Qle_bool_iff; reflexivity|]. cbn [map length]. rewrite zsum_cons, qsum_cons, Nat2Z.inj_succ. unfold Z.succ. rewrite !inject_Z_plus. pose proof (whole_abs _ _ (trunc_whole u)). change (inject_Z 1) with 1%Q. lra.
Qed.
Lemma sums_near (us : list Q) : let d := (inject_Z (zsum (map (trunc_Z exact) us)) - qsum us)%Q in let n := inject_Z (Z.of_nat (length us)) in
  (- n <= d <= n)%Q /\ (us <> [] -> (- n < d < n)%Q).
Proof.
  induction us as [|u us [IH _]]; cbv zeta; [split; [split; apply Qle_bool_iff; reflexivity|congruence]|]. cbn [map length]. rewrite zsum_cons, qsum_cons, Nat2Z.inj_succ. unfold Z.succ. rewrite !inject_Z_plus. pose proof (whole_near _ _ (trunc_whole u)). change (inject_Z 1) with 1%Q. split; [lra|intros _; lra].
Qed.
Lemma bought_half trades : total trades = 0 -> zsum (map (fun x => Z.abs (snd x)) trades) = 2 * bought trades.
Proof.
  intros T. assert (G : zsum (map (fun x => Z.abs (snd x)) trades) = 2 * bought trades - total trades); [|lia]. clear T. unfold bought, total. induction trades as [|x l IH]; [reflexivity|]. cbn [map]. rewrite !zsum_cons. lia.
Qed.
Lemma volume_bounds (us : list (identity * Q)) trades k : NoDup (map fst us) -> allots (map (fun x => (fst x, trunc_Z exact (snd x))) us) trades -> 0 <= k -> (Qabs (qsum (map snd us)) <= inject_Z k)%Q ->
  let n := Z.of_nat (length us) in let v := qsum (map (fun x => Qabs (snd x)) us) in
  (inject_Z (2 * bought trades - n - k) <= v <= inject_Z (2 * bought trades + 2 * n + k))%Q.
Proof.
  intros N Al K C n v. assert (N' : NoDup (map fst (map (fun x : identity * num exact => (fst x, trunc_Z exact (snd x))) us))) by (rewrite map_map; exact N). destruct (allots_spec _ _ N' Al) as (_ & T & _ & D). rewrite (bought_half _ T) in D.
  pose proof (sums_abs (map snd us)) as S1. destruct (sums_near (map snd us)) as [S2 _]. cbv zeta in S2. rewrite map_length in S1, S2. rewrite !map_map in S1. rewrite map_map in S2. unfold total in D. rewrite !map_map in D. cbn [snd] in D.
  assert (C' := proj1 (Qabs_Qle_condition _ _) C). change (num exact) with Q in *. remember (zsum (map (fun x : identity * Q => trunc_Z exact (snd x)) us)) as e. remember (zsum (map (fun x : identity * Q => Z.abs (trunc_Z exact (snd x))) us)) as az. fold n in S1, S2.
  assert (E : Z.abs e <= n + k). { assert (- (n + k) <= e <= n + k); [|lia]. split; rewrite Zle_Qle, ?inject_Z_opp, ?inject_Z_plus; lra. }
  assert (A1 : (inject_Z (2 * bought trades - n - k) <= inject_Z az)%Q) by (rewrite <- Zle_Qle; lia).
  assert (A2 : (inject_Z az <= inject_Z (2 * bought trades + n + k))%Q) by (rewrite <- Zle_Qle; lia).
  assert (I : (inject_Z (2 * bought trades + 2 * n + k) == inject_Z (2 * bought trades + n + k) + inject_Z n)%Q) by (rewrite <- inject_Z_plus; apply inject_Z_injective; lia).
  fold v in S1. lra.
Qed.
Lemma correction_one (us : list (identity * Q)) trades a u v : NoDup (map fst us) -> allots (map (fun x => (fst x, trunc_Z exact (snd x))) us) trades -> (qsum (map snd us) == 0)%Q ->
  In (a, u) us -> In (a, v) trades -> Z.abs (v - trunc_Z exact u) <= 1.
Proof.
  intros N Al C Hu Hv. assert (N' : NoDup (map fst (map (fun x : identity * num exact => (fst x, trunc_Z exact (snd x))) us))) by (rewrite map_map; exact N). destruct (allots_spec _ _ N' Al) as (_ & _ & D & _). specialize (D a (trunc_Z exact u) v). cbv zeta in D.
  assert (Hz : In (a, trunc_Z exact u) (map (fun x => (fst x, trunc_Z exact (snd x))) us)) by (apply in_map_iff; exists (a, u); auto). specialize (D Hz Hv).
  destruct (sums_near (map snd us)) as [_ S2]. cbv zeta in S2. rewrite map_length in S2. rewrite map_map in S2. unfold total in D. rewrite !map_map, map_length in D. cbn [snd] in D.
  assert (S3 := S2 ltac:(destruct us; [destruct Hu|discriminate])). clear S2. change (num exact) with Q in *. remember (zsum (map (fun x : identity * Q => trunc_Z exact (snd x)) us)) as e. remember (Z.of_nat (length us)) as n.
  assert (E : Z.abs e < n). { assert (- n < e < n); [|lia]. split; rewrite Zlt_Qlt, ?inject_Z_opp; lra. }
  rewrite Z.div_small in D by lia. lia.
Qed.
