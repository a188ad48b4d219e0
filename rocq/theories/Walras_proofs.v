(** Lemmas about the clearing of a Walrasian market. *)
From Coq Require Import SpecFloat QArith Qround Qfield ZifyBool ZifyNat.
From Verif Require Import Base Identity Identity_proofs Quantity Inventory Inventory_spec Inventory_proofs StaticTicks StaticTicks_proofs Walras Walras_spec.
Local Open Scope Z_scope.

Lemma eqb_refl i : id_eqb i i = true. Proof. now apply id_eqb_eq. Qed.
Lemma eqb_neq i j : i <> j -> id_eqb i j = false.
Proof. intros H. destruct (id_eqb i j) eqn:E; [apply id_eqb_eq in E; contradiction|reflexivity]. Qed.

(** ** Allocation *)
Lemma truncate_fst demands : forall l, truncate_demands demands = Ret l -> map fst l = map fst demands.
Proof.
  induction demands as [|[a x] ds IH]; cbn [truncate_demands]; intros l H; [injection H as <-; reflexivity|].
  destruct (to_i64 x) as [z| |]; try discriminate. destruct (truncate_demands ds) as [l'| |]; try discriminate.
  injection H as <-. cbn [map fst]. f_equal. now apply IH.
Qed.
Lemma sum_spec l : forall acc e, sum_i64 acc l = Ret e -> e = acc + total l.
Proof.
  induction l as [|[a z] l IH]; cbn [sum_i64]; intros acc e H; unfold total in *; cbn [map snd].
  - injection H as <-. change (zsum []) with 0. lia.
  - rewrite zsum_cons. unfold add_i64 in H. destruct (in_i64 (acc + z)); [|discriminate]. apply IH in H. lia.
Qed.
Lemma correct_one_spec d l : forall k l', correct_one k d l = Ret l' ->
  (k < length l)%nat /\ map fst l' = map fst l /\ total l' = total l + d /\
  forall i, nth_error l' i = if Nat.eqb i k then option_map (fun x => (fst x, snd x + d)) (nth_error l i) else nth_error l i.
Proof.
  induction l as [|[a z] l IH]; intros k l' H; [destruct k; discriminate H|].
  destruct k as [|k]; cbn [correct_one] in H.
  - unfold add_i64 in H. destruct (in_i64 (z + d)); [|discriminate]. injection H as <-. split; [cbn; lia|]. split; [reflexivity|].
    split; [unfold total; cbn [map snd]; rewrite !zsum_cons; lia|]. intros [|i]; reflexivity.
  - destruct (correct_one k d l) as [r| |] eqn:E; try discriminate. injection H as <-. destruct (IH _ _ E) as (L & F & T & N).
    split; [cbn; lia|]. split; [cbn [map]; now rewrite F|]. split; [unfold total in *; cbn [map snd]; rewrite !zsum_cons; lia|].
    intros [|i]; [reflexivity|]. cbn [nth_error]. apply N.
Qed.
(** How many of the first [rounds] corrections hit position [i] of [n]. *)
Definition hits (n rounds i : nat) : nat := (rounds / n + (if Nat.ltb i (rounds mod n) then 1 else 0))%nat.
Lemma hits_succ n r i : (i < n)%nat -> hits n (S r) i = (hits n r i + (if Nat.eqb i (r mod n) then 1 else 0))%nat.
Proof.
  intros H. unfold hits. assert (D := Nat.div_mod r n ltac:(lia)). assert (B := Nat.mod_upper_bound r n ltac:(lia)).
  remember (r / n)%nat as q. remember (r mod n)%nat as m. destruct (Nat.eq_dec (S m) n) as [E|E].
  - assert (Q : (S r / n = S q)%nat) by (symmetry; apply (Nat.div_unique _ _ _ 0%nat); nia).
    assert (M : (S r mod n = 0)%nat) by (symmetry; apply (Nat.mod_unique _ _ (S q) 0%nat); nia).
    rewrite Q, M. destruct (Nat.ltb_spec i 0), (Nat.ltb_spec i m), (Nat.eqb_spec i m); lia.
  - assert (Q : (S r / n = q)%nat) by (symmetry; apply (Nat.div_unique _ _ _ (S m)%nat); nia).
    assert (M : (S r mod n = S m)%nat) by (symmetry; apply (Nat.mod_unique _ _ q (S m)%nat); nia).
    rewrite Q, M. destruct (Nat.ltb_spec i (S m)), (Nat.ltb_spec i m), (Nat.eqb_spec i m); lia.
Qed.
Definition corrected n d rounds (l0 l : list (identity * Z)) : Prop :=
  map fst l = map fst l0 /\ total l = total l0 + Z.of_nat rounds * d /\
  forall i, nth_error l i = option_map (fun x => (fst x, snd x + d * Z.of_nat (hits n rounds i))) (nth_error l0 i).
Lemma corrected_start n d l : corrected n d 0 l l.
Proof.
  split; [reflexivity|]. split; [lia|]. intros i. assert (hits n 0 i = 0)%nat as ->.
  { unfold hits. destruct n; [reflexivity|]. rewrite Nat.div_0_l, Nat.mod_0_l by lia. reflexivity. }
  destruct (nth_error l i) as [[a z]|]; cbn [option_map fst snd]; [|reflexivity]. do 2 f_equal. lia.
Qed.
Lemma correct_spec d l0 : forall m r l res, corrected (length l0) d r l0 l -> correct m r d l = Ret res -> corrected (length l0) d (r + m) l0 res.
Proof.
  induction m as [|m IH]; intros r l res C H; cbn [correct] in H.
  - injection H as <-. now rewrite Nat.add_0_r.
  - destruct (length l) as [|n'] eqn:L; [discriminate|]. destruct C as (F & T & N).
    assert (LL : length l0 = S n') by (rewrite <- L, <- (map_length fst), <- F, map_length; reflexivity).
    destruct (correct_one (r mod S n') d l) as [l'| |] eqn:E; try discriminate.
    destruct (correct_one_spec _ _ _ _ E) as (B & F' & T' & N'). replace (r + S m)%nat with (S r + m)%nat by lia.
    apply (IH (S r) l' res); [|exact H]. split; [congruence|]. split; [lia|]. intros i. rewrite N', N, LL.
    destruct (nth_error l0 i) as [[a z]|] eqn:Ei; cbn [option_map fst snd].
    2:{ destruct (Nat.eqb i (r mod S n')); reflexivity. }
    assert (i < S n')%nat by (rewrite <- LL; apply nth_error_Some; congruence).
    rewrite hits_succ by lia. destruct (Nat.eqb_spec i (r mod S n')); do 2 f_equal; lia.
Qed.
Lemma allocate_spec e s res : e = total s -> allocate e s = Ret res ->
  exists d, corrected (length s) d (Z.to_nat (Z.abs e)) s res /\ total res = 0 /\ d = (if e <? 0 then 1 else -1).
Proof.
  intros Es H. unfold allocate in H. exists (if e <? 0 then 1 else -1). destruct (Z.ltb_spec e 0).
  - apply (correct_spec 1 s) in H; [|apply corrected_start]. replace (0 + Z.to_nat (- e))%nat with (Z.to_nat (Z.abs e)) in H by lia.
    split; [exact H|]. split; [|reflexivity]. destruct H as (_ & T & _). lia.
  - apply (correct_spec (-1) s) in H; [|apply corrected_start]. replace (0 + Z.to_nat e)%nat with (Z.to_nat (Z.abs e)) in H by lia.
    split; [exact H|]. split; [|reflexivity]. destruct H as (_ & T & _). lia.
Qed.
Lemma total_perm l s : Permutation l s -> total l = total s.
Proof. intros P. unfold total. apply zsum_perm. now apply Permutation_map. Qed.
Lemma nodup_nth {X} (l : list (identity * X)) i j a x y : NoDup (map fst l) -> nth_error l i = Some (a, x) -> nth_error l j = Some (a, y) -> i = j.
Proof.
  intros N Hi Hj. apply (NoDup_nth_error (map fst l)); [exact N|rewrite map_length; apply nth_error_Some; congruence|].
  rewrite (map_nth_error fst _ _ Hi), (map_nth_error fst _ _ Hj). reflexivity.
Qed.
Lemma sorted_nth {X} (R : X -> X -> Prop) l : StronglySorted R l -> forall i j x y, (i < j)%nat -> nth_error l i = Some x -> nth_error l j = Some y -> R x y.
Proof.
  induction 1 as [|a l S IH F]; intros i j x y L Hi Hj; [destruct i; discriminate|].
  destruct i as [|i], j as [|j]; cbn [nth_error] in *; [lia| |lia|].
  - injection Hi as <-. rewrite Forall_forall in F. apply F. eapply nth_error_In. exact Hj.
  - eapply IH; [|exact Hi|exact Hj]. lia.
Qed.
Lemma hits_bounds n r i : (0 < n)%nat -> (r / n <= hits n r i <= r / n + 1)%nat.
Proof. intros. unfold hits. destruct (Nat.ltb i (r mod n)); lia. Qed.
Lemma hits_mono n r i j : (i <= j)%nat -> (hits n r j <= hits n r i)%nat.
Proof. intros. unfold hits. destruct (Nat.ltb_spec i (r mod n)), (Nat.ltb_spec j (r mod n)); lia. Qed.
Lemma hits_le n r i : (0 < n)%nat -> (hits n r i <= r)%nat.
Proof.
  intros H. unfold hits. assert (D := Nat.div_mod r n ltac:(lia)). remember (r / n)%nat as q. remember (r mod n)%nat as m.
  assert (q <= n * q)%nat by (clear - H; nia). destruct (Nat.ltb_spec i m); lia.
Qed.
(** The corrections stay in range when the demands are moderate. *)
Lemma correct_one_defined d l : forall k, (k < length l)%nat -> (forall x, nth_error l k = Some x -> in_i64 (snd x + d) = true) -> exists l', correct_one k d l = Ret l'.
Proof.
  induction l as [|[a z] l IH]; intros k L B; cbn [length] in L; [lia|]. destruct k as [|k]; cbn [correct_one].
  - unfold add_i64. specialize (B (a, z) eq_refl). cbn [snd] in B. rewrite B. eexists. reflexivity.
  - destruct (IH k ltac:(lia) B) as [l' E]. rewrite E. eexists. reflexivity.
Qed.
Lemma correct_defined d l0 B : -1 <= d <= 1 -> (0 < length l0)%nat -> (forall x, In x l0 -> Z.abs (snd x) <= B) ->
  forall m r l, corrected (length l0) d r l0 l -> B + Z.of_nat (r + m) < 2 ^ 63 -> exists res, correct m r d l = Ret res.
Proof.
  intros Hd Hn HB. induction m as [|m IH]; intros r l C Hb; cbn [correct]; [eexists; reflexivity|].
  pose proof C as (F & T & N). assert (LL : length l = length l0) by (rewrite <- (map_length fst), F, map_length; reflexivity).
  destruct (length l) as [|n'] eqn:L; [lia|]. rewrite <- L in *.
  assert (K : (r mod length l < length l)%nat) by (apply Nat.mod_upper_bound; lia).
  destruct (correct_one_defined d l (r mod length l) K) as [l' E].
  { intros x Hx. rewrite N in Hx. destruct (nth_error l0 (r mod length l)) as [[a z]|] eqn:E0; [|discriminate]. injection Hx as <-. cbn [snd].
    specialize (HB _ (nth_error_In _ _ E0)). cbn [snd] in HB. pose proof (hits_le (length l0) r (r mod length l) Hn) as Hh.
    unfold in_i64. remember (hits (length l0) r (r mod length l)) as h. clear - Hd HB Hh Hb. nia. }
  rewrite E. apply (IH (S r) l'); [|lia].
  pose proof (correct_spec d l0 1 r l l' C) as Q. rewrite Nat.add_1_r in Q. apply Q. cbn [correct]. destruct (length l) eqn:L2; [lia|]. rewrite <- L2 in *. rewrite L2. rewrite <- L2. rewrite E. reflexivity.
Qed.
Lemma sum_defined l : forall acc, Z.abs acc + zsum (map (fun x => Z.abs (snd x)) l) < 2 ^ 63 -> sum_i64 acc l = Ret (acc + total l).
Proof.
  induction l as [|[a z] l IH]; intros acc H; cbn [sum_i64]; unfold total in *; cbn [map snd] in *.
  - f_equal. change (zsum []) with 0. lia.
  - rewrite zsum_cons in *. assert (0 <= zsum (map (fun x => Z.abs (snd x)) l)).
    { clear. induction l; cbn [map]; [reflexivity|rewrite zsum_cons; lia]. }
    unfold add_i64. assert (in_i64 (acc + z) = true) as -> by (unfold in_i64; lia). rewrite IH by lia. f_equal. lia.
Qed.
Lemma abs_member l : forall x, In x l -> Z.abs (snd x) <= zsum (map (fun x => Z.abs (snd x)) (l : list (identity * Z))).
Proof.
  induction l as [|y l IH]; intros x Hx; [contradiction|]. cbn [map]. rewrite zsum_cons.
  assert (0 <= zsum (map (fun x => Z.abs (snd x)) l)) by (clear; induction l; cbn [map]; [reflexivity|rewrite zsum_cons; lia]).
  destruct Hx as [->|Hx]; [lia|]. specialize (IH _ Hx). lia.
Qed.

(** ** Maps of participants *)
Lemma p_find_app a m1 m2 : p_find a (m1 ++ m2) = match p_find a m1 with Some h => Some h | None => p_find a m2 end.
Proof. induction m1 as [|[k h] m1 IH]; cbn [p_find app]; [reflexivity|]. destruct (id_eqb k a); [reflexivity|exact IH]. Qed.
Lemma p_find_emplace a h m b : p_find b (p_emplace a h m) = match p_find b m with Some x => Some x | None => if id_eqb a b then Some h else None end.
Proof.
  unfold p_emplace. destruct (p_find a m) as [x|] eqn:E.
  - destruct (p_find b m) eqn:F; [reflexivity|]. destruct (id_eqb a b) eqn:G; [|reflexivity]. apply id_eqb_eq in G. congruence.
  - rewrite p_find_app. cbn [p_find]. reflexivity.
Qed.
Lemma p_find_assign a h m b : p_find b (p_assign a h m) = if id_eqb a b then match p_find a m with Some _ => Some h | None => None end else p_find b m.
Proof.
  induction m as [|[k x] m IH]; cbn [p_find p_assign]; [destruct (id_eqb a b); reflexivity|].
  destruct (id_eqb k a) eqn:K.
  - apply id_eqb_eq in K. subst k. cbn [p_find]. destruct (id_eqb a b) eqn:B; reflexivity.
  - cbn [p_find]. destruct (id_eqb k b) eqn:KB.
    + apply id_eqb_eq in KB. subst k. destruct (id_eqb a b) eqn:AB; [|reflexivity]. apply id_eqb_eq in AB. subst. rewrite eqb_refl in K. discriminate.
    + exact IH.
Qed.
Definition opt (o : option holdings) : holdings := match o with Some h => h | None => [] end.
Lemma p_find_insert a k q m b : p_find b (p_insert a k q m) = if id_eqb a b then Some (inv_insert (opt (p_find a m)) k q) else p_find b m.
Proof.
  unfold p_insert. rewrite p_find_emplace, eqb_refl. destruct (p_find a m) as [h|] eqn:E; cbn [opt].
  - rewrite p_find_assign, !p_find_emplace, E. destruct (id_eqb a b) eqn:B; [reflexivity|]. destruct (p_find b m); reflexivity.
  - rewrite p_find_assign, !p_find_emplace, E, eqb_refl. destruct (id_eqb a b) eqn:B; [reflexivity|]. destruct (p_find b m); reflexivity.
Qed.
Lemma listed_opt m a k : listed m a k = held (opt (p_find a m)) k.
Proof. unfold listed. destruct (p_find a m); reflexivity. Qed.
Lemma held_insert h k q j : held (inv_insert h k q) j = if id_eqb k j then match h_find k h with Some v => q_add v q | None => q end else held h j.
Proof.
  unfold inv_insert, held. destruct (h_find k h) as [v|] eqn:E.
  - rewrite h_find_assign, E. destruct (id_eqb k j); reflexivity.
  - rewrite h_find_insert. destruct (id_eqb k j) eqn:B; [apply id_eqb_eq in B; subst j; rewrite E; reflexivity|]. destruct (h_find j h); reflexivity.
Qed.
Lemma insert_keys h k q : NoDup (map fst h) -> NoDup (map fst (inv_insert h k q)).
Proof.
  intros N. unfold inv_insert. destruct (h_find k h) as [v|] eqn:E; [now rewrite assign_keys|]. unfold h_insert. rewrite E, map_app. cbn [map fst].
  apply h_find_none in E. apply (Permutation_NoDup (l := k :: map fst h)); [apply Permutation_cons_append|]. now constructor.
Qed.
Lemma insert_nonempty h k q : inv_insert h k q <> [].
Proof. unfold inv_insert. destruct (h_find k h) eqn:E; [destruct h as [|[k' v'] h]; cbn in *; [discriminate|destruct (id_eqb k' k); discriminate]|]. unfold h_insert. rewrite E. destruct h; discriminate. Qed.

(** ** Netting *)
Lemma erase_keys k h : NoDup (map fst h) -> NoDup (map fst (h_erase k h)).
Proof.
  induction h as [|[a v] h IH]; cbn [h_erase map fst]; intros N; [exact N|]. inversion_clear N. destruct (id_eqb a k); [assumption|].
  cbn [map fst]. constructor; [|now apply IH]. intros H1. apply H. apply in_map_iff in H1 as (x & <- & Hx). apply in_map. now apply (erase_incl k).
Qed.
Lemma held_erase k h j : NoDup (map fst h) -> held (h_erase k h) j = if id_eqb k j then 0 else held h j.
Proof. intros N. unfold held. rewrite h_find_erase by assumption. destruct (id_eqb k j); reflexivity. Qed.
Lemma held_assign k v h j : held (h_assign k v h) j = if id_eqb k j then match h_find k h with Some _ => v | None => 0 end else held h j.
Proof. unfold held. rewrite h_find_assign. destruct (id_eqb k j); [destruct (h_find k h); reflexivity|reflexivity]. Qed.
Lemma net_items_keys r : forall s, map fst (fst (net_items r s)) = map fst r.
Proof.
  induction r as [|[k v] r IH]; intros s; cbn [net_items]; [reflexivity|].
  destruct (if v =? 0 then _ else _) as [v' s']. specialize (IH s'). destruct (net_items r s') as [r'' s'']. cbn [fst map] in *. now rewrite IH.
Qed.
Lemma net_items_send_keys r : forall s, NoDup (map fst s) -> NoDup (map fst (snd (net_items r s))).
Proof.
  induction r as [|[k v] r IH]; intros s N; cbn [net_items]; [exact N|].
  destruct (if v =? 0 then _ else _) as [v' s'] eqn:E.
  assert (N' : NoDup (map fst s')).
  { destruct (v =? 0); [injection E as <- <-; exact N|]. destruct (h_find k s); [|injection E as <- <-; exact N].
    destruct (v >? z); [injection E as <- <-; now apply erase_keys|]. destruct (v <? z); injection E as <- <-; [now rewrite assign_keys|now apply erase_keys]. }
  specialize (IH s' N'). destruct (net_items r s') as [r'' s'']. exact IH.
Qed.
Lemma nonneg_held h k : Forall (fun kv => 0 <= snd kv) h -> 0 <= held h k.
Proof.
  intros F. unfold held. destruct (h_find k h) eqn:E; [|lia]. apply h_find_in in E. rewrite Forall_forall in F. now apply F in E.
Qed.
Lemma net_step k v s v' s' : NoDup (map fst s) -> 0 <= v -> Forall (fun kv => 0 <= snd kv) s ->
  (if v =? 0 then (v, s) else match h_find k s with
    | None => (v, s)
    | Some x => if v >? x then (v - x, h_erase k s) else if v <? x then (v, h_assign k (x - v) s) else (v, h_erase k s) end) = (v', s') ->
  v' = (if v >? held s k then v - held s k else v) /\ held s' k = (if v =? 0 then held s k else if v >=? held s k then 0 else held s k - v) /\
  (forall j, j <> k -> held s' j = held s j) /\ NoDup (map fst s') /\ Forall (fun kv => 0 <= snd kv) s'.
Proof.
  intros N Hv F H. pose proof (nonneg_held s k F) as P. destruct (Z.eqb_spec v 0) as [->|V].
  - injection H as <- <-. split; [destruct (Z.gtb_spec 0 (held s k)); lia|]. split; [reflexivity|]. auto.
  - destruct (h_find k s) as [x|] eqn:E; [assert (X : held s k = x) by (unfold held; now rewrite E)|assert (X : held s k = 0) by (unfold held; now rewrite E)]; rewrite X in *.
    + destruct (Z.gtb_spec v x).
      * injection H as <- <-. split; [reflexivity|]. destruct (Z.geb_spec v x); [|lia]. rewrite held_erase by assumption. rewrite eqb_refl.
        split; [reflexivity|]. split; [intros j Hj; rewrite held_erase by assumption; rewrite eqb_neq by congruence; reflexivity|].
        split; [now apply erase_keys|]. rewrite Forall_forall in *. intros y Hy. apply F. now apply (erase_incl k).
      * destruct (Z.ltb_spec v x).
        -- injection H as <- <-. split; [reflexivity|]. destruct (Z.geb_spec v x); [lia|]. rewrite held_assign, E, eqb_refl.
           split; [reflexivity|]. split; [intros j Hj; rewrite held_assign; rewrite eqb_neq by congruence; reflexivity|].
           split; [now rewrite assign_keys|]. clear - F H1. induction s as [|[a y] s IH]; cbn [h_assign]; [constructor|]. inversion_clear F.
           destruct (id_eqb a k); constructor; cbn [snd]; auto; lia.
        -- injection H as <- <-. split; [reflexivity|]. destruct (Z.geb_spec v x); [|lia]. rewrite held_erase by assumption. rewrite eqb_refl.
           split; [reflexivity|]. split; [intros j Hj; rewrite held_erase by assumption; rewrite eqb_neq by congruence; reflexivity|].
           split; [now apply erase_keys|]. rewrite Forall_forall in *. intros y Hy. apply F. now apply (erase_incl k).
    + injection H as <- <-. split; [destruct (Z.gtb_spec v 0); lia|]. split; [destruct (Z.geb_spec v 0); lia|]. auto.
Qed.
Lemma net_items_held r : forall s, NoDup (map fst r) -> NoDup (map fst s) -> Forall (fun kv => 0 <= snd kv) r -> Forall (fun kv => 0 <= snd kv) s ->
  forall k, held (fst (net_items r s)) k = (if held r k >? held s k then held r k - held s k else held r k) /\
            held (snd (net_items r s)) k = (if held r k =? 0 then held s k else if held r k >=? held s k then 0 else held s k - held r k).
Proof.
  induction r as [|[a v] r IH]; intros s Nr Ns Fr Fs k.
  - cbn [net_items fst snd]. change (held [] k) with 0. pose proof (nonneg_held s k Fs). split; [destruct (Z.gtb_spec 0 (held s k)); lia|reflexivity].
  - cbn [net_items]. match goal with |- context [let '(_, _) := ?X in _] => destruct X as [v' s'] eqn:E end.
    inversion_clear Nr. inversion_clear Fr. apply net_step in E as (Ev & Es & Eo & Ns' & Fs'); [|assumption..].
    specialize (IH s' H0 Ns' H2 Fs' k). destruct (net_items r s') as [r'' s''] eqn:En. cbn [fst snd] in *. rewrite !held_cons.
    destruct (id_eqb a k) eqn:K.
    + apply id_eqb_eq in K. subst k. assert (Z0 : held r a = 0).
      { unfold held. destruct (h_find a r) eqn:Q; [|reflexivity]. exfalso. apply H. apply h_find_in in Q. apply in_map_iff. now exists (a, z). }
      rewrite Z0 in IH. destruct IH as [_ I2]. split; [exact Ev|]. rewrite I2. cbn. exact Es.
    + rewrite Eo in IH by (intros ->; rewrite eqb_refl in K; discriminate). exact IH.
Qed.

(** ** Settlement *)
Section S.
Context (A : arith) (usd : identity) (short_of : identity -> identity) (supply : identity -> identity -> Z * Z).
(** The part of [settle] that concerns the participant. *)
Definition own (t : traded) (a : identity) (st : option holdings * option holdings) (v : Z) : option holdings * option holdings :=
  let '(s, r) := st in
  let '(long, short) := supply a (t_id t) in
  if v =? 0 then st
  else if v >? 0 then
    let c := if short >? 0 then Z.min v short else 0 in
    let r := if short >? 0 then Some (inv_insert (inv_insert (opt r) (short_of (t_id t)) c) usd (cash A c (t_old t) (t_lot t))) else r in
    if v - c >? 0 then
      (match s with Some x => Some x | None => Some [(t_id t, v - c)] end, Some (inv_insert (opt r) usd (cash A (v - c) (t_price t) (t_lot t))))
    else (s, r)
  else
    let c := if long >? 0 then Z.min (- v) long else 0 in
    let r := if long >? 0 then Some (inv_insert (opt r) (t_id t) c) else r in
    let s := if long >? 0 then Some (inv_insert (opt s) usd (cash A c (t_price t) (t_lot t))) else s in
    if v + c <? 0 then (Some (inv_insert (inv_insert (opt s) usd (cash A (- (v + c)) (t_price t) (t_lot t))) (short_of (t_id t)) (- (v + c))), r)
    else (s, r).
Definition view (b : identity) (st : parties * parties) := (p_find b (fst st), p_find b (snd st)).
Lemma settle_other t st a v b : id_eqb a b = false -> view b (settle A usd short_of supply t st (a, v)) = view b st.
Proof.
  intros H. destruct st as [s r]. unfold settle, view. destruct (supply a (t_id t)) as [long short].
  destruct (v =? 0); [reflexivity|]. cbn [fst snd].
  destruct (v >? 0).
  - destruct (short >? 0); [destruct (v - Z.min v short >? 0)|destruct (v - 0 >? 0)]; cbn [fst snd]; rewrite ?p_find_emplace, ?p_find_insert, ?H;
      try reflexivity; destruct (p_find b s); reflexivity.
  - destruct (long >? 0); [destruct (v + Z.min (- v) long <? 0)|destruct (v + 0 <? 0)]; cbn [fst snd]; rewrite ?p_find_insert, ?H; reflexivity.
Qed.
Lemma settle_own t st a v : view a (settle A usd short_of supply t st (a, v)) = own t a (view a st) v.
Proof.
  destruct st as [s r]. unfold settle, view, own. destruct (supply a (t_id t)) as [long short]. cbn [fst snd].
  destruct (v =? 0); [reflexivity|]. destruct (v >? 0).
  - destruct (short >? 0); [destruct (v - Z.min v short >? 0)|destruct (v - 0 >? 0)]; cbn [fst snd]; rewrite ?p_find_emplace, ?p_find_insert, ?eqb_refl; cbn [opt];
      try reflexivity; destruct (p_find a s); reflexivity.
  - destruct (long >? 0); [destruct (v + Z.min (- v) long <? 0)|destruct (v + 0 <? 0)]; cbn [fst snd]; rewrite ?p_find_insert, ?eqb_refl; cbn [opt]; reflexivity.
Qed.
Lemma settle_list_other t trades : forall st b, ~ In b (map fst trades) -> view b (fold_left (settle A usd short_of supply t) trades st) = view b st.
Proof.
  induction trades as [|[a v] trades IH]; intros st b H; cbn [fold_left]; [reflexivity|]. cbn [map fst In] in H.
  rewrite IH by tauto. apply settle_other. apply eqb_neq. intros ->. tauto.
Qed.
Lemma settle_list_own t trades : forall st a v, NoDup (map fst trades) -> In (a, v) trades ->
  view a (fold_left (settle A usd short_of supply t) trades st) = own t a (view a st) v.
Proof.
  induction trades as [|[b w] trades IH]; intros st a v N H; [contradiction|]. cbn [fold_left]. inversion_clear N. destruct H as [E|H].
  - injection E as -> ->. rewrite settle_list_other by assumption. apply settle_own.
  - rewrite (IH _ a v) by assumption. f_equal. apply settle_other. apply eqb_neq. intros ->. apply H0. cbn [fst]. apply in_map_iff. exists (a, v). auto.
Qed.
End S.
(** Entries are never empty and have distinct keys. *)
Definition good (m : parties) : Prop := NoDup (map fst m) /\ Forall (fun kv => snd kv <> [] /\ NoDup (map fst (snd kv))) m.
Lemma good_nil : good []. Proof. split; constructor. Qed.
Lemma p_find_none a m : p_find a m = None <-> ~ In a (map fst m).
Proof.
  induction m as [|[k h] m IH]; cbn [p_find map fst In]; [tauto|]. destruct (id_eqb k a) eqn:E.
  - apply id_eqb_eq in E. split; [discriminate|]. intros H. exfalso. auto.
  - rewrite IH. split; [|tauto]. intros H [->|H1]; [rewrite eqb_refl in E; discriminate|tauto].
Qed.
Lemma p_find_in a m h : p_find a m = Some h -> In (a, h) m.
Proof. induction m as [|[k x] m IH]; cbn [p_find]; [discriminate|]. destruct (id_eqb k a) eqn:E; [apply id_eqb_eq in E; intros H; injection H as ->; subst; left; reflexivity|intros; right; auto]. Qed.
Lemma p_assign_keys a h m : map fst (p_assign a h m) = map fst m.
Proof. induction m as [|[k x] m IH]; cbn [p_assign]; [reflexivity|]. destruct (id_eqb k a); cbn [map fst]; [reflexivity|now rewrite IH]. Qed.
Lemma good_assign a h m : good m -> h <> [] -> NoDup (map fst h) -> good (p_assign a h m).
Proof.
  intros [N F] H K. split; [now rewrite p_assign_keys|]. clear N. induction m as [|[k x] m IH]; cbn [p_assign]; [constructor|].
  inversion_clear F. destruct (id_eqb k a); constructor; auto.
Qed.
Lemma good_app a h m : good m -> p_find a m = None -> h <> [] -> NoDup (map fst h) -> good (m ++ [(a, h)]).
Proof.
  intros [N F] E H K. apply p_find_none in E. split.
  - rewrite map_app. cbn [map fst]. apply (Permutation_NoDup (l := a :: map fst m)); [apply Permutation_cons_append|now constructor].
  - apply Forall_app. split; [exact F|]. constructor; [auto|constructor].
Qed.
Lemma good_emplace a h m : good m -> h <> [] -> NoDup (map fst h) -> good (p_emplace a h m).
Proof. intros G H K. unfold p_emplace. destruct (p_find a m) eqn:E; [exact G|]. now apply good_app. Qed.
Lemma assign_last a h x m : p_find a m = None -> p_assign a h (m ++ [(a, x)]) = m ++ [(a, h)].
Proof.
  induction m as [|[k y] m IH]; cbn [p_find p_assign app]; intros H; [now rewrite eqb_refl|]. destruct (id_eqb k a); [discriminate|]. now rewrite IH.
Qed.
Lemma good_insert a k q m : good m -> good (p_insert a k q m).
Proof.
  intros G. unfold p_insert. rewrite p_find_emplace, eqb_refl. unfold p_emplace. destruct (p_find a m) as [h|] eqn:E.
  - apply good_assign; [exact G|apply insert_nonempty|]. apply insert_keys. apply p_find_in in E. destruct G as [_ F]. rewrite Forall_forall in F. now apply F in E.
  - rewrite assign_last by assumption. apply good_app; [assumption|assumption|apply insert_nonempty|]. apply insert_keys. constructor.
Qed.
Lemma settle_good A usd short_of supply t st x : good (fst st) -> good (snd st) ->
  good (fst (settle A usd short_of supply t st x)) /\ good (snd (settle A usd short_of supply t st x)).
Proof.
  intros G1 G2. destruct st as [s r], x as [a v]. unfold settle. destruct (supply a (t_id t)) as [long short]. cbn [fst snd] in *.
  destruct (v =? 0); [auto|]. destruct (v >? 0).
  - destruct (short >? 0); [destruct (v - Z.min v short >? 0)|destruct (v - 0 >? 0)]; cbn [fst snd]; split; auto using good_insert;
      apply good_emplace; auto; try discriminate; repeat constructor; intros [].
  - destruct (long >? 0); [destruct (v + Z.min (- v) long <? 0)|destruct (v + 0 <? 0)]; cbn [fst snd]; split; auto using good_insert.
Qed.
Lemma settle_list_good A usd short_of supply t trades : forall st, good (fst st) -> good (snd st) ->
  good (fst (fold_left (settle A usd short_of supply t) trades st)) /\ good (snd (fold_left (settle A usd short_of supply t) trades st)).
Proof.
  induction trades as [|x trades IH]; intros st G1 G2; cbn [fold_left]; [auto|]. destruct (settle_good A usd short_of supply t st x G1 G2). now apply IH.
Qed.
Lemma settle_all_good A usd short_of supply l : good (fst (settle_all A usd short_of supply l)) /\ good (snd (settle_all A usd short_of supply l)).
Proof.
  unfold settle_all. assert (G : good (fst (([], []) : parties * parties)) /\ good (snd (([], []) : parties * parties))) by (split; apply good_nil).
  revert G. generalize (([], []) : parties * parties). induction l as [|[t trades] l IH]; intros st [G1 G2]; cbn [fold_left]; [auto|].
  apply IH. now apply settle_list_good.
Qed.
(** Netting over all participants is netting for each. *)
Definition no_empty (m : parties) : Prop := Forall (fun kv => snd kv <> []) m.
Lemma net_all_defined receive : forall send, Forall (fun kv => snd kv <> []) receive -> exists s l, net_all receive send = Ret (s, l).
Proof.
  induction receive as [|[a r] receive IH]; intros send F; cbn [net_all]; [eexists _, _; reflexivity|]. inversion_clear F. cbn [snd] in H.
  destruct (p_find a send) as [s|].
  - pose proof (net_items_keys r s) as K. destruct (net_items r s) as [r' s']. cbn [fst] in K. destruct r' as [|x r']; [destruct r; [contradiction|discriminate]|].
    destruct (IH (p_assign a s' send) H0) as (s1 & l1 & E). rewrite E. eexists _, _. reflexivity.
  - destruct (IH send H0) as (s1 & l1 & E). rewrite E. eexists _, _. reflexivity.
Qed.
Lemma net_all_view receive : forall send s l, NoDup (map fst receive) -> net_all receive send = Ret (s, l) -> forall b,
  match p_find b receive, p_find b send with
  | Some r, Some x => p_find b l = Some (fst (net_items r x)) /\ p_find b s = Some (snd (net_items r x))
  | _, _ => p_find b l = p_find b receive /\ p_find b s = p_find b send
  end.
Proof.
  induction receive as [|[a r] receive IH]; intros send s l N H b; cbn [net_all] in H.
  - injection H as <- <-. cbn [p_find]. auto.
  - inversion_clear N. apply p_find_none in H0. destruct (p_find a send) as [x|] eqn:E.
    + destruct (net_items r x) as [r' x'] eqn:En. destruct r' as [|y r']; [discriminate|].
      destruct (net_all receive (p_assign a x' send)) as [[s1 l1]| |] eqn:E1; try discriminate. injection H as <- <-.
      specialize (IH _ _ _ H1 E1 b). rewrite p_find_assign, E in IH. cbn [p_find]. destruct (id_eqb a b) eqn:B.
      * apply id_eqb_eq in B. subst b. rewrite E. rewrite H0 in IH. rewrite En. cbn [fst snd]. destruct IH as [_ I2]. auto.
      * exact IH.
    + destruct (net_all receive send) as [[s1 l1]| |] eqn:E1; try discriminate. injection H as <- <-.
      specialize (IH _ _ _ H1 E1 b). cbn [p_find]. destruct (id_eqb a b) eqn:B; [|exact IH].
      apply id_eqb_eq in B. subst b. rewrite E in *. rewrite H0 in IH. split; [reflexivity|tauto].
Qed.

(** A market with one property: netting changes nothing. *)
Lemma net_disjoint r s : NoDup (map fst r) -> NoDup (map fst s) -> Forall (fun kv => 0 <= snd kv) r -> Forall (fun kv => 0 <= snd kv) s ->
  (forall k, held r k = 0 \/ held s k = 0) -> forall k, held (fst (net_items r s)) k = held r k /\ held (snd (net_items r s)) k = held s k.
Proof.
  intros N1 N2 F1 F2 D k. pose proof (net_items_held r s N1 N2 F1 F2 k) as [-> ->]. pose proof (nonneg_held r k F1). pose proof (nonneg_held s k F2). specialize (D k).
  destruct (Z.gtb_spec (held r k) (held s k)), (Z.eqb_spec (held r k) 0), (Z.geb_spec (held r k) (held s k)); lia.
Qed.
Lemma insert_nonneg h k q : 0 <= q -> Forall (fun kv => 0 <= snd kv) h -> Forall (fun kv : identity * Z => 0 <= snd kv) (inv_insert h k q).
Proof.
  intros Hq F. unfold inv_insert. destruct (h_find k h) as [v|] eqn:E.
  - assert (0 <= q_add v q) by (apply Z.mod_pos_bound; reflexivity). clear E. induction h as [|[a y] h IH]; cbn [h_assign]; [constructor|]. inversion_clear F.
    destruct (id_eqb a k); constructor; cbn [snd]; auto.
  - unfold h_insert. rewrite E. apply Forall_app. split; [exact F|]. constructor; [exact Hq|constructor].
Qed.
Lemma held_none h k : h_find k h = None -> held h k = 0.
Proof. unfold held. now intros ->. Qed.
Lemma one_property_gen A usd so supply t trades send receive :
  t_id t <> usd -> so (t_id t) <> usd -> so (t_id t) <> t_id t -> NoDup (map fst trades) ->
  (forall a, 0 <= fst (supply a (t_id t)) /\ 0 <= snd (supply a (t_id t))) ->
  (forall n, 0 <= n -> 0 <= cash A n (t_price t) (t_lot t)) -> (forall a n, 0 <= n <= snd (supply a (t_id t)) -> 0 < n -> 0 <= cash A n (t_old t) (t_lot t)) ->
  clear A usd so supply [(t, trades)] = Ret (send, receive) -> forall a v, In (a, v) trades -> forall k,
  listed send a k = held (opt (fst (own A usd so supply t a (None, None) v))) k /\
  listed receive a k = held (opt (snd (own A usd so supply t a (None, None) v))) k.
Proof.
  intros N1 N2 N3 Nd Hs Hc Hc' Hcl a v Ha k.
  unfold clear in Hcl. destruct (settle_all A usd so supply [(t, trades)]) as [s r] eqn:E.
  unfold settle_all in E. cbn [fold_left fst snd] in E.
  pose proof (settle_list_own A usd so supply t trades ([], []) a v Nd Ha) as V. rewrite E in V. unfold view in V. cbn [fst snd p_find] in V.
  pose proof (settle_list_good A usd so supply t trades ([], []) good_nil good_nil) as [[_ Gs] [Nr Gr]]. rewrite E in Nr, Gs, Gr. cbn [fst snd] in Nr, Gs, Gr.
  pose proof (net_all_view _ _ _ _ Nr Hcl a) as W. rewrite !listed_opt. rewrite <- V. cbn [fst snd].
  destruct (p_find a r) as [x|] eqn:Ex; [|destruct W as [-> ->]; auto]. destruct (p_find a s) as [y|] eqn:Ey; [|destruct W as [-> ->]; auto].
  destruct W as [-> ->]. cbn [opt]. apply p_find_in in Ex, Ey. rewrite Forall_forall in Gs, Gr. apply Gr in Ex as [_ Kx]. apply Gs in Ey as [_ Ky]. cbn [snd] in Kx, Ky.
  assert (D : Forall (fun kv => 0 <= snd kv) x /\ Forall (fun kv => 0 <= snd kv) y /\ forall j, held x j = 0 \/ held y j = 0).
  { assert (K1 : id_eqb usd (t_id t) = false) by (apply eqb_neq; congruence). assert (K2 : id_eqb usd (so (t_id t)) = false) by (apply eqb_neq; congruence).
    assert (K3 : id_eqb (so (t_id t)) (t_id t) = false) by (apply eqb_neq; congruence). assert (K4 : id_eqb (t_id t) (so (t_id t)) = false) by (apply eqb_neq; congruence).
    assert (K5 : id_eqb (so (t_id t)) usd = false) by (apply eqb_neq; congruence). assert (K6 : id_eqb (t_id t) usd = false) by (apply eqb_neq; congruence).
    specialize (Hs a). specialize (Hc' a). unfold own in V. destruct (supply a (t_id t)) as [long short]. cbn [fst snd] in Hs, Hc'.
    destruct (Z.eqb_spec v 0); [discriminate|]. cbv zeta in V. destruct (Z.gtb_spec v 0) as [Vp|Vn].
    - destruct (Z.gtb_spec short 0) as [Sp|Sz]; [destruct (Z.gtb_spec (v - Z.min v short) 0) as [R|R]|destruct (Z.gtb_spec (v - 0) 0) as [R|R]]; try discriminate.
      + injection V as -> ->. cbn [opt].
        assert (0 <= cash A (Z.min v short) (t_old t) (t_lot t)) by (apply Hc'; lia).
        split; [apply insert_nonneg; [apply Hc; lia|]; apply insert_nonneg; [assumption|]; apply insert_nonneg; [lia|constructor]|].
        split; [constructor; [cbn; lia|constructor]|]. intros j. rewrite !held_insert, held_cons. destruct (id_eqb (t_id t) j) eqn:J; [left|right; reflexivity].
        apply id_eqb_eq in J. subst j. rewrite K1, K3. reflexivity.
      + injection V as -> ->. cbn [opt]. split; [apply insert_nonneg; [apply Hc; lia|constructor]|]. split; [constructor; [cbn; lia|constructor]|].
        intros j. rewrite !held_insert, held_cons. destruct (id_eqb (t_id t) j) eqn:J; [left|right; reflexivity]. apply id_eqb_eq in J. subst j. rewrite K1. reflexivity.
    - destruct (Z.gtb_spec long 0) as [Sp|Sz]; [destruct (Z.ltb_spec (v + Z.min (- v) long) 0) as [R|R]|destruct (Z.ltb_spec (v + 0) 0) as [R|R]]; try discriminate;
        injection V as -> ->; cbn [opt].
      + split; [apply insert_nonneg; [lia|constructor]|]. split; [apply insert_nonneg; [lia|]; apply insert_nonneg; [apply Hc; lia|]; apply insert_nonneg; [apply Hc; lia|constructor]|].
        intros j. rewrite !held_insert. destruct (id_eqb (t_id t) j) eqn:J; [right|left; reflexivity]. apply id_eqb_eq in J. subst j. rewrite K3, K1. reflexivity.
      + split; [apply insert_nonneg; [lia|constructor]|]. split; [apply insert_nonneg; [apply Hc; lia|constructor]|].
        intros j. rewrite !held_insert. destruct (id_eqb (t_id t) j) eqn:J; [right|left; reflexivity]. apply id_eqb_eq in J. subst j. rewrite K1. reflexivity. }
  destruct D as (D1 & D2 & D3). pose proof (net_disjoint x y Kx Ky D1 D2 D3 k). tauto.
Qed.
Lemma one_property A usd so supply t trades send receive :
  t_id t <> usd -> so (t_id t) <> usd -> so (t_id t) <> t_id t -> NoDup (map fst trades) ->
  (forall a, 0 <= fst (supply a (t_id t)) /\ 0 <= snd (supply a (t_id t))) ->
  (forall n, 0 <= n -> 0 <= cash A n (t_price t) (t_lot t) /\ 0 <= cash A n (t_old t) (t_lot t)) ->
  clear A usd so supply [(t, trades)] = Ret (send, receive) -> forall a v, In (a, v) trades -> forall k,
  listed send a k = held (opt (fst (own A usd so supply t a (None, None) v))) k /\
  listed receive a k = held (opt (snd (own A usd so supply t a (None, None) v))) k.
Proof.
  intros N1 N2 N3 Nd Hs Hc Hcl a v Ha k. eapply one_property_gen; eauto.
  - intros n Hn. now apply Hc.
  - intros b n Hn Hn'. apply Hc. lia.
Qed.
Lemma h_find_other h k q j : id_eqb k j = false -> h_find j (inv_insert h k q) = h_find j h.
Proof.
  intros K. unfold inv_insert. destruct (h_find k h) eqn:E; [rewrite h_find_assign, K; reflexivity|]. rewrite h_find_insert, K. destruct (h_find j h); reflexivity.
Qed.

(** ** Cash *)
Lemma cash_exact units price lot : 0 <= units -> 0 <= price -> 0 < lot -> cash exact units price lot = units * price / lot.
Proof.
  intros. unfold cash. apply trunc_frac; [now apply Z.mul_nonneg_nonneg|assumption|]. cbn [mul div of_Z exact]. rewrite inject_Z_mult. change (inject_Z 100) with (100 # 1)%Q.
  field. apply inject_nz. lia.
Qed.

Lemma one_property_cash usd so supply t trades send receive :
  t_id t <> usd -> so (t_id t) <> usd -> so (t_id t) <> t_id t -> NoDup (map fst trades) ->
  (forall a, 0 <= fst (supply a (t_id t)) /\ snd (supply a (t_id t)) = 0) -> t_lot t = 1 -> 0 <= t_price t ->
  clear exact usd so supply [(t, trades)] = Ret (send, receive) -> forall a v, In (a, v) trades -> forall k,
  listed receive a k = held (opt (snd (own exact usd so supply t a (None, None) v))) k /\
  listed send a k = held (opt (fst (own exact usd so supply t a (None, None) v))) k.
Proof.
  intros N1 N2 N3 Nd Hs Hl Hp Hcl a v Ha k. apply and_comm. eapply one_property_gen; eauto.
  - intros b. specialize (Hs b). lia.
  - intros n Hn. rewrite cash_exact by lia. apply Z.div_pos; [now apply Z.mul_nonneg_nonneg|lia].
  - intros b n Hn Hn'. specialize (Hs b). lia.
Qed.

(** ** Prices *)
Lemma round_aux_sign prec emax sx mx ex lx : match binary_round_aux prec emax sx mx ex lx with S754_finite s _ _ => s = sx | _ => True end.
Proof.
  unfold binary_round_aux. destruct (shr_fexp _ _ _ _ _) as [mrs e]. destruct (shr_fexp _ _ _ _ _) as [mrs' e']. destruct (shr_m mrs'); auto.
  destruct (e' <=? emax - prec); auto.
Qed.
Lemma mul_sign x y : match x, y with S754_finite sx _ _, S754_finite sy _ _ => match SFmul 53 1024 x y with S754_finite s _ _ => s = xorb sx sy | _ => True end | _, _ => True end.
Proof. destruct x, y; auto. cbn [SFmul]. apply round_aux_sign. Qed.
