From Verif Require Import Base BlockPool BlockPool_spec.
From Coq Require Import ZifyBool ZifyNat.

Section Pool.
Context {A : Type}.
Implicit Types (p : pool A).

Lemma set_same (f : nat -> block A) i b : set_block f i b i = b.
Proof. unfold set_block. now rewrite Nat.eqb_refl. Qed.
Lemma set_other (f : nat -> block A) i j b : i <> j -> set_block f i b j = f j.
Proof. unfold set_block. intros H. destruct (Nat.eqb_spec j i); [congruence|reflexivity]. Qed.

(** The free list. *)
Fixpoint chain (f : nat -> block A) (o : option nat) (l : list nat) : Prop :=
  match l with
  | [] => o = None
  | i :: l' => o = Some i /\ chain f (b_next (f i)) l'
  end.
Lemma chain_set f o l i b : ~ In i l -> chain f o l -> chain (set_block f i b) o l.
Proof.
  revert o. induction l as [|j l IH]; intros o Hn; cbn; [auto|]. intros [-> H]. split; [reflexivity|].
  rewrite set_other by (intros ->; apply Hn; left; reflexivity). apply IH; [intros X; apply Hn; right; exact X|exact H].
Qed.
Lemma chain_next f i b o l : ~ In i l -> chain f o l -> b_next b = o -> chain (set_block f i b) (Some i) (i :: l).
Proof. intros Hn H E. cbn. split; [reflexivity|]. rewrite set_same, E. now apply chain_set. Qed.

Record inv (capacity : Z) p (live : list (Z * A)) (handed : list Z) (free : list nat) : Prop := mk_inv {
  i_cap : 0 < capacity /\ cap p = capacity;
  i_chain : chain (blocks p) (end_ p) free;
  i_perm : Permutation (free ++ map (fun x => slot p (fst x)) live) (seq 0 (Z.to_nat capacity));
  i_live : Forall (fun x => b_index (blocks p (slot p (fst x))) = fst x /\ b_data (blocks p (slot p (fst x))) = snd x /\ 0 <= fst x < highest_ p) live;
  i_size : size_ p = Z.of_nat (length live);
  i_handed : StronglySorted (fun a b => b < a) handed /\ Forall (fun h => 0 <= h < highest_ p) handed;
  i_from : Forall (fun x => In (fst x) handed) live;
  i_bounds : 0 <= round_ p <= 3 * Z.of_nat (length handed) /\ 0 <= back_ p <= capacity + 1 /\ 0 <= highest_ p <= (round_ p + 1) * capacity }.

Lemma slot_cap p p' h : cap p = cap p' -> slot p h = slot p' h.
Proof. unfold slot. intros ->. reflexivity. Qed.
Lemma slot_lt p h : 0 < cap p -> (slot p h < Z.to_nat (cap p))%nat.
Proof. intros H. unfold slot. assert (0 <= h mod cap p < cap p) by (apply Z.mod_pos_bound; lia). lia. Qed.
Lemma chain_seq capacity d n : forall k, (Z.of_nat k + Z.of_nat n = capacity) ->
  chain (fun i => mk_block d 0 (if Z.of_nat i + 1 <? capacity then Some (S i) else None)) (if Z.of_nat k <? capacity then Some k else None) (seq k n).
Proof.
  induction n as [|n IH]; intros k Hk; cbn [seq chain].
  - destruct (Z.ltb_spec (Z.of_nat k) capacity); [lia|reflexivity].
  - destruct (Z.ltb_spec (Z.of_nat k) capacity); [|lia]. split; [reflexivity|]. cbn [b_next]. specialize (IH (S k)).
    replace (Z.of_nat k + 1) with (Z.of_nat (S k)) by lia. apply IH. lia.
Qed.
Lemma new_inv (d : A) capacity p : new_pool d capacity = Ret p -> inv capacity p [] [] (seq 0 (Z.to_nat capacity)).
Proof.
  unfold new_pool. destruct (Z.leb_spec capacity 0); [discriminate|]. intros [= <-]. constructor; cbn; try (constructor; fail).
  - lia.
  - pose proof (chain_seq capacity d (Z.to_nat capacity) 0 ltac:(lia)) as H0. cbn [Z.of_nat] in H0. destruct (Z.ltb_spec 0 capacity); [|lia]. exact H0.
  - rewrite app_nil_r. reflexivity.
  - split; constructor.
  - lia.
Qed.
Lemma w64_id x : 0 <= x < W64 -> w64 x = x.
Proof. intros H. unfold w64. now rewrite Z.mod_small. Qed.

Lemma free_head capacity p live handed free : inv capacity p live handed free -> size_ p < capacity ->
  exists i free', free = i :: free' /\ end_ p = Some i /\ (i < Z.to_nat capacity)%nat /\ ~ In i free' /\
    ~ In i (map (fun x => slot p (fst x)) live).
Proof.
  intros I Hlt. destruct I. destruct free as [|i free'].
  - exfalso. apply Permutation_length in i_perm0. rewrite app_length, seq_length, map_length in i_perm0. cbn in i_perm0. lia.
  - exists i, free'. cbn in i_chain0. split; [reflexivity|]. split; [apply i_chain0|].
    assert (N : NoDup ((i :: free') ++ map (fun x => slot p (fst x)) live)) by (eapply Permutation_NoDup; [symmetry; exact i_perm0|apply seq_NoDup]).
    assert (B : In i (seq 0 (Z.to_nat capacity))) by (eapply Permutation_in; [exact i_perm0|left; reflexivity]). apply in_seq in B.
    cbn in N. inversion N as [|? ? N1 N2]; subst. split; [lia|]. split; intros X; apply N1; apply in_or_app; auto.
Qed.
Lemma emplace_full p e : size_ p >= cap p -> emplace p e = Throw.
Proof. intros H. unfold emplace. destruct (size_ p >=? cap p) eqn:E; [reflexivity|lia]. Qed.

Lemma div_slot r c i : 0 <= i < c -> (r * c + i) mod c = i.
Proof. intros H. rewrite Z.add_comm, Z.mod_add by lia. now apply Z.mod_small. Qed.
Lemma emplace_ok capacity p live handed free e : inv capacity p live handed free -> few capacity (0 :: handed) -> size_ p < capacity ->
  exists p' h i, emplace p e = Ret (p', h, i) /\ end_ p = Some i /\ h mod capacity = Z.of_nat i /\ highest_ p <= h /\
    blocks p' = set_block (blocks p) i (mk_block e (b_index (blocks p i)) (b_next (blocks p i))) /\
    cap p' = capacity /\ end_ p' = b_next (blocks p i) /\ size_ p' = size_ p + 1 /\ highest_ p' = h + 1 /\
    round_ p <= round_ p' <= round_ p + 3 /\ 0 <= back_ p' <= capacity + 1 /\ h + 1 <= (round_ p' + 1) * capacity /\ 0 <= h.
Proof.
  intros I F Hlt. destruct (free_head _ _ _ _ _ I Hlt) as (i & free' & -> & E & Hi & _). destruct I. destruct i_cap0 as [C1 C2].
  unfold few in F. cbn [length] in F. unfold emplace. rewrite C2. destruct (size_ p >=? capacity) eqn:X; [lia|]. rewrite E.
  set (off := Z.of_nat i). assert (Ho : 0 <= off < capacity) by lia. destruct i_bounds0 as ((R1 & R2) & (B1 & B2) & (H1 & H2)).
  assert (Hc : capacity + 2 < W64) by nia.
  assert (HR : (round_ p + 5) * capacity <= (3 * Z.of_nat (S (length handed)) + 2) * capacity) by nia.
  assert (HR3 : round_ p + 5 < W64) by (unfold W64 in *; nia).
  assert (HR4 : (round_ p + 5) * capacity < W64) by lia.
  assert (HRx : forall k, 0 <= k <= 4 -> (round_ p + k) * capacity + off < (round_ p + 5) * capacity) by (intros k Hk; nia).
  assert (G : forall round1 back1, (round1 = round_ p \/ round1 = round_ p + 1) -> 0 <= back1 <= capacity + 1 ->
    exists p' h i0,
     (let '(round2, back2) := if back1 >? capacity then (w64 (round1 + 1), 0) else (round1, back1) in
      let assigned2 := w64 (round2 * capacity + off) in
      let '(round3, assigned3) := if assigned2 <? highest_ p then (w64 (round2 + 1), w64 (w64 (round2 + 1) * capacity + off)) else (round2, assigned2) in
      let old := blocks p i in
      Ret (mk_pool (set_block (blocks p) i (mk_block e (b_index old) (b_next old))) capacity (begin_ p) (b_next old)
                   round3 back2 (Z.max (highest_ p) (w64 (assigned3 + 1))) (w64 (size_ p + 1)), assigned3, i)) = Ret (p', h, i0) /\
     Some i = Some i0 /\ h mod capacity = Z.of_nat i0 /\ highest_ p <= h /\
    blocks p' = set_block (blocks p) i0 (mk_block e (b_index (blocks p i0)) (b_next (blocks p i0))) /\
    cap p' = capacity /\ end_ p' = b_next (blocks p i0) /\ size_ p' = size_ p + 1 /\ highest_ p' = h + 1 /\
    round_ p <= round_ p' <= round_ p + 3 /\ 0 <= back_ p' <= capacity + 1 /\ h + 1 <= (round_ p' + 1) * capacity /\ 0 <= h).
  { intros round1 back1 Hr1 Hb1.
    assert (exists round2 back2, (if back1 >? capacity then (w64 (round1 + 1), 0) else (round1, back1)) = (round2, back2) /\ (exists k, 0 <= k <= 2 /\ round2 = round_ p + k) /\ 0 <= back2 <= capacity + 1) as (round2 & back2 & -> & (k & Hk & ->) & Hb2).
    { destruct (back1 >? capacity) eqn:Y.
      - exists (round1 + 1), 0. split; [rewrite w64_id by lia; reflexivity|]. split; [|lia]. destruct Hr1 as [-> | ->]; [exists 1|exists 2]; lia.
      - exists round1, back1. split; [reflexivity|]. split; [|lia]. destruct Hr1 as [-> | ->]; [exists 0|exists 1]; lia. }
    cbv zeta. rewrite (w64_id ((round_ p + k) * capacity + off)) by (pose proof (HRx k); nia).
    rewrite (w64_id (round_ p + k + 1)) by lia. rewrite (w64_id ((round_ p + k + 1) * capacity + off)) by (pose proof (HRx (k + 1)); nia).
    rewrite (w64_id (size_ p + 1)) by lia.
    destruct ((round_ p + k) * capacity + off <? highest_ p) eqn:Y.
    - rewrite w64_id by (pose proof (HRx (k + 1)); nia). do 3 eexists. split; [reflexivity|]. split; [reflexivity|]. cbn. split; [rewrite div_slot by lia; reflexivity|].
      assert (highest_ p <= (round_ p + k + 1) * capacity + off) by nia. split; [assumption|]. repeat split; try reflexivity; nia.
    - rewrite w64_id by (pose proof (HRx k); nia). do 3 eexists. split; [reflexivity|]. split; [reflexivity|]. cbn. split; [rewrite div_slot by lia; reflexivity|].
      split; [lia|]. repeat split; try reflexivity; nia. }
  destruct (back_ p >? off) eqn:Y.
  - destruct (G (w64 (round_ p + 1)) off) as (p' & h & i0 & Eq & [= <-] & Rest); [rewrite w64_id by lia; auto|lia|].
    exists p', h, i. split; [exact Eq|]. split; [reflexivity|exact Rest].
  - destruct (G (round_ p) (w64 (back_ p + 1))) as (p' & h & i0 & Eq & [= <-] & Rest); [auto|rewrite w64_id by lia; lia|].
    exists p', h, i. split; [exact Eq|]. split; [reflexivity|exact Rest].
Qed.
Lemma few_weaken capacity (x : Z) handed : 0 < capacity -> few capacity (x :: handed) -> few capacity handed.
Proof. unfold few. cbn [length]. intros. nia. Qed.

Lemma store_inv capacity p live handed free e : inv capacity p live handed free -> few capacity (0 :: handed) -> size_ p < capacity ->
  exists p' h free', store p e = Ret (p', h) /\ free = slot p h :: free' /\ inv capacity p' ((h, e) :: live) (h :: handed) free' /\ highest_ p <= h.
Proof.
  intros I F Hlt. destruct (free_head _ _ _ _ _ I Hlt) as (i & free' & Ef & E & Hi & Nf & Nl).
  destruct (emplace_ok _ _ _ _ _ e I F Hlt) as (p' & h & i' & Em & E' & Hm & Hh & Hb & Hc & He & Hs & Hhi & Hr & Hbk & Hhc & H0).
  rewrite E in E'. injection E' as <-. unfold store. rewrite Em. exists (set_index p' i h), h, free'.
  destruct I. destruct i_cap0 as [C1 C2].
  assert (Es : slot p h = i) by (unfold slot; rewrite C2, Hm; lia).
  split; [reflexivity|]. split; [rewrite Es; exact Ef|]. split; [|exact Hh].
  assert (Sl : forall x, slot (set_index p' i h) x = slot p x) by (intros x; apply slot_cap; cbn; congruence).
  assert (Bi : blocks (set_index p' i h) i = mk_block e h (b_next (blocks p i))) by (cbn; rewrite Hb, !set_same; reflexivity).
  assert (Bo : forall j, j <> i -> blocks (set_index p' i h) j = blocks p j) by (intros j Hj; cbn; rewrite Hb, !set_other by congruence; reflexivity).
  rewrite Ef in i_chain0, i_perm0. constructor.
  - split; [exact C1|exact Hc].
  - cbn [end_ set_index]. rewrite He. cbn in i_chain0. destruct i_chain0 as [_ Ch]. cbn [blocks set_index]. rewrite Hb. apply chain_set; [exact Nf|]. apply chain_set; [exact Nf|exact Ch].
  - cbn [map]. rewrite Sl. cbn [fst]. rewrite Es. rewrite (map_ext _ (fun x => slot p (fst x))) by (intros x; apply Sl).
    rewrite <- i_perm0. symmetry. apply Permutation_middle.
  - constructor.
    + cbn [fst snd]. rewrite Sl, Es, Bi. split; [reflexivity|]. split; [reflexivity|]. cbn. lia.
    + rewrite Forall_forall in *. intros x Hx. destruct (i_live0 x Hx) as (L1 & L2 & L3). rewrite Sl. rewrite Bo.
      * split; [exact L1|]. split; [exact L2|]. cbn. lia.
      * intros X. apply Nl. rewrite <- X. now apply (in_map (fun x => slot p (fst x))).
  - cbn [size_ set_index]. rewrite Hs, i_size0. cbn [length]. lia.
  - destruct i_handed0 as [S1 S2]. split.
    + constructor; [exact S1|]. eapply Forall_impl; [|exact S2]. cbn. intros; lia.
    + constructor; [cbn; lia|]. eapply Forall_impl; [|exact S2]. cbn. intros; lia.
  - constructor; [left; reflexivity|]. eapply Forall_impl; [|exact i_from0]. cbn. intros; auto.
  - cbn [round_ back_ highest_ set_index length]. destruct i_bounds0 as (? & ? & ?). lia.
Qed.
Lemma erase_inv capacity p l1 h e l2 handed free : inv capacity p (l1 ++ (h, e) :: l2) handed free ->
  exists p', erase p h = (p', 1) /\ inv capacity p' (l1 ++ l2) handed (slot p h :: free) /\ end_ p' = Some (slot p h) /\ size_ p' = size_ p - 1 /\
    b_index (blocks p' (slot p h)) = h /\ cap p' = cap p.
Proof.
  intros I. destruct I. destruct i_cap0 as [C1 C2]. pose proof i_live0 as L. rewrite Forall_forall in L. destruct (L (h, e)) as (X1 & X2 & X3); [apply in_or_app; right; left; reflexivity|].
  cbn in X1, X2, X3. unfold erase. rewrite X1, Z.eqb_refl. cbn [negb]. destruct (Z.eqb_spec (size_ p) 0) as [Hz|Hz]; [exfalso; rewrite i_size0, app_length in Hz; cbn in Hz; lia|].
  eexists. split; [reflexivity|].
  assert (N : NoDup (free ++ map (fun x => slot p (fst x)) (l1 ++ (h, e) :: l2))) by (eapply Permutation_NoDup; [symmetry; exact i_perm0|apply seq_NoDup]).
  assert (Pm : Permutation (free ++ map (fun x => slot p (fst x)) (l1 ++ (h, e) :: l2)) (slot p h :: free ++ map (fun x => slot p (fst x)) (l1 ++ l2))).
  { rewrite !map_app. cbn [map fst]. rewrite !app_assoc. symmetry. apply Permutation_middle. }
  assert (N' := Permutation_NoDup Pm N). inversion N' as [|? ? N1 N2]; subst.
  assert (Nf : ~ In (slot p h) free) by (intros X; apply N1; apply in_or_app; auto).
  assert (Nl : forall x, In x (l1 ++ l2) -> slot p (fst x) <> slot p h) by (intros x Hx Eq; apply N1; apply in_or_app; right; rewrite <- Eq; now apply (in_map (fun x => slot p (fst x)))).
  split; [|cbn; rewrite set_same; auto]. constructor.
  - cbn. split; [exact C1|reflexivity].
  - cbn [blocks end_]. apply (chain_next _ _ _ (end_ p)); [exact Nf|exact i_chain0|reflexivity].
  - rewrite (map_ext _ (fun x => slot p (fst x))) by (intros x; apply slot_cap; cbn; congruence). cbn [app]. rewrite <- Pm. exact i_perm0.
  - apply Forall_forall. intros x Hx. match goal with |- context [slot ?q (fst x)] => change (slot q (fst x)) with (slot p (fst x)) end. cbn [blocks highest_]. rewrite set_other by (intros X; apply (Nl x Hx); congruence).
    apply L. apply in_app_or in Hx. apply in_or_app. cbn. tauto.
  - cbn. rewrite i_size0, !app_length. cbn. lia.
  - exact i_handed0.
  - rewrite Forall_forall in *. intros x Hx. apply i_from0. apply in_app_or in Hx. apply in_or_app. cbn. tauto.
  - exact i_bounds0.
Qed.
Lemma history_inv (d : A) capacity p live handed : history d capacity p live handed -> few capacity handed -> exists free, inv capacity p live handed free.
Proof.
  induction 1 as [p H|p live handed p' h e H IH E|p l1 h e l2 handed p' r H IH E]; intros F.
  - eexists. eapply new_inv. exact H.
  - assert (C : 0 < capacity). { clear - H. induction H; auto. unfold new_pool in H. destruct (Z.leb_spec capacity 0); [discriminate|lia]. }
    destruct IH as (free & I); [eapply few_weaken; eauto|].
    destruct (Z_lt_dec (size_ p) capacity) as [Hlt|Hge].
    + destruct (store_inv capacity p live handed free e I F Hlt) as (p2 & h2 & free' & E2 & _ & I2 & _). rewrite E in E2. injection E2 as <- <-. eauto.
    + exfalso. unfold store in E. rewrite emplace_full in E; [discriminate|]. destruct I. lia.
  - destruct IH as (free & I); [exact F|]. destruct (erase_inv _ _ _ _ _ _ _ _ I) as (p2 & E2 & I2 & _). rewrite E in E2. injection E2 as <- _. eauto.
Qed.
Lemma inv_slots capacity p live handed free : inv capacity p live handed free ->
  NoDup (map (fun x => fst x mod capacity) live) /\ Forall (fun x => 0 <= fst x mod capacity < capacity) live.
Proof.
  intros I. destruct I. destruct i_cap0 as [C1 C2]. split; [|apply Forall_forall; intros x _; apply Z.mod_pos_bound; lia].
  assert (N : NoDup (free ++ map (fun x => slot p (fst x)) live)) by (eapply Permutation_NoDup; [symmetry; exact i_perm0|apply seq_NoDup]).
  assert (N2 : NoDup (map (fun x => slot p (fst x)) live)) by (clear - N; induction free as [|a f IH]; [exact N|inversion N; auto]).
  assert (E : map (fun x => slot p (fst x)) live = map Z.to_nat (map (fun x => fst x mod capacity) live)) by (rewrite map_map; apply map_ext; intros x; unfold slot; now rewrite C2).
  rewrite E in N2. eapply NoDup_map_inv. exact N2.
Qed.
Lemma sorted_nodup (l : list Z) : StronglySorted (fun a b => b < a) l -> NoDup l.
Proof.
  induction 1 as [|x l Hs IH Hf]; constructor; [|exact IH]. intros X. rewrite Forall_forall in Hf. specialize (Hf x X). lia.
Qed.
(** Two pointers to the erased block: a second erasure makes the block its own successor. *)
Lemma double_erase capacity p l1 h e l2 handed p1 r1 p2 r2 free : inv capacity p (l1 ++ (h, e) :: l2) handed free ->
  erase p h = (p1, r1) -> erase p1 h = (p2, r2) ->
  end_ p2 = Some (slot p h) /\ b_next (blocks p2 (slot p h)) = Some (slot p h) /\ cap p2 = cap p.
Proof.
  intros I E1 E2. destruct (erase_inv _ _ _ _ _ _ _ _ I) as (p1' & E1' & I1 & Ee & Es & Ei & Ec). rewrite E1 in E1'. injection E1' as <- ->.
  unfold erase in E2. rewrite (slot_cap p1 p h Ec) in E2. rewrite Ei, Z.eqb_refl in E2. cbn [negb] in E2.
  destruct (size_ p1 =? 0); injection E2 as <- <-; cbn; rewrite set_same; cbn; auto.
Qed.
Lemma store_self_loop p e p' h i : 0 < cap p -> end_ p = Some i -> b_next (blocks p i) = Some i -> (i < Z.to_nat (cap p))%nat -> store p e = Ret (p', h) ->
  end_ p' = Some i /\ b_next (blocks p' i) = Some i /\ cap p' = cap p /\ b_data (blocks p' i) = e.
Proof.
  intros Hc He Hn Hi. unfold store, emplace. destruct (size_ p >=? cap p); [discriminate|]. rewrite He.
  repeat match goal with |- context [let '(_, _) := (if ?b then _ else _) in _] => destruct b end; intros [= <- <-]; cbn; rewrite !set_same; cbn; auto.
Qed.
End Pool.
