(** Proofs for inventories, transfers and cash flows. *)
From Verif Require Import Base Identity Identity_proofs IdMap_proofs Quantity Interval Multimap Multimap_proofs Money Inventory Inventory_spec.
From Coq Require Import ZifyBool ZifyNat.

Lemma h_find_assign i v m j : h_find j (h_assign i v m) = if id_eqb i j then match h_find i m with Some _ => Some v | None => None end else h_find j m.
Proof.
  induction m as [|[k x] m IH]; cbn; [now destruct (id_eqb i j)|]. destruct (id_eqb k i) eqn:E; cbn.
  - apply id_eqb_eq in E. subst k. destruct (id_eqb i j); reflexivity.
  - destruct (id_eqb k j) eqn:E2; [|exact IH]. apply id_eqb_eq in E2. subst k. now rewrite id_eqb_sym, E.
Qed.
Lemma h_find_app j m1 m2 : h_find j (m1 ++ m2) = match h_find j m1 with Some v => Some v | None => h_find j m2 end.
Proof. induction m1 as [|[k x] m IH]; cbn; [reflexivity|]. now destruct (id_eqb k j). Qed.
Lemma h_find_insert i v m j : h_find j (h_insert i v m) = match h_find j m with Some x => Some x | None => if id_eqb i j then Some v else None end.
Proof.
  unfold h_insert. destruct (h_find i m) eqn:E.
  - destruct (h_find j m) eqn:Ej; [reflexivity|]. destruct (id_eqb i j) eqn:Eij; [|reflexivity]. apply id_eqb_eq in Eij. congruence.
  - rewrite h_find_app. reflexivity.
Qed.
Lemma h_find_in i m v : h_find i m = Some v -> In (i, v) m.
Proof. induction m as [|[k x] m IH]; cbn; [discriminate|]. destruct (id_eqb k i) eqn:E; [|auto]. apply id_eqb_eq in E. intros [= <-]. left. congruence. Qed.
Lemma h_find_none i m : h_find i m = None <-> ~ In i (map fst m).
Proof.
  induction m as [|[k x] m IH]; cbn; [intuition|]. destruct (id_eqb k i) eqn:E.
  - apply id_eqb_eq in E. split; [discriminate|intros H; elim H; auto].
  - rewrite IH. split; [intros H [->|]; [now rewrite id_eqb_refl in E|contradiction]|intuition].
Qed.
Lemma h_find_erase i m j : NoDup (map fst m) -> h_find j (h_erase i m) = if id_eqb i j then None else h_find j m.
Proof.
  induction m as [|[k x] m IH]; cbn; [now destruct (id_eqb i j)|]. intros N. inversion N as [|? ? N1 N2]; subst. destruct (id_eqb k i) eqn:E; cbn.
  - apply id_eqb_eq in E. subst k. destruct (id_eqb i j) eqn:E2; [|reflexivity]. apply id_eqb_eq in E2. subst j. now apply h_find_none.
  - rewrite IH by exact N2. destruct (id_eqb k j) eqn:E2; [|reflexivity]. apply id_eqb_eq in E2. subst k. now rewrite id_eqb_sym, E.
Qed.
Lemma assign_keys i v m : map fst (h_assign i v m) = map fst m.
Proof. induction m as [|[k x] m IH]; cbn; [reflexivity|]. destruct (id_eqb k i); cbn; congruence. Qed.
Lemma assign_valid i v m : valid m -> u64 v -> valid (h_assign i v m).
Proof.
  intros [N F] Hv. split; [now rewrite assign_keys|]. induction m as [|[k x] m IH]; cbn; [constructor|]. inversion F; inversion N; subst. destruct (id_eqb k i); constructor; auto.
Qed.
Lemma insert_valid i v m : valid m -> u64 v -> valid (h_insert i v m).
Proof.
  intros [N F] Hv. unfold h_insert. destruct (h_find i m) eqn:E; [split; auto|]. split.
  - rewrite map_app. cbn. apply h_find_none in E. apply (Permutation_NoDup (Permutation_cons_append (map fst m) i)). now constructor.
  - apply Forall_app. split; [exact F|]. repeat constructor; apply Hv.
Qed.
Lemma erase_incl i m : incl (h_erase i m) m.
Proof. induction m as [|[k x] m IH]; cbn; [easy|]. destruct (id_eqb k i); [now apply incl_tl, incl_refl|]. apply incl_cons; [now left|now apply incl_tl]. Qed.
Lemma erase_valid i m : valid m -> valid (h_erase i m).
Proof.
  intros [N F]. split; [|eapply incl_Forall; [apply erase_incl|exact F]].
  induction m as [|[k x] m IH]; cbn; [constructor|]. inversion N; inversion F; subst. destruct (id_eqb k i); [assumption|]. cbn. constructor; [|now apply IH].
  intros H. apply in_map_iff in H. destruct H as ([k' x'] & E & H). apply erase_incl in H. cbn in E. subst k'. apply (in_map fst) in H. contradiction.
Qed.
Lemma held_bound m i : valid m -> u64 (held m i).
Proof.
  intros [_ F]. unfold held. destruct (h_find i m) eqn:E; [|unfold u64, W64; lia]. apply h_find_in in E. rewrite Forall_forall in F. exact (F _ E).
Qed.
Lemma w64_u64 x : u64 (w64 x). Proof. apply Z.mod_pos_bound. reflexivity. Qed.
Lemma w64_id x : u64 x -> w64 x = x. Proof. apply Z.mod_small. Qed.
Lemma held_cons k v m i : held ((k, v) :: m) i = if id_eqb k i then v else held m i.
Proof. unfold held. cbn. now destruct (id_eqb k i). Qed.
Lemma valid_cons k v m : valid ((k, v) :: m) -> valid m /\ u64 v /\ held m k = 0.
Proof.
  intros [N F]. inversion N; inversion F; subst. split; [split; auto|]. split; [assumption|]. unfold held. assert (E : h_find k m = None) by now apply h_find_none. now rewrite E.
Qed.
(** Adding to a map. *)
Lemma add_held m k v : valid m -> u64 v -> let m' := match h_find k m with None => h_insert k v m | Some x => h_assign k (q_add x v) m end in
  valid m' /\ forall i, held m' i = if id_eqb k i then w64 (held m k + v) else held m i.
Proof.
  intros V Hv. cbn zeta. destruct (h_find k m) as [x|] eqn:E.
  - split; [apply assign_valid; [exact V|apply w64_u64]|]. intros i. unfold held. rewrite h_find_assign, E. now destruct (id_eqb k i).
  - split; [now apply insert_valid|]. intros i. unfold held. rewrite h_find_insert, E. destruct (id_eqb k i) eqn:Ei.
    + apply id_eqb_eq in Ei. subst i. rewrite E. symmetry. now apply w64_id.
    + now destruct (h_find i m).
Qed.
Lemma insert_into_held items : forall m, valid m -> valid items -> valid (insert_into items m) /\ forall i, held (insert_into items m) i = w64 (held m i + held items i).
Proof.
  induction items as [|[k v] items IH]; intros m V Vi; cbn [insert_into].
  - split; [exact V|]. intros i. unfold held at 3. cbn. rewrite Z.add_0_r. symmetry. apply w64_id, held_bound, V.
  - apply valid_cons in Vi. destruct Vi as (Vi & Hv & H0). destruct (add_held m k v V Hv) as [V' H']. cbn zeta in V', H'.
    destruct (IH _ V' Vi) as [V2 H2]. split; [exact V2|]. intros i. rewrite H2, H', held_cons. destruct (id_eqb k i) eqn:E; [|reflexivity].
    apply id_eqb_eq in E. subst i. rewrite H0, Z.add_0_r. apply w64_id, w64_u64.
Qed.
Lemma erase_from_held items : forall m, valid m -> valid items ->
  valid (fst (erase_from items m)) /\
  (snd (erase_from items m) = false -> covers m items /\ forall i, held (fst (erase_from items m)) i = held m i - held items i) /\
  (snd (erase_from items m) = true -> ~ covers m items).
Proof.
  induction items as [|[k v] items IH]; intros m V Vi; cbn [erase_from].
  - split; [exact V|]. split; [|discriminate]. intros _. split; [intros i; unfold held at 1; cbn; apply held_bound, V|]. intros i. unfold held at 3. cbn. lia.
  - apply valid_cons in Vi. destruct Vi as (Vi & Hv & H0). unfold covers.
    destruct (Z.eqb_spec v 0) as [->|Hv0].
    { destruct (IH m V Vi) as (V2 & S2 & F2). split; [exact V2|]. split.
      - intros S. destruct (S2 S) as [C2 H2]. split; intros i; rewrite held_cons; destruct (id_eqb k i) eqn:E; auto.
        + apply held_bound, V.
        + apply id_eqb_eq in E. subst i. rewrite H2, H0. lia.
      - intros S C. apply (F2 S). intros i. specialize (C i). rewrite held_cons in C. destruct (id_eqb k i) eqn:E; [|exact C]. apply id_eqb_eq in E. subst i. rewrite H0. exact C. }
    assert (Hv1 : 0 < v) by (unfold u64 in Hv; lia).
    destruct (h_find k m) as [x|] eqn:Ex.
    2:{ split; [exact V|]. split; [discriminate|]. intros _ C. specialize (C k). rewrite held_cons, id_eqb_refl in C. unfold held in C. rewrite Ex in C. lia. }
    assert (Hx : held m k = x) by (unfold held; now rewrite Ex). pose proof (held_bound m k V) as Bx. rewrite Hx in Bx.
    destruct (Z.ltb_spec x v).
    { split; [exact V|]. split; [discriminate|]. intros _ C. specialize (C k). rewrite held_cons, id_eqb_refl in C. lia. }
    (* the remaining map after removing v of k *)
    assert (Step : forall m1, valid m1 -> (forall i, held m1 i = if id_eqb k i then x - v else held m i) ->
      valid (fst (erase_from items m1)) /\
      (snd (erase_from items m1) = false -> (forall i, held ((k, v) :: items) i <= held m i) /\ forall i, held (fst (erase_from items m1)) i = held m i - held ((k, v) :: items) i) /\
      (snd (erase_from items m1) = true -> ~ (forall i, held ((k, v) :: items) i <= held m i))).
    { intros m1 V1 H1. destruct (IH m1 V1 Vi) as (V2 & S2 & F2). split; [exact V2|]. split.
      - intros S. destruct (S2 S) as [C2 H2]. split; intros i; specialize (C2 i); specialize (H2 i); rewrite H1 in *; rewrite held_cons; destruct (id_eqb k i) eqn:E; auto; apply id_eqb_eq in E; subst i; lia.
      - intros S C. apply (F2 S). intros i. specialize (C i). rewrite held_cons in C. rewrite H1. destruct (id_eqb k i) eqn:E; [|exact C]. apply id_eqb_eq in E. subst i. lia. }
    destruct (Z.eqb_spec x v) as [->|].
    + apply Step; [now apply erase_valid|]. intros i. unfold held. rewrite h_find_erase by apply V. destruct (id_eqb k i); [lia|reflexivity].
    + unfold q_sub. replace (x <? v) with false by lia. assert (U : u64 (x - v)) by (unfold u64 in *; lia). rewrite (w64_id _ U).
      apply Step; [now apply assign_valid|]. intros i. unfold held. rewrite h_find_assign, Ex. now destruct (id_eqb k i).
Qed.
(** The part that was removed before the failure. *)
Lemma erase_from_prefix items : Forall (fun kv => 0 <= snd kv) items -> forall m, snd (erase_from items m) = true -> exists done k v rest, items = done ++ (k, v) :: rest /\
  erase_from done m = (fst (erase_from items m), false) /\ held (fst (erase_from items m)) k < v.
Proof.
  intros F. induction F as [|[k v] items Hv F IH]; intros m; cbn [erase_from]; [discriminate|]. cbn [snd] in Hv. destruct (Z.eqb_spec v 0) as [->|Hv0].
  { intros S. destruct (IH m S) as (d & k' & v' & r & -> & E & L). exists ((k, 0) :: d), k', v', r. split; [reflexivity|]. split; [exact E|exact L]. }
  destruct (h_find k m) as [x|] eqn:Ex.
  - destruct (Z.ltb_spec x v).
    + intros _. exists [], k, v, items. cbn. unfold held. rewrite Ex. auto.
    + destruct (Z.eqb_spec x v) as [->|].
      * intros S. destruct (IH _ S) as (d & k' & v' & r & -> & E & L). exists ((k, v) :: d), k', v', r. split; [reflexivity|]. split; [|exact L]. cbn [erase_from].
        destruct (Z.eqb_spec v 0); [lia|]. rewrite Ex. destruct (Z.ltb_spec v v); [lia|]. destruct (Z.eqb_spec v v); [exact E|lia].
      * destruct (q_sub x v) as [r0| |] eqn:Eq; [|unfold q_sub in Eq; destruct (Z.ltb_spec x v); [lia|discriminate]|unfold q_sub in Eq; destruct (Z.ltb_spec x v); [lia|discriminate]].
        intros S. destruct (IH _ S) as (d & k' & v' & r & -> & E & L). exists ((k, v) :: d), k', v', r. split; [reflexivity|]. split; [|exact L]. cbn [erase_from].
        destruct (Z.eqb_spec v 0); [lia|]. rewrite Ex. destruct (Z.ltb_spec x v); [lia|]. destruct (Z.eqb_spec x v); [lia|]. rewrite Eq. exact E.
  - intros _. exists [], k, v, items. cbn. unfold held. rewrite Ex. split; [reflexivity|]. split; [reflexivity|lia].
Qed.

(** *** Typed owners. *)
Section Typed.
Context (is_T : identity -> bool).
Lemma inv_erase_held m k v m' : valid m -> u64 v -> inv_erase m k v = Ret m' -> valid m' /\ v <= held m k /\ forall i, held m' i = if id_eqb k i then held m k - v else held m i.
Proof.
  intros V Hv. unfold inv_erase. destruct (h_find k m) as [x|] eqn:E; [|destruct (v >? 0); discriminate]. assert (Hx : held m k = x) by (unfold held; now rewrite E).
  pose proof (held_bound m k V) as B. rewrite Hx in B. destruct (Z.ltb_spec x v); [discriminate|]. unfold q_sub. destruct (Z.ltb_spec x v); [discriminate|]. intros [= <-].
  assert (U : u64 (x - v)) by (unfold u64 in *; lia). rewrite (w64_id _ U). split; [now apply assign_valid|]. split; [lia|]. intros i. unfold held at 1. rewrite h_find_assign, E.
  destruct (id_eqb k i); [lia|reflexivity].
Qed.
Lemma typed_erase_held items : forall m m', valid m -> valid items -> typed_erase is_T items m = Ret m' ->
  valid m' /\ (forall i, held m' i = if is_T i then held m i - held items i else held m i) /\ (forall i, is_T i = true -> held items i <= held m i).
Proof.
  induction items as [|[k v] items IH]; intros m m' V Vi; cbn [typed_erase].
  - intros [= <-]. split; [exact V|]. split; [|intros i _; apply held_bound, V]. intros i. unfold held at 3. cbn. destruct (is_T i); lia.
  - apply valid_cons in Vi. destruct Vi as (Vi & Hv & H0). destruct (is_T k) eqn:Tk.
    + destruct (inv_erase m k v) as [m1| |] eqn:E; try discriminate. intros R. destruct (inv_erase_held _ _ _ _ V Hv E) as (V1 & L1 & H1). destruct (IH _ _ V1 Vi R) as (V2 & H2 & L2).
      split; [exact V2|]. split.
      * intros i. rewrite H2, H1, held_cons. destruct (id_eqb k i) eqn:Ei; [|reflexivity]. apply id_eqb_eq in Ei. subst i. rewrite Tk, H0. lia.
      * intros i Ti. specialize (L2 i Ti). rewrite H1 in L2. rewrite held_cons. destruct (id_eqb k i) eqn:Ei; [|exact L2]. apply id_eqb_eq in Ei. now subst i.
    + intros R. destruct (IH _ _ V Vi R) as (V2 & H2 & L2). split; [exact V2|]. split.
      * intros i. rewrite H2, held_cons. destruct (id_eqb k i) eqn:Ei; [|reflexivity]. apply id_eqb_eq in Ei. subst i. now rewrite Tk.
      * intros i Ti. rewrite held_cons. destruct (id_eqb k i) eqn:Ei; [|auto]. apply id_eqb_eq in Ei. congruence.
Qed.
Lemma typed_erase_works items : forall m, valid m -> valid items -> Forall (fun kv => 0 < snd kv) items -> (forall i, is_T i = true -> held items i <= held m i) ->
  exists m', typed_erase is_T items m = Ret m'.
Proof.
  induction items as [|[k v] items IH]; intros m V Vi F C; cbn [typed_erase]; [eauto|]. pose proof Vi as Vi0. apply valid_cons in Vi. destruct Vi as (Vi & Hv & H0). inversion F as [|? ? F1 F2]; subst. cbn in F1.
  destruct (is_T k) eqn:Tk.
  - pose proof (C k Tk) as Ck. rewrite held_cons, id_eqb_refl in Ck. unfold inv_erase. unfold held in Ck. destruct (h_find k m) as [x|] eqn:E; [|lia].
    replace (x <? v) with false by lia. destruct (q_sub x v) as [r| |] eqn:Q; unfold q_sub in Q; destruct (Z.ltb_spec x v); try lia; try discriminate. injection Q as <-.
    apply IH; auto; [apply assign_valid; [exact V|apply w64_u64]|]. intros i Ti. specialize (C i Ti). rewrite held_cons in C. unfold held in *. rewrite h_find_assign, E. destruct (id_eqb k i) eqn:Ei; [|exact C].
    apply id_eqb_eq in Ei. subst i. rewrite H0. apply w64_u64.
  - apply IH; auto. intros i Ti. specialize (C i Ti). rewrite held_cons in C. destruct (id_eqb k i) eqn:Ei; [apply id_eqb_eq in Ei; congruence|exact C].
Qed.
Lemma typed_insert_held items : forall m, valid m -> valid items -> valid (typed_insert is_T items m) /\
  forall i, held (typed_insert is_T items m) i = if is_T i then w64 (held m i + held items i) else held m i.
Proof.
  induction items as [|[k v] items IH]; intros m V Vi; cbn [typed_insert].
  - split; [exact V|]. intros i. unfold held at 3. cbn. rewrite Z.add_0_r, w64_id by apply held_bound, V. now destruct (is_T i).
  - apply valid_cons in Vi. destruct Vi as (Vi & Hv & H0). destruct (is_T k) eqn:Tk.
    + destruct (add_held m k v V Hv) as [V' H']. cbn zeta in V', H'. fold (inv_insert m k v) in V', H'. destruct (IH _ V' Vi) as [V2 H2]. split; [exact V2|]. intros i. rewrite H2, H', held_cons.
      destruct (id_eqb k i) eqn:E; [|reflexivity]. apply id_eqb_eq in E. subst i. rewrite Tk, H0, Z.add_0_r. apply w64_id, w64_u64.
    + destruct (IH _ V Vi) as [V2 H2]. split; [exact V2|]. intros i. rewrite H2, held_cons. destruct (id_eqb k i) eqn:E; [|reflexivity]. apply id_eqb_eq in E. subst i. now rewrite Tk.
Qed.
Lemma views_kept self o : owner_history is_T self (guarded is_T) o -> valid (properties o) /\ valid (inventory o) /\ views_agree is_T o.
Proof.
  induction 1 as [|o i amount H (V1 & V2 & A) [Ti Ua] G|o t o' H (V1 & V2 & A) W G R].
  - repeat split; try constructor. intros i. cbn. now destruct (is_T i).
  - unfold take. destruct (add_held (properties o) i amount V1 Ua) as [V' H']. cbn zeta in V', H'. fold (inv_insert (properties o) i amount) in V', H'. cbn [properties inventory].
    split; [exact V'|]. split; [now apply insert_valid|]. intros j. cbn [properties inventory]. rewrite H'. cbn in G. pose proof (A i) as Ai. rewrite Ti in Ai. unfold held at 2 in Ai. rewrite G in Ai.
    unfold held at 3. rewrite h_find_insert. destruct (id_eqb i j) eqn:E.
    + apply id_eqb_eq in E. subst j. rewrite Ti, G, Ai. apply w64_id, Ua.
    + rewrite A. unfold held. destruct (h_find j (inventory o)); reflexivity.
  - cbn in W, G. unfold receive_transfer, process_typed, process_transfer in R. rewrite (id_eqb_neq _ _ G) in R. destruct (id_eqb self (transferor t)).
    + destruct (typed_erase is_T (transferred t) (properties o)) as [p| |] eqn:E; try discriminate. destruct (typed_erase_held _ _ _ V1 W E) as (V1' & H1 & _).
      destruct (erase_from_held (transferred t) (inventory o) V2 W) as (V2' & S2 & _). destruct (erase_from (transferred t) (inventory o)) as [m []]; [discriminate|]. injection R as <-. cbn in V2', S2.
      destruct (S2 eq_refl) as [_ H2]. split; [exact V1'|]. split; [exact V2'|]. intros i. cbn. rewrite H1, H2. pose proof (A i) as Ai. destruct (is_T i); [now rewrite Ai|exact Ai].
    + destruct (id_eqb self (transferee t)); [|injection R as <-; auto]. injection R as <-. destruct (typed_insert_held (transferred t) (properties o) V1 W) as [V1' H1].
      destruct (insert_into_held (transferred t) (inventory o) V2 W) as [V2' H2]. split; [exact V1'|]. split; [exact V2'|]. intros i. cbn. rewrite H1, H2. pose proof (A i) as Ai. destruct (is_T i); [now rewrite Ai|exact Ai].
Qed.
Lemma receive_works self o t : owner_history is_T self (guarded is_T) o -> valid (transferred t) -> Forall (fun kv => 0 < snd kv) (transferred t) -> transferor t <> transferee t ->
  (self = transferor t -> covers (inventory o) (transferred t)) -> exists o', receive_transfer is_T self t o = Ret o'.
Proof.
  intros H W F G C. destruct (views_kept self o H) as (V1 & V2 & A). unfold receive_transfer, process_typed, process_transfer. rewrite (id_eqb_neq _ _ G). destruct (id_eqb self (transferor t)) eqn:E.
  - apply id_eqb_eq in E. specialize (C E). destruct (typed_erase_works (transferred t) (properties o) V1 W F) as [p ->]. { intros i Ti. rewrite A, Ti. apply C. }
    destruct (erase_from_held (transferred t) (inventory o) V2 W) as (_ & _ & X). destruct (erase_from (transferred t) (inventory o)) as [m []]; [|eauto]. exfalso. now apply X.
  - destruct (id_eqb self (transferee t)); eauto.
Qed.
End Typed.

(** *** Cash flows. *)
Lemma ledger_sorted entries : StronglySorted key_le (ledger_of entries) /\ Permutation (ledger_of entries) entries.
Proof.
  unfold ledger_of, record. assert (X : forall l, StronglySorted key_le l -> StronglySorted key_le (fold_left (fun l e => mm_insert (fst e) (snd e) l) entries l) /\
    Permutation (fold_left (fun l e => mm_insert (fst e) (snd e) l) entries l) (l ++ entries)).
  { induction entries as [|[t p] es IH]; intros l S; cbn; [rewrite app_nil_r; auto|]. destruct (IH (mm_insert t p l)) as [S' P']; [now apply mm_insert_sorted|]. split; [exact S'|].
    rewrite P', mm_insert_perm, <- app_assoc. reflexivity. }
  apply (X []). constructor.
Qed.
Lemma collect_spec (f : price -> price) a b l : StronglySorted key_le l ->
  collect a b f (from_lower_bound a l) = map (fun e => f (snd e)) (filter (fun e => (a <=? fst e) && (fst e <? b)) l).
Proof.
  assert (C : forall l, StronglySorted key_le l -> Forall (fun e => a <= fst e) l -> collect a b f l = map (fun e => f (snd e)) (filter (fun e => (a <=? fst e) && (fst e <? b)) l)).
  { clear l. induction l as [|[t p] l IH]; intros S F; cbn [collect filter fst]; [reflexivity|]. inversion S as [|? ? S1 S2]; inversion F as [|? ? F1 F2]; subst. cbn in F1. unfold ti_contains, iv_contains.
    destruct (Z.ltb_spec t b).
    - replace ((a <? t) || true && (a =? t)) with true by lia. replace ((b >? t) || false && (b =? t)) with true by lia. replace (a <=? t) with true by lia. cbn [andb map snd]. f_equal. now apply IH.
    - replace ((b >? t) || false && (b =? t)) with false by lia. rewrite andb_false_r. replace ((t >? b) || (t =? b)) with true by lia. rewrite andb_false_r.
      rewrite filter_none; [reflexivity|]. rewrite Forall_forall in *. intros e He. specialize (S2 e He). unfold key_le in S2. cbn in S2. lia. }
  intros S. induction l as [|[t p] l IH]; [reflexivity|]. cbn [from_lower_bound filter fst]. inversion S as [|? ? S1 S2]; subst. destruct (Z.ltb_spec t a).
  - replace (a <=? t) with false by lia. cbn [andb]. now apply IH.
  - rewrite C; [reflexivity|exact S|]. constructor; [cbn; lia|]. rewrite Forall_forall in *. intros e He. specialize (S2 e He). unfold key_le in S2. cbn in S2. lia.
Qed.
Lemma zsum_cons x l : zsum (x :: l) = x + zsum l. Proof. reflexivity. Qed.
Lemma zsum_perm l l' : Permutation l l' -> zsum l = zsum l'.
Proof. induction 1; rewrite ?zsum_cons in *; lia. Qed.
Lemma zsum_abs l : Z.abs (zsum l) <= zsum (map Z.abs l).
Proof. induction l as [|x l IH]; cbn [map]; [cbn; lia|]. rewrite !zsum_cons. lia. Qed.
Lemma add_up_spec c vs : forall acc, valuation acc = c -> Forall (fun v => valuation v = c) vs -> Z.abs (value acc) + zsum (map (fun v => Z.abs (value v)) vs) < 2 ^ 63 ->
  add_up vs acc = Ret (mk_price (value acc + zsum (map value vs)) c).
Proof.
  induction vs as [|v vs IH]; intros acc Ha F B; cbn [add_up map] in *.
  - change (zsum []) with 0. rewrite Z.add_0_r. subst c. now destruct acc.
  - rewrite !zsum_cons in *. inversion F as [|? ? F1 F2]; subst. unfold price_add. assert (E : ccy_eqb (valuation acc) (valuation v) = true) by (rewrite F1; unfold ccy_eqb; lia).
    rewrite E. assert (P : 0 <= zsum (map (fun v => Z.abs (value v)) vs)). { clear. induction vs as [|v vs IH]; cbn [map]; [cbn; lia|]. rewrite zsum_cons. lia. }
    unfold checked. replace (in_i64 (value acc + value v)) with true by (unfold in_i64; lia). rewrite IH; cbn [value valuation]; auto; [|lia]. do 2 f_equal. lia.
Qed.
Lemma filter_permutation {A} (f : A -> bool) l l' : Permutation l l' -> Permutation (filter f l) (filter f l').
Proof.
  induction 1 as [|x l l' P IH|x y l|l l' l'' P1 IH1 P2 IH2]; cbn; auto.
  - destruct (f x); auto.
  - destruct (f x), (f y); auto. constructor.
  - etransitivity; eauto.
Qed.
Lemma history_spec f g c entries a b : (forall p, valuation (f p) = valuation p /\ value (f p) = g (value p)) -> (forall x, Z.abs (g x) <= Z.abs x) ->
  Forall (fun e => a <= fst e < b -> valuation (snd e) = c) entries -> zsum (map Z.abs (amounts entries a b)) < 2 ^ 63 ->
  history (ledger_of entries) a b f c = Ret (mk_price (zsum (map g (amounts entries a b))) c).
Proof.
  intros Hf Hg F B. destruct (ledger_sorted entries) as [S P]. unfold history. rewrite collect_spec by exact S. unfold amounts in *.
  set (sel := fun e : Z * price => (a <=? fst e) && (fst e <? b)) in *.
  pose proof (filter_permutation sel _ _ P) as Ps.
  assert (Fs : Forall (fun e => valuation (snd e) = c) (filter sel (ledger_of entries))).
  { rewrite Forall_forall in *. intros e He. apply filter_In in He. destruct He as [He Se]. apply F; [apply (Permutation_in _ P), He|unfold sel in Se; lia]. }
  rewrite (add_up_spec c); [|reflexivity| |].
  - cbn [value]. rewrite Z.add_0_l, map_map. do 2 f_equal. rewrite map_map. etransitivity; [|apply zsum_perm, (Permutation_map (fun e => g (value (snd e))) Ps)].
    f_equal. apply map_ext. intros e. apply Hf.
  - rewrite Forall_forall in *. intros v Hv. apply in_map_iff in Hv. destruct Hv as (e & <- & He). rewrite (proj1 (Hf _)). now apply Fs.
  - cbn [value]. rewrite map_map in *. change (Z.abs 0) with 0. rewrite Z.add_0_l. eapply Z.le_lt_trans; [|exact B].
    rewrite <- (zsum_perm _ _ (Permutation_map (fun e => Z.abs (value (snd e))) Ps)). clear - Hf Hg. generalize (filter sel (ledger_of entries)). intros l. induction l as [|e l IH]; cbn [map]; [lia|].
    rewrite !zsum_cons. rewrite (proj2 (Hf _)). pose proof (Hg (value (snd e))). lia.
Qed.
Lemma add_up_other c vs : forall acc, valuation acc = c -> Exists (fun v => ccy_eqb c (valuation v) = false) vs -> add_up vs acc = UB.
Proof.
  induction vs as [|v vs IH]; intros acc Ha H; [inversion H|]. cbn [add_up]. unfold price_add. rewrite Ha. destruct (ccy_eqb c (valuation v)) eqn:E; [|reflexivity].
  unfold checked. destruct (in_i64 _); [|reflexivity]. apply IH; [exact Ha|]. inversion H; [congruence|assumption].
Qed.
Lemma history_other f c entries a b : (forall p, valuation (f p) = valuation p) ->
  Exists (fun e => a <= fst e < b /\ ccy_eqb c (valuation (snd e)) = false) entries -> history (ledger_of entries) a b f c = UB.
Proof.
  intros Hf H. destruct (ledger_sorted entries) as [S P]. unfold history. rewrite collect_spec by exact S. apply (add_up_other c); [reflexivity|].
  apply Exists_exists in H. destruct H as (e & He & Hi & Hc). apply Exists_exists. exists (f (snd e)). split; [|now rewrite Hf].
  apply (in_map (fun e => f (snd e))), filter_In. split; [apply (Permutation_in _ (Permutation_sym P)), He|lia].
Qed.
Lemma amounts_split entries a b c g : a <= b <= c -> zsum (map g (amounts entries a b)) + zsum (map g (amounts entries b c)) = zsum (map g (amounts entries a c)).
Proof.
  intros H. unfold amounts. induction entries as [|[t p] es IH]; [reflexivity|]. cbn [filter fst].
  destruct (Z.leb_spec a t), (Z.ltb_spec t b), (Z.leb_spec b t), (Z.ltb_spec t c); try lia; cbn [andb map]; rewrite ?zsum_cons; lia.
Qed.
