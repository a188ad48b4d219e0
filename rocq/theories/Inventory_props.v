(** Property theorems C50, C51, C52, C53. *)
From Verif Require Import Base Identity IdMap_proofs Identity_proofs Quantity Interval Money Inventory Inventory_spec Inventory_proofs.
From Coq Require Import ZifyBool ZifyNat.

(** C50.  Any inventories, list of properties and parties.  The transferor's side: rejected exactly when
    it cannot cover the list; otherwise exactly the listed quantities go. *)
Theorem C50_transferor : forall t inventory, valid inventory -> valid (transferred t) -> transferor t <> transferee t ->
  (process_transfer (transferor t) t inventory = None <-> ~ covers inventory (transferred t)) /\
  forall after, process_transfer (transferor t) t inventory = Some after ->
    valid after /\ forall i, held after i = held inventory i - held (transferred t) i.
Proof.
  intros t m V W N. unfold process_transfer. rewrite (id_eqb_neq _ _ N), id_eqb_refl. destruct (erase_from_held (transferred t) m V W) as (V' & S & F).
  destruct (erase_from (transferred t) m) as [m' []]; cbn in *; (split; [split|]).
  - intros _. now apply F.
  - reflexivity.
  - discriminate.
  - discriminate.
  - intros C. exfalso. apply C. now apply S.
  - intros after [= <-]. split; [exact V'|]. now apply S.
Qed.
Print Assumptions C50_transferor.
(** The transferee's side, in 64-bit arithmetic. *)
Theorem C50_transferee : forall t inventory, valid inventory -> valid (transferred t) -> transferor t <> transferee t ->
  exists after, process_transfer (transferee t) t inventory = Some after /\ valid after /\
    forall i, held after i = (held inventory i + held (transferred t) i) mod 2 ^ 64.
Proof.
  intros t m V W N. unfold process_transfer. rewrite (id_eqb_neq _ _ N). rewrite (id_eqb_neq (transferee t) (transferor t)) by congruence. rewrite id_eqb_refl.
  destruct (insert_into_held (transferred t) m V W) as [V' H]. eexists. split; [reflexivity|]. split; [exact V'|exact H].
Qed.
Print Assumptions C50_transferee.
(** Together: nothing is created or lost, as long as nobody owns 2^64 or more of one property. *)
Theorem C50_conserved : forall t a b a' b', valid a -> valid b -> valid (transferred t) -> transferor t <> transferee t ->
  (forall i, held a i + held b i < 2 ^ 64) ->
  process_transfer (transferor t) t a = Some a' -> process_transfer (transferee t) t b = Some b' ->
  forall i, held a' i + held b' i = held a i + held b i.
Proof.
  intros t a b a' b' Va Vb W N B Ea Eb i. destruct (C50_transferor t a Va W N) as [_ Ha]. destruct (Ha _ Ea) as [Va' Ha']. destruct (C50_transferee t b Vb W N) as (b2 & Eb2 & _ & Hb).
  assert (b2 = b') by congruence. subst b2. rewrite Ha', Hb. pose proof (held_bound a' i Va') as B1. rewrite Ha' in B1. unfold u64 in B1. specialize (B i).
  pose proof (held_bound b i Vb) as B2. pose proof (held_bound _ i W) as B3. unfold u64 in *. rewrite Z.mod_small by lia. lia.
Qed.
Print Assumptions C50_conserved.
(** Third parties, and transfers to oneself. *)
Theorem C50_others_untouched : forall self t inventory,
  (self <> transferor t /\ self <> transferee t) \/ transferor t = transferee t -> process_transfer self t inventory = Some inventory.
Proof.
  intros self t m [[H1 H2]|H]; unfold process_transfer.
  - destruct (id_eqb (transferor t) (transferee t)); [reflexivity|]. now rewrite !id_eqb_neq by assumption.
  - rewrite H, id_eqb_refl. reflexivity.
Qed.
Print Assumptions C50_others_untouched.
Definition demo_transfer := mk_transfer [0; 1] [0; 2] [([7], 3); ([9], 5); ([8], 0)].
Example C50_case : process_transfer [0; 1] demo_transfer [([9], 5); ([7], 10); ([6], 1)] = Some [([7], 7); ([6], 1)] /\
  process_transfer [0; 2] demo_transfer [([7], 1)] = Some [([7], 4); ([9], 5); ([8], 0)] /\
  process_transfer [0; 1] demo_transfer [([9], 4); ([7], 10)] = None /\ process_transfer [0; 3] demo_transfer [([9], 4)] = Some [([9], 4)].
Proof. vm_compute. auto. Qed.

(** C51: refuted.  What precedes the missing property in the (unspecified) order is gone. *)
Theorem C51_rejected_unchanged_refuted : exists items m, valid items /\ valid m /\ snd (erase_from items m) = true /\ exists i, held (fst (erase_from items m)) i <> held m i.
Proof.
  exists [([7], 3); ([9], 5)], [([7], 3); ([9], 4)]. repeat split; try (repeat constructor; cbn; intuition discriminate).
  exists [7]. vm_compute. discriminate.
Qed.
Print Assumptions C51_rejected_unchanged_refuted.
(** The exact effect: the entries before the first one that fails are removed. *)
Theorem C51_rejected_removes_a_prefix : forall items m, Forall (fun kv => 0 <= snd kv) items -> snd (erase_from items m) = true ->
  exists done k v rest, items = done ++ (k, v) :: rest /\ erase_from done m = (fst (erase_from items m), false) /\ held (fst (erase_from items m)) k < v.
Proof. intros items m F. now apply erase_from_prefix. Qed.
Print Assumptions C51_rejected_removes_a_prefix.
(** So removals of a single property are all or nothing. *)
Theorem C51_single_property : forall k v m, snd (erase_from [(k, v)] m) = true -> fst (erase_from [(k, v)] m) = m.
Proof.
  intros k v m. cbn. destruct (v =? 0); [discriminate|]. destruct (h_find k m) as [x|]; [|reflexivity]. destruct (x <? v); [reflexivity|]. destruct (x =? v); [discriminate|].
  destruct (q_sub x v); [discriminate|reflexivity|reflexivity].
Qed.
Print Assumptions C51_single_property.

(** Three properties are to be removed and the second is short: the first is gone, the third is left. *)
Example C51_case : erase_from [([7], 3); ([9], 5); ([8], 1)] [([8], 2); ([7], 3); ([9], 4)] = ([([8], 2); ([9], 4)], true) /\
  erase_from [([7], 3)] [([8], 2); ([7], 3); ([9], 4)] = ([([8], 2); ([9], 4)], false) /\ held [([8], 2); ([9], 4)] [9] = 4 /\
  erase_from [([9], 5)] [([8], 2); ([9], 4)] = ([([8], 2); ([9], 4)], true).
Proof. vm_compute. repeat split. Qed.

(** C52: refuted.  Taking the same property twice counts it once in the inventory; a transfer to oneself
    reduces the view only. *)
Theorem C52_repeated_take_refuted : exists o, owner_history (fun _ => true) [1] (fun _ _ => True) o /\ ~ views_agree (fun _ => true) o /\
  o = take [7] 5 (take [7] 5 (mk_typed_owner [] [])).
Proof.
  eexists. split; [|split; [|reflexivity]].
  - apply oh_take; [apply oh_take; [constructor| |exact I]| |exact I]; split; try reflexivity; unfold u64, W64; lia.
  - intros H. specialize (H [7]). vm_compute in H. discriminate.
Qed.
Print Assumptions C52_repeated_take_refuted.
Theorem C52_self_transfer_refuted : exists o, owner_history (fun _ => true) [1] (fun _ _ => True) o /\ ~ views_agree (fun _ => true) o /\
  receive_transfer (fun _ => true) [1] (mk_transfer [1] [1] [([7], 2)]) (take [7] 5 (mk_typed_owner [] [])) = Ret o.
Proof.
  eexists. split; [|split; [|reflexivity]].
  - eapply (oh_receive _ _ _ (take [7] 5 (mk_typed_owner [] [])) (mk_transfer [1] [1] [([7], 2)])); [apply oh_take; [constructor| |exact I]| |exact I|reflexivity].
    + split; [reflexivity|unfold u64, W64; lia].
    + split; cbn; repeat constructor; cbn; try (unfold W64; lia); try (intros []).
  - intros H. specialize (H [7]). vm_compute in H. discriminate.
Qed.
Print Assumptions C52_self_transfer_refuted.
(** A transfer that lists zero of a property the transferor's view lacks is undefined behaviour. *)
Theorem C52_zero_quantity_refuted : exists t o, owner_history (fun _ => true) [1] (guarded (fun _ => true)) o /\ valid (transferred t) /\ covers (inventory o) (transferred t) /\
  transferor t = [1] /\ transferee t = [2] /\ receive_transfer (fun _ => true) [1] t o = UB.
Proof.
  exists (mk_transfer [1] [2] [([7], 0)]), (mk_typed_owner [] []). split; [constructor|]. split; [split; cbn; repeat constructor; cbn; try (unfold W64; lia); try (intros [])|].
  split; [|auto]. intros i. cbn [transferred inventory]. rewrite held_cons. destruct (id_eqb [7] i); reflexivity || (cbn; lia).
Qed.
Print Assumptions C52_zero_quantity_refuted.
(** Without these - any other history - the two agree, for any type of property. *)
Theorem C52_views_agree : forall is_T self o, owner_history is_T self (guarded is_T) o -> views_agree is_T o.
Proof. intros is_T self o H. now apply (views_kept is_T self). Qed.
Print Assumptions C52_views_agree.
(** And a transfer of positive quantities completes whenever it is covered. *)
Theorem C52_covered_transfers_complete : forall is_T self o t, owner_history is_T self (guarded is_T) o ->
  valid (transferred t) -> Forall (fun kv => 0 < snd kv) (transferred t) -> transferor t <> transferee t ->
  (self = transferor t -> covers (inventory o) (transferred t)) -> exists o', receive_transfer is_T self t o = Ret o'.
Proof. exact receive_works. Qed.
Print Assumptions C52_covered_transfers_complete.
Definition demo_is_T (i : identity) : bool := match i with 7 :: _ => true | _ => false end.
Example C52_case : exists o, owner_history demo_is_T [1] (guarded demo_is_T) o /\ o = mk_typed_owner [([7], 3); ([7; 1], 4)] [([7], 3); ([7; 1], 4); ([9], 1)].
Proof.
  eexists. split; [|reflexivity].
  eapply (oh_receive _ _ _ (mk_typed_owner [([7], 5); ([7; 1], 4)] [([7], 5); ([7; 1], 4); ([9], 1)]) (mk_transfer [1] [2] [([7], 2)])).
  - eapply (oh_receive _ _ _ (take [7] 5 (mk_typed_owner [] [])) (mk_transfer [2] [1] [([7; 1], 4); ([9], 1)])).
    + apply oh_take; [constructor|split; [reflexivity|unfold u64, W64; lia]|reflexivity].
    + split; cbn; repeat constructor; cbn; try (unfold W64; lia); intuition discriminate.
    + cbn. discriminate.
    + reflexivity.
  - split; cbn; repeat constructor; cbn; try (unfold W64; lia); try (intros []).
  - cbn. discriminate.
  - reflexivity.
Qed.

(** C53.  Any entries, recorded in any order, and any interval in which they are in the reporting currency with magnitudes that add up
    to less than 2^63. *)
Theorem C53_figures : forall c entries a b,
  Forall (fun e => a <= fst e < b -> valuation (snd e) = c) entries -> zsum (map Z.abs (amounts entries a b)) < 2 ^ 63 ->
  revenue (ledger_of entries) a b c = Ret (mk_price (zsum (amounts entries a b)) c) /\
  income (ledger_of entries) a b c = Ret (mk_price (zsum (map (Z.max 0) (amounts entries a b))) c) /\
  expenses (ledger_of entries) a b c = Ret (mk_price (zsum (map (Z.min 0) (amounts entries a b))) c).
Proof.
  intros c entries a b F B. unfold revenue, income, expenses. repeat split.
  - rewrite (history_spec (fun p => p) (fun x => x)); auto; [|intros; lia]. now rewrite map_id.
  - apply history_spec; auto. intros x. lia.
  - apply history_spec; auto. intros x. lia.
Qed.
Print Assumptions C53_figures.
Theorem C53_adds_up : forall c entries a b d,
  Forall (fun e => a <= fst e < d -> valuation (snd e) = c) entries -> zsum (map Z.abs (amounts entries a d)) < 2 ^ 63 -> a <= b <= d ->
  exists r1 i1 e1 r2 i2 e2 r i e,
    let l := ledger_of entries in
    revenue l a b c = Ret (mk_price r1 c) /\ income l a b c = Ret (mk_price i1 c) /\ expenses l a b c = Ret (mk_price e1 c) /\
    revenue l b d c = Ret (mk_price r2 c) /\ income l b d c = Ret (mk_price i2 c) /\ expenses l b d c = Ret (mk_price e2 c) /\
    revenue l a d c = Ret (mk_price r c) /\ income l a d c = Ret (mk_price i c) /\ expenses l a d c = Ret (mk_price e c) /\
    i + e = r /\ 0 <= i /\ e <= 0 /\ r1 + r2 = r /\ i1 + i2 = i /\ e1 + e2 = e.
Proof.
  intros c entries a b d F B H. do 9 eexists. cbn zeta.
  assert (P : forall l, 0 <= zsum (map Z.abs l)). { induction l as [|x l IH]; cbn [map]; [cbn; lia|]. rewrite zsum_cons. lia. }
  pose proof (amounts_split entries a b d Z.abs H) as B2. pose proof (P (amounts entries a b)). pose proof (P (amounts entries b d)).
  assert (F1 : Forall (fun e => a <= fst e < b -> valuation (snd e) = c) entries) by (eapply Forall_impl; [|exact F]; cbn; intros e He Hi; apply He; lia).
  assert (F2 : Forall (fun e => b <= fst e < d -> valuation (snd e) = c) entries) by (eapply Forall_impl; [|exact F]; cbn; intros e He Hi; apply He; lia).
  destruct (C53_figures c entries a b F1 ltac:(lia)) as (-> & -> & ->). destruct (C53_figures c entries b d F2 ltac:(lia)) as (-> & -> & ->). destruct (C53_figures c entries a d F B) as (-> & -> & ->).
  do 9 (split; [reflexivity|]).
  assert (S : forall l, zsum (map (Z.max 0) l) + zsum (map (Z.min 0) l) = zsum l /\ 0 <= zsum (map (Z.max 0) l) /\ zsum (map (Z.min 0) l) <= 0).
  { induction l as [|x l IH]; [cbn [map]; change (zsum []) with 0; lia|]. cbn [map]. rewrite !zsum_cons. destruct IH as (I1 & I2 & I3). generalize dependent (zsum (map (Z.max 0) l)). generalize dependent (zsum (map (Z.min 0) l)). generalize (zsum l). intros. lia. }
  destruct (S (amounts entries a d)) as (S1 & S2 & S3). split; [exact S1|]. split; [exact S2|]. split; [exact S3|].
  pose proof (amounts_split entries a b d (fun x => x) H) as X. rewrite !map_id in X. split; [exact X|]. split; now apply amounts_split.
Qed.
Print Assumptions C53_adds_up.
(** An entry in another currency makes the figures of every interval that contains it undefined (with assertions, the program stops). *)
Theorem C53_other_currency : forall c entries a b,
  Exists (fun e => a <= fst e < b /\ valuation (snd e) <> c) entries ->
  revenue (ledger_of entries) a b c = UB /\ income (ledger_of entries) a b c = UB /\ expenses (ledger_of entries) a b c = UB.
Proof.
  intros c entries a b H. assert (X : Exists (fun e => a <= fst e < b /\ ccy_eqb c (valuation (snd e)) = false) entries).
  { eapply Exists_impl; [|exact H]. intros e [I N]. split; [exact I|]. destruct c as [a1 a2 a3 a4], (valuation (snd e)) as [b1 b2 b3 b4]. unfold ccy_eqb. cbn. apply Bool.not_true_is_false. intros E. apply N. f_equal; lia. }
  unfold revenue, income, expenses. repeat split; now apply history_other.
Qed.
Print Assumptions C53_other_currency.
Definition demo_usd := mk_currency 85 83 68 100.
Example C53_case : let l := ledger_of [(5, mk_price 10 demo_usd); (2, mk_price (-4) demo_usd); (9, mk_price 7 demo_usd); (5, mk_price (-1) demo_usd); (20, mk_price 3 (mk_currency 69 85 82 100))] in
  revenue l 2 9 demo_usd = Ret (mk_price 5 demo_usd) /\ income l 2 9 demo_usd = Ret (mk_price 10 demo_usd) /\ expenses l 2 9 demo_usd = Ret (mk_price (-5) demo_usd) /\
  revenue l 2 20 demo_usd = Ret (mk_price 12 demo_usd) /\ revenue l 2 21 demo_usd = UB.
Proof. vm_compute. auto 6. Qed.
