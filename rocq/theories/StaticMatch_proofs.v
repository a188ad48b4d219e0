(** The fixed-tick book refines price-time priority: representation invariant and its preservation. *)
From Coq Require Import ZifyBool ZifyNat.
From Verif Require Import Base BlockPool BlockPool_spec BlockPool_proofs StaticBook StaticBook_spec StaticBook_proofs StaticMatch_spec.

(** * Lists *)
Definition last_error {A} (l : list A) : option A := match rev l with [] => None | x :: _ => Some x end.
Lemma last_error_app {A} (l : list A) x : last_error (l ++ [x]) = Some x.
Proof. unfold last_error. rewrite rev_app_distr. reflexivity. Qed.
Lemma last_error_app2 {A} (l1 l2 : list A) : l2 <> [] -> last_error (l1 ++ l2) = last_error l2.
Proof.
  intros H. destruct (exists_last H) as (l & x & ->). rewrite app_assoc, !last_error_app. reflexivity.
Qed.
Lemma last_error_nil {A} (l : list A) : last_error l = None <-> l = [].
Proof.
  split; [|intros ->; reflexivity]. destruct l as [|a l] using rev_ind; [reflexivity|]. rewrite last_error_app. discriminate.
Qed.
Lemma hd_error_app {A} (l1 l2 : list A) : hd_error (l1 ++ l2) = match l1 with [] => hd_error l2 | x :: _ => Some x end.
Proof. destruct l1; reflexivity. Qed.
Lemma filter_false {A} (f : A -> bool) l : (forall x, In x l -> f x = false) -> filter f l = [].
Proof. induction l as [|a l IH]; cbn; [reflexivity|]. intros H. rewrite (H a) by auto. apply IH. auto. Qed.
Lemma filter_true {A} (f : A -> bool) l : (forall x, In x l -> f x = true) -> filter f l = l.
Proof. induction l as [|a l IH]; cbn; [reflexivity|]. intros H. rewrite (H a) by auto. f_equal. apply IH. auto. Qed.
Lemma nodup_map_inj {A B} (f : A -> B) l x y : NoDup (map f l) -> In x l -> In y l -> f x = f y -> x = y.
Proof.
  induction l as [|a l IH]; cbn; [tauto|]. inversion 1 as [|? ? N1 N2]; subst. intros [->|Hx] [->|Hy] E; auto.
  - exfalso. apply N1. rewrite E. now apply in_map.
  - exfalso. apply N1. rewrite <- E. now apply in_map.
Qed.
Lemma NoDup_map_app {A B} (f : A -> B) l1 x l2 : NoDup (map f (l1 ++ x :: l2)) -> forall y, In y (l1 ++ l2) -> f y <> f x.
Proof.
  rewrite map_app. cbn [map]. intros H y Hy E. apply NoDup_remove_2 in H. apply H. rewrite <- E, <- map_app. now apply in_map.
Qed.

(** * The pool: blocks and data *)
Lemma data_set p i r j : data (set_data p i r) j = if Nat.eqb j i then r else data p j.
Proof. unfold data, set_data, set_block. cbn [blocks]. destruct (Nat.eqb j i); reflexivity. Qed.
Lemma index_set p i r j : b_index (blocks (set_data p i r) j) = b_index (blocks p j).
Proof. unfold set_data, set_block. cbn [blocks]. destruct (Nat.eqb_spec j i) as [->|]; reflexivity. Qed.
Lemma slot_set p i r h : slot (set_data p i r) h = slot p h.
Proof. reflexivity. Qed.
Lemma chain_ext {A} (f g : nat -> block A) : (forall j, b_next (f j) = b_next (g j)) -> forall l o, chain f o l -> chain g o l.
Proof. intros E. induction l as [|i l IH]; intros o; cbn; [auto|]. intros [-> H]. split; [reflexivity|]. rewrite <- E. auto. Qed.

(** The pool holds exactly the orders of the ledger. *)
Definition live (p : pool record) (l : list entry) : list (Z * record) :=
  map (fun e => (e_identifier e, data p (slot p (e_identifier e)))) l.
Definition pinv (capacity : Z) (p : pool record) (l : list entry) (handed : list Z) : Prop :=
  exists free, inv capacity p (live p l) handed free.
Lemma live_fst p l : map fst (live p l) = map e_identifier l.
Proof. unfold live. rewrite map_map. reflexivity. Qed.
Lemma map_slot_live (p p' : pool record) l : map (fun x => slot p (fst x)) (live p' l) = map (fun e => slot p (e_identifier e)) l.
Proof. unfold live. rewrite map_map. reflexivity. Qed.
Lemma pinv_set capacity p l handed i r : pinv capacity p l handed -> pinv capacity (set_data p i r) l handed.
Proof.
  intros (free & I). exists free. destruct I. constructor; try assumption.
  - eapply chain_ext; [|exact i_chain]. intros j. unfold set_data, set_block. cbn [blocks]. destruct (Nat.eqb_spec j i) as [->|]; reflexivity.
  - rewrite map_slot_live in *. exact i_perm.
  - unfold live in *. rewrite Forall_map in *. eapply Forall_impl; [|exact i_live]. cbn [fst snd]. intros e (H1 & _ & H3).
    rewrite slot_set, index_set. split; [exact H1|]. split; [reflexivity|exact H3].
  - cbn [size_ set_data]. rewrite i_size. unfold live. now rewrite !map_length.
  - unfold live in *. rewrite Forall_map in *. exact i_from.
Qed.
(** Only identifiers matter. *)
Lemma pinv_ids capacity p l l' handed : map e_identifier l = map e_identifier l' -> pinv capacity p l handed -> pinv capacity p l' handed.
Proof.
  intros E (free & I). exists free. assert (X : live p l' = live p l).
  { unfold live. rewrite <- (map_map e_identifier (fun h => (h, data p (slot p h)))). rewrite <- (map_map e_identifier (fun h => (h, data p (slot p h))) l).
    now rewrite E. }
  rewrite X. exact I.
Qed.
Lemma inv_permuted {A} capacity (p : pool A) l l' handed free : Permutation l l' -> inv capacity p l handed free -> inv capacity p l' handed free.
Proof.
  intros P I. destruct I. constructor; try assumption.
  - rewrite <- (Permutation_map (fun x => slot p (fst x)) P). exact i_perm.
  - now rewrite <- P.
  - now rewrite <- (Permutation_length P).
  - now rewrite <- P.
Qed.
Lemma pinv_facts capacity p l handed : pinv capacity p l handed ->
  0 < capacity /\ cap p = capacity /\ NoDup (map (fun e => slot p (e_identifier e)) l) /\ NoDup (map e_identifier l) /\
  Forall (fun e => b_index (blocks p (slot p (e_identifier e))) = e_identifier e /\ 0 <= e_identifier e) l /\
  Z.of_nat (length l) <= capacity /\ Forall (fun e => In (e_identifier e) handed) l.
Proof.
  intros (free & I). destruct I. destruct i_cap as [C1 C2]. split; [exact C1|]. split; [exact C2|].
  assert (N : NoDup (map (fun e => slot p (e_identifier e)) l)).
  { assert (N : NoDup (free ++ map (fun x => slot p (fst x)) (live p l))) by (eapply Permutation_NoDup; [symmetry; exact i_perm|apply seq_NoDup]).
    rewrite map_slot_live in N. clear - N. induction free as [|a f IH]; [exact N|inversion N; auto]. }
  split; [exact N|]. split; [rewrite <- (map_map e_identifier (fun h => slot p h)) in N; eapply NoDup_map_inv; exact N|].
  split; [unfold live in i_live; rewrite Forall_map in i_live; eapply Forall_impl; [|exact i_live]; cbn [fst]; intros e (? & _ & ?); split; [assumption|lia]|].
  split.
  - apply Permutation_length in i_perm. rewrite app_length, map_length, seq_length in i_perm. unfold live in i_perm. rewrite map_length in i_perm. lia.
  - unfold live in i_from. rewrite Forall_map in i_from. exact i_from.
Qed.
Lemma pinv_erase capacity p l1 e l2 handed : pinv capacity p (l1 ++ e :: l2) handed ->
  exists p', erase p (e_identifier e) = (p', 1) /\ pinv capacity p' (l1 ++ l2) handed /\ cap p' = cap p /\
    (forall j, data p' j = data p j) /\ (forall j, b_index (blocks p' j) = b_index (blocks p j)).
Proof.
  intros (free & I). unfold live in I. rewrite map_app in I. cbn [map] in I.
  destruct (erase_inv _ _ _ _ _ _ _ _ I) as (p' & E & I' & _ & _ & _ & C). exists p'. split; [exact E|].
  assert (B : forall j, data p' j = data p j /\ b_index (blocks p' j) = b_index (blocks p j)).
  { intros j. unfold erase in E. destruct (negb _); [congruence|]. destruct (size_ p =? 0); injection E as <-; try discriminate;
      unfold data; cbn [blocks]; unfold set_block; destruct (Nat.eqb_spec j (slot p (e_identifier e))) as [->|]; split; reflexivity. }
  split; [|split; [exact C|split; intros j; apply B]].
  eexists. unfold live. rewrite (map_ext _ (fun e0 => (e_identifier e0, data p (slot p (e_identifier e0))))).
  - rewrite map_app. exact I'.
  - intros a. rewrite (slot_cap p' p _ C). now rewrite (proj1 (B _)).
Qed.
Lemma pinv_store capacity p l handed r : pinv capacity p l handed -> few capacity (0 :: handed) -> Z.of_nat (length l) < capacity ->
  exists p' h i, emplace p r = Ret (p', h, i) /\ i = slot p h /\ cap p' = cap p /\ ~ In i (map (fun e => slot p (e_identifier e)) l) /\
    (forall e, e_identifier e = h -> pinv capacity (set_index p' i h) (l ++ [e]) (h :: handed)) /\
    data (set_index p' i h) i = r /\ (forall j, j <> i -> data (set_index p' i h) j = data p j) /\
    b_index (blocks (set_index p' i h) i) = h /\ (forall j, j <> i -> b_index (blocks (set_index p' i h) j) = b_index (blocks p j)) /\
    Forall (fun x => x < h) handed /\ 0 <= h < W64 - 1.
Proof.
  intros P F Hl. pose proof (pinv_facts _ _ _ _ P) as (C1 & C2 & N & _). destruct P as (free & I).
  assert (Hs : size_ p < capacity) by (destruct I; rewrite i_size; unfold live; rewrite map_length; exact Hl).
  destruct (emplace_ok _ _ _ _ _ r I F Hs) as (p' & h & i & Em & E' & Hm & Hh & Hb & Hc & He & Hsz & Hhi & Hr & Hbk & Hhc & H0).
  destruct (free_head _ _ _ _ _ I Hs) as (i' & free' & Ef & Ei & Hi & Nf & Nl). rewrite E' in Ei. injection Ei as <-.
  assert (Es : slot p h = i) by (unfold slot; rewrite C2, Hm; lia).
  destruct (store_inv _ _ _ _ _ r I F Hs) as (p2 & h2 & free2 & St & Ef2 & I2 & _). unfold store in St. rewrite Em in St. injection St as <- <-.
  exists p', h, i. split; [exact Em|]. split; [now symmetry|]. split; [congruence|]. rewrite map_slot_live in Nl. split; [exact Nl|].
  assert (Di : data (set_index p' i h) i = r) by (unfold data; cbn; rewrite Hb, !set_same; reflexivity).
  assert (Do : forall j, j <> i -> data (set_index p' i h) j = data p j) by (intros j Hj; unfold data; cbn; rewrite Hb, !set_other by congruence; reflexivity).
  assert (Sl : forall x, slot (set_index p' i h) x = slot p x) by (intros x; apply slot_cap; cbn; congruence).
  split.
  { intros e Ee. exists free2. unfold live. rewrite map_app. cbn [map]. rewrite Ee, Sl, Es, Di.
    rewrite (map_ext_in _ (fun e0 => (e_identifier e0, data p (slot p (e_identifier e0))))).
    - eapply inv_permuted; [|exact I2]. apply Permutation_cons_append.
    - intros a Ha. rewrite Sl, Do; [reflexivity|]. intros X. apply Nl. rewrite <- X. now apply (in_map (fun e => slot p (e_identifier e))). }
  split; [exact Di|]. split; [exact Do|]. split; [cbn; rewrite set_same; reflexivity|].
  split; [intros j Hj; cbn; rewrite Hb, !set_other by congruence; reflexivity|].
  destruct I. split.
  - destruct i_handed as [_ X]. eapply Forall_impl; [|exact X]. cbn. intros; lia.
  - split; [exact H0|]. unfold few in F. cbn [length] in F. destruct i_bounds as ((R1 & R2) & _).
    assert ((round_ p' + 1) * capacity <= (3 * Z.of_nat (S (length handed)) + 1) * capacity) by nia. nia.
Qed.

(** * Linked queues *)
Fixpoint seg (p : pool record) (pre : option nat) (q : list nat) (nxt : option nat) : Prop :=
  match q with
  | [] => True
  | a :: q' => r_predecessor (data p a) = pre /\ r_successor (data p a) = (match q' with [] => nxt | b :: _ => Some b end) /\ seg p (Some a) q' nxt
  end.
Definition or_else (a b : option nat) : option nat := match a with Some _ => a | None => b end.
Lemma seg_app p q2 nxt : forall q1 pre, seg p pre (q1 ++ q2) nxt <-> seg p pre q1 (or_else (hd_error q2) nxt) /\ seg p (or_else (last_error q1) pre) q2 nxt.
Proof.
  induction q1 as [|a q1 IH]; intros pre.
  - cbn. tauto.
  - cbn [app seg]. rewrite IH. assert (E1 : match q1 ++ q2 with [] => nxt | b :: _ => Some b end = match q1 with [] => or_else (hd_error q2) nxt | b :: _ => Some b end)
      by (destruct q1; [destruct q2; reflexivity|reflexivity]).
    assert (E2 : or_else (last_error q1) (Some a) = or_else (last_error (a :: q1)) pre).
    { destruct q1 as [|x q1 _] using rev_ind; [reflexivity|]. change (a :: q1 ++ [x]) with ((a :: q1) ++ [x]). rewrite !last_error_app. reflexivity. }
    rewrite E1, E2. tauto.
Qed.
Lemma seg_frame p p' nxt : forall q pre, (forall a, In a q -> r_predecessor (data p' a) = r_predecessor (data p a) /\ r_successor (data p' a) = r_successor (data p a)) ->
  seg p pre q nxt -> seg p' pre q nxt.
Proof.
  induction q as [|a q IH]; intros pre F; cbn [seg]; [auto|]. intros (H1 & H2 & H3). destruct (F a) as [F1 F2]; [left; reflexivity|].
  rewrite F1, F2. split; [exact H1|]. split; [exact H2|]. apply IH; [intros x Hx; apply F; right; exact Hx|exact H3].
Qed.
Lemma seg_last p p' q x pre nxt nxt' : seg p pre (q ++ [x]) nxt ->
  (forall a, In a q -> r_predecessor (data p' a) = r_predecessor (data p a) /\ r_successor (data p' a) = r_successor (data p a)) ->
  r_predecessor (data p' x) = r_predecessor (data p x) -> r_successor (data p' x) = nxt' -> seg p' pre (q ++ [x]) nxt'.
Proof.
  intros H F P S. apply seg_app in H. destruct H as [H1 H2]. apply seg_app. cbn [hd_error or_else seg] in *. split.
  - eapply seg_frame; [exact F|exact H1].
  - destruct H2 as (H2 & _). repeat split; congruence.
Qed.
Lemma seg_first p p' q x pre pre' nxt : seg p pre (x :: q) nxt ->
  (forall a, In a q -> r_predecessor (data p' a) = r_predecessor (data p a) /\ r_successor (data p' a) = r_successor (data p a)) ->
  r_predecessor (data p' x) = pre' -> r_successor (data p' x) = r_successor (data p x) -> seg p' pre' (x :: q) nxt.
Proof.
  cbn [seg]. intros (H1 & H2 & H3) F P S. split; [exact P|]. split; [congruence|]. eapply seg_frame; [exact F|exact H3].
Qed.

(** * The representation invariant *)
Section Rep.
Context (lowest highest capacity : Z) (size : nat) (encode decode : Z -> Z).
Context (HF : faithful lowest highest size encode decode).
Local Notation lev e := (encode (e_limit e)).

Definition slots (p : pool record) (l : list entry) (i : Z) : list nat :=
  map (fun e => slot p (e_identifier e)) (filter (fun e => lev e =? i) l).
Definition queue_ok (p : pool record) (x : option nat * option nat) (q : list nat) : Prop :=
  seg p None q None /\ fst x = hd_error q /\ (q <> [] -> snd x = last_error q).
Definition holds (p : pool record) (e : entry) : Prop :=
  let r := data p (slot p (e_identifier e)) in r_limit r = Some (e_limit e) /\ r_quantity r = e_quantity e /\ r_owner r = e_owner e.
Definition inside (e : entry) : Prop := lowest < e_limit e < highest /\ 0 < e_quantity e /\ e_identifier e < W64 - 1.
Record core (b : book) (l : list entry) (handed : list Z) : Prop := mk_core {
  co_pool : pinv capacity (b_pool b) l handed;
  co_data : Forall (holds (b_pool b)) l;
  co_inside : Forall inside l;
  co_levels : length (b_levels b) = size;
  co_queues : forall i, 0 <= i < Z.of_nat size -> queue_ok (b_pool b) (nth (Z.to_nat i) (b_levels b) (None, None)) (slots (b_pool b) l i);
  co_cross : forall e e', In e l -> In e' l -> e_buy e = true -> e_buy e' = false -> lev e < lev e' }.
Definition bid_ok (i : Z) (l : list entry) : Prop :=
  0 <= i /\ (forall e, In e l -> e_buy e = true -> lev e <= i) /\ (i = 0 \/ exists e, In e l /\ e_buy e = true /\ lev e = i).
Definition ask_ok (i : Z) (l : list entry) : Prop :=
  i <= Z.of_nat size - 1 /\ (forall e, In e l -> e_buy e = false -> i <= lev e) /\ (i = Z.of_nat size - 1 \/ exists e, In e l /\ e_buy e = false /\ lev e = i).

Lemma lev_bounds e : inside e -> 0 < lev e < Z.of_nat size - 1 /\ decode (lev e) = e_limit e.
Proof. intros (H & _). apply (proj1 HF). exact H. Qed.
Lemma lev_lt v w : lowest < v < highest -> lowest < w < highest -> (encode v < encode w <-> v < w).
Proof.
  intros Hv Hw. split; [|apply (proj2 HF); assumption]. intros L. destruct (Z.lt_trichotomy v w) as [|[->|G]]; [assumption|lia|].
  pose proof (proj2 HF w v Hw Hv G). lia.
Qed.
Lemma lev_le v w : lowest < v < highest -> lowest < w < highest -> (encode v <= encode w <-> v <= w).
Proof. intros Hv Hw. pose proof (lev_lt w v Hw Hv). lia. Qed.
Lemma level_ok b i : length (b_levels b) = size -> 0 <= i < Z.of_nat size -> level b i = Ok (nth (Z.to_nat i) (b_levels b) (None, None)).
Proof.
  intros L Hi. unfold level. destruct (Z.ltb_spec i 0); [lia|].
  rewrite (nth_error_nth' (b_levels b) (None, None)) by lia. reflexivity.
Qed.
Lemma nth_set_level b k x i : (k < length (b_levels b))%nat -> nth i (b_levels (set_level b k x)) (None, None) = if Nat.eqb i k then x else nth i (b_levels b) (None, None).
Proof.
  intros Hk. unfold set_level. cbn [b_levels]. rewrite <- (firstn_skipn k (b_levels b)) at 3.
  destruct (skipn k (b_levels b)) as [|y r] eqn:E.
  - exfalso. apply (f_equal (@length _)) in E. rewrite skipn_length in E. cbn in E. lia.
  - destruct (Nat.eqb_spec i k) as [->|N].
    + rewrite app_nth2; rewrite firstn_length; [|lia]. replace (k - Nat.min k (length (b_levels b)))%nat with 0%nat by lia. reflexivity.
    + destruct (Nat.lt_ge_cases i k) as [L|G].
      * rewrite !app_nth1 by (rewrite firstn_length; lia). reflexivity.
      * rewrite !app_nth2 by (rewrite firstn_length; lia). rewrite firstn_length. replace (i - Nat.min k (length (b_levels b)))%nat with (S (i - k - 1)) by lia. reflexivity.
Qed.
Lemma filter_split {A} (f : A -> bool) l x r : filter f l = x :: r -> exists l1 l2, l = l1 ++ x :: l2 /\ (forall y, In y l1 -> f y = false) /\ filter f l2 = r /\ f x = true.
Proof.
  induction l as [|a l IH]; cbn; [discriminate|]. destruct (f a) eqn:E.
  - intros [= -> <-]. exists [], l. repeat split; auto. intros y [].
  - intros H. destruct (IH H) as (l1 & l2 & -> & H1 & H2 & H3). exists (a :: l1), l2. repeat split; auto. intros y [<-|Hy]; auto.
Qed.

(** ** The ledger after a trade *)
Definition after_trade (l1 : list entry) (e : entry) (l2 : list entry) (x : Z) : list entry :=
  if x =? e_quantity e then l1 ++ l2 else l1 ++ mk_entry (e_identifier e) (e_buy e) (e_limit e) (e_quantity e - x) (e_owner e) :: l2.
Lemma reduce_other h q l : (forall e, In e l -> e_identifier e <> h) -> map (reduce h q) l = l.
Proof.
  intros H. rewrite <- (map_id l) at 2. apply map_ext_in. intros e He. unfold reduce. destruct (Z.eqb_spec (e_identifier e) h); [exfalso; eapply H; eauto|reflexivity].
Qed.
Lemma positive_all l : Forall inside l -> filter (fun e => 0 <? e_quantity e) l = l.
Proof. intros H. apply filter_true. rewrite Forall_forall in H. intros e He. destruct (H e He) as (_ & ? & _). lia. Qed.
Lemma ledger_trade o l1 e l2 x : Forall inside (l1 ++ e :: l2) -> NoDup (map e_identifier (l1 ++ e :: l2)) -> 0 < x <= e_quantity e ->
  fold_left note (trade o e x) (l1 ++ e :: l2) = after_trade l1 e l2 x.
Proof.
  intros I N Hx. unfold trade. cbn [fold_left]. unfold note at 2. cbn [p_state p_identifier p_quantity].
  rewrite reduce_other by (intros y Hy; rewrite Forall_forall in I; destruct (I y Hy) as (_ & _ & ?); unfold direct_order; lia).
  rewrite positive_all by exact I. unfold note. cbn [p_state p_identifier p_quantity].
  pose proof (NoDup_map_app e_identifier l1 e l2 N) as D.
  rewrite map_app. cbn [map]. rewrite !reduce_other by (intros y Hy; apply D; apply in_or_app; auto).
  apply Forall_app in I. destruct I as [I1 I2]. inversion I2 as [|? ? I3 I4]; subst.
  rewrite filter_app. cbn [filter]. rewrite !positive_all by assumption. unfold reduce. rewrite Z.eqb_refl. cbn [e_quantity]. unfold after_trade.
  destruct (Z.eqb_spec x (e_quantity e)) as [->|]; [rewrite (proj2 (Z.ltb_ge 0 _)) by lia; reflexivity|].
  rewrite (proj2 (Z.ltb_lt 0 _)) by lia. reflexivity.
Qed.

(** ** Partial execution of the first order of a level *)
Lemma slots_same_ids p p' l l' i : cap p = cap p' -> map (fun e => (e_identifier e, e_limit e)) l = map (fun e => (e_identifier e, e_limit e)) l' ->
  slots p l i = slots p' l' i.
Proof.
  intros C. unfold slots. revert l'. induction l as [|a l IH]; intros [|a' l']; cbn [map filter]; try discriminate; [reflexivity|].
  intros [= E1 E2 E3]. rewrite E2. destruct (encode (e_limit a') =? i); cbn [map]; rewrite (IH l') by exact E3; [|reflexivity].
  rewrite E1, (slot_cap p p' _ C). reflexivity.
Qed.
Lemma partial_step b l1 e l2 handed n o at_ rem q' : core b (l1 ++ e :: l2) handed -> 0 <= at_ < Z.of_nat size ->
  slots (b_pool b) (l1 ++ e :: l2) at_ = slot (b_pool b) (e_identifier e) :: q' -> decode at_ = e_limit e -> e_buy e = negb (o_buy o) ->
  0 < rem < e_quantity e ->
  exists b', match_at decode (S n) o (Z.to_nat at_) b rem (Some (slot (b_pool b) (e_identifier e))) = Ok (b', 0) /\
    core b' (after_trade l1 e l2 rem) handed /\ b_bid b' = b_bid b /\ b_ask b' = b_ask b /\ b_reports b' = b_reports b ++ trade o e rem.
Proof.
  intros C Ha Hs Hd Hb Hr. set (a := slot (b_pool b) (e_identifier e)) in *. destruct C.
  assert (Hh : holds (b_pool b) e) by (rewrite Forall_forall in co_data0; apply co_data0; apply in_or_app; right; left; reflexivity).
  destruct Hh as (Hl & Hq & Ho). fold a in Hl, Hq, Ho.
  pose proof (pinv_facts _ _ _ _ co_pool0) as (C1 & C2 & N & NI & Bi & Le & _).
  assert (Bie : b_index (blocks (b_pool b) a) = e_identifier e) by (rewrite Forall_forall in Bi; apply Bi; apply in_or_app; right; left; reflexivity).
  assert (Hsuc : r_successor (data (b_pool b) a) = hd_error q').
  { destruct (co_queues0 at_ Ha) as (S1 & _). rewrite Hs in S1. cbn [seg] in S1. destruct S1 as (_ & S1 & _). rewrite S1. destruct q'; reflexivity. }
  set (e' := mk_entry (e_identifier e) (e_buy e) (e_limit e) (e_quantity e - rem) (e_owner e)).
  set (b' := mk_book (set_data (b_pool b) a (with_quantity (data (b_pool b) a) (r_quantity (data (b_pool b) a) - rem))) (b_levels b) (b_bid b) (b_ask b) (b_reports b ++ trade o e rem)).
  exists b'. split.
  { cbn [match_at]. destruct (Z.leb_spec rem 0); [lia|]. rewrite Hq. destruct (Z.leb_spec (e_quantity e) rem); [lia|]. cbv zeta.
    replace (rem - rem) with 0 by lia. rewrite Z2Nat.id by lia. rewrite Hd.
    assert (E : add_report (add_report (set_pool b (set_data (b_pool b) a (with_quantity (data (b_pool b) a) (e_quantity e - rem))))
        (mk_report matched (o_buy o) rem direct_order (e_limit e) (o_owner o)))
        (mk_report matched (negb (o_buy o)) rem (b_index (blocks (b_pool (set_pool b (set_data (b_pool b) a (with_quantity (data (b_pool b) a) (e_quantity e - rem))))) a)) (e_limit e) (r_owner (data (b_pool b) a))) = b').
    { unfold b', trade, add_report, set_pool. cbn [b_pool b_levels b_bid b_ask b_reports]. rewrite index_set, Bie, Ho, Hq, Hb, <- app_assoc. reflexivity. }
    rewrite E. change (b_pool b') with (set_data (b_pool b) a (with_quantity (data (b_pool b) a) (r_quantity (data (b_pool b) a) - rem))). rewrite data_set, Nat.eqb_refl.
    cbn [with_quantity r_successor]. rewrite Hsuc. destruct q' as [|s q']; cbn [hd_error]; [reflexivity|]. destruct n; reflexivity. }
  assert (Ea : after_trade l1 e l2 rem = l1 ++ e' :: l2) by (unfold after_trade; destruct (Z.eqb_spec rem (e_quantity e)); [lia|reflexivity]).
  split; [|auto]. rewrite Ea. unfold b'. constructor; cbn [b_pool b_levels].
  - apply pinv_set. eapply pinv_ids; [|exact co_pool0]. rewrite !map_app. reflexivity.
  - pose proof (NoDup_map_app (fun e => slot (b_pool b) (e_identifier e)) l1 e l2 N) as D. cbn beta in D. fold a in D.
    apply Forall_app in co_data0. destruct co_data0 as [D1 D2]. inversion D2 as [|? ? D3 D4]; subst.
    assert (Fr : forall x, In x (l1 ++ l2) -> holds (b_pool b) x -> holds (set_data (b_pool b) a (with_quantity (data (b_pool b) a) (r_quantity (data (b_pool b) a) - rem))) x).
    { intros x Hx. unfold holds. cbv zeta. rewrite slot_set, data_set. destruct (Nat.eqb_spec (slot (b_pool b) (e_identifier x)) a) as [X|]; [exfalso; apply (D x Hx X)|auto]. }
    rewrite Forall_forall in D1, D4. apply Forall_app. split; [apply Forall_forall; intros x Hx; apply Fr; [apply in_or_app; auto|auto]|].
    constructor; [|apply Forall_forall; intros x Hx; apply Fr; [apply in_or_app; auto|auto]].
    unfold holds. cbv zeta. rewrite slot_set, data_set. change (slot (b_pool b) (e_identifier e')) with a. rewrite Nat.eqb_refl. cbn. rewrite Hl, Hq, Ho. auto.
  - apply Forall_app in co_inside0. destruct co_inside0 as [D1 D2]. inversion D2 as [|? ? D3 D4]; subst. apply Forall_app. split; [exact D1|]. constructor; [|exact D4].
    destruct D3 as (? & ? & ?). unfold inside. cbn. repeat split; try tauto; lia.
  - exact co_levels0.
  - intros i Hi. destruct (co_queues0 i Hi) as (S1 & S2 & S3).
    assert (Sl : slots (set_data (b_pool b) a (with_quantity (data (b_pool b) a) (r_quantity (data (b_pool b) a) - rem))) (l1 ++ e' :: l2) i = slots (b_pool b) (l1 ++ e :: l2) i).
    { apply slots_same_ids; [reflexivity|]. rewrite !map_app. reflexivity. }
    rewrite Sl. split; [|split; [exact S2|exact S3]]. eapply seg_frame; [|exact S1]. intros j _. rewrite data_set. destruct (Nat.eqb_spec j a) as [->|]; cbn; auto.
  - assert (M : forall x, In x (l1 ++ e' :: l2) -> exists y, In y (l1 ++ e :: l2) /\ e_buy y = e_buy x /\ e_limit y = e_limit x).
    { intros x Hx. apply in_app_or in Hx. destruct Hx as [Hx|[<-|Hx]]; [exists x|exists e|exists x]; (split; [apply in_or_app; cbn; auto|auto]). }
    intros x y Hx Hy Bx By. destruct (M x Hx) as (x0 & Hx0 & Bx0 & Lx0). destruct (M y Hy) as (y0 & Hy0 & By0 & Ly0).
    rewrite <- Lx0, <- Ly0. apply co_cross0; congruence.
Qed.
(** ** The first order of a level is used up *)
Lemma in_slots p l i j : In j (slots p l i) <-> exists x, In x l /\ lev x = i /\ slot p (e_identifier x) = j.
Proof.
  unfold slots. rewrite in_map_iff. split.
  - intros (x & <- & H). apply filter_In in H. exists x. repeat split; [tauto|lia].
  - intros (x & H1 & H2 & H3). exists x. split; [exact H3|]. apply filter_In. split; [exact H1|lia].
Qed.
Lemma slots_app p l1 l2 i : slots p (l1 ++ l2) i = slots p l1 i ++ slots p l2 i.
Proof. unfold slots. now rewrite filter_app, map_app. Qed.
Lemma slots_cons p e l i : slots p (e :: l) i = (if lev e =? i then [slot p (e_identifier e)] else []) ++ slots p l i.
Proof. unfold slots. cbn [filter]. destruct (_ =? _); reflexivity. Qed.
Lemma slots_pool p p' l i : cap p = cap p' -> slots p l i = slots p' l i.
Proof. intros C. apply slots_same_ids; auto. Qed.
Lemma slots_apart p l i j a : NoDup (map (fun e => slot p (e_identifier e)) l) -> In a (slots p l i) -> In a (slots p l j) -> i = j.
Proof.
  intros N Hi Hj. apply in_slots in Hi, Hj. destruct Hi as (x & Hx & <- & Ex). destruct Hj as (y & Hy & <- & Ey).
  f_equal. f_equal. eapply (nodup_map_inj _ _ _ _ N Hx Hy). congruence.
Qed.
Lemma NoDup_slots p l i : NoDup (map (fun e => slot p (e_identifier e)) l) -> NoDup (slots p l i).
Proof.
  unfold slots. induction l as [|a l IH]; cbn [map filter]; [constructor|]. inversion 1 as [|? ? N1 N2]; subst.
  destruct (_ =? _); [|auto]. cbn [map]. constructor; [|auto]. intros X. apply N1. apply in_map_iff in X. destruct X as (x & E & X).
  apply filter_In in X. rewrite <- E. now apply (in_map (fun e => slot p (e_identifier e))).
Qed.
Lemma cross_sub l l' : (forall x, In x l' -> In x l) -> (forall e e', In e l -> In e' l -> e_buy e = true -> e_buy e' = false -> lev e < lev e') ->
  forall e e', In e l' -> In e' l' -> e_buy e = true -> e_buy e' = false -> lev e < lev e'.
Proof. intros S H e e' He He'. apply H; auto. Qed.
Lemma removed_sub {A} (l1 : list A) e l2 x : In x (l1 ++ l2) -> In x (l1 ++ e :: l2).
Proof. intros H. apply in_app_or in H. apply in_or_app. cbn. tauto. Qed.

Lemma core_pop b b4 l1 e l2 handed q' : core b (l1 ++ e :: l2) handed ->
  slots (b_pool b) (l1 ++ e :: l2) (lev e) = slot (b_pool b) (e_identifier e) :: q' ->
  pinv capacity (b_pool b4) (l1 ++ l2) handed -> cap (b_pool b4) = cap (b_pool b) ->
  (forall j, j <> slot (b_pool b) (e_identifier e) -> data (b_pool b4) j = if same_pointer (hd_error q') (Some j) then with_predecessor (data (b_pool b) j) None else data (b_pool b) j) ->
  length (b_levels b4) = size ->
  (forall i, 0 <= i < Z.of_nat size -> nth (Z.to_nat i) (b_levels b4) (None, None) = if i =? lev e then (match q' with [] => (None, None) | s :: _ => (Some s, snd (nth (Z.to_nat (lev e)) (b_levels b) (None, None))) end)
            else nth (Z.to_nat i) (b_levels b) (None, None)) ->
  core b4 (l1 ++ l2) handed /\ slots (b_pool b4) (l1 ++ l2) (lev e) = q'.
Proof.
  intros C Hs Hp Hc Hd Hl Hn. destruct C. pose proof (pinv_facts _ _ _ _ co_pool0) as (C1 & C2 & N & NI & Bi & Le & _).
  set (a := slot (b_pool b) (e_identifier e)) in *.
  pose proof (NoDup_map_app (fun e => slot (b_pool b) (e_identifier e)) l1 e l2 N) as D. cbn beta in D. fold a in D.
  assert (Sq : slots (b_pool b4) (l1 ++ l2) (lev e) = q').
  { rewrite (slots_pool _ (b_pool b)) by congruence. pose proof (NoDup_slots _ _ (lev e) N) as Nq.
    rewrite slots_app, slots_cons, Z.eqb_refl in Hs. rewrite slots_app, slots_cons, Z.eqb_refl in Nq.
    rewrite slots_app. fold a in Hs, Nq. cbn [app] in Hs, Nq. destruct (slots (b_pool b) l1 (lev e)) as [|x s1] eqn:E1.
    - cbn [app] in Hs. injection Hs as Hs. exact Hs.
    - exfalso. cbn [app] in Hs. injection Hs as -> _. cbn [app] in Nq. inversion Nq as [|? ? X _]; subst. apply X. apply in_or_app. right. left. reflexivity. }
  split; [|exact Sq]. constructor; [exact Hp| | |exact Hl| |].
  - apply Forall_forall. intros x Hx. rewrite Forall_forall in co_data0. specialize (co_data0 x (removed_sub _ _ _ _ Hx)). revert co_data0.
    unfold holds. cbv zeta. rewrite (slot_cap _ (b_pool b) _ Hc). rewrite Hd by (apply D; exact Hx). destruct (same_pointer _ _); auto.
  - apply Forall_forall. intros x Hx. rewrite Forall_forall in co_inside0. apply co_inside0. apply removed_sub. exact Hx.
  - intros i Hi. destruct (co_queues0 i Hi) as (S1 & S2 & S3). rewrite Hn by exact Hi. destruct (Z.eqb_spec i (lev e)) as [->|Ni].
    + rewrite Sq. rewrite Hs in S1, S2, S3. cbn [seg] in S1. destruct S1 as (S11 & S12 & S13).
      assert (Na : ~ In a q'). { pose proof (NoDup_slots _ _ (lev e) N) as Nq. rewrite Hs in Nq. inversion Nq; assumption. }
      destruct q' as [|s q']; [repeat split; congruence|]. split; [|split; [reflexivity|]].
      * eapply seg_first; [exact S13| | |].
        -- intros x Hx. rewrite Hd by (intros ->; apply Na; right; exact Hx). cbn [hd_error same_pointer].
           destruct (Nat.eqb_spec s x) as [<-|]; [|auto]. exfalso. pose proof (NoDup_slots _ _ (lev e) N) as Nq. rewrite Hs in Nq. inversion Nq as [|? ? _ X]; subst. inversion X; contradiction.
        -- rewrite Hd by (intros ->; apply Na; left; reflexivity). cbn [hd_error same_pointer]. rewrite Nat.eqb_refl. reflexivity.
        -- rewrite Hd by (intros ->; apply Na; left; reflexivity). cbn [hd_error same_pointer]. rewrite Nat.eqb_refl. reflexivity.
      * intros _. rewrite S3 by discriminate. cbn [snd]. change (a :: s :: q') with ([a] ++ s :: q'). apply last_error_app2. discriminate.
    + assert (Sl : slots (b_pool b4) (l1 ++ l2) i = slots (b_pool b) (l1 ++ e :: l2) i).
      { rewrite (slots_pool _ (b_pool b)) by congruence. rewrite !slots_app, slots_cons. destruct (Z.eqb_spec (lev e) i); [congruence|reflexivity]. }
      rewrite Sl. split; [|split; [exact S2|exact S3]]. eapply seg_frame; [|exact S1]. intros x Hx.
      assert (Hxa : x <> a). { intros ->. apply Ni. eapply slots_apart; [exact N|exact Hx|]. rewrite Hs. left. reflexivity. }
      rewrite Hd by exact Hxa. destruct (same_pointer (hd_error q') (Some x)) eqn:E; [|auto]. exfalso.
      destruct q' as [|s q']; [discriminate|]. cbn [hd_error same_pointer] in E. assert (s = x) by lia. subst x.
      apply Ni. eapply slots_apart; [exact N|exact Hx|]. rewrite Hs. right. left. reflexivity.
  - eapply cross_sub; [|exact co_cross0]. intros x. apply removed_sub.
Qed.
Lemma set_level_pool b k x : b_pool (set_level b k x) = b_pool b. Proof. reflexivity. Qed.
Definition next_best (o : limit_order) (b : book) (rem : Z) : result (book * Z) :=
  if o_buy o then do i <- next_ask (S (S size)) b (b_ask b + 1); Ok (set_ask b i, rem)
  else do i <- next_bid (S (S size)) b (b_bid b - 1); Ok (set_bid b i, rem).
Lemma pop_step b l1 e l2 handed n o rem q' : core b (l1 ++ e :: l2) handed ->
  slots (b_pool b) (l1 ++ e :: l2) (lev e) = slot (b_pool b) (e_identifier e) :: q' -> e_buy e = negb (o_buy o) ->
  e_quantity e <= rem ->
  exists b4, match_at decode (S n) o (Z.to_nat (lev e)) b rem (Some (slot (b_pool b) (e_identifier e))) =
      (match q' with s :: _ => match_at decode n o (Z.to_nat (lev e)) b4 (rem - e_quantity e) (Some s) | [] => next_best o b4 (rem - e_quantity e) end) /\
    core b4 (l1 ++ l2) handed /\ slots (b_pool b4) (l1 ++ l2) (lev e) = q' /\
    b_bid b4 = b_bid b /\ b_ask b4 = b_ask b /\ b_reports b4 = b_reports b ++ trade o e (e_quantity e).
Proof.
  intros C Hs Hb Hr. set (a := slot (b_pool b) (e_identifier e)) in *. pose proof C as C'. destruct C.
  assert (Ie : inside e) by (rewrite Forall_forall in co_inside0; apply co_inside0; apply in_or_app; right; left; reflexivity).
  destruct (lev_bounds e Ie) as (Lb & Ld).
  assert (Hh : holds (b_pool b) e) by (rewrite Forall_forall in co_data0; apply co_data0; apply in_or_app; right; left; reflexivity).
  destruct Hh as (Hl & Hq & Ho). fold a in Hl, Hq, Ho.
  pose proof (pinv_facts _ _ _ _ co_pool0) as (C1 & C2 & N & NI & Bi & Le & _).
  assert (Bie : b_index (blocks (b_pool b) a) = e_identifier e) by (rewrite Forall_forall in Bi; apply Bi; apply in_or_app; right; left; reflexivity).
  assert (Hqueue := co_queues0 (lev e) ltac:(lia)). destruct Hqueue as (S1 & S2 & S3). rewrite Hs in S1, S2, S3. cbn [seg] in S1. destruct S1 as (_ & S12 & S13).
  assert (Hsuc : r_successor (data (b_pool b) a) = hd_error q') by (rewrite S12; destruct q'; reflexivity).
  assert (Na : ~ In a q'). { pose proof (NoDup_slots _ _ (lev e) N) as Nq. rewrite Hs in Nq. inversion Nq; assumption. }
  set (p1 := set_data (b_pool b) a (with_quantity (data (b_pool b) a) (e_quantity e - e_quantity e))).
  set (p2 := match hd_error q' with Some s => set_data p1 s (with_predecessor (data p1 s) None) | None => p1 end).
  assert (P2 : pinv capacity p2 (l1 ++ e :: l2) handed) by (unfold p2; destruct (hd_error q'); unfold p1; repeat apply pinv_set; exact co_pool0).
  assert (Cp2 : cap p2 = cap (b_pool b)) by (unfold p2; destruct (hd_error q'); reflexivity).
  assert (Ip2 : forall j, b_index (blocks p2 j) = b_index (blocks (b_pool b) j)) by (intros j; unfold p2; destruct (hd_error q'); unfold p1; rewrite ?index_set; reflexivity).
  assert (Dp2 : forall j, j <> a -> data p2 j = if same_pointer (hd_error q') (Some j) then with_predecessor (data (b_pool b) j) None else data (b_pool b) j).
  { intros j Hj. unfold p2. destruct (hd_error q') as [s|] eqn:E; cbn [same_pointer].
    - rewrite data_set. rewrite Nat.eqb_sym. destruct (Nat.eqb_spec s j) as [X|X]; unfold p1; rewrite data_set; [destruct (Nat.eqb_spec s a); congruence|destruct (Nat.eqb_spec j a); congruence].
    - unfold p1. rewrite data_set. destruct (Nat.eqb_spec j a); congruence. }
  assert (Da2 : r_successor (data p2 a) = hd_error q').
  { unfold p2. destruct q' as [|s q'']; cbn [hd_error]; unfold p1; rewrite !data_set; [rewrite Nat.eqb_refl; exact Hsuc|].
    destruct (Nat.eqb_spec a s) as [X|]; [exfalso; apply Na; left; congruence|]. rewrite Nat.eqb_refl. exact Hsuc. }
  destruct (pinv_erase _ _ _ _ _ _ P2) as (p3 & Er & P3 & Cp3 & Dp3 & Ip3).
  set (old := snd (nth (Z.to_nat (lev e)) (b_levels b) (None, None))).
  set (bl := set_level (set_pool b p2) (Z.to_nat (lev e)) (hd_error q', old)).
  set (br := mk_book p3 (b_levels bl) (b_bid b) (b_ask b) (b_reports b ++ trade o e (e_quantity e))).
  set (b4 := match q' with [] => set_level br (Z.to_nat (lev e)) (None, None) | _ :: _ => br end).
  assert (Ll : length (b_levels bl) = size) by (unfold bl; rewrite set_level_length; exact co_levels0).
  assert (Nl : forall i, nth i (b_levels bl) (None, None) = if Nat.eqb i (Z.to_nat (lev e)) then (hd_error q', old) else nth i (b_levels b) (None, None)).
  { intros i. unfold bl. rewrite nth_set_level; [reflexivity|]. cbn [b_levels set_pool]. lia. }
  assert (Pool4 : b_pool b4 = p3) by (unfold b4; destruct q'; reflexivity).
  assert (K : core b4 (l1 ++ l2) handed /\ slots (b_pool b4) (l1 ++ l2) (lev e) = q').
  { apply (core_pop b b4 l1 e l2 handed q' C' Hs); rewrite ?Pool4.
    - exact P3.
    - congruence.
    - intros j Hj. rewrite Dp3. apply Dp2. exact Hj.
    - unfold b4. destruct q'; [rewrite set_level_length|]; exact Ll.
    - intros i Hi. unfold b4. destruct q' as [|s q''].
      + rewrite nth_set_level by (cbn [b_levels br]; lia). change (b_levels br) with (b_levels bl). rewrite Nl.
        destruct (Z.eqb_spec i (lev e)) as [->|]; [rewrite Nat.eqb_refl; reflexivity|]. destruct (Nat.eqb_spec (Z.to_nat i) (Z.to_nat (lev e))); [lia|reflexivity].
      + change (b_levels br) with (b_levels bl). rewrite Nl. cbn [hd_error].
        destruct (Z.eqb_spec i (lev e)) as [->|]; [rewrite Nat.eqb_refl; reflexivity|]. destruct (Nat.eqb_spec (Z.to_nat i) (Z.to_nat (lev e))); [lia|reflexivity]. }
  exists b4. split.
  2: { destruct K as [K1 K2]. split; [exact K1|]. split; [exact K2|]. unfold b4. destruct q'; cbn; auto. }
  destruct Ie as (_ & Iq & _).
  cbn [match_at]. destruct (Z.leb_spec rem 0); [lia|]. rewrite Hq. destruct (Z.leb_spec (e_quantity e) rem); [|lia]. cbv zeta.
  rewrite Z2Nat.id by lia. rewrite Ld. fold p1.
  assert (E : set_level (match r_successor (data (b_pool b) a) with
                | Some s => set_pool (set_pool b p1) (set_data (b_pool (set_pool b p1)) s (with_predecessor (data (b_pool (set_pool b p1)) s) None))
                | None => set_pool b p1 end) (Z.to_nat (lev e))
      (r_successor (data (b_pool b) a), snd (nth (Z.to_nat (lev e)) (b_levels (match r_successor (data (b_pool b) a) with
                | Some s => set_pool (set_pool b p1) (set_data (b_pool (set_pool b p1)) s (with_predecessor (data (b_pool (set_pool b p1)) s) None))
                | None => set_pool b p1 end)) (None, None))) = bl).
  { unfold bl, p2, old. rewrite Hsuc. destruct (hd_error q'); reflexivity. }
  rewrite E. clear E. unfold add_report. cbn [b_pool b_levels b_bid b_ask b_reports]. change (b_pool bl) with p2.
  rewrite Ip2, Bie, Ho, Da2, Er. cbn [fst].
  assert (E : set_pool (mk_book p2 (b_levels bl) (b_bid bl) (b_ask bl) ((b_reports bl ++ [mk_report matched (o_buy o) (e_quantity e) direct_order (e_limit e) (o_owner o)]) ++
       [mk_report matched (negb (o_buy o)) (e_quantity e) (e_identifier e) (e_limit e) (e_owner e)])) p3 = br).
  { unfold set_pool, br, trade. cbn [b_levels b_bid b_ask b_reports]. rewrite Hb, <- app_assoc. reflexivity. }
  unfold b4. destruct q' as [|s q'']; cbn [hd_error].
  - change (hd_error []) with (@None nat) in *. rewrite E. unfold next_best. rewrite set_level_length. change (length (b_levels br)) with (length (b_levels bl)). rewrite Ll. reflexivity.
  - rewrite E. f_equal. change (b_pool br) with p3. rewrite Dp3. exact Da2.
Qed.
(** ** The best pointers *)
Lemma empty_level b l handed i : core b l handed -> 0 <= i < Z.of_nat size -> (fst (nth (Z.to_nat i) (b_levels b) (None, None)) = None <-> forall e, In e l -> lev e <> i).
Proof.
  intros C Hi. destruct C. destruct (co_queues0 i Hi) as (_ & S2 & _). rewrite S2. split.
  - intros E e He X. assert (In (slot (b_pool b) (e_identifier e)) (slots (b_pool b) l i)) by (apply in_slots; eauto).
    destruct (slots (b_pool b) l i); [contradiction|discriminate].
  - intros H. destruct (slots (b_pool b) l i) as [|a q] eqn:E; [reflexivity|]. exfalso.
    assert (In a (slots (b_pool b) l i)) by (rewrite E; left; reflexivity). apply in_slots in H0. destruct H0 as (x & Hx & E1 & _). exact (H x Hx E1).
Qed.
Lemma full_level b l handed i a : core b l handed -> 0 <= i < Z.of_nat size -> fst (nth (Z.to_nat i) (b_levels b) (None, None)) = Some a ->
  exists q, slots (b_pool b) l i = a :: q.
Proof.
  intros C Hi E. destruct C. destruct (co_queues0 i Hi) as (_ & S2 & _). rewrite S2 in E. destruct (slots (b_pool b) l i); [discriminate|]. injection E as ->. eauto.
Qed.
Lemma next_ask_ok b l handed : core b l handed -> forall n i, 0 <= i <= Z.of_nat size - 1 -> Z.of_nat size - i <= Z.of_nat n ->
  exists j, next_ask n b i = Ok j /\ i <= j <= Z.of_nat size - 1 /\ (forall e, In e l -> i <= lev e -> j <= lev e) /\
    (j = Z.of_nat size - 1 \/ exists e, In e l /\ lev e = j).
Proof.
  intros C. pose proof C as C'. destruct C'. induction n as [|n IH]; intros i Hi Hn; [lia|].
  cbn [next_ask]. rewrite co_levels0. destruct (Z.ltb_spec (Z.of_nat size - 1) i); [lia|]. rewrite level_ok by (auto; lia). cbn [bind_result].
  destruct (fst (nth (Z.to_nat i) (b_levels b) (None, None))) as [a|] eqn:E.
  - exists i. split; [reflexivity|]. split; [lia|]. split; [auto|]. right.
    destruct (full_level b l handed i a C ltac:(lia) E) as (q & S). assert (I : In a (slots (b_pool b) l i)) by (rewrite S; left; reflexivity).
    apply in_slots in I. destruct I as (x & Hx & X & _). eauto.
  - destruct (Z.eqb_spec i (Z.of_nat size - 1)) as [->|Ni].
    + exists (Z.of_nat size - 1). split; [reflexivity|]. split; [lia|]. split; [auto|]. left. reflexivity.
    + destruct (IH (i + 1)) as (j & H1 & H2 & H3 & H4); [lia|lia|]. exists j. split; [exact H1|]. split; [lia|]. split; [|exact H4].
      intros e He L. apply H3; [exact He|]. pose proof (proj1 (empty_level b l handed i C ltac:(lia)) E e He). lia.
Qed.
Lemma next_bid_ok b l handed : core b l handed -> forall n i, 0 <= i <= Z.of_nat size - 1 -> i + 1 <= Z.of_nat n ->
  exists j, next_bid n b i = Ok j /\ 0 <= j <= i /\ (forall e, In e l -> lev e <= i -> lev e <= j) /\
    (j = 0 \/ exists e, In e l /\ lev e = j).
Proof.
  intros C. pose proof C as C'. destruct C'. induction n as [|n IH]; intros i Hi Hn; [lia|].
  cbn [next_bid]. destruct (Z.ltb_spec i 0); [lia|]. rewrite level_ok by (auto; lia). cbn [bind_result].
  destruct (fst (nth (Z.to_nat i) (b_levels b) (None, None))) as [a|] eqn:E.
  - exists i. split; [reflexivity|]. split; [lia|]. split; [auto|]. right.
    destruct (full_level b l handed i a C ltac:(lia) E) as (q & S). assert (I : In a (slots (b_pool b) l i)) by (rewrite S; left; reflexivity).
    apply in_slots in I. destruct I as (x & Hx & X & _). eauto.
  - destruct (Z.eqb_spec i 0) as [->|Ni].
    + exists 0. split; [reflexivity|]. split; [lia|]. split; [auto|]. left. reflexivity.
    + destruct (IH (i - 1)) as (j & H1 & H2 & H3 & H4); [lia|lia|]. exists j. split; [exact H1|]. split; [lia|]. split; [|exact H4].
      intros e He L. apply H3; [exact He|]. pose proof (proj1 (empty_level b l handed i C ltac:(lia)) E e He). lia.
Qed.
Lemma core_set_ask b l handed i : core b l handed -> core (set_ask b i) l handed.
Proof. intros []. constructor; assumption. Qed.
Lemma core_set_bid b l handed i : core b l handed -> core (set_bid b i) l handed.
Proof. intros []. constructor; assumption. Qed.
Lemma core_add_report b l handed r : core b l handed -> core (add_report b r) l handed.
Proof. intros []. constructor; assumption. Qed.

Record good (b : book) (l : list entry) (handed : list Z) : Prop := mk_good {
  go_core : core b l handed; go_bid : bid_ok (b_bid b) l; go_ask : ask_ok (b_ask b) l }.

(** After the last order of the best level has been used up. *)
Lemma next_best_ok b b4 l1 e l2 handed o rem : core b (l1 ++ e :: l2) handed -> bid_ok (b_bid b) (l1 ++ e :: l2) -> ask_ok (b_ask b) (l1 ++ e :: l2) ->
  core b4 (l1 ++ l2) handed -> slots (b_pool b4) (l1 ++ l2) (lev e) = [] -> b_bid b4 = b_bid b -> b_ask b4 = b_ask b -> e_buy e = negb (o_buy o) ->
  (if o_buy o then b_ask b else b_bid b) = lev e ->
  exists b5, next_best o b4 rem = Ok (b5, rem) /\ good b5 (l1 ++ l2) handed /\ b_reports b5 = b_reports b4 /\ b_pool b5 = b_pool b4.
Proof.
  intros C Bo Ao C4 S4 E1 E2 Hb Hp.
  assert (Ie : inside e) by (destruct C; rewrite Forall_forall in co_inside0; apply co_inside0; apply in_or_app; right; left; reflexivity).
  destruct (lev_bounds e Ie) as (Lb & _).
  assert (Ne : forall x, In x (l1 ++ l2) -> lev x <> lev e).
  { intros x Hx X. assert (I : In (slot (b_pool b4) (e_identifier x)) (slots (b_pool b4) (l1 ++ l2) (lev e))) by (apply in_slots; eauto). rewrite S4 in I. exact I. }
  assert (He : In e (l1 ++ e :: l2)) by (apply in_or_app; right; left; reflexivity).
  destruct C. destruct Bo as (B1 & B2 & B3). destruct Ao as (A1 & A2 & A3).
  unfold next_best. destruct (o_buy o) eqn:Ob; cbn [negb] in Hb.
  - destruct (next_ask_ok b4 _ _ C4 (S (S size)) (b_ask b4 + 1)) as (j & H1 & H2 & H3 & H4); [rewrite E2; lia|rewrite E2; lia|].
    rewrite H1. cbn [bind_result]. exists (set_ask b4 j). split; [reflexivity|]. split; [|auto].
    constructor; cbn [set_ask b_bid b_ask].
    + apply core_set_ask. exact C4.
    + rewrite E1. split; [exact B1|]. split; [intros x Hx; apply B2; apply removed_sub; exact Hx|].
      destruct B3 as [B3|(x & Hx & X1 & X2)]; [left; exact B3|]. right. exists x. split; [|auto]. apply in_app_or in Hx. apply in_or_app. destruct Hx as [?|[->|?]]; [auto| |auto]. congruence.
    + split; [lia|]. split.
      * intros x Hx Bx. apply H3; [exact Hx|]. pose proof (A2 x (removed_sub _ _ _ _ Hx) Bx). pose proof (Ne x Hx). lia.
      * destruct H4 as [H4|(x & Hx & X)]; [left; exact H4|]. right. exists x. split; [exact Hx|]. split; [|exact X].
        destruct (e_buy x) eqn:Bx; [|reflexivity]. pose proof (co_cross0 x e (removed_sub _ _ _ _ Hx) He Bx Hb). lia.
  - destruct (next_bid_ok b4 _ _ C4 (S (S size)) (b_bid b4 - 1)) as (j & H1 & H2 & H3 & H4); [rewrite E1; lia|rewrite E1; lia|].
    rewrite H1. cbn [bind_result]. exists (set_bid b4 j). split; [reflexivity|]. split; [|auto].
    constructor; cbn [set_bid b_bid b_ask].
    + apply core_set_bid. exact C4.
    + split; [lia|]. split.
      * intros x Hx Bx. apply H3; [exact Hx|]. pose proof (B2 x (removed_sub _ _ _ _ Hx) Bx). pose proof (Ne x Hx). lia.
      * destruct H4 as [H4|(x & Hx & X)]; [left; exact H4|]. right. exists x. split; [exact Hx|]. split; [|exact X].
        destruct (e_buy x) eqn:Bx; [reflexivity|]. pose proof (co_cross0 e x He (removed_sub _ _ _ _ Hx) Hb Bx). lia.
    + rewrite E2. split; [exact A1|]. split; [intros x Hx; apply A2; apply removed_sub; exact Hx|].
      destruct A3 as [A3|(x & Hx & X1 & X2)]; [left; exact A3|]. right. exists x. split; [|auto]. apply in_app_or in Hx. apply in_or_app. destruct Hx as [?|[->|?]]; [auto| |auto]. congruence.
Qed.
(** The pointers, when the order used up was not the last one of its level. *)
Lemma pointers_keep b b4 l1 e l2 handed q s : core b (l1 ++ e :: l2) handed -> bid_ok (b_bid b) (l1 ++ e :: l2) -> ask_ok (b_ask b) (l1 ++ e :: l2) ->
  core b4 (l1 ++ l2) handed -> slots (b_pool b4) (l1 ++ l2) (lev e) = s :: q -> bid_ok (b_bid b) (l1 ++ l2) /\ ask_ok (b_ask b) (l1 ++ l2).
Proof.
  intros C Bo Ao C4 S4. destruct C. destruct Bo as (B1 & B2 & B3). destruct Ao as (A1 & A2 & A3).
  assert (He : In e (l1 ++ e :: l2)) by (apply in_or_app; right; left; reflexivity).
  assert (I : In s (slots (b_pool b4) (l1 ++ l2) (lev e))) by (rewrite S4; left; reflexivity). apply in_slots in I. destruct I as (y & Hy & Ly & _).
  assert (By : e_buy y = e_buy e).
  { destruct (e_buy y) eqn:Y, (e_buy e) eqn:E; try reflexivity.
    - pose proof (co_cross0 y e (removed_sub _ _ _ _ Hy) He Y E). lia.
    - pose proof (co_cross0 e y He (removed_sub _ _ _ _ Hy) E Y). lia. }
  assert (R : forall x, In x (l1 ++ e :: l2) -> exists z, In z (l1 ++ l2) /\ e_buy z = e_buy x /\ lev z = lev x).
  { intros x Hx. apply in_app_or in Hx. destruct Hx as [Hx|[<-|Hx]]; [exists x|exists y|exists x]; (split; [|auto]); try exact Hy; apply in_or_app; auto. }
  split.
  - split; [exact B1|]. split; [intros x Hx; apply B2; apply removed_sub; exact Hx|]. destruct B3 as [B3|(x & Hx & X1 & X2)]; [left; exact B3|].
    right. destruct (R x Hx) as (z & Hz & Z1 & Z2). exists z. repeat split; congruence.
  - split; [exact A1|]. split; [intros x Hx; apply A2; apply removed_sub; exact Hx|]. destruct A3 as [A3|(x & Hx & X1 & X2)]; [left; exact A3|].
    right. destruct (R x Hx) as (z & Hz & Z1 & Z2). exists z. repeat split; congruence.
Qed.
Lemma pointers_same l l' i j : (forall x, In x l -> exists z, In z l' /\ e_buy z = e_buy x /\ lev z = lev x) ->
  (forall x, In x l' -> exists z, In z l /\ e_buy z = e_buy x /\ lev z = lev x) ->
  bid_ok i l -> ask_ok j l -> bid_ok i l' /\ ask_ok j l'.
Proof.
  intros F G (B1 & B2 & B3) (A1 & A2 & A3). split.
  - split; [exact B1|]. split.
    + intros x Hx Bx. destruct (G x Hx) as (z & Hz & Z1 & Z2). rewrite <- Z2. apply B2; [exact Hz|congruence].
    + destruct B3 as [B3|(x & Hx & X1 & X2)]; [left; exact B3|]. right. destruct (F x Hx) as (z & Hz & Z1 & Z2). exists z. repeat split; congruence.
  - split; [exact A1|]. split.
    + intros x Hx Bx. destruct (G x Hx) as (z & Hz & Z1 & Z2). rewrite <- Z2. apply A2; [exact Hz|congruence].
    + destruct A3 as [A3|(x & Hx & X1 & X2)]; [left; exact A3|]. right. destruct (F x Hx) as (z & Hz & Z1 & Z2). exists z. repeat split; congruence.
Qed.

(** ** Trading through one level *)
Inductive trades (o : limit_order) : list entry -> Z -> list report -> list entry -> Z -> Prop :=
| tr_done l q : trades o l q [] l q
| tr_step l q e rs l' q' : 0 < q -> next_in_line (negb (o_buy o)) l e -> crosses o e ->
    trades o (fold_left note (trade o e (Z.min q (e_quantity e))) l) (q - Z.min q (e_quantity e)) rs l' q' ->
    trades o l q (trade o e (Z.min q (e_quantity e)) ++ rs) l' q'.
Lemma tr_step_x o l q e x rs l' q' : x = Z.min q (e_quantity e) -> 0 < q -> next_in_line (negb (o_buy o)) l e -> crosses o e ->
  trades o (fold_left note (trade o e x) l) (q - x) rs l' q' -> trades o l q (trade o e x ++ rs) l' q'.
Proof. intros ->. apply tr_step. Qed.
Lemma trades_trans o l q rs l' q' : trades o l q rs l' q' -> forall rs2 l2 q2, trades o l' q' rs2 l2 q2 -> trades o l q (rs ++ rs2) l2 q2.
Proof.
  induction 1 as [|l q e rs l' q' H1 H2 H3 H4 IH]; intros rs2 l2 q2 T; [exact T|]. rewrite <- app_assoc. apply tr_step; auto.
Qed.
Lemma trades_executes o l q rs l' q' : trades o l q rs l' q' -> (q' = 0 \/ 0 < q' /\ forall e, In e l' -> ~ crosses o e) -> executes o l q rs l' q'.
Proof.
  induction 1 as [l q|l q e rs l' q' H1 H2 H3 H4 IH]; intros T.
  - destruct T as [->|[T1 T2]]; [apply ex_filled|apply ex_alone; assumption].
  - apply ex_trade; auto.
Qed.
Lemma trades_fold o l q rs l' q' : trades o l q rs l' q' -> fold_left note rs l = l'.
Proof. induction 1; [reflexivity|]. rewrite fold_left_app. assumption. Qed.
Lemma first_in_line b l1 e l2 handed o q' : core b (l1 ++ e :: l2) handed -> bid_ok (b_bid b) (l1 ++ e :: l2) -> ask_ok (b_ask b) (l1 ++ e :: l2) ->
  slots (b_pool b) (l1 ++ e :: l2) (lev e) = slot (b_pool b) (e_identifier e) :: q' -> (forall x, In x l1 -> lev x <> lev e) ->
  e_buy e = negb (o_buy o) -> (if o_buy o then b_ask b else b_bid b) = lev e -> next_in_line (negb (o_buy o)) (l1 ++ e :: l2) e.
Proof.
  intros C (B1 & B2 & B3) (A1 & A2 & A3) S N Hb Hp. split; [exact Hb|]. exists l1, l2. split; [reflexivity|].
  destruct C. rewrite Forall_forall in co_inside0.
  assert (He : In e (l1 ++ e :: l2)) by (apply in_or_app; right; left; reflexivity).
  pose proof (co_inside0 e He) as (Ie & _).
  split; apply Forall_forall; intros x Hx Bx.
  - assert (Hx' : In x (l1 ++ e :: l2)) by (apply in_or_app; auto). pose proof (co_inside0 x Hx') as (Ix & _). pose proof (N x Hx).
    pose proof (lev_lt (e_limit x) (e_limit e) Ix Ie). pose proof (lev_lt (e_limit e) (e_limit x) Ie Ix).
    unfold better. destruct (o_buy o); cbn [negb] in *; [pose proof (A2 x Hx' Bx)|pose proof (B2 x Hx' Bx)]; lia.
  - assert (Hx' : In x (l1 ++ e :: l2)) by (apply in_or_app; cbn; auto). pose proof (co_inside0 x Hx') as (Ix & _).
    pose proof (lev_lt (e_limit x) (e_limit e) Ix Ie). pose proof (lev_lt (e_limit e) (e_limit x) Ie Ix).
    unfold better. destruct (o_buy o); cbn [negb] in *; [pose proof (A2 x Hx' Bx)|pose proof (B2 x Hx' Bx)]; lia.
Qed.
Lemma match_level o i : lowest < o_limit o < highest -> (if o_buy o then i <= encode (o_limit o) else encode (o_limit o) <= i) -> 0 < i < Z.of_nat size - 1 ->
  forall q n b l handed rem a, good b l handed -> slots (b_pool b) l i = a :: q -> (if o_buy o then b_ask b else b_bid b) = i -> 0 < rem -> (length (a :: q) <= n)%nat ->
  exists b' l' rem' rs, match_at decode n o (Z.to_nat i) b rem (Some a) = Ok (b', rem') /\ good b' l' handed /\ trades o l rem rs l' rem' /\
    b_reports b' = b_reports b ++ rs /\ 0 <= rem' /\ (rem' = 0 \/ slots (b_pool b') l' i = []) /\ (forall x, In x l' -> In (e_buy x, lev x) (map (fun x => (e_buy x, lev x)) l)).
Proof.
  intros Hlim Hcr Hi. induction q as [|s q IH]; intros n b l handed rem a G S Hp Hr Hn; (destruct n as [|n]; [cbn in Hn; lia|]).
  all: destruct G as [C Bo Ao]; pose proof C as C'; destruct C'.
  all: pose proof S as S'; unfold slots in S'; destruct (filter (fun e => lev e =? i) l) as [|e f] eqn:Ef; [discriminate|]; cbn [map] in S'; injection S' as Ea Eq; destruct (filter_split _ _ _ _ Ef) as (l1 & l2 & -> & N1 & _ & Fe);
    assert (Le : lev e = i) by lia; assert (N1' : forall x, In x l1 -> lev x <> lev e) by (intros x Hx; specialize (N1 x Hx); lia); clear N1 Fe Ef;
    assert (He : In e (l1 ++ e :: l2)) by (apply in_or_app; right; left; reflexivity);
    assert (Ie : inside e) by (rewrite Forall_forall in co_inside0; apply co_inside0; exact He);
    pose proof Ie as (Ie1 & Ie2 & _); pose proof (pinv_facts _ _ _ _ co_pool0) as (_ & _ & _ & NI & _);
    assert (Be : e_buy e = negb (o_buy o)) by
      (destruct Bo as (B1 & B2 & B3); destruct Ao as (A1 & A2 & A3); destruct (o_buy o); cbn [negb];
       [destruct A3 as [A3|(x & Hx & X1 & X2)]; [lia|]; destruct (e_buy e) eqn:B; [|reflexivity]; pose proof (co_cross0 e x He Hx B X1); lia
       |destruct B3 as [B3|(x & Hx & X1 & X2)]; [lia|]; destruct (e_buy e) eqn:B; [reflexivity|]; pose proof (co_cross0 x e Hx He X1 B); lia]);
    rewrite <- Le in S, Hp, Hcr |- *; rewrite <- Ea in S |- *;
    pose proof (first_in_line b l1 e l2 handed o _ C Bo Ao S N1' Be Hp) as FL;
    assert (Cr : crosses o e) by (split; [exact Be|]; pose proof (lev_le (e_limit e) (o_limit o) Ie1 Hlim); pose proof (lev_le (o_limit o) (e_limit e) Hlim Ie1); destruct (o_buy o); lia);
    destruct (Z.lt_ge_cases rem (e_quantity e)) as [Lt|Ge].
  1, 3: destruct (lev_bounds e Ie) as (Lb & Ld);
    destruct (partial_step b l1 e l2 handed n o (lev e) rem _ C ltac:(lia) S Ld Be ltac:(lia)) as (b' & M & C4 & E1 & E2 & E3);
    exists b', (after_trade l1 e l2 rem), 0, (trade o e rem ++ []); split; [exact M|];
    assert (Ef : after_trade l1 e l2 rem = l1 ++ mk_entry (e_identifier e) (e_buy e) (e_limit e) (e_quantity e - rem) (e_owner e) :: l2) by
      (unfold after_trade; destruct (Z.eqb_spec rem (e_quantity e)); [lia|reflexivity]);
    assert (F : forall x, In x (l1 ++ e :: l2) -> exists z, In z (after_trade l1 e l2 rem) /\ e_buy z = e_buy x /\ lev z = lev x) by
      (rewrite Ef; intros x Hx; apply in_app_or in Hx; destruct Hx as [Hx|[<-|Hx]]; [exists x; split; [apply in_or_app; auto|auto]| |exists x; split; [apply in_or_app; cbn; auto|auto]];
       eexists; split; [apply in_or_app; right; left; reflexivity|auto]);
    assert (F2 : forall x, In x (after_trade l1 e l2 rem) -> exists z, In z (l1 ++ e :: l2) /\ e_buy z = e_buy x /\ lev z = lev x) by
      (rewrite Ef; intros x Hx; apply in_app_or in Hx; destruct Hx as [Hx|[<-|Hx]]; [exists x; split; [apply in_or_app; auto|auto]| |exists x; split; [apply in_or_app; cbn; auto|auto]];
       exists e; split; [exact He|auto]);
    destruct (pointers_same _ _ _ _ F F2 Bo Ao) as [Bo' Ao'];
    (split; [constructor; [exact C4|rewrite E1; exact Bo'|rewrite E2; exact Ao']|]);
    (split; [apply tr_step_x; [lia|lia|exact FL|exact Cr|];
      rewrite ledger_trade by (auto; lia); replace (rem - rem) with 0 by lia; apply tr_done|]);
    (split; [rewrite app_nil_r; exact E3|]); (split; [lia|]); (split; [left; reflexivity|]);
    intros x Hx; destruct (F2 x Hx) as (z & Hz & Z1 & Z2); rewrite <- Z1, <- Z2; now apply (in_map (fun x => (e_buy x, lev x))).
  - destruct (pop_step b l1 e l2 handed n o rem [] C S Be ltac:(lia)) as (b4 & M & C4 & S4 & E1 & E2 & E3).
    destruct (next_best_ok b b4 l1 e l2 handed o (rem - e_quantity e) C Bo Ao C4 S4 E1 E2 Be Hp) as (b5 & NB & G5 & R5 & P5).
    exists b5, (l1 ++ l2), (rem - e_quantity e), (trade o e (e_quantity e) ++ []). split; [rewrite M; exact NB|]. split; [exact G5|].
    split.
    { apply tr_step_x; [lia|lia|exact FL|exact Cr|].
      rewrite ledger_trade by (auto; lia). unfold after_trade. rewrite Z.eqb_refl. apply tr_done. }
    split; [rewrite app_nil_r; congruence|]. split; [lia|]. split; [right; rewrite P5; exact S4|].
    intros x Hx. apply (in_map (fun x => (e_buy x, lev x))). apply removed_sub. exact Hx.
  - destruct (pop_step b l1 e l2 handed n o rem (s :: q) C S Be ltac:(lia)) as (b4 & M & C4 & S4 & E1 & E2 & E3).
    destruct (pointers_keep b b4 l1 e l2 handed q s C Bo Ao C4 S4) as [Bo' Ao'].
    assert (T : forall rs l' rem', trades o (l1 ++ l2) (rem - e_quantity e) rs l' rem' -> trades o (l1 ++ e :: l2) rem (trade o e (e_quantity e) ++ rs) l' rem').
    { intros rs l' rem' T. apply tr_step_x; [lia|lia|exact FL|exact Cr|].
      rewrite ledger_trade by (auto; lia). unfold after_trade. rewrite Z.eqb_refl. exact T. }
    assert (G4 : good b4 (l1 ++ l2) handed) by (constructor; [exact C4|rewrite E1; exact Bo'|rewrite E2; exact Ao']).
    destruct (Z.eq_dec rem (e_quantity e)) as [->|Ne].
    + exists b4, (l1 ++ l2), 0, (trade o e (e_quantity e) ++ []). rewrite Z.sub_diag in *.
      split; [rewrite M; destruct n; reflexivity|]. split; [exact G4|]. split; [apply T, tr_done|]. split; [rewrite app_nil_r; exact E3|]. split; [lia|]. split; [auto|].
      intros x Hx. apply (in_map (fun x => (e_buy x, lev x))). apply removed_sub. exact Hx.
    + destruct (IH n b4 (l1 ++ l2) handed (rem - e_quantity e) s G4) as (b' & l' & rem' & rs & M' & G' & T' & R' & H0 & H1 & H2);
        [rewrite <- Le; exact S4|rewrite <- Le; rewrite E1, E2; exact Hp|lia|cbn in *; lia|].
      rewrite <- Le in M', H1. exists b', l', rem', (trade o e (e_quantity e) ++ rs). split; [rewrite M; exact M'|]. split; [exact G'|]. split; [apply T, T'|].
      split; [rewrite R', E3, app_assoc; reflexivity|]. split; [exact H0|]. split; [exact H1|].
      intros x Hx. specialize (H2 x Hx). apply in_map_iff in H2. destruct H2 as (z & <- & Hz). apply (in_map (fun x => (e_buy x, lev x))). apply removed_sub. exact Hz.
Qed.
End Rep.
