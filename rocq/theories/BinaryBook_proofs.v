(** Proofs about the order book. *)
From Verif Require Import Base Identity BinaryBook BinaryBook_spec.
From Coq Require Import ZifyBool ZifyNat.

(** *** A side-generic view of [insert]. *)
Definition ab (e : entry) : Z * order := (e_ident e, e_order e).
Definition crossb (o : order) (k : Z) : bool :=
  match o_side o with Buy => o_limit o >=? k | Sell => o_limit o <=? k end.
Definition opp_list (b : book) (s : side) := match s with Buy => b_asks b | Sell => b_bids b end.
Definition own_list (b : book) (s : side) := match s with Buy => b_bids b | Sell => b_asks b end.
Definition cmp (s : side) := match s with Buy => Z.gtb | Sell => Z.ltb end.
Definition rebuild s n ix own opp :=
  match s with Buy => mk_book n ix own opp | Sell => mk_book n ix opp own end.
Definition placed_entry (b : book) (o : order) (rem : Z) : entry :=
  mk_entry (o_limit o) (b_next b) (with_quantity o rem).

Lemma insert_eq b o : insert b o =
  let '(l', rs, ids, rem) := match_loop (crossb o) o (o_quantity o) (opp_list b (o_side o)) in
  if rem >? 0
  then (rebuild (o_side o) (w64 (b_next b + 1)) (map_emplace (b_next b) (o_limit o) (erase_all ids (b_index b)))
          (mm_emplace (cmp (o_side o)) (placed_entry b o rem) (own_list b (o_side o))) l',
        rs ++ [mk_report Placed (o_side o) rem (b_next b) (o_limit o) (o_owner o)])
  else (rebuild (o_side o) (b_next b) (erase_all ids (b_index b)) (own_list b (o_side o)) l', rs).
Proof.
  unfold insert, crossb. destruct (o_side o) eqn:E; cbn [opp_list own_list cmp rebuild].
  - destruct (match_loop _ o (o_quantity o) (b_asks b)) as [[[l' rs] ids] rem]. destruct (rem >? 0); reflexivity.
  - destruct (match_loop _ o (o_quantity o) (b_bids b)) as [[[l' rs] ids] rem]. destruct (rem >? 0); reflexivity.
Qed.

Lemma match_reports_eq o e q : match_reports o e q = trade_reports o (e_ident e) (e_order e) q.
Proof. reflexivity. Qed.

Definition total_qty (l : list entry) : Z := zsum (map e_qty l).
Lemma zsum_app a b : zsum (a ++ b) = zsum a + zsum b.
Proof. unfold zsum. induction a; cbn; [reflexivity|lia]. Qed.
Lemma zsum_perm a b : Permutation a b -> zsum a = zsum b.
Proof. unfold zsum. induction 1; cbn; lia. Qed.

Lemma match_loop_zero c o l : Forall (fun e => 0 < e_qty e) l -> match_loop c o 0 l = (l, [], [], 0).
Proof.
  destruct l as [|e l]; intros H; [reflexivity|]. cbn. inversion H; subst.
  destruct (c (e_key e)); [|reflexivity].
  destruct (Z.eqb_spec (Z.min 0 (e_qty e)) 0); [|lia]. repeat f_equal; lia.
Qed.

(** Shape of the result of the matching loop. *)
Lemma match_loop_spec c o : forall l rem l' rs ids rem', 0 <= rem -> Forall (fun e => 0 < e_qty e) l ->
  match_loop c o rem l = (l', rs, ids, rem') ->
  exists full tl, l = full ++ tl /\ Forall (fun e => c (e_key e) = true) full /\ ids = map e_ident full /\
   ((l' = tl /\ rem' = rem - total_qty full /\ 0 <= rem' /\
     rs = flat_map (fun e => match_reports o e (e_qty e)) full /\
     (rem' = 0 \/ match tl with [] => True | e :: _ => c (e_key e) = false end))
    \/
    (exists e tl', tl = e :: tl' /\ c (e_key e) = true /\ rem' = 0 /\
       0 < rem - total_qty full < e_qty e /\
       l' = entry_with_quantity e (e_qty e - (rem - total_qty full)) :: tl' /\
       rs = flat_map (fun e => match_reports o e (e_qty e)) full ++ match_reports o e (rem - total_qty full))).
Proof.
  induction l as [|e l IH]; intros rem l' rs ids rem' Hr Hq H.
  - cbn in H. injection H as <- <- <- <-. exists [], []. cbn. repeat split; auto.
    left. repeat split; auto; try (unfold total_qty; cbn; lia).
  - inversion Hq as [|? ? He Hl]; subst. cbn [match_loop] in H.
    destruct (c (e_key e)) eqn:Ec.
    + destruct (Z.eqb_spec (Z.min rem (e_qty e)) 0) as [E0|E0].
      * injection H as <- <- <- <-. exists [], (e :: l). cbn. repeat split; auto.
        left. assert (rem = 0) by lia. subst. repeat split; auto; unfold total_qty; cbn; lia.
      * destruct (match_loop c o (rem - Z.min rem (e_qty e)) l) as [[[l1 rs1] ids1] rem1] eqn:EM.
        destruct (Z.eqb_spec (e_qty e - Z.min rem (e_qty e)) 0) as [E1|E1].
        -- injection H as <- <- <- <-.
           assert (Hle : e_qty e <= rem) by lia. replace (Z.min rem (e_qty e)) with (e_qty e) in * by lia.
           destruct (IH (rem - e_qty e) _ _ _ _ ltac:(lia) Hl EM) as (full & tl & -> & Hf & -> & HH).
           exists (e :: full), tl. repeat split; [now constructor|].
           assert (Et : total_qty (e :: full) = e_qty e + total_qty full) by reflexivity.
           destruct HH as [(-> & -> & H0 & -> & H1)|(x & tl' & -> & Hx & -> & H0 & -> & ->)].
           ++ left. rewrite Et. repeat split; auto; try lia. all: replace (rem - (e_qty e + total_qty full)) with (rem - e_qty e - total_qty full) by lia; auto.
           ++ right. exists x, tl'. rewrite Et.
              replace (rem - (e_qty e + total_qty full)) with (rem - e_qty e - total_qty full) by lia.
              repeat split; auto; try lia.
        -- injection H as <- <- <- <-.
           assert (rem < e_qty e) by lia.
           replace (Z.min rem (e_qty e)) with rem in * by lia.
           rewrite Z.sub_diag, match_loop_zero in EM by assumption. injection EM as <- <- <- <-.
           exists [], (e :: l). cbn. repeat split; auto. right. exists e, l.
           unfold total_qty. cbn. replace (rem - 0) with rem by lia. repeat split; auto; try lia.
    + injection H as <- <- <- <-. exists [], (e :: l). cbn. repeat split; auto.
      left. repeat split; auto; try (unfold total_qty; cbn; lia).
Qed.

(** *** Ordering facts. *)
Lemma better_trans s a b c : better s a b -> better s b c -> better s a c.
Proof. destruct s; cbn; lia. Qed.
Lemma priority_trans s x y z : priority s x y -> priority s y z -> priority s x z.
Proof. unfold priority. destruct s; cbn; lia. Qed.

Lemma StronglySorted_app {A} (R : A -> A -> Prop) l1 l2 :
  StronglySorted R (l1 ++ l2) <->
  StronglySorted R l1 /\ StronglySorted R l2 /\ (forall x y, In x l1 -> In y l2 -> R x y).
Proof.
  induction l1 as [|a l1 IH]; cbn.
  - split; [intros H; repeat split; auto; [constructor|contradiction]|tauto].
  - split.
    + intros H. inversion H as [|? ? H1 H2]; subst. apply IH in H1 as (Ha & Hb & Hc).
      rewrite Forall_app in H2. destruct H2 as [H2 H3]. repeat split; auto.
      * now constructor.
      * intros x y [<-|Hx] Hy; [rewrite Forall_forall in H3; auto|auto].
    + intros (H1 & H2 & H3). inversion H1; subst. constructor.
      * apply IH. repeat split; auto.
      * apply Forall_app. split; auto. apply Forall_forall. auto.
Qed.

Definition eok (s : side) (n : Z) (e : entry) : Prop :=
  e_key e = o_limit (e_order e) /\ o_side (e_order e) = s /\ 0 < e_qty e /\ 0 <= e_ident e < n.

Lemma eok_mono s n m e : n <= m -> eok s n e -> eok s m e.
Proof. unfold eok. intuition lia. Qed.

Lemma mm_emplace_perm c x l : Permutation (mm_emplace c x l) (x :: l).
Proof.
  induction l as [|y l IH]; cbn; [reflexivity|]. destruct (c (e_key x) (e_key y)); [reflexivity|].
  rewrite IH. apply perm_swap.
Qed.

(** [sd s l]: entries [l] all rest on side [s], have ids below [n] and are in priority order. *)
Definition sd (s : side) (n : Z) (l : list entry) : Prop :=
  Forall (eok s n) l /\ StronglySorted (priority (opposite s)) (map ab l).

Lemma opposite_inv s : opposite (opposite s) = s.
Proof. now destruct s. Qed.

Lemma sd_mono s n m l : n <= m -> sd s n l -> sd s m l.
Proof.
  intros H [H1 H2]. split; [|assumption]. revert H1. apply Forall_impl. intros; eapply eok_mono; eauto.
Qed.

Lemma sd_emplace s n x l : sd s n l -> eok s (n + 1) x -> e_ident x = n ->
  sd s (n + 1) (mm_emplace (cmp s) x l).
Proof.
  intros [Hf Hs] Hx Hid. split.
  - rewrite mm_emplace_perm. constructor; [assumption|].
    revert Hf. apply Forall_impl. intros; eapply eok_mono; [|eauto]; lia.
  - induction l as [|y l IH]; cbn [mm_emplace].
    + repeat constructor.
    + inversion Hf as [|? ? Hy Hf']; subst. cbn [map] in Hs. inversion Hs as [|? ? Hs1 Hs2]; subst.
      destruct (cmp s (e_key x) (e_key y)) eqn:E.
      * assert (Hxy : priority (opposite s) (ab x) (ab y)).
        { left. destruct Hx as (Hx & _). destruct Hy as (Hy & _). cbn. rewrite <- Hx, <- Hy.
          destruct s; cbn in *; lia. }
        cbn [map]. constructor; [constructor; assumption|]. constructor; [assumption|].
        revert Hs2. apply Forall_impl. intros z. now apply priority_trans.
      * specialize (IH Hf' Hs1). cbn [map]. constructor; [assumption|].
        rewrite Forall_map. rewrite mm_emplace_perm. constructor; [|now rewrite Forall_map in Hs2].
        destruct Hx as (Hx & _). destruct Hy as (Hy & _ & _ & Hyi). unfold priority. cbn. rewrite <- Hx, <- Hy.
        destruct s; cbn in *; lia.
Qed.

(** The result of the loop on a sorted side is a sorted side. *)
Lemma sd_app s n l1 l2 : sd s n (l1 ++ l2) -> sd s n l1 /\ sd s n l2.
Proof.
  unfold sd. rewrite Forall_app, map_app, StronglySorted_app. tauto.
Qed.
Lemma sd_requantify s n e tl q : 0 < q -> sd s n (e :: tl) -> sd s n (entry_with_quantity e q :: tl).
Proof.
  intros Hq [H1 H2]. inversion H1 as [|? ? He H1']; subst. cbn [map] in H2. inversion H2 as [|? ? H3 H4]; subst.
  split.
  - constructor; [|assumption]. destruct He as (?&?&?&?). repeat split; cbn; try tauto; try lia.
  - cbn [map]. constructor; [assumption|]. revert H4. apply Forall_impl. intros z. unfold priority. cbn. tauto.
Qed.

Definition pos_side s n l (H : sd s n l) : Forall (fun e => 0 < e_qty e) l.
Proof. destruct H as [H _]. revert H. apply Forall_impl. unfold eok. intros; tauto. Qed.

Lemma match_loop_sd o s n l rem l' rs ids rem' : 0 <= rem -> sd s n l ->
  match_loop (crossb o) o rem l = (l', rs, ids, rem') -> sd s n l'.
Proof.
  intros Hr Hs H. destruct (match_loop_spec _ _ _ _ _ _ _ _ Hr (pos_side _ _ _ Hs) H)
    as (full & tl & -> & Hf & -> & HH).
  apply sd_app in Hs as [_ Hs].
  destruct HH as [(-> & _)|(x & tl' & -> & Hx & -> & H0 & -> & _)]; [assumption|].
  apply sd_requantify; [lia|assumption].
Qed.

(** Entries of [l'] are entries of [l] up to quantity. *)
Lemma match_loop_in o s n l rem l' rs ids rem' : 0 <= rem -> sd s n l ->
  match_loop (crossb o) o rem l = (l', rs, ids, rem') ->
  exists full, Permutation (map (fun e => (e_key e, e_ident e)) l) (map (fun e => (e_key e, e_ident e)) (full ++ l')) /\
     ids = map e_ident full.
Proof.
  intros Hr Hs H. destruct (match_loop_spec _ _ _ _ _ _ _ _ Hr (pos_side _ _ _ Hs) H)
    as (full & tl & -> & Hf & -> & HH).
  exists full. split; [|reflexivity].
  destruct HH as [(-> & _)|(x & tl' & -> & Hx & -> & H0 & -> & _)]; [reflexivity|].
  rewrite !map_app. cbn. reflexivity.
Qed.

(** *** Index lemmas. *)
Lemma map_emplace_app k v l : Forall (fun kv => fst kv < k) l -> map_emplace k v l = l ++ [(k, v)].
Proof.
  induction 1 as [|[k' v'] l H _ IH]; cbn in *; [reflexivity|].
  destruct (Z.ltb_spec k k'); [lia|]. destruct (Z.ltb_spec k' k); [|lia]. now rewrite IH.
Qed.
Lemma map_find_in k v l : NoDup (map fst l) -> In (k, v) l -> map_find k l = Some v.
Proof.
  induction l as [|[k' v'] l IH]; cbn; [contradiction|]. intros Hn [E|H].
  - injection E as -> ->. now rewrite Z.eqb_refl.
  - inversion Hn; subst. destruct (Z.eqb_spec k k') as [->|]; [|auto].
    exfalso. apply H2. apply in_map_iff. now exists (k', v).
Qed.
Lemma map_find_some k v l : map_find k l = Some v -> In (k, v) l.
Proof.
  induction l as [|[k' v'] l IH]; cbn; [discriminate|].
  destruct (Z.eqb_spec k k') as [->|]; [intros [= ->]; now left|auto].
Qed.
Lemma map_find_none k l : map_find k l = None -> ~ In k (map fst l).
Proof.
  induction l as [|[k' v'] l IH]; cbn; [tauto|].
  destruct (Z.eqb_spec k k') as [->|]; [discriminate|]. intros H [E|E]; [congruence|tauto].
Qed.
Lemma erase_all_in ids l kv : In kv (erase_all ids l) <-> In kv l /\ ~ In (fst kv) ids.
Proof.
  unfold erase_all. revert l. induction ids as [|i ids IH]; intros l; cbn; [tauto|].
  rewrite IH. unfold map_erase. rewrite filter_In. destruct (Z.eqb_spec (fst kv) i); cbn; intuition congruence.
Qed.
Lemma filter_sorted {A} (R : A -> A -> Prop) f l : StronglySorted R l -> StronglySorted R (filter f l).
Proof.
  induction 1 as [|a l H IH Hf]; cbn; [constructor|]. destruct (f a); [|assumption].
  constructor; [assumption|]. rewrite Forall_forall in *. intros x Hx. apply filter_In in Hx. apply Hf. tauto.
Qed.
Definition isorted (l : list (Z * Z)) := StronglySorted (fun a b => fst a < fst b) l.
Lemma erase_all_sorted ids l : isorted l -> isorted (erase_all ids l).
Proof.
  unfold erase_all. revert l. induction ids as [|i ids IH]; intros l H; cbn; [assumption|].
  apply IH. now apply filter_sorted.
Qed.
Lemma isorted_nodup l : isorted l -> NoDup (map fst l).
Proof.
  induction 1 as [|a l H IH Hf]; cbn; constructor; [|assumption].
  intros Hin. apply in_map_iff in Hin as (x & E & Hx). rewrite Forall_forall in Hf. specialize (Hf _ Hx). lia.
Qed.

(** *** The book invariant. *)
Record Inv (n : Z) (b : book) : Prop := {
  inv_next : b_next b = n;
  inv_pos : 0 <= n;
  inv_bids : sd Buy n (b_bids b);
  inv_asks : sd Sell n (b_asks b);
  inv_ids : NoDup (map e_ident (b_bids b ++ b_asks b));
  inv_uncrossed : forall x y, In x (b_bids b) -> In y (b_asks b) -> e_key x < e_key y;
  inv_isorted : isorted (b_index b);
  inv_ibound : Forall (fun kv => fst kv < n) (b_index b);
  inv_index : forall e, In e (b_bids b ++ b_asks b) -> In (e_ident e, e_key e) (b_index b) }.

Lemma inv_empty : Inv 0 empty_book.
Proof.
  constructor; cbn; auto; try lia; try (split; constructor); try constructor; try contradiction.
Qed.

Definition ent_perm s b : Permutation (b_bids b ++ b_asks b) (opp_list b s ++ own_list b s).
Proof. destruct s; cbn; [apply Permutation_app_comm|reflexivity]. Qed.

(** Generic form of the invariant, by the side of the incoming order. *)
Lemma Inv_generic s n b : Inv n b <->
  b_next b = n /\ 0 <= n /\ sd s n (own_list b s) /\ sd (opposite s) n (opp_list b s) /\
  NoDup (map e_ident (opp_list b s ++ own_list b s)) /\
  (forall x y, In x (own_list b s) -> In y (opp_list b s) -> better s (e_key x) (e_key y)) /\
  isorted (b_index b) /\ Forall (fun kv => fst kv < n) (b_index b) /\
  (forall e, In e (opp_list b s ++ own_list b s) -> In (e_ident e, e_key e) (b_index b)).
Proof.
  pose proof (ent_perm s b) as P. split.
  - intros [H1 H2 H3 H4 H5 H6 H7 H8 H9]. repeat match goal with |- _ /\ _ => split end; auto.
    + destruct s; assumption.
    + destruct s; assumption.
    + revert H5. apply Permutation_NoDup. now apply Permutation_map.
    + destruct s; cbn; intros x y Hx Hy; [auto|]. specialize (H6 _ _ Hy Hx). lia.
    + intros e He. apply H9. now rewrite P.
  - intros (H1 & H2 & H3 & H4 & H5 & H6 & H7 & H8 & H9). constructor; auto.
    + destruct s; assumption.
    + destruct s; assumption.
    + revert H5. apply Permutation_NoDup. apply Permutation_map. now symmetry.
    + destruct s; cbn in *; intros x y Hx Hy; [auto|]. specialize (H6 _ _ Hy Hx). lia.
    + intros e He. apply H9. now rewrite <- P.
Qed.
Lemma own_rebuild s n ix own opp : own_list (rebuild s n ix own opp) s = own.
Proof. now destruct s. Qed.
Lemma opp_rebuild s n ix own opp : opp_list (rebuild s n ix own opp) s = opp.
Proof. now destruct s. Qed.
Lemma next_rebuild s n ix own opp : b_next (rebuild s n ix own opp) = n.
Proof. now destruct s. Qed.
Lemma index_rebuild s n ix own opp : b_index (rebuild s n ix own opp) = ix.
Proof. now destruct s. Qed.

Lemma crossb_iff o k : crossb o k = true <-> better (o_side o) k (o_limit o) \/ k = o_limit o.
Proof. unfold crossb. destruct (o_side o); cbn; lia. Qed.
Lemma crossb_false o k : crossb o k = false <-> better (o_side o) (o_limit o) k.
Proof. unfold crossb. destruct (o_side o); cbn; lia. Qed.

Lemma sd_in s n l e : sd s n l -> In e l -> eok s n e.
Proof. intros [H _]. rewrite Forall_forall in H. auto. Qed.

(** When a remainder is left, everything left on the opposite side is beyond the limit. *)
Lemma leftover_uncrossed o n l rem l' rs ids rem' : 0 <= rem -> sd (opposite (o_side o)) n l ->
  match_loop (crossb o) o rem l = (l', rs, ids, rem') -> 0 < rem' ->
  forall y, In y l' -> better (o_side o) (o_limit o) (e_key y).
Proof.
  intros Hr Hs H Hp. pose proof (match_loop_sd _ _ _ _ _ _ _ _ _ Hr Hs H) as Hs'.
  destruct (match_loop_spec _ _ _ _ _ _ _ _ Hr (pos_side _ _ _ Hs) H)
    as (full & tl & -> & Hf & -> & HH).
  destruct HH as [(-> & _ & _ & _ & [?|Ht])|(x & tl' & -> & Hx & -> & _)]; try lia.
  destruct tl as [|e tl]; [contradiction|].
  apply crossb_false in Ht.
  intros y [<-|Hy]; [assumption|].
  destruct Hs' as [He Hs']. cbn [map] in Hs'. inversion Hs' as [|? ? _ Hfa]; subst.
  rewrite Forall_map, Forall_forall in Hfa. specialize (Hfa _ Hy). rewrite opposite_inv in Hfa.
  rewrite Forall_forall in He. destruct (He e (or_introl eq_refl)) as (K1 & _).
  destruct (He y (or_intror Hy)) as (K2 & _).
  unfold priority in Hfa. cbn in Hfa. rewrite <- K1, <- K2 in Hfa. revert Hfa Ht. destruct (o_side o); cbn; lia.
Qed.

Lemma perm_keys {l l'} : Permutation (map (fun e => (e_key e, e_ident e)) l) (map (fun e => (e_key e, e_ident e)) l') ->
  Permutation (map e_ident l) (map e_ident l').
Proof.
  intros H. apply (Permutation_map snd) in H. now rewrite !map_map in H.
Qed.

Lemma insert_inv n b o : Inv n b -> 0 <= o_quantity o -> n + 1 < W64 ->
  Inv (b_next (fst (insert b o))) (fst (insert b o)) /\ n <= b_next (fst (insert b o)) <= n + 1.
Proof.
  intros HI Hq Hn. rewrite insert_eq. rewrite (Inv_generic (o_side o)) in HI.
  destruct HI as (H1 & H2 & H3 & H4 & H5 & H6 & H7 & H8 & H9).
  destruct (match_loop _ o (o_quantity o) _) as [[[l' rs] ids] rem] eqn:EM.
  pose proof (match_loop_sd _ _ _ _ _ _ _ _ _ Hq H4 EM) as Hsd.
  destruct (match_loop_in _ _ _ _ _ _ _ _ _ Hq H4 EM) as (full & HP & ->).
  pose proof (perm_keys HP) as HPi.
  assert (Hids : NoDup (map e_ident full ++ map e_ident l' ++ map e_ident (own_list b (o_side o)))).
  { rewrite map_app in H5. revert H5. apply Permutation_NoDup. rewrite HPi, map_app, <- app_assoc. reflexivity. }
  assert (Hsub : forall y, In y l' -> exists y0, In y0 (opp_list b (o_side o)) /\ e_key y0 = e_key y /\ e_ident y0 = e_ident y).
  { intros y Hy. assert (Hin : In (e_key y, e_ident y) (map (fun e => (e_key e, e_ident e)) (opp_list b (o_side o)))).
    { rewrite HP. rewrite map_app. apply in_or_app. right. apply in_map_iff. eauto. }
    apply in_map_iff in Hin as (y0 & E & Hy0). injection E as E1 E2. exists y0. auto. }
  assert (HE : isorted (erase_all (map e_ident full) (b_index b))) by now apply erase_all_sorted.
  assert (HB : Forall (fun kv => fst kv < n) (erase_all (map e_ident full) (b_index b))).
  { rewrite Forall_forall in *. intros kv Hkv. apply erase_all_in in Hkv. apply H8. tauto. }
  assert (HX : forall e, In e (l' ++ own_list b (o_side o)) -> In (e_ident e, e_key e) (erase_all (map e_ident full) (b_index b))).
  { intros e He. apply erase_all_in. cbn. split.
    - apply in_app_or in He as [He|He].
      + destruct (Hsub _ He) as (y0 & Hy0 & <- & <-). apply H9. apply in_or_app. now left.
      + apply H9. apply in_or_app. now right.
    - intros Hc. rewrite <- map_app in Hids.
      assert (Hin : In (e_ident e) (map e_ident (l' ++ own_list b (o_side o)))) by (apply in_map_iff; eauto).
      apply in_split in Hc as (a & c & Ec). rewrite Ec in Hids. rewrite <- app_assoc in Hids. cbn in Hids.
      apply NoDup_remove_2 in Hids. apply Hids. rewrite !in_app_iff. tauto. }
  destruct (Z.gtb_spec rem 0) as [Hg|Hg]; cbn [fst].
  - rewrite next_rebuild. assert (EW : w64 (b_next b + 1) = n + 1) by (unfold w64; rewrite Z.mod_small; lia).
    split; [|lia]. rewrite EW.
    apply (Inv_generic (o_side o)). rewrite next_rebuild, own_rebuild, opp_rebuild, index_rebuild.
    repeat match goal with |- _ /\ _ => split end; auto; try lia.
    + rewrite <- H1. apply sd_emplace; [rewrite H1; assumption| |reflexivity].
      repeat split; cbn; lia.
    + eapply sd_mono; [|eassumption]; lia.
    + rewrite map_app. rewrite (Permutation_map e_ident (mm_emplace_perm _ _ _)). cbn [map].
      eapply Permutation_NoDup; [apply Permutation_middle|]. constructor.
      * cbn. intros Hc. apply in_app_or in Hc as [Hc|Hc]; apply in_map_iff in Hc as (y & E & Hy).
        -- pose proof (sd_in _ _ _ _ Hsd Hy) as (_ & _ & _ & ?). lia.
        -- pose proof (sd_in _ _ _ _ H3 Hy) as (_ & _ & _ & ?). lia.
      * clear - Hids. induction (map e_ident full); [assumption|]. inversion Hids; auto.
    + intros x y Hx Hy. rewrite mm_emplace_perm in Hx. destruct Hx as [<-|Hx].
      * cbn. eapply leftover_uncrossed; [exact Hq|exact H4|exact EM|lia|assumption].
      * destruct (Hsub _ Hy) as (y0 & Hy0 & <- & _). auto.
    + rewrite map_emplace_app by (rewrite H1; exact HB).
      unfold isorted. apply StronglySorted_app. repeat split; [assumption|repeat constructor|].
      intros x y Hx [<-|[]]. cbn. rewrite Forall_forall in HB. specialize (HB _ Hx). lia.
    + rewrite map_emplace_app by (rewrite H1; exact HB). apply Forall_app. split.
      * revert HB. apply Forall_impl. intros; lia.
      * repeat constructor. cbn. lia.
    + intros e He. rewrite map_emplace_app by (rewrite H1; exact HB). apply in_or_app.
      apply in_app_or in He as [He|He]; [left; apply HX; apply in_or_app; now left|].
      rewrite mm_emplace_perm in He. destruct He as [<-|He]; [right; now left|].
      left. apply HX. apply in_or_app. now right.
  - rewrite next_rebuild. split; [|lia]. rewrite H1.
    apply (Inv_generic (o_side o)). rewrite next_rebuild, own_rebuild, opp_rebuild, index_rebuild.
    repeat match goal with |- _ /\ _ => split end; auto; try lia.
    + rewrite map_app. clear - Hids. induction (map e_ident full); [assumption|]. inversion Hids; auto.
    + intros x y Hx Hy. destruct (Hsub _ Hy) as (y0 & Hy0 & <- & _). auto.
Qed.

(** *** Cancel. *)
Lemma remove_entry_some k i l e r : remove_entry k i l = Some (e, r) ->
  exists l1 l2, l = l1 ++ e :: l2 /\ r = l1 ++ l2 /\ e_key e = k /\ e_ident e = i.
Proof.
  revert e r. induction l as [|x l IH]; cbn; intros e r H; [discriminate|].
  destruct ((e_key x =? k) && (e_ident x =? i)) eqn:E.
  - injection H as <- <-. exists [], l. repeat split; lia.
  - destruct (remove_entry k i l) as [[y r']|]; [|discriminate]. injection H as <- <-.
    destruct (IH _ _ eq_refl) as (l1 & l2 & -> & -> & ? & ?). exists (x :: l1), l2. auto.
Qed.
Lemma remove_entry_none k i l : remove_entry k i l = None ->
  forall e, In e l -> e_key e = k -> e_ident e <> i.
Proof.
  induction l as [|x l IH]; cbn; [contradiction|]. intros H e He Hk Hi.
  destruct ((e_key x =? k) && (e_ident x =? i)) eqn:E; [discriminate|].
  destruct (remove_entry k i l) as [[y r']|]; [discriminate|].
  destruct He as [<-|He]; [lia|]. exact (IH eq_refl e He Hk Hi).
Qed.

Definition not_id (i : Z) (e : entry) : bool := negb (e_ident e =? i).
Lemma filter_not_id l i : ~ In i (map e_ident l) -> filter (not_id i) l = l.
Proof.
  induction l as [|x l IH]; cbn; [reflexivity|]. intros H. unfold not_id at 1.
  destruct (Z.eqb_spec (e_ident x) i); [tauto|]. cbn. f_equal. tauto.
Qed.
Lemma NoDup_app_l {A} (a b : list A) : NoDup (a ++ b) -> NoDup a.
Proof. induction a; [constructor|]. cbn. intros H. inversion H; subst. constructor; auto. rewrite in_app_iff in *. tauto. Qed.
Lemma NoDup_app_r {A} (a b : list A) : NoDup (a ++ b) -> NoDup b.
Proof. induction a; [auto|]. cbn. intros H. inversion H; subst. auto. Qed.
Lemma NoDup_app_disj {A} (a b : list A) x : NoDup (a ++ b) -> In x a -> In x b -> False.
Proof.
  induction a; cbn; [tauto|]. intros H [->|Ha] Hb; inversion H; subst; [rewrite in_app_iff in *; tauto|auto].
Qed.

(** Complete description of [cancel] under the invariant. *)
Lemma cancel_spec n b i : Inv n b ->
  (exists e, In e (b_bids b ++ b_asks b) /\ e_ident e = i /\
     cancel b i = (mk_book (b_next b) (b_index b) (filter (not_id i) (b_bids b)) (filter (not_id i) (b_asks b)),
                   [mk_report Cancelled (o_side (e_order e)) (e_qty e) i (o_limit (e_order e)) (o_owner (e_order e))]))
  \/ (~ In i (map e_ident (b_bids b ++ b_asks b)) /\ cancel b i = (b, [])).
Proof.
  intros HI. destruct (in_dec Z.eq_dec i (map e_ident (b_bids b ++ b_asks b))) as [Hin|Hnin].
  - left. apply in_map_iff in Hin as (e & Ei & He). exists e. split; [assumption|]. split; [assumption|].
    subst i. pose proof (inv_index _ _ HI _ He) as Hix.
    apply map_find_in in Hix; [|apply isorted_nodup, (inv_isorted _ _ HI)].
    pose proof (inv_ids _ _ HI) as Hnd. rewrite map_app in Hnd.
    unfold cancel. rewrite Hix. unfold bid, ask.
    apply in_app_or in He as [He|He].
    + pose proof (sd_in _ _ _ _ (inv_bids _ _ HI) He) as (Hk & Hs & _ & _).
      replace (match match b_bids b with [] => None | e0 :: _ => Some (e_key e0) end with
               | Some q => q >=? e_key e | None => false end) with true.
      2:{ pose proof (inv_bids _ _ HI) as [Hok Hsd]. destruct (b_bids b) as [|e0 l]; [contradiction|].
          destruct He as [<-|He]; [lia|]. cbn [map] in Hsd. inversion Hsd as [|? ? _ Hfa]; subst.
          rewrite Forall_map, Forall_forall in Hfa. specialize (Hfa _ He). unfold priority in Hfa. cbn in Hfa.
          inversion Hok as [|? ? (K & _) _]; subst. lia. }
      destruct (remove_entry (e_key e) (e_ident e) (b_bids b)) as [[x r]|] eqn:ER.
      * apply remove_entry_some in ER as (l1 & l2 & Eb & -> & Hxk & Hxi).
        assert (x = e).
        { rewrite Eb in Hnd, He. rewrite map_app in Hnd. cbn in Hnd. rewrite <- app_assoc in Hnd. cbn in Hnd.
          apply NoDup_remove_2 in Hnd. apply in_elt_inv in He as [He|He]; [congruence|].
          exfalso. apply Hnd. rewrite Hxi. rewrite app_assoc, <- map_app. apply in_or_app. left. now apply in_map. }
        subst x. rewrite Eb in Hnd. rewrite map_app in Hnd. cbn in Hnd. rewrite <- app_assoc in Hnd. cbn in Hnd.
        apply NoDup_remove_2 in Hnd. rewrite !in_app_iff in Hnd.
        rewrite Eb, filter_app. cbn [filter]. unfold not_id at 2. rewrite Z.eqb_refl. cbn [negb].
        rewrite !filter_not_id by tauto. rewrite Hs, Hk. reflexivity.
      * exfalso. exact (remove_entry_none _ _ _ ER e He eq_refl eq_refl).
    + pose proof (sd_in _ _ _ _ (inv_asks _ _ HI) He) as (Hk & Hs & _ & _).
      replace (match match b_bids b with [] => None | e0 :: _ => Some (e_key e0) end with
               | Some q => q >=? e_key e | None => false end) with false.
      2:{ pose proof (inv_uncrossed _ _ HI) as Hu. destruct (b_bids b) as [|e0 l]; [reflexivity|].
          specialize (Hu e0 e (or_introl eq_refl) He). lia. }
      replace (match match b_asks b with [] => None | e0 :: _ => Some (e_key e0) end with
               | Some q => q <=? e_key e | None => false end) with true.
      2:{ pose proof (inv_asks _ _ HI) as [Hok Hsd]. destruct (b_asks b) as [|e0 l]; [contradiction|].
          destruct He as [<-|He]; [lia|]. cbn [map] in Hsd. inversion Hsd as [|? ? _ Hfa]; subst.
          rewrite Forall_map, Forall_forall in Hfa. specialize (Hfa _ He). unfold priority in Hfa. cbn in Hfa.
          inversion Hok as [|? ? (K & _) _]; subst. lia. }
      destruct (remove_entry (e_key e) (e_ident e) (b_asks b)) as [[x r]|] eqn:ER.
      * apply remove_entry_some in ER as (l1 & l2 & Eb & -> & Hxk & Hxi).
        assert (x = e).
        { rewrite Eb in Hnd, He. rewrite map_app in Hnd. cbn in Hnd. rewrite app_assoc in Hnd.
          apply NoDup_remove_2 in Hnd. apply in_elt_inv in He as [He|He]; [congruence|].
          exfalso. apply Hnd. rewrite Hxi. rewrite <- app_assoc, <- map_app. apply in_or_app. right. now apply in_map. }
        subst x. rewrite Eb in Hnd. rewrite map_app in Hnd. cbn in Hnd. rewrite app_assoc in Hnd.
        apply NoDup_remove_2 in Hnd. rewrite !in_app_iff in Hnd.
        rewrite Eb, filter_app. cbn [filter]. unfold not_id at 3. rewrite Z.eqb_refl. cbn [negb].
        rewrite !filter_not_id by tauto. rewrite Hs, Hk. reflexivity.
      * exfalso. exact (remove_entry_none _ _ _ ER e He eq_refl eq_refl).
  - right. split; [assumption|]. unfold cancel.
    destruct (map_find i (b_index b)) as [limit|]; [|reflexivity].
    rewrite map_app, in_app_iff in Hnin.
    assert (HA : remove_entry limit i (b_bids b) = None).
    { destruct (remove_entry limit i (b_bids b)) as [[x r]|] eqn:ER; [|reflexivity].
      apply remove_entry_some in ER as (l1 & l2 & Eb & _ & _ & Hi). exfalso. apply Hnin. left.
      rewrite Eb. apply in_map_iff. exists x. rewrite in_app_iff. cbn. auto. }
    assert (HB : remove_entry limit i (b_asks b) = None).
    { destruct (remove_entry limit i (b_asks b)) as [[x r]|] eqn:ER; [|reflexivity].
      apply remove_entry_some in ER as (l1 & l2 & Eb & _ & _ & Hi). exfalso. apply Hnin. right.
      rewrite Eb. apply in_map_iff. exists x. rewrite in_app_iff. cbn. auto. }
    rewrite HA, HB. destruct (match bid b with Some q => q >=? limit | None => false end); [reflexivity|].
    destruct (match ask b with Some q => q <=? limit | None => false end); reflexivity.
Qed.

Lemma filter_map_ab f l : map ab (filter (fun e => f (ab e)) l) = filter f (map ab l).
Proof. induction l as [|x l IH]; cbn; [reflexivity|]. destruct (f (ab x)); cbn; now rewrite IH. Qed.
Lemma filter_not_id_ab i l : map ab (filter (not_id i) l) = filter (fun x => negb (fst x =? i)) (map ab l).
Proof. apply (filter_map_ab (fun x => negb (fst x =? i))). Qed.
Lemma sd_filter s n f l : sd s n l -> sd s n (filter f l).
Proof.
  intros [H1 H2]. split.
  - rewrite Forall_forall in *. intros x Hx. apply filter_In in Hx. apply H1. tauto.
  - induction l as [|x l IH]; [constructor|]. cbn [map] in H2. inversion H2 as [|? ? H3 H4]; subst.
    inversion H1; subst. cbn. destruct (f x); [|auto]. cbn. constructor; [auto|].
    rewrite Forall_map, Forall_forall in *. intros y Hy. apply filter_In in Hy. apply H4. tauto.
Qed.
Lemma NoDup_map_filter {A B} (g : A -> B) f l : NoDup (map g l) -> NoDup (map g (filter f l)).
Proof.
  induction l as [|x l IH]; cbn; [auto|]. intros H. inversion H; subst. destruct (f x); [|auto].
  cbn. constructor; [|auto]. intros Hc. apply H2. apply in_map_iff in Hc as (y & <- & Hy).
  apply filter_In in Hy. apply in_map. tauto.
Qed.

Lemma cancel_inv n b i : Inv n b -> Inv n (fst (cancel b i)).
Proof.
  intros HI. destruct (cancel_spec n b i HI) as [(e & _ & _ & ->)|[_ ->]]; [|assumption].
  cbn [fst]. destruct HI as [H1 H2 H3 H4 H5 H6 H7 H8 H9]. constructor; cbn [b_next b_index b_bids b_asks]; auto.
  - now apply sd_filter.
  - now apply sd_filter.
  - rewrite <- filter_app. now apply NoDup_map_filter.
  - intros x y Hx Hy. apply filter_In in Hx, Hy. apply H6; tauto.
  - intros x Hx. rewrite <- filter_app in Hx. apply filter_In in Hx. apply H9. tauto.
Qed.

(** *** Refinement of the naive book. *)
Definition idsorted (l : list (Z * order)) := StronglySorted (fun a b => fst a < fst b) l.
Definition Rel (b : book) (s : Z * list (Z * order)) : Prop :=
  b_next b = fst s /\ Permutation (resting b) (snd s) /\ idsorted (snd s).

Lemma resting_ab b : resting b = map ab (b_bids b ++ b_asks b).
Proof. reflexivity. Qed.

Lemma can_trade_crossb o s n e : sd s n [e] -> s = opposite (o_side o) ->
  (can_trade o (e_order e) <-> crossb o (e_key e) = true).
Proof.
  intros [H _] ->. inversion H as [|? ? (Hk & Hs & _) _]; subst.
  unfold can_trade, crossb. rewrite Hs, Hk. destruct (o_side o); cbn; lia.
Qed.
Lemma eok_can_trade o n e : eok (opposite (o_side o)) n e ->
  (can_trade o (e_order e) <-> crossb o (e_key e) = true).
Proof. intros H. apply (can_trade_crossb o (opposite (o_side o)) n); [|reflexivity]. split; [constructor; [assumption|constructor]|repeat constructor]. Qed.

Lemma idsorted_remove l1 x l2 : idsorted (l1 ++ x :: l2) -> idsorted (l1 ++ l2).
Proof.
  unfold idsorted. rewrite !StronglySorted_app. intros (H1 & H2 & H3). inversion H2; subst.
  repeat split; auto. intros; apply H3; auto. now right.
Qed.
Lemma idsorted_change l1 i r r' l2 : idsorted (l1 ++ (i, r) :: l2) -> idsorted (l1 ++ (i, r') :: l2).
Proof.
  unfold idsorted. rewrite !StronglySorted_app. intros (H1 & H2 & H3). inversion H2 as [|? ? H4 H5]; subst.
  repeat split; auto.
  - constructor; auto.
  - intros x y Hx [<-|Hy]; cbn; [exact (H3 x (i, r) Hx (or_introl eq_refl))|apply H3; auto; now right].
Qed.

Lemma match_refines o n own : Forall (fun x => o_side (snd x) = o_side o) own ->
  forall L rem l L' rs ids rem', 0 <= rem -> sd (opposite (o_side o)) n L ->
  Permutation (map ab L ++ own) l -> idsorted l ->
  match_loop (crossb o) o rem L = (L', rs, ids, rem') ->
  exists l', naive_match o rem l rs l' rem' /\ Permutation (map ab L' ++ own) l' /\ idsorted l' /\ 0 <= rem'.
Proof.
  intros Hown. assert (Hno : forall x, In x own -> ~ can_trade o (snd x)).
  { intros x Hx. rewrite Forall_forall in Hown. unfold can_trade. rewrite (Hown _ Hx). destruct (o_side o); tauto. }
  induction L as [|e L IH]; intros rem l L' rs ids rem' Hr Hsd HP Hs HM.
  - cbn in HM. injection HM as <- <- <- <-. exists l. repeat split; auto. apply nm_stop. right.
    intros x Hx. apply Hno. cbn in HP. now rewrite HP.
  - pose proof (pos_side _ _ _ Hsd) as Hpos. inversion Hpos as [|? ? Hqe HposL]; subst.
    destruct Hsd as [Hok Hpr]. inversion Hok as [|? ? Hoe HokL]; subst.
    cbn [map] in Hpr. inversion Hpr as [|? ? HprL Hfa]; subst. rewrite opposite_inv in *.
    assert (HsdL : sd (opposite (o_side o)) n L) by (split; [assumption|now rewrite opposite_inv]).
    destruct (Z.eq_dec rem 0) as [->|Hne].
    { rewrite match_loop_zero in HM by assumption. injection HM as <- <- <- <-.
      exists l. repeat split; auto; try lia. apply nm_stop. now left. }
    cbn [match_loop] in HM. destruct (crossb o (e_key e)) eqn:Ec.
    + assert (Hin : In (ab e) l) by (rewrite <- HP; now left).
      apply in_split in Hin as (l1 & l2 & ->).
      assert (HP' : Permutation (map ab L ++ own) (l1 ++ l2)).
      { apply (Permutation_cons_inv (a := ab e)). etransitivity; [exact HP|symmetry; apply Permutation_middle]. }
      assert (Hbest : best_of o l1 (e_order e) l2).
      { split; [now apply (eok_can_trade o n)|].
        assert (Hall : forall x, In x (l1 ++ l2) -> can_trade o (snd x) -> priority (o_side o) (ab e) x).
        { intros x Hx Hc. rewrite <- HP' in Hx. apply in_app_or in Hx as [Hx|Hx]; [|now apply Hno in Hx].
          rewrite Forall_forall in Hfa. auto. }
        unfold idsorted in Hs. apply StronglySorted_app in Hs as (_ & Hs2 & Hs3).
        split; intros x Hx Hc.
        - specialize (Hall x ltac:(apply in_or_app; auto) Hc).
          specialize (Hs3 x (ab e) Hx (or_introl eq_refl)).
          unfold priority in Hall. cbn in *. destruct Hall as [?|[_ ?]]; [assumption|lia].
        - specialize (Hall x ltac:(apply in_or_app; auto) Hc).
          unfold priority in Hall. cbn in *. destruct (o_side o); cbn in *; lia. }
      destruct (Z.eqb_spec (Z.min rem (e_qty e)) 0) as [E0|E0]; [lia|].
      destruct (match_loop (crossb o) o (rem - Z.min rem (e_qty e)) L) as [[[L1 rs1] ids1] rem1] eqn:EM.
      destruct (Z.eqb_spec (e_qty e - Z.min rem (e_qty e)) 0) as [E1|E1]; injection HM as <- <- <- <-.
      * assert (Hle : e_qty e <= rem) by lia. replace (Z.min rem (e_qty e)) with (e_qty e) in * by lia.
        destruct (IH (rem - e_qty e) (l1 ++ l2) _ _ _ _ ltac:(lia) HsdL HP' (idsorted_remove _ _ _ Hs) EM)
          as (l' & Hm & HPf & Hsf & Hr').
        exists l'. split; [|auto].
        apply (nm_fill o rem l1 (e_ident e) (e_order e) l2); try assumption; unfold e_qty in *; lia.
      * assert (Hlt : rem < e_qty e) by lia. replace (Z.min rem (e_qty e)) with rem in * by lia.
        rewrite Z.sub_diag, match_loop_zero in EM by assumption. injection EM as <- <- <- <-.
        eexists. split; [|split; [|split]].
        -- 
           apply (nm_part o rem l1 (e_ident e) (e_order e) l2); try assumption; unfold e_qty in *; lia.
        -- cbn [map app]. rewrite HP'. unfold ab at 1. cbn. apply Permutation_middle.
        -- exact (idsorted_change _ _ _ _ _ Hs).
        -- lia.
    + injection HM as <- <- <- <-. exists l. repeat split; auto. apply nm_stop. right.
      intros x Hx Hc. rewrite <- HP in Hx. apply in_app_or in Hx as [Hx|Hx]; [|now apply Hno in Hx].
      apply crossb_false in Ec. destruct Hoe as (Hke & _).
      destruct Hx as [<-|Hx].
      * unfold can_trade in Hc. cbn in Hc. rewrite Hke in Ec. destruct (o_side o), (o_side (e_order e)); cbn in *; lia.
      * rewrite Forall_forall in Hfa. specialize (Hfa _ Hx). unfold priority, can_trade in *. cbn in *.
        rewrite Hke in Ec. destruct (o_side o), (o_side (snd x)); cbn in *; lia.
Qed.

Lemma resting_generic s b : Permutation (resting b) (map ab (opp_list b s) ++ map ab (own_list b s)).
Proof. rewrite resting_ab, (ent_perm s b), map_app. reflexivity. Qed.

Lemma own_sides s n l : sd s n l -> Forall (fun x => o_side (snd x) = s) (map ab l).
Proof.
  intros [H _]. rewrite Forall_map. revert H. apply Forall_impl. unfold eok. cbn. tauto.
Qed.

Lemma insert_refines n b o st : Inv n b -> u32 (o_quantity o) -> n + 1 < W64 -> Rel b st ->
  exists st', naive_step st (Insert o) (snd (insert b o)) st' /\ Rel (fst (insert b o)) st'.
Proof.
  intros HI Hq Hn (Hnx & HP & Hs). assert (Hq0 : 0 <= o_quantity o) by (unfold u32 in Hq; lia). destruct st as [m l]. cbn [fst snd] in *.
  pose proof HI as HI0. rewrite (Inv_generic (o_side o)) in HI. destruct HI as (H1 & H2 & H3 & H4 & _).
  rewrite insert_eq.
  destruct (match_loop _ o (o_quantity o) _) as [[[L' rs] ids] rem] eqn:EM.
  rewrite (resting_generic (o_side o)) in HP.
  destruct (match_refines o n _ (own_sides _ _ _ H3) _ _ _ _ _ _ _ Hq0 H4 HP Hs EM)
    as (l' & Hm & HP' & Hs' & Hr).
  destruct (Z.gtb_spec rem 0) as [Hg|Hg]; cbn [fst snd].
  - exists (m + 1, l' ++ [(m, with_quantity o rem)]). split.
    + rewrite Hnx. apply ns_placed; [assumption|lia].
    + split; [|split]; cbn [fst snd].
      * rewrite next_rebuild. unfold w64. rewrite Z.mod_small; lia.
      * rewrite (resting_generic (o_side o)), own_rebuild, opp_rebuild.
        rewrite (Permutation_map ab (mm_emplace_perm _ _ _)). cbn [map].
        rewrite <- Permutation_middle. rewrite HP'. rewrite <- Permutation_cons_append.
        unfold ab at 1. cbn. rewrite Hnx. reflexivity.
      * unfold idsorted. apply StronglySorted_app. repeat split; [assumption|repeat constructor|].
        intros x y Hx [<-|[]]. cbn. rewrite <- HP' in Hx.
        apply in_app_or in Hx as [Hx|Hx]; apply in_map_iff in Hx as (e & <- & He); cbn.
        -- pose proof (sd_in _ _ _ _ (match_loop_sd _ _ _ _ _ _ _ _ _ Hq0 H4 EM) He) as (_ & _ & _ & ?). lia.
        -- pose proof (sd_in _ _ _ _ H3 He) as (_ & _ & _ & ?). lia.
  - exists (m, l'). assert (rem = 0) by lia. subst rem. split.
    + now apply ns_filled.
    + split; [|split]; cbn [fst snd]; [now rewrite next_rebuild| |assumption].
      rewrite (resting_generic (o_side o)), own_rebuild, opp_rebuild. exact HP'.
Qed.

Lemma filter_fst_none i (l : list (Z * order)) : ~ In i (map fst l) -> filter (fun x => negb (fst x =? i)) l = l.
Proof.
  induction l as [|x l IH]; cbn; [reflexivity|]. intros H.
  destruct (Z.eqb_spec (fst x) i); [tauto|]. cbn. f_equal. tauto.
Qed.
Lemma idsorted_nodup l : idsorted l -> NoDup (map fst l).
Proof.
  induction 1 as [|a l H IH Hf]; cbn; constructor; [|assumption].
  intros Hin. apply in_map_iff in Hin as (x & E & Hx). rewrite Forall_forall in Hf. specialize (Hf _ Hx). lia.
Qed.
Lemma Permutation_filter {A} (f : A -> bool) l l' : Permutation l l' -> Permutation (filter f l) (filter f l').
Proof.
  induction 1; cbn; auto.
  - destruct (f x); auto.
  - destruct (f x), (f y); auto. apply perm_swap.
  - etransitivity; eauto.
Qed.
Lemma filter_split i r (l1 l2 : list (Z * order)) : NoDup (map fst (l1 ++ (i, r) :: l2)) ->
  filter (fun x => negb (fst x =? i)) (l1 ++ (i, r) :: l2) = l1 ++ l2.
Proof.
  intros H. rewrite map_app in H. cbn in H. apply NoDup_remove_2 in H. rewrite in_app_iff in H.
  rewrite filter_app. cbn. rewrite Z.eqb_refl. cbn. rewrite !filter_fst_none by tauto. reflexivity.
Qed.

Lemma cancel_refines n b i st : Inv n b -> Rel b st ->
  exists st', naive_step st (Cancel i) (snd (cancel b i)) st' /\ Rel (fst (cancel b i)) st'.
Proof.
  intros HI (Hnx & HP & Hs). destruct st as [m l]. cbn [fst snd] in *.
  destruct (cancel_spec n b i HI) as [(e & He & Hi & ->)|[Hni ->]]; cbn [fst snd].
  - assert (Hin : In (i, e_order e) l).
    { rewrite <- HP, resting_ab. apply in_map_iff. exists e. unfold ab. now rewrite Hi. }
    apply in_split in Hin as (l1 & l2 & ->). exists (m, l1 ++ l2). split; [apply ns_cancel|].
    split; [|split]; cbn [fst snd]; [assumption| |exact (idsorted_remove _ _ _ Hs)].
    rewrite resting_ab. cbn [b_bids b_asks]. rewrite <- filter_app, filter_not_id_ab, <- resting_ab.
    rewrite (Permutation_filter _ _ _ HP). rewrite filter_split; [reflexivity|now apply idsorted_nodup].
  - exists (m, l). split; [|now split].
    apply ns_unknown. intros Hc. apply Hni.
    apply in_map_iff in Hc as (x & <- & Hx). rewrite <- HP, resting_ab in Hx.
    apply in_map_iff in Hx as (e & <- & He). apply in_map_iff. now exists e.
Qed.

Definition op_ok (x : op) : Prop := match x with Insert o => u32 (o_quantity o) | Cancel _ => True end.

Lemma step_all n b x st : Inv n b -> op_ok x -> n + 1 < W64 -> Rel b st ->
  exists n', Inv n' (fst (step b x)) /\ n <= n' <= n + 1 /\
  exists st', naive_step st x (snd (step b x)) st' /\ Rel (fst (step b x)) st'.
Proof.
  destruct x as [o|i]; cbn [step op_ok]; intros HI Hx Hn HR.
  - destruct (insert_inv n b o HI ltac:(unfold u32 in Hx; lia) Hn) as [H1 H2].
    eexists. split; [exact H1|]. split; [exact H2|]. now apply (insert_refines n).
  - exists n. split; [now apply cancel_inv|]. split; [lia|]. now apply (cancel_refines n).
Qed.

Lemma run_all h : forall n b st, Inv n b -> Forall op_ok h -> n + Z.of_nat (length h) < W64 -> Rel b st ->
  exists n', Inv n' (fst (run b h)) /\ n <= n' <= n + Z.of_nat (length h) /\
  exists st', naive_run st h (snd (run b h)) st' /\ Rel (fst (run b h)) st'.
Proof.
  induction h as [|x h IH]; intros n b st HI Hok Hn HR.
  - exists n. cbn. split; [assumption|]. split; [lia|]. exists st. split; [constructor|assumption].
  - inversion Hok as [|? ? Hx Hok']; subst. cbn [run length] in *.
    destruct (step_all n b x st HI Hx ltac:(lia) HR) as (n1 & HI1 & Hn1 & st1 & Hst1 & HR1).
    destruct (step b x) as [b1 r1] eqn:E1. cbn [fst snd] in *.
    destruct (IH n1 b1 st1 HI1 Hok' ltac:(lia) HR1) as (n2 & HI2 & Hn2 & st2 & Hst2 & HR2).
    destruct (run b1 h) as [b2 r2]. cbn [fst snd] in *.
    exists n2. split; [assumption|]. split; [lia|]. exists st2. split; [|assumption]. econstructor; eauto.
Qed.

Lemma rel_empty : Rel empty_book (0, []).
Proof. repeat split; constructor. Qed.

Lemma reach h : valid h -> exists n, Inv n (after h) /\ 0 <= n <= Z.of_nat (length h) /\
  exists st, naive_run (0, []) h (reports_of h) st /\ Rel (after h) st.
Proof.
  intros [H1 H2]. destruct (run_all h 0 empty_book (0, []) inv_empty H1 ltac:(lia) rel_empty) as (n & H3 & H4 & H5).
  exists n. split; [exact H3|]. split; [lia|exact H5].
Qed.

Lemma run_app a : forall b h, run b (a ++ h) = let '(b1, r1) := run b a in let '(b2, r2) := run b1 h in (b2, r1 ++ r2).
Proof.
  induction a as [|x a IH]; intros b h; cbn.
  - destruct (run b h); reflexivity.
  - destruct (step b x) as [b1 r1]. rewrite IH. destruct (run b1 a) as [b2 r2]. destruct (run b2 h) as [b3 r3].
    now rewrite app_assoc.
Qed.
