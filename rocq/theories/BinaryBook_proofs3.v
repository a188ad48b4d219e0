(** More property-level lemmas about the order book. *)
From Verif Require Import Base Identity BinaryBook BinaryBook_spec BinaryBook_proofs BinaryBook_proofs2.
From Coq Require Import ZifyBool ZifyNat.

(** *** C29 *)
Lemma highest_of_sd n l : sd Buy n l -> is_highest (match l with [] => None | e :: _ => Some (e_key e) end) (map ab l).
Proof.
  intros [Hok Hs]. destruct l as [|e l]; [reflexivity|]. inversion Hok as [|? ? (Hk & _) _]; subst.
  cbn [map] in *. inversion Hs as [|? ? _ Hf]; subst. split.
  - exists (ab e). split; [now left|]. cbn. congruence.
  - intros r [<-|Hr]; [cbn; lia|]. rewrite Forall_forall in Hf. specialize (Hf _ Hr). unfold priority in Hf. cbn in *. lia.
Qed.
Lemma lowest_of_sd n l : sd Sell n l -> is_lowest (match l with [] => None | e :: _ => Some (e_key e) end) (map ab l).
Proof.
  intros [Hok Hs]. destruct l as [|e l]; [reflexivity|]. inversion Hok as [|? ? (Hk & _) _]; subst.
  cbn [map] in *. inversion Hs as [|? ? _ Hf]; subst. split.
  - exists (ab e). split; [now left|]. cbn. congruence.
  - intros r [<-|Hr]; [cbn; lia|]. rewrite Forall_forall in Hf. specialize (Hf _ Hr). unfold priority in Hf. cbn in *. lia.
Qed.
Lemma quotes_inv n b : Inv n b -> is_highest (bid b) (resting_side Buy b) /\ is_lowest (ask b) (resting_side Sell b).
Proof.
  intros HI. rewrite !(resting_side_spec _ _ _ HI). split.
  - apply (highest_of_sd n). exact (inv_bids _ _ HI).
  - apply (lowest_of_sd n). exact (inv_asks _ _ HI).
Qed.
Lemma book_uncrossed h : valid h ->
  let b := after h in
  (forall x y, In x (resting_side Buy b) -> In y (resting_side Sell b) -> o_limit (snd x) < o_limit (snd y)) /\
  (forall x, In x (resting b) -> 0 < o_quantity (snd x)) /\
  is_highest (bid b) (resting_side Buy b) /\ is_lowest (ask b) (resting_side Sell b).
Proof.
  intros Hv b. destruct (reach h Hv) as (n & HI & _). fold b in HI. split; [|split; [|exact (quotes_inv _ _ HI)]].
  - rewrite !(resting_side_spec _ _ _ HI). intros x y Hx Hy.
    apply in_map_iff in Hx as (e & <- & He). apply in_map_iff in Hy as (e' & <- & He'). cbn in *.
    pose proof (inv_uncrossed _ _ HI _ _ He He').
    pose proof (sd_in _ _ _ _ (inv_bids _ _ HI) He) as (K & _).
    pose proof (sd_in _ _ _ _ (inv_asks _ _ HI) He') as (K' & _). lia.
  - intros x Hx. rewrite resting_ab in Hx. apply in_map_iff in Hx as (e & <- & He). cbn.
    apply in_app_or in He as [He|He].
    + pose proof (sd_in _ _ _ _ (inv_bids _ _ HI) He) as (_ & _ & ? & _). assumption.
    + pose proof (sd_in _ _ _ _ (inv_asks _ _ HI) He) as (_ & _ & ? & _). assumption.
Qed.

(** *** C33 *)
Lemma ids_of_app s a b : ids_of s (a ++ b) = ids_of s a ++ ids_of s b.
Proof. unfold ids_of. now rewrite filter_app, map_app. Qed.
Lemma naive_match_no_other o rem l rs l' rem' : naive_match o rem l rs l' rem' ->
  ids_of Placed rs = [] /\ ids_of Cancelled rs = [].
Proof.
  induction 1 as [rem l H|rem l1 i r l2 rs l' rem' Hr Hb Hq Hm IH|rem l1 i r l2 Hr Hb Hq]; [auto| |auto].
  rewrite !ids_of_app. destruct IH as [-> ->]. auto.
Qed.
Lemma naive_step_placed s x rs s' : naive_step s x rs s' ->
  (ids_of Placed rs = [] /\ fst s' = fst s) \/ (ids_of Placed rs = [fst s] /\ fst s' = fst s + 1).
Proof.
  intros H. inversion H as [n l o rs0 l' Hm|n l o rs0 l' rem Hm Hp|n l1 i r l2|n l i Hn]; subst; cbn [fst].
  - left. split; [|reflexivity]. now apply naive_match_no_other in Hm.
  - right. split; [|reflexivity]. rewrite ids_of_app. apply naive_match_no_other in Hm as [-> _]. reflexivity.
  - left. auto.
  - left. auto.
Qed.
Lemma naive_run_placed s h rs s' : naive_run s h rs s' ->
  exists k, fst s' = fst s + Z.of_nat k /\ ids_of Placed rs = map (fun j => fst s + Z.of_nat j) (seq 0 k).
Proof.
  induction 1 as [s|s x rs s1 h rs' s2 Hst Hrun IH].
  - exists 0%nat. cbn. split; [lia|reflexivity].
  - destruct IH as (k & E1 & E2). rewrite ids_of_app.
    destruct (naive_step_placed _ _ _ _ Hst) as [[-> E]|[-> E]].
    + exists k. rewrite E in *. auto.
    + exists (S k). split; [lia|]. cbn [seq map app]. rewrite E2. f_equal; [lia|].
      rewrite <- seq_shift, map_map. apply map_ext. intros j. lia.
Qed.
Lemma ids_sequence h : valid h ->
  (exists k, ids_of Placed (reports_of h) = map Z.of_nat (seq 0 k)) /\
  NoDup (map fst (resting (after h))) /\
  (forall i, In i (map fst (resting (after h))) -> In i (ids_of Placed (reports_of h))).
Proof.
  intros Hv. destruct (reach h Hv) as (n & HI & Hn & st & Hrun & HR).
  destruct (naive_run_placed _ _ _ _ Hrun) as (k & E1 & E2). cbn [fst] in E1, E2.
  split; [exists k; rewrite E2; apply map_ext; intros; lia|].
  split; [exact (resting_ids_nodup _ _ HI)|].
  intros i Hi. rewrite E2. apply in_map_iff. exists (Z.to_nat i).
  rewrite resting_ab, map_map in Hi. apply in_map_iff in Hi as (e & <- & He). cbn [ab fst].
  assert (0 <= e_ident e < n).
  { apply in_app_or in He as [He|He].
    + pose proof (sd_in _ _ _ _ (inv_bids _ _ HI) He) as (_ & _ & _ & ?). assumption.
    + pose proof (sd_in _ _ _ _ (inv_asks _ _ HI) He) as (_ & _ & _ & ?). assumption. }
  destruct HR as (E3 & _). pose proof (inv_next _ _ HI). split; [lia|]. apply in_seq. lia.
Qed.

(** *** C34 *)
Lemma cancel_exact h i : valid h ->
  let b := after h in
  (forall r, In (i, r) (resting b) ->
     snd (cancel b i) = [mk_report Cancelled (o_side r) (o_quantity r) i (o_limit r) (o_owner r)] /\
     resting (fst (cancel b i)) = filter (fun x => negb (fst x =? i)) (resting b)) /\
  (~ In i (map fst (resting b)) -> cancel b i = (b, [])).
Proof.
  intros Hv b. destruct (reach h Hv) as (n & HI & _). fold b in HI.
  destruct (cancel_spec n b i HI) as [(e & He & Hi & ->)|[Hni ->]].
  - split.
    + intros r Hr. cbn [fst snd].
      assert (r = e_order e).
      { pose proof (resting_ids_nodup _ _ HI) as Hnd.
        assert (He' : In (i, e_order e) (resting b)) by (rewrite resting_ab; apply in_map_iff; exists e; unfold ab; now rewrite Hi).
        clear - Hnd Hr He'. induction (resting b) as [|x l IH]; [contradiction|]. cbn in Hnd. inversion Hnd; subst.
        destruct Hr as [->|Hr], He' as [E|He']; auto.
        - now injection E as ->.
        - exfalso. apply H1. apply in_map_iff. exists (i, e_order e). auto.
        - subst x. exfalso. apply H1. apply in_map_iff. exists (i, r). auto. }
      subst r. split; [reflexivity|]. unfold resting at 1. cbn [b_bids b_asks]. rewrite <- filter_app.
      change (map (fun e0 => (e_ident e0, e_order e0))) with (map ab). now rewrite filter_not_id_ab.
    + intros Hc. exfalso. apply Hc. rewrite resting_ab, map_map. apply in_map_iff. exists e. auto.
  - split; [|reflexivity]. intros r Hr. exfalso. apply Hni. rewrite resting_ab in Hr.
    apply in_map_iff in Hr as (e & E & He). unfold ab in E. injection E as <- <-. now apply in_map.
Qed.
Lemma here_pos i l : Forall (fun x => 0 < o_quantity (snd x)) l -> In i (map fst l) -> 0 < here i l.
Proof.
  induction 1 as [|x l Hx Hf IH]; cbn [map]; [contradiction|]. rewrite here_cons.
  assert (0 <= here i l).
  { clear - Hf. induction Hf; [cbn; lia|]. rewrite here_cons. destruct (fst x =? i); lia. }
  intros [->|Hi]; [rewrite Z.eqb_refl; lia|]. specialize (IH Hi). destruct (fst x =? i); lia.
Qed.
(** A fully executed or cancelled identifier no longer rests. *)
Lemma exhausted_not_resting h i : valid h -> 0 <= i < W64 - 1 ->
  total (for_id i (is_state Placed)) (reports_of h) =
    total (for_id i (is_state Matched)) (reports_of h) + total (for_id i (is_state Cancelled)) (reports_of h) ->
  cancel (after h) i = (after h, []).
Proof.
  intros Hv Hi E. destruct (conservation_history h Hv) as (_ & _ & H). specialize (H i Hi).
  apply (proj2 (cancel_exact h i Hv)). intros Hc.
  assert (Hp := here_pos i (resting (after h))). unfold resting_quantity in H. fold (here i (resting (after h))) in H.
  enough (0 < here i (resting (after h))) by lia. apply Hp; [|assumption].
  apply Forall_forall. apply (book_uncrossed h Hv).
Qed.

(** *** C35 *)
Definition KI (b : book) (c : list Z) : Prop :=
  (forall i, In i (map fst (b_index b)) <-> In i (map fst (resting b)) \/ In i c) /\
  (forall i, In i c -> ~ In i (map fst (resting b))).

Lemma resting_ids b : map fst (resting b) = map e_ident (b_bids b ++ b_asks b).
Proof. rewrite resting_ab, map_map. reflexivity. Qed.
Lemma resting_ids_generic s b i : In i (map fst (resting b)) <-> In i (map e_ident (opp_list b s)) \/ In i (map e_ident (own_list b s)).
Proof. rewrite resting_ids, (Permutation_map e_ident (ent_perm s b)), map_app, in_app_iff. tauto. Qed.
Lemma erase_all_fst ids l i : In i (map fst (erase_all ids l)) <-> In i (map fst l) /\ ~ In i ids.
Proof.
  split.
  - intros H. apply in_map_iff in H as (kv & <- & H). apply erase_all_in in H as [H1 H2]. split; [now apply in_map|assumption].
  - intros [H1 H2]. apply in_map_iff in H1 as (kv & <- & H1). apply in_map. now apply erase_all_in.
Qed.

Lemma insert_KI n b o c : Inv n b -> 0 <= o_quantity o -> n + 1 < W64 -> Forall (fun i => i < n) c ->
  KI b c -> KI (fst (insert b o)) c.
Proof.
  intros HI Hq Hn Hc [K1 K2]. rewrite insert_eq. rewrite (Inv_generic (o_side o)) in HI.
  destruct HI as (H1 & H2 & H3 & H4 & H5 & H6 & H7 & H8 & H9).
  destruct (match_loop _ o (o_quantity o) _) as [[[l' rs] ids] rem] eqn:EM.
  destruct (match_loop_in _ _ _ _ _ _ _ _ _ Hq H4 EM) as (full & HP & ->).
  pose proof (perm_keys HP) as HPi. rewrite map_app in HPi.
  assert (Hd : forall i, In i (map e_ident full) -> ~ In i (map e_ident l') /\ ~ In i (map e_ident (own_list b (o_side o))) /\ ~ In i c).
  { intros i Hi. rewrite map_app in H5. pose proof (Permutation_NoDup HPi (NoDup_app_l _ _ H5)) as Hnd.
    assert (Ho : In i (map e_ident (opp_list b (o_side o)))) by (rewrite HPi; apply in_or_app; now left).
    split; [|split].
    - intros Hx. exact (NoDup_app_disj _ _ _ Hnd Hi Hx).
    - intros Hx. exact (NoDup_app_disj _ _ _ H5 Ho Hx).
    - intros Hx. apply (K2 _ Hx). apply (resting_ids_generic (o_side o)). now left. }
  assert (HE : forall i, In i (map fst (erase_all (map e_ident full) (b_index b))) <->
     In i (map e_ident l') \/ In i (map e_ident (own_list b (o_side o))) \/ In i c).
  { intros i. rewrite erase_all_fst, K1, (resting_ids_generic (o_side o)).
    assert (Hopp : In i (map e_ident (opp_list b (o_side o))) <-> In i (map e_ident full) \/ In i (map e_ident l')).
    { rewrite HPi. apply in_app_iff. }
    rewrite Hopp. specialize (Hd i). destruct (in_dec Z.eq_dec i (map e_ident full)); tauto. }
  assert (HB : Forall (fun kv => fst kv < n) (erase_all (map e_ident full) (b_index b))).
  { rewrite Forall_forall in *. intros kv Hkv. apply erase_all_in in Hkv. apply H8. tauto. }
  assert (Hout : forall i, In i c -> ~ In i (map e_ident l') /\ ~ In i (map e_ident (own_list b (o_side o)))).
  { intros i Hi. split; intros Hx; apply (K2 _ Hi), (resting_ids_generic (o_side o)); [left|now right].
    rewrite HPi. apply in_or_app. now right. }
  destruct (Z.gtb_spec rem 0) as [Hg|Hg]; cbn [fst].
  - split.
    + intros i. rewrite (resting_ids_generic (o_side o)), own_rebuild, opp_rebuild, index_rebuild.
      rewrite map_emplace_app by (rewrite H1; exact HB). rewrite map_app, in_app_iff, HE.
      rewrite (Permutation_map e_ident (mm_emplace_perm _ _ _)). cbn [map In fst placed_entry e_ident]. tauto.
    + intros i Hi. rewrite (resting_ids_generic (o_side o)), own_rebuild, opp_rebuild.
      rewrite (Permutation_map e_ident (mm_emplace_perm _ _ _)). cbn [map In placed_entry e_ident].
      destruct (Hout i Hi). rewrite Forall_forall in Hc. specialize (Hc _ Hi). intuition lia.
  - split.
    + intros i. rewrite (resting_ids_generic (o_side o)), own_rebuild, opp_rebuild, index_rebuild, HE. tauto.
    + intros i Hi. rewrite (resting_ids_generic (o_side o)), own_rebuild, opp_rebuild. destruct (Hout i Hi). tauto.
Qed.

Lemma cancel_KI n b j c : Inv n b -> Forall (fun i => i < n) c -> KI b c ->
  KI (fst (cancel b j)) (c ++ ids_of Cancelled (snd (cancel b j))) /\
  Forall (fun i => i < n) (c ++ ids_of Cancelled (snd (cancel b j))).
Proof.
  intros HI Hc [K1 K2]. destruct (cancel_spec n b j HI) as [(e & He & Hi & ->)|[Hni ->]]; cbn [fst snd].
  - change (ids_of Cancelled _) with [j].
    assert (Hf : forall i, In i (map fst (resting (mk_book (b_next b) (b_index b) (filter (not_id j) (b_bids b)) (filter (not_id j) (b_asks b)))))
        <-> In i (map fst (resting b)) /\ i <> j).
    { intros i. rewrite !resting_ids. cbn [b_bids b_asks]. rewrite <- filter_app. split.
      - intros H. apply in_map_iff in H as (x & <- & Hx). apply filter_In in Hx as [Hx1 Hx2]. unfold not_id in Hx2.
        split; [now apply in_map|lia].
      - intros [H1 H2]. apply in_map_iff in H1 as (x & <- & Hx). apply in_map. apply filter_In. split; [assumption|]. unfold not_id. lia. }
    assert (Hj : In j (map fst (resting b))) by (rewrite resting_ids; subst j; now apply in_map).
    split; [split|].
    + intros i. cbn [b_index]. rewrite K1, Hf, in_app_iff. cbn [In].
      destruct (Z.eq_dec i j) as [->|]; [tauto|]. intuition congruence.
    + intros i Hin. rewrite Hf. rewrite in_app_iff in Hin. cbn [In] in Hin.
      destruct Hin as [Hin|[<-|[]]]; [|tauto]. specialize (K2 _ Hin). tauto.
    + apply Forall_app. split; [assumption|]. constructor; [|constructor].
      subst j. apply in_app_or in He as [He|He].
      * pose proof (sd_in _ _ _ _ (inv_bids _ _ HI) He) as (_ & _ & _ & ?). lia.
      * pose proof (sd_in _ _ _ _ (inv_asks _ _ HI) He) as (_ & _ & _ & ?). lia.
  - cbn. rewrite app_nil_r. split; [split|]; assumption.
Qed.

Lemma insert_no_cancel n b o st : Inv n b -> u32 (o_quantity o) -> n + 1 < W64 -> Rel b st ->
  ids_of Cancelled (snd (insert b o)) = [].
Proof.
  intros HI Hq Hn HR. destruct (insert_refines n b o st HI Hq Hn HR) as (st' & Hst & _).
  inversion Hst as [n0 l o0 rs0 l' Hm|n0 l o0 rs0 l' rem Hm Hp| |]; subst.
  - now apply naive_match_no_other in Hm.
  - rewrite ids_of_app. apply naive_match_no_other in Hm as [_ ->]. reflexivity.
Qed.

Lemma run_KI h : forall n b st c, Inv n b -> Rel b st -> Forall op_ok h -> n + Z.of_nat (length h) < W64 ->
  Forall (fun i => i < n) c -> KI b c -> KI (fst (run b h)) (c ++ ids_of Cancelled (snd (run b h))).
Proof.
  induction h as [|x h IH]; intros n b st c HI HR Hok Hn Hc HK.
  - cbn. now rewrite app_nil_r.
  - inversion Hok as [|? ? Hx Hok']; subst. cbn [run length] in *.
    destruct (step_all n b x st HI Hx ltac:(lia) HR) as (n1 & HI1 & Hn1 & st1 & Hst1 & HR1).
    assert (HK1 : KI (fst (step b x)) (c ++ ids_of Cancelled (snd (step b x))) /\ Forall (fun i => i < n1) (c ++ ids_of Cancelled (snd (step b x)))).
    { destruct x as [o|j]; cbn [step] in *.
      - rewrite (insert_no_cancel n b o st HI Hx ltac:(lia) HR), app_nil_r. split.
        + apply (insert_KI n); auto; [unfold op_ok, u32 in Hx; lia|lia].
        + revert Hc. apply Forall_impl. intros; lia.
      - assert (n1 = n). { pose proof (inv_next _ _ HI1). pose proof (inv_next _ _ (cancel_inv _ _ j HI)). lia. }
        subst n1. now apply cancel_KI. }
    destruct HK1 as [HK1 Hc1].
    destruct (step b x) as [b1 r1] eqn:E1. cbn [fst snd] in *.
    specialize (IH n1 b1 st1 _ HI1 HR1 Hok' ltac:(lia) Hc1 HK1).
    destruct (run b1 h) as [b2 r2]. cbn [fst snd] in *. now rewrite ids_of_app, app_assoc.
Qed.
Lemma orders_exact h : valid h ->
  StronglySorted Z.lt (orders (after h)) /\
  forall i, In i (orders (after h)) <->
    In i (map fst (resting (after h))) \/ In i (ids_of Cancelled (reports_of h)).
Proof.
  intros Hv. destruct (reach h Hv) as (n & HI & _). destruct Hv as [Hv1 Hv2]. split.
  - pose proof (inv_isorted _ _ HI) as Hs. unfold orders, isorted in *. clear - Hs.
    induction Hs as [|a l H IH Hf]; cbn; constructor; [assumption|]. now rewrite Forall_map.
  - assert (HK : KI empty_book []) by (split; cbn; tauto).
    destruct (run_KI h 0 empty_book (0, []) [] inv_empty rel_empty Hv1 ltac:(lia) ltac:(constructor) HK) as [K1 _].
    exact K1.
Qed.

(** *** C36 *)
Lemma can_tradeb_iff o r : can_tradeb o r = true <-> can_trade o r.
Proof. unfold can_tradeb, can_trade. destruct (o_side o), (o_side r); lia. Qed.
Lemma avail_app o a b : available o (a ++ b) = available o a + available o b.
Proof. unfold available. now rewrite filter_app, qof_app. Qed.
Lemma avail_cons o x l : available o (x :: l) = (if can_tradeb o (snd x) then o_quantity (snd x) else 0) + available o l.
Proof. unfold available. cbn [filter]. destruct (can_tradeb o (snd x)); rewrite ?qof_cons; lia. Qed.
Lemma avail_nonneg o l : Forall (fun x => 0 < o_quantity (snd x)) l -> 0 <= available o l.
Proof. induction 1; [cbn; lia|]. rewrite avail_cons. destruct (can_tradeb o (snd x)); lia. Qed.
Lemma naive_match_rem o rem l rs l' rem' : naive_match o rem l rs l' rem' -> 0 <= rem ->
  Forall (fun x => 0 < o_quantity (snd x)) l -> rem' = Z.max 0 (rem - available o l).
Proof.
  induction 1 as [rem l H|rem l1 i r l2 rs l' rem' Hr Hb Hq Hm IH|rem l1 i r l2 Hr Hb Hq]; intros H0 Hf.
  - pose proof (avail_nonneg o l Hf). destruct H as [->|H]; [lia|].
    assert (available o l = 0).
    { clear - H. induction l as [|x l IH]; [reflexivity|]. rewrite avail_cons, IH by (intros; apply H; now right).
      destruct (can_tradeb o (snd x)) eqn:E; [|lia]. apply can_tradeb_iff in E. destruct (H x (or_introl eq_refl) E). }
    lia.
  - apply Forall_app in Hf as [Hf1 Hf2]. inversion Hf2; subst.
    rewrite (IH ltac:(lia) ltac:(now apply Forall_app)). rewrite !avail_app, avail_cons. cbn [snd].
    destruct Hb as [Hb _]. apply can_tradeb_iff in Hb. rewrite Hb. lia.
  - apply Forall_app in Hf as [Hf1 Hf2]. inversion Hf2; subst. rewrite avail_app, avail_cons. cbn [snd] in *.
    destruct Hb as [Hb _]. apply can_tradeb_iff in Hb. rewrite Hb.
    pose proof (avail_nonneg o l1 Hf1). pose proof (avail_nonneg o l2 ltac:(assumption)). lia.
Qed.
Lemma avail_perm o a b : Permutation a b -> available o a = available o b.
Proof. intros H. unfold available. apply qof_perm. now apply Permutation_filter. Qed.

Lemma rests_exactly_rest h o : valid (h ++ [Insert o]) ->
  total (is_state Placed) (snd (insert (after h) o)) = Z.max 0 (o_quantity o - available o (resting (after h))) /\
  total to_taker (snd (insert (after h) o)) = Z.min (o_quantity o) (available o (resting (after h))).
Proof.
  intros Hv. pose proof (conservation_order h o Hv) as [Hc _]. cbn in Hc.
  destruct (reach_insert h o Hv) as (n & st & st' & HI & Hn & HR & HN & Hq & Hst & HR' & _).
  rewrite (avail_perm _ _ _ (rel_resting _ _ HR)).
  assert (E : total (is_state Placed) (snd (insert (after h) o)) = Z.max 0 (o_quantity o - available o (snd st))).
  { assert (Hp : Forall (fun x => 0 < o_quantity (snd x)) (snd st)).
    { destruct HN as (_ & HN & _). revert HN. apply Forall_impl. tauto. }
    assert (Hf : fst st <= W64 - 1). { destruct HR as (E & _). destruct HI as [E' _ _ _ _ _ _ _ _]. lia. }
    assert (Hq0 : 0 <= o_quantity o) by (unfold u32 in Hq; lia).
    inversion Hst as [n0 l o0 rs0 l' Hm|n0 l o0 rs0 l' rem Hm Hpp| |]; subst; destruct HN as (_ & HN & _); cbn [fst snd] in *;
    destruct (naive_match_totals _ _ _ _ _ _ _ Hf Hm HN) as (_ & _ & _ & D & _);
    pose proof (naive_match_rem _ _ _ _ _ _ Hm Hq0 Hp) as Hrem.
    - lia.
    - rewrite total_app, D, total_cons, total_nil. cbn [is_state rp_state rp_quantity]. lia. }
  split; [exact E|]. pose proof (avail_nonneg o (snd st)) as Hav.
  assert (Hp : Forall (fun x => 0 < o_quantity (snd x)) (snd st)).
  { destruct HN as (_ & HN & _). revert HN. apply Forall_impl. tauto. }
  specialize (Hav Hp). unfold u32 in Hq. lia.
Qed.

Lemma match_loop_lifetime c o t l : forall rem, match_loop c (with_lifetime o t) rem l = match_loop c o rem l.
Proof.
  induction l as [|e l IH]; intros rem; cbn [match_loop]; [reflexivity|].
  destruct (c (e_key e)); [|reflexivity]. destruct (Z.min rem (e_qty e) =? 0); [reflexivity|].
  rewrite IH. reflexivity.
Qed.
Lemma lifetime_ignored b o t : snd (insert b (with_lifetime o t)) = snd (insert b o).
Proof.
  unfold insert. cbn [with_lifetime o_side o_limit o_quantity o_owner].
  destruct (o_side o); rewrite match_loop_lifetime;
    destruct (match_loop _ o (o_quantity o) _) as [[[l' rs] ids] rem]; destruct (rem >? 0); reflexivity.
Qed.

(** *** C37 *)

Definition cl (l : list (Z * order)) := map view_of l.
Lemma client_match_none l r : rp_state r = Matched -> ~ In (rp_id r) (map fst l) ->
  Forall (fun x => 0 < o_quantity (snd x)) l -> client_step (cl l) r = cl l.
Proof.
  intros Hs Hn Hf. unfold client_step. rewrite Hs. induction l as [|x l IH]; [reflexivity|].
  inversion Hf; subst. cbn [cl map] in *. cbn [map filter]. change (v_id (view_of x)) with (fst x).
  destruct (Z.eqb_spec (fst x) (rp_id r)) as [E|_]; [cbn in Hn; tauto|].
  cbn [filter]. change (v_quantity (view_of x)) with (o_quantity (snd x)).
  destruct (Z.ltb_spec 0 (o_quantity (snd x))); [|lia]. f_equal. apply IH; [cbn in Hn; tauto|assumption].
Qed.
Lemma client_match_one l1 i m l2 r : rp_state r = Matched -> rp_id r = i -> 
  Forall (fun x => 0 < o_quantity (snd x)) (l1 ++ (i, m) :: l2) -> NoDup (map fst (l1 ++ (i, m) :: l2)) ->
  client_step (cl (l1 ++ (i, m) :: l2)) r =
  cl (l1 ++ (if 0 <? o_quantity m - rp_quantity r then [(i, with_quantity m (o_quantity m - rp_quantity r))] else []) ++ l2).
Proof.
  intros Hs Hi Hf Hnd. apply Forall_app in Hf as [Hf1 Hf2]. inversion Hf2 as [|? ? Hm Hf3]; subst.
  rewrite map_app in Hnd. cbn [map fst] in Hnd. apply NoDup_remove_2 in Hnd. rewrite in_app_iff in Hnd.
  pose proof (client_match_none l1 r Hs ltac:(tauto) Hf1) as E1.
  pose proof (client_match_none l2 r Hs ltac:(tauto) Hf3) as E2.
  unfold client_step in *. rewrite Hs in *. unfold cl in *. rewrite !map_app, filter_app, E1. f_equal.
  cbn [map filter]. change (v_id (view_of (rp_id r, m))) with (rp_id r). rewrite Z.eqb_refl. cbn [v_quantity view_of snd].
  destruct (0 <? o_quantity m - rp_quantity r); cbn [map app]; rewrite E2; reflexivity.
Qed.
Lemma client_trade o l1 i m l2 q n : n <= W64 - 1 ->
  Forall (fun x => 0 <= fst x < n /\ 0 < o_quantity (snd x)) (l1 ++ (i, m) :: l2) -> NoDup (map fst (l1 ++ (i, m) :: l2)) ->
  fold_left client_step (trade_reports o i m q) (cl (l1 ++ (i, m) :: l2)) =
  cl (l1 ++ (if 0 <? o_quantity m - q then [(i, with_quantity m (o_quantity m - q))] else []) ++ l2).
Proof.
  intros Hn Hf Hnd. unfold trade_reports. cbn [fold_left].
  assert (Hp : Forall (fun x => 0 < o_quantity (snd x)) (l1 ++ (i, m) :: l2)) by (revert Hf; apply Forall_impl; tauto).
  rewrite client_match_none; [|reflexivity| |assumption].
  2:{ cbn [rp_id]. intros Hc. apply in_map_iff in Hc as (x & E & Hx). rewrite Forall_forall in Hf. specialize (Hf _ Hx). lia. }
  rewrite client_match_one; auto.
Qed.
Lemma client_naive_match o rem l rs l' rem' n : n <= W64 - 1 -> naive_match o rem l rs l' rem' -> 0 <= rem ->
  Forall (fun x => 0 <= fst x < n /\ 0 < o_quantity (snd x)) l -> idsorted l ->
  fold_left client_step rs (cl l) = cl l'.
Proof.
  intros Hn. induction 1 as [rem l H|rem l1 i r l2 rs l' rem' Hr Hb Hq Hm IH|rem l1 i r l2 Hr Hb Hq]; intros H0 Hf Hs.
  - reflexivity.
  - rewrite fold_left_app, (client_trade _ _ _ _ _ _ n) by (auto using idsorted_nodup).
    rewrite Z.sub_diag. cbn [app Z.ltb]. change (0 <? 0) with false. cbn [app]. apply IH; [lia| |now apply idsorted_remove in Hs].
    apply Forall_app in Hf as [Hf1 Hf2]. inversion Hf2; subst. now apply Forall_app.
  - rewrite (client_trade _ _ _ _ _ _ n) by (auto using idsorted_nodup).
    destruct (Z.ltb_spec 0 (o_quantity r - rem)); [|lia]. reflexivity.
Qed.
Lemma client_naive_step s x rs s' : naive_step s x rs s' -> op_ok x -> NI s -> fst s <= W64 - 1 ->
  fold_left client_step rs (cl (snd s)) = cl (snd s').
Proof.
  intros H Hx (H1 & H2 & H3) Hn.
  inversion H as [n l o rs0 l' Hm|n l o rs0 l' rem Hm Hp|n l1 i r l2|n l i Hni]; subst; cbn [fst snd op_ok] in *.
  - eapply client_naive_match; eauto. unfold u32 in Hx; lia.
  - rewrite fold_left_app, (client_naive_match _ _ _ _ _ _ _ Hn Hm ltac:(unfold u32 in Hx; lia) H2 H3).
    unfold cl. rewrite map_app. reflexivity.
  - cbn [fold_left]. unfold client_step. cbn [rp_state rp_id]. pose proof (idsorted_nodup _ H3) as Hnd.
    rewrite <- (filter_split i r l1 l2 Hnd). unfold cl. clear.
    induction (l1 ++ (i, r) :: l2) as [|x l IH]; [reflexivity|]. cbn [map filter].
    change (v_id (view_of x)) with (fst x). destruct (fst x =? i); cbn; now rewrite IH.
  - reflexivity.
Qed.
Lemma client_naive_run s h rs s' : naive_run s h rs s' -> Forall op_ok h -> NI s ->
  fst s + Z.of_nat (length h) <= W64 - 1 -> fold_left client_step rs (cl (snd s)) = cl (snd s').
Proof.
  induction 1 as [s|s x rs s1 h rs' s2 Hst Hrun IH]; intros Hok HN Hlen; [reflexivity|].
  inversion Hok as [|? ? Hx Hok']; subst. cbn [length] in Hlen.
  destruct (naive_step_NI _ _ _ _ Hst Hx HN) as [HN1 Hb].
  rewrite fold_left_app, (client_naive_step _ _ _ _ Hst Hx HN ltac:(lia)). apply IH; auto. lia.
Qed.
Lemma client_reconstructs h : valid h -> Permutation (client (reports_of h)) (map view_of (resting (after h))).
Proof.
  intros Hv. destruct (reach h Hv) as (n & HI & Hn & st & Hrun & HR). destruct Hv as [Hv1 Hv2].
  pose proof (client_naive_run _ _ _ _ Hrun Hv1 NI0 ltac:(cbn; lia)) as E. cbn [snd cl map] in E.
  unfold client. rewrite E. unfold cl. apply Permutation_map. symmetry. exact (rel_resting _ _ HR).
Qed.

(** *** C38 *)
Lemma app_cons_split {A} (l1 l1' : list A) x x' l2 l2' : l1 ++ x :: l2 = l1' ++ x' :: l2' ->
  (l1 = l1' /\ x = x' /\ l2 = l2') \/ (In x l1' /\ In x' l2) \/ (In x' l1 /\ In x l2').
Proof.
  revert l1'. induction l1 as [|a l1 IH]; intros [|a' l1'] E; cbn in E; injection E as -> E.
  - left. auto.
  - subst. right. left. split; [now left|]. apply in_elt.
  - subst. right. right. split; [now left|]. apply in_elt.
  - destruct (IH _ E) as [(-> & -> & ->)|[[H1 H2]|[H1 H2]]]; [left|right; left|right; right]; cbn; auto.
Qed.
Lemma best_unique o l1 i r l2 l1' i' r' l2' : l1 ++ (i, r) :: l2 = l1' ++ (i', r') :: l2' ->
  best_of o l1 r l2 -> best_of o l1' r' l2' -> l1 = l1' /\ i = i' /\ r = r' /\ l2 = l2'.
Proof.
  intros E (H1 & H2 & H3) (H1' & H2' & H3').
  destruct (app_cons_split _ _ _ _ _ _ E) as [(-> & E2 & ->)|[[Ha Hb]|[Ha Hb]]].
  - injection E2 as -> ->. auto.
  - exfalso. apply (H3 _ Hb H1'). cbn. exact (H2' _ Ha H1).
  - exfalso. apply (H3' _ Hb H1). cbn. exact (H2 _ Ha H1').
Qed.
Lemma naive_match_det o rem l rs1 l1 rem1 : naive_match o rem l rs1 l1 rem1 ->
  forall rs2 l2 rem2, naive_match o rem l rs2 l2 rem2 -> rs1 = rs2 /\ l1 = l2 /\ rem1 = rem2.
Proof.
  assert (Hno : forall rem l, (rem = 0 \/ (forall x, In x l -> ~ can_trade o (snd x))) -> forall l1 i r l2, l = l1 ++ (i, r) :: l2 -> 0 < rem -> best_of o l1 r l2 -> False).
  { intros rem0 l0 [->|H] a i r b -> Hr (Hb & _); [lia|]. exact (H (i, r) (in_elt _ _ _) Hb). }
  induction 1 as [rem l H|rem a i r b rs l' rem' Hr Hb Hq Hm IH|rem a i r b Hr Hb Hq]; intros rs2 l2 rem2 H2.
  - inversion H2; subst; auto; exfalso; eapply Hno; eauto.
  - inversion H2 as [rem0 l0 H0|rem0 a' i' r' b' rs' l'' rem'' Hr' Hb' Hq' Hm'|rem0 a' i' r' b' Hr' Hb' Hq']; subst.
    + exfalso; eapply (Hno _ _ H0); eauto.
    + match goal with H : _ ++ _ = _ ++ _ |- _ => rename H into E end.
      destruct (best_unique _ _ _ _ _ _ _ _ _ E Hb' Hb) as (-> & -> & -> & ->).
      destruct (IH _ _ _ Hm') as (-> & -> & ->). auto.
    + match goal with H : _ ++ _ = _ ++ _ |- _ => rename H into E end.
      destruct (best_unique _ _ _ _ _ _ _ _ _ E Hb' Hb) as (-> & -> & -> & ->). lia.
  - inversion H2 as [rem0 l0 H0|rem0 a' i' r' b' rs' l'' rem'' Hr' Hb' Hq' Hm'|rem0 a' i' r' b' Hr' Hb' Hq']; subst.
    + exfalso; eapply (Hno _ _ H0); eauto.
    + match goal with H : _ ++ _ = _ ++ _ |- _ => rename H into E end.
      destruct (best_unique _ _ _ _ _ _ _ _ _ E Hb' Hb) as (-> & -> & -> & ->). lia.
    + match goal with H : _ ++ _ = _ ++ _ |- _ => rename H into E end.
      destruct (best_unique _ _ _ _ _ _ _ _ _ E Hb' Hb) as (-> & -> & -> & ->). auto.
Qed.
Lemma naive_step_det s x rs1 s1 rs2 s2 : NI s -> naive_step s x rs1 s1 -> naive_step s x rs2 s2 -> rs1 = rs2 /\ s1 = s2.
Proof.
  intros (_ & _ & Hs) H1 H2. pose proof (idsorted_nodup _ Hs) as Hnd.
  inversion H1 as [n l o rs0 l' Hm|n l o rs0 l' rem Hm Hp|n l1 i r l2|n l i Hn]; subst;
  inversion H2 as [n' l0 o' rs0' l'0 Hm'|n' l0 o' rs0' l'0 rem' Hm' Hp'|n' l1' i' r' l2'|n' l0 i' Hn']; subst.
  - destruct (naive_match_det _ _ _ _ _ _ Hm _ _ _ Hm') as (-> & -> & _). auto.
  - destruct (naive_match_det _ _ _ _ _ _ Hm _ _ _ Hm') as (_ & _ & E). lia.
  - destruct (naive_match_det _ _ _ _ _ _ Hm _ _ _ Hm') as (_ & _ & E). lia.
  - destruct (naive_match_det _ _ _ _ _ _ Hm _ _ _ Hm') as (-> & -> & ->). auto.
  - cbn [snd] in Hnd. match goal with H : _ ++ _ = _ ++ _ |- _ => rename H into E end.
    assert (Hx : l1 = l1' /\ (i, r) = (i, r') /\ l2 = l2').
    { symmetry in E. destruct (app_cons_split _ _ _ _ _ _ E) as [?|[[Ha Hb]|[Ha Hb]]]; auto; exfalso.
      - rewrite map_app in Hnd. cbn in Hnd. apply NoDup_remove_2 in Hnd. apply Hnd. apply in_or_app. right. change i with (fst (i, r')). now apply in_map.
      - rewrite map_app in Hnd. cbn in Hnd. apply NoDup_remove_2 in Hnd. apply Hnd. apply in_or_app. left. change i with (fst (i, r')). now apply in_map. }
    destruct Hx as (-> & E1 & ->). injection E1 as ->. auto.
  - exfalso. apply Hn'. rewrite map_app. apply in_or_app. right. now left.
  - exfalso. apply Hn. rewrite map_app. apply in_or_app. right. now left.
  - auto.
Qed.
Lemma naive_run_det s h rs1 s1 : naive_run s h rs1 s1 -> NI s -> Forall op_ok h ->
  forall rs2 s2, naive_run s h rs2 s2 -> rs1 = rs2 /\ s1 = s2.
Proof.
  induction 1 as [s|s x rs s1 h rs' s2 Hst Hrun IH]; intros HN Hok r2 t2 H2; inversion H2; subst; [auto|].
  inversion Hok; subst. destruct (naive_step_det _ _ _ _ _ _ HN Hst H3) as [-> ->].
  destruct (IH ltac:(eapply naive_step_NI; eauto) ltac:(assumption) _ _ H6) as [-> ->]. auto.
Qed.
Lemma refinement h : valid h -> exists n l,
  (forall rs st, naive_run (0, []) h rs st <-> rs = reports_of h /\ st = (n, l)) /\
  Permutation (resting (after h)) l /\
  is_highest (bid (after h)) (filter (fun r => side_eqb (o_side (snd r)) Buy) l) /\
  is_lowest (ask (after h)) (filter (fun r => side_eqb (o_side (snd r)) Sell) l).
Proof.
  intros Hv. destruct (reach h Hv) as (n & HI & Hn & [m l] & Hrun & HR). exists m, l.
  destruct (quotes_inv _ _ HI) as [Hb Ha]. pose proof (rel_resting _ _ HR) as HP. cbn [snd] in HP. split; [|split; [assumption|]].
  - intros rs st. split.
    + intros H. destruct (naive_run_det _ _ _ _ Hrun NI0 (proj1 Hv) _ _ H) as [-> ->]. auto.
    + intros [-> ->]. exact Hrun.
  - assert (Hh : forall q a b, Permutation a b -> is_highest q a -> is_highest q b).
    { clear. intros [p|] a b HP; cbn.
      - intros [(r & Hr & E) H]. split; [exists r; split; [now rewrite <- HP|assumption]|]. intros x Hx. apply H. now rewrite HP.
      - intros ->. now apply Permutation_nil in HP. }
    assert (Hl : forall q a b, Permutation a b -> is_lowest q a -> is_lowest q b).
    { clear. intros [p|] a b HP; cbn.
      - intros [(r & Hr & E) H]. split; [exists r; split; [now rewrite <- HP|assumption]|]. intros x Hx. apply H. now rewrite HP.
      - intros ->. now apply Permutation_nil in HP. }
    split; [eapply Hh; [|exact Hb]|eapply Hl; [|exact Ha]]; unfold resting_side; now apply Permutation_filter.
Qed.
