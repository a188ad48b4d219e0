(** Property-level lemmas about the order book. *)
From Verif Require Import Base Identity BinaryBook BinaryBook_spec BinaryBook_proofs.
From Coq Require Import ZifyBool ZifyNat.

Lemma zsum_nil : zsum [] = 0. Proof. reflexivity. Qed.
Lemma zsum_cons x l : zsum (x :: l) = x + zsum l. Proof. reflexivity. Qed.
Lemma qof_app a b : quantity_of (a ++ b) = quantity_of a + quantity_of b.
Proof. unfold quantity_of. now rewrite map_app, zsum_app. Qed.
Lemma qof_cons x l : quantity_of (x :: l) = o_quantity (snd x) + quantity_of l.
Proof. reflexivity. Qed.
Lemma qof_perm a b : Permutation a b -> quantity_of a = quantity_of b.
Proof. intros H. unfold quantity_of. apply zsum_perm. now apply Permutation_map. Qed.
Lemma total_app p a b : total p (a ++ b) = total p a + total p b.
Proof. unfold total. now rewrite filter_app, map_app, zsum_app. Qed.
Lemma total_cons p r l : total p (r :: l) = (if p r then rp_quantity r else 0) + total p l.
Proof. unfold total. cbn [filter]. destruct (p r); cbn [map]; rewrite ?zsum_cons; lia. Qed.
Lemma total_nil p : total p [] = 0. Proof. reflexivity. Qed.

(** *** Naive book: state invariant. *)
Definition NI (s : Z * list (Z * order)) : Prop :=
  0 <= fst s /\ Forall (fun x => 0 <= fst x < fst s /\ 0 < o_quantity (snd x)) (snd s) /\ idsorted (snd s).

Lemma naive_match_NI o rem l rs l' rem' n : naive_match o rem l rs l' rem' -> 0 <= rem ->
  Forall (fun x => 0 <= fst x < n /\ 0 < o_quantity (snd x)) l -> idsorted l ->
  Forall (fun x => 0 <= fst x < n /\ 0 < o_quantity (snd x)) l' /\ idsorted l' /\ 0 <= rem'.
Proof.
  induction 1 as [rem l H|rem l1 i r l2 rs l' rem' Hr Hb Hq Hm IH|rem l1 i r l2 Hr Hb Hq]; intros H0 Hf Hs.
  - auto.
  - apply IH; [lia| |now apply idsorted_remove in Hs].
    apply Forall_app in Hf as [Hf1 Hf2]. inversion Hf2; subst. now apply Forall_app.
  - repeat split; [|exact (idsorted_change _ _ _ _ _ Hs)|lia].
    apply Forall_app in Hf as [Hf1 Hf2]. inversion Hf2 as [|? ? Hx Hf3]; subst. apply Forall_app. split; [assumption|].
    constructor; [|assumption]. cbn in *. lia.
Qed.

Lemma naive_step_NI s x rs s' : naive_step s x rs s' -> op_ok x -> NI s -> NI s' /\ fst s <= fst s' <= fst s + 1.
Proof.
  intros H Hx (H1 & H2 & H3). inversion H as [n l o rs0 l' Hm|n l o rs0 l' rem Hm Hp|n l1 i r l2|n l i Hn]; subst; cbn [fst snd op_ok] in *.
  - destruct (naive_match_NI _ _ _ _ _ _ _ Hm ltac:(unfold u32 in Hx; lia) H2 H3) as (A & B & _). repeat split; auto; cbn; lia.
  - destruct (naive_match_NI _ _ _ _ _ _ _ Hm ltac:(unfold u32 in Hx; lia) H2 H3) as (A & B & _).
    split; [|lia]. split; [cbn; lia|]. cbn [fst snd]. split.
    + apply Forall_app. split.
      * revert A. apply Forall_impl. intros; lia.
      * constructor; [|constructor]. cbn. lia.
    + unfold idsorted. apply StronglySorted_app. repeat split; [assumption|repeat constructor|].
      intros a b Ha [<-|[]]. cbn. rewrite Forall_forall in A. specialize (A _ Ha). lia.
  - split; [|lia]. repeat split; cbn [fst snd]; auto.
    + apply Forall_app in H2 as [Hf1 Hf2]. inversion Hf2; subst. now apply Forall_app.
    + now apply idsorted_remove in H3.
  - split; [|lia]. repeat split; auto.
Qed.

(** *** Conservation on the naive book. *)
Definition here (i : Z) (l : list (Z * order)) : Z := quantity_of (filter (fun x => fst x =? i) l).
Lemma here_app i a b : here i (a ++ b) = here i a + here i b.
Proof. unfold here. now rewrite filter_app, qof_app. Qed.
Lemma here_cons i x l : here i (x :: l) = (if fst x =? i then o_quantity (snd x) else 0) + here i l.
Proof. unfold here. cbn [filter]. destruct (fst x =? i); rewrite ?qof_cons; lia. Qed.

Ltac totals := repeat first [rewrite total_app | rewrite total_cons | rewrite total_nil
  | rewrite qof_app | rewrite qof_cons | rewrite here_app | rewrite here_cons].

Lemma total_trade p o i r q : total p (trade_reports o i r q) =
  (if p (mk_report Matched (o_side o) q (W64 - 1) (o_limit r) (o_owner o)) then q else 0) +
  (if p (mk_report Matched (o_side r) q i (o_limit r) (o_owner r)) then q else 0).
Proof. unfold trade_reports. totals. cbn [rp_quantity]. destruct (p _), (p _); lia. Qed.

Lemma to_taker_taker s q l w : to_taker (mk_report Matched s q (W64 - 1) l w) = true.
Proof. unfold to_taker. cbn. now rewrite Z.eqb_refl. Qed.

Lemma naive_match_totals o rem l rs l' rem' n : n <= W64 - 1 -> naive_match o rem l rs l' rem' ->
  Forall (fun x => 0 <= fst x < n /\ 0 < o_quantity (snd x)) l -> 
  rem = total to_taker rs + rem' /\
  quantity_of l = total to_maker rs + quantity_of l' /\
  total to_taker rs = total to_maker rs /\
  total (is_state Placed) rs = 0 /\ total (is_state Cancelled) rs = 0 /\
  (forall i, i <> W64 - 1 -> here i l = total (for_id i (is_state Matched)) rs + here i l' /\
     total (for_id i (is_state Placed)) rs = 0 /\ total (for_id i (is_state Cancelled)) rs = 0).
Proof.
  intros Hn. induction 1 as [rem l H|rem l1 i r l2 rs l' rem' Hr Hb Hq Hm IH|rem l1 i r l2 Hr Hb Hq]; intros Hf.
  - totals. repeat split; try lia; intros; totals; lia.
  - apply Forall_app in Hf as [Hf1 Hf2]. inversion Hf2 as [|? ? Hx Hf3]; subst. cbn [fst snd] in Hx.
    specialize (IH ltac:(now apply Forall_app)). destruct IH as (A & B & C & D & E & F).
    totals. rewrite !total_trade. cbn [fst snd]. rewrite qof_app in B.
    assert (T1 : to_taker (mk_report Matched (o_side r) (o_quantity r) i (o_limit r) (o_owner r)) = false) by (unfold to_taker; cbn; lia).
    assert (T2 : to_maker (mk_report Matched (o_side r) (o_quantity r) i (o_limit r) (o_owner r)) = true) by (unfold to_maker; cbn; lia).
    assert (T3 : to_maker (mk_report Matched (o_side o) (o_quantity r) (W64 - 1) (o_limit r) (o_owner o)) = false) by (unfold to_maker; cbn; lia).
    rewrite to_taker_taker, T1, T2, T3. cbn [is_state rp_state].
    repeat split; try lia; intros; totals; rewrite !total_trade; cbn [fst snd].
    + destruct (F i0 H) as (F1 & _). rewrite here_app in F1. unfold for_id at 1 2. cbn.
      destruct (Z.eqb_spec (W64 - 1) i0); [lia|]. destruct (Z.eqb_spec i i0); lia.
    + destruct (F i0 H) as (_ & F1 & _). unfold for_id at 1 2. cbn. lia.
    + destruct (F i0 H) as (_ & _ & F1). unfold for_id at 1 2. cbn. lia.
  - apply Forall_app in Hf as [Hf1 Hf2]. inversion Hf2 as [|? ? Hx Hf3]; subst. cbn [fst snd] in Hx.
    totals. rewrite !total_trade. cbn [fst snd].
    assert (T1 : to_taker (mk_report Matched (o_side r) rem i (o_limit r) (o_owner r)) = false) by (unfold to_taker; cbn; lia).
    assert (T2 : to_maker (mk_report Matched (o_side r) rem i (o_limit r) (o_owner r)) = true) by (unfold to_maker; cbn; lia).
    assert (T3 : to_maker (mk_report Matched (o_side o) rem (W64 - 1) (o_limit r) (o_owner o)) = false) by (unfold to_maker; cbn; lia).
    rewrite to_taker_taker, T1, T2, T3. cbn [is_state rp_state with_quantity o_quantity].
    repeat split; try lia; intros; totals; rewrite ?total_trade; cbn [fst snd with_quantity o_quantity].
    + unfold for_id. cbn. destruct (Z.eqb_spec (W64 - 1) i0); [lia|]. destruct (Z.eqb_spec i i0); lia.
Qed.

Lemma for_id_placed i s q j l w : for_id i (is_state Placed) (mk_report Placed s q j l w) = (j =? i).
Proof. reflexivity. Qed.

(** One step of the naive book. *)
Lemma naive_step_totals s x rs s' : naive_step s x rs s' -> op_ok x -> NI s -> fst s <= W64 - 1 ->
  match x with Insert o => o_quantity o | Cancel _ => 0 end + quantity_of (snd s) =
    total (is_state Matched) rs + total (is_state Cancelled) rs + quantity_of (snd s') /\
  match x with Insert o => o_quantity o | Cancel _ => 0 end = total to_taker rs + total (is_state Placed) rs /\
  total to_taker rs = total to_maker rs /\
  (forall i, i <> W64 - 1 -> here i (snd s) + total (for_id i (is_state Placed)) rs =
     total (for_id i (is_state Matched)) rs + total (for_id i (is_state Cancelled)) rs + here i (snd s')).
Proof.
  intros H Hx (H1 & H2 & H3) Hn.
  assert (HM : forall rs, total (is_state Matched) rs = total to_taker rs + total to_maker rs).
  { clear. intros rs. induction rs as [|r rs IH]; totals; [reflexivity|]. rewrite IH. unfold to_taker, to_maker.
    destruct (is_state Matched r), (rp_id r =? W64 - 1); cbn; lia. }
  inversion H as [n l o rs0 l' Hm|n l o rs0 l' rem Hm Hp|n l1 i r l2|n l i Hni]; subst; cbn [fst snd op_ok] in *.
  - destruct (naive_match_totals _ _ _ _ _ _ _ Hn Hm H2) as (A & B & C & D & E & F). rewrite HM.
    split; [lia|split; [lia|split; [lia|]]]. intros i Hi. destruct (F i Hi) as (F1 & F2 & F3). lia.
  - destruct (naive_match_totals _ _ _ _ _ _ _ Hn Hm H2) as (A & B & C & D & E & F). rewrite HM.
    totals. cbn. split; [lia|split; [lia|split; [lia|]]].
    intros i Hi. destruct (F i Hi) as (F1 & F2 & F3). totals. unfold for_id at 2 4 6. cbn.
    destruct (n =? i); lia.
  - totals. unfold to_taker, to_maker. cbn [is_state rp_state rp_quantity snd andb fst]. split; [lia|split; [lia|split; [lia|]]]. intros j Hj. totals. unfold for_id.
    cbn [is_state rp_state rp_quantity rp_id snd andb fst]. destruct (i =? j); lia.
  - totals. split; [lia|split; [lia|split; [lia|]]]. intros; totals; lia.
Qed.

Lemma naive_run_totals s h rs s' : naive_run s h rs s' -> Forall op_ok h -> NI s ->
  fst s + Z.of_nat (length h) <= W64 - 1 ->
  inserted h + quantity_of (snd s) = total (is_state Matched) rs + total (is_state Cancelled) rs + quantity_of (snd s') /\
  inserted h = total to_taker rs + total (is_state Placed) rs /\
  total to_taker rs = total to_maker rs /\
  (forall i, i <> W64 - 1 -> here i (snd s) + total (for_id i (is_state Placed)) rs =
     total (for_id i (is_state Matched)) rs + total (for_id i (is_state Cancelled)) rs + here i (snd s')).
Proof.
  induction 1 as [s|s x rs s1 h rs' s2 Hst Hrun IH]; intros Hok HN Hlen.
  - totals. cbn. split; [lia|split; [lia|split; [lia|]]]. intros; totals; lia.
  - inversion Hok as [|? ? Hx Hok']; subst. cbn [length] in Hlen.
    destruct (naive_step_totals _ _ _ _ Hst Hx HN ltac:(lia)) as (A & B & C & D).
    destruct (naive_step_NI _ _ _ _ Hst Hx HN) as [HN1 Hb].
    destruct (IH Hok' HN1 ltac:(lia)) as (A' & B' & C' & D'). totals.
    unfold inserted in *. cbn [map]. rewrite zsum_cons. split; [lia|split; [lia|split; [lia|]]].
    intros i Hi. totals. specialize (D i Hi). specialize (D' i Hi). lia.
Qed.

Lemma NI0 : NI (0, []).
Proof. split; [cbn; lia|]. split; constructor. Qed.

Lemma rel_resting b st : Rel b st -> Permutation (resting b) (snd st).
Proof. intros (_ & H & _). exact H. Qed.

Lemma here_perm i a b : Permutation a b -> here i a = here i b.
Proof. intros H. unfold here. apply qof_perm. now apply Permutation_filter. Qed.

Lemma conservation_history h : valid h ->
  inserted h = total (is_state Matched) (reports_of h) + total (is_state Cancelled) (reports_of h)
               + quantity_of (resting (after h)) /\
  total to_taker (reports_of h) = total to_maker (reports_of h) /\
  (forall i, 0 <= i < W64 - 1 -> total (for_id i (is_state Placed)) (reports_of h) =
     total (for_id i (is_state Matched)) (reports_of h) + total (for_id i (is_state Cancelled)) (reports_of h)
     + resting_quantity i (after h)).
Proof.
  intros Hv. destruct (reach h Hv) as (n & HI & Hn & st & Hrun & HR). destruct Hv as [Hv1 Hv2].
  destruct (naive_run_totals _ _ _ _ Hrun Hv1 NI0 ltac:(cbn; lia)) as (A & B & C & D).
  pose proof (rel_resting _ _ HR) as HP. rewrite (qof_perm _ _ HP).
  split; [|split]; [change (quantity_of (snd (0, []))) with 0 in A; lia|assumption|].
  intros i Hi. specialize (D i ltac:(lia)). unfold resting_quantity.
  fold (here i (resting (after h))). rewrite (here_perm i _ _ HP).
  change (here i (snd (0, []))) with 0 in D. lia.
Qed.

(** *** The book after one more operation. *)
Lemma valid_app h x : valid (h ++ [x]) -> valid h /\ op_ok x /\ Z.of_nat (length h) + 1 < W64 - 1.
Proof.
  unfold valid. rewrite Forall_app, app_length. cbn [length]. intros [[H1 H2] H3]. inversion H2; subst.
  repeat split; auto; lia.
Qed.
Lemma after_app h x : after (h ++ [x]) = fst (step (after h) x).
Proof.
  unfold after. rewrite run_app. destruct (run empty_book h) as [b1 r1]. cbn. destruct (step b1 x). reflexivity.
Qed.
Lemma reports_app h x : reports_of (h ++ [x]) = reports_of h ++ snd (step (after h) x).
Proof.
  unfold after, reports_of. rewrite run_app. destruct (run empty_book h) as [b1 r1]. cbn. destruct (step b1 x). cbn.
  now rewrite app_nil_r.
Qed.

Lemma reach_insert h o : valid (h ++ [Insert o]) ->
  exists n st st', Inv n (after h) /\ 0 <= n < W64 - 1 /\ Rel (after h) st /\ NI st /\ u32 (o_quantity o) /\
    naive_step st (Insert o) (snd (insert (after h) o)) st' /\ Rel (fst (insert (after h) o)) st' /\ NI st'.
Proof.
  intros Hv. apply valid_app in Hv as (Hv & Hx & Hl). destruct (reach h Hv) as (n & HI & Hn & st & Hrun & HR).
  destruct (insert_refines n _ o st HI Hx ltac:(lia) HR) as (st' & Hst & HR').
  exists n, st, st'. assert (NI st).
  { clear - Hrun Hv. destruct Hv as [Hv _]. assert (H0 := NI0). revert H0 Hv. induction Hrun; intros; [assumption|].
    inversion Hv; subst. apply IHHrun; auto. eapply naive_step_NI; eauto. }
  repeat match goal with |- _ /\ _ => split end; auto; try lia.
  eapply naive_step_NI; eauto.
Qed.

Lemma conservation_order h o : valid (h ++ [Insert o]) ->
  let rs := snd (insert (after h) o) in
  o_quantity o = total to_taker rs + total (is_state Placed) rs /\
  total (is_state Cancelled) rs = 0.
Proof.
  intros Hv rs. destruct (reach_insert h o Hv) as (n & st & st' & HI & Hn & HR & HN & Hq & Hst & HR' & _).
  assert (Hf : fst st <= W64 - 1). { destruct HR as (E & _). destruct HI as [E' _ _ _ _ _ _ _ _]. lia. }
  destruct (naive_step_totals _ _ _ _ Hst Hq HN Hf) as (A & B & C & D).
  split; [exact B|]. unfold rs.
  inversion Hst as [n0 l o0 rs0 l' Hm|n0 l o0 rs0 l' rem Hm Hp| |]; subst; destruct HN as (_ & HN & _); cbn [fst snd] in *;
    destruct (naive_match_totals _ _ _ _ _ _ _ Hf Hm HN) as (_ & _ & _ & _ & E & _); totals; cbn; lia.
Qed.

Lemma maker_drop h o i : valid (h ++ [Insert o]) -> 0 <= i < W64 - 1 ->
  let rs := snd (insert (after h) o) in
  resting_quantity i (fst (insert (after h) o)) =
  resting_quantity i (after h) - total (for_id i (is_state Matched)) rs + total (for_id i (is_state Placed)) rs.
Proof.
  intros Hv Hi rs. destruct (reach_insert h o Hv) as (n & st & st' & HI & Hn & HR & HN & Hq & Hst & HR' & _).
  assert (Hf : fst st <= W64 - 1). { destruct HR as (E & _). destruct HI as [E' _ _ _ _ _ _ _ _]. lia. }
  destruct (naive_step_totals _ _ _ _ Hst Hq HN Hf) as (A & B & C & D).
  specialize (D i ltac:(lia)). fold rs in D.
  unfold resting_quantity. fold (here i (resting (after h))). fold (here i (resting (fst (insert (after h) o)))).
  rewrite (here_perm i _ _ (rel_resting _ _ HR)), (here_perm i _ _ (rel_resting _ _ HR')).
  assert (total (for_id i (is_state Cancelled)) rs = 0).
  { unfold rs. inversion Hst as [n0 l o0 rs0 l' Hm|n0 l o0 rs0 l' rem Hm Hp| |]; subst; destruct HN as (_ & HN & _); cbn [fst snd] in *;
    destruct (naive_match_totals _ _ _ _ _ _ _ Hf Hm HN) as (_ & _ & _ & _ & _ & E);
    destruct (E i ltac:(lia)) as (_ & _ & E3); totals; cbn; lia. }
  lia.
Qed.

(** *** Trades of one insertion. *)

Lemma insert_trades h o : valid (h ++ [Insert o]) ->
  exists ts rem, snd (insert (after h) o) = flat_map (reports_of_trade o) ts ++ placement_of (after h) o rem /\
    0 <= rem /\
    Forall (fun t => let '(i, m, q) := t in In (i, m) (resting (after h)) /\ can_trade o m /\ 0 < q <= o_quantity m) ts.
Proof.
  intros Hv. destruct (reach_insert h o Hv) as (n & st & st' & HI & Hn & HR & HN & Hq & _).
  assert (Hq0 : 0 <= o_quantity o) by (unfold u32 in Hq; lia).
  rewrite insert_eq. rewrite (Inv_generic (o_side o)) in HI. destruct HI as (_ & _ & _ & H4 & _).
  destruct (match_loop _ o (o_quantity o) _) as [[[L' rs] ids] rem] eqn:EM.
  destruct (match_loop_spec _ _ _ _ _ _ _ _ Hq0 (pos_side _ _ _ H4) EM) as (full & tl & EL & Hf & -> & HH).
  assert (HF : Forall (fun t : trade => let '(i, m, q) := t in In (i, m) (resting (after h)) /\ can_trade o m /\ 0 < q <= o_quantity m)
    (map (fun e => (e_ident e, e_order e, e_qty e)) full)).
  { rewrite Forall_map. rewrite Forall_forall in *. intros e He.
    assert (Hin : In e (opp_list (after h) (o_side o))) by (rewrite EL; apply in_or_app; now left).
    pose proof (sd_in _ _ _ _ H4 Hin) as Hok. split; [|split].
    - rewrite (resting_generic (o_side o)). apply in_or_app. left. apply in_map_iff. now exists e.
    - apply (eok_can_trade o n); auto.
    - destruct Hok as (_ & _ & ? & _). unfold e_qty in *. lia. }
  assert (HR2 : flat_map (fun e => match_reports o e (e_qty e)) full = flat_map (reports_of_trade o) (map (fun e => (e_ident e, e_order e, e_qty e)) full)).
  { clear. induction full as [|e full IH]; cbn; [reflexivity|]. now rewrite IH. }
  destruct HH as [(_ & _ & Hr & Hrs & _)|(x & tl' & -> & Hx & -> & H0 & _ & Hrs)]; rewrite HR2 in Hrs; subst rs.
  - exists (map (fun e => (e_ident e, e_order e, e_qty e)) full), rem. unfold placement_of.
    split; [destruct (rem >? 0); cbn [snd]; now rewrite ?app_nil_r|]. split; assumption.
  - exists (map (fun e => (e_ident e, e_order e, e_qty e)) full ++ [(e_ident x, e_order x, o_quantity o - total_qty full)]), 0.
    split; [|split; [lia|]].
    + unfold placement_of. cbn [Z.gtb snd]. rewrite flat_map_app. cbn [flat_map reports_of_trade].
      rewrite !app_nil_r. reflexivity.
    + apply Forall_app. split; [assumption|]. constructor; [|constructor].
      assert (Hin : In x (opp_list (after h) (o_side o))) by (rewrite EL; apply in_elt).
      pose proof (sd_in _ _ _ _ H4 Hin) as Hok. split; [|split].
      * rewrite (resting_generic (o_side o)). apply in_or_app. left. apply in_map_iff. now exists x.
      * apply (eok_can_trade o n); auto.
      * unfold e_qty in *. lia.
Qed.

Lemma trade_prices h o : valid (h ++ [Insert o]) -> forall r, In r (snd (insert (after h) o)) ->
  rp_state r = Matched ->
  (match o_side o with Buy => rp_limit r <= o_limit o | Sell => o_limit o <= rp_limit r end) /\
  exists i m, In (i, m) (resting (after h)) /\ rp_limit r = o_limit m /\
    ((rp_id r = i /\ rp_owner r = o_owner m /\ rp_side r = opposite (o_side o)) \/
     (rp_id r = W64 - 1 /\ rp_owner r = o_owner o /\ rp_side r = o_side o)).
Proof.
  intros Hv r Hin Hs. destruct (insert_trades h o Hv) as (ts & rem & E & _ & HF). rewrite E in Hin.
  apply in_app_or in Hin as [Hin|Hin].
  2:{ unfold placement_of in Hin. destruct (rem >? 0); [|contradiction]. destruct Hin as [<-|[]]. discriminate. }
  apply in_flat_map in Hin as ([[i m] q] & Ht & Hr). rewrite Forall_forall in HF. destruct (HF _ Ht) as (Ha & Hb & Hc).
  unfold can_trade in Hb. destruct Hr as [<-|[<-|[]]]; cbn; (split; [destruct (o_side o), (o_side m); lia|]); exists i, m; (split; [assumption|]); (split; [reflexivity|]); [right; auto|left].
  repeat split. destruct (o_side o), (o_side m); cbn; tauto.
Qed.

(** *** Price-time priority. *)
Lemma resting_side_spec s n b : Inv n b -> resting_side s b = map ab (own_list b s).
Proof.
  intros HI. unfold resting_side. rewrite resting_ab, map_app, filter_app.
  assert (H : forall s' l, sd s' n l -> filter (fun r => side_eqb (o_side (snd r)) s) (map ab l) = if side_eqb s' s then map ab l else []).
  { intros s' l [Hok _]. clear - Hok. induction l as [|e l IH]; cbn; [now destruct (side_eqb s' s)|].
    inversion Hok as [|? ? (_ & Hs & _) Hok']; subst. cbn. rewrite (IH Hok'). destruct (side_eqb (o_side (e_order e)) s); reflexivity. }
  rewrite (H _ _ (inv_bids _ _ HI)), (H _ _ (inv_asks _ _ HI)). destruct s; cbn; now rewrite ?app_nil_r.
Qed.
Lemma own_opposite b s : own_list b (opposite s) = opp_list b s.
Proof. now destruct s. Qed.

Lemma for_id_none i p rs : (forall r, In r rs -> p r = true -> rp_id r <> i) -> total (for_id i p) rs = 0.
Proof.
  induction rs as [|r rs IH]; intros H; totals; [reflexivity|]. rewrite IH by (intros; apply H; auto; now right).
  unfold for_id. destruct (p r) eqn:E; cbn; [|lia]. specialize (H r (or_introl eq_refl) E). destruct (Z.eqb_spec (rp_id r) i); lia.
Qed.

Lemma makers_flat o l : Forall (fun x => 0 <= fst x < W64 - 1) l ->
  map rp_id (filter to_maker (flat_map (fun x => trade_reports o (fst x) (snd x) (o_quantity (snd x))) l)) = map fst l.
Proof.
  induction 1 as [|x l Hx _ IH]; cbn [flat_map]; [reflexivity|]. rewrite filter_app, map_app, IH.
  unfold trade_reports. cbn [filter]. unfold to_maker. cbn.
  rewrite Z.eqb_refl. cbn. destruct (Z.eqb_spec (fst x) (W64 - 1)); [lia|]. reflexivity.
Qed.

Lemma total_flat o l i : 0 <= i < W64 - 1 -> NoDup (map fst l) ->
  total (for_id i to_maker) (flat_map (fun x => trade_reports o (fst x) (snd x) (o_quantity (snd x))) l) = here i l.
Proof.
  intros Hi. induction l as [|x l IH]; cbn [flat_map map]; intros Hnd; [reflexivity|]. inversion Hnd; subst.
  rewrite total_app, total_trade, here_cons, IH by assumption. unfold for_id, to_maker. cbn.
  rewrite Z.eqb_refl. cbn. destruct (Z.eqb_spec (fst x) (W64 - 1)); destruct (Z.eqb_spec (fst x) i); cbn; lia.
Qed.

Lemma here_in i r l : NoDup (map fst l) -> In (i, r) l -> here i l = o_quantity r.
Proof.
  induction l as [|x l IH]; cbn [map]; [contradiction|]. intros Hnd [->|H]; inversion Hnd; subst; rewrite here_cons.
  - cbn. rewrite Z.eqb_refl. enough (here i l = 0) by lia. clear - H1. induction l as [|y l IH]; [reflexivity|].
    rewrite here_cons, IH by (cbn in *; tauto). destruct (Z.eqb_spec (fst y) i); [cbn in *; tauto|lia].
  - rewrite IH by assumption. destruct (Z.eqb_spec (fst x) i); [|lia].
    exfalso. apply H2. rewrite e. apply in_map_iff. now exists (i, r).
Qed.
Lemma here_notin i l : ~ In i (map fst l) -> here i l = 0.
Proof.
  intros H1. induction l as [|y l IH]; [reflexivity|].
  rewrite here_cons, IH by (cbn in *; tauto). destruct (Z.eqb_spec (fst y) i); [cbn in *; tauto|lia].
Qed.

Lemma flat_ab o l : flat_map (fun e => match_reports o e (e_qty e)) l =
  flat_map (fun x => trade_reports o (fst x) (snd x) (o_quantity (snd x))) (map ab l).
Proof. induction l as [|e l IH]; cbn; [reflexivity|]. now rewrite IH. Qed.

Lemma total_placed_flat o l : total (is_state Placed) (flat_map (fun x => trade_reports o (fst x) (snd x) (o_quantity (snd x))) l) = 0.
Proof. induction l as [|x l IH]; cbn [flat_map]; [reflexivity|]. rewrite total_app, IH. reflexivity. Qed.

Lemma resting_ids_nodup n b : Inv n b -> NoDup (map fst (resting b)).
Proof. intros HI. rewrite resting_ab, map_map. exact (inv_ids _ _ HI). Qed.

Lemma price_time_priority h o : valid (h ++ [Insert o]) ->
  let b := after h in let rs := snd (insert b o) in let b' := fst (insert b o) in
  exists full part untouched,
    Permutation (full ++ part ++ untouched) (resting_side (opposite (o_side o)) b) /\
    StronglySorted (priority (o_side o)) (full ++ part ++ untouched) /\
    (length part <= 1)%nat /\
    map rp_id (filter to_maker rs) = map fst (full ++ part) /\
    (forall x, In x full -> total (for_id (fst x) to_maker) rs = o_quantity (snd x) /\ ~ In (fst x) (map fst (resting b'))) /\
    (forall x, In x part -> 0 < total (for_id (fst x) to_maker) rs < o_quantity (snd x) /\ total (is_state Placed) rs = 0) /\
    (forall x, In x untouched -> In x (resting b') /\ (can_trade o (snd x) -> total (is_state Placed) rs = 0)).
Proof.
  intros Hv b rs b'. destruct (reach_insert h o Hv) as (n & st & st' & HI & Hn & HR & HN & Hq & _ & HR' & HN').
  fold b in HI, HR, HR'. fold b' in HR'.
  assert (Hq0 : 0 <= o_quantity o) by (unfold u32 in Hq; lia).
  destruct (insert_inv n b o HI Hq0 ltac:(lia)) as [HI' Hn']. fold b' in HI', Hn'.
  pose proof (resting_ids_nodup _ _ HI) as Hnd. pose proof (resting_ids_nodup _ _ HI') as Hnd'.
  rewrite (resting_side_spec _ _ _ HI), own_opposite.
  pose proof HI as HI0. rewrite (Inv_generic (o_side o)) in HI. destruct HI as (E1 & _ & H3 & H4 & H5 & _).
  unfold rs, b' in *. rewrite insert_eq in *. clear rs.
  destruct (match_loop _ o (o_quantity o) _) as [[[L' rs] ids] rem] eqn:EM.
  destruct (match_loop_spec _ _ _ _ _ _ _ _ Hq0 (pos_side _ _ _ H4) EM) as (full & tl & EL & Hf & -> & HH).
  pose proof (proj2 H4) as Hsorted. rewrite opposite_inv, EL, map_app in Hsorted.
  assert (Hidr : forall x, In x (opp_list b (o_side o)) -> 0 <= e_ident x < W64 - 1).
  { intros x Hx. pose proof (sd_in _ _ _ _ H4 Hx) as (_ & _ & _ & ?). lia. }
  assert (Hfr : Forall (fun x => 0 <= fst x < W64 - 1) (map ab full)).
  { rewrite Forall_map, Forall_forall. intros e He. apply Hidr. rewrite EL. apply in_or_app. now left. }
  assert (HndL : NoDup (map fst (map ab full ++ map ab tl))).
  { rewrite <- map_app, map_map. rewrite map_app in H5. apply NoDup_app_l in H5. now rewrite EL in H5. }
  assert (HndF : NoDup (map fst (map ab full))) by (rewrite map_app in HndL; now apply NoDup_app_l in HndL).
  assert (Hgone : forall b2, Permutation (resting b2) (map ab L' ++ map ab (own_list b (o_side o))) \/
                   Permutation (resting b2) ((b_next b, with_quantity o rem) :: map ab L' ++ map ab (own_list b (o_side o))) ->
                   map e_ident L' = map e_ident tl ->
                   forall x, In x (map ab full) -> ~ In (fst x) (map fst (resting b2))).
  { intros b2 HP Htl x Hx Hc.
    assert (Hc2 : fst x = b_next b \/ In (fst x) (map e_ident tl) \/ In (fst x) (map e_ident (own_list b (o_side o)))).
    { assert (Hm : forall l, map (fun x => fst (ab x)) l = map e_ident l) by reflexivity.
      destruct HP as [HP|HP]; rewrite HP in Hc; cbn [map] in Hc; rewrite map_app, !map_map, !Hm, Htl in Hc;
      [rewrite in_app_iff in Hc; tauto|destruct Hc as [Hc|Hc]; [left; now symmetry|rewrite in_app_iff in Hc; tauto]]. }
    apply in_map_iff in Hx as (e & <- & He). cbn [fst ab] in *.
    assert (HinL : In e (opp_list b (o_side o))) by (rewrite EL; apply in_or_app; now left).
    destruct Hc2 as [Hc2|[Hc2|Hc2]].
    - pose proof (sd_in _ _ _ _ H4 HinL) as (_ & _ & _ & ?). lia.
    - rewrite map_app, !map_map in HndL. eapply NoDup_app_disj; [exact HndL| |exact Hc2]. now apply (in_map e_ident).
    - rewrite map_app in H5. eapply NoDup_app_disj; [exact H5| |exact Hc2]. now apply in_map. }
  assert (HP0 : Permutation (resting (rebuild (o_side o) (b_next b) (erase_all (map e_ident full) (b_index b)) (own_list b (o_side o)) L'))
                  (map ab L' ++ map ab (own_list b (o_side o)))).
  { rewrite (resting_generic (o_side o)), own_rebuild, opp_rebuild. reflexivity. }
  assert (HP1 : Permutation (resting (rebuild (o_side o) (w64 (b_next b + 1))
                   (map_emplace (b_next b) (o_limit o) (erase_all (map e_ident full) (b_index b)))
                   (mm_emplace (cmp (o_side o)) (placed_entry b o rem) (own_list b (o_side o))) L'))
                  ((b_next b, with_quantity o rem) :: map ab L' ++ map ab (own_list b (o_side o)))).
  { rewrite (resting_generic (o_side o)), own_rebuild, opp_rebuild. rewrite (Permutation_map ab (mm_emplace_perm _ _ _)).
    cbn [map]. rewrite <- Permutation_middle. reflexivity. }
  destruct HH as [(HL' & Hrem & Hr & Hrs & Hstop)|(x & tl' & Etl & Hx & Hrem & H0 & HL' & Hrs)].
  - subst L'. exists (map ab full), [], (map ab tl). cbn [app].
    split; [now rewrite EL, map_app|]. split; [assumption|]. split; [cbn; lia|]. rewrite app_nil_r.
    assert (Htot : forall x, In x (map ab full) -> total (for_id (fst x) to_maker) rs = o_quantity (snd x)).
    { intros x Hx. rewrite Hrs, flat_ab, total_flat by (try assumption; rewrite Forall_forall in Hfr; apply Hfr, Hx).
      apply here_in; [assumption|]. now destruct x. }
    destruct (Z.gtb_spec rem 0) as [Hg|Hg]; cbn [fst snd].
    + rewrite filter_app, map_app. cbn. rewrite app_nil_r. rewrite Hrs at 1. rewrite flat_ab, makers_flat by assumption.
      split; [reflexivity|]. split; [|split; [contradiction|]].
      * intros x Hx. split; [|apply (Hgone _ (or_intror HP1) eq_refl x Hx)].
        rewrite total_app, Htot by assumption. totals. cbn. lia.
      * intros x Hx. split; [rewrite HP1; right; apply in_or_app; now left|]. intros Hc. exfalso.
        apply in_map_iff in Hx as (e & <- & He).
        assert (Hbt : better (o_side o) (o_limit o) (e_key e)) by (eapply leftover_uncrossed; [exact Hq0|exact H4|exact EM|lia|exact He]).
        assert (HinL : In e (opp_list b (o_side o))) by (rewrite EL; apply in_or_app; now right).
        apply crossb_false in Hbt. apply (eok_can_trade o n) in Hc; [|exact (sd_in _ _ _ _ H4 HinL)]. congruence.
    + rewrite Hrs at 1. rewrite flat_ab, makers_flat by assumption. split; [reflexivity|].
      split; [|split; [contradiction|]].
      * intros x Hx. split; [now apply Htot|]. apply (Hgone _ (or_introl HP0) eq_refl x Hx).
      * intros x Hx. split; [rewrite HP0; apply in_or_app; now left|]. intros _. rewrite Hrs, flat_ab. apply total_placed_flat.
  - subst rem. exists (map ab full), [ab x], (map ab tl'). change (0 >? 0) with false in *. cbn [fst snd] in *.
    assert (HxL : In x (opp_list b (o_side o))) by (rewrite EL, Etl; apply in_elt).
    assert (HndX : ~ In (e_ident x) (map fst (map ab full))).
    { rewrite Etl in HndL. cbn [map] in HndL. rewrite map_app in HndL. cbn [map] in HndL. apply NoDup_remove_2 in HndL.
      intros Hc. apply HndL. apply in_or_app. now left. }
    specialize (Hidr _ HxL).
    split; [now rewrite EL, Etl, map_app|]. split; [now rewrite Etl in Hsorted|]. split; [cbn; lia|].
    assert (Hmk : forall i, 0 <= i < W64 - 1 -> total (for_id i to_maker) rs = here i (map ab full) + (if e_ident x =? i then o_quantity o - total_qty full else 0)).
    { intros i Hi. rewrite Hrs, total_app, flat_ab, total_flat by assumption. f_equal. rewrite match_reports_eq, total_trade.
      unfold for_id, to_maker. cbn. rewrite Z.eqb_refl. cbn. destruct (Z.eqb_spec (e_ident x) (W64 - 1)); destruct (Z.eqb_spec (e_ident x) i); cbn; lia. }
    assert (Hpl : total (is_state Placed) rs = 0).
    { rewrite Hrs, total_app, flat_ab, total_placed_flat. reflexivity. }
    split; [|split; [|split]].
    + rewrite Hrs at 1. rewrite filter_app, !map_app, flat_ab, makers_flat by assumption. f_equal.
      unfold match_reports. cbn. unfold to_maker. cbn. change direct_order with (W64 - 1). rewrite Z.eqb_refl. cbn.
      destruct (Z.eqb_spec (e_ident x) (W64 - 1)); [lia|]. reflexivity.
    + intros y Hy. split.
      * rewrite Hmk by (rewrite Forall_forall in Hfr; apply Hfr, Hy).
        destruct (Z.eqb_spec (e_ident x) (fst y)) as [E|_]; [exfalso; apply HndX; rewrite E; now apply in_map|].
        rewrite (here_in (fst y) (snd y)); [lia|assumption|now destruct y].
      * apply (Hgone _ (or_introl HP0)); [|assumption]. rewrite HL', Etl. reflexivity.
    + intros y [<-|[]]. cbn [ab fst snd]. rewrite Hmk by assumption. rewrite Z.eqb_refl, here_notin by assumption.
      unfold e_qty in *. lia.
    + intros y Hy. split; [|auto]. rewrite HP0. apply in_or_app. left. rewrite HL'. now right.
Qed.
