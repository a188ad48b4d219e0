(** C78, and the guarded forms of C41 and C42: within its limits, the fixed-tick book is a book with price-time priority. *)
From Coq Require Import ZifyBool.
From Verif Require Import Base BlockPool StaticTicks StaticTicks_proofs StaticBook StaticBook_spec StaticMatch_spec StaticMatch_proofs StaticMatch_more.

(** * C78 *)
(** The levels of the code, in exact arithmetic with at least two levels a unit, translate faithfully. *)
Theorem C78_levels_faithful : forall denominator multiple lowest highest,
  0 < denominator -> 2 <= multiple -> 0 <= lowest -> lowest < highest ->
  faithful lowest highest (Z.to_nat (levels exact denominator (multiple * denominator) lowest highest))
    (StaticTicks.encode exact denominator (multiple * denominator) lowest highest)
    (StaticTicks.decode exact denominator (multiple * denominator) lowest highest).
Proof.
  intros d m lo hi Hd Hm H0 Hl. rewrite levels_spec by lia.
  assert (K : forall u, lo < u < hi -> let r := (2 * (u - lo) + (hi - lo)) / (2 * (hi - lo)) in
    0 <= r <= 1 /\ StaticTicks.encode exact d (m * d) lo hi u = m * (u - lo) + r /\ m <= m * (u - lo) <= m * (hi - lo) - m).
  { intros u Hu. cbv zeta. split; [|split].
    - split; [apply Z.div_pos; lia|]. apply Z.lt_succ_r. apply Z.div_lt_upper_bound; lia.
    - apply encode_spec; lia.
    - split; [replace m with (m * 1) at 1 by lia; apply Z.mul_le_mono_nonneg_l; lia|].
      replace (m * (hi - lo) - m) with (m * (hi - lo - 1)) by ring. apply Z.mul_le_mono_nonneg_l; lia. }
  split.
  - intros v Hv. destruct (K v Hv) as (R & E & B). cbv zeta in *. rewrite E. remember ((2 * (v - lo) + (hi - lo)) / (2 * (hi - lo))) as r.
    split; [lia|]. rewrite decode_spec by lia. replace (m * (v - lo) + r) with (r + (v - lo) * m) by ring. rewrite Z.div_add by lia. rewrite Z.div_small by lia. lia.
  - intros v w Hv Hw L. destruct (K v Hv) as (R & E & B). destruct (K w Hw) as (R' & E' & B'). cbv zeta in *. rewrite E, E'.
    assert ((2 * (v - lo) + (hi - lo)) / (2 * (hi - lo)) <= (2 * (w - lo) + (hi - lo)) / (2 * (hi - lo))) by (apply Z.div_le_mono; lia).
    assert (m * (v - lo) < m * (w - lo)) by (apply Z.mul_lt_mono_pos_l; lia).
    remember ((2 * (v - lo) + (hi - lo)) / (2 * (hi - lo))) as r. remember ((2 * (w - lo) + (hi - lo)) / (2 * (hi - lo))) as r'. lia.
Qed.
Print Assumptions C78_levels_faithful.

Section AnyBook.
Context (lowest highest lot capacity : Z) (size fuel : nat) (encode decode : Z -> Z) (default_comparable : bool).
Local Notation reached' := (reached lowest highest lot capacity size fuel encode decode default_comparable).
Local Notation allowed' := (allowed lowest highest lot capacity).
Local Notation operate' := (operate lowest highest lot encode decode default_comparable fuel).
(** Every order is answered with the reports price-time priority asks for; an order that is placed gets an identifier
    larger than all given before. *)
Theorem C78_insert : forall b o, faithful lowest highest size encode decode -> capacity <= Z.of_nat fuel ->
  reached' b -> not_exhausted capacity (b_reports b) -> allowed' (resting (b_reports b)) (Insert o) ->
  exists b' rs h, operate' b (Insert o) = Ok b' /\ b_reports b' = b_reports b ++ rs /\
    answer lowest highest o (resting (b_reports b)) h rs /\
    Forall (fun h => Forall (fun x => x < h) (placed_identifiers (b_reports b)) /\ 0 <= h < direct_order) (placed_identifiers rs).
Proof.
  intros b o HF Hf R Hn Ha. pose proof (reached_ok _ _ _ _ _ _ _ _ _ HF Hf _ R) as G.
  destruct (insert_ok _ _ _ _ _ _ _ _ HF Hf o b G Hn Ha) as (b' & rs & h & E & Rs & A & I & _). exists b', rs, h. repeat split; assumption.
Qed.
(** These reports are determined, but for the identifier. *)
Theorem C78_determined : forall b o h rs rs', faithful lowest highest size encode decode -> capacity <= Z.of_nat fuel ->
  reached' b -> answer lowest highest o (resting (b_reports b)) h rs -> answer lowest highest o (resting (b_reports b)) h rs' -> rs = rs'.
Proof.
  intros b o h rs rs' HF Hf R A A'. pose proof (reached_ok _ _ _ _ _ _ _ _ _ HF Hf _ R) as G.
  destruct (reached_ledger _ _ _ _ _ _ G) as (I & N). eapply answer_unique; eassumption.
Qed.
(** A cancellation is reported with the side, the limit, the owner and the open quantity of the order. *)
Theorem C78_cancel : forall b h, faithful lowest highest size encode decode -> capacity <= Z.of_nat fuel ->
  reached' b -> allowed' (resting (b_reports b)) (Cancel h) ->
  exists b' e, In e (resting (b_reports b)) /\ e_identifier e = h /\ operate' b (Cancel h) = Ok b' /\
    b_reports b' = b_reports b ++ [mk_report cancelled (e_buy e) (e_quantity e) h (e_limit e) (e_owner e)].
Proof.
  intros b h HF Hf R Ha. pose proof (reached_ok _ _ _ _ _ _ _ _ _ HF Hf _ R) as G.
  destruct (cancel_ok _ _ lot _ _ _ _ _ default_comparable HF Hf h b G Ha) as (b' & e & He & Eh & E & Rs & _). exists b', e. repeat split; assumption.
Qed.
(** All resting orders are listed, by limit and then by age. *)
Theorem C78_orders : forall b, faithful lowest highest size encode decode -> capacity <= Z.of_nat fuel -> reached' b ->
  exists es, orders fuel b = Ok (map e_identifier es) /\ Permutation es (resting (b_reports b)) /\
    StronglySorted (fun a c => e_limit a <= e_limit c) es /\
    forall v, filter (fun e => e_limit e =? v) es = filter (fun e => e_limit e =? v) (resting (b_reports b)).
Proof.
  intros b HF Hf R. pose proof (reached_ok _ _ _ _ _ _ _ _ _ HF Hf _ R) as G. exact (orders_ok _ _ _ _ _ _ _ HF Hf b G).
Qed.
(** Nobody can trade with anybody in the book, and the identifiers resting are different. *)
Theorem C78_not_crossed : forall b e e', faithful lowest highest size encode decode -> capacity <= Z.of_nat fuel -> reached' b ->
  In e (resting (b_reports b)) -> In e' (resting (b_reports b)) -> e_buy e = true -> e_buy e' = false -> e_limit e < e_limit e'.
Proof.
  intros b e e' HF Hf R H H' B B'. pose proof (reached_ok _ _ _ _ _ _ _ _ _ HF Hf _ R) as [[] _ _].
  rewrite Forall_forall in co_inside. destruct (co_inside e H) as (I & _). destruct (co_inside e' H') as (I' & _).
  apply (lev_lt _ _ _ _ _ HF _ _ I I'). apply co_cross; assumption.
Qed.

(** * C42, for these histories *)
Theorem C42_quotes : forall b, faithful lowest highest size encode decode -> capacity <= Z.of_nat fuel -> (0 < size)%nat -> reached' b ->
  exists v w, bid decode b = Ok v /\ best_limit true (resting (b_reports b)) v /\
              ask decode b = Ok w /\ best_limit false (resting (b_reports b)) w.
Proof.
  intros b HF Hf Hs R. pose proof (reached_ok _ _ _ _ _ _ _ _ _ HF Hf _ R) as G.
  assert (B : exists v, bid decode b = Ok v /\ best_limit true (resting (b_reports b)) v).
  { destruct (quote_bid _ _ _ _ fuel _ _ HF b _ _ G Hs) as [(e & H1 & H2 & _ & H4 & H5)|(H1 & H2)]; eexists; (split; [eassumption|]); [|exact H2].
    split; [eauto|]. intros x Hx Bx. unfold better. pose proof (H5 x Hx Bx). lia. }
  assert (A : exists v, ask decode b = Ok v /\ best_limit false (resting (b_reports b)) v).
  { destruct (quote_ask _ _ _ _ fuel _ _ HF b _ _ G Hs) as [(e & H1 & H2 & _ & H4 & H5)|(H1 & H2)]; eexists; (split; [eassumption|]); [|exact H2].
    split; [eauto|]. intros x Hx Bx. unfold better. pose proof (H5 x Hx Bx). lia. }
  destruct B as (v & B1 & B2). destruct A as (w & A1 & A2). exists v, w. auto.
Qed.

(** * C41, for orders that can be executed fully or not at all *)
Theorem C41_guarded : forall b o, faithful lowest highest size encode decode -> capacity <= Z.of_nat fuel ->
  reached' b -> not_exhausted capacity (b_reports b) -> allowed' (resting (b_reports b)) (Insert o) ->
  lowest <= o_limit o <= highest -> 0 < o_quantity o -> o_lifetime o = fill_or_kill ->
  exists b' rs, operate' b (Insert o) = Ok b' /\ b_reports b' = b_reports b ++ rs /\
    if o_quantity o <=? available o (resting (b_reports b)) then executed rs = o_quantity o /\ placed_identifiers rs = []
    else rs = [mk_report cancelled (o_buy o) (o_quantity o) direct_order (o_limit o) (o_owner o)].
Proof.
  intros b o HF Hf R Hn Ha Hl Hq Ht. pose proof (reached_ok _ _ _ _ _ _ _ _ _ HF Hf _ R) as G.
  exact (fok_ok _ _ _ _ _ _ _ _ HF Hf o b G Hn Ha Hl Hq Ht).
Qed.
End AnyBook.
Print Assumptions C78_insert.
Print Assumptions C78_determined.
Print Assumptions C78_cancel.
Print Assumptions C78_orders.
Print Assumptions C78_not_crossed.
Print Assumptions C42_quotes.
Print Assumptions C41_guarded.

(** A history that meets all of this: two buyers and two sellers, one trade across two limits, one cancellation, and an
    order to fill or kill. *)
Definition demo_reached := reached 1 11 2 8 21 20 demo_encode demo_decode false.
Example C78_example : exists b, demo_reached b /\ not_exhausted 8 (b_reports b) /\
  b_reports b = [mk_report placed true 10 0 5 1; mk_report placed true 3 1 4 2; mk_report placed true 4 2 4 3;
                 mk_report matched false 10 direct_order 5 4; mk_report matched true 10 0 5 1;
                 mk_report matched false 2 direct_order 4 4; mk_report matched true 2 1 4 2;
                 mk_report placed false 5 8 7 5; mk_report cancelled true 4 2 4 3] /\
  resting (b_reports b) = [mk_entry 1 true 4 1 2; mk_entry 8 false 7 5 5] /\
  bid demo_decode b = Ok (Some 4) /\ ask demo_decode b = Ok (Some 7) /\ orders 20 b = Ok [1; 8] /\
  allowed 1 11 2 8 (resting (b_reports b)) (Insert (mk_order 9 true 8 2 5 fill_or_kill)).
Proof.
  assert (S : forall b x, demo_reached b -> not_exhausted 8 (b_reports b) -> allowed 1 11 2 8 (resting (b_reports b)) x ->
    match operate 1 11 2 demo_encode demo_decode false 20 b x with Ok b' => demo_reached b' | _ => True end).
  { intros b x R N A. destruct (operate 1 11 2 demo_encode demo_decode false 20 b x) eqn:E; auto. eapply re_step; eauto. }
  assert (R0 : match demo_book with Ok b => demo_reached b | _ => True end).
  { destruct demo_book eqn:E; auto. apply re_new. exact E. }
  vm_compute demo_book in R0.
  Ltac next S R x tac := let R' := fresh "R" in pose proof (S _ x R) as R';
    match type of R' with ?P -> ?Q -> _ => let H1 := fresh in let H2 := fresh in
      assert (H1 : P) by (vm_compute; reflexivity); assert (H2 : Q) by tac; specialize (R' H1 H2); clear H1 H2 end;
    vm_compute operate in R'.
  next S R0 (buy 1 5 10) ltac:(vm_compute; repeat split; discriminate).
  next S R (buy 2 4 3) ltac:(vm_compute; repeat split; discriminate).
  next S R1 (buy 3 4 4) ltac:(vm_compute; repeat split; discriminate).
  next S R2 (sell 4 4 12) ltac:(vm_compute; repeat split; discriminate).
  next S R3 (sell 5 7 5) ltac:(vm_compute; repeat split; discriminate).
  next S R4 (Cancel 2) ltac:(vm_compute; do 2 eexists; split; [right; left; reflexivity|]; split; [reflexivity|]; split; [left; reflexivity|]; repeat split; discriminate).
  eexists. split; [exact R5|]. split; [vm_compute; reflexivity|]. split; [vm_compute; reflexivity|]. split; [vm_compute; reflexivity|].
  split; [vm_compute; reflexivity|]. split; [vm_compute; reflexivity|]. split; [vm_compute; reflexivity|].
  vm_compute. repeat split; try discriminate. intros _. right. discriminate.
Qed.
Example C78_demo_faithful : faithful 1 11 21 demo_encode demo_decode.
Proof. exact (C78_levels_faithful 1 2 1 11 ltac:(lia) ltac:(lia) ltac:(lia) ltac:(lia)). Qed.
