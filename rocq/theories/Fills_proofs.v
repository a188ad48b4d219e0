From Verif Require Import Base Quantity_proofs Identity Identity_proofs IdMap IdMap_proofs BinaryBook BinaryBook_spec.
From Verif Require Import Communicator Simulation Simulation_spec FirstCome Fills_spec.
From Coq Require Import ZifyBool ZifyNat.

(** *** One book. *)
Section Book.
Context (P : side -> identity -> bool).
Definition concerns (o : order) : bool := P (o_side o) (o_owner o).
Definition sum_of (st : state) (rs : list report) : Z := total (fun r => is_state st r && P (rp_side r) (rp_owner r)) rs.
Definition held (l : list entry) : Z := zsum (map e_qty (filter (fun e => concerns (e_order e)) l)).
Definition on_side (s : side) (e : entry) : Prop := o_side (e_order e) = s /\ 0 < e_qty e.
Definition orderly (b : book) : Prop := Forall (on_side Buy) (b_bids b) /\ Forall (on_side Sell) (b_asks b).
Definition weigh (f : report -> Z) (s : side) (rs : list report) : Z := zsum (map f (filter (fun r => is_state Matched r && side_eqb (rp_side r) s) rs)).
Lemma sum_of_app st r1 r2 : sum_of st (r1 ++ r2) = sum_of st r1 + sum_of st r2.
Proof. unfold sum_of, total. now rewrite filter_app, map_app, zsum_app. Qed.
Lemma weigh_app f s r1 r2 : weigh f s (r1 ++ r2) = weigh f s r1 + weigh f s r2.
Proof. unfold weigh. now rewrite filter_app, map_app, zsum_app. Qed.
Definition by_trade (f : report -> Z) : Prop := forall r1 r2, rp_quantity r1 = rp_quantity r2 -> rp_limit r1 = rp_limit r2 -> f r1 = f r2.
Lemma match_loop_sums crosses o f : by_trade f -> forall l rem, 0 <= rem -> Forall (on_side (opposite (o_side o))) l ->
  let '(l', rs, ids, rem') := match_loop crosses o rem l in
  Forall (on_side (opposite (o_side o))) l' /\ 0 <= rem' <= rem /\
  sum_of Matched rs + held l' = held l + (if concerns o then rem - rem' else 0) /\ sum_of Cancelled rs = 0 /\ weigh f Buy rs = weigh f Sell rs.
Proof.
  intros Hf. induction l as [|e l IH]; intros rem Hr F; cbn [match_loop].
  - split; [constructor|]. split; [lia|]. split; [cbn; destruct (concerns o); lia|split; reflexivity].
  - apply Forall_cons_iff in F. destruct F as [[Fs Fq] F]. destruct (crosses (e_key e)); [|split; [constructor; [split|]; assumption|split; [lia|split; [cbn; destruct (concerns o); lia|split; reflexivity]]]].
    destruct (Z.min rem (e_qty e) =? 0) eqn:E0; [split; [constructor; [split|]; assumption|split; [lia|split; [cbn; destruct (concerns o); lia|split; reflexivity]]]|].
    specialize (IH (rem - Z.min rem (e_qty e)) ltac:(lia) F). destruct (match_loop crosses o (rem - Z.min rem (e_qty e)) l) as [[[l' rs] ids] rem'].
    destruct IH as (I1 & I2 & I3 & I4 & I5).
    assert (Q : sum_of Matched (match_reports o e (Z.min rem (e_qty e))) = (if concerns o then Z.min rem (e_qty e) else 0) + (if concerns (e_order e) then Z.min rem (e_qty e) else 0)).
    { unfold sum_of, total, match_reports. cbn. unfold concerns. destruct (P (o_side o) (o_owner o)), (P (o_side (e_order e)) (o_owner (e_order e))); cbn; lia. }
    assert (C0 : sum_of Cancelled (match_reports o e (Z.min rem (e_qty e))) = 0) by reflexivity.
    assert (W : weigh f Buy (match_reports o e (Z.min rem (e_qty e))) = weigh f Sell (match_reports o e (Z.min rem (e_qty e)))).
    { unfold weigh, match_reports. rewrite Fs. destruct (o_side o); cbn; f_equal; apply Hf; reflexivity. }
    destruct (e_qty e - Z.min rem (e_qty e) =? 0) eqn:El.
    + split; [exact I1|]. split; [lia|]. rewrite !sum_of_app, !weigh_app, Q, C0, I4, W, I5. split; [|split; reflexivity].
      unfold held, zsum in *. cbn [filter]. destruct (concerns (e_order e)); cbn [map fold_right]; destruct (concerns o); lia.
    + split; [constructor; [split; [exact Fs|unfold e_qty in *; cbn; lia]|exact I1]|]. split; [lia|]. rewrite !sum_of_app, !weigh_app, Q, C0, I4, W, I5. split; [|split; reflexivity].
      unfold held, zsum in *. cbn [filter]. change (concerns (e_order (entry_with_quantity e (e_qty e - Z.min rem (e_qty e))))) with (concerns (e_order e)).
      destruct (concerns (e_order e)); cbn [map fold_right]; change (e_qty (entry_with_quantity e (e_qty e - Z.min rem (e_qty e)))) with (e_qty e - Z.min rem (e_qty e)); destruct (concerns o); lia.
Qed.
Lemma emplace_sums before x l s : on_side s x -> Forall (on_side s) l -> Forall (on_side s) (mm_emplace before x l) /\ held (mm_emplace before x l) = held l + (if concerns (e_order x) then e_qty x else 0).
Proof.
  intros Hx. induction l as [|y l IH]; intros F; cbn [mm_emplace].
  - split; [now constructor|]. unfold held, zsum. cbn [filter]. destruct (concerns (e_order x)); cbn; lia.
  - apply Forall_cons_iff in F. destruct F as [Fy F]. destruct (IH F) as [I1 I2]. destruct (before (e_key x) (e_key y)).
    + split; [constructor; [exact Hx|constructor; assumption]|]. unfold held, zsum. cbn [filter]. destruct (concerns (e_order x)), (concerns (e_order y)); cbn; lia.
    + split; [constructor; assumption|]. unfold held, zsum in *. cbn [filter]. destruct (concerns (e_order y)); cbn in *; lia.
Qed.
Lemma remove_sums key ident l s : Forall (on_side s) l -> forall e l', remove_entry key ident l = Some (e, l') ->
  Forall (on_side s) l' /\ on_side s e /\ held l = held l' + (if concerns (e_order e) then e_qty e else 0).
Proof.
  induction l as [|y l IH]; intros F e l' H; cbn [remove_entry] in H; [discriminate|]. apply Forall_cons_iff in F. destruct F as [Fy F]. destruct ((e_key y =? key) && (e_ident y =? ident)).
  - injection H as <- <-. split; [exact F|]. split; [exact Fy|]. unfold held, zsum. cbn [filter]. destruct (concerns (e_order y)); cbn; lia.
  - destruct (remove_entry key ident l) as [[x r]|]; [|discriminate]. injection H as <- <-. destruct (IH F x r eq_refl) as (I1 & I2 & I3). split; [now constructor|]. split; [exact I2|]. unfold held, zsum in *. cbn [filter]. destruct (concerns (e_order y)); cbn; lia.
Qed.
Definition both (b : book) : Z := held (b_bids b) + held (b_asks b).
Definition asks_for (x : op) : Z := match x with Insert o => if concerns o then o_quantity o else 0 | Cancel _ => 0 end.
Definition sensible (x : op) : Prop := match x with Insert o => 0 <= o_quantity o | Cancel _ => True end.
Lemma placed_sum o rem i l : sum_of Matched [mk_report Placed (o_side o) rem i l (o_owner o)] = 0 /\ sum_of Cancelled [mk_report Placed (o_side o) rem i l (o_owner o)] = 0.
Proof. split; reflexivity. Qed.
Lemma step_sums f b x : by_trade f -> orderly b -> sensible x -> let '(b', rs) := BinaryBook.step b x in
  orderly b' /\ asks_for x + both b = sum_of Matched rs + sum_of Cancelled rs + both b' /\ weigh f Buy rs = weigh f Sell rs.
Proof.
  intros Hf [Ob Oa] Hx. destruct x as [o|i]; cbn [BinaryBook.step asks_for sensible] in *.
  - unfold insert. destruct (o_side o) eqn:Es.
    + assert (Oa' : Forall (on_side (opposite (o_side o))) (b_asks b)) by (rewrite Es; exact Oa).
      pose proof (match_loop_sums (fun k => o_limit o >=? k) o f Hf _ _ Hx Oa') as M. rewrite Es in M. cbn [opposite] in M.
      destruct (match_loop (fun k => o_limit o >=? k) o (o_quantity o) (b_asks b)) as [[[l' rs] ids] rem]. destruct M as (M1 & M2 & M3 & M4 & M5). destruct (rem >? 0) eqn:Er.
      * destruct (emplace_sums Z.gtb (mk_entry (o_limit o) (b_next b) (with_quantity o rem)) (b_bids b) Buy) as [E1 E2]; [split; [exact Es|unfold e_qty; cbn; lia]|exact Ob|].
        split; [split; [exact E1|exact M1]|]. rewrite !sum_of_app, !weigh_app. unfold both. cbn [b_bids b_asks]. rewrite E2. cbn [e_order]. change (concerns (with_quantity o rem)) with (concerns o). change (e_qty _) with rem.
        change (sum_of Matched [mk_report Placed Buy rem (b_next b) (o_limit o) (o_owner o)]) with 0. change (sum_of Cancelled [mk_report Placed Buy rem (b_next b) (o_limit o) (o_owner o)]) with 0.
        split; [|cbn; lia]. destruct (concerns o); lia.
      * split; [split; [exact Ob|exact M1]|]. unfold both. cbn [b_bids b_asks]. split; [|exact M5]. destruct (concerns o); lia.
    + assert (Ob' : Forall (on_side (opposite (o_side o))) (b_bids b)) by (rewrite Es; exact Ob).
      pose proof (match_loop_sums (fun k => o_limit o <=? k) o f Hf _ _ Hx Ob') as M. rewrite Es in M. cbn [opposite] in M.
      destruct (match_loop (fun k => o_limit o <=? k) o (o_quantity o) (b_bids b)) as [[[l' rs] ids] rem]. destruct M as (M1 & M2 & M3 & M4 & M5). destruct (rem >? 0) eqn:Er.
      * destruct (emplace_sums Z.ltb (mk_entry (o_limit o) (b_next b) (with_quantity o rem)) (b_asks b) Sell) as [E1 E2]; [split; [exact Es|unfold e_qty; cbn; lia]|exact Oa|].
        split; [split; [exact M1|exact E1]|]. rewrite !sum_of_app, !weigh_app. unfold both. cbn [b_bids b_asks]. rewrite E2. cbn [e_order]. change (concerns (with_quantity o rem)) with (concerns o). change (e_qty _) with rem.
        change (sum_of Matched [mk_report Placed Sell rem (b_next b) (o_limit o) (o_owner o)]) with 0. change (sum_of Cancelled [mk_report Placed Sell rem (b_next b) (o_limit o) (o_owner o)]) with 0.
        split; [|cbn; lia]. destruct (concerns o); lia.
      * split; [split; [exact M1|exact Oa]|]. unfold both. cbn [b_bids b_asks]. split; [|exact M5]. destruct (concerns o); lia.
  - assert (N : orderly b /\ 0 + both b = sum_of Matched [] + sum_of Cancelled [] + both b /\ weigh f Buy [] = weigh f Sell []) by (split; [split; assumption|split; [cbn; lia|reflexivity]]).
    unfold cancel. destruct (map_find i (b_index b)) as [limit|]; [|exact N]. destruct (match bid b with Some q => q >=? limit | None => false end).
    + destruct (remove_entry limit i (b_bids b)) as [[e l']|] eqn:R; [|exact N]. destruct (remove_sums _ _ _ _ Ob _ _ R) as (R1 & [R2 _] & R3). split; [split; assumption|]. split; [|reflexivity].
      unfold both. cbn [b_bids b_asks]. rewrite R3. unfold sum_of, total. cbn. unfold concerns in *. rewrite R2. destruct (P Buy (o_owner (e_order e))); cbn; lia.
    + destruct (match ask b with Some q => q <=? limit | None => false end); [|exact N]. destruct (remove_entry limit i (b_asks b)) as [[e l']|] eqn:R; [|exact N]. destruct (remove_sums _ _ _ _ Oa _ _ R) as (R1 & [R2 _] & R3). split; [split; assumption|]. split; [|reflexivity].
      unfold both. cbn [b_bids b_asks]. rewrite R3. unfold sum_of, total. cbn. unfold concerns in *. rewrite R2. destruct (P Sell (o_owner (e_order e))); cbn; lia.
Qed.
Lemma run_sums f h : by_trade f -> Forall sensible h -> forall b, orderly b -> let '(b', rs) := run b h in
  orderly b' /\ zsum (map asks_for h) + both b = sum_of Matched rs + sum_of Cancelled rs + both b' /\ weigh f Buy rs = weigh f Sell rs.
Proof.
  intros Hf. induction h as [|x h IH]; intros F b Ob; cbn [run]; [split; [exact Ob|split; [cbn; lia|reflexivity]]|]. apply Forall_cons_iff in F. destruct F as [F1 F].
  pose proof (step_sums f b x Hf Ob F1) as S1. destruct (BinaryBook.step b x) as [b1 r1]. destruct S1 as (O1 & E1 & W1). specialize (IH F b1 O1). destruct (run b1 h) as [b2 r2]. destruct IH as (O2 & E2 & W2).
  split; [exact O2|]. rewrite !sum_of_app, !weigh_app. cbn [map]. change (zsum (asks_for x :: map asks_for h)) with (asks_for x + zsum (map asks_for h)). split; [lia|congruence].
Qed.
End Book.
