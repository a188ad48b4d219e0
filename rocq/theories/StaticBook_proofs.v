(** Lemmas about the fixed-tick order book. *)
From Coq Require Import ZifyBool.
From Verif Require Import Base BlockPool StaticTicks StaticBook StaticBook_spec.

Section Fok.
Context (lowest highest lot : Z) (encode decode : Z -> Z) (fuel : nat).
Lemma match_at_lifetime o t : forall n at_ b rem ao, match_at decode n (with_lifetime o t) at_ b rem ao = match_at decode n o at_ b rem ao.
Proof.
  induction n as [|n IH]; intros at_ b rem ao; cbn [match_at]; [reflexivity|].
  destruct (rem <=? 0); [reflexivity|]. destruct ao as [a|]; [|reflexivity]. cbv zeta.
  change (o_buy (with_lifetime o t)) with (o_buy o). change (o_owner (with_lifetime o t)) with (o_owner o).
  destruct (r_successor _); [|reflexivity]. rewrite IH. reflexivity.
Qed.
Lemma sweep_up_lifetime o t n : forall b rem i l, sweep_up decode n fuel (with_lifetime o t) b rem i l = sweep_up decode n fuel o b rem i l.
Proof.
  induction n as [|n IH]; intros b rem i l; cbn [sweep_up]; [reflexivity|].
  destruct ((i <=? l) && (0 <? rem)); [|reflexivity]. destruct (level b i) as [[f s]| | |]; cbn [bind_result fst]; try reflexivity.
  destruct f as [a|]; [|apply IH]. rewrite match_at_lifetime. destruct (match_at _ _ _ _ _ _ _) as [[b' r']| | |]; cbn [bind_result fst snd]; try reflexivity.
  apply IH.
Qed.
Lemma sweep_down_lifetime o t n : forall b rem i l, sweep_down decode n fuel (with_lifetime o t) b rem i l = sweep_down decode n fuel o b rem i l.
Proof.
  induction n as [|n IH]; intros b rem i l; cbn [sweep_down]; [reflexivity|].
  destruct ((l <=? i) && (0 <? rem)); [|reflexivity]. destruct (level b i) as [[f s]| | |]; cbn [bind_result fst]; try reflexivity.
  destruct f as [a|]; [|apply IH]. rewrite match_at_lifetime. destruct (match_at _ _ _ _ _ _ _) as [[b' r']| | |]; cbn [bind_result fst snd]; try reflexivity.
  apply IH.
Qed.
Lemma fok_crossing o b q :
  (if o_buy o then ask decode b else bid decode b) = Ok (Some q) ->
  (if o_buy o then q <=? o_limit o else o_limit o <=? q) = true ->
  insert lowest highest lot encode decode fuel (with_lifetime o fill_or_kill) b
  = insert lowest highest lot encode decode fuel (with_lifetime o good_until_cancelled) b.
Proof.
  intros Q C. unfold insert.
  repeat match goal with |- context [?f (with_lifetime o ?t)] => progress change (f (with_lifetime o t)) with (f o) end.
  destruct (negb (o_lot o =? lot)); [reflexivity|]. destruct (negb (valid lowest highest (o_limit o)) || (o_quantity o <=? 0)); [reflexivity|].
  cbv zeta. destruct ((encode (o_limit o) <? 0) || _); [reflexivity|].
  destruct (o_buy o).
  - rewrite Q. cbn [bind_result]. rewrite C. rewrite !sweep_up_lifetime. reflexivity.
  - rewrite Q. cbn [bind_result]. rewrite C. rewrite !sweep_down_lifetime. reflexivity.
Qed.
Lemma fok_not_crossing o b b' :
  o_lifetime o = fill_or_kill -> valid lowest highest (o_limit o) = true -> 0 < o_quantity o ->
  (exists q, (if o_buy o then ask decode b else bid decode b) = Ok q /\
     match q with Some q => (if o_buy o then q <=? o_limit o else o_limit o <=? q) = false | None => True end) ->
  insert lowest highest lot encode decode fuel o b = Ok b' ->
  b' = mk_book (b_pool b) (b_levels b) (b_bid b) (b_ask b)
         (b_reports b ++ [mk_report cancelled (o_buy o) (o_quantity o) direct_order (o_limit o) (o_owner o)]).
Proof.
  intros L V P (q & Q & N). unfold insert. destruct (negb (o_lot o =? lot)); [discriminate|]. rewrite V. cbn [negb orb].
  replace (o_quantity o <=? 0) with false by lia. cbv zeta. destruct ((encode (o_limit o) <? 0) || _); [discriminate|].
  rewrite L. destruct (o_buy o).
  - rewrite Q. cbn [bind_result]. destruct q as [q|]; [rewrite N|]; intros E; injection E as <-; reflexivity.
  - rewrite Q. cbn [bind_result]. destruct q as [q|]; [rewrite N|]; intros E; injection E as <-; reflexivity.
Qed.
End Fok.

Lemma set_level_length b i l : length (b_levels (set_level b i l)) = length (b_levels b).
Proof.
  unfold set_level. cbn [b_levels]. rewrite <- (firstn_skipn i (b_levels b)) at 3. rewrite !app_length.
  destruct (skipn i (b_levels b)); reflexivity.
Qed.
Lemma level_defined b b' i l : length (b_levels b') = length (b_levels b) -> level b i = Ok l -> exists l', level b' i = Ok l'.
Proof.
  unfold level. intros L H. destruct (i <? 0); [discriminate|]. destruct (nth_error (b_levels b) (Z.to_nat i)) eqn:E; [|discriminate].
  destruct (nth_error (b_levels b') (Z.to_nat i)) eqn:E'; [eexists; reflexivity|].
  exfalso. apply nth_error_None in E'. assert (Z.to_nat i < length (b_levels b))%nat by (apply nth_error_Some; congruence). lia.
Qed.
Lemma erase_cap (p : pool record) h : cap (fst (erase p h)) = cap p.
Proof.
  unfold erase. cbv zeta. destruct (negb _); [reflexivity|]. destruct (size_ p =? 0); reflexivity.
Qed.
Lemma cancel_twice lowest highest encode decode h b b' :
  cancel lowest highest encode decode false h b = Ok b' -> b_reports b' <> b_reports b ->
  cancel lowest highest encode decode false h b' = Exception.
Proof.
  unfold cancel at 1. destruct (bid decode b) as [d| | |] eqn:B; cbn [bind_result]; try discriminate.
  destruct (r_limit (data (b_pool b) (slot (b_pool b) h))) as [v|]; cbn [bind_result]; [|discriminate].
  destruct (negb (valid lowest highest v)); [discriminate|]. cbv zeta.
  destruct (level b (encode v)) as [[[f|] [k|]]| | |] eqn:L; cbn [bind_result]; try discriminate;
    try (intros E N; injection E as <-; contradiction N; reflexivity).
  match goal with |- context [set_level b ?x ?y] => set (b1 := set_level b x y) end.
  destruct (erase (b_pool b1) h) as [p e] eqn:E.
  assert (C : cap p = cap (b_pool b)) by (pose proof (erase_cap (b_pool b1) h) as X; rewrite E in X; exact X).
  destruct (e =? 0); [intros E0 N; injection E0 as <-; contradiction N; reflexivity|].
  intros E0 _. injection E0 as <-. unfold cancel.
  match goal with |- (do d <- bid decode ?z; _) = _ => set (b' := z) end.
  assert (B' : exists d', bid decode b' = Ok d').
  { unfold bid in B |- *. destruct (level b (b_bid b)) as [l| | |] eqn:Lb; cbn [bind_result] in B; try discriminate.
    destruct (level_defined b b' (b_bid b) l) as [l' E']; [unfold b', b1; cbn; apply set_level_length|exact Lb|].
    change (b_bid b') with (b_bid b). rewrite E'. cbn [bind_result]. eexists. reflexivity. }
  destruct B' as [d' B']. rewrite B'. cbn [bind_result].
  assert (S : slot (b_pool b') h = slot (b_pool b) h).
  { assert (K : cap (b_pool b') = cap (b_pool b)).
    { unfold b'. cbn [b_pool set_pool set_data cap]. destruct (r_successor (data (b_pool b) (slot (b_pool b) h))), (r_predecessor (data (b_pool b) (slot (b_pool b) h))); exact C. }
    unfold slot. rewrite K. reflexivity. }
  assert (R : r_limit (data (b_pool b') (slot (b_pool b') h)) = None).
  { rewrite S. unfold b'. unfold data at 1. cbn [b_pool set_pool set_data blocks]. unfold set_block. rewrite Nat.eqb_refl. reflexivity. }
  rewrite R. reflexivity.
Qed.
