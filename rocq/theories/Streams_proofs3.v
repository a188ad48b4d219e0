(** Proofs about printed values: what they determine. *)
From Coq Require Import SpecFloat Psatz ZifyBool ZifyNat.
From Verif Require Import Base Text Identity Identity_spec Identity_proofs Money StaticTicks Prices Streams Streams_spec Streams_proofs2.

Lemma decimal_digits c k : decimal c k -> digits c = k.
Proof.
  intros [H E]. unfold digits. rewrite E. assert (In k (map Z.of_nat (seq 0 16))) as I by (rewrite <- (Z2Nat.id k) by lia; apply in_map, in_seq; lia).
  cbn [map seq] in I. repeat (destruct I as [<- | I]; [reflexivity|]). destruct I.
Qed.
Definition code (c : currency) : list Z := [c0 c; c1 c; c2 c].
Lemma moderate_printed p s : moderate p -> width s = O ->
  exists t, print_price p s = Some (mk_stream (written s ++ code (valuation p) ++ 40 :: t ++ [41]) 0 (fill s) (digits (valuation p)) (fixed s))
    /\ shows t (value p) (Z.to_nat (digits (valuation p))).
Proof.
  intros [[k D] V] W. pose proof (decimal_digits _ _ D) as E. destruct D as [K D].
  assert (10 ^ k <= 10 ^ 15) by (apply Z.pow_le_mono_r; lia). assert (0 < 10 ^ k) by (apply Z.pow_pos_nonneg; lia).
  apply price_printed; rewrite ?D, ?E; lia.
Qed.
Lemma quote_printed q s : moderate_quote q -> width s = O ->
  exists t, print_quote q s = Some (mk_stream (written s ++ dec (lot q) ++ 64 :: code (valuation (q_price q)) ++ 40 :: t ++ [41]) 0 (fill s) (digits (valuation (q_price q))) (fixed s))
    /\ shows t (value (q_price q)) (Z.to_nat (digits (valuation (q_price q)))).
Proof.
  intros [L M] W. unfold print_quote. destruct (moderate_printed (q_price q) (put [64] (put (dec (lot q)) s)) M eq_refl) as (t & E & S). exists t. split; [|exact S]. rewrite E.
  unfold put. cbn [written width fill fixed]. rewrite W. cbn [Nat.sub repeat app]. rewrite <- !app_assoc. reflexivity.
Qed.
Lemma price_tail_inj c t t' : code c ++ 40 :: t ++ [41] = code c ++ 40 :: t' ++ [41] -> t = t'.
Proof. intros E. apply app_inv_head in E. injection E as E. now apply app_inj_tail in E as [E _]. Qed.
Lemma dec_inj a b : u64 a -> u64 b -> dec a = dec b -> a = b.
Proof. intros A B E. destruct (dec_digit a A) as (_ & <- & _). rewrite E. apply (dec_digit b B). Qed.
Lemma dec_without c z : u64 z -> ~ digit c -> ~ In c (dec z).
Proof. intros H N. apply digits_not; [apply (dec_digit z H)|exact N]. Qed.
Lemma quote_tail_inj q q' t t' : moderate_quote q -> moderate_quote q' -> valuation (q_price q) = valuation (q_price q') ->
  shows t (value (q_price q)) (Z.to_nat (digits (valuation (q_price q)))) -> shows t' (value (q_price q')) (Z.to_nat (digits (valuation (q_price q')))) ->
  dec (lot q) ++ 64 :: code (valuation (q_price q)) ++ 40 :: t ++ [41] = dec (lot q') ++ 64 :: code (valuation (q_price q')) ++ 40 :: t' ++ [41] -> q = q'.
Proof.
  intros [L M] [L' M'] C S S' E. apply split_at in E; [|apply dec_without; [exact L|unfold digit; lia]|apply dec_without; [exact L'|unfold digit; lia]].
  destruct E as [El E]. apply dec_inj in El; [|exact L|exact L']. rewrite C in *. apply price_tail_inj in E. subst t'. pose proof (shows_unique _ _ _ _ S S') as V.
  destruct q as [l [v c]], q' as [l' [v' c']]. cbn in *. congruence.
Qed.
Lemma quote_distinct q q' : moderate_quote q -> moderate_quote q' -> valuation (q_price q) = valuation (q_price q') ->
  representation (print_quote q fresh) = representation (print_quote q' fresh) -> q = q'.
Proof.
  intros M M' C E. destruct (quote_printed q fresh M eq_refl) as (t & P & S). destruct (quote_printed q' fresh M' eq_refl) as (t' & P' & S').
  rewrite P, P' in E. cbn [representation written fresh app] in E. injection E as E. exact (quote_tail_inj _ _ _ _ M M' C S S' E).
Qed.
Lemma price_distinct p p' : moderate p -> moderate p' -> valuation p = valuation p' -> representation (print_price p fresh) = representation (print_price p' fresh) -> p = p'.
Proof.
  intros M M' C E. destruct (moderate_printed p fresh M eq_refl) as (t & P & S). destruct (moderate_printed p' fresh M' eq_refl) as (t' & P' & S').
  rewrite C in *. rewrite P, P' in E. cbn [representation written fresh] in E. assert (t = t') as -> by (revert E; clear; intros E; injection E as E; now apply app_inj_tail in E as [E _]).
  pose proof (shows_unique _ _ _ _ S S'). destruct p, p'; cbn in *; congruence.
Qed.

(** ** Intervals, positions, tickers. *)
Ltac plain := unfold put, fresh; cbn [written width fill precision fixed Nat.sub repeat app]; rewrite <- ?app_assoc; cbn [app].
Lemma interval_printed l u s : width s = O -> print_interval l u s = mk_stream (written s ++ 91 :: dec l ++ 44 :: dec u ++ [41]) 0 (fill s) (precision s) (fixed s).
Proof. intros W. unfold print_interval, put. cbn [written width fill precision fixed]. rewrite W. cbn [Nat.sub repeat app]. rewrite <- !app_assoc. reflexivity. Qed.
Lemma interval_distinct l u l' u' : u64 l -> u64 u -> u64 l' -> u64 u' -> written (print_interval l u fresh) = written (print_interval l' u' fresh) -> l = l' /\ u = u'.
Proof.
  intros A B A' B' E. rewrite !interval_printed in E by reflexivity. cbn [written fresh app] in E. injection E as E.
  apply split_at in E; try (apply dec_without; [assumption|unfold digit; lia]). destruct E as [E1 E2]. apply app_inj_tail in E2 as [E2 _]. split; now apply dec_inj.
Qed.
Lemma position_printed r s : width s = O -> print_position r s = mk_stream (written s ++ dec (supply r) ++ 43 :: dec (bought r) ++ 45 :: dec (sold r) ++ [10]) 0 (fill s) (precision s) (fixed s).
Proof. intros W. unfold print_position, put. cbn [written width fill precision fixed]. rewrite W. cbn [Nat.sub repeat app]. rewrite <- !app_assoc. reflexivity. Qed.
Lemma position_distinct r r' : u64 (supply r) -> u64 (bought r) -> u64 (sold r) -> u64 (supply r') -> u64 (bought r') -> u64 (sold r') ->
  written (print_position r fresh) = written (print_position r' fresh) -> r = r'.
Proof.
  intros A B C A' B' C' E. rewrite !position_printed in E by reflexivity. cbn [written fresh app] in E.
  apply split_at in E; try (apply dec_without; [assumption|unfold digit; lia]). destruct E as [E1 E].
  apply split_at in E; try (apply dec_without; [assumption|unfold digit; lia]). destruct E as [E2 E]. apply app_inj_tail in E as [E3 _].
  destruct r, r'; cbn in *. f_equal; now apply dec_inj.
Qed.
Lemma identity_without c i : proper i -> ~ digit c -> c <> 34 -> c <> 45 -> ~ In c (id_print 0 i).
Proof.
  intros P N N1 N2 I. destruct i as [|d ds]; [exact I|]. inversion P as [|? ? Hd Hds]; subst. cbn -[dec_padded] in I. destruct I as [I|I]; [congruence|].
  assert (Q : forall z, u64 z -> ~ In c (dec_padded 0 z)). { intros z Hz J. unfold dec_padded in J. cbn [Nat.sub repeat app] in J. exact (dec_without c z Hz N J). }
  apply in_app_or in I. destruct I as [I|I]; [exact (Q d Hd I)|]. apply in_app_or in I. destruct I as [I|[I|[]]]; [|congruence].
  apply in_concat in I. destruct I as (l & J & K). apply in_map_iff in J. destruct J as (z & <- & J). rewrite Forall_forall in Hds. destruct K as [K|K]; [congruence|]. exact (Q z (Hds z J) K).
Qed.
Lemma identity_written i s : width s = O -> exists f, print_identity i s = mk_stream (written s ++ id_print 0 i) 0 f (precision s) (fixed s).
Proof. intros W. rewrite identity_printed, W. destruct i; [|eauto]. exists (fill s). cbn. rewrite app_nil_r, <- W. now destruct s. Qed.
Lemma ticker_distinct b q b' q' : proper b -> proper q -> proper b' -> proper q' -> written (print_ticker b q fresh) = written (print_ticker b' q' fresh) -> b = b' /\ q = q'.
Proof.
  intros B Q B' Q' E. unfold print_ticker in E. destruct (identity_written b fresh eq_refl) as [f Eb]. destruct (identity_written b' fresh eq_refl) as [f' Eb']. rewrite Eb, Eb' in E.
  destruct (identity_written q (put [47] (mk_stream (written fresh ++ id_print 0 b) 0 f (precision fresh) (fixed fresh))) eq_refl) as [g Eq].
  destruct (identity_written q' (put [47] (mk_stream (written fresh ++ id_print 0 b') 0 f' (precision fresh) (fixed fresh))) eq_refl) as [g' Eq'].
  rewrite Eq, Eq' in E. cbn [written put fresh app width Nat.sub repeat] in E. rewrite <- !app_assoc in E. cbn [app] in E.
  apply split_at in E; try (apply identity_without; [assumption|unfold digit; lia|lia|lia]). destruct E as [E1 E2]. split; eapply print_injective; eauto.
Qed.

(** ** Reports. *)
Lemma execution_printed r : 0 <= e_state r <= 3 -> moderate_quote (e_limit r) -> exists st t, state_text (e_state r) = Ret st /\
  report_text r = Ret (Some (st ++ 32 :: id_print 0 (e_owner r) ++ 32 :: dec (lot (e_limit r)) ++ 64 :: code (valuation (q_price (e_limit r))) ++ 40 :: t ++ [41])) /\
  shows t (value (q_price (e_limit r))) (Z.to_nat (digits (valuation (q_price (e_limit r))))).
Proof.
  intros H M. assert (exists st, state_text (e_state r) = Ret st) as [st S].
  { unfold state_text. destruct (Z.eqb_spec (e_state r) 0); [eauto|]. destruct (Z.eqb_spec (e_state r) 1); [eauto|]. destruct (Z.eqb_spec (e_state r) 2); [eauto|]. destruct (Z.eqb_spec (e_state r) 3); [eauto|lia]. }
  unfold report_text, print_execution. rewrite S.
  destruct (identity_written (e_owner r) (put [32] (put st fresh)) eq_refl) as [f Ei]. rewrite Ei.
  destruct (quote_printed (e_limit r) (put [32] (mk_stream (written (put [32] (put st fresh)) ++ id_print 0 (e_owner r)) 0 f (precision (put [32] (put st fresh))) (fixed (put [32] (put st fresh))))) M eq_refl) as (t & P & Sh).
  rewrite P. exists st, t. split; [reflexivity|]. split; [|exact Sh]. cbn [representation written put fresh app width fill Nat.sub repeat]. rewrite <- !app_assoc. reflexivity.
Qed.
Lemma state_inj a b st x y : 0 <= a <= 3 -> 0 <= b <= 3 -> forall st', state_text a = Ret st -> state_text b = Ret st' -> st ++ 32 :: x = st' ++ 32 :: y -> a = b /\ x = y.
Proof.
  intros A B st' Sa Sb E. assert (a = 0 \/ a = 1 \/ a = 2 \/ a = 3) as Ca by lia. assert (b = 0 \/ b = 1 \/ b = 2 \/ b = 3) as Cb by lia.
  destruct Ca as [-> | [-> | [-> | ->]]], Cb as [-> | [-> | [-> | ->]]]; injection Sa as <-; injection Sb as <-; vm_compute in E; try discriminate E; split; try reflexivity; congruence.
Qed.
Lemma execution_same r r' : 0 <= e_state r <= 3 -> 0 <= e_state r' <= 3 -> moderate_quote (e_limit r) -> moderate_quote (e_limit r') -> proper (e_owner r) -> proper (e_owner r') ->
  valuation (q_price (e_limit r)) = valuation (q_price (e_limit r')) ->
  (report_text r = report_text r' <-> e_state r = e_state r' /\ e_owner r = e_owner r' /\ e_limit r = e_limit r').
Proof.
  intros A A' M M' O O' C. split.
  - intros E. destruct (execution_printed r A M) as (st & t & S & P & Sh). destruct (execution_printed r' A' M') as (st' & t' & S' & P' & Sh'). rewrite P, P' in E. injection E as E.
    destruct (state_inj _ _ _ _ _ A A' _ S S' E) as [Es E1]. split; [exact Es|].
    apply split_at in E1; try (apply identity_without; [assumption|unfold digit; lia|lia|lia]). destruct E1 as [E1 E2]. split; [eapply print_injective; eauto|].
    exact (quote_tail_inj _ _ _ _ M M' C Sh Sh' E2).
  - intros (S & W & L). unfold report_text, print_execution. now rewrite S, W, L.
Qed.

(** ** The text of a price in an archive. *)
Lemma sdec_inj a b : - 2 ^ 63 <= a < 2 ^ 63 -> - 2 ^ 63 <= b < 2 ^ 63 -> sdec a = sdec b -> a = b.
Proof.
  intros A B E. assert (H : forall z, u64 z -> forall t, dec z <> 45 :: t).
  { intros z U t D. destruct (dec_digit z U) as (F & _ & _). rewrite D in F. inversion F; subst. unfold digit in *. lia. }
  unfold sdec in E. unfold u64, W64 in *. destruct (Z.ltb_spec a 0), (Z.ltb_spec b 0).
  - injection E as E. apply dec_inj in E; unfold u64, W64; lia.
  - symmetry in E. apply H in E; [contradiction|]. lia.
  - apply H in E; [contradiction|]. lia.
  - apply dec_inj in E; unfold u64, W64; lia.
Qed.
Lemma sdec_without c z : - 2 ^ 63 <= z < 2 ^ 63 -> ~ digit c -> c <> 45 -> ~ In c (sdec z).
Proof.
  intros H N M I. unfold sdec in I. destruct (Z.ltb_spec z 0).
  - destruct I as [I|I]; [congruence|]. apply dec_without in I; [exact I| |exact N]. unfold u64, W64. lia.
  - apply dec_without in I; [exact I| |exact N]. unfold u64, W64. lia.
Qed.
Lemma price_text_inj p q : - 2 ^ 63 <= value p < 2 ^ 63 -> - 2 ^ 63 <= value q < 2 ^ 63 -> u64 (denominator (valuation p)) -> u64 (denominator (valuation q)) ->
  price_text p = price_text q -> p = q.
Proof.
  intros V V' U U' E. destruct p as [v [x y z d]], q as [v' [x' y' z' d']]. cbn in V, V', U, U'. unfold price_text in E. cbn [value valuation c0 c1 c2 denominator] in E. injection E as -> -> -> E.
  apply split_at in E; try (apply sdec_without; [assumption|unfold digit; lia|lia]). destruct E as [E1 E2]. apply sdec_inj in E1; try assumption. apply dec_inj in E2; try assumption. now subst.
Qed.
