(** Proofs about printed values: texts and formats. *)
From Coq Require Import SpecFloat Reals Psatz ZifyBool ZifyNat.
From Verif Require Import Base Text Identity Identity_spec Identity_proofs Money StaticTicks Prices Double_proofs Streams Streams_spec Streams_proofs.

(** ** Digits. *)
Lemma last_digits_length d : forall n, length (last_digits d n) = d.
Proof. induction d; intros n; cbn; [reflexivity|]. rewrite app_length, IHd. cbn. lia. Qed.
Lemma last_digits_digit d : forall n, Forall digit (last_digits d n).
Proof. induction d; intros n; cbn; [constructor|]. apply Forall_app. split; [apply IHd|]. constructor; [|constructor]. unfold digit. pose proof (Z.mod_pos_bound n 10). lia. Qed.
Lemma read_last_digits d : forall n acc, read_dec acc (last_digits d n) = acc * 10 ^ Z.of_nat d + n mod 10 ^ Z.of_nat d.
Proof.
  induction d; intros n acc. { cbn. rewrite Z.mod_1_r. lia. }
  cbn [last_digits]. rewrite read_dec_app, IHd. cbn [read_dec]. rewrite Nat2Z.inj_succ, Z.pow_succ_r by lia.
  rewrite Z.rem_mul_r by lia. lia.
Qed.
Lemma dec_fuel_nonempty f z : dec_fuel f z <> [].
Proof. destruct f; cbn [dec_fuel]; [discriminate|]. destruct (z <? 10); [discriminate|]. intros E. symmetry in E. revert E. apply app_cons_not_nil. Qed.
Lemma dec_digit z : 0 <= z < 2 ^ 64 -> Forall digit (dec z) /\ read_dec 0 (dec z) = z /\ dec z <> [].
Proof. intros H. destruct (dec_ok z H) as [F R]. split; [exact F|]. split; [exact R|]. apply dec_fuel_nonempty. Qed.
Lemma dec_no_point f : forall z, 0 <= z -> ~ In 46 (dec_fuel f z).
Proof.
  induction f; intros z H I. { destruct I; [discriminate|contradiction]. } cbn [dec_fuel] in I. destruct (z <? 10).
  - destruct I; [lia|contradiction].
  - apply in_app_or in I. destruct I as [I|I]. { apply IHf in I; [exact I|]. apply Z.div_pos; lia. } destruct I; [|contradiction]. pose proof (Z.mod_pos_bound z 10). lia.
Qed.
Lemma digits_not c l : Forall digit l -> ~ digit c -> ~ In c l.
Proof. intros F N I. rewrite Forall_forall in F. exact (N (F _ I)). Qed.
Lemma split_at (c : Z) : forall a b x y, ~ In c a -> ~ In c b -> a ++ c :: x = b ++ c :: y -> a = b /\ x = y.
Proof.
  induction a as [|h a IH]; intros [|k b] x y A B E; cbn in *.
  - injection E as ->. auto.
  - injection E as -> _. tauto.
  - injection E as <- _. tauto.
  - injection E as -> E. destruct (IH b x y) as [-> ->]; tauto.
Qed.

(** ** The text of a number determines it. *)
Lemma shows_unique t n m d : shows t n d -> shows t m d -> n = m.
Proof.
  intros (w & p & E & Dw & Nw & Dp & Lp & R) (w' & p' & E' & Dw' & Nw' & Dp' & Lp' & R').
  assert (H : forall (w : list Z) l, w <> [] -> Forall digit w -> exists h u, w ++ l = h :: u /\ digit h).
  { intros [|h v] l N F; [congruence|]. inversion F; subst. exists h, (v ++ l). auto. }
  assert (B : (n <? 0) = (m <? 0) /\ w ++ (match d with O => [] | S _ => 46 :: p end) = w' ++ (match d with O => [] | S _ => 46 :: p' end)).
  { destruct (H w (match d with O => [] | S _ => 46 :: p end) Nw Dw) as (h & u & Eh & Hh). destruct (H w' (match d with O => [] | S _ => 46 :: p' end) Nw' Dw') as (h' & u' & Eh' & Hh').
    rewrite E in E'. rewrite Eh, Eh' in E'. rewrite Eh, Eh'. unfold digit in *. destruct (n <? 0), (m <? 0); cbn in E'.
    - injection E' as -> ->. auto.
    - injection E' as <- _. lia.
    - injection E' as -> _. lia.
    - injection E' as -> ->. auto. }
  destruct B as [B1 B2]. assert (Z.abs n = Z.abs m); [|lia]. rewrite <- R, <- R'. f_equal.
  destruct d as [|d].
  - rewrite !app_nil_r in B2. destruct p, p'; try discriminate. now rewrite B2.
  - apply split_at in B2; [destruct B2 as [-> ->]; reflexivity| |]; apply digits_not; try assumption; unfold digit; lia.
Qed.

(** ** The text of a price. *)
Lemma digits_from_nonneg f : forall d n, 0 <= d -> 0 <= digits_from f d n.
Proof. induction f; intros d n H; cbn [digits_from]; [exact H|]. destruct (n <=? 10 ^ d); [exact H|]. apply IHf. lia. Qed.
Lemma digits_nonneg c : 0 <= digits c.
Proof. apply digits_from_nonneg. lia. Qed.
Local Open Scope R_scope.
Lemma stands_sign x r : stands x r -> (exists s, x = S754_zero s /\ r = 0) \/ (exists s m e, x = S754_finite s m e /\ (if s then r < 0 else r > 0)).
Proof.
  intros (b & <- & F & <-). destruct b as [s|s| |s m e B]; try discriminate F; cbn; [left; eauto|right]. exists s, m, e. split; [reflexivity|].
  destruct s; cbn; unfold Defs.F2R; cbn; pose proof (Raux.bpow_gt_0 Zaux.radix2 e); [apply Ropp_lt_cancel; rewrite Ropp_0, <- Ropp_mult_distr_l_reverse, <- opp_IZR; cbn|]; apply Rmult_lt_0_compat; try assumption; apply (IZR_lt 0); lia.
Qed.
Lemma fixed_shows v n d K : (0 < n <= 2 ^ 53)%Z -> (0 <= d)%Z -> (Z.abs v <= 2 ^ 53)%Z -> (K * n = v * 10 ^ d)%Z -> (Z.abs K < 2 ^ 52)%Z ->
  let x := div double (of_Z double v) (of_Z double n) in
  match x with S754_zero _ | S754_finite _ _ _ => True | _ => False end /\ shows (fixed_text x d) K (Z.to_nat d).
Proof.
  intros Hn Hd Hv E HK x. pose proof (price_stands v n Hv Hn) as S. fold x in S. pose proof (price_near v n d K Hn Hd Hv E HK) as X.
  pose proof (decimals_near x _ d _ S Hd X) as D. assert (T : (0 < 10 ^ d)%Z) by (apply Z.pow_pos_nonneg; lia).
  assert (N : 1 <= IZR n) by (apply IZR_le; lia).
  assert (Sg : (match x with S754_finite true _ _ | S754_zero true => [45%Z] | _ => [] end) = (if (K <? 0)%Z then [45%Z] else []) /\ match x with S754_zero _ | S754_finite _ _ _ => True | _ => False end).
  { destruct (Z.eq_dec v 0) as [->|V].
    - assert (K = 0)%Z by nia. subst K. pose proof (of_Z_exact n ltac:(lia)) as Sn. destruct (stands_sign _ _ Sn) as [(s & _ & Z)|(s & m & e & En & P)]; [lra|].
      unfold x. cbn [div double]. change (of_Z double 0%Z) with (S754_zero false). rewrite En. destruct s; [lra|]. cbn. auto.
    - assert (IZR (Z.abs K) >= 1) by (apply Rle_ge, IZR_le; nia). assert (Tr : 0 < IZR (10 ^ d)) by (apply (IZR_lt 0); exact T).
      assert (NZ : rnd (IZR v / IZR n) <> 0). { intros Z. rewrite Z, Rabs_R0, Rmult_0_l in X. rewrite Rminus_0_l, Rabs_Ropp, Rabs_right in X; lra. }
      destruct (stands_sign _ _ S) as [(s & _ & Z)|(s & m & e & Ex & P)]; [contradiction|]. rewrite Ex. split; [|exact I].
      assert (Iv : 0 < / IZR n) by (apply Rinv_0_lt_compat; lra). destruct (Z_lt_le_dec v 0) as [L|L].
      + replace (K <? 0)%Z with true by nia. assert (Hq : rnd (IZR v / IZR n) <= rnd 0). { apply rnd_le. unfold Rdiv. apply (IZR_lt _ 0) in L. nra. } rewrite rnd_0 in Hq. destruct s; [reflexivity|lra].
      + replace (K <? 0)%Z with false by nia. assert (Hq : rnd 0 <= rnd (IZR v / IZR n)). { apply rnd_le. unfold Rdiv. apply (IZR_le 0) in L. nra. } rewrite rnd_0 in Hq. destruct s; [lra|reflexivity]. }
  destruct Sg as [Sg Fin]. split; [exact Fin|]. unfold fixed_text. rewrite Sg, D.
  assert (B : (0 <= Z.abs K / 10 ^ d <= Z.abs K)%Z). { split; [apply Z.div_pos; lia|]. apply Z.div_le_upper_bound; [lia|]. nia. }
  destruct (dec_digit (Z.abs K / 10 ^ d) ltac:(lia)) as (F & R & Ne).
  exists (dec (Z.abs K / 10 ^ d)), (last_digits (Z.to_nat d) (Z.abs K)). split.
  { do 2 f_equal. destruct (Z.eqb_spec d 0) as [->|Nd]; [reflexivity|]. destruct (Z.to_nat d) eqn:Q; [lia|reflexivity]. }
  split; [exact F|]. split; [exact Ne|]. split; [apply last_digits_digit|]. split; [apply last_digits_length|].
  rewrite read_dec_app, R, read_last_digits. rewrite Z2Nat.id by lia. pose proof (Z.div_mod (Z.abs K) (10 ^ d)). lia.
Qed.
Local Close Scope R_scope.

(** Printing a price to a stream without a width. *)
Lemma price_printed p s K : 0 < denominator (valuation p) <= 2 ^ 53 -> Z.abs (value p) <= 2 ^ 53 ->
  K * denominator (valuation p) = value p * 10 ^ digits (valuation p) -> Z.abs K < 2 ^ 52 -> width s = O ->
  exists t, print_price p s = Some (mk_stream (written s ++ [c0 (valuation p); c1 (valuation p); c2 (valuation p); 40] ++ t ++ [41]) 0 (fill s) (digits (valuation p)) (fixed s))
    /\ shows t K (Z.to_nat (digits (valuation p))).
Proof.
  intros Hn Hv E HK W. destruct (fixed_shows (value p) (denominator (valuation p)) (digits (valuation p)) K Hn (digits_nonneg _) Hv E HK) as [Fin Sh].
  exists (fixed_text (price_to_double p) (digits (valuation p))). split; [|exact Sh]. unfold print_price, put_double, print_currency, write. cbn [fixed setprecision set_fixed put written width fill precision].
  unfold price_to_double in *. destruct (div double _ _); try contradiction; unfold put; cbn [fixed setprecision set_fixed put written width fill precision]; rewrite W; cbn [repeat Nat.sub app length]; rewrite <- !app_assoc; reflexivity.
Qed.
Lemma price_format p s s' : print_price p s = Some s' -> format s' = (fill s, digits (valuation p), fixed s) /\ width s' = O.
Proof. unfold print_price, put_double. cbn [fixed setprecision set_fixed put]. destruct (price_to_double p); try discriminate; intros E; injection E as <-; split; reflexivity. Qed.

(** ** Identities. *)
Lemma print_digits w : forall ds s, width s = O -> fill s = 48 ->
  fold_left (fun s x => print_digit w x (put [45] s)) ds s = mk_stream (written s ++ concat (map (fun x => 45 :: dec_padded w x) ds)) 0 48 (precision s) (fixed s).
Proof.
  induction ds as [|d ds IH]; intros s W F.
  - cbn. rewrite app_nil_r. destruct s; cbn in *; subst; reflexivity.
  - cbn [fold_left map concat]. rewrite IH by reflexivity. unfold print_digit, put. cbn [written width fill precision fixed setw setfill]. rewrite W, F. cbn [repeat Nat.sub app length]. unfold dec_padded. rewrite <- !app_assoc. reflexivity.
Qed.
Lemma identity_printed i s : print_identity i s =
  match i with [] => s | _ => mk_stream (written s ++ id_print (width s) i) 0 48 (precision s) (fixed s) end.
Proof.
  destruct i as [|d ds]; [reflexivity|]. unfold print_identity. cbv zeta. rewrite print_digits by reflexivity.
  unfold print_digit, put. cbn [written width fill precision fixed setw setfill]. cbn [repeat Nat.sub app length]. unfold id_print, dec_padded. rewrite <- !app_assoc. reflexivity.
Qed.

(** ** Numbers printed afterwards. *)
Lemma decimals_nonneg x d : 0 <= d -> 0 <= decimals x d.
Proof.
  intros H. pose proof (Z.pow_pos_nonneg 10 d ltac:(lia) H). destruct x as [|?| |? m e]; cbn [decimals]; try lia. destruct (Z.leb_spec 0 e).
  - pose proof (Z.pow_pos_nonneg 2 e ltac:(lia) H1). nia.
  - unfold half_even. cbv zeta. pose proof (Z.pow_pos_nonneg 2 (- e) ltac:(lia) ltac:(lia)). pose proof (Z.div_pos (Z.pos m * 10 ^ d) (2 ^ (- e)) ltac:(nia) ltac:(lia)).
    destruct (_ <? _); [lia|]. destruct (_ <? _); [lia|]. destruct (Z.even _); lia.
Qed.
Lemma fixed_text_differs x d d' : 0 <= d -> 0 <= d' -> d <> d' -> fixed_text x d <> fixed_text x d'.
Proof.
  intros H H' N E. unfold fixed_text in E. set (sg := match x with S754_finite true _ _ | S754_zero true => [45] | _ => [] end) in E. apply app_inv_head in E.
  assert (P : forall d, 0 <= d -> ~ In 46 (dec (decimals x d / 10 ^ d))). { intros k K. apply dec_no_point. apply Z.div_pos; [now apply decimals_nonneg|]. apply Z.pow_pos_nonneg; lia. }
  assert (G : forall d d', 0 <= d -> d' <> 0 -> 0 <= d' -> dec (decimals x d / 10 ^ d) = dec (decimals x d' / 10 ^ d') ++ 46 :: last_digits (Z.to_nat d') (decimals x d') -> False).
  { intros k k' K _ _ Q. apply (P k K). rewrite Q. apply in_or_app. right. now left. }
  destruct (Z.eqb_spec d 0) as [->|D], (Z.eqb_spec d' 0) as [->|D'].
  - lia.
  - rewrite app_nil_r in E. exact (G 0 d' ltac:(lia) D' H' E).
  - rewrite app_nil_r in E. symmetry in E. exact (G 0 d ltac:(lia) D H E).
  - apply split_at in E; [|now apply P|now apply P]. destruct E as [_ E]. apply (f_equal (@length Z)) in E. rewrite !last_digits_length in E. lia.
Qed.
