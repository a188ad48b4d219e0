(** C54-C59, C72: check digits of ISIN, CUSIP, SEDOL and LEI; share identifiers; country codes. *)
From Coq Require Import ZifyBool ZifyNat String.
From Verif Require Import Base Text Algorithms Algorithms_proofs Identity CheckDigits CheckDigits_spec CheckDigits_proofs.
Local Open Scope Z_scope.
Ltac Zify.zify_post_hook ::= Z.div_mod_to_equations.

(** * ISIN *)
Theorem C54_luhn : forall issuer code, length issuer = 2%nat -> length code = 9%nat ->
  digit_char (isin_checksum issuer code) /\
  luhn (expand (issuer ++ code) ++ [isin_checksum issuer code - 48]).
Proof.
  intros issuer code Hi Hc. rewrite isin_checksum_luhn by lia. unfold digit_char, luhn. rewrite rev_app_distr. cbn [rev app luhn_sum negb].
  split; [lia|]. generalize (luhn_sum true (rev (expand (issuer ++ code)))). intros z. lia.
Qed.
Print Assumptions C54_luhn.

Theorem C54_single_digit : forall issuer before a b after, length issuer = 2%nat ->
  length (before ++ a :: after) = 9%nat -> digit_char a -> digit_char b -> a <> b ->
  isin_checksum issuer (before ++ a :: after) <> isin_checksum issuer (before ++ b :: after).
Proof.
  intros issuer before a b after Hi L Ha Hb N E.
  assert (L' : length (before ++ b :: after) = 9%nat) by (rewrite app_length in *; exact L).
  rewrite !isin_checksum_luhn in E by lia. apply Z.add_cancel_l, check_inj in E.
  replace (issuer ++ before ++ a :: after)%list with ((issuer ++ before) ++ [a] ++ after)%list in E by (cbn [app]; rewrite <- app_assoc; reflexivity).
  replace (issuer ++ before ++ b :: after)%list with ((issuer ++ before) ++ [b] ++ after)%list in E by (cbn [app]; rewrite <- app_assoc; reflexivity).
  rewrite !(expand_app (issuer ++ before)), !(expand_app [_]) in E.
  change (expand [a]) with (expand_char a ++ []) in E. change (expand [b]) with (expand_char b ++ []) in E.
  rewrite (expand_digit_char a Ha), (expand_digit_char b Hb) in E. cbn [app] in E.
  rewrite !rev_app_distr in E. cbn [rev] in E. rewrite <- !app_assoc in E. rewrite !luhn_app in E. cbn [app luhn_sum] in E.
  unfold digit_char in *. unfold digit_sum in E.
  destruct (xorb true (Nat.odd (length (rev (expand after))))); cbn [length Nat.odd Nat.even xorb negb] in E.
  - generalize dependent (luhn_sum true (rev (expand after))). generalize dependent (luhn_sum false (rev (expand (issuer ++ before)))). intros; lia.
  - generalize dependent (luhn_sum true (rev (expand after))). generalize dependent (luhn_sum true (rev (expand (issuer ++ before)))). intros; lia.
Qed.
Print Assumptions C54_single_digit.

Theorem C54_transposition : forall issuer before a b after, length issuer = 2%nat ->
  length (before ++ a :: b :: after) = 9%nat -> digit_char a -> digit_char b ->
  (isin_checksum issuer (before ++ a :: b :: after) = isin_checksum issuer (before ++ b :: a :: after) <->
   a = b \/ (a = 48 /\ b = 57) \/ (a = 57 /\ b = 48)).
Proof.
  intros issuer before a b after Hi L Ha Hb.
  assert (L' : length (before ++ b :: a :: after) = 9%nat) by (rewrite app_length in *; exact L).
  rewrite !isin_checksum_luhn by lia.
  replace (issuer ++ before ++ a :: b :: after)%list with ((issuer ++ before) ++ [a; b] ++ after)%list by (cbn [app]; rewrite <- app_assoc; reflexivity).
  replace (issuer ++ before ++ b :: a :: after)%list with ((issuer ++ before) ++ [b; a] ++ after)%list by (cbn [app]; rewrite <- app_assoc; reflexivity).
  rewrite !(expand_app (issuer ++ before)), !(expand_app [_; _]).
  change (expand [a; b]) with (expand_char a ++ expand_char b ++ []). change (expand [b; a]) with (expand_char b ++ expand_char a ++ []).
  rewrite (expand_digit_char a Ha), (expand_digit_char b Hb). cbn [app].
  rewrite !rev_app_distr. cbn [rev]. rewrite <- !app_assoc. rewrite !luhn_app. cbn [app luhn_sum].
  unfold digit_char in *. unfold digit_sum.
  destruct (xorb true (Nat.odd (length (rev (expand after))))); cbn [length Nat.odd Nat.even xorb negb].
  - generalize dependent (luhn_sum true (rev (expand after))). generalize dependent (luhn_sum true (rev (expand (issuer ++ before)))). intros; lia.
  - generalize dependent (luhn_sum true (rev (expand after))). generalize dependent (luhn_sum false (rev (expand (issuer ++ before)))). intros; lia.
Qed.
Print Assumptions C54_transposition.

Example C54_example :
  print_isin (codes "US", codes "037833100") = codes "US0378331005" /\
  print_isin (codes "AU", codes "0000XVGZA") = codes "AU0000XVGZA3" /\
  print_isin (codes "GB", codes "000263494") = codes "GB0002634946" /\
  isin_checksum (codes "US") (codes "037833100") <> isin_checksum (codes "US") (codes "037838100") /\
  isin_checksum (codes "US") (codes "037833100") <> isin_checksum (codes "US") (codes "307833100").
Proof. vm_compute. repeat split; discriminate. Qed.
(** Outside the claim: replacing one letter by another can go undetected. *)
Example C54_letters_undetected : exists a b, letter_char a /\ letter_char b /\ a <> b /\
  isin_checksum (codes "AU") (a :: codes "00000000") = isin_checksum (codes "AU") (b :: codes "00000000").
Proof. exists 65, 84. unfold letter_char. vm_compute. repeat split; discriminate. Qed.

(** * CUSIP *)
Theorem C55_accepted_iff : forall code check, length code = 8%nat ->
  new_cusip (code ++ [check]) = (if check =? cusip_checksum code then Ret code else Throw).
Proof.
  intros code check L. unfold new_cusip.
  rewrite slice_spec by (rewrite app_length; cbn [length]; lia). cbn [skipn]. rewrite Nat.sub_0_r.
  replace (firstn 8 (code ++ [check])) with code.
  2: { rewrite <- L. rewrite firstn_app, firstn_all, Nat.sub_diag. cbn [firstn]. rewrite app_nil_r. reflexivity. }
  replace (nth 8 (code ++ [check]) 0) with check by (rewrite <- L, nth_middle; reflexivity).
  rewrite Z.eqb_sym. reflexivity.
Qed.
Print Assumptions C55_accepted_iff.

Theorem C55_check_digit : forall code, length code = 8%nat ->
  digit_char (cusip_checksum code) /\ (cusip_total false code + (cusip_checksum code - 48)) mod 10 = 0 /\
  new_cusip (print_cusip code) = Ret code.
Proof.
  intros code L. pose proof (C55_accepted_iff code (cusip_checksum code) L) as A. rewrite Z.eqb_refl in A.
  unfold print_cusip. rewrite A. rewrite cusip_checksum_spec by exact L. unfold digit_char.
  repeat split; lia.
Qed.
Print Assumptions C55_check_digit.

Theorem C55_single_digit : forall before a b after check,
  length (before ++ a :: after) = 8%nat -> digit_char a -> digit_char b -> a <> b ->
  new_cusip ((before ++ a :: after) ++ [check]) = Ret (before ++ a :: after) ->
  new_cusip ((before ++ b :: after) ++ [check]) = Throw.
Proof.
  intros before a b after check L Ha Hb N.
  assert (L' : length (before ++ b :: after) = 8%nat) by (rewrite app_length in *; exact L).
  rewrite !C55_accepted_iff by assumption.
  destruct (Z.eqb_spec check (cusip_checksum (before ++ a :: after))) as [Ea|]; [|discriminate].
  destruct (Z.eqb_spec check (cusip_checksum (before ++ b :: after))) as [Eb|]; [|reflexivity].
  exfalso. assert (E : cusip_checksum (before ++ a :: after) = cusip_checksum (before ++ b :: after)) by congruence.
  rewrite !cusip_checksum_spec in E by assumption. apply Z.add_cancel_l, check_inj in E.
  rewrite !cusip_total_app in E. cbn [cusip_total] in E. rewrite !place_cusip, (cusip_value_digit a Ha), (cusip_value_digit b Hb) in E.
  unfold digit_char in *. unfold digit_sum in E. clear Ea Eb.
  destruct (xorb false (Nat.odd (length before))); cbn [negb] in E.
  - generalize dependent (cusip_total false after). generalize dependent (cusip_total false before). intros; lia.
  - generalize dependent (cusip_total true after). generalize dependent (cusip_total false before). intros; lia.
Qed.
Print Assumptions C55_single_digit.

Example C55_example :
  map (fun s => print_cusip (codes s)) ["03783310"; "17275R10"; "38259P50"; "59491810"; "68389X10"; "00BBJNQY"]%string
  = map codes ["037833100"; "17275R102"; "38259P508"; "594918104"; "68389X105"; "00BBJNQY2"]%string /\
  new_cusip (codes "037833100") = Ret (codes "03783310") /\
  new_cusip (codes "037833101") = Throw /\ new_cusip (codes "038833100") = Throw.
Proof. vm_compute. repeat split. Qed.

(** * SEDOL *)
Theorem C56_check_digit : forall code, length code = 6%nat ->
  digit_char (sedol_checksum code) /\ (sedol_total code (sedol_checksum code - 48)) mod 10 = 0.
Proof.
  intros code L. destruct code as [|a [|b [|c [|d [|e [|f [|]]]]]]]; try discriminate L.
  unfold sedol_checksum, sedol_sum, sedol_weights. cbn [combine fold_left fst snd].
  pose proof (symbol_value_range a). pose proof (symbol_value_range b). pose proof (symbol_value_range c).
  pose proof (symbol_value_range d). pose proof (symbol_value_range e). pose proof (symbol_value_range f).
  unfold digit_char, sedol_total. rewrite !place_symbols.
  rewrite (w64_small (0 + _)) by lia.
  rewrite (w64_small (0 + _ + _)) by lia.
  rewrite (w64_small (0 + _ + _ + _)) by lia.
  rewrite (w64_small (0 + _ + _ + _ + _)) by lia.
  rewrite (w64_small (0 + _ + _ + _ + _ + _)) by lia.
  rewrite (w64_small (0 + _ + _ + _ + _ + _ + _)) by lia.
  split; lia.
Qed.
Print Assumptions C56_check_digit.

Theorem C56_single_digit : forall before a b after, length (before ++ a :: after) = 6%nat ->
  digit_char a -> digit_char b -> a <> b ->
  sedol_checksum (before ++ a :: after) <> sedol_checksum (before ++ b :: after).
Proof.
  intros before a b after L Ha Hb N E.
  assert (L' : length (before ++ b :: after) = 6%nat) by (rewrite app_length in *; exact L).
  destruct (C56_check_digit _ L) as [_ A]. destruct (C56_check_digit _ L') as [_ B]. rewrite <- E in B.
  generalize dependent (sedol_checksum (before ++ a :: after) - 48). intros k A B. clear E.
  assert (R : forall x, {y | y = symbol_value x}) by (intros x; exists (symbol_value x); reflexivity).
  pose proof (symbol_value_digit a Ha) as Va. pose proof (symbol_value_digit b Hb) as Vb. unfold digit_char in *.
  destruct before as [|x0 [|x1 [|x2 [|x3 [|x4 [|x5 bt]]]]]]; cbn [app length] in *;
    try (exfalso; rewrite app_length in L; cbn in L; lia);
    destruct after as [|y0 [|y1 [|y2 [|y3 [|y4 [|y5 yt]]]]]]; cbn [length] in L; try discriminate L;
    cbn [sedol_total app] in A, B; rewrite !place_symbols in A, B; rewrite Va in A; rewrite Vb in B; clear Va Vb R L L';
    repeat match goal with H : context [symbol_value ?x] |- _ => generalize dependent (symbol_value x); intros end; lia.
Qed.
Print Assumptions C56_single_digit.

Example C56_example :
  map (fun s => sedol_checksum (codes s)) ["710889"; "B0YBKJ"; "406566"; "B0YBLH"; "228276"]%string = codes "97325" /\
  sedol_checksum (codes "710889") <> sedol_checksum (codes "710829").
Proof. vm_compute. repeat split. discriminate. Qed.
(** Outside the claim: a digit replaced by a letter may go undetected. *)
Example C56_letter_undetected : sedol_checksum (codes "710889") = sedol_checksum (codes "H10889").
Proof. vm_compute. reflexivity. Qed.

(** * LEI *)
Theorem C57_mod_97 : forall local code, valid_lei local code ->
  length (print_lei local code) = 20%nat /\
  digit_char (fst (lei_checksum local code)) /\ digit_char (snd (lei_checksum local code)) /\
  number (expand (print_lei local code)) mod 97 = 1 /\
  0 <= number (expand (print_lei local code)) < 2 ^ 128.
Proof.
  intros local code V. destruct (lei_checksum_spec local code V) as [E B]. cbv zeta in E, B.
  destruct (lei_sum local code V) as [_ NB].
  assert (D0 : digit_char (fst (lei_checksum local code))) by (rewrite E; unfold digit_char; cbn [fst]; lia).
  assert (D1 : digit_char (snd (lei_checksum local code))) by (rewrite E; unfold digit_char; cbn [snd]; lia).
  split.
  { unfold print_lei. destruct V as (L1 & _ & L2 & _). rewrite !app_length, L1, L2. reflexivity. }
  split; [exact D0|]. split; [exact D1|].
  assert (N : number (expand (print_lei local code)) = lei_number local code * 100 + (98 - (lei_number local code * 100) mod 97)).
  { assert (P : print_lei local code = ((local ++ [48; 48] ++ code) ++ [fst (lei_checksum local code); snd (lei_checksum local code)])%list)
      by (unfold print_lei; rewrite <- !app_assoc; reflexivity).
    rewrite P, expand_app, number_app. fold (lei_number local code).
    assert (Q : expand [fst (lei_checksum local code); snd (lei_checksum local code)]
                = [fst (lei_checksum local code) - 48; snd (lei_checksum local code) - 48]).
    { unfold expand. cbn [flat_map]. rewrite (expand_digit_char _ D0), (expand_digit_char _ D1). reflexivity. }
    rewrite Q, E. cbn [fst snd length]. change (10 ^ Z.of_nat 2) with 100.
    unfold number. cbn [fold_left]. lia. }
  rewrite N. split; lia.
Qed.
Print Assumptions C57_mod_97.

(** Every substitution of a digit for a digit or of a letter for a letter is detected. *)
Theorem C57_substitution : forall local before a b after, valid_lei local (before ++ a :: after) ->
  (digit_char a /\ digit_char b) \/ (letter_char a /\ letter_char b) -> a <> b ->
  lei_checksum local (before ++ a :: after) <> lei_checksum local (before ++ b :: after).
Proof.
  intros local before a b after V C N E.
  assert (V' : valid_lei local (before ++ b :: after)).
  { destruct V as (L1 & D1 & L2 & D2). split; [exact L1|]. split; [exact D1|]. split; [rewrite app_length in *; exact L2|].
    apply Forall_app in D2. destruct D2 as [D2 D3]. inversion D3; subst. apply Forall_app. split; [assumption|]. constructor; [tauto|assumption]. }
  destruct (lei_checksum_spec _ _ V) as [E1 B1]. destruct (lei_checksum_spec _ _ V') as [E2 B2]. cbv zeta in *.
  rewrite E1, E2 in E. injection E as F1 F2.
  assert (G : ((lei_number local (before ++ a :: after) - lei_number local (before ++ b :: after)) * 10 ^ Z.of_nat 2) mod 97 = 0) by (change (10 ^ Z.of_nat 2) with 100; lia).
  apply cancel_pow10 in G. clear - V C N G.
  unfold lei_number in G.
  replace (local ++ [48; 48] ++ before ++ a :: after)%list with ((local ++ [48; 48] ++ before) ++ [a] ++ after)%list in G by (rewrite <- !app_assoc; reflexivity).
  replace (local ++ [48; 48] ++ before ++ b :: after)%list with ((local ++ [48; 48] ++ before) ++ [b] ++ after)%list in G by (rewrite <- !app_assoc; reflexivity).
  rewrite !(expand_app (local ++ [48; 48] ++ before)), !(expand_app [_]), !number_app, !app_length in G.
  change (expand [a]) with (expand_char a ++ []) in G. change (expand [b]) with (expand_char b ++ []) in G. rewrite !app_nil_r in G.
  assert (Q : length (expand_char a) = length (expand_char b) /\ number (expand_char a) - number (expand_char b) = a - b).
  { destruct C as [[Ha Hb]|[Ha Hb]].
    - rewrite (expand_digit_char a Ha), (expand_digit_char b Hb). split; [reflexivity|]. unfold number; cbn [fold_left]; lia.
    - rewrite <- (expand_code_char a (or_intror Ha)), <- (expand_code_char b (or_intror Hb)). unfold lei_digits.
      unfold letter_char in *. replace (is_digit_char a) with false by (unfold is_digit_char; lia).
      replace (is_digit_char b) with false by (unfold is_digit_char; lia). split; [reflexivity|]. unfold number; cbn [fold_left]; lia. }
  destruct Q as [Q1 Q2]. rewrite Q1 in G.
  match type of G with (?x) mod 97 = 0 => replace x with ((number (expand_char a) - number (expand_char b)) * 10 ^ Z.of_nat (length (expand after))) in G by ring end.
  apply cancel_pow10 in G. rewrite Q2 in G. unfold digit_char, letter_char in C. lia.
Qed.
Print Assumptions C57_substitution.

(** A letter for a digit can go undetected. *)
Theorem C57_substitution_refuted : exists local before a b after,
  valid_lei local (before ++ a :: after) /\ valid_lei local (before ++ b :: after) /\ a <> b /\
  lei_checksum local (before ++ a :: after) = lei_checksum local (before ++ b :: after).
Proof.
  exists (codes "0079"), [], 48, 65, (codes "00000000000").
  assert (F : Forall (fun c => digit_char c \/ letter_char c) (codes "00000000000")).
  { change (codes "00000000000") with (repeat 48 11). apply Forall_forall. intros x H. apply repeat_spec in H. subst x.
    left. unfold digit_char. lia. }
  assert (G : Forall digit_char (codes "0079")) by (change (codes "0079") with [48; 48; 55; 57]; unfold digit_char; repeat constructor; lia).
  unfold valid_lei.
  split; [repeat split; [exact G|constructor; [left; unfold digit_char; lia|exact F]]|].
  split; [repeat split; [exact G|constructor; [right; unfold letter_char; lia|exact F]]|].
  split; [discriminate|]. vm_compute. reflexivity.
Qed.
Print Assumptions C57_substitution_refuted.

(** A default-constructed identifier is not a legal entity identifier: it prints NUL characters. *)
Theorem C57_default_refuted :
  let '(local, code) := default_lei in
  length (print_lei local code) = 20%nat /\ ~ valid_lei local code /\ In 0 (print_lei local code).
Proof.
  cbn [default_lei]. split; [reflexivity|]. split.
  - intros (_ & D & _). inversion D as [|? ? _ D1]; subst. inversion D1 as [|? ? H _]; subst. unfold digit_char in H. lia.
  - vm_compute. tauto.
Qed.
Print Assumptions C57_default_refuted.

(** Created identifiers are valid. *)
Theorem C57_created_valid : forall hash local, length local = 4%nat -> Forall digit_char local ->
  valid_lei (fst (create_lei hash local)) (snd (create_lei hash local)).
Proof.
  intros hash local L D. unfold create_lei, valid_lei. cbn [fst snd].
  split; [exact L|]. split; [exact D|]. split; [apply base36_length|apply base36_valid].
Qed.
Print Assumptions C57_created_valid.

Example C57_example : lei_checksum (codes "5493") (codes "OEQ1MKHXPXKN") <> (0, 0) /\
  number (expand (print_lei (codes "5493") (codes "OEQ1MKHXPXKN"))) mod 97 = 1 /\
  print_lei (codes "5493") (codes "0IBP32UQZ0KL") = codes "5493000IBP32UQZ0KL24" /\
  lei_checksum (codes "5493") (codes "0IBP32UQZ0KL") <> lei_checksum (codes "5493") (codes "0IBP32UQZ0KM").
Proof. vm_compute. repeat split; discriminate. Qed.

(** * C58: ISIN from text *)
Theorem C58_text_refuted : exists text i, length text = 11%nat /\ isin_from_text text = Ret i /\
  snd i <> skipn 2 text /\ firstn 11 (print_isin i) <> text.
Proof.
  exists (codes "US037833100"). eexists. split; [reflexivity|]. split; [vm_compute; reflexivity|].
  split; vm_compute; discriminate.
Qed.
Print Assumptions C58_text_refuted.

(** What is stored is the country followed by the first seven characters. *)
Theorem C58_what_is_stored : forall a b code, length code = 9%nat ->
  isin_from_text (a :: b :: code) =
  (if is_upper a && is_upper b then Ret ([a; b], a :: b :: firstn 7 code) else Throw).
Proof.
  intros a b code L. unfold isin_from_text. cbn [length]. rewrite L. cbn [Nat.ltb Nat.leb].
  replace (firstn 11 (a :: b :: code)) with (a :: b :: code) by (symmetry; apply firstn_all2; cbn [length]; lia).
  unfold isin_from_array. cbn [nth new_country]. destruct (is_upper a && is_upper b); [|reflexivity].
  rewrite slice_spec by (cbn [length]; lia). cbn [skipn Nat.sub firstn]. reflexivity.
Qed.
Print Assumptions C58_what_is_stored.

(** So the national code is right exactly when it repeats the country over and over. *)
Theorem C58_right_iff : forall a b code, length code = 9%nat -> is_upper a && is_upper b = true ->
  (isin_from_text (a :: b :: code) = Ret ([a; b], code) <-> code = [a; b; a; b; a; b; a; b; a]).
Proof.
  intros a b code L U. rewrite C58_what_is_stored, U by exact L. split.
  - intros H. injection H as H.
    destruct code as [|c0 [|c1 [|c2 [|c3 [|c4 [|c5 [|c6 [|c7 [|c8 [|]]]]]]]]]]; try discriminate L.
    cbn [firstn] in H. injection H; intros; subst; reflexivity.
  - intros ->. reflexivity.
Qed.
Print Assumptions C58_right_iff.

(** What is stored is printed as it is, with the check digit at the end. *)
Theorem C58_printed : forall country code, length country = 2%nat -> length code = 9%nat ->
  firstn 2 (print_isin (country, code)) = country /\ firstn 9 (skipn 2 (print_isin (country, code))) = code /\ length (print_isin (country, code)) = 12%nat /\
  digit_char (last (print_isin (country, code)) 0) /\ luhn (expand (print_isin (country, code))).
Proof.
  intros country code L1 L2. destruct (C54_luhn country code L1 L2) as [D Lu].
  assert (E : expand (print_isin (country, code)) = expand (country ++ code) ++ [isin_checksum country code - 48]).
  { unfold print_isin. cbn [fst snd]. rewrite app_assoc. unfold expand at 1. rewrite flat_map_app. f_equal. cbn [flat_map]. rewrite app_nil_r. revert D. generalize (isin_checksum country code). intros c D.
    unfold digit_char in D. assert (C : c = 48 \/ c = 49 \/ c = 50 \/ c = 51 \/ c = 52 \/ c = 53 \/ c = 54 \/ c = 55 \/ c = 56 \/ c = 57) by lia.
    destruct C as [-> | [-> | [-> | [-> | [-> | [-> | [-> | [-> | [-> | ->]]]]]]]]]; reflexivity. }
  rewrite E. split; [|split; [|split; [|split; [|exact Lu]]]].
  4: { unfold print_isin. cbn [fst snd]. rewrite app_assoc, last_last. exact D. }
  all: unfold print_isin; cbn [fst snd]; destruct country as [|a [|b [|]]]; try discriminate L1;
    destruct code as [|c0 [|c1 [|c2 [|c3 [|c4 [|c5 [|c6 [|c7 [|c8 [|]]]]]]]]]]; try discriminate L2; reflexivity.
Qed.
Print Assumptions C58_printed.

Example C58_example : isin_from_text (codes "US037833100") = Ret (codes "US", codes "US0378331") /\
  print_isin (codes "US", codes "US0378331") = codes "USUS03783317" /\
  isin_from_text (codes "us037833100") = Throw /\ isin_from_text (codes "US03783310") = UB.
Proof. vm_compute. repeat split. Qed.

(** * C59 *)
Theorem C59_identifiers_differ : forall c r c' r', (c, r) <> (c', r') ->
  create_share_identifier c r <> create_share_identifier c' r'.
Proof.
  intros c r c' r' N E. apply N. unfold create_share_identifier in E. apply app_inj_tail in E. destruct E as [-> ->]. reflexivity.
Qed.
Print Assumptions C59_identifiers_differ.

Theorem C59_isin_refuted : exists c c' r, c <> c' /\ create_isin_code c r = create_isin_code c' r.
Proof. exists [0; 1; 5], [0; 2; 5], 0. split; [discriminate|]. vm_compute. reflexivity. Qed.
Print Assumptions C59_isin_refuted.

(** Codes differ for companies made by one parent, up to 36^9 / 1000 of them and 256 ranks. *)
Theorem C59_isin_siblings : forall parent d r d' r',
  0 <= r < 256 -> 0 <= r' < 256 -> 0 <= d * 1000 + r < 36 ^ 9 -> 0 <= d' * 1000 + r' < 36 ^ 9 -> 0 <= d -> 0 <= d' ->
  create_isin_code (parent ++ [d]) r = create_isin_code (parent ++ [d']) r' -> d = d' /\ r = r'.
Proof.
  intros parent d r d' r' R R' B B' Hd Hd' E. unfold create_isin_code in E. rewrite !app_length, !last_last in E. cbn [length] in E.
  replace (length parent + 1 =? 0)%nat with false in E by lia. cbv zeta in E.
  rewrite (w64_small (d * 1000)) in E by lia. rewrite (w64_small (d' * 1000)) in E by lia.
  rewrite !w64_small in E by lia.
  apply (f_equal (@rev Z)) in E. rewrite !rev_involutive in E. apply base36_inj in E.
  change (Z.of_nat 9) with 9 in E. rewrite !Z.mod_small in E by lia. lia.
Qed.
Print Assumptions C59_isin_siblings.

Example C59_example : create_share_identifier [3; 7] 1 = [3; 7; 1] /\
  create_isin_code [3; 7] 1 = codes "0000005EH" /\ create_isin_code [3; 8] 1 <> create_isin_code [3; 7] 1.
Proof. vm_compute. repeat split. discriminate. Qed.

(** * C72 *)
Theorem C72_accepted_iff : forall code,
  (exists c, new_country code = Ret c) <-> (exists a b, code = [a; b] /\ 65 <= a <= 90 /\ 65 <= b <= 90).
Proof.
  intros code. unfold new_country, is_upper. split.
  - intros [c H]. destruct code as [|a [|b [|x t]]]; try discriminate H. exists a, b. split; [reflexivity|].
    destruct ((65 <=? a) && (a <=? 90) && ((65 <=? b) && (b <=? 90)))%bool eqn:E; [|discriminate H]. lia.
  - intros (a & b & -> & A & B). exists [a; b].
    replace ((65 <=? a) && (a <=? 90) && ((65 <=? b) && (b <=? 90)))%bool with true by lia. reflexivity.
Qed.
Print Assumptions C72_accepted_iff.
(** What is not accepted raises an exception. *)
Theorem C72_rejected : forall code, (forall c, new_country code <> Ret c) -> new_country code = Throw.
Proof.
  intros code H. unfold new_country in *. destruct code as [|a [|b [|x t]]]; try reflexivity. destruct (is_upper a && is_upper b); [|reflexivity]. exfalso. now apply (H [a; b]).
Qed.
Print Assumptions C72_rejected.

Theorem C72_kept_and_distinct : forall code code' c c',
  new_country code = Ret c -> new_country code' = Ret c' ->
  c = code /\ (country_hash c = country_hash c' <-> c = c').
Proof.
  intros code code' c c' H H'.
  assert (P : forall x y, new_country x = Ret y -> exists a b, x = [a; b] /\ y = [a; b] /\ 65 <= a <= 90 /\ 65 <= b <= 90).
  { intros x y. unfold new_country, is_upper. destruct x as [|a [|b [|z t]]]; try discriminate.
    destruct ((65 <=? a) && (a <=? 90) && ((65 <=? b) && (b <=? 90)))%bool eqn:E; [|discriminate].
    intros K. injection K as <-. exists a, b. repeat split; lia. }
  destruct (P _ _ H) as (a & b & -> & -> & A & B). destruct (P _ _ H') as (a' & b' & -> & -> & A' & B').
  split; [reflexivity|]. unfold country_hash. cbn [nth]. rewrite !w64_small by lia. split; [|intros E; injection E as -> ->; reflexivity].
  intros E. assert (a = a' /\ b = b') as [-> ->] by lia. reflexivity.
Qed.
Print Assumptions C72_kept_and_distinct.

Example C72_example : new_country (codes "GB") = Ret (codes "GB") /\ new_country (codes "gb") = Throw /\
  new_country (codes "GBR") = Throw /\ country_hash (codes "GB") <> country_hash (codes "BG").
Proof. vm_compute. repeat split. discriminate. Qed.
