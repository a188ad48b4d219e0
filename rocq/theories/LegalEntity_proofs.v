(** Facts about reading legal entity identifiers. *)
From Coq Require Import ZifyBool ZifyNat.
From Verif Require Import Base CheckDigits CheckDigits_spec LegalEntity.

Lemma chars_within n : forall text k, (k + n <= length text)%nat -> chars_at text k n = Some (firstn n (skipn k text)).
Proof.
  induction n as [|n IH]; intros text k L; [reflexivity|]. cbn [chars_at]. unfold char_at.
  destruct (nth_error text k) as [c|] eqn:N; [|apply nth_error_None in N; lia].
  rewrite IH by lia. f_equal. clear IH L. revert text N. induction k as [|k IH]; intros [|d text] N; try discriminate.
  - now injection N as ->.
  - cbn [skipn]. now apply IH.
Qed.
Lemma chars_beyond n : forall text k, (0 < n)%nat -> (length text + 1 < k + n)%nat -> chars_at text k n = None.
Proof.
  induction n as [|n IH]; intros text k P L; [lia|]. cbn [chars_at]. unfold char_at.
  destruct (nth_error text k) as [c|] eqn:N.
  - assert (k < length text)%nat by (apply nth_error_Some; congruence). rewrite IH by lia. reflexivity.
  - apply nth_error_None in N. destruct (Nat.eqb_spec k (length text)); [|reflexivity]. rewrite IH by lia. reflexivity.
Qed.
Lemma read_parts b local two code rest : length local = 4%nat -> length two = 2%nat -> length code = 12%nat ->
  lei_of_text b (local ++ two ++ code ++ rest) =
  if b && negb (assertions (local ++ two ++ code ++ rest) local code) then Aborted else Read local code.
Proof.
  intros L1 L2 L3. unfold lei_of_text.
  rewrite (chars_within 4), (chars_within 12) by (rewrite !app_length; lia).
  replace (firstn 4 (skipn 0 (local ++ two ++ code ++ rest))) with local.
  2:{ cbn [skipn]. rewrite <- L1, firstn_app, Nat.sub_diag, firstn_O, app_nil_r, firstn_all. reflexivity. }
  replace (firstn 12 (skipn 6 (local ++ two ++ code ++ rest))) with code; [reflexivity|].
  rewrite app_assoc, skipn_app, skipn_all2 by (rewrite app_length; lia).
  replace (6 - length (local ++ two))%nat with 0%nat by (rewrite app_length; lia). cbn [app skipn].
  rewrite <- L3, firstn_app, Nat.sub_diag, firstn_O, app_nil_r, firstn_all. reflexivity.
Qed.
Lemma text_parts (text : list Z) : (18 <= length text)%nat -> exists local two code rest,
  text = local ++ two ++ code ++ rest /\ length local = 4%nat /\ length two = 2%nat /\ length code = 12%nat /\ length rest = (length text - 18)%nat.
Proof.
  intros L. exists (firstn 4 text), (firstn 2 (skipn 4 text)), (firstn 12 (skipn 6 text)), (skipn 18 text).
  repeat split; rewrite ?firstn_length, ?skipn_length; try lia.
  do 18 (destruct text as [|? text]; [cbn in L; lia|]). reflexivity.
Qed.
Lemma nth_two a b (two : list Z) c : length a = 4%nat -> length two = 2%nat -> (nth 4 (a ++ two ++ b) c =? 48) && (nth 5 (a ++ two ++ b) c =? 48) = true <-> two = [48; 48].
Proof.
  intros L1 L2. do 5 (destruct a as [|? a]; try discriminate). do 3 (destruct two as [|? two]; try discriminate). cbn [app nth].
  split; [intros H; repeat f_equal; lia | intros [= -> ->]; reflexivity].
Qed.
Lemma digits_iff l : forallb is_digit l = true <-> Forall digit_char l.
Proof.
  rewrite forallb_forall, Forall_forall. unfold is_digit, digit_char. split; intros H x I; specialize (H x I); lia.
Qed.
Lemma symbols_iff l : forallb (fun c => is_digit c || is_capital c) l = true <-> Forall (fun c => digit_char c \/ letter_char c) l.
Proof.
  rewrite forallb_forall, Forall_forall. unfold is_digit, is_capital, digit_char, letter_char. split; intros H x I; specialize (H x I); lia.
Qed.
Lemma assertions_iff local two code rest : length local = 4%nat -> length two = 2%nat -> length code = 12%nat ->
  assertions (local ++ two ++ code ++ rest) local code = true <->
  Forall digit_char local /\ two = [48; 48] /\ Forall (fun c => digit_char c \/ letter_char c) code /\
  (rest = [] \/ rest = [fst (lei_checksum local code); snd (lei_checksum local code)]).
Proof.
  intros L1 L2 L3. unfold assertions.
  rewrite !andb_true_iff, digits_iff, symbols_iff, <- andb_true_iff, (nth_two local (code ++ rest) two 0 L1 L2).
  assert (T : length (local ++ two ++ code ++ rest) = (18 + length rest)%nat) by (rewrite !app_length; lia). rewrite T.
  assert (N : forall k, nth (18 + k) (local ++ two ++ code ++ rest) 0 = nth k rest 0).
  { intros k. rewrite !app_assoc, app_nth2 by (rewrite !app_length; lia). f_equal. rewrite !app_length. lia. }
  rewrite (N 0%nat : nth 18 _ 0 = _), (N 1%nat : nth 19 _ 0 = _). clear N T.
  destruct rest as [|x [|y [|z rest]]]; cbn [length Nat.add Nat.eqb orb nth].
  - intuition.
  - split; [intros ((((H & _) & _) & _) & _); discriminate | intros (_ & _ & _ & [H|H]); discriminate].
  - rewrite andb_true_iff, !Z.eqb_eq. split; [intros ((((_ & A) & B) & C) & -> & ->); auto | intros (A & B & C & [H|H]); [discriminate|]].
    injection H as -> ->. auto 10.
  - split; [intros ((((H & _) & _) & _) & _); discriminate | intros (_ & _ & _ & [H|H]); discriminate].
Qed.
