(** Lemmas about the levels of the fixed-tick book in exact arithmetic. *)
From Coq Require Import QArith Qround Qfield ZifyBool.
From Verif Require Import Base StaticTicks.
Local Open Scope Z_scope.
Ltac Zify.zify_post_hook ::= Z.div_mod_to_equations.

Lemma Qfloor_frac q a b : 0 < b -> (q == inject_Z a / inject_Z b)%Q -> Qfloor q = a / b.
Proof.
  intros Hb H. destruct b as [|b|b]; try lia. rewrite <- Qmake_Qdiv in H. rewrite (Qfloor_comp _ _ H). reflexivity.
Qed.
Lemma Qle_frac q a b : 0 <= a -> 0 < b -> (q == inject_Z a / inject_Z b)%Q -> Qle_bool 0 q = true.
Proof.
  intros Ha Hb H. destruct b as [|b|b]; try lia. rewrite <- Qmake_Qdiv in H. apply Qle_bool_iff. rewrite H. unfold Qle. cbn. lia.
Qed.
Lemma inject_nz b : b <> 0 -> ~ (inject_Z b == 0)%Q.
Proof. intros H E. apply H. apply (inject_Z_injective b 0). exact E. Qed.
Lemma trunc_frac q a b : 0 <= a -> 0 < b -> (q == inject_Z a / inject_Z b)%Q -> trunc_Z exact q = a / b.
Proof. intros Ha Hb H. cbn [round_Z trunc_Z exact]. rewrite (Qle_frac q a b Ha Hb H). now apply Qfloor_frac. Qed.
Lemma round_frac q a b : 0 <= a -> 0 < b -> (q == inject_Z a / inject_Z b)%Q -> round_Z exact q = (2 * a + b) / (2 * b).
Proof.
  intros Ha Hb H. cbn [round_Z trunc_Z exact]. rewrite (Qle_frac q a b Ha Hb H). apply Qfloor_frac; [lia|]. rewrite H.
  rewrite inject_Z_plus, !inject_Z_mult. change (inject_Z 2) with (2 # 1)%Q. field. apply inject_nz. lia.
Qed.

Section Ideal.
Context (denominator multiple lowest highest : Z).
Hypothesis Hd : 0 < denominator.
Hypothesis Hm : 1 <= multiple.
Hypothesis Hr : lowest < highest.
Local Notation lot := (multiple * denominator).
Local Notation E := (real exact denominator lot).

Lemma span_pos : 0 < multiple * (highest - lowest).
Proof. apply Z.mul_pos_pos; lia. Qed.
Lemma real_spec v : (E v == inject_Z v / (inject_Z denominator * inject_Z denominator * inject_Z multiple))%Q.
Proof.
  unfold real. cbn [div of_Z exact]. rewrite inject_Z_mult. field. split; apply inject_nz; lia.
Qed.
Lemma real_diff v w : (E v - E w == inject_Z (v - w) / (inject_Z denominator * inject_Z denominator * inject_Z multiple))%Q.
Proof.
  rewrite !real_spec. unfold Z.sub. rewrite inject_Z_plus, inject_Z_opp. field. split; apply inject_nz; lia.
Qed.
Lemma levels_spec : levels exact denominator lot lowest highest = multiple * (highest - lowest) + 1.
Proof.
  unfold levels. rewrite (trunc_frac _ (multiple * (highest - lowest) + 1) 1); [lia|pose proof span_pos; lia|lia|].
  cbn [add mul sub of_Z exact]. rewrite real_diff. rewrite inject_Z_plus, !inject_Z_mult.
  field. split; apply inject_nz; lia.
Qed.
Lemma encode_spec v : lowest <= v <= highest ->
  encode exact denominator lot lowest highest v
  = multiple * (v - lowest) + (2 * (v - lowest) + (highest - lowest)) / (2 * (highest - lowest)).
Proof.
  intros Hv. unfold encode. rewrite levels_spec.
  rewrite (round_frac _ ((v - lowest) * (multiple * (highest - lowest) + 1)) (highest - lowest)); [|pose proof span_pos; apply Z.mul_nonneg_nonneg; lia|lia|].
  - replace (2 * ((v - lowest) * (multiple * (highest - lowest) + 1)) + (highest - lowest))
      with (2 * (v - lowest) + (highest - lowest) + (multiple * (v - lowest)) * (2 * (highest - lowest))) by ring.
    rewrite Z.div_add by lia. lia.
  - cbn [mul div sub of_Z exact]. rewrite !real_diff. rewrite !inject_Z_mult.
    field. repeat split; apply inject_nz; lia.
Qed.
Lemma decode_spec l : 0 <= l -> 0 <= lowest -> decode exact denominator lot lowest highest l = lowest + l / multiple.
Proof.
  intros Hl H0. unfold decode. rewrite levels_spec. cbv zeta.
  rewrite (round_frac _ (l * (multiple * (highest - lowest))) 1); [|pose proof span_pos; apply Z.mul_nonneg_nonneg; lia|lia|].
  - rewrite (trunc_frac _ (l + lowest * multiple) multiple); [|apply Z.add_nonneg_nonneg; [lia|apply Z.mul_nonneg_nonneg; lia]|lia|].
    + rewrite Z.div_add by lia. lia.
    + cbn [mul div sub add of_Z exact].
      replace ((2 * (l * (multiple * (highest - lowest))) + 1) / (2 * 1)) with (l * (multiple * (highest - lowest))) by lia.
      replace (multiple * (highest - lowest) + 1 - 1) with (multiple * (highest - lowest)) by lia.
      rewrite real_spec. rewrite inject_Z_plus, !inject_Z_mult. field.
      repeat split; apply inject_nz; lia.
  - cbn [mul div sub add of_Z exact]. rewrite real_diff, !inject_Z_mult. field. split; apply inject_nz; lia.
Qed.
End Ideal.
