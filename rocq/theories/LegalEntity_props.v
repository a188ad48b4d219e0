(** C230: legal entity identifiers read from texts. *)
From Coq Require Import String ZifyBool ZifyNat.
From Verif Require Import Base Text CheckDigits CheckDigits_spec LegalEntity LegalEntity_proofs.

(** With assertions on, the texts read are exactly the valid identifiers, printed with or without the check digits;
    what is read is the identifier printed so. *)
Theorem C230_asserted text local code :
  lei_of_text true text = Read local code <->
  valid_lei local code /\ (text = print_lei local code \/ text = local ++ [48; 48] ++ code).
Proof.
  split.
  - intros H. destruct (Nat.lt_ge_cases (length text) 18) as [S|G].
    + exfalso. unfold lei_of_text in H. destruct (chars_at text 0 4) as [a|]; [|discriminate].
      destruct (chars_at text 6 12) as [b|]; [|discriminate]. unfold assertions in H.
      replace ((length text =? 18)%nat || (length text =? 20)%nat) with false in H by lia. discriminate.
    + destruct (text_parts text G) as (l & two & c & rest & -> & L1 & L2 & L3 & _). rewrite read_parts in H by assumption.
      destruct (assertions _ l c) eqn:A; [|discriminate]. injection H as -> ->.
      apply assertions_iff in A; try assumption. destruct A as (D & -> & S & [->| ->]); (split; [repeat split; assumption|]).
      * right. now rewrite app_nil_r.
      * now left.
  - intros ((L1 & D & L3 & S) & [->| ->]); [unfold print_lei|rewrite <- (app_nil_r code) at 1]; rewrite read_parts by (assumption || reflexivity).
    + rewrite (proj2 (assertions_iff local [48; 48] code _ L1 eq_refl L3)) by auto. reflexivity.
    + rewrite (proj2 (assertions_iff local [48; 48] code [] L1 eq_refl L3)) by auto. reflexivity.
Qed.
Print Assumptions C230_asserted.

(** Without assertions a valid identifier is still read from what is printed for it ... *)
Theorem C230_unasserted local code rest : valid_lei local code -> lei_of_text false (local ++ [48; 48] ++ code ++ rest) = Read local code.
Proof. intros (L1 & _ & L3 & _). now rewrite read_parts. Qed.
Print Assumptions C230_unasserted.

(** ... but so it is from every other text that has the same characters at the same places: neither the reserved digits
    nor the check digits nor the length matter, so a mistyped identifier is read as another one. *)
Theorem C230_mistyped_refuted local code two rest :
  length local = 4%nat -> length two = 2%nat -> length code = 12%nat ->
  lei_of_text false (local ++ two ++ code ++ rest) = Read local code.
Proof. intros. now rewrite read_parts. Qed.
Print Assumptions C230_mistyped_refuted.

(** Texts shorter than seventeen characters are read beyond their end, with assertions on or off: what the code is made
    of is not defined. *)
Theorem C230_short_refuted asserting text : (length text < 17)%nat -> lei_of_text asserting text = Undefined.
Proof.
  intros S. unfold lei_of_text. rewrite (chars_beyond 12 text 6) by lia. now destruct (chars_at text 0 4).
Qed.
Print Assumptions C230_short_refuted.

(** The identifier of a bank, with its check digits; with one digit of the code wrong; with the check digits swapped. *)
Definition bank := codes "5493001KJTIIGC8Y1R12"%string.
Example C230_case :
  lei_of_text true bank = Read (codes "5493"%string) (codes "1KJTIIGC8Y1R"%string) /\
  print_lei (codes "5493"%string) (codes "1KJTIIGC8Y1R"%string) = bank /\
  lei_of_text true (codes "5493001KJTIIGC8Y1R21"%string) = Aborted /\
  lei_of_text false (codes "5493001KJTIIGC8Y1R21"%string) = Read (codes "5493"%string) (codes "1KJTIIGC8Y1R"%string) /\
  lei_of_text false (codes "5493XX1KJTIIGC8Y1R12"%string) = Read (codes "5493"%string) (codes "1KJTIIGC8Y1R"%string) /\
  lei_of_text true (codes "HWUPKR0MPOU8FGXBT394"%string) = Aborted /\
  lei_of_text false (codes "5493"%string) = Undefined.
Proof. vm_compute. repeat split. Qed.
