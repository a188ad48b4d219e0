(** C134-C138: market identifier codes; the names of currencies and countries; the tables of codes. *)
From Coq Require Import String.
From Verif Require Import Base Text Money CheckDigits Codes Codes_spec Codes_proofs.
From Coq Require Import ZifyBool ZifyNat.
Local Open Scope Z_scope.

(** * C134 *)
(** Texts of four symbols: exactly the codes are accepted, and printed as they were; other texts of four symbols are rejected, and those of three. *)
Theorem C134_four : forall s, List.length s = 4%nat ->
  (market_code s -> exists m, market_of_string s = Ret m /\ market_text m = s) /\ (~ market_code s -> market_of_string s = Throw).
Proof.
  intros s L. destruct s as [|a [|b [|c [|d [|]]]]]; cbn in L; try discriminate.
  change (market_of_string [a; b; c; d]) with (new_market [a; b; c; d]).
  destruct (new_market_spec [a; b; c; d] eq_refl) as [[M ->] | [M ->]]; split; intros H; try tauto. exists [a; b; c; d]. auto.
Qed.
Print Assumptions C134_four.
Theorem C134_three : forall s, List.length s = 3%nat -> market_of_string s = Throw.
Proof.
  intros s L. destruct s as [|a [|b [|c [|]]]]; cbn in L; try discriminate. change (market_of_string [a; b; c]) with (new_market [a; b; c; 0]).
  unfold new_market. cbn. now rewrite !Bool.andb_false_r.
Qed.
Print Assumptions C134_three.
(** Shorter texts are not rejected: reading them is undefined. *)
Theorem C134_short_refuted : forall s, (List.length s < 3)%nat -> market_of_string s = UB.
Proof. intros s L. destruct s as [|a [|b [|c s]]]; cbn in L; try lia; reflexivity. Qed.
Print Assumptions C134_short_refuted.
(** Longer texts are not rejected: any text after a code is dropped, so that different texts give the same market. *)
Theorem C134_long_refuted : forall s t, market_code s -> market_of_string (s ++ t) = Ret s.
Proof.
  intros s t [L F]. destruct s as [|a [|b [|c [|d [|]]]]]; cbn in L; try discriminate. cbn [app].
  change (market_of_string (a :: b :: c :: d :: t)) with (new_market [a; b; c; d]).
  destruct (new_market_spec [a; b; c; d] eq_refl) as [[M ->] | [M _]]; auto. destruct M. split; auto.
Qed.
Print Assumptions C134_long_refuted.
Example C134_example : market_code (codes "XNYS") /\ market_of_string (codes "XNYS") = Ret (codes "XNYS") /\ market_of_string (codes "xnys") = Throw /\
  market_of_string (codes "BAT") = Throw /\ market_of_string (codes "XNYSE") = Ret (codes "XNYS") /\ market_of_string (codes "NY") = UB.
Proof. split; [split; [reflexivity | repeat constructor; cbn; lia]|]. repeat split; reflexivity. Qed.

(** * C135 *)
(** Markets are equal exactly when their texts are, and the order is the alphabetic one; the other comparisons follow; equal markets have equal hashes. *)
Theorem C135_order : forall a b, market_code a -> market_code b ->
  (market_eqb a b = true <-> market_text a = market_text b) /\ (market_ltb a b = true <-> before (market_text a) (market_text b)) /\
  (market_neb a b = true <-> a <> b) /\ (market_gtb a b = true <-> before b a) /\ (market_leb a b = true <-> before a b \/ a = b) /\ (market_geb a b = true <-> before b a \/ a = b) /\
  (forall hash, market_eqb a b = true -> market_hash hash a = market_hash hash b).
Proof.
  intros a b [La _] [Lb _]. unfold market_eqb, market_neb, market_ltb, market_gtb, market_leb, market_geb, market_hash, market_text.
  pose proof (array_ltb_spec a b ltac:(lia)) as P. pose proof (array_ltb_spec b a ltac:(lia)) as Q. pose proof (array_eqb_spec a b) as E.
  pose proof (before_cases a b ltac:(lia)) as T. pose proof (before_asym a b) as S1. pose proof (before_not_eq a b) as N1. pose proof (before_not_eq b a) as N2.
  repeat split; try tauto; try (rewrite Bool.negb_true_iff, <- Bool.not_true_iff_false; tauto).
  all: try (intros H; rewrite Bool.negb_true_iff, <- Bool.not_true_iff_false in *; intuition congruence).
  intros hash H. apply E in H. now subst.
Qed.
Print Assumptions C135_order.
Theorem C135_total : forall a b c, market_code a -> market_code b -> market_code c ->
  (before a b \/ a = b \/ before b a) /\ ~ before a a /\ (before a b -> ~ before b a) /\ (before a b -> before b c -> before a c).
Proof.
  intros a b c [La _] [Lb _] _. split; [apply before_cases; lia|]. split; [intros H; exact (before_not_eq a a H eq_refl)|]. split; [apply before_asym | apply before_trans].
Qed.
Print Assumptions C135_total.
Example C135_example : before (codes "XAMS") (codes "XNYS") /\ market_ltb (codes "XAMS") (codes "XNYS") = true /\ market_geb (codes "XAMS") (codes "XNYS") = false /\ market_ltb (codes "XNY9") (codes "XNYS") = true.
Proof. split; [exists (codes "X"), 65, 78, (codes "MS"), (codes "YS"); repeat split; lia|]. repeat split; reflexivity. Qed.

(** * C136 *)
(** Any two currencies, listed or not, have the same name exactly when their letters are the same. *)
Theorem C136_names : forall c d, lettered c -> lettered d -> (currency_name c = currency_name d <-> same_letters c d).
Proof. intros c d C D. split; [now apply currency_name_inj | apply currency_name_same]. Qed.
Print Assumptions C136_names.
(** Every listed currency has the name listed for it, which is not just its code. *)
Theorem C136_listed : forall e, In e currency_constants -> exists name, In (fst e, name) currency_cases /\ currency_name (currency_constant (fst e)) = codes name /\ name <> fst (snd e).
Proof.
  intros e I. assert (forallb (fun e => existsb (fun f => if String.eqb (fst f) (fst e) then array_eqb (currency_name (currency_constant (fst e))) (codes (snd f)) && negb (String.eqb (snd f) (fst (snd e))) else false) currency_cases) currency_constants = true) as F by (vm_compute; reflexivity).
  rewrite forallb_forall in F. specialize (F e I). clear I. apply existsb_exists in F as ((k & n) & J & F). cbn [fst snd] in F. destruct (String.eqb k (fst e)) eqn:K; [|discriminate F]. apply Bool.andb_true_iff in F as [G H].
  apply String.eqb_eq in K. subst k. apply array_eqb_spec in G. exists n. split; [exact J|]. split; [exact G|]. intros E. rewrite E, String.eqb_refl in H. discriminate H.
Qed.
Print Assumptions C136_listed.
Example C136_example : lettered (currency_constant "EUR") /\ currency_name (currency_constant "EUR") = codes "Euro" /\ currency_name (mk_currency 65 66 67 100) = codes "ABC" /\ List.length currency_constants = 175%nat.
Proof. split; [unfold lettered; cbn; lia|]. repeat split; vm_compute; reflexivity. Qed.

(** * C137 *)
(** Any two countries, listed or not, have the same name exactly when they are the same. *)
Theorem C137_names : forall c d, country c -> country d -> (country_name c = country_name d <-> c = d).
Proof. intros c d C D. split; [now apply country_name_inj | now intros ->]. Qed.
Print Assumptions C137_names.
(** Every listed country but one has the name listed for it. *)
Theorem C137_listed : forall e, In e country_constants -> fst e <> "AD"%string -> exists name, In (fst e, name) country_cases /\ country_name (country_constant (fst e)) = codes name.
Proof.
  intros e I N. assert (forallb (fun e => String.eqb (fst e) "AD" || existsb (fun f => if String.eqb (fst f) (fst e) then array_eqb (country_name (country_constant (fst e))) (codes (snd f)) else false) country_cases) country_constants = true) as F by (vm_compute; reflexivity).
  rewrite forallb_forall in F. specialize (F e I). apply Bool.orb_true_iff in F as [F | F]; [apply String.eqb_eq in F; exact (False_rect _ (N F))|].
  apply existsb_exists in F as ((k & n) & J & F). cbn [fst snd] in F. destruct (String.eqb k (fst e)) eqn:K; [|discriminate F].
  apply String.eqb_eq in K. subst k. apply array_eqb_spec in F. exists n. exact (conj J F).
Qed.
Print Assumptions C137_listed.
(** Andorra is listed and has no name; India has neither. *)
Theorem C137_andorra_refuted : In ("AD", "AD")%string country_constants /\ country_name (country_constant "AD") = codes "iso_3166_1_alpha_2 AD" /\
  country (codes "IN") /\ ~ In "IN"%string (map fst country_constants) /\ country_name (codes "IN") = codes "iso_3166_1_alpha_2 IN".
Proof.
  split; [now left|]. split; [vm_compute; reflexivity|]. split; [exists 73, 78; cbn; repeat split; lia|]. split; [|vm_compute; reflexivity].
  intros H. assert (forallb (fun n => negb (String.eqb n "IN")) (map fst country_constants) = true) as F by (vm_compute; reflexivity). rewrite forallb_forall in F. specialize (F _ H). clear H. discriminate F.
Qed.
Print Assumptions C137_andorra_refuted.
Example C137_example : country (codes "NL") /\ country_name (country_constant "NL") = codes "Netherlands" /\ List.length country_constants = 248%nat.
Proof. split; [exists 78, 76; cbn; repeat split; lia|]. split; vm_compute; reflexivity. Qed.

(** * C138 *)
(** The listed constants have the codes of their names, which are valid; no name is listed twice. *)
Theorem C138_codes :
  (forall e, In e currency_constants -> codes (fst e) = [c0 (currency_constant (fst e)); c1 (currency_constant (fst e)); c2 (currency_constant (fst e))] /\
     (let c := currency_constant (fst e) in new_currency (c0 c) (c1 c) (c2 c) (denominator c) = Ret c) /\ denominator (currency_constant (fst e)) = snd (snd e)) /\
  (forall e, In e country_constants -> country_constant (fst e) = codes (fst e) /\ new_country (country_constant (fst e)) = Ret (country_constant (fst e))) /\
  NoDup (map fst currency_constants) /\ NoDup (map fst country_constants).
Proof.
  assert (D : forall l, NoDup (map codes l) -> NoDup l) by (intros l; apply NoDup_map_inv). repeat split.
  - assert (forallb (fun e => array_eqb (codes (fst e)) [c0 (currency_constant (fst e)); c1 (currency_constant (fst e)); c2 (currency_constant (fst e))]) currency_constants = true) as F by (vm_compute; reflexivity).
    rewrite forallb_forall in F. apply array_eqb_spec, F, H.
  - assert (forallb (fun e => letteredb (currency_constant (fst e)) && (0 <? denominator (currency_constant (fst e)))) currency_constants = true) as F by (vm_compute; reflexivity).
    rewrite forallb_forall in F. specialize (F e H). apply Bool.andb_true_iff in F as [F G]. unfold letteredb in F. clear H. cbv zeta. unfold new_currency. rewrite F. cbn [negb].
    assert (denominator (currency_constant (fst e)) =? 0 = false) as -> by lia. now destruct (currency_constant (fst e)).
  - assert (forallb (fun e => denominator (currency_constant (fst e)) =? snd (snd e)) currency_constants = true) as F by (vm_compute; reflexivity).
    rewrite forallb_forall in F. specialize (F e H). clear H. lia.
  - assert (forallb (fun e => array_eqb (country_constant (fst e)) (codes (fst e))) country_constants = true) as F by (vm_compute; reflexivity).
    rewrite forallb_forall in F. apply array_eqb_spec, F, H.
  - assert (forallb (fun e => countryb (country_constant (fst e))) country_constants = true) as F by (vm_compute; reflexivity).
    rewrite forallb_forall in F. destruct (countryb_spec _ (F e H)) as (a & b & Ec & A & B). clear F H. rewrite Ec. unfold new_country, is_upper. assert ((65 <=? a) && (a <=? 90) && ((65 <=? b) && (b <=? 90)) = true) as -> by lia. reflexivity.
  - apply D, distinct_spec. vm_compute. reflexivity.
  - apply D, distinct_spec. vm_compute. reflexivity.
Qed.
Print Assumptions C138_codes.
(** The jurisdiction listed under the name of a country is that country with a listed currency; different listed jurisdictions have different hashes. *)
Theorem C138_jurisdictions : forall e, In e jurisdiction_constants -> fst e = fst (snd e) /\ In (fst e) (map fst country_constants) /\ In (snd (snd e)) (map fst currency_constants) /\
  jurisdiction_constant (fst e) = Some (codes (fst e), currency_constant (snd (snd e))).
Proof.
  intros e H. assert (forallb (fun e => String.eqb (fst e) (fst (snd e)) && existsb (String.eqb (fst e)) (map fst country_constants) && existsb (String.eqb (snd (snd e))) (map fst currency_constants) &&
    match jurisdiction_constant (fst e) with Some (s, t) => array_eqb s (codes (fst e)) && ccy_eqb t (currency_constant (snd (snd e))) | None => false end) jurisdiction_constants = true) as F by (vm_compute; reflexivity).
  rewrite forallb_forall in F. specialize (F e H). clear H. apply Bool.andb_true_iff in F as [F G]. apply Bool.andb_true_iff in F as [F K]. apply Bool.andb_true_iff in F as [F J]. apply String.eqb_eq in F.
  destruct e as [k [s t]]. cbn [fst snd] in *. apply existsb_exists in K as (x & K & Ex%String.eqb_eq). apply existsb_exists in J as (y & J & Ey%String.eqb_eq). subst x y. split; [exact F|]. split; [exact J|]. split; [exact K|].
  destruct (jurisdiction_constant k) as [[u v] |]; [|discriminate]. apply Bool.andb_true_iff in G as [->%array_eqb_spec G]. do 2 f_equal.
  unfold ccy_eqb in G. destruct v as [a b c d], (currency_constant t) as [a' b' c' d']. cbn in G. f_equal; lia.
Qed.
Print Assumptions C138_jurisdictions.
Theorem C138_jurisdictions_distinct : NoDup (map (fun e => option_map jurisdiction_hash (jurisdiction_constant (fst e))) jurisdiction_constants).
Proof.
  assert (forallb (fun o => match o with Some _ => true | None => false end) (map (fun e => option_map jurisdiction_hash (jurisdiction_constant (fst e))) jurisdiction_constants) = true) as F by (vm_compute; reflexivity).
  apply (NoDup_map_inv (fun o => match o with Some h => [h] | None => [] end)). apply distinct_spec. vm_compute. reflexivity.
Qed.
Print Assumptions C138_jurisdictions_distinct.
Example C138_example : jurisdiction_constant "JP" = Some (codes "JP", mk_currency 74 80 89 1) /\ currency_constant "BHD" = mk_currency 66 72 68 1000 /\ List.length jurisdiction_constants = 243%nat.
Proof. repeat split; vm_compute; reflexivity. Qed.

(** * C172 *)
(** All constants but three are counted in the minor units of ISO 4217, where it defines any. *)
Theorem C172_minor_units : forall e, In e currency_constants -> listed (fst e) no_minor_unit = false ->
  denominator (currency_constant (fst e)) = minor_units (fst e) <-> listed (fst e) ["CLF"; "TND"; "UYI"]%string = false.
Proof.
  intros e H N. assert (forallb (fun e => listed (fst e) no_minor_unit || Bool.eqb (denominator (currency_constant (fst e)) =? minor_units (fst e)) (negb (listed (fst e) ["CLF"; "TND"; "UYI"]%string))) currency_constants = true) as F by (vm_compute; reflexivity).
  rewrite forallb_forall in F. specialize (F e H). clear H. rewrite N in F. cbn [orb] in F. apply Bool.eqb_prop in F. destruct (listed (fst e) ["CLF"; "TND"; "UYI"]%string); cbn [negb] in F; split; intros; try discriminate; lia.
Qed.
Print Assumptions C172_minor_units.
(** A Tunisian dinar has a thousand millimes, the library counts a hundred; the Unidad de Fomento and the Uruguayan indexed unit are wrong as well. *)
Theorem C172_minor_units_refuted : listed "TND" (map fst currency_constants) = true /\ denominator (currency_constant "TND") = 100 /\ minor_units "TND" = 1000 /\
  denominator (currency_constant "UYI") = 100 /\ minor_units "UYI" = 1 /\ denominator (currency_constant "CLF") = 100 /\ minor_units "CLF" = 10000.
Proof. vm_compute. repeat split. Qed.
Print Assumptions C172_minor_units_refuted.
(** Every jurisdiction has the currency of its country or the one that the country shares. *)
Theorem C172_tender : forall e, In e jurisdiction_constants -> tender_of (fst e) (snd (snd e)) = true /\ jurisdiction_constant (fst e) = Some (codes (fst e), currency_constant (snd (snd e))).
Proof.
  intros e H. split; [|exact (proj2 (proj2 (proj2 (C138_jurisdictions e H))))]. assert (forallb (fun e => tender_of (fst e) (snd (snd e))) jurisdiction_constants = true) as F by (vm_compute; reflexivity).
  rewrite forallb_forall in F. exact (F e H).
Qed.
Print Assumptions C172_tender.
Example C172_example : minor_units "JPY" = 1 /\ denominator (currency_constant "JPY") = 1 /\ denominator (currency_constant "KWD") = 1000 /\ tender_of "GB" "GBP" = true /\ tender_of "GB" "EUR" = false /\
  jurisdiction_constant "NL" = Some (codes "NL", mk_currency 69 85 82 100) /\ List.length (filter (fun e => negb (listed (fst e) no_minor_unit)) currency_constants) = 164%nat.
Proof. vm_compute. repeat split. Qed.
