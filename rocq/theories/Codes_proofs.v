From Verif Require Import Base Text Money CheckDigits Codes Codes_spec.
From Coq Require Import ZifyBool ZifyNat.
From Coq Require Import String.
From Verif Require Import Base.

Lemma market_symbol_spec c : market_symbol c = true <-> 65 <= c <= 90 \/ 48 <= c <= 57.
Proof. unfold market_symbol. lia. Qed.
Lemma new_market_spec s : length s = 4%nat -> (market_code s /\ new_market s = Ret s) \/ (~ market_code s /\ new_market s = Throw).
Proof.
  intros L. unfold new_market, market_code. destruct (forallb market_symbol s) eqn:E; [left | right]; split; auto.
  - split; auto. apply Forall_forall. intros c Hc. apply market_symbol_spec. rewrite forallb_forall in E. auto.
  - intros [_ F]. apply Bool.not_true_iff_false in E. apply E, forallb_forall. intros c Hc. apply market_symbol_spec. rewrite Forall_forall in F. auto.
Qed.
Lemma array_eqb_spec a b : array_eqb a b = true <-> a = b.
Proof.
  revert b. induction a as [|x a IH]; intros [|y b]; cbn [array_eqb]; split; intros H; try discriminate; auto.
  - apply Bool.andb_true_iff in H as [A B]. apply IH in B. f_equal; [lia | auto].
  - inversion H; subst. apply Bool.andb_true_iff. split; [lia | now apply IH].
Qed.
Lemma array_ltb_spec a b : length a = length b -> (array_ltb a b = true <-> before a b).
Proof.
  revert b. induction a as [|x a IH]; intros [|y b] L; cbn [array_ltb length] in *; try discriminate; split; intros H; try discriminate.
  - destruct H as (p & u & v & s & t & E & _). destruct p; discriminate.
  - destruct (x <? y) eqn:A; [exists [], x, y, a, b; repeat split; auto; lia|]. destruct (y <? x) eqn:B; [discriminate|]. assert (x = y) as -> by lia.
    apply (IH b) in H; [|lia]. destruct H as (p & u & v & s & t & -> & -> & ?). exists (y :: p), u, v, s, t. auto.
  - destruct H as (p & u & v & s & t & E & F & ?). destruct p as [|z p]; cbn in E, F; inversion E; inversion F; subst.
    + assert (u <? v = true) as -> by lia. reflexivity.
    + rewrite (proj2 (Z.ltb_ge z z)) by lia. apply (IH (p ++ v :: t)); [rewrite !app_length in *; cbn in *; lia|]. exists p, u, v, s, t. auto.
Qed.
Lemma before_cases a b : length a = length b -> before a b \/ a = b \/ before b a.
Proof.
  revert b. induction a as [|x a IH]; intros [|y b] L; cbn [length] in *; try discriminate; auto.
  destruct (Z.lt_trichotomy x y) as [H | [-> | H]].
  - left. exists [], x, y, a, b. auto.
  - destruct (IH b ltac:(lia)) as [(p & u & v & s & t & -> & -> & ?) | [-> | (p & u & v & s & t & -> & -> & ?)]]; auto; [left | right; right]; exists (y :: p), u, v, s, t; auto.
  - right. right. exists [], y, x, b, a. auto.
Qed.
Lemma before_not_eq a b : before a b -> a <> b.
Proof. intros (p & u & v & s & t & -> & -> & H) E. apply app_inv_head in E. inversion E. lia. Qed.
Lemma before_asym a b : before a b -> ~ before b a.
Proof.
  revert b. induction a as [|x a IH]; intros b (p & u & v & s & t & E & F & H) (p' & u' & v' & s' & t' & E' & F' & H').
  - destruct p; discriminate.
  - destruct p as [|z p], p' as [|z' p']; cbn in *; subst b; inversion E; subst; inversion E'; inversion F'; subst; try lia.
    apply (IH (p ++ v :: t)); [exists p, u, v, s, t; auto|]. exists p', u', v', s', t'. auto.
Qed.
Lemma before_trans a b c : before a b -> before b c -> before a c.
Proof.
  revert b c. induction a as [|x a IH]; intros b c (p & u & v & s & t & E & F & H) (p' & u' & v' & s' & t' & E' & F' & H').
  - destruct p; discriminate.
  - destruct p as [|z p], p' as [|z' p']; cbn in *; subst b c; inversion E; subst; inversion E'; subst.
    + eexists [], _, _, _, _. split; [reflexivity|]. split; [reflexivity | lia].
    + eexists [], _, _, _, _. split; [reflexivity|]. split; [reflexivity | lia].
    + eexists [], _, _, _, _. split; [reflexivity|]. split; [reflexivity | lia].
    + destruct (IH (p ++ v :: t) (p' ++ v' :: t')) as (q & k & l & m & n & -> & -> & ?); [exists p, u, v, s, t; auto | exists p', u', v', s', t'; auto|].
      eexists (_ :: q), k, l, m, n. split; [reflexivity|]. split; [reflexivity | auto].
Qed.

(** Hashes of letters. *)
Lemma ccy_hash_eq c d : lettered c -> lettered d -> (ccy_hash c = ccy_hash d <-> same_letters c d).
Proof.
  intros (A & B & C) (D & E & F). unfold ccy_hash, same_letters, w64, W64. split.
  - intros H. rewrite !Z.mod_small in H by (rewrite ?Z.mod_small; lia). lia.
  - intros (-> & -> & ->). reflexivity.
Qed.
Lemma country_hash_eq c d : country c -> country d -> (country_hash c = country_hash d <-> c = d).
Proof.
  intros (a & b & -> & A & B) (e & f & -> & E & F). unfold country_hash, w64, W64. cbn [nth]. split.
  - intros H. rewrite !Z.mod_small in H by lia. f_equal; [lia | f_equal; lia].
  - intros H. inversion H. reflexivity.
Qed.
Definition letteredb (c : currency) : bool := capital (c0 c) && capital (c1 c) && capital (c2 c).
Lemma letteredb_spec c : letteredb c = true -> lettered c.
Proof. unfold letteredb, lettered, capital. lia. Qed.
Definition countryb (c : list Z) : bool := match c with [a; b] => capital a && capital b | _ => false end.
Lemma countryb_spec c : countryb c = true -> country c.
Proof. destruct c as [|a [|b [|]]]; cbn; try discriminate. unfold capital. intros H. exists a, b. split; auto. lia. Qed.
Definition distinct (l : list (list Z)) : bool := 
  (fix go l := match l with [] => true | x :: l' => forallb (fun y => negb (array_eqb x y)) l' && go l' end) l.
Lemma distinct_spec l : distinct l = true -> NoDup l.
Proof.
  induction l as [|x l IH]; cbn; intros H; constructor; apply Bool.andb_true_iff in H as [A B]; auto.
  intros I. rewrite forallb_forall in A. specialize (A x I). rewrite (proj2 (array_eqb_spec x x) eq_refl) in A. discriminate.
Qed.
Definition letter_name (n : list Z) : bool := match n with [a; b; c] => capital a && capital b && capital c | _ => false end.

Lemma cases_lettered e : In e currency_cases -> lettered (currency_constant (fst e)).
Proof.
  intros H. assert (forallb (fun e => letteredb (currency_constant (fst e))) currency_cases = true) as F by (vm_compute; reflexivity).
  rewrite forallb_forall in F. apply letteredb_spec, F, H.
Qed.
Lemma cases_names : NoDup (map (fun e => codes (snd e)) currency_cases).
Proof. apply distinct_spec. vm_compute. reflexivity. Qed.
Lemma cases_long e : In e currency_cases -> letter_name (codes (snd e)) = false.
Proof.
  intros H. assert (forallb (fun e => negb (letter_name (codes (snd e)))) currency_cases = true) as F by (vm_compute; reflexivity).
  rewrite forallb_forall in F. specialize (F e H). now apply Bool.negb_true_iff in F.
Qed.
Lemma nodup_map {A B} (f : A -> B) l x y : NoDup (map f l) -> In x l -> In y l -> f x = f y -> x = y.
Proof.
  induction l as [|z l IH]; cbn; intros N I J E; [tauto|]. inversion N as [|? ? P Q]; subst.
  destruct I as [-> | I], J as [-> | J]; auto; exfalso; apply P; [rewrite E | rewrite <- E]; now apply in_map.
Qed.
Lemma currency_name_cases c :
  (exists e, In e currency_cases /\ ccy_hash (currency_constant (fst e)) = ccy_hash c /\ currency_name c = codes (snd e)) \/
  ((forall e, In e currency_cases -> ccy_hash (currency_constant (fst e)) <> ccy_hash c) /\ currency_name c = [c0 c; c1 c; c2 c]).
Proof.
  unfold currency_name. destruct (find _ currency_cases) as [[k n] |] eqn:F.
  - apply find_some in F as [I H]. left. exists (k, n). split; auto. split; auto. cbn [fst] in *. lia.
  - right. split; auto. intros e I. apply (find_none _ _ F) in I. lia.
Qed.
Lemma lettered_name c : lettered c -> letter_name [c0 c; c1 c; c2 c] = true.
Proof. unfold lettered, letter_name, capital. lia. Qed.
Lemma currency_name_inj c d : lettered c -> lettered d -> currency_name c = currency_name d -> same_letters c d.
Proof.
  intros C D E. destruct (currency_name_cases c) as [(e & I & H & N) | [N1 N]], (currency_name_cases d) as [(f & J & K & M) | [M1 M]].
  - assert (e = f) as -> by (apply (nodup_map (fun e => codes (snd e)) _ _ _ cases_names I J); congruence).
    apply ccy_hash_eq; auto. congruence.
  - exfalso. pose proof (cases_long e I) as L. rewrite <- N, E, M, lettered_name in L by auto. discriminate.
  - exfalso. pose proof (cases_long f J) as L. rewrite <- M, <- E, N, lettered_name in L by auto. discriminate.
  - rewrite N, M in E. inversion E. repeat split; auto.
Qed.
Lemma currency_name_same c d : same_letters c d -> currency_name c = currency_name d.
Proof. intros (A & B & C). unfold currency_name, ccy_hash. now rewrite A, B, C. Qed.

Lemma country_cases_country e : In e country_cases -> country (country_constant (fst e)).
Proof.
  intros H. assert (forallb (fun e => countryb (country_constant (fst e))) country_cases = true) as F by (vm_compute; reflexivity).
  rewrite forallb_forall in F. apply countryb_spec, F, H.
Qed.
Lemma country_cases_names : NoDup (map (fun e => codes (snd e)) country_cases).
Proof. apply distinct_spec. vm_compute. reflexivity. Qed.
(** No name starts with a small letter. *)
Lemma country_cases_first e : In e country_cases -> nth 0 (codes (snd e)) 0 <> 105.
Proof.
  intros H. assert (forallb (fun e => negb (nth 0 (codes (snd e)) 0 =? 105)) country_cases = true) as F by (vm_compute; reflexivity).
  rewrite forallb_forall in F. specialize (F e H). lia.
Qed.
Lemma country_name_cases c :
  (exists e, In e country_cases /\ country_hash (country_constant (fst e)) = country_hash c /\ country_name c = codes (snd e)) \/
  ((forall e, In e country_cases -> country_hash (country_constant (fst e)) <> country_hash c) /\ country_name c = codes "iso_3166_1_alpha_2 "%string ++ c).
Proof.
  unfold country_name. destruct (find _ country_cases) as [[k n] |] eqn:F.
  - apply find_some in F as [I H]. left. exists (k, n). split; auto. split; auto. cbn [fst] in *. lia.
  - right. split; auto. intros e I. apply (find_none _ _ F) in I. lia.
Qed.
Lemma country_name_inj c d : country c -> country d -> country_name c = country_name d -> c = d.
Proof.
  intros C D E. destruct (country_name_cases c) as [(e & I & H & N) | [N1 N]], (country_name_cases d) as [(f & J & K & M) | [M1 M]].
  - assert (e = f) as -> by (apply (nodup_map (fun e => codes (snd e)) _ _ _ country_cases_names I J); congruence).
    apply country_hash_eq; auto. congruence.
  - exfalso. apply (country_cases_first e I). rewrite <- N, E, M. reflexivity.
  - exfalso. apply (country_cases_first f J). rewrite <- M, <- E, N. reflexivity.
  - rewrite N, M in E. now apply app_inv_head in E.
Qed.
