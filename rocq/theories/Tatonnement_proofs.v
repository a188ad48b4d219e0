From Coq Require Import SpecFloat.
From Verif Require Import Base Identity Identity_proofs IdMap IdMap_proofs StaticTicks Tatonnement Tatonnement_spec.
From Coq Require Import ZifyBool ZifyNat.

(** ** Comparison of doubles *)
Lemma compare_opp a b : SFcompare b a = match SFcompare a b with Some c => Some (CompOpp c) | None => None end.
Proof.
  destruct a as [sa|sa| |sa ma ea], b as [sb|sb| |sb mb eb]; cbn; try reflexivity;
    try (destruct sa; reflexivity); try (destruct sb; reflexivity); try (destruct sa, sb; reflexivity).
  destruct sa, sb; try reflexivity; rewrite (Z.compare_antisym ea eb);
    destruct (ea ?= eb); cbn; try reflexivity; change (Pos.compare_cont Eq ma mb) with (ma ?= mb)%positive;
    change (Pos.compare_cont Eq mb ma) with (mb ?= ma)%positive; rewrite (Pos.compare_antisym ma mb);
    destruct (ma ?= mb)%positive; reflexivity.
Qed.
Lemma compare_nan a b : SFcompare a b = None <-> a = S754_nan \/ b = S754_nan.
Proof.
  destruct a as [sa|sa| |sa ma ea], b as [sb|sb| |sb mb eb]; cbn; split; intros H; try destruct H as [H|H]; try discriminate; auto;
    repeat match goal with s : bool |- _ => destruct s end; try discriminate; destruct (ea ?= eb); discriminate.
Qed.
Lemma compare_refl a : numeric a -> SFcompare a a = Some Eq.
Proof.
  intros H. destruct a as [s|s| |s m e]; cbn; [reflexivity|now destruct s|now elim H|].
  rewrite Z.compare_refl. destruct s; change (Pos.compare_cont Eq m m) with (m ?= m)%positive; now rewrite Pos.compare_refl.
Qed.
Lemma leb_refl a : numeric a -> SFleb a a = true.
Proof. intros H. unfold SFleb. now rewrite compare_refl. Qed.
Lemma ltb_leb a b : SFltb a b = true -> SFleb a b = true.
Proof. unfold SFltb, SFleb. destruct (SFcompare a b) as [[]|]; congruence. Qed.
Lemma ltb_false a b : numeric a -> numeric b -> SFltb a b = false -> SFleb b a = true.
Proof.
  intros A B. unfold SFltb, SFleb. rewrite (compare_opp a b). destruct (SFcompare a b) as [[]|] eqn:E; cbn; try congruence.
  apply compare_nan in E. unfold numeric in *. tauto.
Qed.
Lemma leb_numeric a b : SFleb a b = true -> numeric a /\ numeric b.
Proof. unfold SFleb. intros H. split; intros E; destruct (SFcompare a b) eqn:F; try discriminate; assert (SFcompare a b = None) by (apply compare_nan; auto); congruence. Qed.
Lemma ltb_asym a b : SFltb a b = true -> SFltb b a = false.
Proof. unfold SFltb. rewrite (compare_opp a b). destruct (SFcompare a b) as [[]|]; cbn; congruence. Qed.
Lemma leb_ltb a b : SFleb a b = true -> SFltb b a = false.
Proof. unfold SFleb, SFltb. rewrite (compare_opp a b). destruct (SFcompare a b) as [[]|]; cbn; congruence. Qed.

Lemma limit_one_within b x : numeric x -> SFleb (fst b) (snd b) = true -> SFleb (fst b) (limit_one b x) = true /\ SFleb (limit_one b x) (snd b) = true.
Proof.
  intros X B. destruct (leb_numeric _ _ B) as [L H]. unfold limit_one, fmin, fmax.
  destruct (SFltb x (fst b)) eqn:E.
  - destruct (SFltb (snd b) (fst b)) eqn:F; split; try exact B; now apply leb_refl.
  - destruct (SFltb (snd b) x) eqn:F; [split; try exact B; now apply leb_refl|]. split; apply ltb_false; assumption.
Qed.
Lemma limit_many_within b x : numeric x -> SFleb (fst b) (snd b) = true -> SFleb (fst b) (limit_many b x) = true /\ SFleb (limit_many b x) (snd b) = true.
Proof.
  intros X B. destruct (leb_numeric _ _ B) as [L H]. unfold limit_many, fmin, fmax.
  destruct (SFltb (snd b) x) eqn:E.
  - destruct (SFltb (snd b) (fst b)) eqn:F; split; try exact B; now apply leb_refl.
  - destruct (SFltb x (fst b)) eqn:F; [split; try exact B; now apply leb_refl|]. split; apply ltb_false; assumption.
Qed.
Lemma limit_one_limited b x : SFleb (fst b) (snd b) = true -> limit_one b x = limited b x.
Proof.
  intros B. unfold limit_one, limited, fmin, fmax. destruct (SFltb x (fst b)) eqn:E; [|reflexivity]. now rewrite (leb_ltb _ _ B).
Qed.
Lemma ltb_leb_trans a b c : SFltb a b = true -> SFleb b c = true -> SFltb c a = false.
Proof.
  unfold SFltb, SFleb. destruct a as [sa|sa| |sa ma ea], b as [sb|sb| |sb mb eb], c as [sc|sc| |sc mc ec]; cbn;
    repeat match goal with s : bool |- _ => destruct s end; try congruence.
  all: rewrite ?(Z.compare_antisym ea ec);
    destruct (Z.compare_spec ea eb), (Z.compare_spec eb ec), (Z.compare_spec ea ec); subst; cbn; try congruence; try lia;
    change (Pos.compare_cont Eq ma mb) with (ma ?= mb)%positive; change (Pos.compare_cont Eq mb mc) with (mb ?= mc)%positive; change (Pos.compare_cont Eq mc ma) with (mc ?= ma)%positive;
    destruct (Pos.compare_spec ma mb), (Pos.compare_spec mb mc), (Pos.compare_spec mc ma); cbn; subst; try congruence; lia.
Qed.
Lemma ltb_trans a b c : SFltb a b = true -> SFltb b c = true -> SFltb a c = true.
Proof.
  unfold SFltb. destruct a as [sa|sa| |sa ma ea], b as [sb|sb| |sb mb eb], c as [sc|sc| |sc mc ec]; cbn;
    repeat match goal with s : bool |- _ => destruct s end; try congruence.
  all: destruct (Z.compare_spec ea eb), (Z.compare_spec eb ec), (Z.compare_spec ea ec); subst; cbn; try congruence; try lia;
    change (Pos.compare_cont Eq ma mb) with (ma ?= mb)%positive; change (Pos.compare_cont Eq mb mc) with (mb ?= mc)%positive; change (Pos.compare_cont Eq ma mc) with (ma ?= mc)%positive;
    destruct (Pos.compare_spec ma mb), (Pos.compare_spec mb mc), (Pos.compare_spec ma mc); cbn; subst; try congruence; lia.
Qed.
Lemma limit_many_limited b x : SFleb (fst b) (snd b) = true -> limit_many b x = limited b x.
Proof.
  intros B. unfold limit_many, limited, fmin, fmax. destruct (SFltb x (fst b)) eqn:E.
  - rewrite (ltb_leb_trans _ _ _ E B), E. reflexivity.
  - destruct (SFltb (snd b) x); [|now rewrite E]. now rewrite (leb_ltb _ _ B).
Qed.

(** ** Maps filled from lists *)
Section Fill.
Context {A V : Type} (key : A -> identity) (val : A -> V).
Lemma fill_spec (l : list A) (m0 : idmap V) : im_sorted m0 -> NoDup (map key l) ->
  let m := fold_left (fun m a => im_emplace (key a) (val a) m) l m0 in
  im_sorted m /\ forall i v, im_find i m = Some v <-> im_find i m0 = Some v \/ (im_find i m0 = None /\ exists a, In a l /\ key a = i /\ val a = v).
Proof.
  revert m0. induction l as [|a l IH]; intros m0 S N; cbn.
  - split; [exact S|]. intros i v. split; [auto|]. intros [H|[_ [a [[] _]]]]. exact H.
  - inversion N as [|? ? N1 N2]; subst. destruct (IH (im_emplace (key a) (val a) m0) (im_emplace_sorted _ _ _ S) N2) as [I1 I2].
    split; [exact I1|]. intros i v. rewrite I2, im_find_emplace by exact S. destruct (id_eqb (key a) i) eqn:E.
    + apply id_eqb_eq in E. subst i. destruct (im_find (key a) m0) as [w|] eqn:F.
      * split; [intros [H|[H _]]; [auto|discriminate]|]. intros [H|[H _]]; [auto|discriminate].
      * split; [|].
        -- intros [H|[H _]]; [|discriminate]. injection H as <-. right. split; [reflexivity|]. exists a. auto.
        -- intros [H|[_ [b [[<-|H] [K W]]]]]; [discriminate|left; now f_equal|]. exfalso. apply N1. rewrite <- K. now apply in_map.
    + assert (E' : key a <> i) by (intros EE; rewrite EE, id_eqb_refl in E; discriminate).
      split; (intros [H|[H [b [B K]]]]; [auto|right; split; [exact H|]; exists b]).
      * split; [now right|exact K].
      * destruct B as [<-|B]; [|auto]. now destruct K.
Qed.
End Fill.
Lemma in_combine_nth {A B} (l : list A) (x : list B) a b : In (a, b) (combine l x) <-> exists n, nth_error l n = Some a /\ nth_error x n = Some b.
Proof.
  revert x. induction l as [|c l IH]; intros x; cbn.
  - split; [easy|]. intros [n [H _]]. now destruct n.
  - destruct x as [|d x]; cbn.
    + split; [easy|]. intros [n [_ H]]. now destruct n.
    + rewrite IH. split.
      * intros [H|[n H]]; [injection H as <- <-; exists O; auto|exists (S n); exact H].
      * intros [[|n] [H1 H2]]; cbn in *; [left; congruence|right; exists n; auto].
Qed.
Lemma keys_combine {B} (qs : quotes) (x : list B) : length x = length qs -> map (fun kv => fst (fst kv)) (combine qs x) = map fst qs.
Proof. revert x. induction qs as [|[k q] qs IH]; intros [|b x]; cbn; try discriminate; [reflexivity|]. intros H. f_equal. apply IH. lia. Qed.
Lemma nil_sorted {V} : im_sorted ([] : idmap V). Proof. constructor. Qed.

Lemma scalars_offered qs x : NoDup (map fst qs) -> length x = length qs -> offered qs x (scalars qs x).
Proof.
  intros N L. unfold scalars.
  destruct (fill_spec (fun kv : identity * Z * real => fst (fst kv)) (fun kv => (snd (fst kv), snd kv)) (combine qs x) [] nil_sorted) as [S F].
  { now rewrite keys_combine. }
  split; [exact S|]. intros p q r. rewrite <- (im_find_in _ _ _ S), F. split.
  - intros [H|[_ [[[p' q'] r'] [H [E1 E2]]]]]; [discriminate|]. cbn in *. injection E2 as -> ->. subst p'. now apply in_combine_nth in H.
  - intros H. right. split; [reflexivity|]. exists (p, q, r). split; [now apply in_combine_nth|auto].
Qed.
Lemma offered_unique qs x s t : offered qs x s -> offered qs x t -> s = t.
Proof.
  intros [S1 H1] [S2 H2]. apply im_ext; [exact S1|exact S2|]. intros i. destruct (im_find i s) as [[q r]|] eqn:E.
  - apply (proj1 (im_find_in _ _ _ S1)) in E. symmetry. apply (im_find_in _ _ _ S2). apply H2, H1. exact E.
  - destruct (im_find i t) as [[q r]|] eqn:F; [|reflexivity]. apply (proj1 (im_find_in _ _ _ S2)) in F. apply H2, H1 in F.
    apply (im_find_in _ _ _ S1) in F. congruence.
Qed.
Lemma result_spec qs x : NoDup (map fst qs) -> length x = length qs ->
  im_sorted (result qs x) /\ forall p r, im_find p (result qs x) = Some r <-> exists n q, nth_error qs n = Some (p, q) /\ nth_error x n = Some r.
Proof.
  intros N L. unfold result.
  destruct (fill_spec (fun kv : identity * Z * real => fst (fst kv)) (fun kv => snd kv) (combine qs x) [] nil_sorted) as [S F].
  { now rewrite keys_combine. }
  split; [exact S|]. intros p r. rewrite F. split.
  - intros [H|[_ [[[p' q'] r'] [H [E1 E2]]]]]; [discriminate|]. cbn in *. subst. apply in_combine_nth in H as [n H]. now exists n, q'.
  - intros (n & q & H1 & H2). right. split; [reflexivity|]. exists (p, q, r). split; [apply in_combine_nth; now exists n|auto].
Qed.
Lemma result_keys qs x p : NoDup (map fst qs) -> length x = length qs -> (In p (map fst (result qs x)) <-> In p (map fst qs)).
Proof.
  intros N L. destruct (result_spec qs x N L) as [S F]. split.
  - intros H. apply in_map_iff in H as [[p' r] [<- H]]. apply (im_find_in _ _ _ S) in H. apply F in H as (n & q & H & _).
    apply nth_error_In in H. now apply (in_map fst) in H.
  - intros H. apply in_map_iff in H as [[p' q] [E H]]. cbn in E. subst p'. apply In_nth_error in H as [n H].
    destruct (nth_error x n) as [r|] eqn:R.
    + assert (G : im_find p (result qs x) = Some r) by (apply F; now exists n, q). apply (im_find_in _ _ _ S) in G. now apply (in_map fst) in G.
    + exfalso. apply nth_error_None in R. assert (n < length qs)%nat by (apply nth_error_Some; congruence). lia.
Qed.

(** ** Excess demand *)
Definition filtered (p : identity) (l : list (identity * real)) : list real := map snd (filter (fun kd => id_eqb (fst kd) p) l).
Definition grown (o : option real) (l : list real) : option real :=
  match o, l with
  | None, [] => None
  | None, _ => Some (fold_left (add double) l zero)
  | Some v, _ => Some (fold_left (add double) l v)
  end.
Lemma grown_app o l l' : grown (grown o l) l' = grown o (l ++ l').
Proof. destruct o as [v|]; cbn; [now rewrite fold_left_app|]. destruct l as [|a l]; cbn; [reflexivity|]. now rewrite fold_left_app. Qed.
Lemma add_demand_spec m kd : im_sorted m -> im_sorted (add_demand m kd) /\
  forall p, im_find p (add_demand m kd) = grown (im_find p m) (filtered p [kd]).
Proof.
  intros S. destruct kd as [k d]. unfold add_demand. cbn [fst snd]. set (m' := im_emplace k zero m).
  assert (S' : im_sorted m') by (now apply im_emplace_sorted).
  assert (F : forall p, im_find p m' = if id_eqb k p then Some match im_find k m with Some x => x | None => zero end else im_find p m) by (intros p; now apply im_find_emplace).
  pose proof (F k) as Fk. rewrite id_eqb_refl in Fk. rewrite Fk. split; [now apply im_set_sorted|].
  intros p. rewrite im_find_set by exact S'. unfold filtered. cbn [filter fst]. destruct (id_eqb k p) eqn:E.
  - apply id_eqb_eq in E. subst p. cbn. destruct (im_find k m); reflexivity.
  - rewrite F, E. cbn. now destruct (im_find p m).
Qed.
Lemma add_demands_spec l : forall m, im_sorted m -> im_sorted (fold_left add_demand l m) /\
  forall p, im_find p (fold_left add_demand l m) = grown (im_find p m) (filtered p l).
Proof.
  induction l as [|kd l IH]; intros m S; cbn [fold_left].
  - split; [exact S|]. intros p. cbn. now destruct (im_find p m).
  - destruct (add_demand_spec m kd S) as [S1 F1]. destruct (IH _ S1) as [S2 F2]. split; [exact S2|].
    intros p. rewrite F2, F1, grown_app. f_equal. unfold filtered. cbn. now destruct (id_eqb (fst kd) p).
Qed.
Lemma all_demands_spec (orders : list order) s : forall m, im_sorted m ->
  let t := fold_left (fun m (f : order) => fold_left add_demand (f s) m) orders m in
  im_sorted t /\ forall p, im_find p t = grown (im_find p m) (demands orders s p).
Proof.
  induction orders as [|f orders IH]; intros m S; cbn [fold_left].
  - split; [exact S|]. intros p. cbn. now destruct (im_find p m).
  - destruct (add_demands_spec (f s) m S) as [S1 F1]. destruct (IH _ S1) as [S2 F2]. split; [exact S2|].
    intros p. rewrite F2, F1, grown_app. reflexivity.
Qed.
Lemma demands_nil orders s p : demands orders s p = [] <-> ~ mentions orders s p.
Proof.
  unfold demands, mentions. split.
  - intros H (f & F & P). apply in_map_iff in P as [[k d] [E P]]. cbn in E. subst k.
    assert (I : In d (flat_map (fun f : order => map snd (filter (fun kd => id_eqb (fst kd) p) (f s))) orders)).
    { apply in_flat_map. exists f. split; [exact F|]. apply in_map_iff. exists (p, d). split; [reflexivity|]. apply filter_In. split; [exact P|]. apply id_eqb_refl. }
    rewrite H in I. destruct I.
  - intros H. destruct (flat_map _ orders) as [|d l] eqn:E; [reflexivity|]. exfalso. apply H.
    assert (I : In d (d :: l)) by (now left). rewrite <- E in I. apply in_flat_map in I as [f [F I]]. apply in_map_iff in I as [[k d'] [_ I]].
    apply filter_In in I as [I K]. apply id_eqb_eq in K. cbn in K. subst k. exists f. split; [exact F|]. now apply (in_map fst) in I.
Qed.
Lemma look_up_spec qs terms : look_up qs terms = None <-> exists p, In p (map fst qs) /\ im_find p terms = None.
Proof.
  induction qs as [|[k q] qs IH]; cbn.
  - split; [discriminate|]. intros [p [[] _]].
  - destruct (im_find k terms) as [v|] eqn:E.
    + destruct (look_up qs terms) as [l|].
      * split; [discriminate|]. intros [p [[->|H] F]]; [congruence|]. assert (@None (list real) = None) by reflexivity.
        destruct IH as [_ IH]. now discriminate IH; exists p.
      * split; [intros _|reflexivity]. destruct IH as [IH _]. destruct (IH eq_refl) as [p [P F]]. exists p. auto.
    + split; [intros _|reflexivity]. exists k. auto.
Qed.
Lemma look_up_some qs terms (g : identity -> real) : (forall p, In p (map fst qs) -> im_find p terms = Some (g p)) -> look_up qs terms = Some (map (fun kq => g (fst kq)) qs).
Proof.
  induction qs as [|[k q] qs IH]; intros H; cbn; [reflexivity|]. rewrite (H k) by (now left). rewrite IH; [reflexivity|]. intros p P. apply H. now right.
Qed.
Lemma excess_none qs orders x : excess qs orders x = None <-> exists p, In p (map fst qs) /\ ~ mentions orders (scalars qs x) p.
Proof.
  unfold excess. destruct (all_demands_spec orders (scalars qs x) [] nil_sorted) as [_ F]. cbv zeta in F. rewrite look_up_spec.
  split; intros [p [P H]]; exists p; (split; [exact P|]).
  - rewrite F in H. cbn in H. apply demands_nil. now destruct (demands orders (scalars qs x) p).
  - rewrite F. apply demands_nil in H. rewrite H. reflexivity.
Qed.
Lemma excess_some qs orders x f : excess qs orders x = Some f -> f = map (fun kq => sum (demands orders (scalars qs x) (fst kq))) qs.
Proof.
  intros H. assert (N : excess qs orders x <> None) by congruence. rewrite excess_none in N.
  unfold excess in H. destruct (all_demands_spec orders (scalars qs x) [] nil_sorted) as [_ F]. cbv zeta in F.
  rewrite (look_up_some qs _ (fun p => sum (demands orders (scalars qs x) p))) in H; [congruence|].
  intros p P. rewrite F. cbn. destruct (demands orders (scalars qs x) p) eqn:E; [|reflexivity].
  exfalso. apply N. exists p. split; [exact P|]. now apply demands_nil.
Qed.
Lemma fold_abs (g : identity * Z -> real) (qs : quotes) z :
  fold_left (fun s v => add double s (SFabs v)) (map g qs) z = fold_left (add double) (map (fun kq => SFabs (g kq)) qs) z.
Proof. revert z. induction qs as [|kq qs IH]; intros z; cbn [map fold_left]; [reflexivity|]. apply IH. Qed.
Lemma residual_imbalance qs orders x f : excess qs orders x = Some f -> residual f = imbalance qs orders (scalars qs x).
Proof. intros H. apply excess_some in H. subst f. apply fold_abs. Qed.

(** ** The squared mismatch *)
Definition grown' (o : option real) (l : list real) : option real :=
  match o, l with
  | None, [] => None
  | None, d :: l' => Some (fold_left (add double) l' d)
  | Some v, _ => Some (fold_left (add double) l v)
  end.
Lemma grown'_app o l l' : grown' (grown' o l) l' = grown' o (l ++ l').
Proof. destruct o as [v|]; cbn; [now rewrite fold_left_app|]. destruct l as [|a l]; cbn; [reflexivity|]. now rewrite fold_left_app. Qed.
Lemma add_term_spec m kd : im_sorted m -> im_sorted (add_term m kd) /\
  forall p, im_find p (add_term m kd) = grown' (im_find p m) (filtered p [kd]).
Proof.
  intros S. destruct kd as [k d]. unfold add_term. cbn [fst snd]. destruct (im_find k m) as [v|] eqn:K.
  - split; [now apply im_set_sorted|]. intros p. rewrite im_find_set by exact S. unfold filtered. cbn [filter fst]. destruct (id_eqb k p) eqn:E.
    + apply id_eqb_eq in E. subst p. rewrite K. reflexivity.
    + cbn. now destruct (im_find p m).
  - split; [now apply im_emplace_sorted|]. intros p. rewrite im_find_emplace by exact S. unfold filtered. cbn [filter fst]. destruct (id_eqb k p) eqn:E.
    + apply id_eqb_eq in E. subst p. rewrite K. reflexivity.
    + cbn. now destruct (im_find p m).
Qed.
Lemma add_terms_spec l : forall m, im_sorted m -> im_sorted (fold_left add_term l m) /\
  forall p, im_find p (fold_left add_term l m) = grown' (im_find p m) (filtered p l).
Proof.
  induction l as [|kd l IH]; intros m S; cbn [fold_left].
  - split; [exact S|]. intros p. cbn. now destruct (im_find p m).
  - destruct (add_term_spec m kd S) as [S1 F1]. destruct (IH _ S1) as [S2 F2]. split; [exact S2|].
    intros p. rewrite F2, F1, grown'_app. f_equal. unfold filtered. cbn. now destruct (id_eqb (fst kd) p).
Qed.
Lemma all_terms_spec (orders : list order) s : forall m, im_sorted m ->
  let t := fold_left (fun m (f : order) => fold_left add_term (f s) m) orders m in
  im_sorted t /\ forall p, im_find p t = grown' (im_find p m) (demands orders s p).
Proof.
  induction orders as [|f orders IH]; intros m S; cbn [fold_left].
  - split; [exact S|]. intros p. cbn. now destruct (im_find p m).
  - destruct (add_terms_spec (f s) m S) as [S1 F1]. destruct (IH _ S1) as [S2 F2]. split; [exact S2|].
    intros p. rewrite F2, F1, grown'_app. reflexivity.
Qed.
Lemma sorted_keys {V} (m : idmap V) : im_sorted m -> StronglySorted (fun p p' => id_ltb p p' = true) (map fst m).
Proof. induction 1 as [|a m S IH F]; cbn; constructor; [exact IH|]. rewrite Forall_map. exact F. Qed.
Lemma mismatch_spec qs orders x : squared_imbalance orders (scalars qs x) (mismatch qs orders x).
Proof.
  unfold mismatch. destruct (all_terms_spec orders (scalars qs x) [] nil_sorted) as [S F]. cbv zeta in *.
  set (t := fold_left (fun (m : idmap real) (f : order) => fold_left add_term (f (scalars qs x)) m) orders []) in *. exists (map fst t). split; [now apply sorted_keys|]. split.
  - intros p. split.
    + intros H. destruct (im_find p t) as [v|] eqn:E; [|apply (im_find_none _ _ S) in E; contradiction].
      rewrite F in E. cbn in E. destruct (demands orders (scalars qs x) p) eqn:D; [discriminate|].
      assert (N : demands orders (scalars qs x) p <> []) by congruence. rewrite demands_nil in N.
      destruct (existsb (fun f : order => existsb (fun kd => id_eqb (fst kd) p) (f (scalars qs x))) orders) eqn:X.
      * apply existsb_exists in X as [f [Hf X]]. apply existsb_exists in X as [[k d] [Hk X]]. apply id_eqb_eq in X. cbn in X. subst k.
        exists f. split; [exact Hf|]. now apply (in_map fst) in Hk.
      * exfalso. apply N. intros (f & Hf & P). apply in_map_iff in P as [[k d] [E1 P]]. cbn in E1. subst k.
        assert (Y : existsb (fun f : order => existsb (fun kd => id_eqb (fst kd) p) (f (scalars qs x))) orders = true); [|congruence].
        apply existsb_exists. exists f. split; [exact Hf|]. apply existsb_exists. exists (p, d). split; [exact P|]. apply id_eqb_refl.
    + intros M. destruct (im_find p t) as [v|] eqn:E; [apply (im_find_in _ _ _ S) in E; now apply (in_map fst) in E|].
      rewrite F in E. cbn in E. destruct (demands orders (scalars qs x) p) eqn:D; [|discriminate]. apply demands_nil in D. contradiction.
  - assert (G : forall kt, In kt t -> snd kt = total (demands orders (scalars qs x) (fst kt))).
    { intros [k v] K. apply (im_find_in _ _ _ S) in K. rewrite F in K. cbn in K. cbn. destruct (demands orders (scalars qs x) k); [discriminate|]. cbn. congruence. }
    unfold sum. clearbody t. clear F S. generalize zero. induction t as [|kt t IH]; intros z; cbn [map fold_left]; [reflexivity|].
    pose proof (G kt (or_introl eq_refl)) as G1. destruct kt as [k v]. cbn [fst snd] in *. rewrite <- G1. apply IH. intros kt K. apply G. now right.
Qed.
(** The number of variables is not small. *)
Lemma digits_shift d p : digits2_pos (shift_pos d p) = (digits2_pos p + d)%positive.
Proof.
  unfold shift_pos. induction d as [|d IH] using Pos.peano_ind.
  - cbn. lia.
  - rewrite Pos.iter_succ. cbn [digits2_pos]. rewrite IH. lia.
Qed.
Lemma digits_bound p k : (Z.pos p < 2 ^ k) -> 0 <= k -> (Z.pos (digits2_pos p) <= k).
Proof.
  revert k. induction p as [p IH|p IH|]; intros k H K; cbn [digits2_pos].
  - assert (0 < k) by (destruct (Z.eq_dec k 0) as [->|]; [cbn in H; lia|lia]).
    assert (Z.pos p < 2 ^ (k - 1)). { replace k with (Z.succ (k - 1)) in H by lia. rewrite Z.pow_succ_r in H by lia. lia. }
    specialize (IH (k - 1)). lia.
  - assert (0 < k) by (destruct (Z.eq_dec k 0) as [->|]; [cbn in H; lia|lia]).
    assert (Z.pos p < 2 ^ (k - 1)). { replace k with (Z.succ (k - 1)) in H by lia. rewrite Z.pow_succ_r in H by lia. lia. }
    specialize (IH (k - 1)). lia.
  - destruct (Z.eq_dec k 0) as [->|]; [cbn in H; lia|lia].
Qed.
Lemma of_Z_finite p : Z.pos p < 2 ^ 53 -> exists m e, of_Z double (Z.pos p) = S754_finite false m e /\ -52 <= e.
Proof.
  intros H. apply digits_bound in H; [|lia]. set (d := digits2_pos p) in *.
  cbn [of_Z double]. unfold binary_normalize, binary_round. rewrite Z.add_0_r. unfold shl_align. fold d.
  assert (E : fexp 53 1024 (Z.pos d) - 0 = Z.pos d - 53) by (unfold fexp, emin; lia). rewrite E.
  assert (A : forall m e, Z.pos (digits2_pos m) + e = Z.pos d -> e = Z.pos d - 53 -> binary_round_aux 53 1024 false (Z.pos m) e loc_Exact = S754_finite false m e).
  { intros m e E1 E2. unfold binary_round_aux, shr_fexp. cbn [Zdigits2]. rewrite E1.
    assert (F : fexp 53 1024 (Z.pos d) - e = 0) by (unfold fexp, emin; lia). rewrite F. cbn [shr shr_record_of_loc shr_m loc_of_shr_record].
    cbn [round_nearest_even]. cbn [Zdigits2]. rewrite E1, F. cbn [shr shr_record_of_loc shr_m].
    assert (G : e <=? 1024 - 53 = true) by lia. now rewrite G. }
  destruct (Z.pos d - 53) as [|k|k] eqn:K; [|lia|].
  - rewrite A; [|cbn; fold d; lia|lia]. exists p, 0. split; [reflexivity|lia].
  - replace (fexp 53 1024 (Z.pos d)) with (Z.neg k) by lia. rewrite A; [|rewrite digits_shift; fold d; lia|lia].
    eexists _, _. split; [reflexivity|]. lia.
Qed.
Lemma size_not_small p : Z.pos p < 2 ^ 53 -> SFltb (of_Z double (Z.pos p)) tolerance4 = false.
Proof.
  intros H. destruct (of_Z_finite p H) as (m & e & -> & E). set (t := tolerance4). vm_compute in t. unfold t, SFltb. cbn [SFcompare].
  destruct (Z.compare_spec e (-66)); [lia|lia|reflexivity].
Qed.

(** ** The loops *)
Section Loops.
Context (qs : quotes) (orders : list order).
Lemma one_loop_point s n : forall k bx be st x, one_loop qs orders s n k bx be = Some (st, x) -> x = bx \/ exists j, x = nth 0 (point (s j)) zero.
Proof.
  induction n as [|n IH]; intros k bx be st x; cbn [one_loop]; destruct (value_at qs orders (nth 0 (point (s k)) zero)) as [e|]; try discriminate;
    destruct (SFltb (SFabs e) (SFabs be)); destruct (SFltb (SFabs e) tolerance6);
    try (intros H; injection H as _ <-; eauto; fail); destruct (status (s k) =? CONTINUE);
    try (intros H; injection H as _ <-; eauto; fail).
  - intros H. apply IH in H as [->|H]; eauto.
  - intros H. apply IH in H as [->|H]; eauto.
Qed.
Lemma many_loop_point s h n : forall k st x y, (st = SUCCESS -> exists j, x = point (s j) /\ exists f, values qs orders x = Some f /\ SFltb (residual f) tolerance4 = true) ->
  many_loop qs orders s h n k st x = Ended SUCCESS y -> exists j, y = point (s j) /\ exists f, values qs orders y = Some f /\ SFltb (residual f) tolerance4 = true.
Proof.
  induction n as [|n IH]; intros k st x y I; cbn [many_loop].
  - intros H. injection H as -> ->. auto.
  - destruct (negb (st =? CONTINUE)); [intros H; injection H as -> ->; auto|].
    destruct (aborts h (s k)); [discriminate|]. destruct (status (s k) =? SUCCESS) eqn:E; cbn [negb].
    + destruct (values qs orders (point (s k))) as [f|] eqn:V; [|discriminate]. apply IH. intros B. exists k. split; [reflexivity|].
      exists f. split; [exact V|]. unfold below in B. destruct (SFltb (residual f) tolerance4); [reflexivity|discriminate].
    + intros H. injection H as H _. rewrite H in E. discriminate.
Qed.
Lemma minimize_loop_point s test h n : forall k y, minimize_loop qs orders s test h n k = Ended SUCCESS y ->
  exists j e, y = point (s j) /\ error_at qs orders y = Some e /\ (SFleb e tolerance4 = true \/ test (s j) = SUCCESS).
Proof.
  induction n as [|n IH]; intros k y; cbn [minimize_loop]; (destruct (aborts h (s k)); [discriminate|]);
    (destruct (error_at qs orders (point (s k))) as [e|] eqn:E; [|discriminate]); destruct (SFleb e tolerance4) eqn:L;
    try (intros H; injection H as <-; exists k, e; auto; fail);
    (destruct (status (s k) =? SUCCESS) eqn:Z; cbn [negb]; [|intros H; injection H as H _; rewrite H in Z; discriminate]);
    destruct (test (s k) =? CONTINUE); try (intros H; injection H as H <-; exists k, e; auto; fail).
  apply IH.
Qed.
Lemma free_loop_point s h n : forall k b br y, free_loop qs orders s h n k b br = Best y -> y = b \/ exists j, y = point (s j).
Proof.
  induction n as [|n IH]; intros k b br y; cbn [free_loop]; [intros H; injection H as <-; auto|].
  destruct (aborts h (s k)); [discriminate|]. destruct (status (s k) =? SUCCESS); cbn [negb]; [|intros H; injection H as <-; auto].
  destruct (values qs orders (point (s k))) as [f|]; [|discriminate].
  destruct (SFltb (residual f) br); destruct (below (residual f) tolerance4 =? SUCCESS);
    try (intros H; injection H as <-; eauto; fail); intros H; apply IH in H as [->|H]; eauto.
Qed.
Lemma free_loop_best s h n : (forall k, status (s k) = SUCCESS) -> forall k b br y, free_loop qs orders s h n k b br = Best y ->
  exists r, (y = b /\ r = br \/ exists j f, (k <= j < k + n)%nat /\ y = point (s j) /\ values qs orders y = Some f /\ r = residual f /\ SFltb r br = true) /\
    (r = br \/ SFltb r br = true) /\
    forall j, (k <= j < k + n)%nat -> (forall i f, (k <= i < j)%nat -> values qs orders (point (s i)) = Some f -> SFltb (residual f) tolerance4 = false) ->
      exists f, values qs orders (point (s j)) = Some f /\ SFltb (residual f) r = false.
Proof.
  intros OK. induction n as [|n IH]; intros k b br y; cbn [free_loop].
  - intros H. injection H as <-. exists br. split; [now left|]. split; [now left|]. intros j J. lia.
  - destruct (aborts h (s k)); [discriminate|]. rewrite OK. cbn [negb Z.eqb SUCCESS]. destruct (values qs orders (point (s k))) as [f|] eqn:V; [|discriminate].
    unfold below. destruct (SFltb (residual f) tolerance4) eqn:T; cbn [Z.eqb SUCCESS CONTINUE].
    + intros H. injection H as <-. exists (if SFltb (residual f) br then residual f else br). destruct (SFltb (residual f) br) eqn:R.
      * split; [right; exists k, f; split; [lia|now repeat split]|]. split; [now right|]. intros j J F. destruct (Nat.eq_dec j k) as [->|N].
        -- exists f. split; [exact V|]. destruct (SFltb (residual f) (residual f)) eqn:Q; [|reflexivity]. pose proof (ltb_asym _ _ Q). congruence.
        -- rewrite (F k f) in T; [discriminate|lia|exact V].
      * split; [now left|]. split; [now left|]. intros j J F. destruct (Nat.eq_dec j k) as [->|N]; [exists f; now split|].
        rewrite (F k f) in T; [discriminate|lia|exact V].
    + intros H. apply IH in H. destruct H as (r & A & O & Q). exists r. destruct (SFltb (residual f) br) eqn:R.
      * assert (RB : SFltb r br = true) by (destruct O as [->|O]; [exact R|now apply (ltb_trans _ _ _ O)]).
        split; [right; destruct A as [[-> ->]|(j & g & J & -> & V' & -> & L)]; [exists k, f; split; [lia|now repeat split]|exists j, g; split; [lia|now repeat split]]|].
        split; [now right|]. intros j J F. destruct (Nat.eq_dec j k) as [->|N].
        -- exists f. split; [exact V|]. destruct O as [->|O]; [|now apply ltb_asym]. destruct (SFltb (residual f) (residual f)) eqn:Z; [|reflexivity]. pose proof (ltb_asym _ _ Z). congruence.
        -- apply Q; [lia|]. intros i g I. apply F. lia.
      * split; [destruct A as [[-> ->]|(j & g & J & -> & V' & -> & L)]; [now left|right; exists j, g; split; [lia|now repeat split]]|].
        split; [exact O|]. intros j J F. destruct (Nat.eq_dec j k) as [->|N].
        -- exists f. split; [exact V|]. destruct O as [->|O]; [exact R|]. destruct (SFltb (residual f) r) eqn:Z; [|reflexivity]. rewrite (ltb_trans _ _ _ Z O) in R. discriminate.
        -- apply Q; [lia|]. intros i g I. apply F. lia.
Qed.
Context (breaker : real * real) (max_iterations : nat).
Lemma try_found solver ms h m h' : try_methods qs orders breaker max_iterations solver ms h = (Found m, h') ->
  exists method h0, In method ms /\ attempt qs orders breaker max_iterations solver method h0 = (Found m, h').
Proof.
  revert h. induction ms as [|a ms IH]; intros h; cbn [try_methods]; [discriminate|].
  destruct (attempt qs orders breaker max_iterations solver a h) as [r h1] eqn:E. destruct r; try discriminate.
  - intros H. exists a, h. split; [now left|congruence].
  - intros H. apply IH in H as (method & h0 & I & H). exists method, h0. split; [now right|exact H].
Qed.
Lemma compute_found methods solver h m h' : compute_clearing_quotes qs orders breaker max_iterations methods solver h = (Found m, h') ->
  exists method h0, In method methods /\ attempt qs orders breaker max_iterations solver method h0 = (Found m, h').
Proof. destruct methods; [discriminate|]. apply try_found. Qed.
Lemma ones_length : length (ones qs) = length qs.
Proof. apply map_length. Qed.
(** The multipliers of any method: the point of a step, the start, or limited ones of these. *)
Lemma attempt_found solver method h m h' : attempt qs orders breaker max_iterations solver method h = (Found m, h') -> (forall method, matches qs (solver method)) ->
  exists x, length x = length qs /\ m = result qs x.
Proof.
  intros H M. destruct method; cbn [attempt] in H.
  - injection H as H _. unfold minimize in H. destruct (error_at qs orders (ones qs)); [|discriminate].
    destruct (minimize_loop qs orders (solver Minimization) gradient_test h (Init.Nat.pred max_iterations) 1) as [st x| |] eqn:L; try discriminate.
    destruct (st =? SUCCESS) eqn:S; [|discriminate]. injection H as <-. replace st with SUCCESS in L by lia.
    apply minimize_loop_point in L as (j & e & -> & _). exists (point (solver Minimization j)). split; [apply M|reflexivity].
  - assert (A : forall h, (root_many qs orders breaker max_iterations (solver Root) h, h) = (Found m, h') -> exists x, length x = length qs /\ m = result qs x).
    { clear H h. intros h H. injection H as H _. unfold root_many in H. destruct (values qs orders (ones qs)); [|discriminate].
      destruct (many_loop qs orders (solver Root) h max_iterations 1 CONTINUE (ones qs)) as [st x| |] eqn:L; try discriminate.
      destruct (st =? SUCCESS) eqn:S; [|discriminate]. injection H as <-. replace st with SUCCESS in L by lia.
      apply many_loop_point in L as (j & -> & _); [|discriminate]. exists (map (limit_many breaker) (point (solver Root j))).
      rewrite map_length. split; [apply M|reflexivity]. }
    destruct qs as [|a [|b l]]; try (apply (A h); exact H). unfold root_one in H.
    destruct (value_at [a] orders one) as [e|]; [|discriminate].
    destruct (one_loop [a] orders (solver Root) (Init.Nat.pred max_iterations) 1 one e) as [[st x]|]; [|discriminate].
    destruct (st =? SUCCESS); [|discriminate]. injection H as <- _. exists [limit_one breaker x]. auto.
  - injection H as H _. unfold minimize in H. destruct (error_at qs orders (ones qs)); [|discriminate].
    destruct (minimize_loop qs orders (solver FreeMinimization) (size_test qs) h (Init.Nat.pred max_iterations) 1) as [st x| |] eqn:L; try discriminate.
    destruct (st =? SUCCESS) eqn:S; [|discriminate]. injection H as <-. replace st with SUCCESS in L by lia.
    apply minimize_loop_point in L as (j & e & -> & _). exists (point (solver FreeMinimization j)). split; [apply M|reflexivity].
  - injection H as H _. unfold root_free in H. destruct (values qs orders (ones qs)); [|discriminate].
    destruct (free_loop qs orders (solver FreeRoot) h max_iterations 1 (ones qs) (residual (ones qs))) as [x| |] eqn:L; try discriminate.
    injection H as <-. apply free_loop_point in L as [->|[j ->]]; [exists (ones qs); split; [apply ones_length|reflexivity]|].
    exists (point (solver FreeRoot j)). split; [apply M|reflexivity].
Qed.
Lemma attempt_handler solver method h r h' : attempt qs orders breaker max_iterations solver method h = (r, h') ->
  length qs <> 1%nat \/ method <> Root \/ r = NotFound -> h' = h.
Proof.
  intros H C. destruct method; cbn [attempt] in H; try (injection H as _ <-; reflexivity).
  destruct qs as [|a [|b l]]; try (injection H as _ <-; reflexivity). destruct C as [C|[C|C]]; [now elim C|now elim C|].
  subst r. unfold root_one in H. destruct (value_at [a] orders one); [|discriminate]. destruct (one_loop _ _ _ _ _ _ _) as [[st x]|]; [|discriminate].
  destruct (st =? SUCCESS); [discriminate|]. congruence.
Qed.
End Loops.
Lemma values_some qs orders x : qs <> [] -> (forall s p, In p (map fst qs) -> mentions orders s p) -> values qs orders x <> None.
Proof.
  intros Q A H. unfold values in H. destruct qs as [|a l]; [now elim Q|]. apply excess_none in H as [p [P H]]. apply H, A, P.
Qed.
Lemma values_none qs orders x p : In p (map fst qs) -> (forall s, ~ mentions orders s p) -> values qs orders x = None.
Proof. intros P A. unfold values. destruct qs as [|a l]; [reflexivity|]. apply excess_none. exists p. auto. Qed.
Lemma value_at_values qs orders x : qs <> [] -> (forall s p, In p (map fst qs) -> mentions orders s p) -> exists v, value_at qs orders x = Some v.
Proof.
  intros Q A. unfold value_at. destruct (values qs orders [x]) as [l|] eqn:V; [|apply (values_some qs orders [x]) in V; tauto].
  destruct l as [|v l]; [|eauto]. exfalso. unfold values in V. destruct qs as [|a r]; [now elim Q|]. apply excess_some in V. discriminate.
Qed.
(** *** One property, with a solver that asks to continue. *)
Lemma value_imbalance q orders x e : value_at [q] orders x = Some e -> SFabs e = imbalance [q] orders (scalars [q] [x]).
Proof.
  unfold value_at, values. destruct (excess [q] orders [x]) as [f|] eqn:E; [|discriminate]. pose proof (excess_some _ _ _ _ E) as F. subst f. cbn [map]. intros X. injection X as <-. unfold imbalance, sum at 2. cbn [map fold_left].
  destruct (sum (demands orders (scalars [q] [x]) (fst q))); reflexivity.
Qed.
Lemma one_loop_success q orders s : (forall k, status (s k) = CONTINUE) -> forall n k bx be x, value_at [q] orders bx = Some be -> one_loop [q] orders s n k bx be = Some (SUCCESS, x) ->
  exists j, (k <= j <= k + n)%nat /\ SFltb (imbalance [q] orders (scalars [q] [nth 0 (point (s j)) zero])) millionth = true /\
    SFltb (imbalance [q] orders (scalars [q] [nth 0 (point (s j)) zero])) (imbalance [q] orders (scalars [q] [x])) = false /\
    (x = bx \/ exists i, (k <= i <= j)%nat /\ x = nth 0 (point (s i)) zero).
Proof.
  intros C. assert (Irr : forall y, SFltb y y = false).
  { intros y. unfold SFltb. destruct y as [[]|[]| |[] m0 e0]; try reflexivity; cbn; rewrite Z.compare_refl, ?Pcompare_refl; reflexivity. }
  induction n as [|n IH]; intros k bx be x Hb; cbn [one_loop]; set (y := nth 0 (point (s k)) zero); destruct (value_at [q] orders y) as [e|] eqn:E; try discriminate; rewrite (C k), Z.eqb_refl;
    destruct (SFltb (SFabs e) tolerance6) eqn:T.
  - intros H. exists k. fold y. assert (T' : SFltb (SFabs e) millionth = true) by exact T. rewrite (value_imbalance _ _ _ _ E) in T'. split; [lia|]. split; [exact T'|]. destruct (SFltb (SFabs e) (SFabs be)) eqn:Bt; injection H as <-.
    + split; [apply Irr|]. right. exists k. split; [lia|reflexivity].
    + rewrite <- (value_imbalance _ _ _ _ E), <- (value_imbalance _ _ _ _ Hb). split; [exact Bt|now left].
  - destruct (SFltb (SFabs e) (SFabs be)); discriminate.
  - intros H. exists k. fold y. assert (T' : SFltb (SFabs e) millionth = true) by exact T. rewrite (value_imbalance _ _ _ _ E) in T'. split; [lia|]. split; [exact T'|]. destruct (SFltb (SFabs e) (SFabs be)) eqn:Bt; injection H as <-.
    + split; [apply Irr|]. right. exists k. split; [lia|reflexivity].
    + rewrite <- (value_imbalance _ _ _ _ E), <- (value_imbalance _ _ _ _ Hb). split; [exact Bt|now left].
  - intros H. destruct (SFltb (SFabs e) (SFabs be)).
    + destruct (IH _ _ _ _ E H) as (j & L & T1 & T2 & J). exists j. split; [lia|]. split; [exact T1|]. split; [exact T2|]. right. destruct J as [->|(i & Li & ->)]; [exists k; split; [lia|reflexivity]|exists i; split; [lia|reflexivity]].
    + destruct (IH _ _ _ _ Hb H) as (j & L & T1 & T2 & J). exists j. split; [lia|]. split; [exact T1|]. split; [exact T2|]. destruct J as [->|(i & Li & ->)]; [now left|right; exists i; split; [lia|reflexivity]].
Qed.
