From Verif Require Import Base Text Identity Identity_spec.
From Coq Require Import ZifyBool.

(** ** Order *)
Lemma id_eqb_eq a b : id_eqb a b = true <-> a = b.
Proof.
  revert b; induction a as [|x a IH]; intros [|y b]; cbn; try (split; congruence).
  rewrite andb_true_iff, IH, Z.eqb_eq. split; [intros []; congruence|intros [= -> ->]; auto].
Qed.
Lemma id_ltb_irrefl a : id_ltb a a = false.
Proof. induction a as [|x a IH]; cbn; [reflexivity|]. rewrite Z.ltb_irrefl. exact IH. Qed.
Lemma id_ltb_trans a b c : id_ltb a b = true -> id_ltb b c = true -> id_ltb a c = true.
Proof.
  revert b c; induction a as [|x a IH]; intros [|y b] [|z c]; cbn; try congruence.
  destruct (Z.ltb_spec x y), (Z.ltb_spec y x), (Z.ltb_spec y z), (Z.ltb_spec z y), (Z.ltb_spec x z), (Z.ltb_spec z x);
    try congruence; try lia. apply IH.
Qed.
Lemma id_trichotomy a b :
  (id_ltb a b = true /\ a <> b /\ id_ltb b a = false) \/
  (id_ltb a b = false /\ a = b /\ id_ltb b a = false) \/
  (id_ltb a b = false /\ a <> b /\ id_ltb b a = true).
Proof.
  revert b; induction a as [|x a IH]; intros [|y b]; cbn.
  - right; left; auto.
  - left; repeat split; congruence.
  - right; right; repeat split; congruence.
  - destruct (Z.ltb_spec x y), (Z.ltb_spec y x); try lia.
    + left. repeat split; auto. intros [= E _]; lia.
    + right; right. repeat split; auto. intros [= E _]; lia.
    + assert (x = y) by lia; subst y.
      destruct (IH b) as [(A & B & C)|[(A & B & C)|(A & B & C)]]; rewrite A, C.
      * left; repeat split; congruence.
      * right; left; repeat split; congruence.
      * right; right; repeat split; congruence.
Qed.
Lemma id_cmp_agree a b :
  (id_leb a b = true <-> id_ltb a b = true \/ a = b) /\
  (id_gtb a b = true <-> id_ltb b a = true) /\
  (id_geb a b = true <-> id_ltb b a = true \/ a = b) /\
  (id_leb a b = negb (id_gtb a b)).
Proof.
  unfold id_leb, id_geb, id_gtb. rewrite !orb_true_iff, !id_eqb_eq. repeat split; auto; try tauto.
  destruct (id_trichotomy a b) as [(A & B & C)|[(A & B & C)|(A & B & C)]]; rewrite A, C; cbn; auto.
  - apply id_eqb_eq; assumption.
  - destruct (id_eqb a b) eqn:E; [apply id_eqb_eq in E; contradiction|reflexivity].
Qed.
Lemma id_total_order :
  (forall a, id_ltb a a = false) /\
  (forall a b c, id_ltb a b = true -> id_ltb b c = true -> id_ltb a c = true) /\
  (forall a b, (id_ltb a b = true /\ a <> b /\ id_ltb b a = false) \/
               (id_ltb a b = false /\ a = b /\ id_ltb b a = false) \/
               (id_ltb a b = false /\ a <> b /\ id_ltb b a = true)) /\
  (forall a b, id_eqb a b = true <-> a = b) /\
  (forall a b,
    (id_leb a b = true <-> id_ltb a b = true \/ a = b) /\
    (id_gtb a b = true <-> id_ltb b a = true) /\
    (id_geb a b = true <-> id_ltb b a = true \/ a = b) /\
    (id_leb a b = negb (id_gtb a b))).
Proof.
  exact (conj id_ltb_irrefl (conj id_ltb_trans (conj id_trichotomy (conj id_eqb_eq id_cmp_agree)))).
Qed.

Lemma id_prefix_lt a ds : ds <> [] -> id_ltb a (a ++ ds) = true.
Proof. intros H. induction a as [|x a IH]; cbn; [destruct ds; congruence|]. rewrite Z.ltb_irrefl. exact IH. Qed.
Lemma id_prefix_contig a ds c :
  id_ltb a c = true -> id_ltb c (a ++ ds) = true -> descends a c.
Proof.
  unfold descends. revert c; induction a as [|x a IH]; intros c H1 H2.
  - exists c. reflexivity.
  - destruct c as [|y c]; cbn in *; [discriminate|].
    destruct (Z.ltb_spec x y), (Z.ltb_spec y x); try lia; try discriminate.
    assert (x = y) by lia; subst y.
    destruct (IH c H1 H2) as [e ->]. exists e. reflexivity.
Qed.
Lemma id_family a :
  (forall ds, ds <> [] -> id_ltb a (a ++ ds) = true) /\
  (forall b c, descends a b -> id_ltb a c = true -> id_ltb c b = true -> descends a c).
Proof. split; [intros; apply id_prefix_lt; assumption|]. intros b c [ds ->]; apply id_prefix_contig. Qed.

(** ** Creation *)
Lemma update_nth_length {A} k (x : A) l : length (update_nth k x l) = length l.
Proof. revert k; induction l as [|y l IH]; intros [|k]; cbn; auto. Qed.
Lemma update_nth_map {A B} (f : A -> B) k x l :
  map f (update_nth k x l) = update_nth k (f x) (map f l).
Proof. revert k; induction l as [|y l IH]; intros [|k]; cbn; congruence. Qed.
Lemma update_nth_same {A} k (x : A) l : nth_error l k = Some x -> update_nth k x l = l.
Proof. revert k; induction l as [|y l IH]; intros [|k]; cbn; intros H; try congruence.
  f_equal. apply IH; assumption. Qed.
Lemma update_nth_In {A} k (x y : A) l : In y (update_nth k x l) -> y = x \/ In y l.
Proof. revert k; induction l as [|z l IH]; intros [|k]; cbn; intros H; auto.
  - destruct H; auto.
  - destruct H as [H|H]; auto. destruct (IH _ H); auto. Qed.
Lemma nth_error_map_some {A B} (f : A -> B) l k x : nth_error l k = Some x -> nth_error (map f l) k = Some (f x).
Proof. intros H. rewrite nth_error_map, H. reflexivity. Qed.

(** Invariant: identities distinct; every existing child of an entity has a digit below the
    entity's counter; counters bounded by the number [n] of operations so far; the pool is
    closed under taking parents, up to the root. *)
Definition id_inv (root : identity) (n : Z) (p : list entity) : Prop :=
  NoDup (map e_id p) /\
  (forall e, In e p -> 0 <= e_children e <= n /\
     forall d, In (e_id e ++ [d]) (map e_id p) -> 0 <= d < e_children e) /\
  (forall i, In i (map e_id p) -> exists ds, i = root ++ ds) /\
  (forall a d, In (a ++ [d]) (map e_id p) -> a ++ [d] = root \/ In a (map e_id p)).

Lemma app_sing_inj (a b : identity) x y : a ++ [x] = b ++ [y] -> a = b /\ x = y.
Proof. apply app_inj_tail. Qed.

Lemma NoDup_map_inv' {A B} (f : A -> B) l x y : NoDup (map f l) -> In x l -> In y l -> f x = f y -> x = y.
Proof.
  induction l as [|a l IH]; cbn; intros ND Hx Hy E; [contradiction|].
  inversion ND as [|? ? N ND']; subst.
  destruct Hx as [->|Hx], Hy as [->|Hy]; auto.
  - exfalso; apply N; rewrite E; apply in_map; exact Hy.
  - exfalso; apply N; rewrite <- E; apply in_map; exact Hx.
Qed.
Lemma update_nth_In_cases {A B} (f : A -> B) k (x z y : A) l :
  NoDup (map f l) -> nth_error l k = Some x -> f z = f x -> In y (update_nth k z l) ->
  y = z \/ (In y l /\ f y <> f x).
Proof.
  revert k; induction l as [|a l IH]; intros [|k]; cbn; intros ND Hk E H; try congruence; auto.
  - injection Hk as ->. inversion ND as [|? ? N ND']; subst. destruct H as [H|H]; [left; auto|].
    right. split; [auto|]. intros E'. apply N. rewrite <- E'. apply in_map; exact H.
  - inversion ND as [|? ? N ND']; subst. destruct H as [<-|H].
    + right. split; [auto|]. intros E'. apply N. rewrite E'. apply in_map. eapply nth_error_In; eauto.
    + destruct (IH _ ND' Hk E H) as [?|[? ?]]; auto.
Qed.

Lemma id_step_inv root n p o : n < W64 - 1 -> 0 <= n -> (match o with Create _ => True | _ => False end) ->
  id_inv root n p ->
  id_inv root (n + 1) (fst (id_step p o)) /\
  map e_id (fst (id_step p o)) = map e_id p ++ snd (id_step p o) /\
  (forall i, In i (snd (id_step p o)) -> exists q d, In q (map e_id p) /\ i = q ++ [d]).
Proof.
  intros Hn Hn0 Ho (ND & HC & HR & HP). destruct o as [k|k]; [|contradiction]. cbn [id_step].
  destruct (nth_error p k) as [e|] eqn:Hk; cbn [fst snd].
  2:{ split; [|split; [rewrite app_nil_r; reflexivity|intros i []]]. split; [exact ND|].
      split; [|split; assumption].
      intros e He. destruct (HC e He) as [? ?]; split; [lia|assumption]. }
  unfold create. cbn [fst snd].
  assert (HIn : In e p) by (eapply nth_error_In; eauto).
  destruct (HC e HIn) as [Hc Hd].
  assert (Hw : w64 (e_children e + 1) = e_children e + 1) by (unfold w64; apply Z.mod_small; lia).
  rewrite Hw.
  set (e' := {| e_id := e_id e; e_children := e_children e + 1 |}).
  assert (Hmap : map e_id (update_nth k e' p ++ [new_entity (e_id e ++ [e_children e])])
                 = map e_id p ++ [e_id e ++ [e_children e]]).
  { rewrite map_app, update_nth_map. cbn. f_equal. apply update_nth_same.
    rewrite nth_error_map, Hk. reflexivity. }
  split; [|split; [exact Hmap|]].
  2:{ intros i [<-|[]]. exists (e_id e), (e_children e). split; [apply in_map; exact HIn|reflexivity]. }
  assert (Hnew : ~ In (e_id e ++ [e_children e]) (map e_id p)).
  { intros H. specialize (Hd _ H). lia. }
  destruct (HR (e_id e) (in_map e_id _ _ HIn)) as [ds Hds].
  split; [|split; [|split]].
  - rewrite Hmap. apply (Permutation_NoDup (Permutation_cons_append _ _)). constructor; assumption.
  - intros f Hf. rewrite Hmap. apply in_app_or in Hf as [Hf|[<-|[]]].
    + destruct (update_nth_In_cases e_id k e e' f p ND Hk eq_refl Hf) as [->|[Hfp Hne]].
      * cbn. split; [lia|]. intros d H. apply in_app_or in H as [H|[H|[]]].
        { specialize (Hd _ H). lia. }
        { apply app_sing_inj in H as [_ <-]. lia. }
      * destruct (HC f Hfp) as [Hcf Hdf]. split; [lia|]. intros d H.
        apply in_app_or in H as [H|[H|[]]]; [apply Hdf; exact H|].
        apply app_sing_inj in H as [E _]. congruence.
    + cbn. split; [lia|]. intros d H. exfalso.
      apply in_app_or in H as [H|[H|[]]].
      * destruct (HP _ _ H) as [E|E]; [|contradiction].
        apply (f_equal (@length Z)) in E. rewrite Hds in E. rewrite !app_length in E. cbn in E. lia.
      * apply (f_equal (@length Z)) in H. rewrite !app_length in H. cbn in H. lia.
  - intros i. rewrite Hmap. intros H. apply in_app_or in H as [H|[<-|[]]]; [apply HR; exact H|].
    exists (ds ++ [e_children e]). rewrite Hds, app_assoc. reflexivity.
  - intros a d. rewrite Hmap. intros H. apply in_app_or in H as [H|[H|[]]].
    + destruct (HP _ _ H); [left; assumption|right; apply in_or_app; left; assumption].
    + apply app_sing_inj in H as [<- <-]. right. apply in_or_app; left. apply in_map; exact HIn.
Qed.

Lemma id_run_inv root os : forall n p, 0 <= n -> n + Z.of_nat (length os) < W64 -> only_creates os ->
  id_inv root n p ->
  NoDup (map e_id p ++ snd (id_run p os)) /\
  (forall k i, nth_error (snd (id_run p os)) k = Some i ->
     exists q d, In q (map e_id p ++ firstn k (snd (id_run p os))) /\ i = q ++ [d]).
Proof.
  induction os as [|o os IH]; intros n p Hn Hb Ho HI; cbn.
  - rewrite app_nil_r. split; [apply HI|]. intros [|k] i; cbn; discriminate.
  - inversion Ho as [|? ? Ho1 Ho2]; subst.
    cbn [length] in Hb. rewrite Nat2Z.inj_succ in Hb.
    destruct (id_step_inv root n p o) as (HI1 & Hm & Hp); [lia|lia|exact Ho1|exact HI|].
    destruct (id_step p o) as [p1 out] eqn:E. cbn [fst snd] in *.
    specialize (IH (n + 1) p1 ltac:(lia) ltac:(lia) Ho2 HI1).
    destruct (id_run p1 os) as [p2 outs]. cbn [fst snd] in *.
    rewrite Hm in IH. rewrite <- app_assoc in IH. destruct IH as [ND IH]. split; [exact ND|].
    intros k i Hk.
    destruct (Nat.ltb_spec k (length out)) as [L|L].
    + rewrite nth_error_app1 in Hk by exact L. apply nth_error_In in Hk.
      destruct (Hp i Hk) as (q & d & Hq & ->). exists q, d. split; [apply in_or_app; left; exact Hq|reflexivity].
    + rewrite nth_error_app2 in Hk by exact L. destruct (IH _ _ Hk) as (q & d & Hq & ->).
      exists q, d. split; [|reflexivity]. rewrite firstn_app, firstn_all2 by lia.
      rewrite app_assoc. exact Hq.
Qed.

Lemma id_inv_init root : id_inv root 0 [new_entity root].
Proof.
  split; [cbn; constructor; [intros []|constructor]|]. split; [|split].
  - intros e [<-|[]]. cbn. split; [lia|]. intros d [H|[]].
    apply (f_equal (@length Z)) in H. rewrite app_length in H. cbn in H. lia.
  - intros i [<-|[]]. exists []. rewrite app_nil_r. reflexivity.
  - intros a d [H|[]]. left. symmetry; exact H.
Qed.

Lemma creations_fresh root os : Z.of_nat (length os) < W64 -> only_creates os ->
  let ids := snd (id_run [new_entity root] os) in
  NoDup (root :: ids) /\
  (forall k i, nth_error ids k = Some i ->
     exists parent d, In parent (root :: firstn k ids) /\ i = parent ++ [d]).
Proof. intros Hb Ho. apply (id_run_inv root os 0 [new_entity root]); try lia; try assumption. apply id_inv_init. Qed.

Lemma creations_copy_dup : exists os,
  ~ NoDup (snd (id_run [new_entity [7]] os)).
Proof.
  exists [CopyAgent 0; Create 0; Create 1]. vm_compute. intros H. inversion H as [|? ? N _]; subst.
  apply N. left. reflexivity.
Qed.

(** ** Printing *)
Lemma read_dec_app acc s t : read_dec acc (s ++ t) = read_dec (read_dec acc s) t.
Proof. revert acc; induction s as [|c s IH]; intros acc; cbn; [reflexivity|apply IH]. Qed.
Definition is_digit (c : Z) : Prop := 48 <= c <= 57.
Lemma dec_fuel_ok f : forall z, 0 <= z < 10 ^ Z.of_nat (S f) ->
  Forall is_digit (dec_fuel (S f) z) /\ read_dec 0 (dec_fuel (S f) z) = z.
Proof.
  induction f as [|f IH]; intros z Hz.
  - change (10 ^ Z.of_nat 1) with 10 in Hz. cbn. destruct (Z.ltb_spec z 10); [|lia].
    split; [repeat constructor; unfold is_digit; lia|]. cbn. lia.
  - rewrite Nat2Z.inj_succ, Z.pow_succ_r in Hz by lia.
    cbn [dec_fuel]. destruct (Z.ltb_spec z 10).
    + split; [repeat constructor; unfold is_digit; lia|]. cbn. lia.
    + assert (0 <= z / 10 < 10 ^ Z.of_nat (S f)).
      { split; [apply Z.div_pos; lia|]. apply Z.div_lt_upper_bound; lia. }
      destruct (IH (z / 10)) as [D R]; [assumption|].
      change (if z / 10 <? 10 then [48 + z / 10] else dec_fuel f (z / 10 / 10) ++ [48 + (z / 10) mod 10])
        with (dec_fuel (S f) (z / 10)).
      pose proof (Z.mod_pos_bound z 10 ltac:(lia)). pose proof (Z.div_mod z 10 ltac:(lia)).
      split.
      * apply Forall_app; split; [exact D|]. repeat constructor; unfold is_digit; lia.
      * rewrite read_dec_app, R. cbn. lia.
Qed.
Lemma dec_ok z : u64 z -> Forall is_digit (dec z) /\ read_dec 0 (dec z) = z.
Proof.
  intros H. apply dec_fuel_ok. unfold u64, W64 in H.
  assert (2 ^ 64 < 10 ^ Z.of_nat 20) by reflexivity. lia.
Qed.
Lemma read_dec_zeros n acc : acc = 0 -> read_dec acc (repeat 48 n) = 0.
Proof. revert acc; induction n as [|n IH]; intros acc ->; cbn; [reflexivity|]. apply IH. lia. Qed.
Lemma dec_padded_ok w z : u64 z -> Forall is_digit (dec_padded w z) /\ read_dec 0 (dec_padded w z) = z.
Proof.
  intros H. destruct (dec_ok z H) as [D R]. unfold dec_padded. split.
  - apply Forall_app; split; [|exact D]. apply Forall_forall. intros x Hx. apply repeat_spec in Hx.
    subst; unfold is_digit; lia.
  - rewrite read_dec_app, read_dec_zeros by reflexivity. exact R.
Qed.
Lemma read_digits_number acc s t : Forall is_digit s ->
  read_digits acc (s ++ t) = read_digits (read_dec acc s) t.
Proof.
  intros H; revert acc; induction H as [|c s Hc Hs IH]; intros acc; cbn; [reflexivity|].
  unfold is_digit in Hc. destruct (Z.eqb_spec c 34); [lia|]. destruct (Z.eqb_spec c 45); [lia|]. apply IH.
Qed.
Lemma read_digits_rest w ds : forall acc, Forall u64 ds ->
  read_digits acc (concat (map (fun x => 45 :: dec_padded w x) ds) ++ [34]) = acc :: ds.
Proof.
  induction ds as [|d ds IH]; intros acc H; cbn -[dec_padded]; [reflexivity|].
  inversion H as [|? ? Hd Hds]; subst. destruct (dec_padded_ok w d Hd) as [D R].
  change (45 =? 34) with false. change (45 =? 45) with true. cbn match.
  f_equal. rewrite <- app_assoc, read_digits_number, R by exact D. apply IH. exact Hds.
Qed.
Lemma read_print w i : Forall u64 i -> read_identity (id_print w i) = i.
Proof.
  intros H. destruct i as [|d ds]; [reflexivity|]. unfold id_print, read_identity.
  inversion H as [|? ? Hd Hds]; subst. destruct (dec_padded_ok w d Hd) as [D R].
  rewrite read_digits_number, R by exact D. apply read_digits_rest. exact Hds.
Qed.
Lemma print_injective w w' i j : Forall u64 i -> Forall u64 j -> id_print w i = id_print w' j -> i = j.
Proof. intros Hi Hj E. rewrite <- (read_print w i Hi), E. apply read_print. exact Hj. Qed.

(** ** Exact identities *)
Lemma id_run_app p os1 os2 :
  id_run p (os1 ++ os2) =
  (fst (id_run (fst (id_run p os1)) os2), snd (id_run p os1) ++ snd (id_run (fst (id_run p os1)) os2)).
Proof.
  revert p; induction os1 as [|o os1 IH]; intros p; cbn.
  - destruct (id_run p os2); reflexivity.
  - destruct (id_step p o) as [p1 out]. rewrite IH. destruct (id_run p1 os1) as [p2 outs]. cbn.
    rewrite app_assoc. reflexivity.
Qed.
Lemma nth_error_update {A} k j (x : A) l : nth_error (update_nth k x l) j =
  if Nat.eqb k j then match nth_error l j with Some _ => Some x | None => None end else nth_error l j.
Proof.
  revert k j; induction l as [|y l IH]; intros [|k] [|j]; cbn; auto.
  - destruct (Nat.eqb k j); reflexivity.
Qed.
Lemma times_creator_app k a b : times_creator k (a ++ b) = times_creator k a + times_creator k b.
Proof. unfold times_creator. rewrite filter_app, app_length. lia. Qed.
Lemma filter_length_le {A} (f : A -> bool) l : (length (filter f l) <= length l)%nat.
Proof. induction l as [|x l IH]; cbn; [lia|]. destruct (f x); cbn; lia. Qed.
Lemma times_creator_bound k os : 0 <= times_creator k os <= Z.of_nat (length os).
Proof. unfold times_creator. pose proof (filter_length_le (fun o => match o with Create k' => Nat.eqb k' k | _ => false end) os). lia. Qed.

Lemma id_run_exact root os : Z.of_nat (length os) < W64 -> valid_creates os ->
  let '(p, ids) := id_run [new_entity root] os in
  length ids = length os /\ map e_id p = root :: ids /\
  (forall k e, nth_error p k = Some e -> e_children e = times_creator k os).
Proof.
  induction os as [|o os IH] using rev_ind; intros Hb Hv.
  - cbn. repeat split. intros [|[|k]] e; cbn; intros [= <-]; reflexivity.
  - rewrite app_length in Hb. cbn [length] in Hb.
    assert (Hv' : valid_creates os).
    { intros j o' H. apply Hv. rewrite nth_error_app1; [exact H|]. apply nth_error_Some. congruence. }
    specialize (IH ltac:(lia) Hv').
    rewrite id_run_app. destruct (id_run [new_entity root] os) as [p ids]. cbn [fst snd].
    destruct IH as (L & M & C).
    destruct (Hv (length os) o) as (k & -> & Hk).
    { rewrite nth_error_app2, Nat.sub_diag by lia. reflexivity. }
    assert (Lp : length p = S (length os)).
    { rewrite <- (map_length e_id), M. cbn. lia. }
    cbn. destruct (nth_error p k) as [e|] eqn:E.
    2:{ apply nth_error_None in E. lia. }
    assert (Ec := C k e E). pose proof (times_creator_bound k os).
    cbn. rewrite app_length. cbn. split; [rewrite app_length; cbn; lia|]. split.
    + rewrite map_app, update_nth_map. cbn.
      rewrite update_nth_same by (rewrite nth_error_map, E; reflexivity). rewrite M. reflexivity.
    + intros j f Hf. rewrite times_creator_app.
      unfold times_creator at 2. cbn.
      destruct (Nat.ltb_spec j (length p)) as [Lj|Lj].
      * rewrite nth_error_app1 in Hf by (rewrite update_nth_length; exact Lj).
        rewrite nth_error_update in Hf. destruct (Nat.eqb_spec k j) as [->|N].
        -- rewrite E in Hf. injection Hf as <-. cbn. unfold w64. rewrite Z.mod_small; lia.
        -- cbn. rewrite (C j f Hf). lia.
      * rewrite nth_error_app2 in Hf by (rewrite update_nth_length; exact Lj).
        rewrite update_nth_length in Hf.
        destruct (j - length p)%nat as [|q] eqn:Ej; cbn in Hf; [|destruct q; discriminate].
        injection Hf as <-. cbn. destruct (Nat.eqb_spec k j); [lia|]. cbn.
        assert (Hz : times_creator j os = 0).
        { unfold times_creator. assert (F : filter (fun o => match o with Create k' => Nat.eqb k' j | _ => false end) os = []).
          { apply length_zero_iff_nil.
            destruct (filter _ os) as [|o fs] eqn:F; [reflexivity|exfalso].
            assert (In o (o :: fs)) as Hin by (left; reflexivity). rewrite <- F in Hin.
            apply filter_In in Hin as [Hin Ho]. apply In_nth_error in Hin as [m Hm].
            destruct (Hv' m o Hm) as (k' & -> & Hle). apply Nat.eqb_eq in Ho. subst k'.
            assert (m < length os)%nat by (apply nth_error_Some; congruence). lia. }
          rewrite F. reflexivity. }
        lia.
Qed.

Lemma valid_creates_firstn j os : valid_creates os -> valid_creates (firstn j os).
Proof.
  intros H i o Hi. apply H. rewrite <- (firstn_skipn j os), nth_error_app1; [exact Hi|].
  apply nth_error_Some. congruence.
Qed.

Lemma creations_exact root os : Z.of_nat (length os) < W64 -> valid_creates os ->
  let ids := snd (id_run [new_entity root] os) in
  length ids = length os /\
  forall j k, nth_error os j = Some (Create k) ->
    exists creator, nth_error (root :: ids) k = Some creator /\
      nth_error ids j = Some (creator ++ [times_creator k (firstn j os)]).
Proof.
  intros Hb Hv ids. pose proof (id_run_exact root os Hb Hv) as X. subst ids.
  destruct (id_run [new_entity root] os) as [p ids] eqn:R. cbn [snd]. destruct X as (L & M & C).
  split; [exact L|]. intros j k Hj.
  assert (Lj : (j < length os)%nat) by (apply nth_error_Some; congruence).
  destruct (Hv j _ Hj) as (k' & [= <-] & Hkj).
  assert (Hsplit : os = firstn j os ++ [Create k] ++ skipn (S j) os).
  { rewrite <- (firstn_skipn j os) at 1. f_equal. cbn. clear -Hj.
    revert os Hj; induction j as [|j IH]; intros [|o os]; cbn; intros H; try discriminate; [congruence|apply IH; exact H]. }
  assert (Hb1 : Z.of_nat (length (firstn j os)) < W64) by (rewrite firstn_length; lia).
  pose proof (id_run_exact root (firstn j os) Hb1 (valid_creates_firstn j os Hv)) as X1.
  rewrite Hsplit in R. rewrite id_run_app in R.
  destruct (id_run [new_entity root] (firstn j os)) as [p1 ids1] eqn:R1. cbn [fst snd] in R.
  destruct X1 as (L1 & M1 & C1). rewrite firstn_length, Nat.min_l in L1 by lia.
  rewrite id_run_app in R. cbn in R.
  assert (Lp1 : length p1 = S j) by (rewrite <- (map_length e_id), M1; cbn; lia).
  destruct (nth_error p1 k) as [e|] eqn:E.
  2:{ apply nth_error_None in E. lia. }
  cbn in R. injection R as _ Hids.
  exists (e_id e). split.
  - assert (Hk : nth_error (root :: ids1) k = Some (e_id e)) by (rewrite <- M1, nth_error_map, E; reflexivity).
    rewrite <- Hids. change (root :: ids1 ++ ?x) with ((root :: ids1) ++ x).
    rewrite nth_error_app1; [exact Hk|]. cbn; lia.
  - rewrite <- Hids, nth_error_app2, L1, Nat.sub_diag by lia. cbn. rewrite (C1 k e E). reflexivity.
Qed.
Lemma valid_length root os : Z.of_nat (length os) < W64 -> valid_creates os -> length (fst (id_run [new_entity root] os)) = S (length os).
Proof.
  intros Hb Hv. pose proof (id_run_exact root os Hb Hv) as X. destruct (id_run [new_entity root] os) as [p ids].
  destruct X as (L & M & _). cbn [fst]. rewrite <- (map_length e_id), M. cbn. lia.
Qed.
Lemma copy_exact root os k : Z.of_nat (length os) < W64 -> valid_creates os -> (k <= length os)%nat ->
  exists creator, nth_error (root :: snd (id_run [new_entity root] os)) k = Some creator /\
    snd (id_run [new_entity root] (os ++ [CopyAgent k; Create (S (length os))])) =
    snd (id_run [new_entity root] os) ++ [creator ++ [0]].
Proof.
  intros Hb Hv Hk. pose proof (id_run_exact root os Hb Hv) as X. rewrite id_run_app. cbn [snd].
  pose proof (valid_length root os Hb Hv) as Lp.
  destruct (id_run [new_entity root] os) as [p ids]. cbn [fst snd] in *. destruct X as (L & M & _).
  assert (E : exists e, nth_error p k = Some e).
  { destruct (nth_error p k) eqn:E; [eauto|]. apply nth_error_None in E. lia. }
  destruct E as [e E]. exists (e_id e). split.
  - rewrite <- M, nth_error_map, E. reflexivity.
  - rewrite <- Lp. cbn. rewrite E. cbn. rewrite nth_error_app2, Nat.sub_diag by lia. reflexivity.
Qed.
Lemma copy_collides root os k : Z.of_nat (length os) < W64 -> valid_creates os -> In (Create k) os ->
  ~ NoDup (snd (id_run [new_entity root] (os ++ [CopyAgent k; Create (S (length os))]))).
Proof.
  intros Hb Hv Hin.
  assert (F : exists j, nth_error os j = Some (Create k) /\ times_creator k (firstn j os) = 0).
  { clear Hb Hv. induction os as [|o os IH]; [destruct Hin|].
    destruct o as [k'|k']. destruct (Nat.eqb_spec k' k) as [->|N].
    - exists 0%nat. split; reflexivity.
    - destruct Hin as [[= ->]|Hin]; [congruence|]. destruct (IH Hin) as (j & A & B). exists (S j). split; [exact A|].
      unfold times_creator in *. cbn. apply Nat.eqb_neq in N. now rewrite N.
    - destruct Hin as [Hin|Hin]; [discriminate|]. destruct (IH Hin) as (j & A & B). exists (S j). split; [exact A|]. exact B. }
  destruct F as (j & A & B).
  destruct (creations_exact root os Hb Hv) as [L X]. destruct (X j k A) as (creator & C & D).
  assert (Lj : (j < length os)%nat) by (apply nth_error_Some; congruence).
  destruct (Hv j _ A) as (k' & [= <-] & Hkj).
  destruct (copy_exact root os k Hb Hv ltac:(lia)) as (creator' & C' & ->).
  assert (creator' = creator) as -> by congruence. rewrite B in D.
  intros N. rewrite NoDup_nth_error in N.
  specialize (N j (length os)). rewrite nth_error_app1, nth_error_app2, L, Nat.sub_diag, D in N by lia.
  rewrite app_length, L in N. cbn in N. specialize (N ltac:(lia) eq_refl). lia.
Qed.
