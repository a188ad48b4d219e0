(** Proofs for C200. *)
From Coq Require Import ZifyBool ZifyNat.
From Verif Require Import Base Identity BlockPool StaticBook StaticBook_spec StaticMatch_spec StaticMatch_proofs StaticMatch_more TwoBooks_spec.
From Verif Require BinaryBook BinaryBook_spec BinaryBook_proofs BinaryBook_proofs2 BinaryBook_proofs3.

Lemma naive_run_snoc s h rs s1 x rs' s2 : BinaryBook_spec.naive_run s h rs s1 -> BinaryBook_spec.naive_step s1 x rs' s2 ->
  BinaryBook_spec.naive_run s (h ++ [x]) (rs ++ rs') s2.
Proof.
  induction 1 as [s|s y r1 s1 h r2 s3 H1 H2 IH]; intros N.
  - cbn. rewrite <- (app_nil_r rs'). econstructor; [exact N|constructor].
  - cbn. rewrite <- app_assoc. econstructor; [exact H1|]. apply IH. exact N.
Qed.

Lemma NoDup_snoc' {A} (l : list A) x : NoDup l -> ~ In x l -> NoDup (l ++ [x]).
Proof. intros N H. apply NoDup_rev in N. rewrite <- (rev_involutive (l ++ [x])). apply NoDup_rev. rewrite rev_app_distr. cbn. constructor; [|exact N]. rewrite <- in_rev. exact H. Qed.
Section Two.
Context (name : Z -> identity) (symbol : Z).
Definition corr (ids : list Z) (e : entry) (x : Z * BinaryBook.order) : Prop :=
  side_of (e_buy e) = BinaryBook.o_side (snd x) /\ e_limit e = BinaryBook.o_limit (snd x) /\ e_quantity e = BinaryBook.o_quantity (snd x) /\
  name (e_owner e) = BinaryBook.o_owner (snd x) /\ 0 <= fst x /\ nth_error ids (Z.to_nat (fst x)) = Some (e_identifier e).
Definition tids (n : nat) : list Z := map Z.of_nat (seq 0 n).
Lemma nth_tids n k : (k < n)%nat -> nth_error (tids n) k = Some (Z.of_nat k).
Proof. intros H. unfold tids. rewrite nth_error_map. rewrite (nth_error_nth' _ 0%nat) by (rewrite seq_length; lia). cbn. rewrite seq_nth by lia. reflexivity. Qed.
Lemma tids_snoc n : tids (S n) = tids n ++ [Z.of_nat n].
Proof. unfold tids. rewrite seq_S, map_app. reflexivity. Qed.
Lemma nth_app_some {A} (l l' : list A) k x : nth_error l k = Some x -> nth_error (l ++ l') k = Some x.
Proof. intros H. rewrite nth_error_app1; [exact H|]. apply nth_error_Some. congruence. Qed.
Lemma corr_more ids ids' e x : corr ids e x -> corr (ids ++ ids') e x.
Proof. intros (H1 & H2 & H3 & H4 & H5 & H6). repeat split; try assumption. apply nth_app_some. exact H6. Qed.
Lemma alike_more ids ids' t t' r r' : alike name ids t r r' -> alike name (ids ++ ids') (t ++ t') r r'.
Proof.
  intros (H1 & H2 & H3 & H4 & H5 & H6). repeat split; try assumption. destruct H6 as [H6|(k & K1 & K2)]; [left; exact H6|right].
  exists k. split; apply nth_app_some; assumption.
Qed.
Lemma corr_same ids e x : corr ids e x -> e_buy e = match BinaryBook.o_side (snd x) with BinaryBook.Buy => true | _ => false end.
Proof. intros (H & _). rewrite <- H. destruct (e_buy e); reflexivity. Qed.

Section Step.
Context (lowest highest lot capacity : Z) (size fuel : nat) (encode decode : Z -> Z) (default_comparable : bool).
Context (HF : faithful lowest highest size encode decode) (Hfuel : capacity <= Z.of_nat fuel).
Local Notation inside := (inside lowest highest).
Definition same_order (o : limit_order) (O : BinaryBook.order) : Prop :=
  side_of (o_buy o) = BinaryBook.o_side O /\ o_limit o = BinaryBook.o_limit O /\ name (o_owner o) = BinaryBook.o_owner O.
Lemma crosses_can ids o O e x : same_order o O -> corr ids e x -> (crosses o e <-> BinaryBook_spec.can_trade O (snd x)).
Proof.
  intros (S1 & S2 & _) (C1 & C2 & _). unfold crosses, BinaryBook_spec.can_trade. rewrite <- S1, <- S2, <- C1, <- C2.
  destruct (o_buy o), (e_buy e); cbn; intuition congruence.
Qed.
Lemma trade_alike ids n o O e x q : length ids = n -> same_order o O -> corr ids e x ->
  Forall2 (alike name ids (tids n)) (trade o e q) (BinaryBook_spec.trade_reports O (fst x) (snd x) q).
Proof.
  intros L (S1 & S2 & S3) (C1 & C2 & C3 & C4 & C5 & C6). constructor; [|constructor; [|constructor]].
  - repeat split; cbn; try assumption. left. split; reflexivity.
  - repeat split; cbn; try assumption. right. exists (Z.to_nat (fst x)). split; [exact C6|].
    assert ((Z.to_nat (fst x) < n)%nat) by (subst n; apply nth_error_Some; congruence).
    rewrite nth_tids by assumption. f_equal. lia.
Qed.
Lemma match_rel ids n o O : length ids = n -> same_order o O -> forall l q rs l' q', executes o l q rs l' q' ->
  Forall inside l -> NoDup (map e_identifier l) -> forall L, Forall2 (corr ids) l L ->
  exists RS L', BinaryBook_spec.naive_match O q L RS L' q' /\ Forall2 (corr ids) l' L' /\ Forall2 (alike name ids (tids n)) rs RS /\
    BinaryBook_spec.ids_of BinaryBook.Placed RS = [].
Proof.
  intros Ln SO. induction 1 as [l|l q Hq Ha|l q e rs l' q' Hq Hn Hc x Hx IH]; intros I N L F.
  - exists [], L. split; [apply BinaryBook_spec.nm_stop; left; reflexivity|]. repeat split; auto.
  - exists [], L. split; [|repeat split; auto]. apply BinaryBook_spec.nm_stop. right. intros y Hy T.
    apply In_nth_error in Hy. destruct Hy as (k & Hk).
    assert (exists e, In e l /\ corr ids e y) as (e & He & Ce).
    { clear - F Hk. revert k Hk. induction F as [|a b la lb H F IH]; intros [|k] Hk; cbn in Hk; try discriminate.
      - injection Hk as ->. exists a. split; [left; reflexivity|exact H].
      - destruct (IH k Hk) as (e & H1 & H2). exists e. split; [right; exact H1|exact H2]. }
    apply (Ha e He). apply (crosses_can ids o O e y SO Ce). exact T.
  - assert (Ex0 : x = Z.min q (e_quantity e)) by reflexivity. clearbody x. destruct Hn as (Be & older & younger & -> & Ho & Hy).
    assert (Ie : inside e) by (apply Forall_app in I; destruct I as [_ I]; inversion I; assumption). pose proof Ie as (Ie1 & Ie2 & Ie3).
    rewrite (ledger_trade lowest highest) in IH, Hx by (auto; lia).
    apply Forall2_app_inv_l in F. destruct F as (L1 & L2' & F1 & F2 & ->). destruct L2' as [|[i r] L2]; [inversion F2|]. assert (corr ids e (i, r) /\ Forall2 (corr ids) younger L2) as (Fe & F3) by (inversion F2; auto). subst n.
    pose proof Fe as (C1 & C2 & C3 & C4 & C5 & C6). cbn [fst snd] in *.
    assert (I2 : Forall inside (after_trade older e younger x) /\ NoDup (map e_identifier (after_trade older e younger x))).
    { destruct (trades_inside lowest highest 0 size 0 encode decode HF o (older ++ e :: younger) q (trade o e x ++ []) (after_trade older e younger x) (q - x)) as (J1 & J2 & _); auto.
      apply tr_step_x; auto. { split; [exact Be|]. exists older, younger. auto. }
      rewrite (ledger_trade lowest highest) by (auto; lia). apply tr_done. }
    destruct I2 as (I2 & N2).
    assert (Bo : BinaryBook_spec.best_of O L1 r L2).
    { pose proof SO as (S1 & S2 & S3). split; [apply (crosses_can ids o O e (i, r) SO Fe); exact Hc|]. split.
      - intros y Hy' T. assert (exists a, In a older /\ corr ids a y) as (a & Ha & Ca).
        { clear - F1 Hy'. induction F1 as [|a b la lb H F IH]; cbn in Hy'; [tauto|]. destruct Hy' as [<-|Hy']; [exists a; split; [left; reflexivity|exact H]|].
          destruct (IH Hy') as (c & D1 & D2). exists c. split; [right; exact D1|exact D2]. }
        apply (crosses_can ids o O a y SO Ca) in T. destruct T as (T1 & _). rewrite Forall_forall in Ho. specialize (Ho a Ha T1).
        destruct Ca as (_ & A2 & _). unfold StaticMatch_spec.better in Ho. unfold BinaryBook_spec.better. rewrite <- S1, <- C2, <- A2. destruct (o_buy o); cbn in *; lia.
      - intros y Hy' T. assert (exists a, In a younger /\ corr ids a y) as (a & Ha & Ca).
        { clear - F3 Hy'. induction F3 as [|a b la lb H F IH]; cbn in Hy'; [tauto|]. destruct Hy' as [<-|Hy']; [exists a; split; [left; reflexivity|exact H]|].
          destruct (IH Hy') as (c & D1 & D2). exists c. split; [right; exact D1|exact D2]. }
        apply (crosses_can ids o O a y SO Ca) in T. destruct T as (T1 & _). rewrite Forall_forall in Hy. specialize (Hy a Ha T1).
        destruct Ca as (_ & A2 & _). unfold StaticMatch_spec.better in Hy. unfold BinaryBook_spec.better. rewrite <- S1, <- C2, <- A2. destruct (o_buy o); cbn in *; lia. }
    pose proof (trade_alike ids _ o O e (i, r) x eq_refl SO Fe) as Ta. cbn [fst snd] in Ta.
    destruct (Z.le_gt_cases (e_quantity e) q) as [Le|Gt].
    + assert (Ex : x = e_quantity e) by lia. unfold after_trade in IH, I2, N2. rewrite Ex in IH, I2, N2. rewrite Z.eqb_refl in IH, I2, N2.
      destruct (IH I2 N2 (L1 ++ L2)) as (RS & L' & M & F' & A' & P'); [apply Forall2_app; assumption|].
      exists (BinaryBook_spec.trade_reports O i r (BinaryBook.o_quantity r) ++ RS), L'. split; [|split; [exact F'|split]].
      * apply BinaryBook_spec.nm_fill; auto; [lia|]. rewrite <- C3. exact M.
      * apply Forall2_app; [|exact A']. rewrite <- C3, <- Ex. exact Ta.
      * unfold BinaryBook_spec.ids_of in *. rewrite filter_app, map_app, P'. reflexivity.
    + assert (Ex : x = q) by lia. clear Ex0 IH. subst x. rewrite Z.sub_diag in Hx. inversion Hx; subst; try lia.
      exists (BinaryBook_spec.trade_reports O i r q ++ []), (L1 ++ (i, BinaryBook.with_quantity r (BinaryBook.o_quantity r - q)) :: L2). split; [|split; [|split]].
      * rewrite app_nil_r. apply BinaryBook_spec.nm_part; auto. lia.
      * unfold after_trade. destruct (Z.eqb_spec q (e_quantity e)); [lia|]. apply Forall2_app; [exact F1|]. constructor; [|exact F3].
        repeat split; cbn; try assumption. lia.
      * apply Forall2_app; [exact Ta|constructor].
      * reflexivity.
Qed.

Local Notation reached' := (reached lowest highest lot capacity size fuel encode decode default_comparable).
Local Notation ask' := (ask_fixed lowest highest lot fuel encode decode default_comparable).
Local Notation permitted' := (permitted lowest highest lot capacity fuel encode decode default_comparable).
Definition ordinary (x : BinaryBook.op) : Prop := match x with BinaryBook.Insert o => u32 (BinaryBook.o_quantity o) | BinaryBook.Cancel _ => True end.
Record related (b : book) (s : tree) (h : list BinaryBook.op) (L : list (Z * BinaryBook.order)) : Prop := mk_related {
  re_reached : reached' b;
  re_tree : s = (BinaryBook.after h, BinaryBook.reports_of h);
  re_ordinary : Forall ordinary h;
  re_naive : BinaryBook_spec.naive_run (0, []) h (BinaryBook.reports_of h) (Z.of_nat (length (placed_identifiers (b_reports b))), L);
  re_tids : placed_in_tree (BinaryBook.reports_of h) = tids (length (placed_identifiers (b_reports b)));
  re_corr : Forall2 (corr (placed_identifiers (b_reports b))) (resting (b_reports b)) L;
  re_alike : Forall2 (alike name (placed_identifiers (b_reports b)) (tids (length (placed_identifiers (b_reports b))))) (b_reports b) (BinaryBook.reports_of h);
  re_proper : proper (placed_identifiers (b_reports b)) }.
Lemma valid_h h : Forall ordinary h -> Z.of_nat (length h) < W64 - 1 -> BinaryBook_spec.valid h.
Proof. intros H1 H2. split; [exact H1|exact H2]. Qed.
Lemma tree_step h x rs' L n st' : Forall ordinary (h ++ [x]) -> Z.of_nat (length (h ++ [x])) < W64 - 1 ->
  BinaryBook_spec.naive_run (0, []) h (BinaryBook.reports_of h) (n, L) -> BinaryBook_spec.naive_step (n, L) x rs' st' ->
  snd (BinaryBook.step (BinaryBook.after h) x) = rs' /\ BinaryBook_spec.naive_run (0, []) (h ++ [x]) (BinaryBook.reports_of (h ++ [x])) st'.
Proof.
  intros O Len N S. destruct (BinaryBook_proofs3.refinement (h ++ [x]) (valid_h _ O Len)) as (m & l & R & _).
  pose proof (naive_run_snoc _ _ _ _ _ _ _ N S) as N'. pose proof (proj1 (R _ _) N') as (E1 & E2).
  rewrite BinaryBook_proofs2.reports_app in E1. apply app_inv_head in E1. split; [symmetry; exact E1|].
  rewrite BinaryBook_proofs2.reports_app, <- E1. exact N'.
Qed.
Lemma tree_app rs rs' : placed_in_tree (rs ++ rs') = placed_in_tree rs ++ placed_in_tree rs'.
Proof. unfold placed_in_tree, BinaryBook_spec.ids_of. rewrite filter_app, map_app. reflexivity. Qed.
Lemma Forall2_impl' {A B} (P Q : A -> B -> Prop) l l' : (forall a b, P a b -> Q a b) -> Forall2 P l l' -> Forall2 Q l l'.
Proof. intros H. induction 1; constructor; auto. Qed.
Lemma cancel_ledger l1 e l2 r : NoDup (map e_identifier (l1 ++ e :: l2)) -> p_state r = cancelled -> p_identifier r = e_identifier e ->
  note (l1 ++ e :: l2) r = l1 ++ l2.
Proof.
  intros N S E. unfold note. rewrite S, E. pose proof (NoDup_map_app e_identifier l1 e l2 N) as D. rewrite filter_app. cbn [filter]. rewrite Z.eqb_refl. cbn [negb].
  rewrite !filter_true; [reflexivity| |]; intros y Hy; (destruct (Z.eqb_spec (e_identifier y) (e_identifier e)) as [X|X]; [|reflexivity]); exfalso; apply (D y); auto; apply in_or_app; auto.
Qed.
Lemma order_step b s h L buy limit quantity owner : related b s h L -> Z.of_nat (length h) + 1 < W64 - 1 ->
  permitted_one lowest highest lot capacity b (Order buy limit quantity owner) ->
  exists b' h' L', ask' b (Order buy limit quantity owner) = Ok b' /\ length h' = S (length h) /\
    related b' (ask_tree name symbol s (Order buy limit quantity owner)) h' L'.
Proof.
  intros [Re Rt Ro Rn Ri Rc Ra Rp] Len (Hne & Hlim & Hq & Hcap). cbn [ask_fixed].
  set (o := mk_order owner buy limit lot quantity good_until_cancelled). set (O := tree_order name symbol buy limit quantity owner).
  assert (SO : same_order o O) by (repeat split).
  pose proof (reached_ok _ _ _ _ _ _ _ _ _ HF Hfuel _ Re) as G. destruct (reached_ledger _ _ _ _ _ _ G) as (I & N).
  assert (Al : allowed lowest highest lot capacity (resting (b_reports b)) (Insert o)).
  { cbn. repeat split; try lia; discriminate. }
  destruct (insert_ok _ _ _ _ _ _ _ _ HF Hfuel o b G Hne Al) as (b' & rs & hh & E & Rs & A & Inc & _).
  assert (Re' : reached' b') by (eapply re_step; [exact Re|exact Hne|exact Al|exact E]).
  exists b', (h ++ [BinaryBook.Insert O]).
  assert (Oh : Forall ordinary (h ++ [BinaryBook.Insert O])).
  { apply Forall_app. split; [exact Ro|]. constructor; [|constructor]. cbn. unfold u32. change W32 with (2 ^ 32). lia. }
  assert (Lh : Z.of_nat (length (h ++ [BinaryBook.Insert O])) < W64 - 1) by (rewrite app_length; cbn [length]; lia).
  inversion A as [X|X Y T|r l' X Y Ex|r l' q X Y Ex Qq T|r l' q X Y Ex Qq T]; subst; try (cbn in T; discriminate); try (exfalso; cbn in X; lia).
  - (* filled *)
    destruct (match_rel _ _ o O eq_refl SO _ _ _ _ _ Ex I N _ Rc) as (RS & L' & M & F' & A' & P').
    destruct (tree_step h (BinaryBook.Insert O) RS L _ (Z.of_nat (length (placed_identifiers (b_reports b))), L') Oh Lh Rn) as (E1 & E2).
    { apply BinaryBook_spec.ns_filled. exact M. }
    assert (Pl : placed_identifiers rs = []) by (apply executes_trades in Ex; eapply trades_placed; exact Ex).
    assert (Rl : resting (b_reports b') = l').
    { rewrite Rs, resting_app. apply executes_trades in Ex. eapply trades_fold; exact Ex. }
    assert (Ids : placed_identifiers (b_reports b') = placed_identifiers (b_reports b)) by (rewrite Rs, placed_app, Pl, app_nil_r; reflexivity).
    exists L'. split; [exact E|]. split; [rewrite app_length; cbn; lia|]. constructor.
    + exact Re'.
    + unfold ask_tree. cbn [fst snd]. fold O. rewrite BinaryBook_proofs2.after_app, BinaryBook_proofs2.reports_app. reflexivity.
    + exact Oh.
    + rewrite Ids. exact E2.
    + rewrite Ids, BinaryBook_proofs2.reports_app, E1, tree_app, Ri. unfold placed_in_tree. rewrite P', app_nil_r. reflexivity.
    + rewrite Ids, Rl. exact F'.
    + rewrite Ids, Rs, BinaryBook_proofs2.reports_app, E1. apply Forall2_app; [exact Ra|exact A'].
    + rewrite Ids. exact Rp.
  - (* placed *)
    destruct (match_rel _ _ o O eq_refl SO _ _ _ _ _ Ex I N _ Rc) as (RS & L' & M & F' & A' & P').
    set (n := length (placed_identifiers (b_reports b))) in *.
    set (rep := BinaryBook.mk_report BinaryBook.Placed (BinaryBook.o_side O) q (Z.of_nat n) (BinaryBook.o_limit O) (BinaryBook.o_owner O)).
    destruct (tree_step h (BinaryBook.Insert O) (RS ++ [rep]) L _ (Z.of_nat n + 1, L' ++ [(Z.of_nat n, BinaryBook.with_quantity O q)]) Oh Lh Rn) as (E1 & E2).
    { apply BinaryBook_spec.ns_placed; [exact M|exact Qq]. }
    assert (Pl : placed_identifiers r = []) by (apply executes_trades in Ex; eapply trades_placed; exact Ex).
    assert (Rl : resting (b_reports b') = l' ++ [mk_entry hh buy limit q owner]).
    { rewrite Rs, resting_app, fold_left_app. apply executes_trades in Ex. rewrite (trades_fold _ _ _ _ _ _ Ex). reflexivity. }
    assert (Ids : placed_identifiers (b_reports b') = placed_identifiers (b_reports b) ++ [hh]) by (rewrite Rs, !placed_app, Pl; reflexivity).
    assert (Sn : length (placed_identifiers (b_reports b) ++ [hh]) = S n) by (rewrite app_length; cbn; unfold n; lia).
    exists (L' ++ [(Z.of_nat n, BinaryBook.with_quantity O q)]). split; [exact E|]. split; [rewrite app_length; cbn; lia|]. constructor.
    + exact Re'.
    + unfold ask_tree. cbn [fst snd]. fold O. rewrite BinaryBook_proofs2.after_app, BinaryBook_proofs2.reports_app. reflexivity.
    + exact Oh.
    + rewrite Ids, Sn. replace (Z.of_nat (S n)) with (Z.of_nat n + 1) by lia. exact E2.
    + rewrite Ids, Sn, BinaryBook_proofs2.reports_app, E1, !tree_app, Ri. unfold placed_in_tree at 1. rewrite P'. rewrite tids_snoc. reflexivity.
    + rewrite Ids, Rl. apply Forall2_app; [eapply Forall2_impl'; [|exact F']; intros; apply corr_more; assumption|].
      constructor; [|constructor]. repeat split; cbn; try reflexivity; try lia. rewrite Nat2Z.id. rewrite nth_error_app2 by (unfold n; lia). unfold n. rewrite Nat.sub_diag. reflexivity.
    + rewrite Ids, Sn, Rs, BinaryBook_proofs2.reports_app, E1, tids_snoc.
      apply Forall2_app; [eapply Forall2_impl'; [|exact Ra]; intros; apply alike_more; assumption|].
      apply Forall2_app; [eapply Forall2_impl'; [|exact A']; intros; apply alike_more; assumption|].
      constructor; [|constructor]. repeat split; cbn; try reflexivity. right. exists n. split.
      * rewrite nth_error_app2 by (unfold n; lia). unfold n. rewrite Nat.sub_diag. reflexivity.
      * rewrite nth_error_app2 by (unfold tids; rewrite map_length, seq_length; lia). unfold tids. rewrite map_length, seq_length, Nat.sub_diag. reflexivity.
    + rewrite Ids. destruct Rp as [P1 P2]. unfold increasing in Inc. rewrite placed_app, Pl in Inc. cbn in Inc. inversion Inc as [|? ? [J1 J2] _]; subst. split.
      * apply NoDup_snoc'; auto. intros X'. rewrite Forall_forall in J1. specialize (J1 _ X'). lia.
      * apply Forall_app. split; [exact P2|]. constructor; [|constructor]. unfold direct_order. lia.
Qed.

Lemma withdraw_step b s h L k : related b s h L -> Z.of_nat (length h) + 1 < W64 - 1 ->
  permitted_one lowest highest lot capacity b (Withdraw k) ->
  exists b' h' L', ask' b (Withdraw k) = Ok b' /\ length h' = S (length h) /\ related b' (ask_tree name symbol s (Withdraw k)) h' L'.
Proof.
  intros [Re Rt Ro Rn Ri Rc Ra Rp] Len (Hne & hh & Hk & Al). cbn [ask_fixed]. rewrite Hk.
  pose proof (reached_ok _ _ _ _ _ _ _ _ _ HF Hfuel _ Re) as G. destruct (reached_ledger _ _ _ _ _ _ G) as (I & N).
  destruct (cancel_ok _ _ lot _ _ _ _ _ default_comparable HF Hfuel hh b G Al) as (b' & e & He & Eh & E & Rs & _).
  assert (Re' : reached' b') by (eapply re_step; [exact Re|exact Hne|exact Al|exact E]).
  set (ids := placed_identifiers (b_reports b)) in *. set (n := length ids) in *.
  assert (Kn : (k < n)%nat) by (apply nth_error_Some; congruence).
  apply in_split in He. destruct He as (l1 & l2 & El). rewrite El in Rc, N.
  apply Forall2_app_inv_l in Rc. destruct Rc as (L1 & L2' & F1 & F2 & EL). destruct L2' as [|[i r] L2]; [inversion F2|].
  assert (corr ids e (i, r) /\ Forall2 (corr ids) l2 L2) as (Fe & F3) by (inversion F2; auto).
  pose proof Fe as (C1 & C2 & C3 & C4 & C5 & C6). cbn [fst snd] in *.
  assert (Ei : i = Z.of_nat k).
  { assert (Z.to_nat i = k); [|lia]. destruct Rp as [P1 _]. apply (proj1 (NoDup_nth_error ids) P1); [apply nth_error_Some; congruence|]. rewrite C6, Hk. congruence. }
  exists b', (h ++ [BinaryBook.Cancel i]), (L1 ++ L2).
  assert (Oh : Forall ordinary (h ++ [BinaryBook.Cancel i])).
  { apply Forall_app. split; [exact Ro|]. constructor; [exact Logic.I|constructor]. }
  assert (Lh : Z.of_nat (length (h ++ [BinaryBook.Cancel i])) < W64 - 1) by (rewrite app_length; cbn [length]; lia).
  set (rep := BinaryBook.mk_report BinaryBook.Cancelled (BinaryBook.o_side r) (BinaryBook.o_quantity r) i (BinaryBook.o_limit r) (BinaryBook.o_owner r)).
  destruct (tree_step h (BinaryBook.Cancel i) [rep] L _ (Z.of_nat n, L1 ++ L2) Oh Lh Rn) as (E1 & E2).
  { rewrite EL. apply BinaryBook_spec.ns_cancel. }
  assert (Ids : placed_identifiers (b_reports b') = ids) by (rewrite Rs, placed_app; cbn; apply app_nil_r).
  split; [exact E|]. split; [rewrite app_length; cbn; lia|]. constructor.
  - exact Re'.
  - unfold ask_tree. rewrite Rt. cbn [fst snd]. rewrite Ri, nth_tids by exact Kn. rewrite <- Ei. rewrite BinaryBook_proofs2.after_app, BinaryBook_proofs2.reports_app. reflexivity.
  - exact Oh.
  - rewrite Ids. exact E2.
  - rewrite Ids, BinaryBook_proofs2.reports_app, E1, tree_app, Ri. cbn. apply app_nil_r.
  - rewrite Ids, Rs, resting_app, El. cbn [fold_left]. rewrite cancel_ledger; [apply Forall2_app; assumption|exact N|reflexivity|symmetry; exact Eh].
  - rewrite Ids, Rs, BinaryBook_proofs2.reports_app, E1. apply Forall2_app; [exact Ra|]. constructor; [|constructor].
    repeat split; cbn; try assumption. right. exists k. fold n. rewrite nth_tids by exact Kn. split; [exact Hk|congruence].
  - rewrite Ids. exact Rp.
Qed.
Lemma all_steps xs : forall b s h L, related b s h L -> permitted' b xs -> Z.of_nat (length h) + Z.of_nat (length xs) < W64 - 1 ->
  exists b' h' L', ask_fixed_all lowest highest lot fuel encode decode default_comparable b xs = Ok b' /\ related b' (ask_tree_all name symbol s xs) h' L' /\
    Z.of_nat (length h') < W64 - 1.
Proof.
  induction xs as [|x xs IH]; intros b s h L R P Len.
  - exists b, h, L. split; [reflexivity|]. split; [exact R|]. cbn in Len. lia.
  - destruct P as (P1 & P2). cbn [length] in Len.
    assert (exists b' h' L', ask' b x = Ok b' /\ length h' = S (length h) /\ related b' (ask_tree name symbol s x) h' L') as (b' & h' & L' & E & Lh & R').
    { destruct x; [apply order_step with (L := L)|apply withdraw_step with (L := L)]; auto; lia. }
    destruct (IH b' _ h' L' R' (P2 b' E)) as (b2 & h2 & L2 & E2 & R2 & Len2); [lia|].
    exists b2, h2, L2. cbn [ask_fixed_all]. rewrite E. cbn [bind_result]. split; [exact E2|]. split; [exact R2|exact Len2].
Qed.
Lemma start b : new_book lowest highest size capacity = Ok b -> related b new_tree [] [].
Proof.
  intros E. assert (R : b_reports b = []) by (unfold new_book in E; clear - E; destruct (lowest >=? highest); [discriminate|]; destruct (new_pool default_record capacity); try discriminate; injection E as <-; reflexivity).
  constructor; rewrite ?R; try constructor; try reflexivity; try constructor. exact E.
Qed.
Lemma corr_right ids l L x : Forall2 (corr ids) l L -> In x L -> exists e, In e l /\ corr ids e x.
Proof.
  induction 1 as [|a b la lb H F IH]; cbn; [tauto|]. intros [<-|Hx]; [exists a; split; [left; reflexivity|exact H]|].
  destruct (IH Hx) as (c & D1 & D2). exists c. split; [right; exact D1|exact D2].
Qed.
Lemma corr_left ids l L e : Forall2 (corr ids) l L -> In e l -> exists x, In x L /\ corr ids e x.
Proof.
  induction 1 as [|a b la lb H F IH]; cbn; [tauto|]. intros [<-|Hx]; [exists b; split; [left; reflexivity|exact H]|].
  destruct (IH Hx) as (c & D1 & D2). exists c. split; [right; exact D1|exact D2].
Qed.
Lemma best_bid ids l L v u : Forall2 (corr ids) l L -> best_limit true l v ->
  BinaryBook_spec.is_highest u (filter (fun r => BinaryBook.side_eqb (BinaryBook.o_side (snd r)) BinaryBook.Buy) L) -> v = u.
Proof.
  intros F B H.
  assert (K : forall x, In x (filter (fun r => BinaryBook.side_eqb (BinaryBook.o_side (snd r)) BinaryBook.Buy) L) -> exists e, In e l /\ e_buy e = true /\ e_limit e = BinaryBook.o_limit (snd x)).
  { intros x Hx. apply filter_In in Hx. destruct Hx as (Hx & Sx). destruct (corr_right _ _ _ _ F Hx) as (e & He & C1 & C2 & _). exists e. split; [exact He|].
    split; [|exact C2]. rewrite <- C1 in Sx. destruct (e_buy e); [reflexivity|discriminate]. }
  assert (K' : forall e, In e l -> e_buy e = true -> exists x, In x (filter (fun r => BinaryBook.side_eqb (BinaryBook.o_side (snd r)) BinaryBook.Buy) L) /\ e_limit e = BinaryBook.o_limit (snd x)).
  { intros e He Be. destruct (corr_left _ _ _ _ F He) as (x & Hx & C1 & C2 & _). exists x. split; [|exact C2]. apply filter_In. split; [exact Hx|]. rewrite <- C1, Be. reflexivity. }
  destruct v as [v|], u as [u|]; cbn in B, H.
  - destruct B as ((e & He & Be & Ev) & B2), H as ((x & Hx & Eu) & H2). f_equal.
    destruct (K x Hx) as (e' & He' & Be' & Ee'). destruct (K' e He Be) as (x' & Hx' & Ex'). specialize (B2 e' He' Be'). specialize (H2 x' Hx'). lia.
  - destruct B as ((e & He & Be & _) & _). destruct (K' e He Be) as (x & Hx & _). rewrite H in Hx. destruct Hx.
  - destruct H as ((x & Hx & _) & _). destruct (K x Hx) as (e & He & Be & _). destruct (B e He Be).
  - reflexivity.
Qed.
Lemma best_ask ids l L v u : Forall2 (corr ids) l L -> best_limit false l v ->
  BinaryBook_spec.is_lowest u (filter (fun r => BinaryBook.side_eqb (BinaryBook.o_side (snd r)) BinaryBook.Sell) L) -> v = u.
Proof.
  intros F B H.
  assert (K : forall x, In x (filter (fun r => BinaryBook.side_eqb (BinaryBook.o_side (snd r)) BinaryBook.Sell) L) -> exists e, In e l /\ e_buy e = false /\ e_limit e = BinaryBook.o_limit (snd x)).
  { intros x Hx. apply filter_In in Hx. destruct Hx as (Hx & Sx). destruct (corr_right _ _ _ _ F Hx) as (e & He & C1 & C2 & _). exists e. split; [exact He|].
    split; [|exact C2]. rewrite <- C1 in Sx. destruct (e_buy e); [discriminate|reflexivity]. }
  assert (K' : forall e, In e l -> e_buy e = false -> exists x, In x (filter (fun r => BinaryBook.side_eqb (BinaryBook.o_side (snd r)) BinaryBook.Sell) L) /\ e_limit e = BinaryBook.o_limit (snd x)).
  { intros e He Be. destruct (corr_left _ _ _ _ F He) as (x & Hx & C1 & C2 & _). exists x. split; [|exact C2]. apply filter_In. split; [exact Hx|]. rewrite <- C1, Be. reflexivity. }
  destruct v as [v|], u as [u|]; cbn in B, H.
  - destruct B as ((e & He & Be & Ev) & B2), H as ((x & Hx & Eu) & H2). f_equal.
    destruct (K x Hx) as (e' & He' & Be' & Ee'). destruct (K' e He Be) as (x' & Hx' & Ex'). specialize (B2 e' He' Be'). specialize (H2 x' Hx'). lia.
  - destruct B as ((e & He & Be & _) & _). destruct (K' e He Be) as (x & Hx & _). rewrite H in Hx. destruct Hx.
  - destruct H as ((x & Hx & _) & _). destruct (K x Hx) as (e & He & Be & _). destruct (B e He Be).
  - reflexivity.
Qed.
Lemma related_quotes b s h L : (0 < size)%nat -> related b s h L -> Z.of_nat (length h) < W64 - 1 ->
  StaticBook.bid decode b = Ok (BinaryBook.bid (fst s)) /\ StaticBook.ask decode b = Ok (BinaryBook.ask (fst s)).
Proof.
  intros Hs [Re Rt Ro Rn Ri Rc Ra Rp] Len. pose proof (reached_ok _ _ _ _ _ _ _ _ _ HF Hfuel _ Re) as G.
  destruct (BinaryBook_proofs3.refinement h (valid_h _ Ro Len)) as (m & l & R & _ & Hi & Lo).
  pose proof (proj2 (proj1 (R _ _) Rn)) as Q. injection Q as _ <-. rewrite Rt. cbn [fst]. split.
  - assert (exists v, bid decode b = Ok v /\ best_limit true (resting (b_reports b)) v) as (v & B1 & B2).
    { destruct (quote_bid _ _ _ _ fuel _ _ HF b _ _ G Hs) as [(e & H1 & H2 & _ & H4 & H5)|(H1 & H2)]; eexists; (split; [eassumption|]); [|exact H2].
      split; [eauto|]. intros x Hx Bx. unfold StaticMatch_spec.better. pose proof (H5 x Hx Bx). lia. }
    rewrite B1. f_equal. exact (best_bid _ _ _ _ _ Rc B2 Hi).
  - assert (exists v, ask decode b = Ok v /\ best_limit false (resting (b_reports b)) v) as (v & B1 & B2).
    { destruct (quote_ask _ _ _ _ fuel _ _ HF b _ _ G Hs) as [(e & H1 & H2 & _ & H4 & H5)|(H1 & H2)]; eexists; (split; [eassumption|]); [|exact H2].
      split; [eauto|]. intros x Hx Bx. unfold StaticMatch_spec.better. pose proof (H5 x Hx Bx). lia. }
    rewrite B1. f_equal. exact (best_ask _ _ _ _ _ Rc B2 Lo).
Qed.
End Step.
End Two.
