From Coq Require Import String.
From Verif Require Import Base Text Identity Identity_proofs Quantity Money CheckDigits Belongings Belongings_spec Belongings_proofs.
From Coq Require Import ZifyBool ZifyNat.
Local Open Scope Z_scope.

(** ** C139: cash in different currencies is kept apart *)
Theorem C139_apart : forall cash_code lending_code l c, cash_code <> lending_code -> fits l -> capitals c ->
  (forall d q, In (Cash d, q) l -> capitals d) ->
  (forall i k s q, In (Stock i k s, q) l -> length i <> 2%nat) ->
  (forall d q, In (Cash d, q) l -> (c0 d, c1 d, c2 d) = (c0 c, c1 c, c2 c) -> denominator d = denominator c) ->
  amount_held (is_cash c) (put_all cash_code lending_code l []) = deposited (is_cash c) l.
Proof.
  intros cc lc l c N F C D St Den. apply deposits_held; [exact F|]. intros t u Ht Hu E. apply same_iff in E.
  apply in_map_iff in Ht. destruct Ht as ([t' q] & <- & Ht). apply in_map_iff in Hu. destruct Hu as ([u' x] & <- & Hu). cbn [fst] in *.
  destruct t' as [a|a|a b|a b s n|i k s], u' as [a'|a'|a' b'|a' b' s' n'|i' k' s']; cbn [identify is_cash] in *; try reflexivity; try discriminate E;
  try (injection E as E1 E2; congruence);
  try (subst i'; exfalso; apply (St _ _ _ _ Hu); reflexivity); try (subst i; exfalso; apply (St _ _ _ _ Ht); reflexivity).
  injection E as E. destruct (D _ _ Ht) as (A0 & A1 & A2), (D _ _ Hu) as (B0 & B1 & B2).
  destruct (hash_letters a a' A0 A1 A2 B0 B1 B2 E) as (L0 & L1 & L2). unfold ccy_eqb.
  pose proof (Den _ _ Ht) as X. pose proof (Den _ _ Hu) as Y. rewrite L0, L1, L2 in X |- *.
  destruct (c0 c =? c0 a') eqn:Q0; [|reflexivity]. destruct (c1 c =? c1 a') eqn:Q1; [|reflexivity]. destruct (c2 c =? c2 a') eqn:Q2; [|reflexivity].
  assert (T : (c0 a', c1 a', c2 a') = (c0 c, c1 c, c2 c)) by (apply Z.eqb_eq in Q0, Q1, Q2; now rewrite Q0, Q1, Q2). rewrite (X T), (Y T). reflexivity.
Qed.
Print Assumptions C139_apart.
Definition usd := mk_currency 85 83 68 100.
Definition mill := mk_currency 85 83 68 1000.
Definition eur := mk_currency 69 85 82 100.
(** Cash in the same letters with other subunits counts as the cash that was there first. *)
Theorem C139_subunits_refuted : forall cash_code lending_code c d x y, (c0 c, c1 c, c2 c) = (c0 d, c1 d, c2 d) -> denominator c <> denominator d ->
  0 <= x -> 0 <= y -> x + y < W64 ->
  cash_eqb c d = false /\ put_all cash_code lending_code [(Cash c, x); (Cash d, y)] [] = [(Cash c, x + y)].
Proof.
  intros cc lc c d x y L N X Y B. injection L as L0 L1 L2. split.
  - unfold cash_eqb, ccy_eqb. apply andb_false_iff. right. lia.
  - rewrite (one_entry cc lc (Cash c) x [(Cash d, y)]).
    + unfold zsum. cbn [map snd fold_right]. now rewrite Z.add_0_r.
    + split; [repeat constructor; assumption|unfold zsum; cbn [map snd fold_right]; lia].
    + constructor; [|constructor]. apply same_iff. cbn [identify fst]. unfold ccy_hash. now rewrite L0, L1, L2.
Qed.
Print Assumptions C139_subunits_refuted.
Example C139_example : amount_held (is_cash usd) (put_all 1 2 [(Cash usd, 5); (Cash eur, 7); (Loan [1] [2], 3); (Cash usd, 1)] []) = 6 /\
  put_all 1 2 [(Cash usd, 5); (Cash mill, 7)] [] = [(Cash usd, 12)].
Proof. split; vm_compute; reflexivity. Qed.

(** ** C140: different loans are kept apart *)
(** Every loan counts as the one that was there first, whoever the parties are. *)
Theorem C140_loans_refuted : forall cash_code lending_code lender borrower q l, fits ((Loan lender borrower, q) :: l) -> Forall (fun uq => is_loan (fst uq) = true) l ->
  put_all cash_code lending_code ((Loan lender borrower, q) :: l) [] = [(Loan lender borrower, q + zsum (map snd l))].
Proof.
  intros cc lc a b q l F A. apply one_entry; [exact F|]. eapply Forall_impl; [|exact A]. intros [u x] H. cbn [fst] in *. apply same_iff.
  destruct u; try discriminate H. reflexivity.
Qed.
Print Assumptions C140_loans_refuted.
(** So does money that is not cash, in every currency. *)
Theorem C140_money_refuted : forall cash_code lending_code c lender borrower x y, 0 <= x -> 0 <= y -> x + y < W64 ->
  put_all cash_code lending_code [(Money c, x); (Loan lender borrower, y)] [] = [(Money c, x + y)].
Proof.
  intros cc lc c a b x y X Y B. rewrite (one_entry cc lc (Money c) x [(Loan a b, y)]).
  - unfold zsum. cbn [map snd fold_right]. now rewrite Z.add_0_r.
  - split; [repeat constructor; assumption|unfold zsum; cbn [map snd fold_right]; lia].
  - constructor; [|constructor]. apply same_iff. reflexivity.
Qed.
Print Assumptions C140_money_refuted.
(** The number of loans is kept, as long as there is no money among the property. *)
Theorem C140_number : forall cash_code lending_code l, fits l -> (forall c q, ~ In (Money c, q) l) -> (forall i k s q, In (Stock i k s, q) l -> i <> []) ->
  amount_held is_loan (put_all cash_code lending_code l []) = deposited is_loan l.
Proof.
  intros cc lc l F M St. apply deposits_held; [exact F|]. intros t u Ht Hu E. apply same_iff in E.
  apply in_map_iff in Ht. destruct Ht as ([t' q] & <- & Ht). apply in_map_iff in Hu. destruct Hu as ([u' x] & <- & Hu). cbn [fst] in *.
  destruct t' as [a|a|a b|a b s n|i k s], u' as [a'|a'|a' b'|a' b' s' n'|i' k' s']; cbn [identify is_loan] in *; try reflexivity; try discriminate E;
  try (exfalso; now apply (M _ _ Ht)); try (exfalso; now apply (M _ _ Hu)).
  - exfalso. now apply (St _ _ _ _ Hu).
  - exfalso. now apply (St _ _ _ _ Ht).
Qed.
Print Assumptions C140_number.
Example C140_example : put_all 1 2 [(Loan [0; 1] [0; 2], 1); (Loan [0; 3] [0; 4], 1); (Cash usd, 9)] [] = [(Loan [0; 1] [0; 2], 2); (Cash usd, 9)].
Proof. vm_compute. reflexivity. Qed.

(** ** C141: contracts to lend securities are kept apart *)
Theorem C141_securities : forall cash_code lending_code l security, cash_code <> lending_code -> fits l -> (forall i k s q, In (Stock i k s, q) l -> hd_error i <> Some lending_code) ->
  amount_held (is_lending_of security) (put_all cash_code lending_code l []) = deposited (is_lending_of security) l.
Proof.
  intros cc lc l c N F St. apply deposits_held; [exact F|]. intros t u Ht Hu E. apply same_iff in E.
  apply in_map_iff in Ht. destruct Ht as ([t' q] & <- & Ht). apply in_map_iff in Hu. destruct Hu as ([u' x] & <- & Hu). cbn [fst] in *.
  destruct t' as [a|a|a b|a b s n|i k s], u' as [a'|a'|a' b'|a' b' s' n'|i' k' s']; cbn [identify is_lending_of] in *; try reflexivity; try discriminate E;
  try (injection E as E1 E2; congruence); try (injection E as E; now subst).
  - subst i'. exfalso. now apply (St _ _ _ _ Hu).
  - subst i. exfalso. now apply (St _ _ _ _ Ht).
Qed.
Print Assumptions C141_securities.
(** A contract is not the security that it is for: in no collection do they stand for each other. *)
Theorem C141_not_the_security : forall cash_code lending_code lender borrower security size class shares,
  same_property cash_code lending_code (Lending lender borrower security size) (Stock security class shares) = false.
Proof.
  intros cc lc a b i n k s. apply Bool.not_true_iff_false. intros E. apply same_iff in E. cbn [identify] in E.
  apply (f_equal (@List.length Z)) in E. cbn in E. lia.
Qed.
Print Assumptions C141_not_the_security.
(** Contracts for one security with different parties and sizes count as the first, so the units on loan are wrong. *)
Theorem C141_contracts_refuted : forall cash_code lending_code security a b n x a' b' n' y, 0 <= x -> 0 <= y -> x + y < W64 ->
  let l := [(Lending a b security n, x); (Lending a' b' security n', y)] in
  put_all cash_code lending_code l [] = [(Lending a b security n, x + y)] /\
  (units_lent (put_all cash_code lending_code l []) = units_lent l <-> n = n' \/ y = 0).
Proof.
  intros cc lc s a b n x a' b' n' y X Y B l.
  assert (E : put_all cc lc l [] = [(Lending a b s n, x + y)]).
  { unfold l. rewrite (one_entry cc lc (Lending a b s n) x [(Lending a' b' s n', y)]).
    - unfold zsum. cbn [map snd fold_right]. now rewrite Z.add_0_r.
    - split; [repeat constructor; assumption|unfold zsum; cbn [map snd fold_right]; lia].
    - constructor; [|constructor]. apply same_iff. reflexivity. }
  split; [exact E|]. rewrite E. unfold units_lent, l, zsum. cbn [map fst snd fold_right]. split; [|intros [->| ->]; ring].
  intros H. assert (G : (n - n') * y = 0) by lia. apply Z.mul_eq_0 in G. destruct G; [left|right]; lia.
Qed.
Print Assumptions C141_contracts_refuted.
Example C141_example : put_all 1 2 [(Lending [1] [2] [9; 9] 100, 1); (Lending [1] [2] [8] 50, 2); (Lending [5] [6] [9; 9] 7, 1)] [] =
  [(Lending [1] [2] [9; 9] 100, 2); (Lending [1] [2] [8] 50, 2)].
Proof. vm_compute. reflexivity. Qed.

(** ** C142: a share of a company never has the identity of other property that the company created *)
Theorem C142_exact : forall e c r i e', create e = (i, e') -> (i = create_share_identifier c r <-> e_id e = c /\ e_children e = r).
Proof.
  intros e c r i e' H. unfold create in H. injection H as <- _. unfold create_share_identifier. split; [apply app_inj_tail|intros [-> ->]; reflexivity].
Qed.
Print Assumptions C142_exact.
(** The [n]-th property that a new company creates has the identity of its shares of rank [n]. *)
Fixpoint create_many (n : nat) (e : entity) : list identity * entity :=
  match n with O => ([], e) | S n' => let '(i, e1) := create e in let '(l, e2) := create_many n' e1 in (i :: l, e2) end.
Theorem C142_collision_refuted : forall (rank : Z) c, 0 <= rank < 256 -> 
  nth_error (fst (create_many 256 (new_entity c))) (Z.to_nat rank) = Some (create_share_identifier c rank).
Proof.
  intros r c R. assert (G : forall n k e, 0 <= e_children e -> e_children e + Z.of_nat n < W64 -> (k < n)%nat -> nth_error (fst (create_many n e)) k = Some (e_id e ++ [e_children e + Z.of_nat k])).
  { induction n as [|n IH]; intros k e N B K; [lia|]. cbn [create_many]. destruct (create e) as [i e1] eqn:E. destruct (create_many n e1) as [l e2] eqn:E2.
    unfold create in E. injection E as <- <-. cbn [fst]. destruct k as [|k]; cbn [nth_error]; [now rewrite Z.add_0_r|].
    assert (S1 : w64 (e_children e + 1) = e_children e + 1) by (unfold w64; apply Z.mod_small; unfold W64 in *; lia).
    specialize (IH k {| e_id := e_id e; e_children := w64 (e_children e + 1) |}). rewrite E2 in IH. cbn [fst e_id e_children] in IH. rewrite S1 in IH.
    rewrite IH; [do 3 f_equal; lia|lia|lia|lia]. }
  rewrite G; [|cbn; lia|cbn; unfold W64; lia|lia]. unfold create_share_identifier. cbn [new_entity e_id e_children]. do 3 f_equal. lia.
Qed.
Print Assumptions C142_collision_refuted.
Example C142_example : fst (create (snd (create (new_entity [4])))) = create_share_identifier [4] 1 /\
  put_all 10 20 [(Stock (create_share_identifier [4] 1) [4] (mk_share_class 1 0 0 true false false), 50); (Stock (fst (create (snd (create (new_entity [4]))))) [4] (mk_share_class 0 1 0 true false false), 3)] [] =
  [(Stock [4; 1] [4] (mk_share_class 1 0 0 true false false), 53)].
Proof. split; vm_compute; reflexivity. Qed.

(** ** C143: printing a collection of property shows every item *)
Theorem C143_shown : forall e l, is_money e = false ->
  print_properties (e :: l) = codes "{"%string ++ joined (codes ", "%string) (map (fun f => named f ++ codes ": "%string ++ shown f) (e :: l)) ++ codes "}"%string.
Proof.
  intros e l M. unfold print_properties. rewrite M. change (codes "{") with [123]. change (codes "}") with [125]. change (codes ": ") with [58; 32]. change (codes ", ") with [44; 32].
  f_equal. f_equal. clear M. revert e. induction l as [|f l IH]; intros e; [cbn [map joined flat_map]; now rewrite app_nil_r|].
  assert (J : forall sep x y l, joined sep (x :: y :: l) = x ++ sep ++ joined sep (y :: l)) by reflexivity.
  cbn [map] in *. rewrite J, <- (IH f). cbn [flat_map]. rewrite <- ?app_assoc. reflexivity.
Qed.
Print Assumptions C143_shown.
(** When the iteration happens to begin with money, nothing is shown at all. *)
Theorem C143_money_refuted : forall e l, is_money e = true -> print_properties (e :: l) = print_properties [].
Proof. intros e l M. unfold print_properties. now rewrite M. Qed.
Print Assumptions C143_money_refuted.
Example C143_example : print_properties [mk_entry false (codes "loan") (codes "2"); mk_entry true (codes "USD cash") (codes "5")] = codes "{loan: 2, USD cash: 5}" /\
  print_properties [mk_entry true (codes "USD cash") (codes "5"); mk_entry false (codes "loan") (codes "2")] = codes "{}".
Proof. split; vm_compute; reflexivity. Qed.

(** ** C144: the shares recorded for a class are those last recorded for that class *)
Theorem C144_recorded : forall l s, (forall k n, In (k, n) l -> rank k = rank s -> k = s) -> class_find s (class_assign_all l []) = last_assigned s l.
Proof. intros l s D. rewrite find_assign_all by exact I. rewrite (last_ranked_assigned s l D). now destruct (last_assigned s l). Qed.
Print Assumptions C144_recorded.
(** Classes of one rank share an entry: the first class with the number of the second; the total misses the others. *)
Theorem C144_rank_refuted : forall s t x y, rank s = rank t -> s <> t -> 0 <= x -> 0 <= y -> x + y < W64 ->
  class_eqb s t = false /\ class_assign_all [(s, x); (t, y)] [] = [(s, y)] /\ shares_total (class_assign_all [(s, x); (t, y)] []) = y.
Proof.
  intros s t x y R N X Y B. assert (E : class_assign_all [(s, x); (t, y)] [] = [(s, y)]).
  { unfold class_assign_all. cbn [fold_left fst snd class_assign]. unfold class_ltb. rewrite R, Z.ltb_irrefl. reflexivity. }
  split; [destruct (class_eqb s t) eqn:F; [apply class_eqb_eq in F; contradiction|reflexivity]|]. split; [exact E|]. rewrite E. unfold shares_total. cbn [fold_left snd].
  unfold w64. apply Z.mod_small. lia.
Qed.
Print Assumptions C144_rank_refuted.
Example C144_example : class_assign_all [(mk_share_class 1 0 0 true false false, 5); (mk_share_class 0 1 0 true false false, 7); (mk_share_class 1 0 0 true false false, 6)] [] =
  [(mk_share_class 0 1 0 true false false, 7); (mk_share_class 1 0 0 true false false, 6)] /\
  class_assign_all [(mk_share_class 0 1 0 true false false, 5); (mk_share_class 0 0 0 true false false, 7)] [] = [(mk_share_class 0 1 0 true false false, 7)].
Proof. split; vm_compute; reflexivity. Qed.

(** ** C145: unique items are handed over once or not at all *)
(** The hand-over succeeds exactly when none of the items is held already, and then adds one of each. *)
Theorem C145_handed : forall cash_code lending_code s m, (forall i j t u, nth_error s i = Some t -> nth_error s j = Some u -> same_property cash_code lending_code t u = true -> i = j) ->
  ((forall t kx, In t s -> In kx m -> same_property cash_code lending_code (fst kx) t = false) <-> snd (set_insert_into cash_code lending_code s m) = false) /\
  (snd (set_insert_into cash_code lending_code s m) = false -> fst (set_insert_into cash_code lending_code s m) = m ++ map (fun t => (t, 1)) s).
Proof.
  intros cc lc s m D. assert (G : snd (set_insert_into cc lc s m) = false -> forall t kx, In t s -> In kx m -> same_property cc lc (fst kx) t = false).
  { intros H. apply (insert_into_refuses cc lc s m (fst (set_insert_into cc lc s m))). rewrite <- H. apply surjective_pairing. }
  split; [split; [|exact G]; intros F; now rewrite (insert_into_free cc lc s m D F)|]. intros H. now rewrite (insert_into_free cc lc s m D (G H)).
Qed.
Print Assumptions C145_handed.
(** Taking an item out of a set removes what has its identity and nothing else, and an item that was added can be taken out again. *)
Theorem C145_taken : forall cash_code lending_code t s,
  (forall u, In u (set_erase cash_code lending_code t s) <-> In u s /\ identify cash_code lending_code u <> identify cash_code lending_code t) /\
  ((forall u, In u s -> identify cash_code lending_code u <> identify cash_code lending_code t) ->
    set_insert cash_code lending_code t s = s ++ [t] /\ set_erase cash_code lending_code t (set_insert cash_code lending_code t s) = s).
Proof.
  intros cc lc t s. unfold set_erase. split.
  - intros u. rewrite filter_In, Bool.negb_true_iff, <- Bool.not_true_iff_false, same_iff. reflexivity.
  - intros F. assert (I : set_insert cc lc t s = s ++ [t]).
    { unfold set_insert. destruct (existsb _ s) eqn:X; [|reflexivity]. apply existsb_exists in X. destruct X as (u & Hu & E). exfalso. apply (F u Hu). now apply same_iff. }
    split; [exact I|]. rewrite I, filter_app. cbn [filter]. assert (same_property cc lc t t = true) as -> by now apply same_iff. cbn [negb]. rewrite app_nil_r.
    clear I. induction s as [|u s IH]; [reflexivity|]. cbn [filter].
    assert (same_property cc lc u t = false) as -> by (apply Bool.not_true_iff_false; intros E; apply (F u (or_introl eq_refl)); now apply same_iff).
    cbn [negb]. f_equal. apply IH. intros v Hv. apply F. now right.
Qed.
Print Assumptions C145_taken.
(** When it fails, the items before the one that is held already have been added. *)
Theorem C145_failed_refuted : forall cash_code lending_code s t s' m q, (forall i j a b, nth_error s i = Some a -> nth_error s j = Some b -> same_property cash_code lending_code a b = true -> i = j) ->
  (forall a kx, In a s -> In kx m -> same_property cash_code lending_code (fst kx) a = false) -> In (t, q) m ->
  set_insert_into cash_code lending_code (s ++ t :: s') m = (m ++ map (fun a => (a, 1)) s, true).
Proof.
  intros cc lc s t s' m q D F H.
  assert (G : forall s m, In (t, q) m -> snd (set_insert_into cc lc s m) = false -> set_insert_into cc lc (s ++ t :: s') m = (fst (set_insert_into cc lc s m), true)).
  { clear. induction s as [|a s IH]; intros m H E; cbn [app set_insert_into] in *.
    - assert (X : existsb (fun kx => same_property cc lc (fst kx) t) m = true) by (apply existsb_exists; exists (t, q); split; [exact H|apply same_iff; reflexivity]). now rewrite X.
    - destruct (existsb (fun kx => same_property cc lc (fst kx) a) m); [discriminate E|]. apply IH; [apply in_or_app; now left|exact E]. }
  pose proof (insert_into_free cc lc s m D F) as X. rewrite (G s m H); rewrite X; reflexivity.
Qed.
Print Assumptions C145_failed_refuted.
(** Adding an item whose identity is taken leaves the set without it, silently: with loans, all but the first. *)
Theorem C145_dropped_refuted : forall cash_code lending_code a b a' b', set_insert cash_code lending_code (Loan a' b') (set_insert cash_code lending_code (Loan a b) []) = [Loan a b].
Proof. intros. reflexivity. Qed.
Print Assumptions C145_dropped_refuted.
Example C145_example : set_insert_into 1 2 [Cash usd; Stock [4; 1] [4] (mk_share_class 1 0 0 true false false)] [(Cash eur, 5)] =
    ([(Cash eur, 5); (Cash usd, 1); (Stock [4; 1] [4] (mk_share_class 1 0 0 true false false), 1)], false) /\
  set_insert_into 1 2 [Stock [4; 1] [4] (mk_share_class 1 0 0 true false false); Cash usd] [(Cash usd, 5)] =
    ([(Cash usd, 5); (Stock [4; 1] [4] (mk_share_class 1 0 0 true false false), 1)], true) /\
  set_erase 1 2 (Cash usd) [Cash eur; Cash usd; Loan [1] [2]] = [Cash eur; Loan [1] [2]].
Proof. split; [|split]; vm_compute; reflexivity. Qed.
