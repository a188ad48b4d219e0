(** C200: the two order books given the same requests. *)
From Coq Require Import ZifyBool.
From Verif Require Import Base Identity BlockPool StaticTicks StaticBook StaticBook_spec StaticMatch_spec StaticMatch_props TwoBooks_spec TwoBooks_proofs.
From Verif Require BinaryBook BinaryBook_spec.

(** Whatever the owners are called, and for every sequence of permitted requests: the fixed-tick book answers all of them,
    its reports say what the reports of the tree book say, one by one, and both books quote the same bid and ask. *)
Theorem C200_same_reports : forall name symbol lowest highest lot capacity size fuel encode decode default_comparable b xs,
  faithful lowest highest size encode decode -> capacity <= Z.of_nat fuel -> (0 < size)%nat ->
  new_book lowest highest size capacity = Ok b ->
  permitted lowest highest lot capacity fuel encode decode default_comparable b xs ->
  Z.of_nat (length xs) < W64 - 1 ->
  let s := ask_tree_all name symbol new_tree xs in
  exists b', ask_fixed_all lowest highest lot fuel encode decode default_comparable b xs = Ok b' /\
    same_reports name (b_reports b') (snd s) /\
    bid decode b' = Ok (BinaryBook.bid (fst s)) /\ ask decode b' = Ok (BinaryBook.ask (fst s)).
Proof.
  intros name symbol lowest highest lot capacity size fuel encode decode dc b xs HF Hf Hs E P Len s.
  destruct (all_steps name symbol lowest highest lot capacity size fuel encode decode dc HF Hf xs b new_tree [] [] (start _ _ _ _ _ _ _ _ _ _ _ E) P) as (b' & h & L & E' & R & Lh); [cbn; lia|].
  exists b'. split; [exact E'|]. split; [|exact (related_quotes name lowest highest lot capacity size fuel encode decode dc HF Hf _ _ _ _ Hs R Lh)].
  destruct R as [Re Rt Ro Rn Ri Rc Ra Rp]. unfold s. rewrite Rt. cbn [snd]. split; [exact Rp|]. rewrite Ri. split; [|exact Ra].
  split.
  - unfold tids. apply FinFun.Injective_map_NoDup; [intros x y; lia|apply seq_NoDup].
  - assert (Q : Z.of_nat (length (placed_identifiers (b_reports b'))) <= Z.of_nat (length h)).
    { clear - Rn. remember (0, []) as s0 eqn:Es. remember (Z.of_nat (length (placed_identifiers (b_reports b'))), L) as s1 eqn:Es1.
      assert (forall s h rs s', BinaryBook_spec.naive_run s h rs s' -> fst s' <= fst s + Z.of_nat (length h)) as K.
      { induction 1 as [|s2 x rs s3 h' rs' s4 H1 H2 IH]; [cbn; lia|]. assert (fst s3 <= fst s2 + 1) by (inversion H1; subst; cbn; lia). cbn [length]. lia. }
      apply K in Rn. subst. cbn in Rn. lia. }
    apply Forall_forall. intros x Hx. unfold tids in Hx. apply in_map_iff in Hx. destruct Hx as (k & <- & Hk). apply in_seq in Hk. unfold direct_order. lia.
Qed.
Print Assumptions C200_same_reports.

(** Five orders, one of them executed against two others, and a cancellation: what both books say, in their own identifiers. *)
Definition demo_requests : list request :=
  [Order true 5 10 1; Order true 4 3 2; Order true 4 4 3; Order false 4 12 4; Order false 7 5 5; Withdraw 2].
Definition demo_name (owner : Z) : identity := [owner].
Example C200_case : exists b b', demo_book = Ok b /\
  permitted 1 11 2 8 20 demo_encode demo_decode false b demo_requests /\
  ask_fixed_all 1 11 2 20 demo_encode demo_decode false b demo_requests = Ok b' /\
  map p_identifier (b_reports b') = [0; 1; 2; direct_order; 0; direct_order; 1; 8; 2] /\
  map BinaryBook.rp_id (snd (ask_tree_all demo_name 0 new_tree demo_requests)) = [0; 1; 2; direct_order; 0; direct_order; 1; 3; 2] /\
  map p_quantity (b_reports b') = [10; 3; 4; 10; 10; 2; 2; 5; 4] /\
  bid demo_decode b' = Ok (Some 4) /\ ask demo_decode b' = Ok (Some 7).
Proof.
  assert (X : exists b, demo_book = Ok b) by (eexists; vm_compute; reflexivity). destruct X as (b & Eb).
  assert (P : permitted 1 11 2 8 20 demo_encode demo_decode false b demo_requests).
  { vm_compute in Eb. injection Eb as <-.
    Ltac one := split; [split; [vm_compute; reflexivity|vm_compute; repeat split; discriminate]|let b := fresh "b" in let E := fresh "E" in intros b E; vm_compute in E; injection E as <-].
    one. one. one. one. one.
    split; [|intros; exact Logic.I]. split; [vm_compute; reflexivity|]. exists 2. split; [vm_compute; reflexivity|].
    vm_compute. do 2 eexists. split; [right; left; reflexivity|]. split; [reflexivity|]. split; [left; reflexivity|]. repeat split; discriminate. }
  exists b. assert (X : exists b', ask_fixed_all 1 11 2 20 demo_encode demo_decode false b demo_requests = Ok b').
  { vm_compute in Eb. injection Eb as <-. eexists. vm_compute. reflexivity. }
  destruct X as (b' & Eb'). exists b'. split; [exact Eb|]. split; [exact P|]. split; [exact Eb'|].
  vm_compute in Eb. injection Eb as <-. vm_compute in Eb'. injection Eb' as <-. vm_compute. repeat split.
Qed.

(** Not for all requests: once the best order to buy has been withdrawn, a seller who trades in one book does not trade in the
    other, and the fixed-tick book quotes no bid. *)
Theorem C200_withdrawal_refuted : exists b b', demo_book = Ok b /\
  let xs := [Order true 5 10 1; Order true 4 3 2; Withdraw 0] in
  ask_fixed_all 1 11 2 20 demo_encode demo_decode false b xs = Ok b' /\
  bid demo_decode b' = Ok None /\ BinaryBook.bid (fst (ask_tree_all demo_name 0 new_tree xs)) = Some 4 /\
  exists b2, ask_fixed 1 11 2 20 demo_encode demo_decode false b' (Order false 3 3 4) = Ok b2 /\
    b_reports b2 = b_reports b' ++ [mk_report placed false 3 8 3 4] /\
    snd (ask_tree demo_name 0 (ask_tree_all demo_name 0 new_tree xs) (Order false 3 3 4)) =
      snd (ask_tree_all demo_name 0 new_tree xs) ++
      [BinaryBook.mk_report BinaryBook.Matched BinaryBook.Sell 3 direct_order 4 [4]; BinaryBook.mk_report BinaryBook.Matched BinaryBook.Buy 3 1 4 [2]].
Proof.
  assert (X : exists b, demo_book = Ok b) by (eexists; vm_compute; reflexivity). destruct X as (b & Eb). exists b.
  assert (X : exists b', ask_fixed_all 1 11 2 20 demo_encode demo_decode false b [Order true 5 10 1; Order true 4 3 2; Withdraw 0] = Ok b').
  { vm_compute in Eb. injection Eb as <-. eexists. vm_compute. reflexivity. }
  destruct X as (b' & Eb'). exists b'. split; [exact Eb|]. cbv zeta. split; [exact Eb'|].
  vm_compute in Eb. injection Eb as <-. vm_compute in Eb'. injection Eb' as <-. split; [vm_compute; reflexivity|]. split; [vm_compute; reflexivity|].
  eexists. split; [vm_compute; reflexivity|]. split; vm_compute; reflexivity.
Qed.
Print Assumptions C200_withdrawal_refuted.

(** Nor for all lifetimes: for every limit inside the range, an order that is to be executed at once or cancelled is cancelled
    by an empty fixed-tick book, and rests in an empty tree book. *)
Theorem C200_lifetime_refuted : forall lowest highest lot capacity size fuel encode decode default_comparable b buy limit quantity owner name symbol,
  faithful lowest highest size encode decode -> capacity <= Z.of_nat fuel -> 0 < 5 * capacity < W64 ->
  new_book lowest highest size capacity = Ok b -> lowest < limit < highest -> 0 < quantity < 2 ^ 32 ->
  (exists b', operate lowest highest lot encode decode default_comparable fuel b (Insert (mk_order owner buy limit lot quantity immediate_or_cancel)) = Ok b' /\
    b_reports b' = [mk_report cancelled buy quantity direct_order limit owner]) /\
  snd (BinaryBook.step BinaryBook.empty_book (BinaryBook.Insert (BinaryBook.mk_order BinaryBook.IOC (side_of buy) symbol (name owner) limit quantity))) =
    [BinaryBook.mk_report BinaryBook.Placed (side_of buy) quantity 0 limit (name owner)].
Proof.
  intros lowest highest lot capacity size fuel encode decode dc b buy limit quantity owner name symbol HF Hf Hc E Hl Hq.
  assert (Rb : b_reports b = []).
  { clear - E. unfold new_book in E. destruct (lowest >=? highest); [discriminate|]. destruct (new_pool default_record capacity); try discriminate. injection E as <-. reflexivity. }
  split.
  - destruct (C78_insert lowest highest lot capacity size fuel encode decode dc b (mk_order owner buy limit lot quantity immediate_or_cancel) HF Hf) as (b' & rs & h & E' & Rs & A & _).
    + apply re_new. exact E.
    + rewrite Rb. unfold not_exhausted. cbn. lia.
    + rewrite Rb. cbn. repeat split; try lia; discriminate.
    + exists b'. split; [exact E'|]. rewrite Rs, Rb in *. cbn [app]. change (resting []) with (@nil entry) in A.
      inversion A as [X|X Y T|r l' X Y Ex|r l' q X Y Ex Qq T|r l' q X Y Ex Qq T]; subst; try (cbn in T; discriminate).
      * cbn in X. lia.
      * exfalso. cbn in Ex. inversion Ex; subst; try lia. destruct H0 as (_ & o1 & o2 & H0 & _). destruct o1; discriminate.
      * cbn in Ex. inversion Ex; subst; try lia. { reflexivity. } exfalso. destruct H0 as (_ & o1 & o2 & H0 & _). destruct o1; discriminate.
  - cbn. destruct buy; cbn; destruct (Z.gtb_spec quantity 0); try lia; reflexivity.
Qed.
Print Assumptions C200_lifetime_refuted.
