(** * Theorems C191 and C192: archives of owners, legal persons and companies. *)
From Coq Require Import ZifyBool ZifyNat.
From Verif Require Import Base Text Identity Identity_proofs Money Archives Archives_spec Archives_proofs Persons Persons_proofs.
From Verif Require Inventory Inventory_spec Company Exchange.
Local Open Scope list_scope.
Local Open Scope Z_scope.

(** * C191 *)
(** Owners keep their identity, their mail and their property. *)
Theorem C191_owner : forall side target x rest, Forall (fun p => plain (snd p)) (a_inbox (o_agent x)) -> Forall plain (a_outbox (o_agent x)) ->
  exists y, load_owner side target (save_owner x ++ rest) = Ret (y, rest) /\ a_identity (o_agent y) = a_identity (o_agent x) /\
    a_inbox (o_agent y) = a_inbox (o_agent x) /\ a_outbox (o_agent y) = a_outbox (o_agent x) /\ o_inventory y = o_inventory x.
Proof. intros side target x rest I O. rewrite owner_read, agent_back_plain by assumption. eexists. split; [reflexivity|]. repeat split. Qed.
Print Assumptions C191_owner.
(** But the record of their property of a type does not survive: whoever is restored in place of a new owner cannot hand over any of it, though it is in the inventory. *)
Theorem C191_view_refuted : forall side target x rest is_T t, o_view target = [] -> Inventory.transferor t = a_identity (o_agent x) ->
  (exists i q, In (i, q) (Inventory.transferred t) /\ is_T i = true) -> Forall (fun p => 0 < snd p) (Inventory.transferred t) ->
  exists y, load_owner side target (save_owner x ++ rest) = Ret (y, rest) /\ o_inventory y = o_inventory x /\
    Inventory.receive_transfer is_T (a_identity (o_agent y)) t (Inventory.mk_typed_owner (o_view y) (o_inventory y)) = Throw.
Proof.
  intros side target x rest is_T t V F (i & q & I & T) P. rewrite owner_read. eexists. split; [reflexivity|]. cbn [o_inventory o_view o_agent agent_back a_identity]. split; [reflexivity|].
  unfold Inventory.receive_transfer, Inventory.process_typed. cbn [Inventory.properties]. rewrite V, F. rewrite (proj2 (id_eqb_eq _ _) eq_refl).
  assert (Inventory.typed_erase is_T (Inventory.transferred t) [] = Throw) as ->; [|reflexivity].
  induction (Inventory.transferred t) as [|[k v] l IH]; [destruct I|]. inversion P as [|? ? P1 P2]; subst. cbn. destruct (is_T k) eqn:E.
  - cbn in P1. now replace (v >? 0) with true by lia.
  - destruct I as [I|I]; [injection I as -> ->; congruence|]. now apply IH.
Qed.
Print Assumptions C191_view_refuted.
(** Legal persons keep what they are and where; *)
Theorem C191_person : forall side target x rest, Forall (fun p => plain (snd p)) (a_inbox (o_agent (p_owner x))) -> Forall plain (a_outbox (o_agent (p_owner x))) ->
  exists y, load_person side target (save_person x ++ rest) = Ret (y, rest) /\ p_represented y = p_represented x /\ p_jurisdiction y = p_jurisdiction x /\
    a_identity (o_agent (p_owner y)) = a_identity (o_agent (p_owner x)) /\ a_inbox (o_agent (p_owner y)) = a_inbox (o_agent (p_owner x)) /\ a_outbox (o_agent (p_owner y)) = a_outbox (o_agent (p_owner x)).
Proof. intros side target x rest I O. rewrite person_read. unfold person_back. rewrite agent_back_plain by assumption. eexists. split; [reflexivity|]. repeat split. Qed.
Print Assumptions C191_person.
(** their property is not written at all. *)
Theorem C191_property_refuted : forall x goods, o_inventory (p_owner x) <> goods ->
  lost save_person x (mk_person (mk_owner (o_agent (p_owner x)) goods (o_view (p_owner x))) (p_represented x) (p_jurisdiction x)) /\
  forall side target rest, exists y, load_person side target (save_person x ++ rest) = Ret (y, rest) /\ o_inventory (p_owner y) = o_inventory (p_owner target).
Proof.
  intros x goods N. split.
  - split; [intros E; apply N; rewrite E; reflexivity|]. intros load. reflexivity.
  - intros side target rest. rewrite person_read. eexists. split; reflexivity.
Qed.
Print Assumptions C191_property_refuted.
Definition demo_person : person := mk_person (mk_owner (mk_agent [0; 4] 2 [] [] true false []) [([0; 7], 250)] [([0; 7], 250)]) (Natural (mk_natural_person (mk_country 78 76)))
  (mk_jurisdiction (mk_country 78 76) (mk_currency 69 85 82 100)).
Example C191_case : load_person false new_person (save_person demo_person) =
    Ret (mk_person (mk_owner (mk_agent [0; 4] 2 [] [] true false []) [] []) (Natural (mk_natural_person (mk_country 78 76))) (mk_jurisdiction (mk_country 78 76) (mk_currency 69 85 82 100)), []) /\
  load_owner false (mk_owner new_agent [] []) (save_owner (p_owner demo_person)) = Ret (mk_owner (mk_agent [0; 4] 2 [] [] true false []) [([0; 7], 250)] [], []) /\
  Inventory.receive_transfer (fun _ => true) [0; 4] (Inventory.mk_transfer [0; 4] [0; 5] [([0; 7], 50)]) (Inventory.mk_typed_owner [([0; 7], 250)] [([0; 7], 250)]) =
    Ret (Inventory.mk_typed_owner [([0; 7], 200)] [([0; 7], 200)]) /\
  Inventory.receive_transfer (fun _ => true) [0; 4] (Inventory.mk_transfer [0; 4] [0; 5] [([0; 7], 50)]) (Inventory.mk_typed_owner [] [([0; 7], 250)]) = Throw.
Proof. vm_compute. repeat split. Qed.

(** * C192 *)
(** Companies keep their shareholders, the shares they have issued and those they hold, and the ex-dividend dates. *)
Theorem C192_kept : forall side target x rest, exists y, load_firm side target (save_firm x ++ rest) = Ret (y, rest) /\ f_shares y = f_shares x /\ f_dates y = f_dates x /\
  f_outstanding y = f_outstanding x /\ f_holders y = f_holders x /\ p_represented (f_person y) = p_represented (f_person x) /\ p_jurisdiction (f_person y) = p_jurisdiction (f_person x) /\
  a_identity (o_agent (p_owner (f_person y))) = a_identity (o_agent (p_owner (f_person x))).
Proof. intros. rewrite firm_read. eexists. split; [reflexivity|]. repeat split. Qed.
Print Assumptions C192_kept.
(** The company of Company.v that acts. *)
Definition acting_firm (x : firm) : Company.company := Company.mk_company (map fst (f_holders x)) (f_announced x) (f_payment x).
(** A dividend that a company has announced already is announced to every shareholder again when the company has been restored. *)
Theorem C192_announced_again_refuted : forall side x rest lower upper p, 1 <= Company.p_announcement p <= lower -> Company.p_announcement p <= f_announced x ->
  exists y, load_firm side new_firm (save_firm x ++ rest) = Ret (y, rest) /\
    snd (fst (Company.act lower upper (Some p) (acting_firm x))) = [] /\
    map Company.a_to (snd (fst (Company.act lower upper (Some p) (acting_firm y)))) = map fst (f_holders x).
Proof.
  intros side x rest lower upper p H A. rewrite firm_read. eexists. split; [reflexivity|]. unfold Company.act, acting_firm. cbn [Company.c_last_announced Company.c_shareholders Company.c_last_payment f_announced f_holders f_payment new_firm].
  replace (Company.p_announcement p <=? lower) with true by lia. replace (f_announced x <? Company.p_announcement p) with false by lia. replace (0 <? Company.p_announcement p) with true by lia.
  destruct (Company.p_payable p <=? lower); cbn [fst snd]; split; try reflexivity; rewrite map_map; cbn; apply map_id.
Qed.
Print Assumptions C192_announced_again_refuted.
(** The shareholder of Company.v, where a class of shares is its rank. *)
Definition investing_firm (x : firm) : Company.shareholder :=
  Company.mk_shareholder (f_dates x) (map (fun p => (fst p, map (fun c => (rank (fst c), snd c)) (snd p))) (f_shares x)) (map (fun p => ((fst (fst p), rank (snd (fst p))), snd p)) (f_stocks x)).
(** A restored company that holds any shares cannot tell its holdings: what property stands for them is not known. *)
Theorem C192_holdings_refuted : forall side x rest i c, In (i, c) (f_shares x) -> c <> [] ->
  exists y, load_firm side new_firm (save_firm x ++ rest) = Ret (y, rest) /\ Company.stock_holdings (investing_firm y) = UB.
Proof.
  intros side x rest i c I N. rewrite firm_read. eexists. split; [reflexivity|]. unfold Company.stock_holdings, investing_firm. cbn [Company.h_stocks Company.h_shares f_stocks f_shares new_firm map].
  generalize (@nil (identity * Z)). induction (f_shares x) as [|[k l] m IH]; intros acc; [destruct I|]. cbn [map Company.all_holdings fst snd]. destruct l as [|[s n] l].
  - cbn [map Company.holdings_of]. destruct I as [E|I]; [injection E as -> <-; congruence|]. now apply IH.
  - reflexivity.
Qed.
Print Assumptions C192_holdings_refuted.
(** No archive tells when a company last announced or paid a dividend. *)
Theorem C192_dates_lost_refuted : forall x a b, (f_announced x, f_payment x) <> (a, b) ->
  lost save_firm x (mk_firm (f_person x) (f_shares x) (f_dates x) (f_stocks x) (f_outstanding x) (f_holders x) a b).
Proof. intros x a b N. split; [intros E; apply N; rewrite E; reflexivity|]. intros load. reflexivity. Qed.
Print Assumptions C192_dates_lost_refuted.
Definition demo_class : share_class := mk_share 0 1 0 true false false.
Definition demo_firm : firm := mk_firm demo_person [([0; 9], [(demo_class, 30)])] [(12, [0; 9])] [(([0; 9], demo_class), [0; 9; 1])] [(demo_class, 1000)] [([0; 5], [(demo_class, 600)]); ([0; 6], [(demo_class, 400)])] 10 0.
Example C192_case :
  Company.stock_holdings (investing_firm demo_firm) = Ret [([0; 9; 1], 30)] /\
  (match load_firm false new_firm (save_firm demo_firm) with
   | Ret (y, []) => Company.stock_holdings (investing_firm y) = UB /\ map Company.a_to (snd (fst (Company.act 11 12 (Some (Company.mk_policy 10 15 20 100)) (acting_firm y)))) = [[0; 5]; [0; 6]] /\ f_outstanding y = [(demo_class, 1000)]
   | _ => False end) /\
  snd (fst (Company.act 11 12 (Some (Company.mk_policy 10 15 20 100)) (acting_firm demo_firm))) = [].
Proof. vm_compute. repeat split. Qed.
