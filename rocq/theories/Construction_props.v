From Coq Require Import Lia.
From Verif Require Import Base Identity Quantity Inventory Inventory_spec Inventory_proofs Construction Construction_spec Construction_proofs Construction_proofs2 Construction_proofs3 Construction_proofs4.

(** *** C198: an object made with an identity has that identity. *)
(** The classes of the library for which this is so. *)
Theorem C198_library : forall i,
  Forall (fun c => identities Agent c i = [i]) [agent; owner; legal_person; organization; shareholder; bondholder; company; market; price_setter; exchange; impact_market] /\
  Forall (fun c => identities Property c i = [i]) [property; asset; bond; stock; money].
Proof. intros i. split; repeat constructor. Qed.
Print Assumptions C198_library.
(** Those for which it is not: whatever identity is given, the object has the one without digits, so that all of them are taken for one another. *)
Theorem C198_refuted : forall i, identities Agent debtor i = [[]] /\ (forall k, identities Agent (owner_of k) i = [[]]) /\
  Forall (fun c => identities Property c i = [[]]) [contract; security; loan; commodity].
Proof. intros i. split; [reflexivity|]. split; [reflexivity|]. repeat constructor. Qed.
Print Assumptions C198_refuted.
(** Classes of users: when agents are shared in a hierarchy, as in the library, what the class itself hands to [agent] decides, and nothing that its base classes do. *)
Theorem C198_users : forall c i, made_from_library c -> inherits c agent -> 
  (hands_on c Agent -> identities Agent c i = [i]) /\ (~ hands_on c Agent -> identities Agent c i = [[]]).
Proof.
  intros c i M I. assert (N : named c <> named agent).
  { intros E. inversion M as [d D|k|n bs ins H]; subst; [|discriminate|discriminate]. unfold library_agents in D. cbn [In] in D. decompose [or] D; subst; try discriminate; try contradiction.
    inversion I as [? ? ? J|? ? ? ? J _]; subst; destruct J. }
  assert (R : is_role agent) by now left.
  pose proof (shared_identity agent c i (made_shares _ R c M) (role_only_virtual _ R) N I) as E. cbn [named agent] in E. unfold hands_on. rewrite E. split; intros H; f_equal.
  - now apply passed_handed.
  - now apply passed_not.
Qed.
Print Assumptions C198_users.
(** The same for property: a class that derives from [property] through virtual base classes only. *)
Theorem C198_property : forall c i, shares property c -> inherits c property -> named c <> Property ->
  (hands_on c Property -> identities Property c i = [i]) /\ (~ hands_on c Property -> identities Property c i = [[]]).
Proof.
  intros c i S I N. pose proof (shared_identity property c i S ltac:(constructor) N I) as E. cbn [named property] in E. unfold hands_on. rewrite E. split; intros H; f_equal.
  - now apply passed_handed.
  - now apply passed_not.
Qed.
Print Assumptions C198_property.
(** Without virtual base classes every class in the line has to hand on the identity, and then it arrives. *)
Theorem C198_line : forall r c i, r = agent \/ r = property -> line r c -> identities (named r) c i = [i].
Proof. intros r c i [-> | ->] L; now apply line_identity. Qed.
Print Assumptions C198_line.
(** A fund that is a company and a market and names [agent]; a bank that derives from the fund and does not; a trader with an intermediate class. *)
Definition fund : class := Class (User 1) [(false, company); (false, market)] [(Agent, true); (Company, true); (Market, true)].
Definition bank : class := Class (User 2) [(false, fund)] [(User 1, true)].
Definition trader : class := Class (User 4) [(false, Class (User 3) [(false, agent)] [(Agent, true)])] [(User 3, true)].
Lemma fund_made : made_from_library fund.
Proof. apply made_user. cbn. intros v b [E|[E|[]]]; injection E as <- <-; (split; [apply made_library; cbn; tauto | unfold is_role; intros [|[|[k ?]]]; discriminate]). Qed.
Lemma bank_made : made_from_library bank.
Proof. apply made_user. cbn. intros v b [E|[]]; injection E as <- <-. split; [apply fund_made | unfold is_role; intros [|[|[k ?]]]; discriminate]. Qed.
Example C198_case : made_from_library fund /\ inherits fund agent /\ hands_on fund Agent /\ identities Agent fund [7%Z] = [[7%Z]] /\
  made_from_library bank /\ inherits bank agent /\ ~ hands_on bank Agent /\ identities Agent bank [7%Z] = [[]] /\
  line agent trader /\ identities Agent trader [7%Z] = [[7%Z]].
Proof.
  assert (I : inherits fund agent).
  { apply inherits_indirect with false market; [right; now left | apply inherits_direct with true; now left]. }
  repeat split.
  - apply fund_made.
  - exact I.
  - now left.
  - apply bank_made.
  - apply inherits_indirect with false fund; [now left | exact I].
  - intros [E|[]]; discriminate.
  - apply line_step; [discriminate | discriminate | now left |]. apply line_last; [reflexivity | discriminate | now left].
Qed.
Example C198_property_case : shares property bond /\ inherits bond property /\ hands_on bond Property /\ shares property security /\ inherits security property /\ ~ hands_on security Property.
Proof.
  assert (S : forall c, bases_of c = [] -> shares property c) by (intros c E; constructor; rewrite E; intros ? ? []).
  assert (A : shares property asset) by (constructor; intros v b [E|[]]; injection E as <- <-; split; [now split | now apply S]).
  assert (B : shares property contract) by (constructor; intros v b [E|[]]; injection E as <- <-; split; [now split | now apply S]).
  assert (C : shares property security) by (constructor; intros v b [E|[E|[]]]; injection E as <- <-; split; [discriminate | assumption | discriminate | assumption]).
  assert (I : inherits security property) by (apply inherits_indirect with false asset; [now left | apply inherits_direct with true; now left]).
  split; [constructor; intros v b [E|[]]; injection E as <- <-; split; [discriminate | exact C]|].
  split; [apply inherits_indirect with true security; [now left | exact I]|].
  split; [now left|]. split; [exact C|]. split; [exact I|]. intros [E|[E|[]]]; discriminate.
Qed.

(** *** C199: an agent with several roles keeps its views of each kind of property right. *)
(** Whatever classes are combined, each transfer is handled once for each kind of property the agent is an owner of, and once for the inventory, which comes last. *)
Theorem C199_handlers : forall c i, made_from_library c -> NoDup (handlers c i) /\ (forall k, In (Some k) (handlers c i) <-> roles_of c k) /\
  (c = owner \/ inherits c owner -> exists l, handlers c i = l ++ [None] /\ ~ In None l).
Proof.
  intros c i M. pose proof (handlers_nodup c i M) as N. split; [exact N|]. split.
  - intros k. apply (handlers_in c i (Some k) M).
  - intros I. destruct (owner_first c i M I) as [l E]. exists (rev l).
    assert (H : handlers c i = rev l ++ [None]) by (change (handlers c i) with (rev (flat_map handler_of (construct c i))); rewrite E; reflexivity).
    split; [exact H|]. rewrite H in N. apply NoDup_remove_2 in N. now rewrite app_nil_r in N.
Qed.
Print Assumptions C199_handlers.
(** So all views agree with the inventory as long as transfers are between different parties and complete. *)
Theorem C199_views : forall is_kind self c i o k, made_from_library c -> roles_of c k -> role_history is_kind self (handlers c i) o ->
  forall p, held (fst o k) p = if is_kind k p then held (snd o) p else 0%Z.
Proof.
  intros is_kind self c i o k M R H p. 
  assert (O : c = owner \/ inherits c owner).
  { right. destruct R as [->|I]; [apply inherits_direct with true; now left|].
    apply inherits_trans with (owner_of k); [exact I | apply inherits_direct with true; now left]. }
  pose proof (role_typed is_kind self (handlers c i) k o (handlers_nodup c i M) ltac:(now apply (handlers_in c i None M)) ltac:(now apply (handlers_in c i (Some k) M)) H) as T.
  apply views_kept in T. destruct T as (_ & _ & V). apply (V p).
Qed.
Print Assumptions C199_views.
(** What a refused transfer leaves: only the transferor refuses.  The handlers before the one that refuses have taken everything from their
    views; this one has taken the items before the first of which there is not enough; the ones after it have done nothing. *)
Theorem C199_left : forall is_kind self c i o t o', made_from_library c -> role_history is_kind self (handlers c i) o -> proper t ->
  call_handlers is_kind self t (handlers c i) o = (o', Throw) ->
  self = transferor t /\ exists before h after, handlers c i = before ++ h :: after /\
  (forall x, In x before -> taken (concerns is_kind x) (transferred t) (kept x o) (kept x o')) /\
  part_taken (concerns is_kind h) (transferred t) (kept h o) (kept h o') /\
  (forall x, ~ In x (before ++ [h]) -> kept x o' = kept x o).
Proof.
  intros is_kind self c i o t o' M H P C. apply (refused is_kind self t P (handlers c i) o o' (handlers_nodup c i M)); [|exact C].
  intros h I. apply (history_valid is_kind self (handlers c i) (handlers_nodup c i M) o H h I).
Qed.
Print Assumptions C199_left.
(** A transfer that is refused is not without effect: the views that come before the one that refuses have changed already, so that they no longer agree with the inventory.
    Here a company is to hand over two shares and five units of money, of which it has two. *)
Definition kinds (k : nat) (p : identity) : bool := match p with [a; _] => Z.eqb a (Z.of_nat k) | _ => false end.
Definition incoming : transfer := mk_transfer [5%Z] [1%Z] [([0; 0]%Z, 2%Z); ([1; 0]%Z, 9%Z)].
Definition outgoing : transfer := mk_transfer [1%Z] [5%Z] [([0; 0]%Z, 5%Z); ([1; 0]%Z, 2%Z)].
Theorem C199_rejected_refuted : exists o, role_history kinds [1%Z] (handlers company [1%Z]) o /\ proper outgoing /\
  (forall k p, roles_of company k -> held (fst o k) p = if kinds k p then held (snd o) p else 0%Z) /\
  snd (call_handlers kinds [1%Z] outgoing (handlers company [1%Z]) o) = Throw /\
  let o' := fst (call_handlers kinds [1%Z] outgoing (handlers company [1%Z]) o) in
  held (fst o' k_stock) [1; 0]%Z = 7%Z /\ held (snd o') [1; 0]%Z = 9%Z.
Proof.
  assert (M : made_from_library company) by (apply made_library; cbn; tauto).
  assert (P : forall a b l, a <> b -> NoDup (map fst l) -> Forall (fun kv => u64 (snd kv)) l -> proper (mk_transfer a b l)) by (intros; repeat split; assumption).
  exists (fst (call_handlers kinds [1%Z] incoming (handlers company [1%Z]) (fun _ => [], []))).
  assert (H : role_history kinds [1%Z] (handlers company [1%Z]) (fst (call_handlers kinds [1%Z] incoming (handlers company [1%Z]) (fun _ => [], [])))).
  { apply rh_receive with (fun _ => [], []) incoming; [apply rh_start | |].
    - apply P; [discriminate | apply NoDup_cons; [cbn; intros [E|[]]; discriminate | apply NoDup_cons; [intros [] | constructor]] | repeat constructor; cbn; unfold u64; lia].
    - reflexivity. }
  split; [exact H|]. split; [apply P; [discriminate | apply NoDup_cons; [cbn; intros [E|[]]; discriminate | apply NoDup_cons; [intros [] | constructor]] | repeat constructor; cbn; unfold u64; lia]|].
  split; [intros k p R; now apply (C199_views kinds [1%Z] company [1%Z])|]. split; [reflexivity|]. split; reflexivity.
Qed.
Print Assumptions C199_rejected_refuted.
Example C199_case : made_from_library bank /\ roles_of bank k_bond /\ handlers bank [7%Z] = [Some k_bond; Some k_stock; Some k_cash; None] /\ handlers company [7%Z] = handlers bank [7%Z].
Proof.
  split; [apply bank_made|]. split; [|now split]. right. apply inherits_indirect with false fund; [now left|]. apply inherits_indirect with false company; [now left|].
  apply inherits_indirect with false bondholder; [right; right; now left|]. apply inherits_direct with true. right. now left.
Qed.
