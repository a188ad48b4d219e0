(** Proofs about archives of owners, legal persons and companies. *)
From Verif Require Import Base Text Identity Money Archives Archives_spec Archives_proofs Persons.
From Coq Require Import ZifyBool ZifyNat.
Local Open Scope list_scope.
Local Open Scope Z_scope.

Lemma represented_restores target : restores save_represented (load_represented target).
Proof. intros [l c|[p]|[g]] rest; try reflexivity. destruct p as [x y]. reflexivity. Qed.
Lemma counts_restores : restores save_counts load_counts.
Proof. apply all_restores. intros [s n] rest. apply both_restores; [apply share_restores|reflexivity]. Qed.
Lemma holdings_restores : restores save_holdings load_holdings.
Proof. apply all_restores. intros [i c] rest. apply both_restores; [apply identity_restores|apply counts_restores]. Qed.
Lemma dates_restores : restores save_dates load_dates.
Proof. apply all_restores. intros [t i] rest. apply both_restores; [reflexivity|apply identity_restores]. Qed.
(** What reading makes of an agent. *)
Definition agent_back (side : bool) (target x : agent) : agent :=
  mk_agent (a_identity x) (a_children x) (map (fun p => (fst p, read_back side (snd p))) (a_inbox x)) (map (read_back side) (a_outbox x))
         (a_locked x) (a_random x) (a_callbacks target).
Lemma owner_read side target x rest : load_owner side target (save_owner x ++ rest) =
  Ret (mk_owner (agent_back side (o_agent target) (o_agent x)) (o_inventory x) (o_view target), rest).
Proof. apply (map_restores (fun p => mk_owner (fst p) (snd p) (o_view target)) _ _ (agent_back side (o_agent target) (o_agent x), o_inventory x)). apply both_restores; [intros r; apply agent_read|apply goods_restores]. Qed.
Definition person_back (side : bool) (target x : person) : person :=
  mk_person (mk_owner (agent_back side (o_agent (p_owner target)) (o_agent (p_owner x))) (o_inventory (p_owner target)) (o_view (p_owner target))) (p_represented x) (p_jurisdiction x).
Lemma person_read side target x rest : load_person side target (save_person x ++ rest) = Ret (person_back side target x, rest).
Proof.
  apply (map_restores (fun p => mk_person (mk_owner (fst p) (o_inventory (p_owner target)) (o_view (p_owner target))) (fst (snd p)) (snd (snd p))) _ _
    (agent_back side (o_agent (p_owner target)) (o_agent (p_owner x)), (p_represented x, p_jurisdiction x))).
  apply both_restores; [intros r; apply agent_read|]. intros r. apply both_restores; [apply represented_restores|apply jurisdiction_restores].
Qed.
Lemma firm_read side target x rest : load_firm side target (save_firm x ++ rest) =
  Ret (mk_firm (person_back side (f_person target) (f_person x)) (f_shares x) (f_dates x) (f_stocks target) (f_outstanding x) (f_holders x) (f_announced target) (f_payment target), rest).
Proof.
  unfold load_firm, save_firm. erewrite (map_restores _ _ _ (person_back side (f_person target) (f_person x), ((f_shares x, f_dates x), (f_outstanding x, f_holders x)))); [reflexivity|].
  apply both_restores; [intros r; apply person_read|]. intros r. apply both_restores.
  - intros r'. apply both_restores; [apply holdings_restores|apply dates_restores].
  - intros r'. apply both_restores; [apply counts_restores|apply holdings_restores].
Qed.
Lemma agent_back_plain side target x : Forall (fun p => plain (snd p)) (a_inbox x) -> Forall plain (a_outbox x) ->
  agent_back side target x = mk_agent (a_identity x) (a_children x) (a_inbox x) (a_outbox x) (a_locked x) (a_random x) (a_callbacks target).
Proof.
  intros I O. unfold agent_back. f_equal.
  - induction I as [|[t l] m P I IH]; cbn in *; [reflexivity|]. rewrite IH. unfold read_back, plain in *. now rewrite P.
  - induction O as [|l m P O IH]; cbn in *; [reflexivity|]. rewrite IH. unfold read_back, plain in *. now rewrite P.
Qed.
