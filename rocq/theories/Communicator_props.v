(** Property theorems C11-C14. *)
From Verif Require Import Base Identity Multimap Multimap_proofs Communicator Communicator_spec Communicator_proofs.

(** C11.  For any registrations (priorities, types, behaviours) and any message: the callbacks of
    its type run once each, by falling priority, and the result is the earliest time. *)
Theorem C11_callbacks_run_by_priority : forall (A : Type) b (rs : list (registration A)) c lower upper s m a,
  registers (new_communicator b) rs c ->
  exists order ts a', call_order (for_type (m_type m) rs) order /\ calls m lower upper s (map r_callback order) a ts a' /\
    (Forall (within lower upper) ts -> process_message c lower upper s m a = Ret (a', earliest upper ts)) /\
    (~ Forall (within lower upper) ts -> process_message c lower upper s m a = UB).
Proof. exact @message_callbacks. Qed.
Print Assumptions C11_callbacks_run_by_priority.
(** [call_order] means: a permutation. *)
Theorem C11_every_callback_once : forall (A : Type) (rs order : list (registration A)), call_order rs order -> Permutation order rs.
Proof.
  intros A rs order [_ H]. revert rs H. induction order as [|r order IH]; intros rs H.
  - destruct rs as [|x rs]; [constructor|]. exfalso. specialize (H (r_priority x)). cbn in H. rewrite Z.eqb_refl in H. symmetry in H. apply app_eq_nil in H. destruct H; discriminate.
  - pose proof (H (r_priority r)) as Hr. cbn in Hr. rewrite Z.eqb_refl in Hr.
    assert (Hin : In r rs). { assert (In r (rev (with_priority (r_priority r) rs))) by (rewrite <- Hr; left; reflexivity). apply in_rev in H0. apply filter_In in H0. apply H0. }
    (* split at the last element with this priority *)
    assert (exists l1 l2, rs = l1 ++ r :: l2 /\ with_priority (r_priority r) l2 = []) as (l1 & l2 & -> & E2).
    { clear IH Hin H. match type of Hr with _ :: ?x = _ => generalize x as w, Hr; clear Hr order; intros w Hr; revert w Hr end. induction rs as [|x rs IHrs] using rev_ind; intros w Hr; [discriminate|].
      unfold with_priority in *. rewrite filter_app, rev_app_distr in Hr. cbn in Hr. destruct (r_priority x =? r_priority r) eqn:E.
      - cbn in Hr. injection Hr as -> Hr. exists rs, []. split; reflexivity.
      - cbn in Hr. destruct (IHrs w Hr) as (l1 & l2 & -> & E2). exists l1, (l2 ++ [x]). split; [rewrite <- app_assoc; reflexivity|]. rewrite filter_app, E2. cbn. now rewrite E. }
    rewrite <- Permutation_middle. constructor. apply IH. intros p. specialize (H p). cbn in H. unfold with_priority in *. rewrite filter_app in *. cbn in H.
    destruct (Z.eqb_spec (r_priority r) p) as [Hp|Hn].
    + rewrite Hp in E2. rewrite E2 in *. rewrite rev_app_distr in H. cbn in H. injection H as H. rewrite app_nil_r. exact H.
    + exact H.
Qed.
Print Assumptions C11_every_callback_once.

(** A small agent whose state logs what its callbacks did. *)
Definition logging (id result : Z) : callback (list Z) := fun _ lower _ _ log => (log ++ [id], lower + result).
Definition the_registrations : list (registration (list Z)) :=
  [mk_registration 7 0 (logging 1 5); mk_registration 8 3 (logging 2 1); mk_registration 7 10 (logging 3 4); mk_registration 7 0 (logging 4 9)].
Definition the_communicator (b : bool) : communicator (list Z) :=
  match register (new_communicator b) 7 0 (logging 1 5) with Ret c =>
  match register c 8 3 (logging 2 1) with Ret c =>
  match register c 7 10 (logging 3 4) with Ret c =>
  match register c 7 0 (logging 4 9) with Ret c => c | _ => new_communicator b end | _ => new_communicator b end | _ => new_communicator b end | _ => new_communicator b end.
Lemma the_registers b : registers (new_communicator b) the_registrations (the_communicator b).
Proof. repeat (econstructor; [reflexivity|]). constructor. Qed.
Definition note (t id received : Z) : message := mk_message t [1] [2] 0 received id.
Example C11_case : registers (new_communicator true) the_registrations (the_communicator true) /\
  process_message (the_communicator true) 10 100 [] (note 7 0 10) [] = Ret ([3; 4; 1], 14).
Proof. split; [apply the_registers|reflexivity]. Qed.

(** C12.  Any inbox ordered by delivery time (it is a multimap), any shuffle. *)
Theorem C12_due_messages_processed_once : forall (A : Type) b (rs : list (registration A)) c shuffle lower s inbox,
  registers (new_communicator b) rs c -> Forall (fun r => int8 (r_priority r)) rs -> StronglySorted key_le inbox ->
  (forall s l, Permutation (shuffle s l) l) ->
  exists order, Permutation order (filter (handled rs) (due lower inbox)) /\ by_falling_priority rs order /\
    forall upper a a' t, process_messages c shuffle lower upper s inbox a = Ret (a', t) <->
      exists ts, handles c lower upper s order a ts a' /\ t = earliest upper ts.
Proof.
  intros A b rs c sh lo s inbox H1 H2 H3 H4. exists (handling_order c sh lo s inbox).
  destruct (order_spec b rs c sh lo s inbox H1 H2 H3 H4) as (P & F & _). split; [exact P|]. split; [exact F|].
  intros up a a' t. apply handle_all_spec.
Qed.
Print Assumptions C12_due_messages_processed_once.
Example C12_case : let inbox := [(3, note 7 1 3); (10, note 8 2 10); (10, note 9 4 10); (11, note 7 3 11)] in
  Forall (fun r => int8 (r_priority r)) the_registrations /\ StronglySorted key_le inbox
  /\ due 10 inbox = [note 7 1 3; note 8 2 10; note 9 4 10] /\ filter (handled the_registrations) (due 10 inbox) = [note 7 1 3; note 8 2 10]
  /\ process_messages (the_communicator true) (fun _ l => rev l) 10 100 [] inbox [] = Ret ([3; 4; 1; 2], 11).
Proof.
  cbv zeta. split; [repeat (apply Forall_cons; [unfold int8; cbn; lia|]); constructor|]. split; [repeat (constructor; unfold key_le; cbn; try lia)|]. repeat split.
Qed.

(** C13.  With the in-order schedule, messages of equal priority run in the reverse of their
    arrival order. *)
Theorem C13_ties_are_handled_latest_first : forall (A : Type) (rs : list (registration A)) c shuffle lower s inbox,
  registers (new_communicator false) rs c -> Forall (fun r => int8 (r_priority r)) rs -> StronglySorted key_le inbox ->
  exists order, Permutation order (filter (handled rs) (due lower inbox)) /\ by_falling_priority rs order /\
    (forall p, filter (has_priority rs p) order = rev (filter (has_priority rs p) (filter (handled rs) (due lower inbox)))) /\
    forall upper a a' t, process_messages c shuffle lower upper s inbox a = Ret (a', t) <->
      exists ts, handles c lower upper s order a ts a' /\ t = earliest upper ts.
Proof.
  intros A rs c sh lo s inbox H1 H2 H3. exists (handling_order c sh lo s inbox).
  assert (E : handling_order c sh lo s inbox = handling_order c (fun _ l => l) lo s inbox).
  { destruct (registers_inv _ _ _ _ (new_inv false) H1) as (_ & R & _). cbn in R. unfold handling_order. rewrite R. reflexivity. }
  destruct (order_spec false rs c (fun _ l => l) lo s inbox H1 H2 H3 (fun _ l => Permutation_refl l)) as (P & F & O). rewrite <- E in *.
  split; [exact P|]. split; [exact F|]. split; [exact (O eq_refl)|].
  intros up a a' t. apply handle_all_spec.
Qed.
Print Assumptions C13_ties_are_handled_latest_first.
Definition echo : callback (list Z) := fun m _ upper _ log => (log ++ [m_body m], upper).
Theorem C13_arrival_order_refuted : exists c (inbox : list (Z * message)),
  registers (new_communicator false) [mk_registration 7 0 echo] c /\ StronglySorted key_le inbox /\
  map (fun x => m_body (snd x)) inbox = [1; 2] /\ Forall (fun x => fst x = 10 /\ m_type (snd x) = 7) inbox /\
  forall shuffle, process_messages c shuffle 10 100 [] inbox [] = Ret ([2; 1], 100).
Proof.
  eexists. exists [(10, note 7 1 10); (10, note 7 2 10)]. split; [econstructor; [reflexivity|constructor]|].
  split; [repeat (constructor; unfold key_le; cbn; try lia)|]. split; [reflexivity|]. split; [repeat constructor|]. reflexivity.
Qed.
Print Assumptions C13_arrival_order_refuted.
Example C13_case : let inbox := [(9, note 7 1 9); (10, note 8 2 10); (10, note 7 3 10)] in
  StronglySorted key_le inbox /\ handling_order (the_communicator false) (fun _ l => l) 10 [] inbox = [note 7 3 10; note 7 1 9; note 8 2 10].
Proof. cbv zeta. split; [repeat (constructor; unfold key_le; cbn; try lia)|reflexivity]. Qed.

(** C14 *)
Theorem C14_locked_registration_rejected : forall (A : Type) (c : communicator A) type priority f, register (lock c) type priority f = Throw.
Proof. exact @locked_rejects. Qed.
Print Assumptions C14_locked_registration_rejected.
Theorem C14_locking_changes_no_handling : forall (A : Type) (c : communicator A) shuffle lower upper s inbox a,
  process_messages (lock c) shuffle lower upper s inbox a = process_messages c shuffle lower upper s inbox a.
Proof. exact @lock_same_all. Qed.
Print Assumptions C14_locking_changes_no_handling.
Theorem C14_registration_affects_its_type_only : forall (A : Type) b (rs : list (registration A)) c type priority f c1 lower upper s m a,
  registers (new_communicator b) rs c -> register c type priority f = Ret c1 -> m_type m <> type ->
  process_message c1 lower upper s m a = process_message c lower upper s m a.
Proof. exact @register_other. Qed.
Print Assumptions C14_registration_affects_its_type_only.
Theorem C14_unlocked_registration_accepted : forall (A : Type) b (rs : list (registration A)) c type priority f,
  registers (new_communicator b) rs c ->
  exists c1, register c type priority f = Ret c1 /\ registers (new_communicator b) (rs ++ [mk_registration type priority f]) c1.
Proof. exact @register_unlocked. Qed.
Print Assumptions C14_unlocked_registration_accepted.
Example C14_case : register (lock (the_communicator true)) 9 0 echo = Throw /\
  exists c1, register (the_communicator true) 9 0 echo = Ret c1 /\ process_message c1 10 100 [] (note 9 5 10) [] = Ret ([5], 100)
   /\ process_message c1 10 100 [] (note 8 5 10) [] = Ret ([2], 11).
Proof. split; [reflexivity|]. eexists. split; [reflexivity|]. split; reflexivity. Qed.
