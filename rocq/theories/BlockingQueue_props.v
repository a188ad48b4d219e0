(** Property theorem C25. *)
From Verif Require Import Base BlockingQueue BlockingQueue_spec BlockingQueue_proofs.
From Coq Require Import ZifyBool ZifyNat.

(** C25.  Any number of threads, any schedule: values come out in the order they went in. *)
Theorem C25_fifo_nothing_lost : forall (A : Type) n (q : queue A) pushed popped,
  execution n q pushed popped -> pushed = popped ++ items q.
Proof. intros. eapply execution_fifo; eauto. Qed.
Print Assumptions C25_fifo_nothing_lost.
(** A pop returns empty-handed only if the queue is closed and empty. *)
Theorem C25_pop_false_only_when_closed : forall (A : Type) (q q' : queue A) i o,
  act q i PopFalse = Some (q', o) -> items q = [] /\ closed q = true /\ o = None.
Proof.
  intros A q q' i o H. unfold act in H. destruct (nth_error (threads q) i) as [[]|]; try discriminate; destruct (items q); try discriminate; destruct (closed q); try discriminate; injection H as <- <-; auto.
Qed.
Print Assumptions C25_pop_false_only_when_closed.
(** A queue is closed exactly when a thread closed it; so a pop returns empty-handed only after that. *)
Theorem C25_closed_iff : forall (A : Type) n (q : queue A) l, history n q l -> (closed q = true <-> exists i, In (i, Close) l).
Proof.
  intros A n q l H. induction H as [|q l i a q' o H IH E]; [split; [discriminate|intros (i & [])]|].
  assert (G : closed q' = closed q /\ a <> Close \/ closed q' = true /\ a = Close).
  { unfold act in E. destruct (nth_error (threads q) i) as [s|]; [|discriminate]. destruct a as [v| |[w|]| | | | | |]; try (left; split; [|discriminate]); destruct s; try discriminate;
      try (now injection E as <- <-); try (destruct (items q); try discriminate; try (destruct (closed q); try discriminate); now injection E as <- <-);
      try (destruct (nth_error (threads q) w) as [[]|]; try discriminate; now injection E as <- <-); try (destruct (existsb _ _); try discriminate; now injection E as <- <-).
    right. now injection E as <- <-. }
  destruct G as [[-> N]|[-> ->]].
  - rewrite IH. split; intros (j & Hj); exists j; [apply in_or_app; now left|]. apply in_app_or in Hj. destruct Hj as [Hj|[Hj|[]]]; [exact Hj|congruence].
  - split; [intros _; exists i; apply in_or_app; right; now left|reflexivity].
Qed.
Print Assumptions C25_closed_iff.
Theorem C25_pop_false_after_close : forall (A : Type) n (q q' : queue A) l i o, history n q l -> act q i PopFalse = Some (q', o) -> exists j, In (j, Close) l.
Proof. intros A n q q' l i o H E. apply (C25_closed_iff A n q l H). now apply C25_pop_false_only_when_closed in E. Qed.
Print Assumptions C25_pop_false_after_close.
(** No wake-up is lost: whenever a thread waits although an element is there or the queue is
    closed, a thread that was woken or is about to notify exists; and as many of them as elements. *)
Theorem C25_no_lost_wakeup : forall (A : Type) n (q : queue A) pushed popped,
  execution n q pushed popped -> some_thread q Waiting -> items q <> [] \/ closed q = true ->
  some_thread q Woken \/ some_thread q Notifying \/ some_thread q NotifyingAll.
Proof.
  intros A n q pushed popped H (i & Hi) Hor. destruct (execution_inv _ _ _ _ H) as [I1 I2].
  assert (W : (0 < count is_waiting (threads q))%nat) by (apply count_pos; exists i, Waiting; auto).
  assert (Find : forall f s, (forall x, f x = true -> x = s) -> (0 < count f (threads q))%nat -> some_thread q s).
  { intros f s Hf Hc. apply count_pos in Hc. destruct Hc as (k & x & Hk & Hx). exists k. now rewrite <- (Hf x Hx). }
  destruct Hor as [Hne|Hc].
  - specialize (I1 W). destruct (items q) as [|v l]; [congruence|]. cbn [length] in I1.
    destruct (Nat.eq_dec (count is_woken (threads q)) 0).
    + right. left. apply (Find is_notifying); [intros []; cbn; congruence|lia].
    + left. apply (Find is_woken); [intros []; cbn; congruence|lia].
  - right. right. apply (Find is_notifying_all); [intros []; cbn; congruence|auto].
Qed.
Print Assumptions C25_no_lost_wakeup.
(** A thread that was woken, or calls [pop], and finds an element or a closed queue can go on. *)
Theorem C25_woken_threads_proceed : forall (A : Type) (q : queue A) i s, nth_error (threads q) i = Some s -> s = Idle \/ s = Woken ->
  (items q <> [] -> exists q' v, act q i Pop = Some (q', Some v) /\ items q = v :: items q') /\
  (items q = [] -> closed q = true -> exists q', act q i PopFalse = Some (q', None)).
Proof.
  intros A q i s Hs Hor. unfold act. rewrite Hs. split.
  - intros H. destruct (items q) as [|v l]; [congruence|]. exists (mk_queue l (closed q) (update (threads q) i Idle)), v. destruct Hor as [-> | ->]; auto.
  - intros -> ->. eexists. destruct Hor as [-> | ->]; reflexivity.
Qed.
Print Assumptions C25_woken_threads_proceed.
(** Three threads: the first waits, the second pushes, the third pops before the first is notified,
    the second pushes again and the third closes the queue. *)
Fixpoint schedule (q : queue Z) (l : list (nat * action Z)) (pushed popped : list Z) : option (queue Z * list Z * list Z) :=
  match l with
  | [] => Some (q, pushed, popped)
  | (i, a) :: l' => match act q i a with Some (q', o) => schedule q' l' (pushed ++ pushes a) (popped ++ obtains o) | None => None end
  end.
Lemma schedule_execution n l : forall q pushed popped q' a b, execution n q pushed popped -> schedule q l pushed popped = Some (q', a, b) -> execution n q' a b.
Proof.
  induction l as [|[i x] l IH]; intros q pushed popped q' a b H E; cbn in E; [injection E as <- <- <-; exact H|].
  destruct (act q i x) as [[q1 o]|] eqn:Ea; [|discriminate]. eapply IH; [|exact E]. econstructor; eauto.
Qed.
Example C25_case : exists q, execution 4 q [7; 8] [7] /\ some_thread q Waiting /\ items q = [8] /\ closed q = true /\ some_thread q Woken.
Proof.
  eexists. split.
  - eapply (schedule_execution 4 [(0, Wait); (3, Wait); (1, Push 7%Z); (2, Pop); (1, NotifyOne (Some 0)); (0, Wait); (1, Push 8%Z); (2, Close); (1, NotifyOne (Some 3))]%nat (new_queue 4) [] []); [constructor|vm_compute; reflexivity].
  - repeat split; [exists 0%nat|exists 3%nat]; reflexivity.
Qed.
Example C25_history : exists q : queue Z, history 2 q [(0, Push 7%Z); (1, Pop); (1, Close); (1, NotifyAll); (1, PopFalse)]%nat /\ closed q = true /\ items q = [].
Proof.
  assert (G : forall l1 (q : queue Z) l q' p r, history 2 q l -> schedule q l1 [] [] = Some (q', p, r) -> history 2 q' (l ++ l1)).
  { assert (X : forall l1 (q : queue Z) l q' a b p r, history 2 q l -> schedule q l1 a b = Some (q', p, r) -> history 2 q' (l ++ l1)); [|intros; eapply X; eauto].
    induction l1 as [|[i x] l1 IH]; intros q l q' a b p r H E; cbn [schedule] in E; [injection E as <- _ _; now rewrite app_nil_r|]. destruct (act q i x) as [[q1 o]|] eqn:Ea; [|discriminate].
    replace (l ++ (i, x) :: l1) with ((l ++ [(i, x)]) ++ l1) by (now rewrite <- app_assoc). eapply IH; [econstructor; eauto|exact E]. }
  eexists. split; [eapply (G _ _ []); [constructor|vm_compute; reflexivity]|]. split; reflexivity.
Qed.

(** C213.  A closed queue accepts elements all the same: they are kept, at the end, and the next thread that pops an empty queue gets them. *)
Theorem C213_refuted : forall (A : Type) (q : queue A) i j v, closed q = true -> nth_error (threads q) i = Some Idle -> nth_error (threads q) j = Some Idle -> i <> j ->
  exists q', act q i (Push v) = Some (q', None) /\ items q' = items q ++ [v] /\ closed q' = true /\
    (items q = [] -> exists q'', act q' j Pop = Some (q'', Some v)).
Proof.
  intros A q i j v Hc Hi Hj N. exists (mk_queue (items q ++ [v]) (closed q) (update (threads q) i Notifying)).
  split; [unfold act; now rewrite Hi|]. split; [reflexivity|]. split; [exact Hc|]. intros E. rewrite E. unfold act. cbn [threads items app].
  assert (X : nth_error (update (threads q) i Notifying) j = Some Idle).
  { clear - Hj N. generalize dependent j. generalize dependent i. induction (threads q) as [|s l IH]; intros [|i] [|j] N Hj; cbn in *; try discriminate; auto; congruence. }
  rewrite X. eauto.
Qed.
Print Assumptions C213_refuted.
(** What closing does: for good, no thread starts to wait; elements still go in at the end and come out at the front, and nothing else is added or removed. *)
Theorem C213_exact : forall (A : Type) (q q' : queue A) i a o, closed q = true -> act q i a = Some (q', o) ->
  closed q' = true /\ a <> Wait /\ items q ++ pushes a = obtains o ++ items q'.
Proof.
  intros A q q' i a o Hc E. unfold act in E. destruct (nth_error (threads q) i) as [s|]; [|discriminate]. rewrite Hc in E.
  destruct a as [v| |[w|]| | | | | |]; destruct s; try discriminate; try (injection E as <- <-; cbn; rewrite ?app_nil_r; repeat split; auto; discriminate);
    try (destruct (nth_error (threads q) w) as [[]|]; try discriminate); try (destruct (existsb _ _); try discriminate); try (destruct (items q) eqn:Ei; try discriminate);
    injection E as <- <-; cbn; rewrite ?Ei, ?app_nil_r; repeat split; auto; discriminate.
Qed.
Print Assumptions C213_exact.
(** Closed, then pushed to, and the element taken out; only then does a pop return empty-handed. *)
Example C213_case : exists q : queue Z, schedule (new_queue 2) [(0, Close); (0, NotifyAll); (0, Push 7%Z); (1, Pop); (1, PopFalse)]%nat [] [] = Some (q, [7%Z], [7%Z]) /\ closed q = true /\ items q = [].
Proof. eexists. split; [vm_compute; reflexivity|]. split; reflexivity. Qed.
