(** Proofs for the thread pool. *)
From Verif Require Import Base BlockingQueue BlockingQueue_proofs ThreadPool ThreadPool_spec.
From Coq Require Import ZifyBool ZifyNat.

Section Proofs.
Context {T : Type}.
Implicit Types (p : pool T).
Definition pending p : list T := flat_map running (workers p).
Definition queued p : list T := concat (queues p).

Lemma update_split {X} (l : list X) k (x d : X) : (k < length l)%nat -> exists l1 l2, l = l1 ++ nth k l d :: l2 /\ update l k x = l1 ++ x :: l2 /\ length l1 = k.
Proof.
  revert k. induction l as [|y l IH]; intros [|k] H; cbn in H; try lia.
  - exists [], l. auto.
  - destruct (IH k) as (l1 & l2 & E1 & E2 & E3); [lia|]. exists (y :: l1), l2. cbn. rewrite E2. split; [f_equal; exact E1|auto].
Qed.
Lemma nth_error_split' {X} (l : list X) i x y : nth_error l i = Some x -> exists l1 l2, l = l1 ++ x :: l2 /\ update l i y = l1 ++ y :: l2.
Proof.
  revert i. induction l as [|z l IH]; intros [|i] H; cbn in H; try discriminate.
  - injection H as ->. exists [], l. auto.
  - destruct (IH i H) as (l1 & l2 & E1 & E2). exists (z :: l1), l2. cbn. rewrite E2, E1. auto.
Qed.
Lemma target_bound fuel : forall n i threads busy, 0 < threads -> (target_from fuel n i threads busy < Z.to_nat threads)%nat.
Proof.
  induction fuel as [|fuel IH]; intros n i threads busy H; cbn.
  - pose proof (Z.mod_pos_bound i threads H). lia.
  - destruct (busy n); [now apply IH|]. pose proof (Z.mod_pos_bound (w32 (i + Z.of_nat n)) threads H). lia.
Qed.
Record pinv (threads : nat) p (submitted : list T) : Prop := mk_pinv {
  pi_queues : length (queues p) = threads;
  pi_workers : length (workers p) = threads;
  pi_stopped : length (stopped p) = threads;
  pi_tasks : Permutation (executed p ++ pending p ++ queued p) submitted;
  pi_done : forall i, nth_error (workers p) i = Some Finished -> nth i (stopped p) false = true /\ nth i (queues p) [] = [];
  pi_search : forall i n, nth_error (workers p) i = Some (Searching n) -> (n <= attempts p)%nat }.

Lemma nth_update {X} (l : list X) k j x d : (k < length l)%nat -> nth j (update l k x) d = if Nat.eqb j k then x else nth j l d.
Proof.
  revert k j. induction l as [|y l IH]; intros [|k] [|j] H; cbn in *; try lia; auto. rewrite IH by lia. reflexivity.
Qed.
Lemma nth_error_update {X} (l : list X) i j x y : nth_error l i = Some y -> nth_error (update l i x) j = if Nat.eqb j i then Some x else nth_error l j.
Proof.
  intros H. destruct (Nat.eqb_spec j i) as [->|Hn]; [eapply update_same; eauto|apply update_other; congruence].
Qed.
Lemma pending_update p i w w' qs st nx ex : nth_error (workers p) i = Some w ->
  Permutation (running w ++ pending (mk_pool qs st (update (workers p) i w') nx ex)) (running w' ++ pending p).
Proof.
  intros H. destruct (nth_error_split' _ _ _ w' H) as (l1 & l2 & E1 & E2). unfold pending. cbn. rewrite E2, E1, !flat_map_app. cbn.
  rewrite !app_assoc. rewrite <- (Permutation_app_comm (flat_map running l1)). rewrite <- (Permutation_app_comm (flat_map running l1) (running w')).
  rewrite <- !app_assoc. apply Permutation_app_head. rewrite !app_assoc. apply Permutation_app_tail. apply Permutation_app_comm.
Qed.
Lemma queued_update p k x st ws nx ex : (k < length (queues p))%nat ->
  Permutation (nth k (queues p) [] ++ queued (mk_pool (update (queues p) k x) st ws nx ex)) (x ++ queued p).
Proof.
  intros H. destruct (update_split (queues p) k x [] H) as (l1 & l2 & E1 & E2 & _). unfold queued. cbn. rewrite E2. set (y := nth k (queues p) []) in *. rewrite E1.
  rewrite !concat_app. cbn. rewrite !app_assoc. rewrite (Permutation_app_comm y (concat l1)), (Permutation_app_comm x (concat l1)).
  rewrite <- !app_assoc. apply Permutation_app_head. rewrite !app_assoc. apply Permutation_app_tail. apply Permutation_app_comm.
Qed.
Lemma new_pinv threads : pinv threads (new_pool threads) [].
Proof.
  constructor; cbn; try apply repeat_length.
  - unfold pending, queued. cbn. assert (E1 : flat_map running (repeat (@Searching T 0) threads) = []) by (induction threads as [|m IHm]; [reflexivity|exact IHm]).
    assert (E2 : concat (repeat (@nil T) threads) = []) by (induction threads; auto). now rewrite E1, E2.
  - intros i H. apply nth_error_In in H. apply repeat_spec in H. discriminate.
  - intros i n H. apply nth_error_In in H. apply repeat_spec in H. injection H as ->. lia.
Qed.
Lemma enqueue_pinv threads p submitted t busy p' : (0 < threads)%nat -> pinv threads p submitted -> Forall (fun c => c = false) (stopped p) ->
  enqueue p t busy = Ret p' -> pinv threads p' (submitted ++ [t]).
Proof.
  intros H0 I Hs He. destruct I. unfold enqueue in He. destruct (Nat.eqb (size p) 0); [discriminate|]. injection He as <-. set (k := target p busy).
  assert (Hk : (k < length (queues p))%nat). { unfold k, target. pose proof (target_bound (attempts p) 0 (next p) (Z.of_nat (size p)) busy). unfold size in *. lia. }
  constructor; cbn [queues workers executed stopped].
  - now rewrite update_length.
  - exact pi_workers0.
  - exact pi_stopped0.
  - unfold pending at 1. cbn [workers]. fold (pending p).
    assert (Q : Permutation (queued (mk_pool (update (queues p) k (nth k (queues p) [] ++ [t])) (stopped p) (workers p) (w32 (next p + 1)) (executed p))) (queued p ++ [t])).
    { apply (Permutation_app_inv_l (nth k (queues p) [])). rewrite queued_update by exact Hk. rewrite <- app_assoc. apply Permutation_app_head. apply Permutation_app_comm. }
    rewrite Q, !app_assoc. apply Permutation_app_tail. rewrite <- app_assoc. exact pi_tasks0.
  - intros i Hi. destruct (pi_done0 i Hi) as [D _]. exfalso. rewrite Forall_forall in Hs.
    destruct (Nat.ltb_spec i (length (stopped p))); [|rewrite nth_overflow in D by lia; discriminate].
    specialize (Hs (nth i (stopped p) false) ltac:(apply nth_In; lia)). congruence.
  - intros i n Hi. unfold attempts, size in *. cbn. rewrite update_length. exact (pi_search0 i n Hi).
Qed.
Lemma stop_pinv threads p submitted k : pinv threads p submitted -> pinv threads (stop p k) submitted.
Proof.
  intros I. destruct I. constructor; auto.
  - cbn. now rewrite update_length.
  - intros i Hi. cbn. destruct (pi_done0 i Hi) as [D ?]. split; [|assumption].
    destruct (Nat.ltb_spec k (length (stopped p))).
    + rewrite nth_update by assumption. destruct (Nat.eqb i k); auto.
    + assert (Hx : update (stopped p) k true = stopped p); [|now rewrite Hx].
      clear - H0. generalize dependent k. induction (stopped p) as [|b l IH]; intros [|k] Hk; cbn in *; try lia; auto. f_equal. apply IH. lia.
Qed.
Lemma work_pinv threads p submitted i success p' : (0 < threads)%nat -> pinv threads p submitted -> work p i success = Some p' -> pinv threads p' submitted.
Proof.
  intros H0 I H. destruct I. unfold work in H. destruct (nth_error (workers p) i) as [w|] eqn:Ew; [|discriminate].
  assert (Hi : (i < threads)%nat) by (rewrite <- pi_workers0; apply nth_error_Some; congruence).
  (* taking a task from queue k *)
  assert (Take : forall k t rest, (k < threads)%nat -> nth k (queues p) [] = t :: rest -> running w = [] ->
    pinv threads (mk_pool (update (queues p) k rest) (stopped p) (update (workers p) i (Running t)) (next p) (executed p)) submitted).
  { intros k t rest Hk Hq Hr. assert (Hk' : (k < length (queues p))%nat) by lia. constructor; cbn [queues workers executed stopped].
    - now rewrite update_length.
    - now rewrite update_length.
    - exact pi_stopped0.
    - rewrite <- pi_tasks0. apply Permutation_app_head.
      pose proof (pending_update p i w (Running t) (update (queues p) k rest) (stopped p) (next p) (executed p) Ew) as P1. rewrite Hr in P1. cbn [app running] in P1. rewrite P1.
      pose proof (queued_update p k rest (stopped p) (update (workers p) i (Running t)) (next p) (executed p) Hk') as P2. rewrite Hq in P2.
      assert (P3 : Permutation (t :: queued (mk_pool (update (queues p) k rest) (stopped p) (update (workers p) i (Running t)) (next p) (executed p))) (queued p)).
      { apply (Permutation_app_inv_l rest). rewrite <- P2. symmetry. cbn. apply Permutation_middle. }
      cbn. rewrite <- P3. apply Permutation_middle.
    - intros j Hj. rewrite (nth_error_update _ _ _ _ _ Ew) in Hj. destruct (Nat.eqb_spec j i); [discriminate|]. destruct (pi_done0 j Hj) as [D1 D2]. split; [exact D1|].
      rewrite nth_update by exact Hk'. destruct (Nat.eqb_spec j k) as [->|]; [congruence|exact D2].
    - intros j n Hj. rewrite (nth_error_update _ _ _ _ _ Ew) in Hj. destruct (Nat.eqb_spec j i); [discriminate|]. unfold attempts, size in *. cbn. rewrite update_length. eauto. }
  (* moving on without touching the queues *)
  assert (Move : forall w', running w' = running w -> (forall n, w' = Searching n -> (n <= attempts p)%nat) -> (w' = Finished -> nth i (stopped p) false = true /\ nth i (queues p) [] = []) ->
    pinv threads (mk_pool (queues p) (stopped p) (update (workers p) i w') (next p) (executed p)) submitted).
  { intros w' Hr Hs Hf. constructor; cbn [queues workers executed stopped]; auto.
    - now rewrite update_length.
    - rewrite <- pi_tasks0. apply Permutation_app_head. pose proof (pending_update p i w w' (queues p) (stopped p) (next p) (executed p) Ew) as P1. rewrite Hr in P1.
      apply Permutation_app_inv_l in P1. rewrite P1. reflexivity.
    - intros j Hj. rewrite (nth_error_update _ _ _ _ _ Ew) in Hj. destruct (Nat.eqb_spec j i) as [Ej|]; [subst j; injection Hj as ->; now apply Hf|now apply pi_done0].
    - intros j n Hj. rewrite (nth_error_update _ _ _ _ _ Ew) in Hj. destruct (Nat.eqb_spec j i) as [Ej|]; [subst j; injection Hj as ->; now apply Hs|now apply (pi_search0 j)]. }
  destruct w as [n| |t|]; try discriminate.
  - destruct (Nat.ltb_spec n (attempts p)).
    + assert (Hk : ((i + n) mod size p < threads)%nat) by (unfold size; rewrite pi_queues0; apply Nat.mod_upper_bound; lia).
      destruct (nth ((i + n) mod size p) (queues p) []) as [|t rest] eqn:Eq; [|destruct success]; injection H as <-.
      * apply Move; [reflexivity|intros m Em; injection Em as <-; lia|discriminate].
      * now apply Take.
      * apply Move; [reflexivity|intros m Em; injection Em as <-; lia|discriminate].
    + injection H as <-. apply Move; [reflexivity|discriminate|discriminate].
  - destruct (nth i (queues p) []) as [|t rest] eqn:Eq.
    + destruct (nth i (stopped p) false) eqn:Es; [|discriminate]. injection H as <-. apply Move; [reflexivity|discriminate|auto].
    + injection H as <-. now apply Take.
  - injection H as <-. constructor; cbn [queues workers executed stopped]; auto.
    + now rewrite update_length.
    + rewrite <- pi_tasks0. pose proof (pending_update p i (Running t) (Searching 0) (queues p) (stopped p) (next p) (executed p ++ [t]) Ew) as P1. cbn [running app] in P1.
      rewrite <- P1. unfold queued. cbn [queues]. rewrite <- app_assoc. reflexivity.
    + intros j Hj. rewrite (nth_error_update _ _ _ _ _ Ew) in Hj. destruct (Nat.eqb_spec j i) as [Ej|]; [discriminate|now apply pi_done0].
    + intros j n Hj. rewrite (nth_error_update _ _ _ _ _ Ew) in Hj. destruct (Nat.eqb_spec j i) as [Ej|]; [injection Hj as <-; lia|now apply (pi_search0 j)].
Qed.
Lemma execution_pinv threads p submitted : (0 < threads)%nat -> pool_execution threads p submitted -> pinv threads p submitted.
Proof.
  intros H0. induction 1; [apply new_pinv|eapply enqueue_pinv; eauto|now apply stop_pinv|eapply work_pinv; eauto].
Qed.
(** A measure that every action of a worker decreases. *)
Definition weight p (w : worker T) : nat :=
  match w with Searching n => 1 + (attempts p - n) + 1 | Blocked => 1 | Running _ => 4 + attempts p | Finished => 0 end.
Definition measure p : nat := (length (queued p) * (5 + attempts p) + list_sum (map (weight p) (workers p)))%nat.
Lemma sum_update (f : worker T -> nat) l i w w' : nth_error l i = Some w -> (list_sum (map f (update l i w')) + f w = list_sum (map f l) + f w')%nat.
Proof.
  unfold list_sum. revert i. induction l as [|x l IH]; intros [|i] H; cbn [nth_error] in H; try discriminate; cbn [update map fold_right].
  - injection H as ->. lia.
  - specialize (IH i H). lia.
Qed.
Lemma work_measure threads p i success p' : (0 < threads)%nat -> length (queues p) = threads -> length (workers p) = threads -> work p i success = Some p' -> (measure p' < measure p)%nat.
Proof.
  intros H0 pi_queues0 pi_workers0 H. unfold work in H. destruct (nth_error (workers p) i) as [w|] eqn:Ew; [|discriminate].
  assert (Hi : (i < threads)%nat) by (rewrite <- pi_workers0; apply nth_error_Some; congruence).
  assert (Take : forall k t rest, (k < threads)%nat -> nth k (queues p) [] = t :: rest ->
    (measure (mk_pool (update (queues p) k rest) (stopped p) (update (workers p) i (Running t)) (next p) (executed p)) < measure p)%nat).
  { intros k t rest Hk Hq. assert (Hk' : (k < length (queues p))%nat) by lia.
    pose proof (queued_update p k rest (stopped p) (update (workers p) i (Running t)) (next p) (executed p) Hk') as P2. rewrite Hq in P2. apply Permutation_length in P2. rewrite !app_length in P2. cbn [length] in P2.
    unfold measure. remember (mk_pool (update (queues p) k rest) (stopped p) (update (workers p) i (Running t)) (next p) (executed p)) as pn eqn:Epn.
    assert (Ea : attempts pn = attempts p) by (rewrite Epn; unfold attempts, size; cbn [queues]; now rewrite update_length).
    assert (Ew' : map (weight pn) (workers pn) = map (weight p) (update (workers p) i (Running t))) by (rewrite Epn at 2; cbn [workers]; apply map_ext; intros y; unfold weight; now rewrite Ea).
    rewrite Ea, Ew'.
    pose proof (sum_update (weight p) _ _ _ (Running t) Ew) as P3. unfold weight at 2 4 in P3. nia. }
  assert (Move : forall w' ex, (weight p w' < weight p w)%nat ->
    (measure (mk_pool (queues p) (stopped p) (update (workers p) i w') (next p) ex) < measure p)%nat).
  { intros w' ex Hw. unfold measure, queued. cbn [queues workers]. 
    change (weight (mk_pool (queues p) (stopped p) (update (workers p) i w') (next p) ex)) with (weight p).
    change (attempts (mk_pool (queues p) (stopped p) (update (workers p) i w') (next p) ex)) with (attempts p).
    pose proof (sum_update (weight p) _ _ _ w' Ew). lia. }
  destruct w as [n| |t|]; try discriminate.
  - destruct (Nat.ltb_spec n (attempts p)).
    + assert (Hk : ((i + n) mod size p < threads)%nat) by (unfold size; rewrite pi_queues0; apply Nat.mod_upper_bound; lia).
      destruct (nth ((i + n) mod size p) (queues p) []) as [|t rest] eqn:Eq; [|destruct success]; injection H as <-; [|now apply Take|]; apply Move; unfold weight; lia.
    + injection H as <-. apply Move. unfold weight. lia.
  - destruct (nth i (queues p) []) as [|t rest] eqn:Eq.
    + destruct (nth i (stopped p) false) eqn:Es; [|discriminate]. injection H as <-. apply Move. unfold weight. lia.
    + injection H as <-. now apply Take.
  - injection H as <-. apply Move. unfold weight. lia.
Qed.
Lemma tasks_kept threads p submitted : (0 < threads)%nat -> pool_execution threads p submitted ->
  Permutation (executed p ++ flat_map running (workers p) ++ concat (queues p)) submitted.
Proof. intros H0 H. apply (execution_pinv threads p submitted H0 H). Qed.
Lemma every_task_once threads p submitted : (0 < threads)%nat -> pool_execution threads p submitted -> all_finished p -> Permutation (executed p) submitted.
Proof.
  intros H0 H F. unfold all_finished in F. destruct (execution_pinv threads p submitted H0 H). rewrite <- pi_tasks0.
  assert (E1 : pending p = []). { unfold pending. clear - F. induction F as [|w l -> _ IH]; [reflexivity|exact IH]. }
  assert (E2 : queued p = []).
  { unfold queued. assert (X : forall i, (i < length (queues p))%nat -> nth i (queues p) [] = []).
    { intros i Hi. apply pi_done0. destruct (nth_error (workers p) i) as [w|] eqn:E; [|apply nth_error_None in E; lia].
      rewrite Forall_forall in F. f_equal. apply F. eapply nth_error_In. exact E. }
    clear - X. induction (queues p) as [|q l IH]; [reflexivity|]. pose proof (X 0%nat ltac:(cbn; lia)) as X0. cbn in X0. subst q. cbn. apply IH. intros i Hi. apply (X (S i)). cbn. lia. }
  rewrite E1, E2, !app_nil_r. reflexivity.
Qed.
Lemma can_act threads p submitted i w success : (0 < threads)%nat -> pool_execution threads p submitted -> destroyed p ->
  nth_error (workers p) i = Some w -> w <> Finished -> work p i success <> None.
Proof.
  intros H0 H Hs Hw Hne. destruct (execution_pinv threads p submitted H0 H). unfold work. rewrite Hw. destruct w as [n| |t|]; try congruence.
  - destruct (Nat.ltb n (attempts p)); [destruct (nth ((i + n) mod size p) (queues p) []), success|]; discriminate.
  - assert (Hi : (i < threads)%nat) by (rewrite <- pi_workers0; apply nth_error_Some; congruence).
    assert (Hc : nth i (stopped p) false = true). { unfold destroyed in Hs. rewrite Forall_forall in Hs. apply Hs. apply nth_In. lia. }
    rewrite Hc. destruct (nth i (queues p) []); discriminate.
Qed.
Lemma acts_boundedly threads l : forall p submitted p', (0 < threads)%nat -> pool_execution threads p submitted -> run_workers p l = Some p' -> (length l + measure p' <= measure p)%nat.
Proof.
  induction l as [|[i b] l IH]; intros p submitted p' H0 H E; cbn in E; [injection E as ->; cbn; lia|].
  destruct (work p i b) as [p1|] eqn:W; [|discriminate].
  destruct (execution_pinv _ _ _ H0 H) as [Lq Lw _ _ _]. pose proof (work_measure threads p i b p1 H0 Lq Lw W). specialize (IH p1 submitted p' H0 ltac:(econstructor; eauto) E). cbn. lia.
Qed.
Lemma steps_execution n l : forall p p' s, pool_execution n p s -> run_workers p l = Some p' -> pool_execution n p' s.
Proof.
  induction l as [|[i b] l IH]; intros p p' s H E; cbn in E; [injection E as <-; exact H|]. destruct (work p i b) eqn:W; [|discriminate]. eapply IH; [|exact E]. econstructor; eauto.
Qed.
End Proofs.

