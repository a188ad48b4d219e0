(** Proofs for pools whose tasks submit tasks. *)
From Verif Require Import Base BlockingQueue BlockingQueue_proofs ThreadPool ThreadPool_spec ThreadPool_proofs PoolTasks_spec.
From Coq Require Import ZifyBool ZifyNat.

Section Proofs.
Context {T : Type}.
Implicit Types (p : pool T).
(** Worker [j] will still look into queue [k]. *)
Definition sees p (j k : nat) : Prop :=
  match nth_error (workers p) j with
  | Some (Running _) => True
  | Some (Searching n) => exists m, (n <= m < attempts p)%nat /\ ((j + m) mod size p = k)%nat
  | _ => False
  end.
Record linv (spurious : bool) (threads : nat) p (submitted : list T) : Prop := mk_linv {
  li_queues : length (queues p) = threads;
  li_workers : length (workers p) = threads;
  li_stopped : length (stopped p) = threads;
  li_tasks : Permutation (executed p ++ pending p ++ queued p) submitted;
  li_done : forall i, nth_error (workers p) i = Some Finished -> nth i (stopped p) false = true;
  li_seen : spurious = false -> forall k, nth k (queues p) [] <> [] -> nth_error (workers p) k = Some Finished -> exists j, sees p j k }.

Lemma new_linv spurious threads : linv spurious threads (new_pool threads) [].
Proof.
  destruct (new_pinv (T:=T) threads). constructor; auto.
  - intros i H. apply nth_error_In in H. apply repeat_spec in H. discriminate.
  - intros _ k _ H. apply nth_error_In in H. apply repeat_spec in H. discriminate.
Qed.
Lemma enqueue_linv spurious threads p submitted t busy p' : (0 < threads)%nat -> linv spurious threads p submitted ->
  Forall (fun c => c = false) (stopped p) \/ (exists j u, nth_error (workers p) j = Some (Running u)) ->
  enqueue p t busy = Ret p' -> linv spurious threads p' (submitted ++ [t]).
Proof.
  intros H0 I Hs He. destruct I. unfold enqueue in He. destruct (Nat.eqb (size p) 0); [discriminate|]. injection He as <-. set (k := target p busy).
  assert (Hk : (k < length (queues p))%nat). { unfold k, target. pose proof (target_bound (attempts p) 0 (next p) (Z.of_nat (size p)) busy). unfold size in *. lia. }
  constructor; cbn [queues workers executed stopped]; auto.
  - now rewrite update_length.
  - unfold pending at 1. cbn [workers]. fold (pending p).
    assert (Q : Permutation (queued (mk_pool (update (queues p) k (nth k (queues p) [] ++ [t])) (stopped p) (workers p) (w32 (next p + 1)) (executed p))) (queued p ++ [t])).
    { apply (Permutation_app_inv_l (nth k (queues p) [])). rewrite queued_update by exact Hk. rewrite <- app_assoc. apply Permutation_app_head. apply Permutation_app_comm. }
    rewrite Q, !app_assoc. apply Permutation_app_tail. rewrite <- app_assoc. exact li_tasks0.
  - intros Sp i Hq Hi. destruct Hs as [Hs|(j & u & Hj)].
    + exfalso. pose proof (li_done0 i Hi) as D. rewrite Forall_forall in Hs.
      destruct (Nat.ltb_spec i (length (stopped p))); [|rewrite nth_overflow in D by lia; discriminate].
      specialize (Hs (nth i (stopped p) false) ltac:(apply nth_In; lia)). congruence.
    + exists j. unfold sees. cbn [workers]. now rewrite Hj.
Qed.
Lemma stop_linv spurious threads p submitted k : linv spurious threads p submitted -> linv spurious threads (stop p k) submitted.
Proof.
  intros I. destruct I. constructor; auto.
  - cbn. now rewrite update_length.
  - intros i Hi. cbn. pose proof (li_done0 i Hi) as D.
    destruct (Nat.ltb_spec k (length (stopped p))).
    + rewrite nth_update by assumption. destruct (Nat.eqb i k); auto.
    + assert (Hx : update (stopped p) k true = stopped p); [|now rewrite Hx].
      clear - H. generalize dependent k. induction (stopped p) as [|b l IH]; intros [|k] Hk; cbn in *; try lia; auto. f_equal. apply IH. lia.
Qed.
Lemma work_linv spurious threads p submitted i success p' : (0 < threads)%nat -> linv spurious threads p submitted -> work p i success = Some p' ->
  (success = false -> spurious = true \/ forall n, nth_error (workers p) i = Some (Searching n) -> taken p i ((i + n) mod size p)%nat) ->
  linv spurious threads p' submitted.
Proof.
  intros H0 I H G. destruct I. unfold work in H. destruct (nth_error (workers p) i) as [w|] eqn:Ew; [|discriminate].
  assert (Hi : (i < threads)%nat) by (rewrite <- li_workers0; apply nth_error_Some; congruence).
  assert (Others : forall qs st w' nx ex j k, length qs = length (queues p) -> j <> i -> sees p j k -> sees (mk_pool qs st (update (workers p) i w') nx ex) j k).
  { intros qs st w' nx ex j k L N S. unfold sees, attempts, size in *. cbn [workers queues]. rewrite (nth_error_update _ _ _ _ _ Ew), L. destruct (Nat.eqb_spec j i); [contradiction|exact S]. }
  assert (Take : forall k t rest, (k < threads)%nat -> nth k (queues p) [] = t :: rest -> running w = [] ->
    linv spurious threads (mk_pool (update (queues p) k rest) (stopped p) (update (workers p) i (Running t)) (next p) (executed p)) submitted).
  { intros k t rest Hk Hq Hr. assert (Hk' : (k < length (queues p))%nat) by lia. constructor; cbn [queues workers executed stopped].
    - now rewrite update_length.
    - now rewrite update_length.
    - exact li_stopped0.
    - rewrite <- li_tasks0. apply Permutation_app_head.
      pose proof (pending_update p i w (Running t) (update (queues p) k rest) (stopped p) (next p) (executed p) Ew) as P1. rewrite Hr in P1. cbn [app running] in P1. rewrite P1.
      pose proof (queued_update p k rest (stopped p) (update (workers p) i (Running t)) (next p) (executed p) Hk') as P2. rewrite Hq in P2.
      assert (P3 : Permutation (t :: queued (mk_pool (update (queues p) k rest) (stopped p) (update (workers p) i (Running t)) (next p) (executed p))) (queued p)).
      { apply (Permutation_app_inv_l rest). rewrite <- P2. symmetry. cbn. apply Permutation_middle. }
      cbn. rewrite <- P3. apply Permutation_middle.
    - intros j Hj. rewrite (nth_error_update _ _ _ _ _ Ew) in Hj. destruct (Nat.eqb_spec j i); [discriminate|]. now apply li_done0.
    - intros _ j _ _. exists i. unfold sees. cbn [workers]. rewrite (nth_error_update _ _ _ _ _ Ew), Nat.eqb_refl. exact I. }
  (* moving on without touching the queues: whatever only worker [i] would have seen is still seen by somebody *)
  assert (Move : forall w', running w' = running w -> (w' = Finished -> nth i (stopped p) false = true /\ nth i (queues p) [] = []) ->
    (spurious = false -> forall k, nth k (queues p) [] <> [] -> nth_error (workers p) k = Some Finished -> sees p i k ->
      sees (mk_pool (queues p) (stopped p) (update (workers p) i w') (next p) (executed p)) i k \/ exists j, j <> i /\ sees p j k) ->
    linv spurious threads (mk_pool (queues p) (stopped p) (update (workers p) i w') (next p) (executed p)) submitted).
  { intros w' Hr Hf Hs. constructor; cbn [queues workers executed stopped]; auto.
    - now rewrite update_length.
    - rewrite <- li_tasks0. apply Permutation_app_head. pose proof (pending_update p i w w' (queues p) (stopped p) (next p) (executed p) Ew) as P1. rewrite Hr in P1.
      apply Permutation_app_inv_l in P1. rewrite P1. reflexivity.
    - intros j Hj. rewrite (nth_error_update _ _ _ _ _ Ew) in Hj. destruct (Nat.eqb_spec j i) as [Ej|]; [subst j; injection Hj as ->; now apply Hf|now apply li_done0].
    - intros Sp k Hq Hk. rewrite (nth_error_update _ _ _ _ _ Ew) in Hk. destruct (Nat.eqb_spec k i) as [Ek|Nk].
      + subst k. injection Hk as ->. destruct (Hf eq_refl) as [_ E]. contradiction.
      + destruct (li_seen0 Sp k Hq Hk) as (j & S). destruct (Nat.eq_dec j i) as [->|Nj].
        * destruct (Hs Sp k Hq Hk S) as [S'|(j & Nj & S')]; [now exists i|exists j; now apply Others].
        * exists j. now apply Others. }
  destruct w as [n| |t|]; try discriminate.
  - destruct (Nat.ltb_spec n (attempts p)) as [Ln|Ln].
    + assert (Hk : ((i + n) mod size p < threads)%nat) by (unfold size; rewrite li_queues0; apply Nat.mod_upper_bound; lia).
      assert (Pass : forall k, k <> ((i + n) mod size p)%nat -> sees p i k -> sees (mk_pool (queues p) (stopped p) (update (workers p) i (Searching (S n))) (next p) (executed p)) i k).
      { intros k Nk S. unfold sees, attempts, size in *. cbn [workers queues]. rewrite Ew in S. rewrite (nth_error_update _ _ _ _ _ Ew), Nat.eqb_refl. destruct S as (m & Hm & Em). exists m. split; [|exact Em].
        assert (m <> n) by congruence. lia. }
      destruct (nth ((i + n) mod size p) (queues p) []) as [|t rest] eqn:Eq; [|destruct success]; injection H as <-.
      * apply Move; [reflexivity|discriminate|]. intros Sp k Hq Hf S. left. apply Pass; [congruence|exact S].
      * now apply Take.
      * apply Move; [reflexivity|discriminate|]. intros Sp k Hq Hf S. destruct (Nat.eq_dec k ((i + n) mod size p)) as [->|Nk]; [|left; now apply Pass].
        right. destruct (G eq_refl) as [X|X]; [congruence|]. specialize (X n eq_refl). destruct X as [X|(j & w & Nj & Ej & X)]; [rewrite (li_done0 _ Hf) in X; discriminate|].
        exists j. split; [exact Nj|]. unfold sees. rewrite Ej. destruct w as [m| |u|]; auto.
        -- exists m. split; [lia|apply X].
        -- subst j. congruence.
    + injection H as <-. apply Move; [reflexivity|discriminate|]. intros Sp k Hq Hf S. exfalso. unfold sees in S. rewrite Ew in S. destruct S as (m & Hm & _). lia.
  - assert (No : forall k, ~ sees p i k) by (intros k S; unfold sees in S; now rewrite Ew in S).
    destruct (nth i (queues p) []) as [|t rest] eqn:Eq.
    + destruct (nth i (stopped p) false) eqn:Es; [|discriminate]. injection H as <-. apply Move; [reflexivity|auto|]. intros Sp k Hq Hf S. now apply No in S.
    + injection H as <-. now apply Take.
  - injection H as <-. constructor; cbn [queues workers executed stopped]; auto.
    + now rewrite update_length.
    + rewrite <- li_tasks0. pose proof (pending_update p i (Running t) (Searching 0) (queues p) (stopped p) (next p) (executed p ++ [t]) Ew) as P1. cbn [running app] in P1.
      rewrite <- P1. unfold queued. cbn [queues]. rewrite <- app_assoc. reflexivity.
    + intros j Hj. rewrite (nth_error_update _ _ _ _ _ Ew) in Hj. destruct (Nat.eqb_spec j i) as [Ej|]; [discriminate|now apply li_done0].
    + intros Sp k Hq Hk. exists i. unfold sees, attempts, size. cbn [workers queues]. rewrite (nth_error_update _ _ _ _ _ Ew), Nat.eqb_refl. rewrite li_queues0.
      assert (Lk : (k < threads)%nat). { destruct (Nat.ltb_spec k threads); [assumption|]. rewrite nth_overflow in Hq by lia. contradiction. }
      exists (if Nat.leb i k then k - i else k + threads - i)%nat. destruct (Nat.leb_spec i k).
      * split; [lia|]. replace (i + (k - i))%nat with k by lia. apply Nat.mod_small. lia.
      * split; [lia|]. replace (i + (k + threads - i))%nat with (k + 1 * threads)%nat by lia. rewrite Nat.mod_add by lia. apply Nat.mod_small. lia.
Qed.
Lemma life_linv spurious threads p submitted : (0 < threads)%nat -> pool_life spurious threads p submitted -> linv spurious threads p submitted.
Proof. intros H0. induction 1; [apply new_linv|eapply enqueue_linv; eauto|now apply stop_linv|eapply work_linv; eauto]. Qed.

Lemma life_all_run threads p submitted : (0 < threads)%nat -> pool_life false threads p submitted -> all_finished p -> Permutation (executed p) submitted.
Proof.
  intros H0 H F. unfold all_finished in F. destruct (life_linv _ threads p submitted H0 H). rewrite <- li_tasks0.
  assert (E1 : pending p = []). { unfold pending. clear - F. induction F as [|w l -> _ IH]; [reflexivity|exact IH]. }
  assert (E2 : queued p = []).
  { unfold queued. assert (X : forall i, (i < length (queues p))%nat -> nth i (queues p) [] = []).
    { intros i Hi. assert (All : forall j w, nth_error (workers p) j = Some w -> w = Finished) by (intros j w Hj; rewrite Forall_forall in F; apply F; eapply nth_error_In; exact Hj).
      destruct (nth i (queues p) []) as [|t rest] eqn:E; [reflexivity|exfalso]. destruct (nth_error (workers p) i) as [w|] eqn:Ei; [|apply nth_error_None in Ei; lia].
      destruct (li_seen0 eq_refl i) as (j & S); [congruence|rewrite Ei; f_equal; eapply All; exact Ei|]. unfold sees in S. destruct (nth_error (workers p) j) as [v|] eqn:Ej; [|exact S]. rewrite (All j v Ej) in S. exact S. }
    clear - X. induction (queues p) as [|q l IH]; [reflexivity|]. pose proof (X 0%nat ltac:(cbn; lia)) as X0. cbn in X0. subst q. cbn. apply IH. intros i Hi. apply (X (S i)). cbn. lia. }
  rewrite E1, E2, !app_nil_r. reflexivity.
Qed.
Lemma life_can_act spurious threads p submitted i w success : (0 < threads)%nat -> pool_life spurious threads p submitted -> destroyed p ->
  nth_error (workers p) i = Some w -> w <> Finished -> work p i success <> None.
Proof.
  intros H0 H Hs Hw Hne. destruct (life_linv _ threads p submitted H0 H). unfold work. rewrite Hw. destruct w as [n| |t|]; try congruence.
  - destruct (Nat.ltb n (attempts p)); [destruct (nth ((i + n) mod size p) (queues p) []), success|]; discriminate.
  - assert (Hi : (i < threads)%nat) by (rewrite <- li_workers0; apply nth_error_Some; congruence).
    assert (Hc : nth i (stopped p) false = true). { unfold destroyed in Hs. rewrite Forall_forall in Hs. apply Hs. apply nth_In. lia. }
    rewrite Hc. destruct (nth i (queues p) []); discriminate.
Qed.
Lemma life_steps threads l : forall p p' s, pool_life true threads p s -> run_workers p l = Some p' -> pool_life true threads p' s.
Proof. induction l as [|[i b] l IH]; intros p p' s H E; cbn in E; [injection E as <-; exact H|]. destruct (work p i b) eqn:W; [|discriminate]. eapply IH; [|exact E]. econstructor; eauto. Qed.
Lemma life_steps_free threads l : forall p p' s, pool_life false threads p s -> run_workers p (map (fun i => (i, true)) l) = Some p' -> pool_life false threads p' s.
Proof. induction l as [|i l IH]; intros p p' s H E; cbn in E; [injection E as <-; exact H|]. destruct (work p i true) eqn:W; [|discriminate]. eapply IH; [|exact E]. econstructor; eauto. Qed.
Lemma work_sizes p i success p' : work p i success = Some p' -> length (queues p') = length (queues p) /\ length (workers p') = length (workers p).
Proof.
  unfold work. destruct (nth_error (workers p) i) as [[n| |t|]|]; try discriminate.
  - destruct (Nat.ltb n (attempts p)); [destruct (nth _ (queues p) []); [|destruct success]|]; intros E; injection E as <-; cbn; rewrite ?update_length; auto.
  - destruct (nth i (queues p) []); [destruct (nth i (stopped p) false); [|discriminate]|]; intros E; injection E as <-; cbn; rewrite ?update_length; auto.
  - intros E; injection E as <-; cbn; rewrite ?update_length; auto.
Qed.
Lemma sizes_boundedly threads l : forall p p', (0 < threads)%nat -> length (queues p) = threads -> length (workers p) = threads -> run_workers p l = Some p' -> (length l + measure p' <= measure p)%nat.
Proof.
  induction l as [|[i b] l IH]; intros p p' H0 Lq Lw E; cbn in E; [injection E as ->; cbn; lia|].
  destruct (work p i b) as [p1|] eqn:W; [|discriminate]. pose proof (work_measure threads p i b p1 H0 Lq Lw W). destruct (work_sizes p i b p1 W) as [L1 L2].
  specialize (IH p1 p' H0 ltac:(congruence) ltac:(congruence) E). cbn. lia.
Qed.
Lemma life_served spurious threads p submitted k success : (0 < threads)%nat -> pool_life spurious threads p submitted ->
  nth k (stopped p) false = false -> nth k (queues p) [] <> [] -> work p k success <> None.
Proof.
  intros H0 H C Q. destruct (life_linv _ _ _ _ H0 H). unfold work.
  assert (L : (k < threads)%nat). { destruct (Nat.ltb_spec k threads); [assumption|]. rewrite nth_overflow in Q by lia. contradiction. }
  destruct (nth_error (workers p) k) as [[n| |t|]|] eqn:E; try discriminate.
  - destruct (Nat.ltb n (attempts p)); [destruct (nth ((k + n) mod size p) (queues p) []), success|]; discriminate.
  - destruct (nth k (queues p) []); [contradiction|discriminate].
  - rewrite (li_done0 k E) in C. discriminate.
  - apply nth_error_None in E. lia.
Qed.
(** ** One worker *)
Lemma one_in_order spurious p submitted : pool_life spurious 1 p submitted ->
  exists q c w, queues p = [q] /\ stopped p = [c] /\ workers p = [w] /\ executed p ++ running w ++ q = submitted /\ (w = Finished -> c = true /\ q = []).
Proof.
  induction 1 as [|p submitted t busy p' H IH Hs He|p submitted k H IH|p submitted i success p' H IH W G].
  - exists [], false, (Searching 0). repeat split; discriminate.
  - destruct IH as (q & c & w & Eq & Ec & Ew & <- & F). unfold enqueue, size in He. rewrite Eq in He. cbn [length Nat.eqb] in He. injection He as <-. cbn [queues stopped workers executed].
    assert (K : target p busy = 0%nat). { unfold target. pose proof (target_bound (attempts p) 0 (next p) (Z.of_nat (size p)) busy). unfold size in *. rewrite Eq in *. cbn [length] in *. lia. }
    rewrite K. exists (q ++ [t]), c, w. rewrite !app_assoc. split; [reflexivity|]. do 3 (split; [auto|]). intros ->. exfalso. destruct (F eq_refl) as [-> ->]. rewrite Ec, Ew in Hs.
    destruct Hs as [Hs|(j & u & Hs)]; [inversion Hs; discriminate|]. destruct j as [|[|j]]; discriminate Hs.
  - destruct IH as (q & c & w & Eq & Ec & Ew & <- & F). cbn [stop queues stopped workers executed]. rewrite Ec. destruct k as [|k]; [exists q, true, w|exists q, c, w]; do 4 (split; [auto|]); [|exact F]. intros E. now destruct (F E).
  - destruct IH as (q & c & w & Eq & Ec & Ew & <- & F). unfold work in W. rewrite Ew in W. destruct i as [|i]; [|destruct i; discriminate W]. cbn [nth_error] in W. rewrite Eq, Ec in W.
    unfold attempts, size in W. rewrite Eq in W. cbn [length] in W.
    destruct w as [n| |t|]; try discriminate W.
    + destruct (Nat.ltb n (2 * 1)).
      * rewrite Nat.mod_1_r in W. cbn [nth] in W. destruct q as [|t q]; [|destruct success]; injection W as <-; cbn [queues stopped workers executed update]; do 3 eexists; do 4 (split; [auto|]); discriminate.
      * injection W as <-. cbn [queues stopped workers executed update]. do 3 eexists; do 4 (split; [eauto|]); discriminate.
    + cbn [nth] in W. destruct q as [|t q]; [destruct c; [|discriminate W]|]; injection W as <-; cbn [queues stopped workers executed update]; do 3 eexists; do 4 (split; [eauto|]); auto; discriminate.
    + injection W as <-. cbn [queues stopped workers executed update]. exists q, c, (Searching 0). rewrite <- app_assoc. do 4 (split; [eauto|]); discriminate.
Qed.
End Proofs.
