From Verif Require Import Base BlockingQueue BlockingQueue_spec.
From Coq Require Import ZifyBool ZifyNat.

Lemma update_length {X} (l : list X) i x : length (update l i x) = length l.
Proof. revert i. induction l as [|y l IH]; intros [|i]; cbn; auto. Qed.
Lemma update_same {X} (l : list X) i x y : nth_error l i = Some y -> nth_error (update l i x) i = Some x.
Proof. revert i. induction l as [|z l IH]; intros [|i]; cbn; intros H; try discriminate; auto. Qed.
Lemma update_other {X} (l : list X) i j x : i <> j -> nth_error (update l i x) j = nth_error l j.
Proof. revert i j. induction l as [|z l IH]; intros [|i] [|j] H; cbn; auto; congruence. Qed.

Section Queue.
Context {A : Type}.
Implicit Types (q : queue A).
Definition count (f : status -> bool) (l : list status) : nat := length (filter f l).
Definition is_woken (s : status) : bool := match s with Woken => true | _ => false end.
Definition is_notifying (s : status) : bool := match s with Notifying => true | _ => false end.
Definition is_notifying_all (s : status) : bool := match s with NotifyingAll => true | _ => false end.
Definition b2n (b : bool) : nat := if b then 1%nat else 0%nat.
Lemma count_update f l i x s : nth_error l i = Some s -> (count f (update l i x) + b2n (f s) = count f l + b2n (f x))%nat.
Proof.
  revert i. induction l as [|y l IH]; intros [|i] H; cbn in *; try discriminate.
  - injection H as ->. unfold count. cbn. destruct (f s), (f x); cbn; lia.
  - specialize (IH i H). unfold count in *. cbn. destruct (f y); cbn; lia.
Qed.
Lemma count_pos f l : (0 < count f l)%nat <-> exists i s, nth_error l i = Some s /\ f s = true.
Proof.
  unfold count. split.
  - intros H. destruct (filter f l) as [|s r] eqn:E; [cbn in H; lia|]. assert (X : In s (filter f l)) by (rewrite E; left; reflexivity).
    apply filter_In in X. destruct X as [X1 X2]. apply In_nth_error in X1. destruct X1 as (i & Hi). exists i, s. auto.
  - intros (i & s & H1 & H2). apply nth_error_In in H1. assert (X : In s (filter f l)) by (apply filter_In; auto). destruct (filter f l); [destruct X|cbn; lia].
Qed.
Lemma existsb_count f l : existsb f l = negb (Nat.eqb (count f l) 0).
Proof. induction l as [|s l IH]; [reflexivity|]. unfold count in *. cbn. destruct (f s); [reflexivity|exact IH]. Qed.
Lemma count_wake_waiting l : count is_waiting (map wake l) = 0%nat.
Proof. unfold count. induction l as [|s l IH]; [reflexivity|]. destruct s; cbn; exact IH. Qed.

Definition inv q : Prop :=
  ((0 < count is_waiting (threads q))%nat -> (length (items q) <= count is_woken (threads q) + count is_notifying (threads q))%nat) /\
  ((0 < count is_waiting (threads q))%nat -> closed q = true -> (0 < count is_notifying_all (threads q))%nat).
Lemma inv_new n : inv (new_queue n).
Proof.
  assert (E : count is_waiting (threads (new_queue (A:=A) n)) = 0%nat) by (unfold count; cbn; induction n; [reflexivity|exact IHn]).
  split; rewrite E; lia.
Qed.
Ltac counts H x :=
  pose proof (count_update is_waiting _ _ x _ H);
  pose proof (count_update is_woken _ _ x _ H);
  pose proof (count_update is_notifying _ _ x _ H);
  pose proof (count_update is_notifying_all _ _ x _ H); cbn [is_waiting is_woken is_notifying is_notifying_all b2n] in *.
Lemma inv_act q i a q' o : inv q -> act q i a = Some (q', o) -> inv q'.
Proof.
  intros [I1 I2] H. unfold act in H. destruct (nth_error (threads q) i) as [s|] eqn:Es; [|discriminate].
  destruct a as [v| |[j|]| | | | | |]; destruct s; try discriminate.
  - injection H as <- <-. counts Es Notifying. split; cbn [items closed threads]; rewrite ?app_length; cbn [length]; lia.
  - injection H as <- <-. split; assumption.
  - destruct (nth_error (threads q) j) as [sj|] eqn:Ej; [|discriminate]. destruct sj; try discriminate. injection H as <- <-.
    assert (Ne : i <> j) by congruence. assert (Ej' : nth_error (update (threads q) i Idle) j = Some Waiting) by (rewrite update_other; assumption).
    counts Es Idle. counts Ej' Woken. split; cbn [items closed threads]; lia.
  - rewrite existsb_count in H. destruct (Nat.eqb_spec (count is_waiting (threads q)) 0); [|discriminate]. cbn in H. injection H as <- <-. counts Es Idle. split; cbn [items closed threads]; lia.
  - destruct (items q) as [|v rest] eqn:Ei; [discriminate|]. injection H as <- <-. counts Es Idle. cbn [length] in I1. split; cbn [items closed threads]; lia.
  - destruct (items q) as [|v rest] eqn:Ei; [discriminate|]. injection H as <- <-. counts Es Idle. cbn [length] in I1. split; cbn [items closed threads]; lia.
  - destruct (items q) as [|v rest] eqn:Ei; [|discriminate]. destruct (closed q) eqn:Ec; [|discriminate]. injection H as <- <-. counts Es Idle. split; cbn [items closed threads length]; lia.
  - destruct (items q) as [|v rest] eqn:Ei; [|discriminate]. destruct (closed q) eqn:Ec; [|discriminate]. injection H as <- <-. counts Es Idle. split; cbn [items closed threads length]; lia.
  - destruct (items q) as [|v rest] eqn:Ei; [|discriminate]. destruct (closed q) eqn:Ec; [discriminate|]. injection H as <- <-. split; cbn [items closed threads length]; [lia|discriminate].
  - destruct (items q) as [|v rest] eqn:Ei; [|discriminate]. destruct (closed q) eqn:Ec; [discriminate|]. injection H as <- <-. split; cbn [items closed threads length]; [lia|discriminate].
  - injection H as <- <-. counts Es Woken. split; cbn [items closed threads]; lia.
  - injection H as <- <-. counts Es NotifyingAll. split; cbn [items closed threads]; lia.
  - injection H as <- <-. assert (W := count_wake_waiting (threads q)).
    assert (Es' : nth_error (map wake (threads q)) i = Some NotifyingAll) by (rewrite nth_error_map, Es; reflexivity).
    pose proof (count_update is_waiting _ _ Idle _ Es') as X. cbn [is_waiting b2n] in X. split; cbn [items closed threads]; lia.
Qed.
Lemma execution_inv n q pushed popped : execution n q pushed popped -> inv q.
Proof. induction 1; [apply inv_new|eapply inv_act; eauto]. Qed.
Lemma act_items q i a q' o : act q i a = Some (q', o) -> items q ++ pushes a = obtains o ++ items q'.
Proof.
  unfold act. destruct (nth_error (threads q) i) as [s|]; [|discriminate].
  destruct a as [v| |[j|]| | | | | |]; destruct s; try discriminate; cbn [pushes obtains app]; rewrite ?app_nil_r;
    try (intros [= <- <-]; reflexivity);
    try (destruct (nth_error (threads q) j) as [[]|]; try discriminate; intros [= <- <-]; reflexivity);
    try (destruct (existsb is_waiting (threads q)); try discriminate; intros [= <- <-]; reflexivity);
    try (destruct (items q); try discriminate; try (destruct (closed q); try discriminate); intros [= <- <-]; reflexivity).
Qed.
Lemma execution_fifo n q pushed popped : execution n q pushed popped -> pushed = popped ++ items q.
Proof.
  induction 1 as [|q pushed popped i a q' o H IH E]; [reflexivity|]. rewrite IH, <- !app_assoc. f_equal. now apply act_items with (i := i).
Qed.
Lemma execution_threads n q pushed popped : execution n q pushed popped -> length (threads q) = n.
Proof.
  induction 1 as [|q pushed popped i a q' o H IH E]; [apply repeat_length|].
  unfold act in E. destruct (nth_error (threads q) i) as [s|]; [|discriminate].
  destruct a as [v| |[j|]| | | | | |]; destruct s; try discriminate;
    repeat match type of E with
    | context [match ?x with _ => _ end] => destruct x; try discriminate
    end; injection E as <- <-; cbn; rewrite ?update_length, ?map_length; exact IH.
Qed.
End Queue.
