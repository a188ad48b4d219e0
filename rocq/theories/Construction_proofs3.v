From Coq Require Import Lia.
From Verif Require Import Base Identity Quantity Inventory Inventory_spec Inventory_proofs Construction Construction_spec Construction_proofs Construction_proofs2.

Section Roles.
Context (is_kind : nat -> identity -> bool) (self : identity).
Lemma call_ret t h o o' : call_handler is_kind self t h o = (o', Ret tt) ->
  match h with
  | None => process_transfer self t (snd o) = Some (snd o') /\ fst o' = fst o
  | Some k => process_typed (is_kind k) self t (fst o k) = Ret (fst o' k) /\ snd o' = snd o /\ forall j, j <> k -> fst o' j = fst o j
  end.
Proof.
  unfold call_handler. destruct h as [k|].
  - destruct process_typed eqn:E; intros H; [|discriminate|discriminate]. injection H as <-. unfold set_view. cbn [fst snd].
    destruct (Nat.eq_dec k k); [|contradiction]. repeat split. intros j J. now destruct (Nat.eq_dec j k).
  - destruct process_transfer eqn:E; intros H; [|discriminate]. now injection H as <-.
Qed.
Lemma calls_cons t h hs o o' : call_handlers is_kind self t (h :: hs) o = (o', Ret tt) ->
  exists m, call_handler is_kind self t h o = (m, Ret tt) /\ call_handlers is_kind self t hs m = (o', Ret tt).
Proof.
  cbn [call_handlers]. destruct call_handler as [m s] eqn:E. intros H. destruct s as [[]| |]; [|discriminate|discriminate].
  exists m. now split.
Qed.
Lemma calls_view t hs k : NoDup hs -> forall o o', call_handlers is_kind self t hs o = (o', Ret tt) ->
  (In (Some k) hs -> process_typed (is_kind k) self t (fst o k) = Ret (fst o' k)) /\ (~ In (Some k) hs -> fst o' k = fst o k).
Proof.
  induction 1 as [|h hs N D IH]; intros o o' E.
  - injection E as <-. split; [intros [] | reflexivity].
  - apply calls_cons in E. destruct E as (m & E & F). apply call_ret in E. specialize (IH _ _ F). destruct IH as [I1 I2]. destruct h as [j|].
    + destruct E as (E1 & E2 & E3). destruct (Nat.eq_dec j k) as [->|J].
      * split; [intros _; rewrite I2 by exact N; exact E1 | intros X; exfalso; apply X; now left].
      * rewrite <- (E3 k) by congruence. split; [intros [X|X]; [congruence | now apply I1] | intros X; apply I2; intros Y; apply X; now right].
    + destruct E as [E1 E2]. rewrite <- E2. split; [intros [X|X]; [discriminate | now apply I1] | intros X; apply I2; intros Y; apply X; now right].
Qed.
Lemma calls_inventory t hs : NoDup hs -> forall o o', call_handlers is_kind self t hs o = (o', Ret tt) ->
  (In None hs -> process_transfer self t (snd o) = Some (snd o')) /\ (~ In None hs -> snd o' = snd o).
Proof.
  induction 1 as [|h hs N D IH]; intros o o' E.
  - injection E as <-. split; [intros [] | reflexivity].
  - apply calls_cons in E. destruct E as (m & E & F). apply call_ret in E. specialize (IH _ _ F). destruct IH as [I1 I2]. destruct h as [j|].
    + destruct E as (E1 & E2 & E3). rewrite <- E2. split; [intros [X|X]; [discriminate | now apply I1] | intros X; apply I2; intros Y; apply X; now right].
    + destruct E as [E1 E2]. split; [intros _; rewrite I2 by exact N; exact E1 | intros X; exfalso; apply X; now left].
Qed.
Lemma role_typed hs k o : NoDup hs -> In None hs -> In (Some k) hs -> role_history is_kind self hs o ->
  owner_history (is_kind k) self (guarded (is_kind k)) (mk_typed_owner (fst o k) (snd o)).
Proof.
  intros N I K. induction 1 as [|o t o' H IH P C].
  - apply oh_start.
  - destruct P as [P1 P2]. apply (oh_receive _ _ _ _ t _ IH); [exact P1 | exact P2 |].
    unfold receive_transfer. cbn [properties inventory]. destruct (calls_view t hs k N _ _ C) as [V _]. rewrite (V K).
    destruct (calls_inventory t hs N _ _ C) as [W _]. now rewrite (W I).
Qed.
End Roles.

