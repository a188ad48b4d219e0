(** What a refused transfer leaves. *)
From Coq Require Import Lia ZifyBool.
From Verif Require Import Base Identity Identity_proofs IdMap_proofs Quantity Inventory Inventory_spec Inventory_proofs Construction Construction_spec Construction_proofs3.
Local Open Scope Z_scope.

Lemma valid_app_r a b : valid (a ++ b) -> valid b.
Proof. intros [N F]. rewrite map_app in N. apply Forall_app in F. split; [|apply F]. clear F. induction a as [|x a IH]; cbn in N; [exact N|]. inversion N. auto. Qed.
Lemma valid_app_l a b : valid (a ++ b) -> valid a.
Proof.
  intros [N F]. rewrite map_app in N. apply Forall_app in F. split; [|apply F]. clear F. induction a as [|x a IH]; cbn in N |- *; [constructor|]. inversion N; subst. constructor; [|auto].
  intros I. apply H1. apply in_or_app. now left.
Qed.
Lemma held_not_before a k v b : valid (a ++ (k, v) :: b) -> held a k = 0.
Proof.
  intros [N _]. rewrite map_app in N. cbn in N. apply NoDup_remove_2 in N. unfold held. assert (E : h_find k a = None) by (apply h_find_none; intros I; apply N, in_or_app; now left). now rewrite E.
Qed.
Lemma part_taken_typed is_T items : forall m, valid m -> valid items -> typed_erase is_T items m = Throw -> part_taken is_T items m (left_by_typed is_T items m).
Proof.
  induction items as [|[k v] items IH]; intros m V Vi; cbn [typed_erase left_by_typed]; [discriminate|].
  pose proof Vi as W. apply valid_cons in Vi. destruct Vi as (Vi & Hv & H0). destruct (is_T k) eqn:Tk.
  - destruct (inv_erase m k v) as [m1| |] eqn:E; [| |discriminate].
    + intros R. destruct (inv_erase_held is_T _ _ _ _ V Hv E) as (V1 & L1 & H1). destruct (IH m1 V1 Vi R) as (b & p & q & a & -> & Tp & L & T).
      exists ((k, v) :: b), p, q, a. split; [reflexivity|]. split; [exact Tp|]. assert (K : id_eqb k p = false).
      { destruct (id_eqb k p) eqn:Ek; [|reflexivity]. apply id_eqb_eq in Ek. subst p. exfalso. destruct W as [N _]. cbn in N. inversion N as [|? ? X _]. apply X. rewrite map_app. apply in_or_app. right. now left. }
      split; [now rewrite H1, K in L|]. intros x. rewrite T, H1, held_cons. destruct (id_eqb k x) eqn:Ex; [|reflexivity]. apply id_eqb_eq in Ex. subst x. rewrite Tk.
      enough (held b k = 0) by lia. destruct W as [N _]. cbn in N. inversion N as [|? ? X _]. unfold held.
      assert (F : h_find k b = None) by (apply h_find_none; intros I; apply X; rewrite map_app; apply in_or_app; now left). now rewrite F.
    + intros _. exists [], k, v, items. split; [reflexivity|]. split; [exact Tk|]. split.
      * unfold inv_erase in E. unfold held. destruct (h_find k m) as [x|]; [|destruct (v >? 0) eqn:G; [lia|discriminate]].
        destruct (x <? v) eqn:G; [lia|]. unfold q_sub in E. rewrite G in E. discriminate.
      * intros x. unfold held at 3. cbn. destruct (is_T x); lia.
  - intros R. destruct (IH m V Vi R) as (b & p & q & a & -> & Tp & L & T). exists ((k, v) :: b), p, q, a. split; [reflexivity|]. split; [exact Tp|]. split; [exact L|].
    intros x. rewrite T, held_cons. destruct (id_eqb k x) eqn:Ex; [|reflexivity]. apply id_eqb_eq in Ex. subst x. now rewrite Tk.
Qed.
Lemma part_taken_all items m : valid m -> valid items -> snd (erase_from items m) = true -> part_taken (fun _ => true) items m (fst (erase_from items m)).
Proof.
  intros V Vi S. destruct (erase_from_prefix items ltac:(destruct Vi as [_ F]; eapply Forall_impl; [|exact F]; intros x X; cbn in X; unfold u64 in X; lia) m S) as (b & p & q & a & E & D & L).
  exists b, p, q, a. split; [exact E|]. split; [reflexivity|]. rewrite E in Vi. destruct (erase_from_held b m V (valid_app_l _ _ Vi)) as (_ & H & _). rewrite D in H. cbn [fst snd] in H. destruct (H eq_refl) as [_ T].
  split; [|exact T]. rewrite T, (held_not_before _ _ _ _ Vi) in L. lia.
Qed.
Section Roles.
Context (is_kind : nat -> identity -> bool) (self : identity).
Lemma refused_by h t o o' : valid (kept h o) -> proper t -> call_handler is_kind self t h o = (o', Throw) ->
  self = transferor t /\ part_taken (concerns is_kind h) (transferred t) (kept h o) (kept h o') /\ forall x, x <> h -> kept x o' = kept x o.
Proof.
  intros V [W N] C. destruct h as [k|]; cbn [call_handler kept] in *.
  - unfold process_typed in C. destruct (id_eqb self (transferor t)) eqn:E; [|destruct (id_eqb self (transferee t)); discriminate]. apply id_eqb_eq in E.
    destruct (typed_erase (is_kind k) (transferred t) (fst o k)) as [m| |] eqn:T; try discriminate. injection C as <-. split; [exact E|]. split.
    + cbn [kept set_view fst]. destruct (Nat.eq_dec k k); [|contradiction]. now apply part_taken_typed.
    + intros [j|] J; cbn [kept set_view fst snd]; [|reflexivity]. destruct (Nat.eq_dec j k); [congruence|reflexivity].
  - unfold process_transfer in C. rewrite (id_eqb_neq _ _ N) in C. destruct (id_eqb self (transferor t)) eqn:E; [|destruct (id_eqb self (transferee t)); discriminate]. apply id_eqb_eq in E.
    destruct (erase_from (transferred t) (snd o)) as [m []] eqn:F; [|discriminate]. injection C as <-. split; [exact E|]. split.
    + cbn [kept snd fst]. pose proof (part_taken_all (transferred t) (snd o) V W) as P. rewrite F in P. apply P. reflexivity.
    + intros [j|] J; [reflexivity|congruence].
Qed.
Lemma done_by h t o o' : valid (kept h o) -> proper t -> self = transferor t -> call_handler is_kind self t h o = (o', Ret tt) ->
  taken (concerns is_kind h) (transferred t) (kept h o) (kept h o') /\ forall x, x <> h -> kept x o' = kept x o.
Proof.
  intros V [W N] E C. destruct h as [k|]; cbn [call_handler kept] in *.
  - unfold process_typed in C. rewrite E, id_eqb_refl in C. destruct (typed_erase (is_kind k) (transferred t) (fst o k)) as [m| |] eqn:T; try discriminate. injection C as <-. split.
    + cbn [set_view fst]. destruct (Nat.eq_dec k k); [|contradiction]. destruct (typed_erase_held _ _ _ _ V W T) as (_ & H & _). intros p. rewrite H. cbn [concerns]. destruct (is_kind k p); lia.
    + intros [j|] J; cbn [kept set_view fst snd]; [|reflexivity]. destruct (Nat.eq_dec j k); [congruence|reflexivity].
  - unfold process_transfer in C. rewrite (id_eqb_neq _ _ N), E, id_eqb_refl in C. destruct (erase_from_held (transferred t) (snd o) V W) as (_ & H & _).
    destruct (erase_from (transferred t) (snd o)) as [m []] eqn:F; [discriminate|]. injection C as <-. split; [exact (proj2 (H eq_refl))|]. intros [j|] J; [reflexivity|congruence].
Qed.
Lemma others_kept h t o : forall x, x <> h -> kept x (fst (call_handler is_kind self t h o)) = kept x o.
Proof.
  intros [j|] J; destruct h as [k|]; cbn [call_handler]; try (destruct (process_typed (is_kind k) self t (fst o k))); try (destruct (process_transfer self t (snd o))); cbn [kept set_view fst snd]; try reflexivity; try congruence;
    destruct (Nat.eq_dec j k); congruence.
Qed.
Lemma refused t : proper t -> forall hs o o', NoDup hs -> (forall h, In h hs -> valid (kept h o)) -> call_handlers is_kind self t hs o = (o', Throw) ->
  self = transferor t /\ exists before h after, hs = before ++ h :: after /\
  (forall x, In x before -> taken (concerns is_kind x) (transferred t) (kept x o) (kept x o')) /\
  part_taken (concerns is_kind h) (transferred t) (kept h o) (kept h o') /\
  (forall x, ~ In x (before ++ [h]) -> kept x o' = kept x o).
Proof.
  intros P. induction hs as [|h hs IH]; intros o o' N V C; cbn [call_handlers] in C; [discriminate|]. inversion N as [|? ? Nh Ns]; subst.
  pose proof (others_kept h t o) as K. destruct (call_handler is_kind self t h o) as [o1 s] eqn:E. cbn [fst] in K. destruct s as [[]| |]; [| |discriminate].
  - assert (V1 : forall x, In x hs -> valid (kept x o1)) by (intros x X; rewrite K; [apply V; now right | intros ->; contradiction]).
    destruct (IH o1 o' Ns V1 C) as (T & b & g & a & -> & B & G & A). split; [exact T|]. exists (h :: b), g, a. split; [reflexivity|].
    destruct (done_by h t o o1 (V h ltac:(now left)) P T E) as [D _].
    assert (Ng : g <> h) by (intros ->; apply Nh, in_or_app; right; now left).
    split; [|split].
    + intros x [<-|X].
      * rewrite (A h); [exact D|]. intros I. apply Nh. apply in_app_or in I. apply in_or_app. destruct I as [I|[I|[]]]; [now left|right; now left].
      * rewrite <- (K x); [now apply B|]. intros ->. apply Nh, in_or_app. now left.
    + rewrite <- (K g Ng). exact G.
    + intros x X. rewrite A by (intros I; apply X; now right). apply K. intros ->. apply X. now left.
  - injection C as <-. destruct (refused_by h t o o1 (V h ltac:(now left)) P E) as (T & D & _). split; [exact T|]. exists [], h, hs. split; [reflexivity|]. split; [intros x []|]. split; [exact D|].
    intros x X. apply K. intros ->. apply X. now left.
Qed.
Lemma history_valid hs : NoDup hs -> forall o, role_history is_kind self hs o -> forall h, In h hs -> valid (kept h o).
Proof.
  intros N o. induction 1 as [|o t o' H IH [W D] C]; intros h I.
  - destruct h; (split; [constructor | constructor]).
  - specialize (IH h I). destruct h as [k|]; cbn [kept] in *.
    + destruct (calls_view is_kind self t hs k N _ _ C) as [V _]. specialize (V I). unfold process_typed in V. destruct (id_eqb self (transferor t)); [|destruct (id_eqb self (transferee t))].
      * apply (typed_erase_held _ _ _ _ IH W V).
      * injection V as <-. now apply typed_insert_held.
      * injection V as <-. exact IH.
    + destruct (calls_inventory is_kind self t hs N _ _ C) as [V _]. specialize (V I). unfold process_transfer in V. destruct (id_eqb (transferor t) (transferee t)); [injection V as <-; exact IH|].
      destruct (id_eqb self (transferor t)); [|destruct (id_eqb self (transferee t))].
      * destruct (erase_from_held (transferred t) (snd o) IH W) as (X & _). destruct (erase_from (transferred t) (snd o)) as [m []]; [discriminate|]. now injection V as <-.
      * injection V as <-. now apply insert_into_held.
      * injection V as <-. exact IH.
Qed.
End Roles.
