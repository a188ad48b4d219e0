(** Property theorems C23, C24, C75. *)
From Verif Require Import Base BlockPool BlockPool_spec BlockPool_proofs.
From Coq Require Import ZifyBool ZifyNat.

(** C23.  Any capacity, values and history (of at most about 2^64 / 3 capacity stores). *)
Theorem C23_live_elements : forall (A : Type) (default : A) capacity p live handed,
  history default capacity p live handed -> few capacity handed ->
  Forall (fun x => 0 <= fst x mod capacity < capacity /\ read p (fst x) = snd x) live /\
  NoDup (map (fun x => fst x mod capacity) live) /\
  size_ p = Z.of_nat (length live) /\ Z.of_nat (length live) <= capacity /\
  StronglySorted (fun a b => b < a) handed /\ (forall x, In x live -> In (fst x) handed).
Proof.
  intros A d c p live handed H F. destruct (history_inv d c p live handed H F) as (free & I). destruct (inv_slots _ _ _ _ _ I) as [S1 S2]. destruct I. repeat split; auto.
  - rewrite Forall_forall in *. intros x Hx. split; [exact (S2 x Hx)|]. apply (i_live x Hx).
  - apply Permutation_length in i_perm. rewrite app_length, map_length, seq_length in i_perm. lia.
  - apply i_handed.
  - intros x Hx. rewrite Forall_forall in i_from. now apply i_from.
Qed.
Print Assumptions C23_live_elements.
(** Storing fails exactly when the pool is full; otherwise it takes a slot no live element has and a
    handle above all earlier ones.  Erasing a live element always works. *)
Theorem C23_store_and_erase : forall (A : Type) (default : A) capacity p live handed e,
  history default capacity p live handed -> few capacity (0 :: handed) ->
  (store p e = Throw <-> Z.of_nat (length live) = capacity) /\ store p e <> UB /\
  (forall p' h, store p e = Ret (p', h) -> ~ In (h mod capacity) (map (fun x => fst x mod capacity) live) /\ Forall (fun x => x < h) handed /\
     forall x, In x live -> read p' (fst x) = snd x) /\
  (forall x, In x live -> exists p', erase p (fst x) = (p', 1) /\ forall y, In y live -> y <> x -> read p' (fst y) = snd y).
Proof.
  intros A d c p live handed e H F.
  assert (C : 0 < c). { clear - H. induction H; auto. unfold new_pool in H. destruct (Z.leb_spec c 0); [discriminate|lia]. }
  pose proof (few_weaken c 0 handed C F) as F0. destruct (history_inv d c p live handed H F0) as (free & I).
  assert (L : Z.of_nat (length live) <= c) by (destruct I; apply Permutation_length in i_perm; rewrite app_length, map_length, seq_length in i_perm; lia).
  assert (Er : forall x, In x live -> exists p', erase p (fst x) = (p', 1) /\ forall y, In y live -> y <> x -> read p' (fst y) = snd y).
  { intros [h v] Hx. apply in_split in Hx. destruct Hx as (l1 & l2 & ->). destruct (erase_inv _ _ _ _ _ _ _ _ I) as (p' & E & I' & _).
    exists p'. split; [exact E|]. intros y Hy Hne. destruct I'. rewrite Forall_forall in i_live. apply (i_live y).
    apply in_app_or in Hy. apply in_or_app. cbn in Hy. intuition congruence. }
  destruct (Z_lt_dec (size_ p) c) as [Hlt|Hge].
  - destruct (store_inv c p live handed free e I F Hlt) as (p' & h & free' & E & Ef & I' & Hh). rewrite E. split; [split; [discriminate|intros X; destruct I; lia]|]. split; [discriminate|]. split; [|exact Er].
    intros p2 h2 [= <- <-]. destruct (inv_slots _ _ _ _ _ I') as [N _]. cbn [map fst] in N. inversion N as [|? ? N1 N2]; subst. split; [exact N1|]. split.
    + destruct I'. destruct i_handed as [S _]. inversion S; subst. assumption.
    + intros x Hx. destruct I'. rewrite Forall_forall in i_live. apply (i_live x). right. exact Hx.
  - assert (E : store p e = Throw) by (unfold store; rewrite emplace_full; [reflexivity|destruct I; lia]). rewrite E. split; [split; [intros _; destruct I; lia|reflexivity]|].
    split; [discriminate|]. split; [discriminate|exact Er].
Qed.
Print Assumptions C23_store_and_erase.
Definition stored (p : pool Z) (e : Z) : pool Z := match store p e with Ret (p', _) => p' | _ => p end.
Definition fresh_pool : pool Z := match new_pool 0 3 with Ret p => p | _ => mk_pool (fun _ => mk_block 0 0 None) 0 None None 0 0 0 0 end.
Lemma history_stored c p live handed e h : history 0 c p live handed -> store p e = Ret (stored p e, h) -> history 0 c (stored p e) ((h, e) :: live) (h :: handed).
Proof. intros H E. eapply h_store; eauto. Qed.
Example C23_case : exists p, history 0 3 p [(4, 14); (3, 13); (2, 12)] [4; 3; 2; 1; 0] /\ few 3 [0; 4; 3; 2; 1; 0] /\ read p 4 = 14 /\ store p 15 = Throw.
Proof.
  set (p3 := stored (stored (stored fresh_pool 10) 11) 12).
  exists (stored (stored (fst (erase (fst (erase p3 1)) 0)) 13) 14). split; [|vm_compute; repeat split].
  apply history_stored with (h := 4); [|reflexivity]. apply history_stored with (h := 3); [|reflexivity].
  eapply (h_erase _ _ _ [_] 0 10 []); [|apply surjective_pairing]. eapply (h_erase _ _ _ [_] 1 11 [_]); [|apply surjective_pairing].
  apply history_stored with (h := 2); [|reflexivity]. apply history_stored with (h := 1); [|reflexivity]. apply history_stored with (h := 0); [|reflexivity]. constructor. reflexivity.
Qed.

(** C24: refuted.  After erasing one element twice, two later elements share a slot. *)
Theorem C24_double_erase_harmless_refuted : exists (p0 : pool Z) live handed h e l, history 0 3 p0 live handed /\ live = (h, e) :: l /\
  let p2 := fst (erase (fst (erase p0 h)) h) in
  exists p3 h3 p4 h4, store p2 13 = Ret (p3, h3) /\ store p3 14 = Ret (p4, h4) /\ h3 <> h4 /\ read p3 h3 = 13 /\ read p4 h3 = 14.
Proof.
  exists (stored (stored fresh_pool 10) 11), [(1, 11); (0, 10)], [1; 0], 1, 11, [(0, 10)]. split.
  - apply history_stored with (h := 1); [|reflexivity]. apply history_stored with (h := 0); [|reflexivity]. constructor. reflexivity.
  - split; [reflexivity|]. cbv zeta. do 4 eexists. split; [vm_compute; reflexivity|]. split; [vm_compute; reflexivity|]. vm_compute. repeat split. discriminate.
Qed.
Print Assumptions C24_double_erase_harmless_refuted.
(** In every history: after a double erasure all further elements get that same slot. *)
Theorem C24_double_erase_corrupts : forall (A : Type) (default : A) capacity p l1 h e l2 handed p1 r1 p2 r2,
  history default capacity p (l1 ++ (h, e) :: l2) handed -> few capacity handed ->
  erase p h = (p1, r1) -> erase p1 h = (p2, r2) ->
  forall e3 p3 h3 e4 p4 h4, store p2 e3 = Ret (p3, h3) -> store p3 e4 = Ret (p4, h4) ->
    end_ p2 = Some (slot p h) /\ end_ p3 = Some (slot p h) /\ end_ p4 = Some (slot p h) /\ b_data (blocks p4 (slot p h)) = e4.
Proof.
  intros A d c p l1 h e l2 handed p1 r1 p2 r2 H F E1 E2 e3 p3 h3 e4 p4 h4 S3 S4. destruct (history_inv d c p _ handed H F) as (free & I).
  destruct (double_erase _ _ _ _ _ _ _ _ _ _ _ _ I E1 E2) as (A1 & A2 & A3).
  assert (C : 0 < cap p) by (destruct I; lia). pose proof (slot_lt p h C) as Sl.
  destruct (store_self_loop p2 e3 p3 h3 (slot p h)) as (B1 & B2 & B3 & _); try assumption; try lia.
  destruct (store_self_loop p3 e4 p4 h4 (slot p h)) as (D1 & D2 & D3 & D4); try assumption; try lia. auto.
Qed.
Print Assumptions C24_double_erase_corrupts.
(** Erasing is harmless exactly when the slot no longer carries the handle. *)
Theorem C24_stale_handle_ignored : forall (A : Type) (p : pool A) h, b_index (blocks p (slot p h)) <> h -> erase p h = (p, 0).
Proof. intros A p h H. unfold erase. destruct (Z.eqb_spec (b_index (blocks p (slot p h))) h); [contradiction|reflexivity]. Qed.
Print Assumptions C24_stale_handle_ignored.
Example C24_case : let p := stored (fst (erase (stored fresh_pool 10) 0)) 20 in b_index (blocks p (slot p 0)) = 3 /\ erase p 0 = (p, 0).
Proof. split; reflexivity. Qed.

(** C75.  The pool by itself (emplace and erase only): [emplace] never records the handle. *)
Inductive bare_history {A : Type} (default : A) (capacity : Z) : pool A -> Prop :=
| b_new p : new_pool default capacity = Ret p -> bare_history default capacity p
| b_emplace p e p' h i : bare_history default capacity p -> emplace p e = Ret (p', h, i) -> bare_history default capacity p'
| b_erase p h p' r : bare_history default capacity p -> erase p h = (p', r) -> bare_history default capacity p'.
Theorem C75_erase_ignores_handles : forall (A : Type) (default : A) capacity p h,
  bare_history default capacity p -> h <> 0 -> erase p h = (p, 0).
Proof.
  intros A d c p h H Hh. apply C24_stale_handle_ignored.
  assert (G : forall i, b_index (blocks p i) = 0); [|rewrite G; congruence].
  clear h Hh. induction H as [p H|p e p' h i H IH E|p h p' r H IH E]; intros j.
  - unfold new_pool in H. destruct (c <=? 0); [discriminate|]. injection H as <-. reflexivity.
  - unfold emplace in E. destruct (size_ p >=? cap p); [discriminate|]. destruct (end_ p) as [k|]; [|discriminate].
    repeat match type of E with context [let '(_, _) := (if ?b then _ else _) in _] => destruct b end; injection E as <- <- <-; cbn; unfold set_block; destruct (Nat.eqb j k); cbn; apply IH.
  - unfold erase in E. destruct (b_index (blocks p (slot p h)) =? h); cbn [negb] in E; [|injection E as <- <-; apply IH].
    destruct (size_ p =? 0); injection E as <- <-; cbn; unfold set_block; destruct (Nat.eqb j (slot p h)); cbn; apply IH.
Qed.
Print Assumptions C75_erase_ignores_handles.
(** So the pool's own unit test fails: five elements, the handle 3 erased, a sixth placed. *)
Theorem C75_erase_by_returned_handle_refuted : exists (p : pool Z) h, bare_history 0 5 p /\
  (exists p0 e i, bare_history 0 5 p0 /\ emplace p0 e = Ret (p, h, i)) /\ erase p h = (p, 0) /\ emplace (fst (erase p h)) 6 = Throw.
Proof.
  set (put := fun (p : pool Z) e => match emplace p e with Ret (p', _, _) => p' | _ => p end).
  set (p0 := match new_pool 0 5 with Ret p => p | _ => fresh_pool end).
  assert (H : forall p e, bare_history 0 5 p -> bare_history 0 5 (put p e)).
  { intros p e Hp. unfold put. destruct (emplace p e) as [[[p' h'] i']| |] eqn:E; [|exact Hp|exact Hp]. eapply b_emplace; eauto. }
  assert (H0 : bare_history 0 5 p0) by (constructor; reflexivity).
  exists (put (put (put (put (put p0 0) 1) 2) 3) 4), 4. split; [auto 10|]. split; [|split; reflexivity].
  exists (put (put (put (put p0 0) 1) 2) 3), 4, 4%nat. split; [auto 10|reflexivity].
Qed.
Print Assumptions C75_erase_by_returned_handle_refuted.

(** Two elements are placed, with the handles 0 and 1: only the handle 0 erases. *)
Example C75_case : exists p0 p1 (p2 : pool Z) i j, new_pool 0 3 = Ret p0 /\ emplace p0 10 = Ret (p1, 0, i) /\ emplace p1 20 = Ret (p2, 1, j) /\
  erase p2 1 = (p2, 0) /\ size_ p2 = 2 /\ size_ (fst (erase p2 0)) = 1.
Proof.
  eexists _, _, _, _, _. split; [vm_compute; reflexivity|]. split; [vm_compute; reflexivity|]. split; [vm_compute; reflexivity|].
  split; [vm_compute; reflexivity|]. split; vm_compute; reflexivity.
Qed.
