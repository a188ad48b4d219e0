(** C231: copies of block pools. *)
From Coq Require Import ZifyBool ZifyNat.
From Verif Require Import Base BlockPool PoolCopies PoolCopies_proofs.

(** Nothing can be stored in a copy of a pool that has room left, whatever was done with the pool before. *)
Theorem C231_store_refuted {A} (p : pool A) e : size_ p < cap p -> c_store (copy_pool p) e = UB.
Proof.
  intros H. unfold c_store, copy_pool. cbn. destruct (Z.geb_spec (size_ p) (cap p)); [lia|]. now destruct (end_ p).
Qed.
Print Assumptions C231_store_refuted.

(** What can be done with a copy is done as with the pool itself: the handles, the numbers of elements erased, the elements
    read and the size are the same, and so is the refusal of an element when it is full. *)
Theorem C231_same {A} (p : pool A) xs :
  match history c_operate (copy_pool p) xs with
  | Ret (c, rs) => exists p', history pool_operate p xs = Ret (p', rs) /\ (forall h, c_read c h = read p' h) /\ c_size c = size_ p'
  | Throw => history pool_operate p xs = Throw
  | UB => True
  end.
Proof.
  pose proof (alike_history xs p (copy_pool p) (alike_copy p)) as H. destruct (history c_operate (copy_pool p) xs) as [[c rs]| |]; auto.
  destruct H as (p' & E & L). exists p'. split; [exact E|]. split; [intros h; now apply alike_read|]. symmetry. apply L.
Qed.
Print Assumptions C231_same.
(** An element erased from a copy makes room for another one: storing it is defined. *)
Theorem C231_replaced {A} (d : A) n p0 ops p rs xs c rs' h c' e :
  new_pool d n = Ret p0 -> n < W64 -> history pool_operate p0 ops = Ret (p, rs) ->
  history c_operate (copy_pool p) xs = Ret (c, rs') -> c_erase c h = (c', 1) ->
  exists c2 k, c_store c' e = Ret (c2, k).
Proof.
  intros H0 W H1 H2 H3. unfold new_pool in H0. destruct (Z.leb_spec n 0) as [|P]; [discriminate|]. injection H0 as <-.
  apply history_size in H1; cbn; try lia. cbn in H1. destruct H1 as (C & S).
  pose proof (alike_history xs p (copy_pool p) (alike_copy p)) as L. rewrite H2 in L. destruct L as (p' & E & L).
  apply history_size in E; try lia. destruct E as (C' & S'). destruct L as (_ & Lc & _ & _ & _ & _ & Ls).
  unfold c_erase in H3. destruct (negb _); [discriminate|]. destruct (c_size c =? 0) eqn:Z0; [discriminate|]. injection H3 as <-.
  unfold c_store. cbn. destruct (Z.geb_spec (c_size c - 1) (c_cap c)); [lia|].
  destruct (if c_back c >? _ then _ else _) as [r1 k1]. destruct (if k1 >? c_cap c then _ else _) as [r2 k2].
  destruct (if _ <? c_highest c then _ else _) as [r3 a3]. eauto.
Qed.
Print Assumptions C231_replaced.
(** A copy of a pool filled to its capacity can be used without restriction: whatever is defined for the pool is for the copy. *)
Theorem C231_full {A} (d : A) n p0 es xs :
  new_pool d n = Ret p0 -> n < W64 -> Z.of_nat (length es) = n ->
  exists p rs, history pool_operate p0 (map Store es) = Ret (p, rs) /\
    (history c_operate (copy_pool p) xs = UB -> history pool_operate p xs = UB).
Proof.
  intros H0 W L. unfold new_pool in H0. destruct (Z.leb_spec n 0) as [|P]; [discriminate|]. injection H0 as <-.
  destruct (fill es (mk_pool (fun i => mk_block d 0 (if Z.of_nat i + 1 <? n then Some (S i) else None)) n (Some 0%nat) (Some 0%nat) 0 0 0 0) 0 n d)
    as (p & rs & H & E & C & S); cbn; auto; try lia.
  { destruct (Z.ltb_spec 0 n); [reflexivity|lia]. }
  exists p, rs. split; [exact H|]. intros U. apply (settled_history xs p (copy_pool p)); [apply alike_copy| |exact U].
  exists (fun _ => False). cbn. rewrite E. cbn. split; [exact I|contradiction].
Qed.
Print Assumptions C231_full.

(** A pool for three elements holding 10 and 20; its copy: nothing can be added, but 10 can be replaced by 30, which the
    original does not see; a second element cannot be added after that. *)
Example C231_case :
  exists p0 p, new_pool 0 3 = Ret p0 /\ history pool_operate p0 [Store 10; Store 20] = Ret (p, [0; 1]) /\
  (exists p', history pool_operate p [Store 30] = Ret (p', [2])) /\
  history c_operate (copy_pool p) [Store 30] = UB /\
  (exists c, history c_operate (copy_pool p) [Erase 0; Store 30] = Ret (c, [1; 3]) /\ c_read c 3 = 30 /\ c_read c 1 = 20 /\ read p 0 = 10) /\
  history c_operate (copy_pool p) [Erase 0; Store 30; Store 40] = UB.
Proof.
  eexists. eexists. repeat split; try (vm_compute; reflexivity); eexists; repeat split; vm_compute; reflexivity.
Qed.
(** A full pool: elements can be exchanged in the copy. *)
Example C231_case_full :
  exists p0 p, new_pool 0 2 = Ret p0 /\ history pool_operate p0 (map Store [10; 20]) = Ret (p, [0; 1]) /\
  exists c, history c_operate (copy_pool p) [Erase 1; Erase 0; Store 30; Store 40] = Ret (c, [1; 1; 2; 3]) /\ c_read c 3 = 40.
Proof. do 2 eexists. split; [vm_compute; reflexivity|]. split; [vm_compute; reflexivity|]. eexists. split; vm_compute; reflexivity. Qed.
