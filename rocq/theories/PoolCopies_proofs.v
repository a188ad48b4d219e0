(** Facts about copies of block pools. *)
From Coq Require Import ZifyBool ZifyNat.
From Verif Require Import Base BlockPool PoolCopies.

Section S.
Context {A : Type}.
Implicit Types (p : pool A) (c : cpool A).
Definition position (x : pointer) : nat := match x with Own i | Foreign i => i end.
(** A copy is in the state of a pool, but for which blocks it points to and where it begins. *)
Definition alike p c : Prop :=
  (forall i, b_data (blocks p i) = c_data (c_blocks c i) /\ b_index (blocks p i) = c_index (c_blocks c i) /\
             b_next (blocks p i) = option_map position (c_next (c_blocks c i))) /\
  cap p = c_cap c /\ end_ p = option_map position (c_end c) /\ round_ p = c_round c /\ back_ p = c_back c /\
  highest_ p = c_highest c /\ size_ p = c_size c.
Lemma alike_copy p : alike p (copy_pool p).
Proof.
  unfold alike, copy_pool. cbn. repeat split; try (now destruct (end_ p)). now destruct (b_next (blocks p i)).
Qed.
Lemma alike_read p c h : alike p c -> c_read c h = read p h.
Proof. intros (B & C & _). unfold c_read, read, c_slot, slot. rewrite C. symmetry. apply B. Qed.
Lemma alike_store p c e : alike p c ->
  match c_store c e with
  | Ret (c', h) => exists p', store p e = Ret (p', h) /\ alike p' c'
  | Throw => store p e = Throw
  | UB => size_ p < cap p
  end.
Proof.
  intros (B & C & E & R & K & H & S). unfold c_store, store, emplace. rewrite C, E, R, K, H, S.
  destruct (c_size c >=? c_cap c) eqn:F; [reflexivity|]. destruct (c_end c) as [[i|i]|]; try lia. cbn [option_map position].
  destruct (if c_back c >? Z.of_nat i then _ else _) as [r1 k1]. destruct (if k1 >? c_cap c then _ else _) as [r2 k2].
  destruct (if _ <? c_highest c then _ else _) as [r3 a3].
  eexists. split; [reflexivity|]. destruct (B i) as (D1 & D2 & D3). unfold alike, set_index, set_block, c_set. cbn. rewrite Nat.eqb_refl. cbn.
  split; [|rewrite D3; auto 10]. intros j. destruct (Nat.eqb_spec j i) as [->|]; [cbn; auto|]. apply B.
Qed.
Lemma alike_erase p c h : alike p c -> alike (fst (erase p h)) (fst (c_erase c h)) /\ snd (erase p h) = snd (c_erase c h).
Proof.
  intros AL. pose proof AL as (B & C & E & R & K & H & S). unfold erase, c_erase, slot, c_slot. rewrite C.
  set (i := Z.to_nat (h mod c_cap c)). destruct (B i) as (D1 & D2 & D3). rewrite D2.
  destruct (negb (c_index (c_blocks c i) =? h)); [auto|]. rewrite S.
  destruct (c_size c =? 0); (split; [|reflexivity]); unfold alike, set_block, c_set; cbn; (split; [|repeat split; auto; lia]);
    intros j; (destruct (Nat.eqb_spec j i) as [->|]; [cbn; auto|apply B]).
Qed.
Lemma alike_history xs : forall p c, alike p c ->
  match history c_operate c xs with
  | Ret (c', rs) => exists p', history pool_operate p xs = Ret (p', rs) /\ alike p' c'
  | Throw => history pool_operate p xs = Throw
  | UB => True
  end.
Proof.
  induction xs as [|x xs IH]; intros p c L; cbn [history]; [eauto|].
  destruct x as [e|h]; cbn [c_operate pool_operate].
  - pose proof (alike_store p c e L) as T. destruct (c_store c e) as [[c1 r]| |]; [|now rewrite T|exact I].
    destruct T as (p1 & -> & L1). specialize (IH p1 c1 L1). destruct (history c_operate c1 xs) as [[c2 rs]| |]; [|now rewrite IH|exact I].
    destruct IH as (p2 & -> & L2). eauto.
  - destruct (alike_erase p c h L) as (L1 & Q). destruct (erase p h) as [p1 r]. destruct (c_erase c h) as [c1 r']. cbn [fst snd] in *. subst r'.
    specialize (IH p1 c1 L1). destruct (history c_operate c1 xs) as [[c2 rs]| |]; [|now rewrite IH|exact I].
    destruct IH as (p2 & -> & L2). eauto.
Qed.
(** A copy all of whose free blocks are its own. *)
Definition settled c : Prop := exists S : nat -> Prop,
  let own x := match x with Some (Own i) => S i | Some (Foreign _) => False | None => True end in
  own (c_end c) /\ forall i, S i -> own (c_next (c_blocks c i)).
Lemma settled_store c e c' h : settled c -> c_store c e = Ret (c', h) -> settled c'.
Proof.
  intros (S & E & N) H. unfold c_store in H. destruct (c_size c >=? c_cap c); [discriminate|]. destruct (c_end c) as [[i|i]|]; try discriminate.
  destruct (if c_back c >? Z.of_nat i then _ else _) as [r1 k1]. destruct (if k1 >? c_cap c then _ else _) as [r2 k2].
  destruct (if _ <? c_highest c then _ else _) as [r3 a3]. injection H as <- <-. exists S. cbn. split; [exact (N i E)|].
  intros j Sj. unfold c_set. destruct (Nat.eqb_spec j i) as [->|]; [exact (N i E)|exact (N j Sj)].
Qed.
Lemma settled_erase c h : settled c -> settled (fst (c_erase c h)).
Proof.
  intros (S & E & N). unfold c_erase. destruct (negb _); [now exists S|]. set (i := c_slot c h).
  destruct (c_size c =? 0); exists (fun j => S j \/ j = i); cbn; (split; [now right|]); intros j Sj; unfold c_set;
    (destruct (Nat.eqb_spec j i) as [->|]; cbn;
     [destruct (c_end c) as [[k|k]|]; cbn; auto | destruct Sj as [Sj|]; [|contradiction]; specialize (N j Sj); destruct (c_next (c_blocks c j)) as [[k|k]|]; auto]).
Qed.
Lemma settled_ub p c e : alike p c -> settled c -> c_store c e = UB -> store p e = UB.
Proof.
  intros (B & C & E & R & K & H & Z) (S & O & _). unfold c_store, store, emplace. rewrite C, Z, E.
  destruct (c_size c >=? c_cap c); [discriminate|]. destruct (c_end c) as [[i|i]|]; [|contradiction|reflexivity].
  destruct (if c_back c >? Z.of_nat i then _ else _) as [r1 k1]. destruct (if k1 >? c_cap c then _ else _) as [r2 k2].
  destruct (if _ <? c_highest c then _ else _) as [r3 a3]. discriminate.
Qed.
Lemma settled_history xs : forall p c, alike p c -> settled c -> history c_operate c xs = UB -> history pool_operate p xs = UB.
Proof.
  induction xs as [|x xs IH]; intros p c L S; cbn [history]; [discriminate|]. destruct x as [e|h]; cbn [c_operate pool_operate].
  - pose proof (alike_store p c e L) as T. pose proof (settled_ub p c e L S) as U. pose proof (settled_store c e) as V.
    destruct (c_store c e) as [[c1 r]| |]; [|discriminate|intros _; now rewrite (U eq_refl)].
    destruct T as (p1 & -> & L1). specialize (V c1 r S eq_refl). specialize (IH p1 c1 L1 V).
    destruct (history c_operate c1 xs) as [[c2 rs]| |]; try discriminate. intros _. now rewrite (IH eq_refl).
  - destruct (alike_erase p c h L) as (L1 & Q). pose proof (settled_erase c h S) as V. destruct (erase p h) as [p1 r]. destruct (c_erase c h) as [c1 r']. cbn [fst snd] in *.
    specialize (IH p1 c1 L1 V). destruct (history c_operate c1 xs) as [[c2 rs]| |]; try discriminate. intros _. now rewrite (IH eq_refl).
Qed.
(** The size never exceeds the capacity. *)
Lemma history_size xs : forall p p' rs, history pool_operate p xs = Ret (p', rs) -> cap p < W64 -> 0 <= size_ p <= cap p -> cap p' = cap p /\ 0 <= size_ p' <= cap p'.
Proof.
  induction xs as [|x xs IH]; intros p p' rs H W S; cbn [history] in H; [injection H as <- <-; auto|].
  assert (G : forall p1 r, pool_operate p x = Ret (p1, r) -> cap p1 = cap p /\ 0 <= size_ p1 <= cap p1).
  { intros p1 r G. destruct x as [e|h]; cbn [pool_operate] in G.
    - unfold store, emplace in G. destruct (size_ p >=? cap p) eqn:F; [discriminate|]. destruct (end_ p) as [i|]; [|discriminate].
      destruct (if back_ p >? Z.of_nat i then _ else _) as [r1 k1]. destruct (if k1 >? cap p then _ else _) as [r2 k2].
      destruct (if _ <? highest_ p then _ else _) as [r3 a3]. injection G as <- <-. cbn. unfold w64. rewrite Z.mod_small by lia. lia.
    - unfold erase in G. destruct (negb _); [injection G as <- <-; auto|]. destruct (size_ p =? 0) eqn:Z0; injection G as <- <-; cbn; lia. }
  destruct (pool_operate p x) as [[p1 r]| |]; try discriminate. destruct (G p1 r eq_refl) as (C1 & S1).
  destruct (history pool_operate p1 xs) as [[p2 rs2]| |] eqn:E; try discriminate. injection H as <- <-.
  destruct (IH p1 p2 rs2 E ltac:(lia) S1) as (C2 & S2). split; [lia|exact S2].
Qed.
(** Filling a new pool. *)
Lemma fill es : forall p k n d, cap p = n -> n < W64 -> size_ p = Z.of_nat k -> Z.of_nat k <= n ->
  (forall i, b_next (blocks p i) = if Z.of_nat i + 1 <? n then Some (S i) else None) -> end_ p = (if Z.of_nat k <? n then Some k else None) ->
  Z.of_nat (length es) = n - Z.of_nat k -> (d : A) = d ->
  exists p' rs, history pool_operate p (map Store es) = Ret (p', rs) /\ end_ p' = None /\ cap p' = n /\ size_ p' = n.
Proof.
  induction es as [|e es IH]; intros p k n d C W S K N E L D; cbn [map history pool_operate length] in *.
  - exists p, []. repeat split; auto; [|lia]. rewrite E. destruct (Z.ltb_spec (Z.of_nat k) n); [lia|reflexivity].
  - unfold store, emplace. rewrite C, S, E. destruct (Z.geb_spec (Z.of_nat k) n); [lia|]. destruct (Z.ltb_spec (Z.of_nat k) n); [|lia].
    destruct (if back_ p >? Z.of_nat k then _ else _) as [r1 k1]. destruct (if k1 >? n then _ else _) as [r2 k2].
    destruct (if _ <? highest_ p then _ else _) as [r3 a3].
    match goal with |- context [history pool_operate ?q (map Store es)] => destruct (IH q (Datatypes.S k) n d) as (p' & rs & H' & T) end; cbn; auto; try lia.
    + unfold w64. rewrite Z.mod_small by lia. lia.
    + intros j. unfold set_block. destruct (Nat.eqb_spec j k) as [->|]; cbn; [rewrite Nat.eqb_refl; cbn|]; apply N.
    + rewrite N. replace (Z.of_nat k + 1) with (Z.of_nat (Datatypes.S k)) by lia. reflexivity.
    + rewrite H'. eauto.
Qed.
End S.
