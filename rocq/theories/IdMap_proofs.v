From Verif Require Import Base Identity Identity_proofs IdMap.
From Verif Require Export IdMap_spec.

Lemma id_tri a b : id_ltb a b = true \/ a = b \/ id_ltb b a = true.
Proof. pose proof (id_trichotomy a b). tauto. Qed.
Section P.
Context {V : Type}.
Implicit Types (m : idmap V) (i j k : identity).

Lemma id_asym i j : id_ltb i j = true -> id_ltb j i = false.
Proof. intros H. destruct (id_ltb j i) eqn:E; [|reflexivity]. pose proof (id_ltb_trans _ _ _ H E) as C. rewrite id_ltb_irrefl in C. discriminate. Qed.
Lemma id_not_lt i j : id_ltb i j = false -> id_ltb j i = false -> i = j.
Proof. intros H1 H2. destruct (id_tri i j) as [H|[H|H]]; congruence. Qed.

Lemma im_find_set i v m j : im_sorted m -> im_find j (im_set i v m) = if id_eqb i j then Some v else im_find j m.
Proof.
  intros Hs. destruct (id_eqb i j) eqn:Eij.
  - apply id_eqb_eq in Eij. subst j. induction m as [|[k x] m IH]; cbn; [now rewrite id_ltb_irrefl|].
    inversion Hs; subst. destruct (id_ltb k i) eqn:E; [cbn; rewrite E; auto|]. destruct (id_ltb i k) eqn:F; cbn; [now rewrite id_ltb_irrefl|]. now rewrite E, F.
  - assert (Hn : i <> j) by (intros ->; assert (id_eqb j j = true) by (now apply id_eqb_eq); congruence). clear Eij.
    induction Hs as [|[k x] m Hs IH Hf]; cbn.
    + destruct (id_ltb i j) eqn:E; [reflexivity|]. destruct (id_ltb j i) eqn:F; [reflexivity|]. exfalso. apply Hn. now apply id_not_lt.
    + destruct (id_ltb k i) eqn:E; [cbn; rewrite IH; reflexivity|]. destruct (id_ltb i k) eqn:F; cbn.
      * destruct (id_ltb i j) eqn:G; [reflexivity|]. destruct (id_ltb j i) eqn:G2; [|exfalso; apply Hn; now apply id_not_lt].
        rewrite (id_asym _ _ (id_ltb_trans _ _ _ G2 F)), (id_ltb_trans _ _ _ G2 F). reflexivity.
      * pose proof (id_not_lt _ _ E F); subst k. destruct (id_ltb i j) eqn:G; [reflexivity|]. destruct (id_ltb j i) eqn:G2; [reflexivity|exfalso; apply Hn; now apply id_not_lt].
Qed.
Lemma im_set_sorted i v m : im_sorted m -> im_sorted (im_set i v m).
Proof.
  intros Hs. induction Hs as [|[k x] m Hs IH Hf]; cbn; [repeat constructor|].
  destruct (id_ltb k i) eqn:E.
  - constructor; [exact IH|]. clear IH Hs. induction m as [|[k' x'] m IHm]; cbn; [constructor; [exact E|constructor]|].
    inversion Hf; subst. destruct (id_ltb k' i); [constructor; auto|]. destruct (id_ltb i k'); [constructor; [exact E|assumption]|constructor; assumption].
  - destruct (id_ltb i k) eqn:F.
    + constructor; [constructor; assumption|]. constructor; [exact F|]. eapply Forall_impl; [|exact Hf]. cbn. intros a H. eapply id_ltb_trans; eauto.
    + constructor; assumption.
Qed.
Lemma im_find_in i m v : im_sorted m -> (im_find i m = Some v <-> In (i, v) m).
Proof.
  intros Hs. induction Hs as [|[k x] m Hs IH Hf]; cbn; [split; [discriminate|contradiction]|].
  rewrite Forall_forall in Hf. destruct (id_ltb k i) eqn:E.
  - rewrite IH. split; [auto|]. intros [[= -> ->]|H]; [rewrite id_ltb_irrefl in E; discriminate|exact H].
  - destruct (id_ltb i k) eqn:F.
    + split; [discriminate|]. intros [[= -> ->]|H]; [rewrite id_ltb_irrefl in F; discriminate|].
      specialize (Hf _ H). cbn in Hf. rewrite Hf in E. discriminate.
    + pose proof (id_not_lt _ _ E F); subst k. split; [intros [= ->]; auto|]. intros [[= ->]|H]; [reflexivity|].
      specialize (Hf _ H). cbn in Hf. rewrite id_ltb_irrefl in Hf. discriminate.
Qed.
Lemma im_find_none i m : im_sorted m -> (im_find i m = None <-> ~ In i (map fst m)).
Proof.
  intros Hs. split.
  - intros H Hi. apply in_map_iff in Hi. destruct Hi as ([k v] & E & Hi). cbn in E. subst k. apply im_find_in in Hi; [congruence|exact Hs].
  - intros H. destruct (im_find i m) eqn:E; [|reflexivity]. apply im_find_in in E; [|exact Hs]. exfalso. apply H. apply in_map_iff. exists (i, v). auto.
Qed.
Lemma im_keys_nodup m : im_sorted m -> NoDup (map fst m).
Proof.
  induction 1 as [|[k v] m Hs IH Hf]; cbn; constructor; [|exact IH]. intros Hi. apply in_map_iff in Hi. destruct Hi as (x & E & Hi).
  rewrite Forall_forall in Hf. specialize (Hf _ Hi). cbn in Hf. rewrite E, id_ltb_irrefl in Hf. discriminate.
Qed.
(** Sorted maps are determined by their contents. *)
Lemma im_ext m1 m2 : im_sorted m1 -> im_sorted m2 -> (forall i, im_find i m1 = im_find i m2) -> m1 = m2.
Proof.
  intros H1. revert m2. induction H1 as [|[k x] m1 Hs IH Hf]; intros m2 H2 He.
  - destruct m2 as [|[k x] m2]; [reflexivity|]. specialize (He k). cbn in He. rewrite id_ltb_irrefl in He. discriminate.
  - destruct m2 as [|[k2 x2] m2]; [specialize (He k); cbn in He; rewrite id_ltb_irrefl in He; discriminate|].
    inversion H2 as [|? ? Hs2 Hf2]; subst.
    assert (k = k2 /\ x = x2) as [<- <-].
    { assert (L : forall a x m, Forall (fun y : identity * V => id_ltb a (fst y) = true) m -> im_find a ((a, x) :: m) = Some x) by (intros; cbn; now rewrite id_ltb_irrefl).
      pose proof (He k) as E1. cbn in E1. rewrite id_ltb_irrefl in E1. pose proof (He k2) as E2. cbn in E2. rewrite id_ltb_irrefl in E2.
      destruct (id_ltb k2 k) eqn:A.
      - destruct (id_ltb k k2) eqn:B; [pose proof (id_asym _ _ A); congruence|discriminate].
      - destruct (id_ltb k k2) eqn:B; [discriminate|]. split; [now apply id_not_lt|congruence]. }
    f_equal. apply IH; [exact Hs2|]. intros i. specialize (He i). cbn in He. destruct (id_ltb k i) eqn:E; [exact He|].
    assert (Hlt : forall m, Forall (fun y : identity * V => id_ltb k (fst y) = true) m -> im_find i m = None).
    { intros m Hm. destruct m as [|[a b] m]; [reflexivity|]. inversion Hm as [|? ? Ha]; subst. cbn in Ha |- *.
      assert (Hia : id_ltb i a = true). { destruct (id_tri k i) as [G|[<-|G]]; [congruence|exact Ha|eapply id_ltb_trans; eauto]. }
      now rewrite (id_asym _ _ Hia), Hia. }
    rewrite (Hlt m1 Hf), (Hlt m2 Hf2). reflexivity.
Qed.
Lemma im_set_keys i v m : im_sorted m -> im_find i m <> None -> map fst (im_set i v m) = map fst m.
Proof.
  intros Hs. induction Hs as [|[k x] m Hs IH Hf]; cbn; [congruence|]. destruct (id_ltb k i); [intros H; cbn; now rewrite IH|].
  destruct (id_ltb i k); [congruence|reflexivity].
Qed.
Lemma im_emplace_sorted i v m : im_sorted m -> im_sorted (im_emplace i v m).
Proof. intros H. unfold im_emplace. destruct (im_find i m); [exact H|now apply im_set_sorted]. Qed.
Lemma im_find_emplace i v m j : im_sorted m -> im_find j (im_emplace i v m) =
  if id_eqb i j then Some match im_find i m with Some x => x | None => v end else im_find j m.
Proof.
  intros H. unfold im_emplace. destruct (im_find i m) eqn:E.
  - destruct (id_eqb i j) eqn:F; [apply id_eqb_eq in F; now subst|reflexivity].
  - rewrite im_find_set by exact H. reflexivity.
Qed.
End P.
Lemma id_eqb_refl i : id_eqb i i = true. Proof. now apply id_eqb_eq. Qed.
Lemma id_eqb_neq i j : i <> j -> id_eqb i j = false.
Proof. intros H. destruct (id_eqb i j) eqn:E; [apply id_eqb_eq in E; contradiction|reflexivity]. Qed.
Lemma id_eqb_sym i j : id_eqb i j = id_eqb j i.
Proof. destruct (id_eqb i j) eqn:E; symmetry; [apply id_eqb_eq in E; subst; apply id_eqb_refl|]. apply id_eqb_neq. intros ->. rewrite id_eqb_refl in E. discriminate. Qed.
