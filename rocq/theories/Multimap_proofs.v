From Verif Require Import Base Multimap.
From Verif Require Export Multimap_spec.
From Coq Require Import ZifyBool.

Definition key_lt {V} (x y : Z * V) : Prop := fst x < fst y.
Definition key_is {V} (k : Z) (x : Z * V) : bool := fst x =? k.

Lemma mm_insert_perm {V} k (v : V) l : Permutation (mm_insert k v l) (l ++ [(k, v)]).
Proof.
  induction l as [|[k' v'] l IH]; cbn; [reflexivity|]. destruct (k' <=? k); [now rewrite IH|].
  change ((k', v') :: l ++ [(k, v)]) with (((k', v') :: l) ++ [(k, v)]). apply Permutation_cons_append.
Qed.
Lemma mm_insert_sorted {V} k (v : V) l : StronglySorted key_le l -> StronglySorted key_le (mm_insert k v l).
Proof.
  induction 1 as [|[k' v'] l Hs IH Hf]; cbn; [repeat constructor|]. destruct (k' <=? k) eqn:E.
  - constructor; [exact IH|]. apply (Permutation_Forall (Permutation_sym (mm_insert_perm k v l))). apply Forall_app. split; [exact Hf|]. constructor; [|constructor]. unfold key_le. cbn. lia.
  - constructor; [constructor; assumption|]. constructor; [unfold key_le; cbn; lia|]. eapply Forall_impl; [|exact Hf]. unfold key_le. cbn. intros; lia.
Qed.
Lemma filter_none {A} (f : A -> bool) l : Forall (fun x => f x = false) l -> filter f l = [].
Proof. induction 1 as [|x l H Hl IH]; cbn; [reflexivity|]. now rewrite H. Qed.
Lemma filter_all {A} (f : A -> bool) l : Forall (fun x => f x = true) l -> filter f l = l.
Proof. induction 1 as [|x l H Hl IH]; cbn; [reflexivity|]. now rewrite H, IH. Qed.
Lemma mm_insert_filter {V} k (v : V) l p : StronglySorted key_le l ->
  filter (key_is p) (mm_insert k v l) = filter (key_is p) l ++ (if k =? p then [(k, v)] else []).
Proof.
  induction 1 as [|[k' v'] l Hs IH Hf]; cbn.
  - unfold key_is at 1. cbn. destruct (k =? p); reflexivity.
  - destruct (k' <=? k) eqn:E; cbn.
    + rewrite IH. destruct (key_is p (k', v')); reflexivity.
    + unfold key_is at 1. cbn. destruct (Z.eqb_spec k p) as [->|Hn].
      * assert (key_is p (k', v') = false) as -> by (unfold key_is; cbn; lia).
        rewrite (filter_none (key_is p) l); [reflexivity|]. eapply Forall_impl; [|exact Hf]. unfold key_le, key_is. cbn. intros; lia.
      * now rewrite app_nil_r.
Qed.
(** Building a multimap from a sequence is a stable sort. *)
Definition mm_of {V} (l : list (Z * V)) : list (Z * V) := fold_left (fun m kv => mm_insert (fst kv) (snd kv) m) l [].
Lemma mm_of_spec {V} (l : list (Z * V)) :
  StronglySorted key_le (mm_of l) /\ Permutation (mm_of l) l /\ forall p, filter (key_is p) (mm_of l) = filter (key_is p) l.
Proof.
  induction l as [|[k v] l (Hs & Hp & Hf)] using rev_ind; [repeat split; constructor|].
  unfold mm_of in *. rewrite fold_left_app. cbn [fold_left fst snd]. set (m := fold_left _ l []) in *. split; [|split].
  - now apply mm_insert_sorted.
  - rewrite mm_insert_perm. apply Permutation_app_tail. exact Hp.
  - intros p. rewrite mm_insert_filter by exact Hs. rewrite filter_app, Hf. f_equal.
Qed.

Lemma fm_find_set {V} k (v : V) l k' : StronglySorted key_lt l -> fm_find k' (fm_set k v l) = if k =? k' then Some v else fm_find k' l.
Proof.
  induction 1 as [|[x y] l Hs IH Hf]; cbn.
  - destruct (k <? k') eqn:?, (k =? k') eqn:?; try reflexivity; lia.
  - destruct (x <? k) eqn:E1; cbn.
    + rewrite IH. destruct (x <? k') eqn:?, (x =? k') eqn:?, (k =? k') eqn:?; try reflexivity; lia.
    + destruct (x =? k) eqn:E2; cbn.
      * assert (x = k) by lia. subst x. destruct (k <? k') eqn:?, (k =? k') eqn:?; try reflexivity; lia.
      * destruct (k <? k') eqn:?, (k =? k') eqn:?; try reflexivity; try lia.
        destruct (x <? k') eqn:?, (x =? k') eqn:?; try reflexivity; lia.
Qed.
Lemma fm_set_sorted {V} k (v : V) l : StronglySorted key_lt l -> StronglySorted key_lt (fm_set k v l).
Proof.
  induction 1 as [|[x y] l Hs IH Hf]; cbn; [repeat constructor|].
  destruct (x <? k) eqn:E1.
  - constructor; [exact IH|]. clear IH Hs. induction Hf as [|[x' y'] l H Hf IH]; cbn; [constructor; [unfold key_lt; cbn; lia|constructor]|].
    unfold key_lt in *. cbn in *.
    destruct (x' <? k) eqn:E; [constructor; auto|]. destruct (x' =? k); constructor; cbn; try lia; auto.
  - destruct (x =? k) eqn:E2.
    + constructor; [exact Hs|]. eapply Forall_impl; [|exact Hf]. unfold key_lt. cbn. intros; lia.
    + constructor; [constructor; assumption|]. constructor; [unfold key_lt; cbn; lia|]. eapply Forall_impl; [|exact Hf]. unfold key_lt. cbn. intros; lia.
Qed.
Lemma fm_set_same {V} k (v : V) l : fm_find k l = Some v -> fm_set k v l = l.
Proof.
  induction l as [|[x y] l IH]; cbn; [discriminate|]. destruct (x <? k); [intros H; now rewrite IH|].
  destruct (Z.eqb_spec x k) as [->|]; [intros [= ->]; reflexivity|discriminate].
Qed.
