From Verif Require Import Base Text Identity Identity_proofs Quantity Money CheckDigits Belongings Belongings_spec.
From Coq Require Import ZifyBool ZifyNat.
Local Open Scope Z_scope.

Section Put.
Context (cc lc : Z).
Notation same := (same_property cc lc).
Lemma same_iff a b : same a b = true <-> identify cc lc a = identify cc lc b.
Proof. unfold same_property. apply id_eqb_eq. Qed.

(** [P] looks at the identity only, for the things in [l] and [m]. *)
Definition respects (P : thing -> bool) (l : list thing) : Prop := forall t u, In t l -> In u l -> same t u = true -> P t = P u.

Definition nonneg (m : list (thing * Z)) := Forall (fun tq => 0 <= snd tq) m.
Lemma total_nonneg m : nonneg m -> 0 <= zsum (map snd m).
Proof. induction 1 as [|[t q] m H _ IH]; cbn [map zsum fold_right snd] in *; [easy|]. unfold zsum in IH. lia. Qed.
Lemma put_keys t q m u : In u (map fst (put cc lc t q m)) -> u = t \/ In u (map fst m).
Proof.
  induction m as [|[k x] m IH]; cbn [put map fst In].
  - intros [<-|[]]. now left.
  - destruct (same k t); cbn [map fst In]; [now intros [<-|H]; right; [left|right]|].
    intros [<-|H]; [now right; left|]. destruct (IH H); [now left|now right; right].
Qed.
Lemma put_props P t q m : nonneg m -> 0 <= q -> zsum (map snd m) + q < W64 -> respects P (t :: map fst m) ->
  nonneg (put cc lc t q m) /\ zsum (map snd (put cc lc t q m)) = zsum (map snd m) + q /\
  amount_held P (put cc lc t q m) = amount_held P m + (if P t then q else 0).
Proof.
  unfold amount_held, zsum. induction m as [|[k x] m IH]; intros N Q B R.
  - cbn [put map snd filter fst fold_right]. split; [repeat constructor; exact Q|]. split; [lia|]. destruct (P t); cbn [map snd fold_right]; lia.
  - inversion_clear N as [|? ? Hx N']. cbn [snd] in Hx. pose proof (total_nonneg _ N') as T; unfold zsum in T. cbn [put]. cbn [map snd fold_right] in B. 
    destruct (same k t) eqn:E.
    + assert (Hq : q_add x q = x + q). { unfold q_add, w64. rewrite Z.mod_small; [reflexivity|]. unfold W64 in *. lia. }
      rewrite Hq. split; [constructor; [cbn [snd]; lia|exact N']|]. split; [cbn [map snd fold_right]; lia|].
      assert (PE : P t = P k). { symmetry. apply R; [now right; left|now left|exact E]. }
      rewrite PE. cbn [filter fst]. destruct (P k); cbn [map snd fold_right]; lia.
    + destruct IH as (I1 & I2 & I3); [exact N'|exact Q|lia| |].
      * intros a b Ha Hb. apply R; destruct Ha, Hb; (now left) || (now right; right).
      * split; [constructor; [exact Hx|exact I1]|]. split; [cbn [map snd fold_right]; lia|].
        cbn [filter fst]. destruct (P k); cbn [map snd fold_right]; lia.
Qed.
Lemma put_all_props P l : forall m, nonneg m -> nonneg l -> zsum (map snd m) + zsum (map snd l) < W64 -> respects P (map fst l ++ map fst m) ->
  amount_held P (put_all cc lc l m) = amount_held P m + deposited P l.
Proof.
  unfold put_all, amount_held, deposited, zsum. induction l as [|[t q] l IH]; intros m N L B R; cbn [fold_left fst snd].
  - cbn [filter map zsum fold_right]. lia.
  - inversion_clear L as [|? ? Hq L']. cbn [snd] in Hq. cbn [map snd fold_right] in B.  pose proof (total_nonneg _ L') as T; unfold zsum in T.
    destruct (put_props P t q m N Hq) as (I1 & I2 & I3); [unfold zsum; lia| |].
    { intros a b Ha Hb. apply R; cbn [map fst app]; destruct Ha, Hb; ((now left) || (right; apply in_or_app; now right)). }
    unfold zsum in I2. rewrite IH; [|exact I1|exact L'|lia|].
    + unfold amount_held, zsum in I3. rewrite I3. cbn [filter fst]. destruct (P t); cbn [map snd fold_right]; lia.
    + intros a b Ha Hb. assert (G : forall u, In u (map fst l ++ map fst (put cc lc t q m)) -> In u (map fst ((t, q) :: l) ++ map fst m)).
      { intros u Hu. apply in_app_or in Hu. cbn [map fst app]. destruct Hu as [Hu|Hu]; [right; apply in_or_app; now left|].
        destruct (put_keys _ _ _ _ Hu) as [->|H]; [now left|right; apply in_or_app; now right]. }
      apply R; now apply G.
Qed.
Lemma deposits_held P l : fits l -> respects P (map fst l) -> amount_held P (put_all cc lc l []) = deposited P l.
Proof.
  intros [N B] R. rewrite put_all_props; [reflexivity|constructor|exact N|exact B|cbn [map]; rewrite app_nil_r; exact R].
Qed.

(** Things with one identity: one entry. *)
Lemma one_entry t q l : fits ((t, q) :: l) -> Forall (fun uq => same t (fst uq) = true) l ->
  put_all cc lc ((t, q) :: l) [] = [(t, q + zsum (map snd l))].
Proof.
  unfold fits, put_all, zsum. intros [N B] A. cbn [fold_left put fst snd]. inversion_clear N as [|? ? Hq N']. cbn [snd] in Hq. cbn [map snd fold_right] in B. 
  revert q Hq B. induction l as [|[u x] l IH]; intros q Hq B; cbn [fold_left fst snd]; [cbn [map fold_right]; now rewrite Z.add_0_r|].
  inversion_clear A as [|? ? Hu A']. inversion_clear N' as [|? ? Hx N'']. cbn [fst snd] in Hu, Hx. cbn [map snd fold_right] in B |- *. 
  pose proof (total_nonneg _ N'') as T; unfold zsum in T. cbn [put]. rewrite Hu.
  assert (E : q_add q x = q + x). { unfold q_add, w64. rewrite Z.mod_small; [reflexivity|unfold W64 in *; lia]. }
  rewrite E, (IH A' N''); [do 2 f_equal; lia|lia|lia].
Qed.

(** *** Sets *)
Lemma insert_into_free s : forall m, (forall i j t u, nth_error s i = Some t -> nth_error s j = Some u -> same t u = true -> i = j) ->
  (forall t kx, In t s -> In kx m -> same (fst kx) t = false) -> set_insert_into cc lc s m = (m ++ map (fun t => (t, 1)) s, false).
Proof.
  induction s as [|t s IH]; intros m D F; cbn [set_insert_into map]; [now rewrite app_nil_r|].
  destruct (existsb (fun kx => same (fst kx) t) m) eqn:E.
  - apply existsb_exists in E. destruct E as (kx & Hk & Hs). rewrite (F t kx (or_introl eq_refl) Hk) in Hs. discriminate.
  - rewrite IH.
    + now rewrite <- app_assoc.
    + intros i j a b Hi Hj Hs. pose proof (D (S i) (S j) a b Hi Hj Hs). lia.
    + intros u kx Hu Hk. apply in_app_or in Hk. destruct Hk as [Hk|[<-|[]]]; [apply F; [now right|exact Hk]|]. cbn [fst].
      destruct (same t u) eqn:S1; [|reflexivity]. apply In_nth_error in Hu. destruct Hu as [n Hn]. pose proof (D 0%nat (S n) t u eq_refl Hn S1). lia.
Qed.
Lemma insert_into_refuses s : forall m m', set_insert_into cc lc s m = (m', false) -> forall t kx, In t s -> In kx m -> same (fst kx) t = false.
Proof.
  induction s as [|t s IH]; intros m m' H u kx Hu Hk; [easy|]. cbn [set_insert_into] in H.
  destruct (existsb (fun kx => same (fst kx) t) m) eqn:E; [discriminate|]. destruct Hu as [<-|Hu].
  - destruct (same (fst kx) t) eqn:S1; [|reflexivity]. assert (X : existsb (fun kx => same (fst kx) t) m = true) by (apply existsb_exists; exists kx; now split). now rewrite X in E.
  - apply (IH _ _ H u kx Hu). apply in_or_app. now left.
Qed.
End Put.

(** *** Currencies *)
Lemma hash_letters c d : 65 <= c0 c <= 90 -> 65 <= c1 c <= 90 -> 65 <= c2 c <= 90 -> 65 <= c0 d <= 90 -> 65 <= c1 d <= 90 -> 65 <= c2 d <= 90 ->
  ccy_hash c = ccy_hash d -> c0 c = c0 d /\ c1 c = c1 d /\ c2 c = c2 d.
Proof.
  intros. assert (G : forall e, 65 <= c0 e <= 90 -> 65 <= c1 e <= 90 -> 65 <= c2 e <= 90 -> ccy_hash e = c0 e - 65 + 26 * c1 e - 65 + 676 * c2 e - 65).
  { intros e E0 E1 E2. unfold ccy_hash, w64, W64. rewrite !Z.mod_small; lia. }
  rewrite !G in H5 by assumption. lia.
Qed.

(** *** Classes of shares *)
Lemma class_eqb_eq a b : class_eqb a b = true <-> a = b.
Proof.
  unfold class_eqb. destruct a as [a1 a2 a3 a4 a5 a6], b as [b1 b2 b3 b4 b5 b6]; cbn [rank votes preference pays cumulative redeemable].
  rewrite !andb_true_iff, !Z.eqb_eq, !Bool.eqb_true_iff. split; [intros (((((-> & ->) & ->) & ->) & ->) & ->); reflexivity|intros E; injection E; intuition].
Qed.
Fixpoint ascending (m : list (share_class * Z)) : Prop :=
  match m with [] => True | (k, _) :: m' => (forall kx, In kx m' -> rank k < rank (fst kx)) /\ ascending m' end.
Lemma assign_in s n m kx : In kx (class_assign s n m) -> kx = (s, n) \/ rank (fst kx) = rank s \/ In kx m.
Proof.
  induction m as [|[k x] m IH]; cbn [class_assign]; [intros [<-|[]]; now left|]. unfold class_ltb in *.
  destruct (rank k <? rank s) eqn:A; [intros [<-|H]; [now right; right; left|destruct (IH H) as [|[|]]; [now left|now right; left|now right; right; right]]|].
  destruct (rank s <? rank k) eqn:B; [intros [<-|H]; [now left|now right; right]|].
  intros [<-|H]; [right; left; cbn [fst]; lia|now right; right; right].
Qed.
Lemma assign_ascending s n m : ascending m -> ascending (class_assign s n m).
Proof.
  induction m as [|[k x] m IH]; cbn [class_assign ascending]; [now split|]. intros [H1 H2]. unfold class_ltb in *.
  destruct (rank k <? rank s) eqn:A.
  - split; [|now apply IH]. intros kx Hk. destruct (assign_in _ _ _ _ Hk) as [->|[E|E]]; [cbn [fst]; lia|lia|now apply H1].
  - destruct (rank s <? rank k) eqn:B; cbn [ascending]; [|now split].
    split; [|now split]. intros kx [<-|Hk]; cbn [fst]; [lia|]. specialize (H1 kx Hk). lia.
Qed.
Lemma find_assign s n m u : ascending m -> class_find u (class_assign s n m) = if rank s =? rank u then Some n else class_find u m.
Proof.
  induction m as [|[k x] m IH]; cbn [class_assign ascending]; intros A.
  - cbn [class_find]. unfold class_ltb. destruct (rank s <? rank u) eqn:X, (rank u <? rank s) eqn:Y, (rank s =? rank u) eqn:Z; try reflexivity; lia.
  - destruct A as [H1 H2]. specialize (IH H2). unfold class_ltb in *. destruct (rank k <? rank s) eqn:X.
    + cbn [class_find]. unfold class_ltb. destruct (rank k <? rank u) eqn:Y; [exact IH|]. assert (rank s =? rank u = false) as -> by lia. reflexivity.
    + destruct (rank s <? rank k) eqn:Y; cbn [class_find]; unfold class_ltb.
      * destruct (rank s <? rank u) eqn:P; [assert (rank s =? rank u = false) as -> by lia; reflexivity|].
        destruct (rank u <? rank s) eqn:Q; [assert (rank s =? rank u = false) as -> by lia|assert (rank s =? rank u = true) as -> by lia; reflexivity].
        assert (rank k <? rank u = false) as -> by lia. assert (rank u <? rank k = true) as -> by lia. reflexivity.
      * destruct (rank k <? rank u) eqn:P; [assert (rank s =? rank u = false) as -> by lia; reflexivity|].
        destruct (rank u <? rank k) eqn:Q; [assert (rank s =? rank u = false) as -> by lia; reflexivity|assert (rank s =? rank u = true) as -> by lia; reflexivity].
Qed.
Definition class_assign_all (l : list (share_class * Z)) (m : list (share_class * Z)) := fold_left (fun m kx => class_assign (fst kx) (snd kx) m) l m.
(** The last assignment to the rank. *)
Fixpoint last_ranked (s : share_class) (l : list (share_class * Z)) : option Z :=
  match l with [] => None | (k, n) :: l' => match last_ranked s l' with Some x => Some x | None => if rank k =? rank s then Some n else None end end.
Lemma find_assign_all l : forall m s, ascending m -> class_find s (class_assign_all l m) = match last_ranked s l with Some x => Some x | None => class_find s m end.
Proof.
  unfold class_assign_all. induction l as [|[k n] l IH]; intros m s A; cbn [fold_left fst snd last_ranked]; [reflexivity|].
  rewrite IH by now apply assign_ascending. destruct (last_ranked s l); [reflexivity|]. rewrite find_assign by exact A. now destruct (rank k =? rank s).
Qed.
Lemma last_ranked_assigned s l : (forall k n, In (k, n) l -> rank k = rank s -> k = s) -> last_ranked s l = last_assigned s l.
Proof.
  induction l as [|[k n] l IH]; intros D; cbn [last_ranked last_assigned]; [reflexivity|]. rewrite IH by (intros a x Ha; apply (D a x); now right).
  destruct (last_assigned s l); [reflexivity|]. destruct (rank k =? rank s) eqn:E.
  - assert (k = s) as -> by (apply (D k n (or_introl eq_refl)); lia). now rewrite (proj2 (class_eqb_eq s s) eq_refl).
  - destruct (class_eqb k s) eqn:F; [|reflexivity]. apply class_eqb_eq in F. subst k. lia.
Qed.
