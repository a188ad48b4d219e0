(** Proofs for the algorithms. *)
From Verif Require Import Base BlockingQueue BlockingQueue_proofs ThreadPool_proofs Algorithms Algorithms_spec.
From Coq Require Import ZifyBool ZifyNat.

Lemma mod_mul_mod a b m : (a mod m * b) mod m = (a * b) mod m.
Proof. destruct (Z.eq_dec m 0) as [->|]; [now rewrite !Zmod_0_r|]. apply Zmult_mod_idemp_l. Qed.
Lemma power_from_spec w x : 1 <= w -> 0 <= x < 2 ^ w -> forall fuel p, 0 <= p < 2 ^ Z.of_nat fuel -> power_from (S fuel) w x p = Some (x ^ p mod 2 ^ w).
Proof.
  intros Hw Hx. assert (P : 0 < 2 ^ w) by lia.
  assert (P1 : 1 mod 2 ^ w = 1). { apply Z.mod_small. assert (2 ^ 1 <= 2 ^ w) by (apply Z.pow_le_mono_r; lia). lia. }
  induction fuel as [|fuel IH]; intros p Hp.
  - replace p with 0 by (cbn in Hp; lia). rewrite Z.pow_0_r, P1. reflexivity.
  - remember (S fuel) as k. cbn [power_from]. destruct (Z.eqb_spec p 0) as [->|]; [rewrite Z.pow_0_r, P1; reflexivity|]. destruct (Z.eqb_spec p 1) as [->|]; [rewrite Z.pow_1_r, Z.mod_small by lia; reflexivity|].
    rewrite IH. 2:{ rewrite Heqk, Nat2Z.inj_succ, Z.pow_succ_r in Hp by lia. split; [apply Z.div_pos; lia|]. apply Z.div_lt_upper_bound; lia. }
    pose proof (Z.div_mod p 2 ltac:(lia)) as D. pose proof (Z.mod_pos_bound p 2 ltac:(lia)). assert (0 <= p / 2) by (apply Z.div_pos; lia).
    destruct (Z.eqb_spec (p mod 2) 0) as [E|E].
    + f_equal. rewrite <- Zmult_mod. rewrite <- Z.pow_add_r by lia. do 2 f_equal. lia.
    + assert (E1 : p mod 2 = 1) by lia. f_equal. rewrite Zmult_mod_idemp_l. rewrite Zmult_mod_idemp_r.
      rewrite <- Z.mul_assoc, (Z.mul_comm (_ mod _)), Z.mul_assoc, Zmult_mod_idemp_r.
      rewrite <- Z.mul_assoc, <- Z.pow_add_r by lia. rewrite <- Z.pow_succ_r by lia. do 2 f_equal. lia.
Qed.
Lemma power_spec w x p : 1 <= w -> 0 <= x < 2 ^ w -> 0 <= p < 2 ^ w -> nonnegative_integer_power w x p = Some (x ^ p mod 2 ^ w).
Proof.
  intros Hw Hx Hp. unfold nonnegative_integer_power. rewrite Nat.add_1_r. apply power_from_spec; auto. rewrite Z2Nat.id by lia. exact Hp.
Qed.

Section Arrays.
Context {E : Type} (zero : E).
Lemma update_app_l {X} (l1 l2 : list X) k x : (k < length l1)%nat -> update (l1 ++ l2) k x = update l1 k x ++ l2.
Proof. revert k. induction l1 as [|y l1 IH]; intros [|k] H; cbn in *; try lia; auto. now rewrite IH by lia. Qed.
Lemma update_app_r {X} (l1 l2 : list X) k x : update (l1 ++ l2) (length l1 + k) x = l1 ++ update l2 k x.
Proof. induction l1 as [|y l1 IH]; cbn; [reflexivity|now rewrite IH]. Qed.
(** A loop that fills a stretch. *)
Lemma fill (f : nat -> E) n : forall pre rest start off, (n <= length rest)%nat -> (off + length pre = start)%nat ->
  fold_left (fun r i => update r (i - off) (f i)) (seq start n) (pre ++ rest) = pre ++ map f (seq start n) ++ skipn n rest.
Proof.
  induction n as [|n IH]; intros pre rest start off H Hs; [reflexivity|]. destruct rest as [|e rest]; [cbn in H; lia|]. cbn [seq fold_left map skipn].
  replace (start - off)%nat with (length pre + 0)%nat by lia. rewrite update_app_r. cbn [update].
  replace (pre ++ f start :: rest) with ((pre ++ [f start]) ++ rest) by (now rewrite <- app_assoc).
  rewrite IH; [|cbn in H; lia|rewrite app_length; cbn; lia]. now rewrite <- app_assoc.
Qed.
Lemma map_nth_seq (l : list E) : forall pre, map (fun i => nth i (pre ++ l) zero) (seq (length pre) (length l)) = l.
Proof.
  induction l as [|e l IH]; intros pre; [reflexivity|]. cbn [length seq map]. rewrite app_nth2, Nat.sub_diag by lia. cbn [nth]. f_equal.
  specialize (IH (pre ++ [e])). rewrite app_length, <- app_assoc in IH. cbn [app length] in IH. rewrite Nat.add_1_r in IH. exact IH.
Qed.
Lemma seq_map_sub k n : forall m, map (fun i => (i - k)%nat) (seq (k + m) n) = seq m n.
Proof. induction n as [|n IH]; intros m; [reflexivity|]. cbn. f_equal; [lia|]. replace (S (k + m)) with (k + S m)%nat by lia. apply IH. Qed.
Lemma concatenate_spec (a b : list E) : array_concatenate zero a b = a ++ b.
Proof.
  unfold array_concatenate, assign.
  assert (F1 : fold_left (fun r i => update r i (nth i a zero)) (seq 0 (length a)) (repeat zero (length a + length b)) = a ++ repeat zero (length b)).
  { pose proof (fill (fun i => nth i a zero) (length a) [] (repeat zero (length a + length b)) 0 0) as F. cbn [app] in F.
    transitivity (fold_left (fun r i => update r (i - 0) (nth i a zero)) (seq 0 (length a)) (repeat zero (length a + length b))).
    { generalize (repeat zero (length a + length b)), (seq 0 (length a)). intros l0 l. revert l0. induction l as [|i l IH]; intros l0; cbn; [reflexivity|]. now rewrite Nat.sub_0_r, IH. }
    rewrite F; [|rewrite repeat_length; lia|reflexivity]. f_equal; [exact (map_nth_seq a [])|]. rewrite repeat_app, skipn_app, skipn_all2, repeat_length, Nat.sub_diag; [reflexivity|rewrite repeat_length; lia]. }
  rewrite F1.
  assert (F2 : forall l (r : list E), fold_left (fun r i => update r i (nth (i - length a) b zero)) l r = fold_left (fun r i => update r (i - 0) (nth (i - length a) b zero)) l r).
  { induction l as [|i l IH]; intros r; cbn; [reflexivity|]. now rewrite Nat.sub_0_r, IH. }
  rewrite F2. rewrite (fill (fun i => nth (i - length a) b zero) (length b) a (repeat zero (length b)) (length a) 0); [|rewrite repeat_length; lia|lia].
  rewrite skipn_all2, app_nil_r by (rewrite repeat_length; lia). f_equal.
  rewrite <- (map_map (fun i => (i - length a)%nat) (fun i => nth i b zero)). pose proof (seq_map_sub (length a) (length b) 0) as Q. rewrite Nat.add_0_r in Q. rewrite Q. exact (map_nth_seq b []).
Qed.
Lemma slice_spec (start stop : nat) (a : list E) : (start <= stop <= length a)%nat -> array_slice zero start stop a = Some (firstn (stop - start) (skipn start a)).
Proof.
  intros H. unfold array_slice, assign. replace (Nat.leb stop (length a) && Nat.leb start stop) with true by lia. f_equal.
  pose proof (fill (fun i => nth i a zero) (stop - start) [] (repeat zero (stop - start)) start start) as Q. cbn [app] in Q. rewrite Q; [|rewrite repeat_length; lia|cbn; lia]. clear Q.
  rewrite skipn_all2, app_nil_r by (rewrite repeat_length; lia).
  set (pre := firstn start a). set (mid := firstn (stop - start) (skipn start a)).
  assert (Ea : a = pre ++ mid ++ skipn (stop - start) (skipn start a)) by (unfold pre, mid; now rewrite (firstn_skipn (stop - start)), firstn_skipn).
  assert (Lp : length pre = start) by (unfold pre; rewrite firstn_length; lia). assert (Lm : length mid = (stop - start)%nat) by (unfold mid; rewrite firstn_length, skipn_length; lia).
  rewrite <- (map_nth_seq mid pre). rewrite Lp, Lm. apply map_ext_in. intros i Hi. apply in_seq in Hi. rewrite Ea at 1. rewrite app_assoc. rewrite app_nth1; [reflexivity|]. rewrite app_length. lia.
Qed.
Lemma slice_none (start stop : nat) (a : list E) : ~ (start <= stop <= length a)%nat -> array_slice zero start stop a = None.
Proof. intros H. unfold array_slice. now replace (Nat.leb stop (length a) && Nat.leb start stop) with false by lia. Qed.
End Arrays.
Lemma enumerate_from_spec {E} (l : list E) : forall i, enumerate_from i l = combine (seq i (length l)) l.
Proof. induction l as [|e l IH]; intros i; cbn; [reflexivity|]. now rewrite IH. Qed.

(** *** The simplex grid. *)
Lemma zsum_app a b : zsum (a ++ b) = zsum a + zsum b.
Proof. induction a as [|x a IH]; [change (zsum b = 0 + zsum b); lia|]. change (zsum ((x :: a) ++ b)) with (x + zsum (a ++ b)). change (zsum (x :: a)) with (x + zsum a). lia. Qed.
Lemma ideal_succ d divisions r : ideal_samples (S (S d)) divisions r =
  Some (barycentric_loop Z.of_nat Z.sub Z.gtb (fun r => match ideal_samples (S d) divisions r with Some l => l | None => [] end) divisions 0 r).
Proof. reflexivity. Qed.
Lemma loop_in (rec : Z -> list (list Z)) k : forall n r c, In c (barycentric_loop Z.of_nat Z.sub Z.gtb rec k n r) <->
  exists m t, (n <= m < n + k)%nat /\ Z.of_nat m <= r /\ c = t ++ [Z.of_nat m] /\ In t (rec (r - Z.of_nat m)).
Proof.
  induction k as [|k IH]; intros n r c; cbn [barycentric_loop].
  - split; [intros []|intros (m & t & H & _); lia].
  - destruct (Z.gtb_spec (Z.of_nat n) r).
    + split; [intros []|intros (m & t & H1 & H2 & _); lia].
    + rewrite in_app_iff, in_map_iff, IH. split.
      * intros [(t & <- & Ht)|(m & t & H1 & H2 & H3 & H4)]; [exists n, t; repeat split; auto; lia|exists m, t; repeat split; auto; lia].
      * intros (m & t & H1 & H2 & H3 & H4). destruct (Nat.eq_dec m n) as [->|]; [left; exists t; auto|right; exists m, t; repeat split; auto; lia].
Qed.
Lemma nodup_app {X} (a b : list X) : NoDup a -> NoDup b -> (forall x, In x a -> ~ In x b) -> NoDup (a ++ b).
Proof.
  intros Ha Hb H. induction Ha as [|x a Hx Ha IH]; [exact Hb|]. cbn. constructor.
  - rewrite in_app_iff. intros [|]; [contradiction|]. apply (H x); [now left|assumption].
  - apply IH. intros y Hy. apply H. now right.
Qed.
Lemma loop_nodup (rec : Z -> list (list Z)) k : (forall r, 0 <= r -> NoDup (rec r)) -> forall n r, NoDup (barycentric_loop Z.of_nat Z.sub Z.gtb rec k n r).
Proof.
  intros Hrec. induction k as [|k IH]; intros n r; cbn [barycentric_loop]; [constructor|]. destruct (Z.gtb_spec (Z.of_nat n) r); [constructor|].
  apply nodup_app.
  - apply FinFun.Injective_map_NoDup; [|apply Hrec; lia]. intros a b E. now apply app_inj_tail in E as [].
  - apply IH.
  - intros x Hx Hx'. apply in_map_iff in Hx. destruct Hx as (t & <- & _). apply loop_in in Hx'. destruct Hx' as (m & t' & Hm & _ & E & _). apply app_inj_tail in E as [_ E]. lia.
Qed.
Lemma ideal_spec d divisions : forall r, 0 <= r -> exists l, ideal_samples (S d) divisions r = Some l /\ NoDup l /\
  forall c, In c l <-> grid_point (S d) r c /\ Forall (fun x => x < Z.of_nat divisions) (tl c).
Proof.
  induction d as [|d IH]; intros r Hr.
  - exists [[r]]. split; [reflexivity|]. split; [repeat constructor; intros []|]. intros c. split.
    + intros [<-|[]]. unfold grid_point. split; [|constructor]. repeat split; [constructor; [lia|constructor]|cbn; lia].
    + intros [(H1 & H2 & H3) _]. destruct c as [|x [|]]; try discriminate. cbn in H3. left. f_equal. lia.
  - rewrite ideal_succ. eexists. split; [reflexivity|]. set (rec := fun r0 => match ideal_samples (S d) divisions r0 with Some l => l | None => [] end).
    assert (Hrec : forall r0, 0 <= r0 -> NoDup (rec r0) /\ forall c, In c (rec r0) <-> grid_point (S d) r0 c /\ Forall (fun x => x < Z.of_nat divisions) (tl c)).
    { intros r0 H0. unfold rec. destruct (IH r0 H0) as (l & -> & N & S). auto. }
    split; [apply loop_nodup; intros; now apply Hrec|]. intros c. rewrite loop_in. unfold grid_point. split.
    + intros (m & t & H1 & H2 & -> & H4). apply Hrec in H4; [|lia]. destruct H4 as [(L & P & S) T]. rewrite app_length, zsum_app. cbn [length].
      repeat split; try (cbn; lia).
      * apply Forall_app. split; [exact P|]. constructor; [lia|constructor].
      * destruct t as [|x t]; [discriminate|]. cbn in *. apply Forall_app. split; [exact T|]. constructor; [lia|constructor].
    + intros [(L & P & S) T]. destruct (exists_last (l := c)) as (t & z & ->); [destruct c; discriminate|]. apply Forall_app in P as [P Pz]. inversion Pz as [|? ? Pz0 _]; subst.
      rewrite app_length in L. cbn in L. destruct t as [|x t]; [cbn in L; lia|]. cbn [tl app] in T. apply Forall_app in T as [T Tz]. inversion Tz as [|? ? Tz0 _]; subst.
      rewrite zsum_app in *. cbn [zsum fold_right] in Hr |- *. exists (Z.to_nat z), (x :: t). assert (0 <= zsum (x :: t)). { clear - P. induction P as [|y l Py _ IHp]; [cbn; lia|]. change (zsum (y :: l)) with (y + zsum l). lia. }
      change (fold_right Z.add 0 t) with (zsum t) in *. change (zsum (x :: t)) with (x + zsum t) in *. rewrite Z2Nat.id by lia. repeat split; try lia.
      apply Hrec; [lia|]. unfold grid_point. repeat split; auto; [cbn in *; lia|]. change (zsum (x :: t)) with (x + zsum t). lia.
Qed.
