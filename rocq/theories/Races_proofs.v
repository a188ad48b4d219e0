(** Proofs about rounds with several threads in which agents create agents. *)
From Verif Require Import Base Identity Identity_proofs IdMap_proofs Races Races_spec.
From Coq Require Import ZifyBool ZifyNat.

(** *** Data races. *)
Lemma nth_map_chunks creates chunks k : nth k (map (thread_accesses creates) chunks) [] = thread_accesses creates (nth k chunks []).
Proof. change [] with (thread_accesses creates []) at 1. apply map_nth. Qed.
Lemma in_thread creates chunk a : In a (thread_accesses creates chunk) <->
  exists i, In i chunk /\ (a = mk_access (Own i) true false \/ a = mk_access Times true true \/ exists q, In q (creates i) /\ In a (creation q)).
Proof.
  unfold thread_accesses. rewrite in_flat_map. split.
  - intros (i & I & H). exists i. split; [exact I|]. cbn [job_accesses In] in H. destruct H as [H|H]; [now left|]. apply in_app_or in H. destruct H as [H|[H|[]]]; [|right; left; now symmetry]. apply in_flat_map in H. right. right. exact H.
  - intros (i & I & H). exists i. split; [exact I|]. cbn [job_accesses In]. destruct H as [H|[H|H]]; [left; now symmetry|right; apply in_or_app; right; left; now symmetry|]. right. apply in_or_app. left. apply in_flat_map. exact H.
Qed.
Lemma nth_nodup_concat {A} (ls : list (list A)) : NoDup (concat ls) -> forall k l x, In x (nth k ls []) -> In x (nth l ls []) -> k = l.
Proof.
  induction ls as [|h ls IH]; intros N k l x Hk Hl; [destruct k; contradiction|]. cbn [concat] in N.
  assert (Sep : forall x, In x h -> ~ In x (concat ls)). { clear - N. induction h as [|y h IHh]; [intros ? []|]. cbn [app] in N. apply NoDup_cons_iff in N. destruct N as [N1 N]. intros x [<-|I]; [intros H; apply N1, in_or_app; now right|now apply IHh]. }
  assert (In_c : forall k x, In x (nth k ls []) -> In x (concat ls)).
  { clear. induction ls as [|h ls IH]; intros [|k] x H; try contradiction; cbn [concat]; apply in_or_app; [now left|right; now apply (IH k)]. }
  assert (N2 : NoDup (concat ls)) by (clear - N; induction h as [|y h IHh]; [exact N|]; apply IHh; now apply NoDup_cons_iff in N).
  destruct k, l; cbn [nth] in Hk, Hl; [reflexivity|exfalso; eapply Sep; eauto|exfalso; eapply Sep; eauto|f_equal; eapply IH; eauto].
Qed.
Lemma creation_unlocked q a : In a (creation q) -> c_locked a = false /\ (forall i, c_location a <> Own i) /\ c_location a <> Times.
Proof. cbn. intros [<-|[<-|[<-|[<-|[<-|[]]]]]]; cbn; (split; [reflexivity|split; discriminate]). Qed.
Lemma race_iff creates chunks : NoDup (concat chunks) -> (data_race (map (thread_accesses creates) chunks) <-> creators_apart creates chunks).
Proof.
  intros N. split.
  - intros (k & l & a & b & D & Ha & Hb & Loc & W & L). rewrite nth_map_chunks in Ha, Hb. apply in_thread in Ha, Hb. destruct Ha as (i & Ii & Ha), Hb as (j & Ij & Hb). exists k, l, i, j. split; [exact D|]. split; [exact Ii|]. split; [exact Ij|].
    assert (Own_c : a = mk_access (Own i) true false -> False).
    { intros ->. destruct Hb as [->|[->|(q & _ & Hq)]]; cbn in Loc; [|discriminate|destruct (creation_unlocked _ _ Hq) as (_ & X & _); now apply (X i)]. injection Loc as <-. apply D. eapply nth_nodup_concat; eauto. }
    assert (Own_d : b = mk_access (Own j) true false -> False).
    { intros ->. destruct Ha as [Ha|[->|(q & _ & Hq)]]; cbn in Loc; [now apply Own_c|discriminate|destruct (creation_unlocked _ _ Hq) as (_ & X & _); now apply (X j)]. }
    destruct Ha as [Ha|[->|(q & Iq & Hq)]]; [now destruct Own_c| |].
    + destruct Hb as [Hb|[->|(r & Ir & Hr)]]; [now destruct Own_d|discriminate|destruct (creation_unlocked _ _ Hr) as (_ & _ & X); cbn in Loc; congruence].
    + destruct Hb as [Hb|[->|(r & Ir & Hr)]]; [now destruct Own_d|destruct (creation_unlocked _ _ Hq) as (_ & _ & X); cbn in Loc; congruence|]. split; intros E; [rewrite E in Iq|rewrite E in Ir]; contradiction.
  - intros (k & l & i & j & D & Ii & Ij & Ci & Cj). exists k, l, (mk_access Added true false), (mk_access Added true false). split; [exact D|]. rewrite !nth_map_chunks.
    destruct (creates i) as [|q qs] eqn:Ei; [contradiction|]. destruct (creates j) as [|r rs] eqn:Ej; [contradiction|].
    split; [apply in_thread; exists i; split; [exact Ii|]; right; right; exists q; rewrite Ei; split; [now left|]; cbn; auto 6|].
    split; [apply in_thread; exists j; split; [exact Ij|]; right; right; exists r; rewrite Ej; split; [now left|]; cbn; auto 6|]. split; [reflexivity|]. split; reflexivity.
Qed.

(** *** Counters under every interleaving. *)
Definition mentions (q : identity) (a : action) : Prop := match a with Digit _ r | Fetch _ r | Store _ r => r = q end.
Definition stores (q : identity) (a : action) : bool := match a with Store _ r => id_eqb q r | _ => false end.
Definition pending (q : identity) (l : list action) : Prop := match l with Fetch _ r :: _ | Store _ r :: _ => r = q | _ => False end.
Definition phased (t : nat) (l : list action) : Prop := exists qs, l = thread_actions t qs \/ (exists q, l = Fetch t q :: Store t q :: thread_actions t qs) \/ (exists q, l = Store t q :: thread_actions t qs).
Record invariant (c : identity -> Z) (total : identity -> Z) (rem : list (list action)) (m : memory) : Prop := {
  v_base : forall q, c q <= counters m q;
  v_total : forall q, counters m q + Z.of_nat (length (filter (stores q) (concat rem))) = total q;
  v_made : forall i, In i (made m) <-> exists q k, i = q ++ [k] /\ c q <= k /\ (k < counters m q \/ (k = counters m q /\ exists t, pending q (nth t rem [])));
  v_nodup : NoDup (made m);
  v_read : forall t q l, nth t rem [] = Store t q :: l -> read m t = counters m q;
  v_phased : forall t, phased t (nth t rem []);
  v_own : forall k l q a b, In a (nth k rem []) -> In b (nth l rem []) -> mentions q a -> mentions q b -> k = l }.
Lemma nth_moved {A} (ts1 ts2 : list (list A)) x t k : nth k (ts1 ++ t :: ts2) [] = if (k =? length ts1)%nat then t else nth k (ts1 ++ (x :: t) :: ts2) [].
Proof.
  destruct (k =? length ts1)%nat eqn:E; [apply Nat.eqb_eq in E; subst k; now rewrite app_nth2, Nat.sub_diag by lia|]. apply Nat.eqb_neq in E.
  destruct (le_lt_dec (length ts1) k) as [L|L]; [rewrite !app_nth2 by lia; destruct (k - length ts1)%nat eqn:D; [lia|reflexivity]|now rewrite !app_nth1 by lia].
Qed.
Lemma nth_here {A} (ts1 ts2 : list (list A)) l : nth (length ts1) (ts1 ++ l :: ts2) [] = l.
Proof. now rewrite app_nth2, Nat.sub_diag by lia. Qed.
Lemma snoc_inj {A} (p q : list A) x y : p ++ [x] = q ++ [y] -> p = q /\ x = y.
Proof. intros H. apply app_inj_tail in H. exact H. Qed.
Lemma pending_mentions q l : pending q l -> exists a, In a l /\ mentions q a.
Proof. destruct l as [|[t r|t r|t r] l]; cbn [pending]; [contradiction|contradiction| |]; intros ->; eexists; (split; [now left|reflexivity]). Qed.
Lemma count_stores (ts1 ts2 : list (list action)) x t q :
  length (filter (stores q) (concat (ts1 ++ (x :: t) :: ts2))) = ((if stores q x then 1 else 0) + length (filter (stores q) (concat (ts1 ++ t :: ts2))))%nat.
Proof. rewrite !concat_app. cbn [concat app]. rewrite !filter_app, !app_length. cbn [filter]. rewrite !filter_app. destruct (stores q x); cbn [length]; rewrite !app_length; lia. Qed.
Lemma step_invariant c total ts1 x t ts2 m : (forall q, 0 <= c q /\ total q < W64) -> invariant c total (ts1 ++ (x :: t) :: ts2) m -> invariant c total (ts1 ++ t :: ts2) (act m x).
Proof.
  intros B [Vb Vt Vm Vn Vr Vp Vo]. set (k := length ts1) in *. set (rem := ts1 ++ (x :: t) :: ts2) in *. set (rem' := ts1 ++ t :: ts2).
  assert (Hk : nth k rem [] = x :: t) by apply nth_here. assert (Hn : forall l, nth l rem' [] = if (l =? k)%nat then t else nth l rem []) by (intros l; apply nth_moved).
  assert (Hk' : nth k rem' [] = t) by (rewrite Hn, Nat.eqb_refl; reflexivity).
  assert (Sub : forall l a, In a (nth l rem' []) -> In a (nth l rem [])). { intros l a H. rewrite Hn in H. destruct (l =? k)%nat eqn:E; [apply Nat.eqb_eq in E; subst l; rewrite Hk; now right|exact H]. }
  assert (Vo' : forall k l q a b, In a (nth k rem' []) -> In b (nth l rem' []) -> mentions q a -> mentions q b -> k = l) by (intros; eapply Vo; eauto).
  assert (Alone : forall l q a, mentions q x -> In a (nth l rem []) -> mentions q a -> l = k). { intros l q a Mx Ia Ma. eapply Vo; [exact Ia| |exact Ma|exact Mx]. rewrite Hk. now left. }
  pose proof (Vp k) as Ph. rewrite Hk in Ph.
  assert (Cases : (exists q, x = Digit k q /\ exists qs, t = Fetch k q :: Store k q :: thread_actions k qs) \/ (exists q, x = Fetch k q /\ exists qs, t = Store k q :: thread_actions k qs) \/ (exists q, x = Store k q /\ exists qs, t = thread_actions k qs)).
  { destruct Ph as (qs & [Ph|[(q & Ph)|(q & Ph)]]).
    - destruct qs as [|q qs]; [discriminate|]. injection Ph as -> ->. left. exists q. split; [reflexivity|]. exists qs. reflexivity.
    - injection Ph as -> ->. right. left. exists q. split; [reflexivity|]. now exists qs.
    - injection Ph as -> ->. right. right. exists q. split; [reflexivity|]. now exists qs. }
  assert (Nop : forall qs q, ~ pending q (thread_actions k qs)) by (intros [|r qs] q; cbn; auto).
  destruct Cases as [(q & -> & qs & ->)|[(q & -> & qs & ->)|(q & -> & qs & ->)]].
  - (* Digit *)
    assert (NotMid : forall l, ~ pending q (nth l rem [])). { intros l P. destruct (pending_mentions _ _ P) as (a & Ia & Ma). assert (l = k) as -> by (apply (Alone l q a eq_refl Ia Ma)). rewrite Hk in P. exact P. }
    assert (Mid : forall r, (exists l, pending r (nth l rem' [])) <-> r = q \/ exists l, pending r (nth l rem [])).
    { intros r. split.
      - intros (l & P). rewrite Hn in P. destruct (l =? k)%nat eqn:E; [left; cbn in P; now symmetry|right; now exists l].
      - intros [->|(l & P)]; [exists k; rewrite Hk'; reflexivity|]. exists l. rewrite Hn. destruct (l =? k)%nat eqn:E; [apply Nat.eqb_eq in E; subst l; rewrite Hk in P; destruct P|exact P]. }
    constructor; cbn [act counters read made].
    + exact Vb.
    + intros r. specialize (Vt r). unfold rem in Vt. rewrite count_stores in Vt. exact Vt.
    + intros i. rewrite in_app_iff, Vm. split.
      * intros [(r & n & -> & L & H)|[<-|[]]].
        -- exists r, n. split; [reflexivity|]. split; [exact L|]. destruct H as [H|(-> & P)]; [now left|right; split; [reflexivity|apply Mid; now right]].
        -- exists q, (counters m q). split; [reflexivity|]. split; [apply Vb|right]. split; [reflexivity|apply Mid; now left].
      * intros (r & n & -> & L & [H|(-> & P)]); [left; exists r, n; auto|]. apply Mid in P. destruct P as [->|P]; [right; now left|left; exists r, (counters m r); auto].
    + eapply (Permutation_NoDup (Permutation_cons_append _ _)). constructor; [|exact Vn]. intros I. apply Vm in I. destruct I as (r & n & E & _ & H). apply snoc_inj in E. destruct E as [<- <-]. destruct H as [H|(_ & l & P)]; [lia|now apply (NotMid l)].
    + intros l r rest H. rewrite Hn in H. destruct (l =? k)%nat eqn:E; [discriminate|]. eapply Vr. exact H.
    + intros l. rewrite Hn. destruct (l =? k)%nat eqn:E; [apply Nat.eqb_eq in E; subst l; exists qs; right; left; now exists q|apply Vp].
    + exact Vo'.
  - (* Fetch *)
    assert (Mid : forall r, (exists l, pending r (nth l rem' [])) <-> exists l, pending r (nth l rem [])).
    { intros r. split; intros (l & P); exists l; [rewrite Hn in P|rewrite Hn]; (destruct (l =? k)%nat eqn:E; [apply Nat.eqb_eq in E; subst l; rewrite Hk in *; exact P|exact P]). }
    constructor; cbn [act counters read made].
    + exact Vb.
    + intros r. specialize (Vt r). unfold rem in Vt. rewrite count_stores in Vt. exact Vt.
    + intros i. rewrite Vm. split; intros (r & n & -> & L & [H|(-> & P)]); exists r; eexists; (split; [reflexivity|]); (split; [exact L|]); [now left|right; split; [reflexivity|now apply Mid]|now left|right; split; [reflexivity|now apply Mid]].
    + exact Vn.
    + intros l r rest H. rewrite Hn in H. unfold set_read. destruct (l =? k)%nat eqn:E; [injection H as _ <- _; reflexivity|]. eapply Vr. exact H.
    + intros l. rewrite Hn. destruct (l =? k)%nat eqn:E; [apply Nat.eqb_eq in E; subst l; exists qs; right; right; now exists q|apply Vp].
    + exact Vo'.
  - (* Store *)
    assert (Rd : read m k = counters m q) by (eapply Vr; exact Hk).
    assert (NotMid : forall l, ~ pending q (nth l rem' [])).
    { intros l P. rewrite Hn in P. destruct (l =? k)%nat eqn:E; [now apply Nop in P|]. destruct (pending_mentions _ _ P) as (a & Ia & Ma). apply Nat.eqb_neq in E. apply E. now apply (Alone l q a eq_refl Ia Ma). }
    assert (Mid : forall r, r <> q -> (exists l, pending r (nth l rem' [])) <-> exists l, pending r (nth l rem [])).
    { intros r D. split; intros (l & P); exists l; [rewrite Hn in P|rewrite Hn]; (destruct (l =? k)%nat eqn:E; [apply Nat.eqb_eq in E; subst l|exact P]); [now apply Nop in P|rewrite Hk in P; cbn in P; now contradiction D]. }
    assert (Wr : w64 (read m k + 1) = counters m q + 1).
    { rewrite Rd. specialize (Vt q). specialize (Vb q). specialize (B q). unfold rem in Vt. rewrite count_stores in Vt. cbn [stores] in Vt. rewrite id_eqb_refl in Vt. unfold w64. apply Z.mod_small. lia. }
    assert (Cn : forall r, set_counter q (w64 (read m k + 1)) (counters m) r = if id_eqb r q then counters m q + 1 else counters m r) by (intros r; unfold set_counter; now rewrite Wr).
    constructor; cbn [act counters read made].
    + intros r. rewrite Cn. destruct (id_eqb r q) eqn:E; [apply id_eqb_eq in E; subst r; specialize (Vb q); lia|apply Vb].
    + intros r. specialize (Vt r). unfold rem in Vt. rewrite count_stores in Vt. rewrite Cn. cbn [stores] in Vt. fold rem' in Vt. destruct (id_eqb r q) eqn:E; [apply id_eqb_eq in E; subst r|]; lia.
    + intros i. rewrite Vm. split; intros (r & n & -> & L & H); exists r, n; (split; [reflexivity|]); (split; [exact L|]).
      * rewrite Cn. destruct (id_eqb r q) eqn:E; [apply id_eqb_eq in E; subst r; left; destruct H as [H|[-> _]]; lia|].
        destruct H as [H|(-> & P)]; [now left|right; split; [reflexivity|]]. apply Mid; [intros ->; rewrite id_eqb_refl in E; discriminate|exact P].
      * rewrite Cn in H. destruct (id_eqb r q) eqn:E.
        -- apply id_eqb_eq in E. subst r. destruct H as [H|(_ & l & P)]; [|now apply NotMid in P]. assert (n < counters m q \/ n = counters m q) as [X|X] by lia; [now left|right]. split; [exact X|]. exists k. rewrite Hk. reflexivity.
        -- destruct H as [H|(-> & P)]; [now left|right; split; [reflexivity|]]. apply Mid in P; [exact P|]. intros ->. rewrite id_eqb_refl in E. discriminate.
    + exact Vn.
    + intros l r rest H. rewrite Hn in H. destruct (l =? k)%nat eqn:E; [destruct qs; discriminate|]. rewrite Cn. apply Nat.eqb_neq in E.
      destruct (id_eqb r q) eqn:D; [|eapply Vr; exact H]. apply id_eqb_eq in D. subst r. exfalso. apply E. apply (Alone l q (Store l q) eq_refl); [rewrite H; now left|reflexivity].
    + intros l. rewrite Hn. destruct (l =? k)%nat eqn:E; [apply Nat.eqb_eq in E; subst l; exists qs; now left|apply Vp].
    + exact Vo'.
Qed.
Lemma mixed_invariant c total rem xs : (forall q, 0 <= c q /\ total q < W64) -> mixed rem xs -> forall m, invariant c total rem m -> exists done, Forall (fun t => t = []) done /\ invariant c total done (acts m xs).
Proof.
  intros B H. induction H as [ts F|ts1 x t ts2 xs H IH]; intros m V; [exists ts; split; assumption|]. cbn [acts fold_left]. apply IH. now apply step_invariant.
Qed.
Lemma nth_actions programs : forall b t, nth t (all_actions b programs) [] = thread_actions (b + t) (nth t programs []).
Proof.
  induction programs as [|p ps IH]; intros b [|t]; cbn [all_actions nth]; [reflexivity|reflexivity|now rewrite Nat.add_0_r|]. rewrite IH. f_equal. lia.
Qed.
Lemma actions_mention t qs a q : In a (thread_actions t qs) -> mentions q a -> In q qs.
Proof. unfold thread_actions. intros H M. apply in_flat_map in H. destruct H as (r & I & H). cbn in H. destruct H as [<-|[<-|[<-|[]]]]; cbn in M; now subst. Qed.
Lemma stores_count q programs : forall b, length (filter (stores q) (concat (all_actions b programs))) = count_of q (concat programs).
Proof.
  unfold count_of. induction programs as [|p ps IH]; intros b; cbn [all_actions concat]; [reflexivity|]. rewrite !filter_app, !app_length, IH. f_equal.
  unfold thread_actions. induction p as [|r p IHp]; [reflexivity|]. cbn [flat_map create_actions app filter stores]. destruct (id_eqb q r); cbn [length]; now rewrite IHp.
Qed.
Lemma fresh c programs xs : own_parents programs -> (forall q, 0 <= c q /\ c q + Z.of_nat (count_of q (concat programs)) < W64) -> mixed (all_actions 0 programs) xs ->
  let m := acts (start c) xs in
  NoDup (made m) /\ (forall i, In i (made m) <-> exists q k, i = q ++ [k] /\ c q <= k < c q + Z.of_nat (count_of q (concat programs))) /\
  forall q, counters m q = c q + Z.of_nat (count_of q (concat programs)).
Proof.
  intros O B H. destruct (mixed_invariant c (fun q => c q + Z.of_nat (count_of q (concat programs))) _ _ B H (start c)) as (dn & F & [Vb Vt Vm Vn _ _ _]).
  { constructor; cbn [start counters read made].
    - lia.
    - intros q. now rewrite stores_count.
    - intros i. split; [intros []|]. intros (q & k & _ & L & [X|(_ & t & P)]); [lia|]. rewrite nth_actions in P. destruct (nth t programs []); exact P.
    - constructor.
    - intros t q l E. rewrite nth_actions in E. destruct (nth t programs []); discriminate.
    - intros t. rewrite nth_actions. eexists. now left.
    - intros k l q a b Ia Ib Ma Mb. rewrite nth_actions in Ia, Ib. eapply (O k l q); eapply actions_mention; eauto. }
  assert (Z0 : forall q, length (filter (stores q) (concat dn)) = 0%nat) by (intros q; clear - F; induction F as [|t l -> F IH]; [reflexivity|exact IH]).
  assert (C : forall q, counters (acts (start c) xs) q = c q + Z.of_nat (count_of q (concat programs))) by (intros q; specialize (Vt q); rewrite Z0 in Vt; lia).
  assert (P : forall t q, ~ pending q (nth t dn [])). { intros t q. clear - F. assert (nth t dn [] = []) as ->; [|exact (fun x => x)]. revert t. induction F as [|l ls -> F IH]; intros [|t]; cbn; auto. }
  split; [exact Vn|]. split; [|exact C]. intros i. rewrite Vm. split.
  - intros (q & k & -> & L & [X|(_ & t & X)]); [|now apply P in X]. exists q, k. rewrite C in X. split; [reflexivity|lia].
  - intros (q & k & -> & L). exists q, k. split; [reflexivity|]. split; [lia|left]. rewrite C. lia.
Qed.

(** *** Two threads with the same parent. *)
Lemma mixed_exists {A} (ts : list (list A)) : exists xs, mixed ts xs.
Proof.
  assert (G : forall n ts, (length (concat ts) <= n)%nat -> exists xs : list A, mixed ts xs).
  { induction n as [|n IH]; clear ts; intros ts L.
    - exists []. constructor. induction ts as [|[|x t] ts IH]; cbn in L; [constructor| |lia]. constructor; [reflexivity|apply IH; exact L].
    - destruct (Forall_Exists_dec (fun t : list A => t = [])) with (l := ts) as [F|E]; [intros [|]; [now left|right; discriminate]|exists []; now constructor|].
      apply Exists_exists in E. destruct E as (t & I & N). destruct t as [|x t]; [contradiction|]. apply in_split in I. destruct I as (ts1 & ts2 & ->).
      destruct (IH (ts1 ++ t :: ts2)) as (xs & H). { rewrite concat_app in L |- *. cbn [concat app] in L |- *. rewrite app_length in L |- *. cbn [length] in L. rewrite app_length in L |- *. lia. }
      exists (x :: xs). now constructor. }
  eapply G. reflexivity.
Qed.
Lemma mixed_prefix {A} (ts1 ts2 : list (list A)) l t xs : mixed (ts1 ++ t :: ts2) xs -> mixed (ts1 ++ (l ++ t) :: ts2) (l ++ xs).
Proof. intros H. induction l as [|x l IH]; [exact H|]. cbn [app]. now constructor. Qed.
Lemma acts_app m l1 l2 : acts m (l1 ++ l2) = acts (acts m l1) l2.
Proof. apply fold_left_app. Qed.
Lemma made_grows l : forall m, exists more, made (acts m l) = made m ++ more.
Proof.
  induction l as [|a l IH]; intros m; [exists []; now rewrite app_nil_r|]. cbn [acts fold_left]. destruct (IH (act m a)) as (more & E). unfold acts in E. rewrite E. destruct a; cbn [act made]; [|now exists more|now exists more]. rewrite <- app_assoc. eexists. reflexivity.
Qed.
Lemma counter_kept l q : (forall a, In a l -> ~ mentions q a) -> forall m, counters (acts m l) q = counters m q.
Proof.
  induction l as [|a l IH]; intros H m; [reflexivity|]. cbn [acts fold_left]. unfold acts in IH. rewrite IH by (intros b I; apply H; now right). destruct a as [t r|t r|t r]; [reflexivity|reflexivity|]. cbn [act counters]. unfold set_counter. rewrite id_eqb_neq; [reflexivity|]. intros ->. apply (H (Store t r)); [now left|reflexivity].
Qed.
Lemma first_of (q : identity) (qs : list identity) : In q qs -> exists l1 l2, qs = l1 ++ q :: l2 /\ ~ In q l1.
Proof.
  induction qs as [|r qs IH]; [intros []|]. intros H. destruct (list_eq_dec Z.eq_dec r q) as [->|N]; [exists [], qs; split; [reflexivity|intros []]|].
  destruct H as [->|H]; [contradiction|]. destruct (IH H) as (l1 & l2 & -> & I). exists (r :: l1), l2. split; [reflexivity|]. intros [E|X]; [now apply N|now apply I].
Qed.
Lemma all_actions_app a b : forall n, all_actions n (a ++ b) = all_actions n a ++ all_actions (n + length a) b.
Proof. induction a as [|p a IH]; intros n; cbn [app all_actions length]; [now rewrite Nat.add_0_r|]. rewrite IH. f_equal. f_equal. f_equal. lia. Qed.
Lemma duplicate c a p b q ps d : In q p -> In q ps -> exists xs, mixed (all_actions 0 (a ++ p :: b ++ ps :: d)) xs /\ ~ NoDup (made (acts (start c) xs)).
Proof.
  intros H1 H2. destruct (first_of q p H1) as (p1 & p2 & -> & N1). destruct (first_of q ps H2) as (s1 & s2 & -> & N2).
  rewrite all_actions_app. cbn [all_actions]. rewrite all_actions_app. cbn [all_actions]. set (A := all_actions 0 a). set (k := (0 + length a)%nat). set (Bb := all_actions (S k) b). set (l := (S k + length b)%nat). set (D := all_actions (S l) d).
  unfold thread_actions. rewrite !flat_map_app. cbn [flat_map create_actions app].
  set (P1 := flat_map (create_actions k) p1). set (S1 := flat_map (create_actions l) s1). set (P2 := flat_map (create_actions k) p2). set (S2 := flat_map (create_actions l) s2).
  set (T1 := Fetch k q :: Store k q :: P2). set (T2 := Fetch l q :: Store l q :: S2).
  destruct (mixed_exists (A ++ T1 :: Bb ++ T2 :: D)) as (xs & M).
  exists (P1 ++ S1 ++ Digit k q :: Digit l q :: xs). split.
  - apply (mixed_prefix A (Bb ++ (S1 ++ Digit l q :: T2) :: D) P1 (Digit k q :: T1)).
    replace (A ++ (Digit k q :: T1) :: Bb ++ (S1 ++ Digit l q :: T2) :: D) with ((A ++ (Digit k q :: T1) :: Bb) ++ (S1 ++ Digit l q :: T2) :: D) by (now rewrite <- app_assoc).
    apply mixed_prefix. rewrite <- app_assoc. cbn [app]. constructor.
    replace (A ++ T1 :: Bb ++ (Digit l q :: T2) :: D) with ((A ++ T1 :: Bb) ++ (Digit l q :: T2) :: D) by (now rewrite <- app_assoc). constructor. rewrite <- app_assoc. exact M.
  - rewrite !acts_app. unfold acts. cbn [fold_left]. set (m := fold_left act S1 (fold_left act P1 (start c))). destruct (made_grows xs (act (act m (Digit k q)) (Digit l q))) as (more & E). unfold acts in E. rewrite E. cbn [act made counters]. intros N.
    rewrite <- !app_assoc in N. cbn [app] in N. apply NoDup_remove_2 in N. apply N. apply in_or_app. right. now left.
Qed.
