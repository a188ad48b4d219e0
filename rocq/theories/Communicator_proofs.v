From Verif Require Import Base Identity Multimap Multimap_proofs Communicator Communicator_spec BinaryBook_proofs.
From Coq Require Import ZifyBool.

Section Proofs.
Context {A : Type}.
Implicit Types (c : communicator A) (rs : list (registration A)).

Lemma earliest_cons up t ts : earliest up (t :: ts) = Z.min t (earliest up ts).
Proof. reflexivity. Qed.
Lemma earliest_min up ts t : earliest (Z.min up t) ts = Z.min t (earliest up ts).
Proof. induction ts as [|x ts IH]; rewrite ?earliest_cons; [cbn; lia|]. rewrite IH. lia. Qed.
Lemma filter_map_swap {X Y} (f : Y -> bool) (g : X -> Y) l : filter f (map g l) = map g (filter (fun x => f (g x)) l).
Proof. induction l as [|x l IH]; cbn; [reflexivity|]. destruct (f (g x)); cbn; now rewrite IH. Qed.
Lemma filter_rev_swap {X} (f : X -> bool) l : filter f (rev l) = rev (filter f l).
Proof. induction l as [|x l IH]; cbn; [reflexivity|]. rewrite filter_app, IH. cbn. destruct (f x); cbn; [reflexivity|apply app_nil_r]. Qed.
Lemma sorted_rev {X} (R : X -> X -> Prop) l : StronglySorted R l -> StronglySorted (fun x y => R y x) (rev l).
Proof.
  induction 1 as [|x l Hs IH Hf]; cbn; [constructor|]. apply StronglySorted_app. split; [exact IH|]. split; [repeat constructor|].
  intros a b Ha [<-|[]]. apply in_rev in Ha. rewrite Forall_forall in Hf. now apply Hf.
Qed.
Lemma sorted_weaken {X} (R S : X -> X -> Prop) l : (forall x y, In x l -> In y l -> R x y -> S x y) -> StronglySorted R l -> StronglySorted S l.
Proof.
  intros H. induction 1 as [|x l Hs IH Hf]; constructor.
  - apply IH. intros; apply H; cbn; auto.
  - rewrite Forall_forall in *. intros y Hy. apply H; cbn; auto.
Qed.
Lemma sorted_map {X Y} (R : Y -> Y -> Prop) (g : X -> Y) l : StronglySorted R (map g l) <-> StronglySorted (fun x y => R (g x) (g y)) l.
Proof.
  split.
  - induction l as [|x l IH]; cbn; intros H; [constructor|]. inversion H; subst. constructor; [auto|]. now apply Forall_map.
  - induction 1 as [|x l Hs IH Hf]; cbn; constructor; auto. now apply Forall_map.
Qed.
Lemma mm_insert_map {X Y} (g : X -> Y) k v l : mm_insert k (g v) (map (fun x => (fst x, g (snd x))) l) = map (fun x => (fst x, g (snd x))) (mm_insert k v l).
Proof. induction l as [|[k' v'] l IH]; cbn; [reflexivity|]. destruct (k' <=? k); cbn; [now rewrite IH|reflexivity]. Qed.
Lemma mm_of_map {X Y} (g : X -> Y) l : mm_of (map (fun x => (fst x, g (snd x))) l) = map (fun x => (fst x, g (snd x))) (mm_of l).
Proof.
  induction l as [|[k v] l IH] using rev_ind; [reflexivity|]. unfold mm_of in *. rewrite map_app, !fold_left_app. cbn [fold_left map fst snd]. rewrite IH. apply mm_insert_map.
Qed.

(** *** Registration. *)
Definition entries (rs : list (registration A)) : list (Z * callback A) := map (fun r => (r_priority r, r_callback r)) rs.
Definition reg_inv rs c : Prop := StronglySorted key_lt (callbacks c) /\
  forall t, fm_find t (callbacks c) = match for_type t rs with [] => None | l => Some (mm_of (entries l)) end.
Lemma register_inv rs c r c1 : reg_inv rs c -> register c (r_type r) (r_priority r) (r_callback r) = Ret c1 ->
  reg_inv (rs ++ [r]) c1 /\ random c1 = random c /\ locked c1 = locked c.
Proof.
  intros [Hs Hf] H. unfold register in H. destruct (locked c) eqn:L; [discriminate|]. injection H as <-. cbn. split; [|auto]. split; cbn.
  - now apply fm_set_sorted.
  - intros t. rewrite fm_find_set by exact Hs. unfold for_type. rewrite filter_app. cbn [filter]. destruct (Z.eqb_spec (r_type r) t) as [<-|Hn].
    + rewrite Hf. unfold for_type. destruct (filter _ rs) as [|x l] eqn:E.
      * reflexivity.
      * change ((x :: l) ++ [r]) with (x :: (l ++ [r])). cbn iota. f_equal. unfold entries, mm_of. change (x :: (l ++ [r])) with ((x :: l) ++ [r]).
        rewrite map_app, fold_left_app. reflexivity.
    + rewrite app_nil_r. apply Hf.
Qed.
Lemma registers_inv c rs c' rs0 : reg_inv rs0 c -> registers c rs c' -> reg_inv (rs0 ++ rs) c' /\ random c' = random c /\ locked c' = locked c.
Proof.
  intros Hi H. revert rs0 Hi. induction H as [c|c r rs c1 c2 Hr Hrs IH]; intros rs0 Hi; [rewrite app_nil_r; auto|].
  destruct (register_inv _ _ _ _ Hi Hr) as (Hi1 & E1 & E2). destruct (IH _ Hi1) as (H1 & H2 & H3). rewrite <- app_assoc in H1. repeat split; try apply H1; congruence.
Qed.
Lemma new_inv b : reg_inv [] (new_communicator b : communicator A).
Proof. split; [constructor|reflexivity]. Qed.

(** *** One message. *)
Lemma call_all_spec m lo up s (fs : list (Z * callback A)) first a : exists ts a',
  calls m lo up s (map snd fs) a ts a' /\
  (Forall (within lo up) ts -> call_all m lo up s fs first a = Ret (a', earliest first ts)) /\
  (~ Forall (within lo up) ts -> call_all m lo up s fs first a = UB).
Proof.
  revert first a. induction fs as [|[p f] fs IH]; intros first a; cbn.
  - exists [], a. split; [constructor|]. split; [reflexivity|]. intros H. exfalso. apply H. constructor.
  - destruct (f m lo up s a) as [a1 t] eqn:E. destruct (IH (Z.min first t) a1) as (ts & a2 & Hc & H1 & H2).
    exists (t :: ts), a2. split; [econstructor; eauto|]. destruct ((lo <=? t) && (t <=? up)) eqn:Ew.
    + split.
      * intros H. inversion H; subst. rewrite H1 by assumption. f_equal. f_equal. now rewrite earliest_cons, earliest_min.
      * intros H. apply H2. intros Hf. apply H. constructor; [unfold within; lia|exact Hf].
    + split; [|reflexivity]. intros H. inversion H; subst. unfold within in *. lia.
Qed.
Definition ordered (rs : list (registration A)) : list (Z * registration A) := mm_of (map (fun r => (r_priority r, r)) rs).
Lemma ordered_entries rs : mm_of (entries rs) = map (fun x => (fst x, r_callback (snd x))) (ordered rs).
Proof. unfold ordered. rewrite <- mm_of_map, map_map. reflexivity. Qed.
Lemma ordered_fst rs x : In x (ordered rs) -> fst x = r_priority (snd x).
Proof.
  intros H. unfold ordered in H. eapply Permutation_in in H; [|apply mm_of_spec]. apply in_map_iff in H. destruct H as (r & <- & _). reflexivity.
Qed.
Lemma ordered_call_order rs : call_order rs (rev (map snd (ordered rs))).
Proof.
  unfold call_order. destruct (mm_of_spec (map (fun r => (r_priority r, r)) rs)) as (Hs & Hp & Hf). fold (ordered rs) in *. split.
  - rewrite <- map_rev. apply (sorted_map _ snd). apply sorted_rev in Hs.
    eapply sorted_weaken; [|exact Hs]. intros x y Hx Hy Hk. cbn in Hk. unfold key_le in Hk. apply in_rev in Hx, Hy. rewrite (ordered_fst rs y Hy), (ordered_fst rs x Hx) in Hk. lia.
  - intros p. unfold with_priority. rewrite filter_rev_swap. f_equal. rewrite filter_map_swap.
    transitivity (map snd (filter (key_is p) (ordered rs))).
    + f_equal. apply filter_ext_in. intros x Hx. unfold key_is. now rewrite (ordered_fst rs x Hx).
    + rewrite Hf, filter_map_swap, map_map. cbn. now rewrite map_id.
Qed.
Lemma message_callbacks b rs c lo up s m a : registers (new_communicator b) rs c ->
  exists order ts a', call_order (for_type (m_type m) rs) order /\ calls m lo up s (map r_callback order) a ts a' /\
    (Forall (within lo up) ts -> process_message c lo up s m a = Ret (a', earliest up ts)) /\
    (~ Forall (within lo up) ts -> process_message c lo up s m a = UB).
Proof.
  intros H. destruct (registers_inv _ _ _ _ (new_inv b) H) as ((Hs & Hf) & _ & _). cbn [app] in Hf.
  set (l := for_type (m_type m) rs). exists (rev (map snd (ordered l))).
  unfold process_message. rewrite (Hf (m_type m)). fold l. destruct l as [|r l'] eqn:E.
  - exists [], a. split; [apply (ordered_call_order [])|]. split; [constructor|]. split; [reflexivity|]. intros X. exfalso. apply X. constructor.
  - rewrite ordered_entries. destruct (call_all_spec m lo up s (rev (map (fun x => (fst x, r_callback (snd x))) (ordered (r :: l')))) up a) as (ts & a' & H1 & H2 & H3).
    exists ts, a'. split; [apply ordered_call_order|]. split; [|auto].
    replace (map r_callback (rev (map snd (ordered (r :: l'))))) with (map snd (rev (map (fun x => (fst x, r_callback (snd x))) (ordered (r :: l'))))); [exact H1|].
    rewrite !map_rev, !map_map. reflexivity.
Qed.

(** *** The inbox. *)
Definition top (rs : list (registration A)) (m : message) : Z := highest_priority (mm_of (entries (for_type (m_type m) rs))).
Lemma highest_ge (fs : list (Z * callback A)) h : h <= fold_left (fun h f => Z.max h (fst f)) fs h /\
  Forall (fun f => fst f <= fold_left (fun h f => Z.max h (fst f)) fs h) fs.
Proof.
  revert h. induction fs as [|f fs IH]; intros h; cbn; [split; [lia|constructor]|]. destruct (IH (Z.max h (fst f))) as [H1 H2]. split; [lia|]. constructor; [lia|exact H2].
Qed.
Lemma highest_in (fs : list (Z * callback A)) h : fold_left (fun h f => Z.max h (fst f)) fs h = h \/ exists f, In f fs /\ fst f = fold_left (fun h f => Z.max h (fst f)) fs h.
Proof.
  revert h. induction fs as [|f fs IH]; intros h; cbn; [auto|]. destruct (IH (Z.max h (fst f))) as [E|(g & Hg & E)].
  - rewrite E. destruct (Z.max_spec h (fst f)) as [[_ M]|[_ M]]; rewrite M; [right; exists f; auto|auto].
  - right. exists g. auto.
Qed.
Lemma top_priority rs m : Forall (fun r => int8 (r_priority r)) rs -> handled rs m = true ->
  forall p, has_priority rs p m = true <-> p = top rs m.
Proof.
  intros Hi Hh p. unfold has_priority, top, highest_priority. rewrite andb_true_iff, existsb_exists, forallb_forall.
  set (fs := mm_of (entries (for_type (m_type m) rs))).
  assert (Hin : forall q, (exists f, In f fs /\ fst f = q) <-> (exists r, In r rs /\ r_type r = m_type m /\ r_priority r = q)).
  { intros q. assert (Hp : Permutation fs (entries (for_type (m_type m) rs))) by apply mm_of_spec. split.
    - intros (f & Hf & <-). eapply Permutation_in in Hf; [|exact Hp]. unfold entries in Hf. apply in_map_iff in Hf. destruct Hf as (r & <- & Hr). apply filter_In in Hr. exists r. cbn. intuition lia.
    - intros (r & Hr & Ht & Hq). exists (r_priority r, r_callback r). split; [|exact Hq]. eapply Permutation_in; [symmetry; exact Hp|]. apply in_map_iff. exists r. split; [reflexivity|]. apply filter_In. split; [exact Hr|lia]. }
  destruct (highest_ge fs (-128)) as [G1 G2]. rewrite Forall_forall in G2, Hi.
  assert (Hex : exists f, In f fs /\ fst f = fold_left (fun h f => Z.max h (fst f)) fs (-128)).
  { destruct (highest_in fs (-128)) as [E|H]; [|exact H]. unfold handled in Hh. rewrite existsb_exists in Hh. destruct Hh as (r & Hr & Ht).
    destruct (proj2 (Hin (r_priority r))) as (f & Hf & Ef); [exists r; intuition lia|]. exists f. split; [exact Hf|]. specialize (G2 _ Hf). specialize (Hi _ Hr). unfold int8 in Hi. lia. }
  split.
  - intros [(r & Hr & Ht) Hall]. destruct (proj2 (Hin p)) as (f & Hf & Ef); [exists r; split; [exact Hr|lia]|]. specialize (G2 _ Hf).
    destruct (proj1 (Hin _) Hex) as (r' & Hr' & Ht' & Ep). specialize (Hall _ Hr'). lia.
  - intros ->. split.
    + destruct (proj1 (Hin _) Hex) as (r' & Hr' & Ht' & Ep). exists r'. split; [exact Hr'|]. lia.
    + intros r Hr. destruct (Z.eqb_spec (r_type r) (m_type m)); cbn; [|reflexivity].
      destruct (proj2 (Hin (r_priority r))) as (f & Hf & Ef); [exists r; auto|]. specialize (G2 _ Hf). lia.
Qed.
Lemma by_priority_spec rs c lo inbox acc : reg_inv rs c -> StronglySorted key_le inbox ->
  by_priority c lo inbox acc =
  fold_left (fun m kv => mm_insert (fst kv) (snd kv) m) (map (fun m => (top rs m, m)) (filter (handled rs) (due lo inbox))) acc.
Proof.
  intros [_ Hf] Hs. revert acc. unfold due. induction Hs as [|[k m] inbox Hs IH Hk]; intros acc; cbn; [reflexivity|].
  destruct (k >? lo) eqn:E.
  - destruct (k <=? lo) eqn:E2; [lia|]. rewrite (filter_none (fun x : Z * message => fst x <=? lo)); [reflexivity|]. eapply Forall_impl; [|exact Hk]. unfold key_le. cbn. intros; lia.
  - destruct (k <=? lo) eqn:E2; [|lia]. cbn. rewrite Hf.
    assert (Hh : handled rs m = match for_type (m_type m) rs with [] => false | _ => true end).
    { unfold handled, for_type. clear. induction rs as [|r rs IH]; cbn; [reflexivity|]. destruct (r_type r =? m_type m); [reflexivity|exact IH]. }
    destruct (for_type (m_type m) rs) as [|r l] eqn:Ef.
    + rewrite Hh. apply IH.
    + rewrite Hh. cbn [map fold_left fst snd]. destruct (mm_of (entries (r :: l))) as [|x y] eqn:Em.
      * exfalso. assert (P : Permutation (mm_of (entries (r :: l))) (entries (r :: l))) by apply mm_of_spec. rewrite Em in P. apply Permutation_nil_cons in P. exact P.
      * rewrite IH. f_equal. unfold top. rewrite Ef, Em. reflexivity.
Qed.
Definition flat (R : list (Z * list message)) : list (Z * message) := concat (map (fun r => map (pair (fst r)) (snd r)) R).
Lemma runs_flat l : flat (runs l) = l.
Proof.
  induction l as [|[p m] l IH]; cbn; [reflexivity|]. destruct (runs l) as [|[p' ms] R] eqn:E.
  - rewrite <- IH. reflexivity.
  - unfold flat in *. cbn [map concat fst snd] in IH. destruct (Z.eqb_spec p p') as [->|]; rewrite <- IH; reflexivity.
Qed.
Definition shuffled (R : list (Z * list message)) (g : list message -> list message) : list (Z * message) := flat (map (fun r => (fst r, g (snd r))) R).
Lemma shuffled_perm R g : (forall l, Permutation (g l) l) -> Permutation (shuffled R g) (flat R).
Proof.
  intros H. unfold shuffled, flat. induction R as [|r R IH]; cbn; [constructor|]. apply Permutation_app; [|exact IH]. apply Permutation_map. apply H.
Qed.
Lemma shuffled_sorted R g : (forall l, Permutation (g l) l) -> StronglySorted (fun x y : Z * message => fst x >= fst y) (flat R) ->
  StronglySorted (fun x y : Z * message => fst x >= fst y) (shuffled R g).
Proof.
  intros H. unfold shuffled, flat. induction R as [|r R IH]; cbn; intros Hs; [constructor|].
  apply StronglySorted_app in Hs. destruct Hs as (H1 & H2 & H3). apply StronglySorted_app. split; [|split; [auto|]].
  - apply sorted_map. clear. induction (g (snd r)) as [|x l IHl]; constructor; [exact IHl|]. apply Forall_forall. intros; cbn; lia.
  - intros x y Hx Hy. apply in_map_iff in Hx. destruct Hx as (m & <- & Hm). apply H3.
    + apply in_map. eapply Permutation_in; [apply H|exact Hm].
    + eapply Permutation_in; [apply (shuffled_perm R g H)|exact Hy].
Qed.
Lemma shuffled_order R g : map snd (shuffled R g) = concat (map (fun r => g (snd r)) R).
Proof.
  unfold shuffled, flat. induction R as [|r R IH]; cbn; [reflexivity|]. rewrite map_app, IH, map_map. f_equal. apply map_id.
Qed.
Lemma order_spec b rs c sh lo s inbox : registers (new_communicator b) rs c -> Forall (fun r => int8 (r_priority r)) rs ->
  StronglySorted key_le inbox -> (forall s l, Permutation (sh s l) l) ->
  Permutation (handling_order c sh lo s inbox) (filter (handled rs) (due lo inbox)) /\
  by_falling_priority rs (handling_order c sh lo s inbox) /\
  (b = false -> forall p, filter (has_priority rs p) (handling_order c sh lo s inbox) = rev (filter (has_priority rs p) (filter (handled rs) (due lo inbox)))).
Proof.
  intros Hr Hi Hs Hsh. destruct (registers_inv _ _ _ _ (new_inv b) Hr) as (Hinv & Hrandom & _). cbn [app] in Hinv. cbn in Hrandom.
  set (ms := filter (handled rs) (due lo inbox)). set (M := mm_of (map (fun m => (top rs m, m)) ms)).
  assert (HM : by_priority c lo inbox [] = M) by (apply by_priority_spec; assumption).
  destruct (mm_of_spec (map (fun m => (top rs m, m)) ms)) as (Ms & Mp & Mf). fold M in Ms, Mp, Mf.
  assert (Hfst : forall x, In x M -> fst x = top rs (snd x)).
  { intros x Hx. eapply Permutation_in in Hx; [|exact Mp]. apply in_map_iff in Hx. destruct Hx as (m & <- & _). reflexivity. }
  assert (Hms : forall m, In m ms -> handled rs m = true) by (intros m Hm; apply filter_In in Hm; apply Hm).
  assert (HsndM : Permutation (map snd M) ms). { transitivity (map snd (map (fun m => (top rs m, m)) ms)); [now apply Permutation_map|]. rewrite map_map. cbn. now rewrite map_id. }
  set (g := fun l : list message => if random c then sh s l else l).
  assert (Hg : forall l, Permutation (g l) l) by (intros l; unfold g; destruct (random c); auto).
  assert (Ho : handling_order c sh lo s inbox = map snd (shuffled (runs (rev M)) g)) by (unfold handling_order; rewrite HM, shuffled_order; reflexivity).
  assert (Hall : Permutation (shuffled (runs (rev M)) g) M) by (rewrite shuffled_perm by exact Hg; rewrite runs_flat; symmetry; apply Permutation_rev).
  rewrite Ho. split; [|split].
  - rewrite <- HsndM. now apply Permutation_map.
  - unfold by_falling_priority. apply sorted_map. apply (sorted_weaken (fun x y : Z * message => fst x >= fst y)); [|apply shuffled_sorted; [exact Hg|]].
    + intros x y Hx Hy Hk p q Hp Hq. eapply Permutation_in in Hx, Hy; [|exact Hall..].
      apply top_priority in Hp; [|exact Hi|apply Hms; eapply Permutation_in; [exact HsndM|now apply in_map]].
      apply top_priority in Hq; [|exact Hi|apply Hms; eapply Permutation_in; [exact HsndM|now apply in_map]].
      rewrite (Hfst x Hx), (Hfst y Hy) in Hk. lia.
    + rewrite runs_flat. apply sorted_rev in Ms. eapply sorted_weaken; [|exact Ms]. unfold key_le. cbn. intros; lia.
  - intros -> p. assert (Hgid : map snd (shuffled (runs (rev M)) g) = rev (map snd M)).
    { assert (shuffled (runs (rev M)) g = flat (runs (rev M))) as ->; [|now rewrite runs_flat, map_rev].
      unfold shuffled. f_equal. unfold g. rewrite Hrandom. rewrite <- (map_id (runs (rev M))) at 2. apply map_ext. now intros []. }
    rewrite Hgid, filter_rev_swap. f_equal. rewrite filter_map_swap.
    transitivity (map snd (filter (key_is p) M)).
    + f_equal. apply filter_ext_in. intros x Hx. unfold key_is. rewrite (Hfst x Hx).
      assert (Hx' : handled rs (snd x) = true) by (apply Hms; eapply Permutation_in; [exact HsndM|now apply in_map]).
      pose proof (top_priority rs (snd x) Hi Hx' p) as T. destruct (has_priority rs p (snd x)); [symmetry; apply Z.eqb_eq; symmetry; now apply T|].
      symmetry. apply Z.eqb_neq. intros E. symmetry in E. apply T in E. discriminate.
    + rewrite Mf, filter_map_swap, map_map. cbn. rewrite map_id. apply filter_ext_in. intros m Hm. unfold key_is. cbn.
      pose proof (top_priority rs m Hi (Hms m Hm) p) as T. destruct (has_priority rs p m); [apply Z.eqb_eq; symmetry; now apply T|].
      apply Z.eqb_neq. intros E. symmetry in E. apply T in E. discriminate.
Qed.
Lemma handle_all_spec c lo up s ms first a a' t : handle_all c lo up s ms first a = Ret (a', t) <->
  exists ts, handles c lo up s ms a ts a' /\ t = earliest first ts.
Proof.
  revert first a. induction ms as [|m ms IH]; intros first a; cbn.
  - split; [intros [= <- <-]; exists []; split; [constructor|reflexivity]|]. intros (ts & H & ->). inversion H; subst. reflexivity.
  - split.
    + destruct (process_message c lo up s m a) as [[a1 t1]| |] eqn:E; [|discriminate|discriminate].
      intros H. apply IH in H. destruct H as (ts & H & ->). exists (t1 :: ts). split; [econstructor; eauto|]. now rewrite earliest_cons, earliest_min.
    + intros (ts & H & ->). inversion H as [|m0 ms0 a0 a1 t1 ts0 a2 Hp Hh]; subst. rewrite Hp. apply IH. exists ts0. split; [assumption|]. now rewrite earliest_cons, earliest_min.
Qed.

(** *** Locking. *)
Lemma locked_rejects c t p f : register (lock c) t p f = Throw.
Proof. reflexivity. Qed.
Lemma register_other b rs c t p f c1 lo up s m a : registers (new_communicator b) rs c -> register c t p f = Ret c1 -> m_type m <> t ->
  process_message c1 lo up s m a = process_message c lo up s m a.
Proof.
  intros Hr H Hn. destruct (registers_inv _ _ _ _ (new_inv b) Hr) as ((Hs & _) & _). unfold register in H. destruct (locked c); [discriminate|]. injection H as <-.
  unfold process_message. cbn. rewrite fm_find_set by exact Hs. destruct (Z.eqb_spec t (m_type m)); [congruence|]. reflexivity.
Qed.
Lemma register_unlocked b rs c t p f : registers (new_communicator b) rs c -> exists c1, register c t p f = Ret c1 /\ registers (new_communicator b) (rs ++ [mk_registration t p f]) c1.
Proof.
  intros Hr. destruct (registers_inv _ _ _ _ (new_inv b) Hr) as (_ & _ & L). cbn in L. unfold register. eexists. rewrite L. split; [reflexivity|].
  assert (G : forall c0, registers c0 rs c -> forall c1, register c t p f = Ret c1 -> registers c0 (rs ++ [mk_registration t p f]) c1).
  { clear. intros c0 H. induction H as [c|c r rs c1 c2 H1 H2 IH]; intros c3 H3; cbn; econstructor; eauto. constructor. }
  apply G; [exact Hr|]. unfold register. now rewrite L.
Qed.
Lemma lock_same c lo up s m a : process_message (lock c) lo up s m a = process_message c lo up s m a.
Proof. reflexivity. Qed.
Lemma lock_same_all c sh lo up s inbox a : process_messages (lock c) sh lo up s inbox a = process_messages c sh lo up s inbox a.
Proof.
  assert (P : forall l acc, by_priority (lock c) lo l acc = by_priority c lo l acc).
  { induction l as [|[k m] l IH]; intros acc; cbn; [reflexivity|]. destruct (k >? lo); [reflexivity|]. destruct (fm_find _ _) as [[|]|]; apply IH. }
  unfold process_messages, handling_order. rewrite P. cbn [random lock].
  generalize (concat (map (fun r => if random c then sh s (snd r) else snd r) (runs (rev (by_priority c lo inbox []))))), up at 2 4.
  intros l first. revert first a. induction l as [|m l IH]; intros first a; cbn; [reflexivity|].
  change (process_message (lock c) lo up s m a) with (process_message c lo up s m a). destruct (process_message c lo up s m a) as [[]| |]; auto.
Qed.
End Proofs.
