(** Outcomes of migrations, activations and deactivations in the distributed environment. *)
From Coq Require Import ZifyBool ZifyNat.
From Coq Require Import Permutation.
From Verif Require Import Base Identity Identity_proofs IdMap IdMap_proofs Communicator Distributed Distributed_spec Distributed_proofs.

(** * Agreement *)
Lemma all_outcomes_ret {X Y} (f : X -> outcome Y) (g : X -> Y) l : (forall x, In x l -> f x = Ret (g x)) -> all_outcomes (map f l) = Ret (map g l).
Proof. induction l as [|x l IH]; intros H; [reflexivity|]. cbn. rewrite H by now left. rewrite IH; [reflexivity|]. intros; apply H; now right. Qed.
Lemma combine_seq_map {X} (g : nat -> X) l : combine l (map g l) = map (fun r => (r, g r)) l.
Proof. induction l as [|x l IH]; [reflexivity|]. cbn. now rewrite IH. Qed.
Lemma concat_flat_map {X Y} (f : X -> list (list Y)) l : concat (flat_map f l) = flat_map (fun x => concat (f x)) l.
Proof. induction l as [|x l IH]; [reflexivity|]. cbn. now rewrite concat_app, IH. Qed.

(** What is proposed to process [t], in the order in which it is received. *)
Definition proposed_to (ideas : list (list migration)) (t : nat) : list migration := filter (fun m => target m =? Z.of_nat t) (concat ideas).
Definition decided (size : nat) (ideas : list (list migration)) : list migration := flat_map (proposed_to ideas) (seq 0 size).

Lemma filter_concat {X} (p : X -> bool) ls : filter p (concat ls) = concat (map (filter p) ls).
Proof. induction ls as [|l ls IH]; [reflexivity|]. cbn. now rewrite filter_app, IH. Qed.
Lemma filter_idem {X} (p : X -> bool) l : filter p (filter p l) = filter p l.
Proof. induction l as [|x l IH]; [reflexivity|]. cbn. destruct (p x) eqn:E; cbn; rewrite ?E; now rewrite IH. Qed.
Lemma nth_error_map_seq {X} (g : nat -> X) n k : (k < n)%nat -> nth_error (map g (seq 0 n)) k = Some (g k).
Proof. intros H. rewrite nth_error_map. rewrite (nth_error_nth' _ O) by now rewrite seq_length. rewrite seq_nth by exact H. reflexivity. Qed.
Lemma combine_map_snd {X Y} (a : list X) (b : list Y) : length a = length b -> map snd (combine a b) = b.
Proof. revert b. induction a as [|x a IH]; intros [|y b] H; cbn in *; try discriminate; [reflexivity|]. f_equal. apply IH. lia. Qed.

Lemma map_repeats {X Y} (f : X -> Y) x n : map f (repeat x n) = repeat (f x) n.
Proof. induction n as [|n IH]; [reflexivity|]. cbn. now rewrite IH. Qed.
Lemma agree_rows (n : nat) (ideas : list (list migration)) : length ideas = n ->
  match all_to_all (map (fun l => map (fun t => filter (fun m => target m =? Z.of_nat t) l) (seq 0 n)) ideas) with
  | Ret propositions =>
      match all_to_all (map (fun x => repeat (filter (fun p => target p =? Z.of_nat (fst x)) (concat (snd x))) n) (combine (seq 0 n) propositions)) with
      | Ret migrations => Ret (map (@concat migration) migrations)
      | Throw => Throw
      | UB => UB
      end
  | Throw => Throw
  | UB => UB
  end = Ret (repeat (decided n ideas) n).
Proof.
  intros L. rewrite all_to_all_ret.
  2:{ intros row H. apply in_map_iff in H. destruct H as (l & <- & _). now rewrite !map_length, seq_length. }
  rewrite map_length, L. rewrite combine_seq_map, map_map. cbn [fst snd].
  set (xs := map (fun t => proposed_to ideas t) (seq 0 n)).
  assert (Lx : length xs = n) by (unfold xs; now rewrite map_length, seq_length).
  assert (Ex : map (fun r => repeat (filter (fun p => target p =? Z.of_nat r) (concat (flat_map (fun row => match nth_error row r with Some x => [x] | None => [] end)
      (map (fun l => map (fun t => filter (fun m => target m =? Z.of_nat t) l) (seq 0 n)) ideas)))) n) (seq 0 n) = map (fun x => repeat x (length xs)) xs).
  { rewrite Lx. unfold xs. rewrite map_map. apply map_ext_in. intros r Hr. apply in_seq in Hr. f_equal.
    rewrite concat_flat_map, flat_map_concat_map, map_map.
    unfold proposed_to. rewrite (filter_concat _ ideas). rewrite <- (filter_idem _ (concat _)) at 1.
    assert (E : concat (map (fun x => concat match nth_error (map (fun t => filter (fun m => target m =? Z.of_nat t) x) (seq 0 n)) r with Some x0 => [x0] | None => [] end) ideas) = concat (map (filter (fun m => target m =? Z.of_nat r)) ideas)).
    { f_equal. apply map_ext. intros l. rewrite nth_error_map_seq by lia. cbn. now rewrite app_nil_r. }
    rewrite E, <- filter_concat, !filter_idem. reflexivity. }
  rewrite Ex, all_to_all_public, Lx. f_equal. unfold decided. rewrite flat_map_concat_map. fold xs. apply map_repeats.
Qed.
Lemma combine3_propose {A} (c : cluster A) (ideas : list (list migration)) : length ideas = length c ->
  map (fun x : nat * (node A * list migration) => snd (snd x)) (combine (seq 0 (length c)) (combine c ideas)) = ideas.
Proof.
  intros L. rewrite <- (map_map snd snd). rewrite combine_map_snd by (rewrite seq_length, combine_length; lia).
  apply combine_map_snd. now symmetry.
Qed.
Lemma agree_ret {A} (c : cluster A) ideas : length ideas = length c ->
  (forall m, In m (concat ideas) -> 0 <= target m < Z.of_nat (length c)) ->
  agree c false ideas = Ret (repeat (decided (length c) ideas) (length c)).
Proof.
  intros L R. unfold agree.
  rewrite (all_outcomes_ret _ (fun x => map (fun t => filter (fun m => target m =? Z.of_nat t) (snd (snd x))) (seq 0 (length c)))).
  - rewrite <- (map_map (fun x => snd (snd x)) (fun l => map (fun t => filter (fun m => target m =? Z.of_nat t) l) (seq 0 (length c)))), combine3_propose by exact L. now apply agree_rows.
  - intros [r [n l]] H. cbn [fst snd]. unfold propose. rewrite (proj2 (forallb_forall _ _)); [reflexivity|].
    intros m Hm. assert (I : In m (concat ideas)). { apply in_concat. exists l. split; [|exact Hm]. apply in_combine_r in H. now apply in_combine_r in H. }
    specialize (R m I). lia.
Qed.
Lemma forallb_filter_id_none {X} (p : X -> bool) l : filter p l = [] <-> forall x, In x l -> p x = false.
Proof.
  split.
  - intros H x Hx. destruct (p x) eqn:E; [|reflexivity]. assert (In x (filter p l)) by (now apply filter_In). now rewrite H in *.
  - induction l as [|x l IH]; intros H; [reflexivity|]. cbn. rewrite H by now left. apply IH. intros; apply H; now right.
Qed.
Lemma decided_permutation size ideas : (forall m, In m (concat ideas) -> 0 <= target m < Z.of_nat size) -> Permutation (decided size ideas) (concat ideas).
Proof.
  unfold decided, proposed_to. generalize (concat ideas) as l. induction l as [|m l IH]; intros H.
  - cbn. induction (seq 0 size); [constructor|]. cbn. assumption.
  - assert (G : forall L, Permutation (flat_map (fun t => filter (fun m => target m =? Z.of_nat t) (m :: l)) L)
        (map (fun _ => m) (filter (fun t => target m =? Z.of_nat t) L) ++ flat_map (fun t => filter (fun m => target m =? Z.of_nat t) l) L)).
    { induction L as [|t L IHL]; [constructor|]. cbn [flat_map filter]. destruct (target m =? Z.of_nat t).
      - cbn [map app]. constructor. rewrite IHL. rewrite !app_assoc. apply Permutation_app_tail. apply Permutation_app_comm.
      - rewrite IHL. rewrite !app_assoc. apply Permutation_app_tail. apply Permutation_app_comm. }
    rewrite G. rewrite IH by (intros; apply H; now right).
    assert (U : map (fun _ => m) (filter (fun t => target m =? Z.of_nat t) (seq 0 size)) = [m]).
    { specialize (H m ltac:(now left)). set (k := Z.to_nat (target m)). assert (Ek : target m = Z.of_nat k) by lia. rewrite Ek.
      replace size with (k + (1 + (size - k - 1)))%nat by lia. rewrite !seq_app, !filter_app. cbn [seq filter]. rewrite !Nat.add_0_l, Z.eqb_refl.
      rewrite (proj2 (forallb_filter_id_none (fun t => Z.of_nat k =? Z.of_nat t) (seq 0 k))), (proj2 (forallb_filter_id_none (fun t => Z.of_nat k =? Z.of_nat t) (seq (k + 1) (size - k - 1)))); [reflexivity| |];
      intros t Ht; apply in_seq in Ht; lia. }
    rewrite U. reflexivity.
Qed.

(** * Where agents are *)
Section Positions.
Context {A : Type}.
Variables (size : nat) (ms : list migration) (f0 : Z -> idmap A).
Hypothesis Hsorted : forall r, im_sorted (f0 r).
Hypothesis Hunique : forall i r1 r2, im_find i (f0 r1) <> None -> im_find i (f0 r2) <> None -> r1 = r2.
Hypothesis Hnodup : NoDup (map migrant ms).
Hypothesis Hms : forall m, In m ms -> source m <> target m /\ 0 <= source m < Z.of_nat size /\ 0 <= target m < Z.of_nat size /\ im_find (migrant m) (f0 (source m)) <> None.
Definition moved (k : nat) (i : identity) : option migration := find (fun m => id_eqb (migrant m) i) (firstn k ms).
Lemma moved_some k i m : moved k i = Some m -> In m ms /\ migrant m = i.
Proof.
  intros H. apply find_some in H. destruct H as [H E]. apply id_eqb_eq in E. split; [|exact E].
  rewrite <- (firstn_skipn k ms). apply in_or_app. now left.
Qed.
Lemma find_snoc {X} (p : X -> bool) l x : find p (l ++ [x]) = match find p l with Some y => Some y | None => if p x then Some x else None end.
Proof. induction l as [|y l IH]; cbn; [now destruct (p x)|]. destruct (p y); [reflexivity|exact IH]. Qed.
Lemma moved_new k m : nth_error ms k = Some m -> moved k (migrant m) = None.
Proof.
  intros H. destruct (moved k (migrant m)) as [m'|] eqn:E; [|reflexivity]. exfalso. unfold moved in E. apply find_some in E. destruct E as [E1 E2]. apply id_eqb_eq in E2.
  assert (D : ms = firstn k ms ++ m :: skipn (S k) ms). { rewrite <- (firstn_skipn (S k) ms) at 1. rewrite (firstn_snoc _ _ _ H), <- app_assoc. reflexivity. }
  rewrite D, map_app in Hnodup. cbn in Hnodup. apply NoDup_remove_2 in Hnodup. apply Hnodup. apply in_or_app. left. rewrite <- E2. now apply in_map.
Qed.
Lemma positions k : (k <= length ms)%nat -> (forall r, im_sorted (after ms f0 k r)) /\
  forall i r, im_find i (after ms f0 k r) = match moved k i with Some m => if r =? target m then im_find i (f0 (source m)) else None | None => im_find i (f0 r) end.
Proof.
  induction k as [|k IH]; intros L; [split; [apply Hsorted|reflexivity]|].
  destruct (IH ltac:(lia)) as [S P]. destruct (nth_error ms k) as [m|] eqn:E; [|apply nth_error_None in E; lia].
  destruct (Hms m (nth_error_In _ _ E)) as (N & Rs & Rt & F). pose proof (moved_new _ _ E) as New.
  destruct (im_find (migrant m) (f0 (source m))) as [a|] eqn:Ea; [|congruence].
  assert (Fk : im_find (migrant m) (after ms f0 k (source m)) = Some a) by now rewrite P, New.
  rewrite (after_S _ _ _ _ E). unfold move. rewrite Fk. split.
  - intros r. unfold upd. destruct (r =? target m); [now apply im_emplace_sorted|]. destruct (r =? source m); [now apply im_erase_sorted|apply S].
  - intros i r. unfold moved. rewrite (firstn_snoc _ _ _ E), find_snoc. fold (moved k i).
    unfold upd. destruct (id_eqb (migrant m) i) eqn:Ei.
    + apply id_eqb_eq in Ei. subst i. rewrite New. destruct (Z.eqb_spec r (target m)) as [->|Nr].
      * rewrite im_find_emplace by apply S. rewrite id_eqb_refl, Ea, P, New.
        destruct (im_find (migrant m) (f0 (target m))) eqn:Et; [|reflexivity]. exfalso. apply N. eapply Hunique; [rewrite Ea; discriminate|rewrite Et; discriminate].
      * destruct (Z.eqb_spec r (source m)) as [->|Ns].
        -- rewrite im_find_erase by apply S. now rewrite id_eqb_refl.
        -- rewrite P, New. destruct (im_find (migrant m) (f0 r)) eqn:Er; [|reflexivity]. exfalso. apply Ns. eapply Hunique; [rewrite Er; discriminate|rewrite Ea; discriminate].
    + assert (Q : im_find i (if r =? target m then im_emplace (migrant m) a (after ms f0 k (target m)) else if r =? source m then im_erase (migrant m) (after ms f0 k (source m)) else after ms f0 k r) = im_find i (after ms f0 k r)).
      { destruct (Z.eqb_spec r (target m)) as [->|Nr]; [rewrite im_find_emplace by apply S; now rewrite Ei|].
        destruct (Z.eqb_spec r (source m)) as [->|Ns]; [rewrite im_find_erase by apply S; now rewrite Ei|reflexivity]. }
      rewrite Q, P. destruct (moved k i); reflexivity.
Qed.
Lemma positions_proper k m : nth_error ms k = Some m ->
  source m <> target m /\ 0 <= source m < Z.of_nat size /\ 0 <= target m < Z.of_nat size /\ exists a, im_find (migrant m) (after ms f0 k (source m)) = Some a.
Proof.
  intros E. destruct (Hms m (nth_error_In _ _ E)) as (N & Rs & Rt & F). repeat split; try assumption; try lia.
  assert (L : (k < length ms)%nat) by (apply nth_error_Some; congruence).
  rewrite (proj2 (positions k ltac:(lia))), (moved_new _ _ E). destruct (im_find _ _) as [a|]; [now exists a|congruence].
Qed.
End Positions.

(** * Executions end *)
Lemma list_sum_bound (l : list nat) b : (forall x, In x l -> (x <= b)%nat) -> (list_sum l <= length l * b)%nat.
Proof. induction l as [|x l IH]; intros H; [reflexivity|]. cbn. specialize (H x (or_introl eq_refl)) as Hx. specialize (IH (fun y Hy => H y (or_intror Hy))). unfold list_sum in IH. lia. Qed.
Definition done_total {A} (size : nat) (s : transit A) : nat := list_sum (map (fun i => pc s (Z.of_nat i)) (seq 0 size)).
Lemma sum_upd (f : Z -> nat) i n : 0 <= i < Z.of_nat n ->
  list_sum (map (fun k => upd f i (S (f i)) (Z.of_nat k)) (seq 0 n)) = S (list_sum (map (fun k => f (Z.of_nat k)) (seq 0 n))).
Proof.
  induction n as [|n IH]; [lia|]. intros H. rewrite seq_S, !map_app, !list_sum_app. cbn [map list_sum fold_right Nat.add]. rewrite !Nat.add_0_r.
  destruct (Z.eq_dec i (Z.of_nat n)) as [->|Ne].
  - rewrite upd_same. rewrite (map_ext_in _ (fun k => f (Z.of_nat k))); [lia|]. intros k Hk. apply in_seq in Hk. apply upd_other. lia.
  - rewrite IH by lia. rewrite upd_other by lia. lia.
Qed.
Lemma step_total {A} size ms b (s s' : transit A) : migration_step size ms b s s' -> (done_total size s < done_total size s')%nat.
Proof.
  intros H. unfold done_total. destruct H; cbn [pc].
  1-4: rewrite sum_upd by assumption; lia.
  assert (E : pc s j = upd (pc s) i (S (pc s i)) j) by (rewrite upd_other by congruence; reflexivity).
  rewrite E. rewrite sum_upd by assumption. rewrite sum_upd by assumption. lia.
Qed.
Lemma start_pc {A} (c : cluster A) : start c = mk_transit (fun _ => O) (agents_at (start c)) (fun _ _ => []).
Proof. reflexivity. Qed.
Lemma steps_bounded {A} size ms (c : cluster A) s : migration_steps size ms (start c) s -> forall i, (pc s i <= length ms)%nat.
Proof.
  remember (start c) as s0 eqn:E0. intros H. induction H as [s|s1 s2 s3 b H IH St]; intros i; subst.
  - cbn. lia.
  - specialize (IH eq_refl). destruct St; cbn [pc]; unfold upd;
    repeat match goal with H : nth_error ms _ = Some _ |- _ => apply nth_lt in H end;
    repeat match goal with |- context [?x =? ?y] => destruct (Z.eqb_spec x y); subst end; try lia; apply IH.
Qed.
Lemma no_endless_run {A} size ms (c : cluster A) : ~ exists run : nat -> transit A, run O = start c /\ forall n, exists b, migration_step size ms b (run n) (run (S n)).
Proof.
  intros (run & R0 & RS).
  assert (G : forall n, migration_steps size ms (start c) (run n) /\ (n <= done_total size (run n))%nat).
  { induction n as [|n [IH1 IH2]]; [rewrite R0; split; [constructor|lia]|]. destruct (RS n) as [b Sb]. split; [econstructor; eassumption|].
    apply step_total in Sb. lia. }
  destruct (G (S (size * length ms))) as [G1 G2]. pose proof (steps_bounded _ _ _ _ G1) as B.
  assert ((done_total size (run (S (size * length ms))) <= size * length ms)%nat); [|lia].
  unfold done_total. etransitivity; [apply (list_sum_bound _ (length ms))|].
  - intros x Hx. apply in_map_iff in Hx. destruct Hx as (k & <- & _). apply B.
  - now rewrite map_length, seq_length.
Qed.

(** * Migration of sensible proposals *)
Lemma process_of_fun {A} (c : cluster A) r n n' : process_of c r n -> process_of c r n' -> n = n'.
Proof. intros [_ H] [_ H']. congruence. Qed.
Lemma process_in {A} (c : cluster A) r n : process_of c r n -> In n c.
Proof. intros [_ H]. eapply nth_error_In; eassumption. Qed.
Lemma start_process {A} (c : cluster A) r n : process_of c r n -> agents_at (start c) r = local_agents n.
Proof. intros [H E]. cbn. destruct (Z.ltb_spec r 0); [lia|]. now rewrite E. Qed.
Lemma start_cases {A} (c : cluster A) r : (exists n, process_of c r n) \/ agents_at (start c) r = [].
Proof.
  destruct (Z.ltb_spec r 0) as [L|L]; [right; cbn; now rewrite (proj2 (Z.ltb_lt _ _) L)|].
  destruct (nth_error c (Z.to_nat r)) as [n|] eqn:E; [left; exists n; now split|right; cbn; now rewrite (proj2 (Z.ltb_ge _ _) L), E].
Qed.
Lemma start_sorted {A} (c : cluster A) r : well_formed c -> im_sorted (agents_at (start c) r).
Proof.
  intros [W _]. destruct (start_cases c r) as [[n P]| ->]; [|constructor]. rewrite (start_process _ _ _ P). apply W. eapply process_in; eassumption.
Qed.
Lemma start_resides {A} (c : cluster A) r i a : well_formed c -> (im_find i (agents_at (start c) r) = Some a <-> resides c r i a).
Proof.
  intros W. rewrite im_find_in by now apply start_sorted. split.
  - intros H. destruct (start_cases c r) as [[n P]|E]; [|rewrite E in H; contradiction]. exists n. split; [exact P|]. now rewrite <- (start_process _ _ _ P).
  - intros (n & P & H). now rewrite (start_process _ _ _ P).
Qed.
Lemma start_unique {A} (c : cluster A) i r1 r2 : well_formed c -> im_find i (agents_at (start c) r1) <> None -> im_find i (agents_at (start c) r2) <> None -> r1 = r2.
Proof.
  intros W H1 H2. destruct (im_find i (agents_at (start c) r1)) as [a1|] eqn:E1; [|congruence]. destruct (im_find i (agents_at (start c) r2)) as [a2|] eqn:E2; [|congruence].
  apply (proj1 (start_resides _ _ _ _ W)) in E1. apply (proj1 (start_resides _ _ _ _ W)) in E2. destruct W as [_ U]. eapply U; eassumption.
Qed.
Lemma resides_range {A} (c : cluster A) r i a : resides c r i a -> 0 <= r < Z.of_nat (length c).
Proof. intros (n & [H E] & _). assert (Z.to_nat r < length c)%nat by (apply nth_error_Some; congruence). lia. Qed.
Lemma sensible_all {A} (c : cluster A) ideas m : sensible c ideas -> In m (concat ideas) ->
  0 <= source m < Z.of_nat (length c) /\ 0 <= target m < Z.of_nat (length c) /\ target m <> source m /\ exists a, resides c (source m) (migrant m) a.
Proof.
  intros (L & H & _) Hm. apply in_concat in Hm. destruct Hm as (l & Hl & Hm). apply In_nth_error in Hl. destruct Hl as [r Hr].
  destruct (H r l m Hr Hm) as (E & R & N & a & Ra). pose proof (resides_range _ _ _ _ Ra). repeat split; try lia; try tauto. now exists a.
Qed.
Section Sensible.
Context {A : Type}.
Variables (c : cluster A) (ideas : list (list migration)).
Hypothesis W : well_formed c.
Hypothesis Se : sensible c ideas.
Let ms := decided (length c) ideas.
Lemma sensible_perm : Permutation ms (concat ideas).
Proof. apply decided_permutation. intros m Hm. now apply (sensible_all c ideas m Se Hm). Qed.
Lemma sensible_agree : agree c false ideas = Ret (repeat ms (length c)).
Proof. apply agree_ret; [exact (proj1 Se)|]. intros m Hm. now apply (sensible_all c ideas m Se Hm). Qed.
Lemma sensible_nodup : NoDup (map migrant ms).
Proof. destruct Se as (_ & _ & N). eapply Permutation_NoDup; [|exact N]. apply Permutation_map. symmetry. apply sensible_perm. Qed.
Lemma sensible_ms m : In m ms -> source m <> target m /\ 0 <= source m < Z.of_nat (length c) /\ 0 <= target m < Z.of_nat (length c) /\ im_find (migrant m) (agents_at (start c) (source m)) <> None.
Proof.
  intros H. apply (Permutation_in _ sensible_perm) in H. destruct (sensible_all _ _ _ Se H) as (R & R' & N & a & Ra).
  apply start_resides in Ra; [|exact W]. rewrite Ra. repeat split; try lia; try congruence.
Qed.
Lemma sensible_proper k m : nth_error ms k = Some m ->
  source m <> target m /\ 0 <= source m < Z.of_nat (length c) /\ 0 <= target m < Z.of_nat (length c) /\ exists a, im_find (migrant m) (after ms (agents_at (start c)) k (source m)) = Some a.
Proof.
  apply positions_proper; [intros r; now apply start_sorted|intros i r1 r2; now apply start_unique|exact sensible_nodup|exact sensible_ms].
Qed.
Lemma sensible_inv s : migration_steps (length c) ms (start c) s -> inv ms (agents_at (start c)) s.
Proof. intros H. refine (inv_steps (length c) ms _ sensible_proper _ _ _ H). rewrite start_pc. apply inv_start with (size := length c). exact sensible_proper. Qed.
Lemma sensible_end s r i a : migration_steps (length c) ms (start c) s -> finished (length c) ms s -> 0 <= r < Z.of_nat (length c) ->
  (In (i, a) (agents_at s r) <-> destined c ideas r i a).
Proof.
  intros H F R. pose proof (sensible_inv s H) as I. rewrite (inv_agents _ _ _ I).
  assert (P : pc s r = length ms). { specialize (F r R). apply nth_error_None in F. pose proof (inv_pc _ _ _ I r). lia. }
  rewrite P. destruct (positions (length c) ms (agents_at (start c)) (fun r => start_sorted c r W) (fun i r1 r2 => start_unique c i r1 r2 W) sensible_nodup sensible_ms (length ms) (le_n _)) as [S Q].
  rewrite <- im_find_in by apply S. rewrite Q. unfold moved. rewrite firstn_all. unfold destined.
  destruct (find _ ms) as [m|] eqn:E.
  - apply find_some in E. destruct E as [Em Ei]. apply id_eqb_eq in Ei. pose proof (Permutation_in _ sensible_perm Em) as Em'. split.
    + intros G. destruct (Z.eqb_spec r (target m)) as [->|]; [|discriminate]. left. exists m. repeat split; try assumption. now apply start_resides.
    + intros [(m' & H1 & H2 & H3 & H4)|[N _]]; [|exfalso; exact (N m Em' Ei)].
      assert (m' = m).
      { destruct Se as (_ & _ & ND). assert (Hn : forall l (x y : migration), NoDup (map migrant l) -> In x l -> In y l -> migrant x = migrant y -> x = y).
        { clear. induction l as [|z l IH]; intros x y N Hx Hy E; [contradiction|]. cbn in N. inversion N as [|? ? N1 N2]; subst. destruct Hx as [->|Hx], Hy as [->|Hy]; [reflexivity| | |now apply IH].
          - exfalso. apply N1. rewrite E. now apply in_map.
          - exfalso. apply N1. rewrite <- E. now apply in_map. }
        eapply Hn; [exact ND|exact H1|exact Em'|congruence]. }
      subst m'. rewrite <- H3, Z.eqb_refl. now apply start_resides.
  - assert (N : forall m, In m (concat ideas) -> migrant m <> i).
    { intros m Hm Ei. apply (Permutation_in _ (Permutation_sym sensible_perm)) in Hm. pose proof (find_none _ _ E m Hm) as K. cbn in K. rewrite Ei, id_eqb_refl in K. discriminate. }
    rewrite start_resides by exact W. split; [intros G; right; now split|]. intros [(m & H1 & H2 & _)|[_ G]]; [exfalso; exact (N m H1 H2)|exact G].
Qed.
Lemma sensible_progress s : migration_steps (length c) ms (start c) s -> ~ finished (length c) ms s -> exists s', migration_step (length c) ms false s s'.
Proof. intros H N. eapply progress; [exact sensible_proper|now apply sensible_inv|exact N]. Qed.
Lemma sensible_channels s i j : migration_steps (length c) ms (start c) s -> finished (length c) ms s -> 0 <= i < Z.of_nat (length c) -> 0 <= j < Z.of_nat (length c) -> channel s i j = [].
Proof.
  intros H F Ri Rj. pose proof (sensible_inv s H) as I. rewrite (inv_channel _ _ _ I). apply between_empty with (size := length c); [exact sensible_proper|].
  pose proof (F i Ri) as Fi. pose proof (F j Rj) as Fj. apply nth_error_None in Fi, Fj. pose proof (inv_pc _ _ _ I i). lia.
Qed.
End Sensible.
