(** Migration home, address books, and proposals that are not sensible. *)
From Coq Require Import ZifyBool ZifyNat.
From Coq Require Import Permutation.
From Verif Require Import Base Identity Identity_proofs IdMap IdMap_proofs Communicator Distributed Distributed_spec Distributed_proofs Distributed_proofs2.

(** * The end of the simulation *)
Definition homeward {A} (c : cluster A) : list (list migration) :=
  map (fun x => if Nat.eqb (fst x) 0 then [] else map (fun a => mk_migration (Z.of_nat (fst x)) 0 (fst a)) (local_agents (snd x))) (combine (seq 0 (length c)) c).
Lemma filter_all {X} (p : X -> bool) l : (forall x, In x l -> p x = true) -> filter p l = l.
Proof. induction l as [|x l IH]; intros H; [reflexivity|]. cbn. rewrite H by now left. f_equal. apply IH. intros; apply H; now right. Qed.
Lemma propose_over {A} size r (n : node A) ideas :
  propose size true r n ideas = Ret (map (fun t => filter (fun m => target m =? Z.of_nat t) (if Nat.eqb r 0 then [] else map (fun a => mk_migration (Z.of_nat r) 0 (fst a)) (local_agents n))) (seq 0 size)).
Proof.
  unfold propose. f_equal. destruct (Nat.eqb r 0).
  - cbn. generalize O. induction size as [|k IH]; intros o; [reflexivity|]. cbn. f_equal. apply IH.
  - apply map_ext. intros t. destruct (Nat.eqb_spec t 0) as [->|N].
    + rewrite filter_all; [reflexivity|]. intros x H. apply in_map_iff in H. destruct H as (a & <- & _). reflexivity.
    + symmetry. apply forallb_filter_id_none. intros x H. apply in_map_iff in H. destruct H as (a & <- & _). cbn. lia.
Qed.
Lemma combine_nth_error {X Y} (a : list X) (b : list Y) k x y : nth_error (combine a b) k = Some (x, y) <-> nth_error a k = Some x /\ nth_error b k = Some y.
Proof.
  revert b k. induction a as [|u a IH]; intros [|v b] [|k]; cbn; try (split; [discriminate|intros [? ?]; congruence]).
  - split; [intros H; injection H; intros; subst; auto|intros [E1 E2]; congruence].
  - apply IH.
Qed.
Lemma nth_error_seq n k x : nth_error (seq 0 n) k = Some x <-> (x = k /\ k < n)%nat.
Proof.
  split.
  - intros H. assert (L : (k < n)%nat) by (rewrite <- (seq_length n 0); apply nth_error_Some; congruence). split; [|exact L].
    rewrite (nth_error_nth' _ O) in H by now rewrite seq_length. rewrite seq_nth in H by exact L. injection H as <-. reflexivity.
  - intros [-> L]. rewrite (nth_error_nth' _ O) by now rewrite seq_length. rewrite seq_nth by exact L. reflexivity.
Qed.
Lemma homeward_length {A} (c : cluster A) : length (homeward c) = length c.
Proof. unfold homeward. rewrite map_length, combine_length, seq_length. lia. Qed.
Lemma map_combine3 {A Y} (c : cluster A) (ideas : list (list migration)) (f : nat -> node A -> Y) : length ideas = length c ->
  map (fun x : nat * (node A * list migration) => f (fst x) (fst (snd x))) (combine (seq 0 (length c)) (combine c ideas)) = map (fun x => f (fst x) (snd x)) (combine (seq 0 (length c)) c).
Proof.
  generalize O. revert ideas. induction c as [|n c IH]; intros [|l ideas] o H; cbn in *; try discriminate; [reflexivity|]. f_equal. apply IH. lia.
Qed.
Lemma homeward_in {A} (c : cluster A) r l m : nth_error (homeward c) r = Some l -> In m l ->
  (0 < r)%nat /\ source m = Z.of_nat r /\ target m = 0 /\ exists n a, nth_error c r = Some n /\ In (migrant m, a) (local_agents n).
Proof.
  unfold homeward. intros H Hm. rewrite nth_error_map in H. destruct (nth_error (combine _ c) r) as [[k n]|] eqn:E; [|discriminate].
  cbn in H. injection H as <-. apply combine_nth_error in E. destruct E as [E1 E2]. apply nth_error_seq in E1. destruct E1 as [-> L].
  destruct (Nat.eqb_spec r 0) as [->|N]; [contradiction|]. apply in_map_iff in Hm. destruct Hm as ([i a] & <- & Ha). cbn. repeat split; try lia. now exists n, a.
Qed.
Lemma agree_over {A} (c : cluster A) ideas : length ideas = length c -> agree c true ideas = agree c false (homeward c).
Proof.
  intros L. rewrite (agree_ret c (homeward c) (homeward_length c)).
  2:{ intros m Hm. apply in_concat in Hm. destruct Hm as (l & Hl & Hm). apply In_nth_error in Hl. destruct Hl as [r Hr].
      assert (r < length c)%nat by (rewrite <- (homeward_length c); apply nth_error_Some; congruence). destruct (homeward_in _ _ _ _ Hr Hm) as (? & _ & -> & _). lia. }
  unfold agree. rewrite (all_outcomes_ret _ (fun x => map (fun t => filter (fun m => target m =? Z.of_nat t)
      (if Nat.eqb (fst x) 0 then [] else map (fun a => mk_migration (Z.of_nat (fst x)) 0 (fst a)) (local_agents (fst (snd x))))) (seq 0 (length c)))) by (intros; apply propose_over).
  rewrite (map_combine3 c ideas (fun r n => map (fun t => filter (fun m => target m =? Z.of_nat t) (if Nat.eqb r 0 then [] else map (fun a => mk_migration (Z.of_nat r) 0 (fst a)) (local_agents n))) (seq 0 (length c)))) by exact L.
  rewrite <- (map_map (fun x => if Nat.eqb (fst x) 0 then [] else map (fun a => mk_migration (Z.of_nat (fst x)) 0 (fst a)) (local_agents (snd x)))
      (fun l => map (fun t => filter (fun m => target m =? Z.of_nat t) l) (seq 0 (length c)))).
  fold (homeward c). apply agree_rows. apply homeward_length.
Qed.
Lemma resides_nth {A} (c : cluster A) r n i a : nth_error c r = Some n -> In (i, a) (local_agents n) -> resides c (Z.of_nat r) i a.
Proof. intros E H. exists n. split; [split; [lia|now rewrite Nat2Z.id]|exact H]. Qed.
Lemma NoDup_app_intro {X} (a b : list X) : NoDup a -> NoDup b -> (forall x, In x a -> In x b -> False) -> NoDup (a ++ b).
Proof.
  intros Ha Hb D. induction Ha as [|x a Hx Ha IH]; [exact Hb|]. cbn. constructor.
  - intros H. apply in_app_or in H. destruct H as [H|H]; [contradiction|]. eapply D; [now left|exact H].
  - apply IH. intros y Hy. apply D. now right.
Qed.
Lemma homeward_sensible {A} (c : cluster A) : well_formed c -> sensible c (homeward c).
Proof.
  intros W. split; [apply homeward_length|]. split.
  - intros r l m Hr Hm. assert (Lr : (r < length c)%nat) by (rewrite <- (homeward_length c); apply nth_error_Some; congruence).
    destruct (homeward_in _ _ _ _ Hr Hm) as (P & E1 & E2 & n & a & En & Ha). rewrite E1, E2. repeat split; try lia. exists a. eapply resides_nth; eassumption.
  - destruct W as [Ws Wu]. unfold homeward.
    assert (G : forall c' o, (forall k n, nth_error c' k = Some n -> nth_error c (o + k) = Some n) ->
      NoDup (map migrant (concat (map (fun x : nat * node A => if Nat.eqb (fst x) 0 then [] else map (fun a => mk_migration (Z.of_nat (fst x)) 0 (fst a)) (local_agents (snd x))) (combine (seq o (length c')) c'))))).
    { induction c' as [|n c' IH]; intros o H; [constructor|]. cbn [length seq combine map concat]. rewrite map_app. cbn [fst snd].
      assert (En : nth_error c o = Some n) by (specialize (H O n eq_refl); now rewrite Nat.add_0_r in H).
      apply NoDup_app_intro.
      - destruct (Nat.eqb o 0); [constructor|]. rewrite map_map. cbn. apply im_keys_nodup. apply (Ws n). eapply nth_error_In; eassumption.
      - apply IH. intros k n' Hk. specialize (H (S k) n' Hk). now rewrite Nat.add_succ_r in H.
      - intros i Hi Hj. destruct (Nat.eqb o 0); [contradiction|]. rewrite map_map in Hi. apply in_map_iff in Hi. destruct Hi as ([i' a] & <- & Ha). cbn in *.
        apply in_map_iff in Hj. destruct Hj as (m & Em & Hm). apply in_concat in Hm. destruct Hm as (l & Hl & Hm). apply in_map_iff in Hl. destruct Hl as ([k n'] & <- & Hk).
        apply In_nth_error in Hk. destruct Hk as [j Hj]. apply combine_nth_error in Hj. destruct Hj as [Hj1 Hj2].
        assert (Ek : k = (S o + j)%nat). { rewrite (nth_error_nth' _ O) in Hj1; [rewrite seq_nth in Hj1; [congruence|]|]. all: rewrite ?seq_length; apply nth_error_Some; congruence. }
        cbn in Hm. destruct (Nat.eqb k 0); [contradiction|]. apply in_map_iff in Hm. destruct Hm as ([i2 a2] & <- & Ha2). cbn in Em. subst i2.
        assert (En' : nth_error c k = Some n'). { specialize (H (S j) n' Hj2). rewrite Ek. now rewrite Nat.add_succ_r in H. }
        pose proof (Wu _ _ _ _ _ (resides_nth _ _ _ _ _ En Ha) (resides_nth _ _ _ _ _ En' Ha2)). lia. }
    apply (G c O). intros k n Hk. exact Hk.
Qed.
Lemma homeward_destined {A} (c : cluster A) r i a : well_formed c -> c <> [] -> (destined c (homeward c) r i a <-> r = 0 /\ exists r', resides c r' i a).
Proof.
  intros W Ne. unfold destined. split.
  - intros [(m & Hm & Ei & Er & Ra)|[N Ra]].
    + apply in_concat in Hm. destruct Hm as (l & Hl & Hm). apply In_nth_error in Hl. destruct Hl as [k Hk]. destruct (homeward_in _ _ _ _ Hk Hm) as (_ & _ & Et & _).
      split; [congruence|]. eauto.
    + destruct (Z.eq_dec r 0) as [->|Nr]; [split; [reflexivity|eauto]|]. exfalso. destruct Ra as (n & [Hr En] & Ha).
      apply (N (mk_migration r 0 i)); [|reflexivity]. apply in_concat. exists (map (fun a => mk_migration (Z.of_nat (Z.to_nat r)) 0 (fst a)) (local_agents n)). split.
      * unfold homeward. apply in_map_iff. exists (Z.to_nat r, n). cbn. split; [destruct (Nat.eqb_spec (Z.to_nat r) 0); [lia|reflexivity]|].
        eapply nth_error_In with (n := Z.to_nat r). apply combine_nth_error. split; [|exact En]. apply nth_error_seq. split; [reflexivity|apply nth_error_Some; congruence].
      * apply in_map_iff. exists (i, a). cbn. split; [f_equal; lia|exact Ha].
  - intros [-> [r' Ra]]. destruct (Z.eq_dec r' 0) as [->|Nr].
    + right. split; [|exact Ra]. intros m Hm <-. destruct (sensible_all _ _ _ (homeward_sensible c W) Hm) as (_ & _ & N & a' & Ra').
      destruct W as [_ U]. pose proof (U _ _ _ _ _ Ra Ra') as E. apply in_concat in Hm. destruct Hm as (l & Hl & Hm). apply In_nth_error in Hl. destruct Hl as [k Hk].
      destruct (homeward_in _ _ _ _ Hk Hm) as (_ & _ & Et & _). congruence.
    + left. exists (mk_migration r' 0 i). cbn. repeat split; [|exact Ra]. destruct Ra as (n & [Hr En] & Ha).
      apply in_concat. exists (map (fun a => mk_migration (Z.of_nat (Z.to_nat r')) 0 (fst a)) (local_agents n)). split.
      * unfold homeward. apply in_map_iff. exists (Z.to_nat r', n). cbn. split; [destruct (Nat.eqb_spec (Z.to_nat r') 0); [lia|reflexivity]|].
        eapply nth_error_In with (n := Z.to_nat r'). apply combine_nth_error. split; [|exact En]. apply nth_error_seq. split; [reflexivity|apply nth_error_Some; congruence].
      * apply in_map_iff. exists (i, a). cbn. split; [f_equal; lia|exact Ha].
Qed.

(** * Address books *)
Lemma places_unique (l : list (Z * identity)) i r o : (forall p, In p l -> snd p = i -> fst p = r) -> In i (map snd l) -> last_place i l o = Some r.
Proof.
  intros H Hi. destruct (last_place_in i l o Hi) as (b & r' & a & E & _ & L). rewrite L. f_equal. apply (H (r', i)); [|reflexivity].
  rewrite E. apply in_or_app. right. now left.
Qed.
Lemma nodup_migrant (l : list migration) (x y : migration) : NoDup (map migrant l) -> In x l -> In y l -> migrant x = migrant y -> x = y.
Proof.
  induction l as [|z l IH]; intros N Hx Hy E; [contradiction|]. cbn in N. inversion N as [|? ? N1 N2]; subst. destruct Hx as [->|Hx], Hy as [->|Hy]; [reflexivity| | |now apply IH].
  - exfalso. apply N1. rewrite E. now apply in_map.
  - exfalso. apply N1. rewrite <- E. now apply in_map.
Qed.
Lemma books_after {A} (ms : list migration) (n : node A) : im_sorted (locations n) -> NoDup (map migrant ms) ->
  (forall m, In m ms -> im_find (migrant m) (locations (process_migrations ms n)) = Some (target m)) /\
  (forall i, (forall m, In m ms -> migrant m <> i) -> im_find i (locations (process_migrations ms n)) = im_find i (locations n)).
Proof.
  intros S N. unfold process_migrations. cbn [locations]. split.
  - intros m Hm. rewrite (proj2 (learn_find _ _ (migrant m) S)). apply places_unique.
    + intros p Hp E. apply in_map_iff in Hp. destruct Hp as (m' & <- & Hm'). cbn in *. f_equal. eapply nodup_migrant; eassumption.
    + rewrite map_map. cbn. now apply in_map.
  - intros i H. rewrite (proj2 (learn_find _ _ i S)). apply last_place_none. rewrite map_map. cbn. intros Hi. apply in_map_iff in Hi. destruct Hi as (m & E & Hm). exact (H m Hm E).
Qed.

(** * Proposals that are not sensible *)
Lemma agree_one {A} (c : cluster A) ideas m : length ideas = length c -> concat ideas = [m] -> 0 <= target m < Z.of_nat (length c) ->
  agree c false ideas = Ret (repeat [m] (length c)).
Proof.
  intros L E R. rewrite agree_ret; [|exact L|intros m' H; rewrite E in H; destruct H as [<-|[]]; exact R].
  do 2 f_equal. pose proof (decided_permutation (length c) ideas) as P. rewrite E in P. apply Permutation_length_1_inv. symmetry. apply P.
  intros m' [<-|[]]. exact R.
Qed.
Lemma single_self {A} (c : cluster A) m s : well_formed c -> source m = target m -> (exists a, resides c (source m) (migrant m) a) ->
  migration_steps (length c) [m] (start c) s ->
  (pc s (source m) = O \/ pc s (source m) = 1%nat) /\ (pc s (source m) = 1%nat -> forall r, im_find (migrant m) (agents_at s r) = None) /\
  (pc s (source m) = O -> agents_at s (source m) = agents_at (start c) (source m)) /\ (forall r, r <> source m -> agents_at s r = agents_at (start c) r).
Proof.
  intros W E [a Ra] H. remember (start c) as s0 eqn:E0. induction H as [s|s1 s2 s3 b H IH St]; subst.
  - repeat split; [now left|cbn; lia].
  - specialize (IH eq_refl). destruct IH as (I1 & I2 & I3 & I4).
    assert (Here : im_find (migrant m) (agents_at (start c) (source m)) = Some a) by now apply start_resides.
    assert (There : forall r, r <> source m -> im_find (migrant m) (agents_at (start c) r) = None).
    { intros r Nr. destruct (im_find (migrant m) (agents_at (start c) r)) eqn:Er; [|reflexivity]. exfalso. apply Nr. eapply start_unique; [exact W|rewrite Er; discriminate|rewrite Here; discriminate]. }
    assert (One : forall k m', nth_error [m] k = Some m' -> k = O /\ m' = m) by (intros [|[|k]] m' Hk; cbn in Hk; try discriminate; split; congruence).
    destruct St as [i m' s R Em Ns Nt|i m' s R Em Es F|i m' a' s R Em Es F|j m' i a' rest s R Em Et Ns Hc|i j m1 m2 a' s Ri Rj Em1 Es1 Et1 F Em2 Et2 Es2 Nij Hc].
    + destruct (One _ _ Em) as [Ek ->]. cbn [pc agents_at]. rewrite upd_other by exact Ns. tauto.
    + exfalso. destruct (One _ _ Em) as [Ek ->]. subst i. rewrite (I3 Ek) in F. congruence.
    + destruct (One _ _ Em) as [Ek ->]. subst i. cbn [pc agents_at]. rewrite upd_same, Ek. split; [now right|]. split; [|split; [discriminate|]].
      * intros _ r. destruct (Z.eq_dec r (source m)) as [->|Nr].
        -- rewrite upd_same, im_find_erase, id_eqb_refl; [reflexivity|]. rewrite (I3 Ek). now apply start_sorted.
        -- rewrite upd_other by exact Nr. rewrite I4 by exact Nr. now apply There.
      * intros r Nr. rewrite upd_other by exact Nr. now apply I4.
    + exfalso. destruct (One _ _ Em) as [Ek ->]. congruence.
    + exfalso. destruct (One _ _ Em1) as [Ek ->]. congruence.
Qed.
Lemma single_sorted {A} (c : cluster A) m s r : well_formed c -> source m = target m -> (exists a, resides c (source m) (migrant m) a) ->
  migration_steps (length c) [m] (start c) s -> im_sorted (agents_at s r).
Proof.
  intros W E R H. remember (start c) as s0 eqn:E0. revert r. induction H as [s|s1 s2 s3 b H IH St]; intros r; subst.
  - now apply start_sorted.
  - specialize (IH eq_refl). destruct St; cbn [agents_at]; unfold upd; repeat match goal with |- context [?x =? ?y] => destruct (Z.eqb_spec x y) end; try apply IH; try (apply im_erase_sorted, IH); apply im_emplace_sorted, IH.
Qed.
Lemma single_absent {A} (c : cluster A) m s : source m <> target m -> im_find (migrant m) (agents_at (start c) (source m)) = None ->
  migration_steps (length c) [m] (start c) s -> pc s (target m) = O /\ channel s (source m) (target m) = [] /\ (forall r, agents_at s r = agents_at (start c) r).
Proof.
  intros N F0 H. remember (start c) as s0 eqn:E0. induction H as [s|s1 s2 s3 b H IH St]; subst.
  - cbn. repeat split.
  - specialize (IH eq_refl F0). destruct IH as (I1 & I2 & I3).
    assert (One : forall k m', nth_error [m] k = Some m' -> k = O /\ m' = m) by (intros [|[|k]] m' Hk; cbn in Hk; try discriminate; split; congruence).
    destruct St as [i m' s R Em Ns Nt|i m' s R Em Es F|i m' a' s R Em Es F|j m' i a' rest s R Em Et Ns Hc|i j m1 m2 a' s Ri Rj Em1 Es1 Et1 F Em2 Et2 Es2 Nij Hc].
    + destruct (One _ _ Em) as [Ek ->]. cbn [pc agents_at channel]. rewrite upd_other by congruence. tauto.
    + destruct (One _ _ Em) as [Ek ->]. cbn [pc agents_at channel]. rewrite upd_other by congruence. tauto.
    + exfalso. destruct (One _ _ Em) as [Ek ->]. subst i. rewrite I3 in F. congruence.
    + exfalso. destruct (One _ _ Em) as [Ek ->]. subst j. congruence.
    + exfalso. destruct (One _ _ Em1) as [Ek ->]. subst i. rewrite I3 in F. congruence.
Qed.
