(** Properties C99 to C103: agents and messages across processes. *)
From Coq Require Import ZifyBool ZifyNat.
From Coq Require Import Permutation.
From Verif Require Import Base Identity Identity_proofs IdMap IdMap_proofs Multimap Communicator Distributed Distributed_spec Distributed_proofs Distributed_proofs2 Distributed_proofs3 Distributed_proofs4.

(** ** C99 *)
(** After an exchange of activations all processes know where the agents announced are (should two
    processes have announced the same agent, the one with the higher rank), and nothing else changes. *)
Theorem C99_everyone_learns {A} (c : cluster A) : (forall n, In n c -> ascending (locations n)) ->
  exists xs, activate c = Ret xs /\ length xs = length c /\
  forall r n, nth_error c r = Some n -> exists n',
    nth_error xs r = Some (n', Z.of_nat (list_sum (map (fun n => length (activated n)) c))) /\
    activated n' = [] /\ local_agents n' = local_agents n /\ deactivated n' = deactivated n /\
    (forall i, (exists p, announced c i p) -> exists p, im_find i (locations n') = Some p /\ announced c i p /\ forall p', announced c i p' -> p' <= p) /\
    (forall i, (forall p, ~ announced c i p) -> im_find i (locations n') = im_find i (locations n)).
Proof.
  intros H. rewrite activate_ret. eexists. split; [reflexivity|]. split; [apply map_length|].
  intros r n Hn. eexists. rewrite nth_error_map, Hn. cbn [option_map]. split; [rewrite announcements_length; reflexivity|].
  cbn [activated local_agents deactivated locations]. repeat split.
  - intros i Hi. assert (S : im_sorted (locations n)) by (apply H; eapply nth_error_In; eassumption).
    rewrite (proj2 (learn_find _ _ i S)). now apply announced_place.
  - intros i Hi. assert (S : im_sorted (locations n)) by (apply H; eapply nth_error_In; eassumption).
    rewrite (proj2 (learn_find _ _ i S)). now apply not_announced_place.
Qed.
Print Assumptions C99_everyone_learns.
(** An agent created on one process is found there by all. *)
Theorem C99_new_agent_found {A} (c1 c2 : cluster A) n i (a : A) xs : let rank := Z.of_nat (length c1) in
  (forall n', In n' (c1 ++ n :: c2) -> ascending (locations n')) -> (forall n', In n' (c1 ++ c2) -> ~ In i (activated n')) ->
  activate (c1 ++ create_agent rank i a n :: c2) = Ret xs ->
  forall x, In x xs -> im_find i (locations (fst x)) = Some rank.
Proof.
  intros rank S N E x Hx. set (c := c1 ++ create_agent rank i a n :: c2) in *.
  destruct (C99_everyone_learns c) as (xs' & E' & L & G).
  - intros n' H. apply in_app_or in H. destruct H as [H|[<-|H]]; [apply S; apply in_or_app; now left| |apply S; apply in_or_app; right; now right].
    cbn. apply im_set_sorted. apply S. apply in_or_app. right. now left.
  - rewrite E in E'. injection E' as <-. apply In_nth_error in Hx. destruct Hx as [r Hr].
    assert (Lr : (r < length c)%nat) by (rewrite <- L; apply nth_error_Some; congruence).
    destruct (nth_error c r) as [n0|] eqn:En; [|apply nth_error_None in En; lia]. destruct (G r n0 En) as (n' & E' & _ & _ & _ & K & _). rewrite Hr in E'. injection E' as ->. cbn [fst].
    assert (U : forall p, announced c i p <-> p = rank).
    { intros p. unfold announced, process_of. split.
      - intros (m & [Hp Em] & Hm). destruct (Z.eq_dec p rank) as [|Np]; [assumption|exfalso].
        apply (N m); [|exact Hm]. destruct (Nat.lt_trichotomy (Z.to_nat p) (length c1)) as [Lt|[Eq|Gt]]; [| unfold rank in Np; lia|].
        + unfold c in Em. rewrite nth_error_app1 in Em by exact Lt. apply in_or_app. left. eapply nth_error_In; eassumption.
        + unfold c in Em. rewrite nth_error_app2 in Em by lia. destruct (Z.to_nat p - length c1)%nat as [|k] eqn:Ek; [lia|]. cbn in Em. apply in_or_app. right. eapply nth_error_In; eassumption.
      - intros ->. exists (create_agent rank i a n). unfold rank. split; [split; [lia|]|].
        + unfold c. rewrite Nat2Z.id, nth_error_app2, Nat.sub_diag by lia. reflexivity.
        + cbn. apply in_or_app. right. now left. }
    destruct (K i) as (p & Ep & Hp & _); [exists rank; now apply U|]. apply U in Hp. now subst p.
Qed.
Print Assumptions C99_new_agent_found.
Example ex_c99 : let n0 := mk_node [] [] [] [] in
  activate [create_agent 0 [1] tt n0; create_agent 1 [3] tt (create_agent 1 [2] tt n0)] =
  Ret [(mk_node [([1], 0); ([2], 1); ([3], 1)] [([1], tt)] [] [], 3); (mk_node [([1], 0); ([2], 1); ([3], 1)] [([2], tt); ([3], tt)] [] [], 3)].
Proof. reflexivity. Qed.

(** ** C100 *)
(** What processes exchange is as long as the list of agents deactivated, instead of one entry per process. *)
Theorem C100_defined_exactly {A} (c : cluster A) : deactivate c = UB <-> exists n, In n c /\ length (deactivated n) <> length c.
Proof.
  split.
  - intros H. destruct (proj2 (all_to_all_ub (map deactivated c))) as (row & Hr & N).
    + unfold deactivate in H. destruct (all_to_all _); [discriminate|discriminate|reflexivity].
    + apply in_map_iff in Hr. destruct Hr as (n & <- & Hn). rewrite map_length in N. now exists n.
  - intros (n & Hn & N). unfold deactivate. rewrite (proj1 (all_to_all_ub (map deactivated c))); [reflexivity|]. exists (deactivated n). split; [now apply in_map|now rewrite map_length].
Qed.
Print Assumptions C100_defined_exactly.
(** So it is undefined whenever no agent has been deactivated... *)
Theorem C100_nothing_deactivated_refuted {A} (c : cluster A) : c <> [] -> (forall n, In n c -> deactivated n = []) -> deactivate c = UB.
Proof.
  intros N H. apply C100_defined_exactly. destruct c as [|n c]; [congruence|]. exists n. split; [now left|]. rewrite (H n) by now left. cbn. lia.
Qed.
Print Assumptions C100_nothing_deactivated_refuted.
(** ... and the next time after it has been defined. *)
Theorem C100_second_time_refuted {A} (c : cluster A) xs : c <> [] -> (forall n, In n c -> ascending (locations n)) -> deactivate c = Ret xs -> deactivate (map fst xs) = UB.
Proof.
  intros N S E. assert (L : forall n, In n c -> length (deactivated n) = length c).
  { intros n Hn. destruct (Nat.eq_dec (length (deactivated n)) (length c)) as [|D]; [assumption|]. exfalso. assert (U : deactivate c = UB) by (apply C100_defined_exactly; eauto). congruence. }
  rewrite deactivate_ret in E by exact L. injection E as <-. apply C100_defined_exactly. destruct c as [|n c]; [congruence|].
  set (C := n :: c) in *. eexists. split; [cbn [length seq combine map C]; left; reflexivity|]. cbn [fst snd].
  destruct (forget_all (told C O) n (S n ltac:(now left))) as (_ & _ & _ & ->). rewrite app_length.
  assert (T : length (told C O) = length C).
  { unfold told. rewrite (flat_map_some _ (fun n => hd [] (deactivated n))); [apply map_length|]. intros x Hx. specialize (L x Hx). destruct (deactivated x); [unfold C in L; cbn in L; lia|reflexivity]. }
  rewrite T, (L n) by now left. rewrite map_length, map_length, combine_length, seq_length. unfold C. cbn. lia.
Qed.
Print Assumptions C100_second_time_refuted.
(** When it is defined, the process of rank [r] forgets the [r]-th agent that each process deactivated, and no other. *)
Theorem C100_forgets_exactly {A} (c : cluster A) xs r n x : (forall n, In n c -> ascending (locations n)) ->
  deactivate c = Ret xs -> nth_error c r = Some n -> nth_error xs r = Some x ->
  snd x = Z.of_nat (length c) /\ local_agents (fst x) = local_agents n /\
  forall i, (forall n', In n' c -> nth_error (deactivated n') r <> Some i) /\ im_find i (locations (fst x)) = im_find i (locations n) \/
            (exists n', In n' c /\ nth_error (deactivated n') r = Some i) /\ im_find i (locations (fst x)) = None.
Proof.
  intros S E En Ex. assert (L : forall n, In n c -> length (deactivated n) = length c).
  { intros m Hm. destruct (Nat.eq_dec (length (deactivated m)) (length c)) as [|D]; [assumption|]. exfalso. assert (U : deactivate c = UB) by (apply C100_defined_exactly; eauto). congruence. }
  rewrite deactivate_ret in E by exact L. injection E as <-. rewrite nth_error_map in Ex.
  assert (Ec : nth_error (combine (seq 0 (length c)) c) r = Some (r, n)) by (apply combine_nth_error; split; [apply nth_error_seq; split; [reflexivity|apply nth_error_Some; congruence]|exact En]).
  rewrite Ec in Ex. cbn in Ex. injection Ex as <-. cbn [fst snd]. pose proof (nth_error_In _ _ En) as Hn.
  destruct (forget_all (told c r) n (S n Hn)) as (F & F2 & _ & _). split; [now rewrite L|]. split; [exact F2|]. intros i. rewrite F.
  destruct (existsb (id_eqb i) (told c r)) eqn:Ee.
  - right. apply existsb_exists in Ee. destruct Ee as (j & Hj & Ej). apply id_eqb_eq in Ej. subst j. apply in_flat_map in Hj. destruct Hj as (n' & Hn' & Hi).
    split; [|reflexivity]. exists n'. split; [exact Hn'|]. destruct (nth_error (deactivated n') r); [|contradiction]. destruct Hi as [->|[]]. reflexivity.
  - left. split; [|reflexivity]. intros n' Hn' K. assert (existsb (id_eqb i) (told c r) = true); [|congruence]. apply existsb_exists. exists i. split; [|apply id_eqb_refl].
    apply in_flat_map. exists n'. split; [exact Hn'|]. rewrite K. now left.
Qed.
Print Assumptions C100_forgets_exactly.
(** So, if there are other processes, no deactivated agent is forgotten by all of them. *)
Theorem C100_not_told_refuted {A} (c : cluster A) xs r k n n' x i : (forall n, In n c -> ascending (locations n)) -> NoDup (concat (map deactivated c)) ->
  deactivate c = Ret xs -> In n' c -> nth_error (deactivated n') k = Some i -> r <> k ->
  nth_error c r = Some n -> nth_error xs r = Some x -> im_find i (locations n) <> None -> im_find i (locations (fst x)) <> None.
Proof.
  intros S ND E Hn' Hk Nrk En Ex H. destruct (C100_forgets_exactly c xs r n x S E En Ex) as (_ & _ & G). destruct (G i) as [[_ ->]|[(n2 & Hn2 & K) _]]; [exact H|exfalso].
  assert (U : forall l : list (list identity), NoDup (concat l) -> forall a b p q, In a l -> In b l -> nth_error a p = Some i -> nth_error b q = Some i -> p = q).
  { clear. induction l as [|y l IH]; intros N a b p q Ha Hb Hp Hq; [contradiction|]. cbn in N.
    assert (D : forall z, In z y -> In z (concat l) -> False).
    { intros z Hz Hz'. apply in_split in Hz. destruct Hz as (u & v & ->). rewrite <- app_assoc in N. cbn in N. apply NoDup_remove_2 in N. apply N. apply in_or_app. right. apply in_or_app. now right. }
    assert (Ny : NoDup y) by (clear - N; induction y as [|z y IHy]; [constructor|]; cbn in N; inversion N; subst; constructor; [intros ?; apply H1; apply in_or_app; now left|now apply IHy]).
    assert (Nl : NoDup (concat l)) by (clear - N; induction y as [|z y IHy]; [exact N|]; apply IHy; cbn in N; now inversion N).
    destruct Ha as [->|Ha], Hb as [->|Hb].
    - apply (proj1 (NoDup_nth_error _) Ny); [apply nth_error_Some; congruence|congruence].
    - exfalso. apply (D i); [eapply nth_error_In; eassumption|]. apply in_concat. exists b. split; [exact Hb|eapply nth_error_In; eassumption].
    - exfalso. apply (D i); [eapply nth_error_In; eassumption|]. apply in_concat. exists a. split; [exact Ha|eapply nth_error_In; eassumption].
    - exact (IH Nl a b p q Ha Hb Hp Hq). }
  apply Nrk. eapply (U (map deactivated c) ND (deactivated n2) (deactivated n')); [now apply in_map|now apply in_map|exact K|exact Hk].
Qed.
Print Assumptions C100_not_told_refuted.
(** The process that an agent is removed from has it no longer, keeps the others and lists it for the next exchange. *)
Theorem C100_removed {A} (n : node A) i : (forall j a, In (j, a) (local_agents (remove_agent i n)) <-> In (j, a) (local_agents n) /\ j <> i) /\
  (forall j r, In (j, r) (locations (remove_agent i n)) <-> In (j, r) (locations n) /\ j <> i) /\ deactivated (remove_agent i n) = deactivated n ++ [i] /\ activated (remove_agent i n) = activated n.
Proof.
  assert (X : forall V (m : idmap V) j (v : V), In (j, v) (im_erase i m) <-> In (j, v) m /\ j <> i).
  { intros V m j v. unfold im_erase. rewrite filter_In. cbn [fst]. split; intros [H1 H2]; (split; [exact H1|]).
    - intros ->. rewrite id_eqb_refl in H2. discriminate.
    - now rewrite id_eqb_neq. }
  split; [intros; apply X|]. split; [intros; apply X|]. auto.
Qed.
Print Assumptions C100_removed.
Example ex_c100 : let n0 := mk_node [([1], 0); ([2], 0)] [([1], tt); ([2], tt)] [] [] in let n1 := mk_node [([1], 0); ([2], 0)] [] [] [[8]; [9]] in
  deactivate [n0; n1] = UB /\
  deactivate [remove_agent [2] (remove_agent [1] n0); n1] =
    Ret [(mk_node [] [] [] [[1]; [2]; [1]; [8]], 2); (mk_node [([1], 0)] [] [] [[8]; [9]; [2]; [9]], 2)].
Proof. split; reflexivity. Qed.

(** ** C101 *)
(** All processes agree on the same list of migrations, those proposed; they work through it without
    ever blocking each other for good, even if nothing is buffered, and come to an end; afterwards every agent is where it should be and on no other process. *)
Theorem C101_agents_arrive {A} (c : cluster A) ideas : well_formed c -> sensible c ideas ->
  exists ms, agree c false ideas = Ret (repeat ms (length c)) /\ Permutation ms (concat ideas) /\
  (forall s, migration_steps (length c) ms (start c) s ->
     (finished (length c) ms s \/ exists s', migration_step (length c) ms false s s') /\
     (finished (length c) ms s -> forall r i a, 0 <= r < Z.of_nat (length c) -> (In (i, a) (agents_at s r) <-> destined c ideas r i a))) /\
  ~ (exists run : nat -> transit A, run O = start c /\ forall k, exists b, migration_step (length c) ms b (run k) (run (S k))).
Proof.
  intros W Se. exists (decided (length c) ideas). split; [now apply sensible_agree|]. split; [now apply (sensible_perm c)|]. split; [|apply no_endless_run].
  intros s H. split.
  - assert (D : finished (length c) (decided (length c) ideas) s \/ ~ finished (length c) (decided (length c) ideas) s).
    { assert (G : forall n, (forall i, 0 <= i < Z.of_nat n -> nth_error (decided (length c) ideas) (pc s i) = None) \/ ~ (forall i, 0 <= i < Z.of_nat n -> nth_error (decided (length c) ideas) (pc s i) = None)).
      { induction n as [|n [IH|IH]].
        - left. lia.
        - destruct (nth_error (decided (length c) ideas) (pc s (Z.of_nat n))) eqn:En; [right; intros K; specialize (K (Z.of_nat n) ltac:(lia)); congruence|].
          left. intros i Hi. destruct (Z.eq_dec i (Z.of_nat n)) as [->|]; [exact En|apply IH; lia].
        - right. intros K. apply IH. intros i Hi. apply K. lia. }
      apply G. }
    destruct D as [D|D]; [now left|right]. now apply (sensible_progress c ideas W Se).
  - intros F r i a R. now apply sensible_end.
Qed.
Print Assumptions C101_agents_arrive.
(** The address books of all processes name the new places of the agents that move. *)
Theorem C101_address_books {A} (c : cluster A) ideas ms n : well_formed c -> sensible c ideas -> agree c false ideas = Ret (repeat ms (length c)) -> In n c ->
  (forall m, In m (concat ideas) -> im_find (migrant m) (locations (process_migrations ms n)) = Some (target m)) /\
  (forall i, (forall m, In m (concat ideas) -> migrant m <> i) -> im_find i (locations (process_migrations ms n)) = im_find i (locations n)) /\
  local_agents (process_migrations ms n) = local_agents n.
Proof.
  intros W Se E Hn. rewrite (sensible_agree c ideas Se) in E. injection E as E. assert (Em : ms = decided (length c) ideas).
  { destruct c as [|x c]; [contradiction|]. cbn [length repeat] in E. now injection E as <- _. }
  subst ms. destruct (books_after (decided (length c) ideas) n) as [B1 B2]; [now apply (proj1 W)|now apply (sensible_nodup c)|]. pose proof (sensible_perm c ideas Se) as P. split; [|split; [|reflexivity]].
  - intros m Hm. apply B1. eapply Permutation_in; [symmetry; exact P|exact Hm].
  - intros i H. apply B2. intros m Hm. apply H. eapply Permutation_in; [exact P|exact Hm].
Qed.
Print Assumptions C101_address_books.
(** A process that proposes to send an agent to itself loses it, if the processes ever finish. *)
Theorem C101_to_itself_refuted {A} (c : cluster A) ideas m a : well_formed c -> length ideas = length c -> concat ideas = [m] ->
  target m = source m -> resides c (source m) (migrant m) a ->
  agree c false ideas = Ret (repeat [m] (length c)) /\
  (forall s, migration_steps (length c) [m] (start c) s -> finished (length c) [m] s -> forall r b, ~ In (migrant m, b) (agents_at s r)) /\
  (exists s b, migration_step (length c) [m] b (start c) s /\ forall r b, ~ In (migrant m, b) (agents_at s r)).
Proof.
  intros W L E T R. pose proof (resides_range _ _ _ _ R) as Rg.
  assert (G : forall s, migration_steps (length c) [m] (start c) s -> pc s (source m) = 1%nat -> forall r b, ~ In (migrant m, b) (agents_at s r)).
  { intros s H P r b Hb. destruct (single_self c m s W (eq_sym T) (ex_intro _ a R) H) as (_ & G & _ & G4). specialize (G P r).
    apply im_find_in in Hb; [congruence|]. exact (single_sorted c m s r W (eq_sym T) (ex_intro _ a R) H). }
  split; [apply agree_one; [exact L|exact E|rewrite T; exact Rg]|]. split.
  - intros s H F. apply G; [exact H|]. destruct (single_self c m s W (eq_sym T) (ex_intro _ a R) H) as ([P|P] & _); [|exact P]. specialize (F _ Rg). rewrite P in F. discriminate.
  - assert (St : migration_step (length c) [m] true (start c) (mk_transit (upd (pc (start c)) (source m) (S (pc (start c) (source m)))) (upd (agents_at (start c)) (source m) (im_erase (migrant m) (agents_at (start c) (source m))))
      (upd2 (channel (start c)) (source m) (target m) (channel (start c) (source m) (target m) ++ [(migrant m, a)])))) by (apply ms_send; [exact Rg|reflexivity|reflexivity|now apply start_resides]).
    eexists _, true. split; [exact St|]. apply G; [eapply mss_step; [apply mss_refl|exact St]|]. cbn. now rewrite upd_same.
Qed.
Print Assumptions C101_to_itself_refuted.
(** When a process proposes to send an agent that it does not have, the process it is for waits for ever. *)
Theorem C101_absent_refuted {A} (c : cluster A) ideas m : well_formed c -> length ideas = length c -> concat ideas = [m] ->
  source m <> target m -> 0 <= target m < Z.of_nat (length c) -> (forall a, ~ resides c (source m) (migrant m) a) ->
  agree c false ideas = Ret (repeat [m] (length c)) /\
  forall s, migration_steps (length c) [m] (start c) s -> ~ finished (length c) [m] s.
Proof.
  intros W L E N R Ab. split; [now apply agree_one|]. intros s H F.
  assert (F0 : im_find (migrant m) (agents_at (start c) (source m)) = None).
  { destruct (im_find (migrant m) (agents_at (start c) (source m))) as [a|] eqn:K; [|reflexivity]. exfalso. apply (Ab a). now apply start_resides. }
  destruct (single_absent c m s N F0 H) as (P & _). specialize (F _ R). rewrite P in F. discriminate.
Qed.
Print Assumptions C101_absent_refuted.
(** A proposal to send an agent to a process that does not exist is undefined. *)
Theorem C101_no_such_process_refuted {A} (c : cluster A) ideas l m : length ideas = length c -> In l ideas -> In m l ->
  ~ 0 <= target m < Z.of_nat (length c) -> agree c false ideas = UB.
Proof.
  intros L Hl Hm N. unfold agree.
  enough (E : forall xs : list (nat * (node A * list migration)), (exists x, In x xs /\ In m (snd (snd x))) ->
    all_outcomes (map (fun x => propose (length c) false (fst x) (fst (snd x)) (snd (snd x))) xs) = UB).
  { rewrite E; [reflexivity|]. destruct (In_nth_error _ _ Hl) as [k Hk]. assert (K : (k < length c)%nat) by (rewrite <- L; apply nth_error_Some; congruence).
    destruct (nth_error c k) as [n|] eqn:Hn; [|apply nth_error_None in Hn; lia]. exists (k, (n, l)). split; [|exact Hm].
    enough (Ck : forall X Y (l1 : list X) (l2 : list Y) i x y, nth_error l1 i = Some x -> nth_error l2 i = Some y -> nth_error (combine l1 l2) i = Some (x, y)).
    { apply nth_error_In with k. apply Ck; [|now apply Ck]. rewrite (nth_error_nth' _ 0%nat) by (rewrite seq_length; lia). rewrite seq_nth by lia. reflexivity. }
    clear. induction l1 as [|u l1 IH]; intros [|v l2] [|i] x y H1 H2; try discriminate; cbn in *; [congruence|now apply IH]. }
  induction xs as [|[r [n is]] xs IH]; intros (x & Hx & Hxm); [destruct Hx|]. cbn [map all_outcomes fst snd]. unfold propose at 1.
  destruct (forallb _ is) eqn:F; [|reflexivity]. rewrite IH; [reflexivity|]. destruct Hx as [<-|Hx]; [|now exists x].
  exfalso. cbn in Hxm. rewrite forallb_forall in F. specialize (F m Hxm). lia.
Qed.
Print Assumptions C101_no_such_process_refuted.
Definition three_processes : cluster Z := [mk_node [] [([1], 10); ([2], 20)] [] []; mk_node [] [([3], 30)] [] []; mk_node [] [] [] []].
Definition three_ideas : list (list migration) := [[mk_migration 0 1 [1]; mk_migration 0 2 [2]]; [mk_migration 1 0 [3]]; []].
Example ex_c101 : agree three_processes false three_ideas = Ret (repeat [mk_migration 1 0 [3]; mk_migration 0 1 [1]; mk_migration 0 2 [2]] 3) /\ well_formed three_processes /\ sensible three_processes three_ideas.
Proof.
  assert (Res : forall r i a, resides three_processes r i a -> (r = 0 /\ (i = [1] /\ a = 10 \/ i = [2] /\ a = 20)) \/ (r = 1 /\ i = [3] /\ a = 30)).
  { intros r i a (n & [Hr En] & Hi). destruct (Z.to_nat r) as [|[|[|[|k]]]] eqn:Ek; cbn in En; try discriminate; injection En as <-; cbn in Hi.
    - left. split; [lia|]. destruct Hi as [Hi|[Hi|[]]]; injection Hi as <- <-; tauto.
    - right. split; [lia|]. destruct Hi as [Hi|[]]; injection Hi as <- <-; tauto.
    - contradiction. }
  split; [reflexivity|]. split; [split|split; [reflexivity|split]].
  - intros n [<-|[<-|[<-|[]]]]; split; repeat constructor.
  - intros r1 r2 i a1 a2 H1 H2. apply Res in H1, H2. intuition (subst; congruence).
  - intros r l m Hl Hm. destruct r as [|[|[|r]]]; cbn in Hl; try (destruct r; discriminate); injection Hl as <-; cbn in Hm.
    + destruct Hm as [<-|[<-|[]]]; cbn; (split; [reflexivity|split; [lia|split; [lia|]]]); eexists; (exists (mk_node [] [([1], 10); ([2], 20)] [] []); split; [split; [lia|reflexivity]|cbn; eauto]).
    + destruct Hm as [<-|[]]; cbn; (split; [reflexivity|split; [lia|split; [lia|]]]); eexists; (exists (mk_node [] [([3], 30)] [] []); split; [split; [lia|reflexivity]|cbn; eauto]).
    + contradiction.
  - repeat constructor; cbn; intuition discriminate.
Qed.

(** ** C102 *)
(** Agents receive what agents of the same process sent them, in order of sending, and nothing else; all outboxes are emptied. *)
Theorem C102_same_process (c : cluster mailbox) : well_formed c -> well_informed c -> orderly c ->
  exists c', send_messages c = Sent c' 0 /\ length c' = length c /\
  forall r n, process_of c r n -> exists n', process_of c' r n' /\ locations n' = locations n /\ map fst (local_agents n') = map fst (local_agents n) /\
    forall i inbox outbox, In (i, (inbox, outbox)) (local_agents n) -> exists box, In (i, (box, [])) (local_agents n') /\
      with_messages inbox (filter (fun m => id_eqb (m_recipient m) i) (outgoing n)) box.
Proof.
  intros W I O. destruct (send_messages_ok c W I) as (c' & E & L & G). exists c'. split; [exact E|]. split; [exact L|].
  intros r n [Hr En]. destruct (G _ n En) as (n' & q & E' & Q & L' & _ & _ & S' & F). exists n'. split; [now split|]. split; [exact L'|].
  assert (S : im_sorted (local_agents n)) by (apply (proj1 W); eapply nth_error_In; eassumption). split.
  - apply im_keys_ext; [exact S'|exact S|]. intros i. rewrite F. destruct (im_find i (local_agents n)) as [[? ?]|]; split; congruence.
  - intros i inbox outbox H. exists (fold_left receive (for_agent i (outgoing n)) inbox). split.
    + apply (im_find_in i (local_agents n') _ S'). rewrite F. apply (proj2 (im_find_in _ _ _ S)) in H. rewrite H. reflexivity.
    + apply received_with. eapply O; [split; [exact Hr|exact En]|exact H].
Qed.
Print Assumptions C102_same_process.
(** A message to an agent on another process disappears: it is in no outbox any more, and its recipient has not got it. *)
Theorem C102_other_process_refuted (c : cluster mailbox) r1 r2 n1 n2 i1 in1 out1 i2 in2 out2 m : well_formed c -> well_informed c ->
  process_of c r1 n1 -> process_of c r2 n2 -> r1 <> r2 -> In (i1, (in1, out1)) (local_agents n1) -> In (i2, (in2, out2)) (local_agents n2) ->
  In m out1 -> m_recipient m = i2 -> ~ In (m_received m, m) in2 -> ~ In m (outgoing n2) ->
  exists c', send_messages c = Sent c' 0 /\
    (forall r n i inbox outbox, process_of c' r n -> In (i, (inbox, outbox)) (local_agents n) -> ~ In m outbox) /\
    (forall r n inbox outbox, process_of c' r n -> In (i2, (inbox, outbox)) (local_agents n) -> ~ In (m_received m, m) inbox).
Proof.
  intros W I P1 P2 Nr H1 H2 Hm Em Nin Nout. destruct (send_messages_ok c W I) as (c' & E & L & G0). exists c'. split; [exact E|].
  assert (G : forall r n, process_of c r n -> exists n', process_of c' r n' /\ forall i box, In (i, box) (local_agents n') <-> exists inbox outbox, In (i, (inbox, outbox)) (local_agents n) /\ box = (fold_left receive (for_agent i (outgoing n)) inbox, [])).
  { intros r n [Hr En]. destruct (G0 _ n En) as (n' & q & E' & Q & L' & _ & _ & S' & F). exists n'. split; [now split|].
    assert (S : im_sorted (local_agents n)) by (apply (proj1 W); eapply nth_error_In; eassumption).
    intros i box. rewrite <- (im_find_in i (local_agents n') box) by exact S'. rewrite F. split.
    - intros H. destruct (im_find i (local_agents n)) as [[inbox outbox]|] eqn:Fi; [|discriminate]. injection H as <-. exists inbox, outbox. split; [now apply im_find_in|reflexivity].
    - intros (inbox & outbox & H & ->). apply (proj2 (im_find_in _ _ _ S)) in H. rewrite H. reflexivity. }
  assert (Back : forall r n', process_of c' r n' -> exists n, process_of c r n).
  { intros r n' [Hr En]. assert (Lr : (Z.to_nat r < length c)%nat) by (rewrite <- L; apply nth_error_Some; congruence).
    destruct (nth_error c (Z.to_nat r)) as [n|] eqn:K; [exists n; now split|apply nth_error_None in K; lia]. }
  split.
  - intros r n' i inbox outbox P H. destruct (Back _ _ P) as [n Pn]. destruct (G r n Pn) as (n'' & P' & K). rewrite (process_of_fun _ _ _ _ P P') in H.
    apply K in H. destruct H as (? & ? & _ & Eb). injection Eb as _ ->. intros [].
  - intros r n' inbox outbox P H. destruct (Back _ _ P) as [n Pn]. destruct (G r n Pn) as (n'' & P' & K). rewrite (process_of_fun _ _ _ _ P P') in H.
    apply K in H. destruct H as (inb & outb & Hi & Eb). injection Eb as -> _.
    assert (r = r2). { destruct W as [_ U]. apply (U r r2 i2 (inb, outb) (in2, out2)); [now exists n|now exists n2]. } subst r.
    rewrite (process_of_fun _ _ _ _ Pn P2) in Hi |- *.
    assert (Ein : inb = in2). { assert (S : im_sorted (local_agents n2)) by (apply (proj1 W); eapply process_in; exact P2). apply im_find_in in Hi, H2; try exact S. congruence. }
    subst inb. intros Hin. apply (proj1 (received_in _ in2 _)) in Hin. destruct Hin as [Hin|(m' & Hm' & Ee)]; [contradiction|]. injection Ee as _ ->. apply filter_In in Hm'. tauto.
Qed.
Print Assumptions C102_other_process_refuted.
(** A message from an agent of the first process to an agent that it has not heard of is undefined. *)
Theorem C102_unknown_recipient_refuted (n : node mailbox) c i inbox outbox m : ascending (local_agents n) -> ascending (locations n) ->
  In (i, (inbox, outbox)) (local_agents n) -> In m outbox ->
  ~ In (m_recipient m) (map fst (locations n)) -> ~ In (m_recipient m) (map fst (local_agents n)) -> send_messages (n :: c) = Corrupts.
Proof.
  intros S S' Hi Hm U1 U2. unfold send_messages. cbn [send_local]. rewrite (route_agents_unknown (map fst (local_agents n)) n i m); [reflexivity|exact S|exact S'|now apply im_keys_nodup| | |].
  - apply in_map_iff. now exists (i, (inbox, outbox)).
  - unfold outbox_of. apply (proj2 (im_find_in _ _ _ S)) in Hi. now rewrite Hi.
  - split; now apply im_find_none.
Qed.
Print Assumptions C102_unknown_recipient_refuted.
Definition note (to : identity) (k : Z) : message := mk_message 1 [] to 0 k k.
(** Two agents on process 0 and one on process 1; the first writes to the two others. *)
Definition two_processes : cluster mailbox :=
  [mk_node [([1], 0); ([2], 0); ([3], 1)] [([1], ([], [note [2] 5; note [3] 6])); ([2], ([(4, note [2] 4)], []))] [] []; mk_node [([1], 0); ([2], 0); ([3], 1)] [([3], ([], []))] [] []].
Example ex_c101_nowhere : agree three_processes false [[mk_migration 0 3 [1]]; []; []] = UB.
Proof. reflexivity. Qed.
Example ex_c102 : send_messages two_processes =
  Sent [mk_node [([1], 0); ([2], 0); ([3], 1)] [([1], ([], [])); ([2], ([(4, note [2] 4); (5, note [2] 5)], []))] [] []; mk_node [([1], 0); ([2], 0); ([3], 1)] [([3], ([], []))] [] []] 0.
Proof. reflexivity. Qed.
Example ex_c102_hypotheses : well_formed two_processes /\ well_informed two_processes /\ orderly two_processes.
Proof.
  assert (Pr : forall r n, process_of two_processes r n -> (r = 0 /\ nth_error two_processes 0 = Some n) \/ (r = 1 /\ nth_error two_processes 1 = Some n)).
  { intros r n [Hr En]. destruct (Z.to_nat r) as [|[|[|k]]] eqn:Ek; try discriminate; [left|right]; (split; [lia|exact En]). }
  split; [split|split].
  - intros n [<-|[<-|[]]]; split; repeat constructor.
  - intros r1 r2 i a1 a2 (n1 & P1 & H1) (n2 & P2 & H2). apply Pr in P1, P2. destruct P1 as [[-> E1]|[-> E1]], P2 as [[-> E2]|[-> E2]]; try reflexivity; exfalso;
    injection E1 as <-; injection E2 as <-; cbn in H1, H2; intuition congruence.
  - intros r n i inbox outbox m P H Hm. apply Pr in P. destruct P as [[-> E]|[-> E]]; injection E as <-; cbn in H.
    + destruct H as [H|[H|[]]]; injection H as <- <- <-; [|contradiction]. destruct Hm as [<-|[<-|[]]]; cbn.
      * exists 0. split; [reflexivity|]. split; [lia|]. split; [eauto|reflexivity].
      * exists 1. split; [reflexivity|]. split; [lia|]. split; [discriminate|]. intros [box [H|[H|[]]]]; discriminate.
    + destruct H as [H|[]]; injection H as <- <- <-. contradiction.
  - intros r n i inbox outbox P H. apply Pr in P. destruct P as [[-> E]|[-> E]]; injection E as <-; cbn in H.
    + destruct H as [H|[H|[]]]; injection H as <- <- <-; repeat constructor.
    + destruct H as [H|[]]; injection H as <- <- <-. constructor.
Qed.
Example ex_c102_unknown : send_messages [mk_node [([1], 0)] [([1], ([], [note [7] 5]))] [] []] = Corrupts.
Proof. reflexivity. Qed.

(** ** C103 *)
(** Migrating when the end of the simulation is reached brings all agents to the first process; all
    processes know; whatever the processes would have proposed otherwise. *)
Theorem C103_home {A} (c : cluster A) ideas : c <> [] -> well_formed c -> length ideas = length c ->
  exists ms, agree c true ideas = Ret (repeat ms (length c)) /\
  (forall s, migration_steps (length c) ms (start c) s ->
     (finished (length c) ms s \/ exists s', migration_step (length c) ms false s s') /\
     (finished (length c) ms s -> forall r i a, 0 <= r < Z.of_nat (length c) -> (In (i, a) (agents_at s r) <-> r = 0 /\ exists r', resides c r' i a))) /\
  ~ (exists run : nat -> transit A, run O = start c /\ forall k, exists b, migration_step (length c) ms b (run k) (run (S k))) /\
  (forall n r i a, In n c -> resides c r i a -> r <> 0 -> im_find i (locations (process_migrations ms n)) = Some 0).
Proof.
  intros Ne W L. rewrite agree_over by exact L. pose proof (homeward_sensible c W) as Se. destruct (C101_agents_arrive c (homeward c) W Se) as (ms & E & P & G & T).
  exists ms. split; [exact E|]. split; [|split; [exact T|]].
  - intros s H. destruct (G s H) as [G1 G2]. split; [exact G1|]. intros F r i a R. rewrite (G2 F r i a R). now apply homeward_destined.
  - intros n r i a Hn Ra Nr. destruct (C101_address_books c (homeward c) ms n W Se E Hn) as (B & _ & _).
    assert (D : destined c (homeward c) 0 i a) by (apply homeward_destined; [exact W|exact Ne|split; [reflexivity|now exists r]]).
    destruct D as [(m & Hm & Ei & Et & _)|[_ D]].
    + rewrite <- Ei, <- Et. now apply B.
    + exfalso. destruct W as [_ U]. apply Nr. eapply U; eassumption.
Qed.
Print Assumptions C103_home.
Example ex_c103 : agree three_processes true three_ideas = Ret (repeat [mk_migration 1 0 [3]] 3).
Proof. reflexivity. Qed.
