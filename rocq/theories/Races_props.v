(** Agents that create agents in a round with several threads (C207). *)
From Verif Require Import Base Identity Identity_proofs IdMap_proofs Quantity Simulation Simulation_proofs Simulation_proofs2 Simulation_proofs3 Simulation_props Races Races_spec Races_proofs.
From Coq Require Import ZifyBool ZifyNat.

(** A round with several threads is free of data races exactly if all agents that create others happen to be in the work of one thread. *)
Theorem C207_race_exactly : forall creates threads (acting : list identity) chunks, 1 <= threads -> Z.of_nat (length acting) < W64 -> NoDup acting ->
  thread_chunks threads acting = Ret chunks ->
  (data_race (map (thread_accesses creates) chunks) <-> creators_apart creates chunks) /\ (threads = 1 -> ~ data_race (map (thread_accesses creates) chunks)).
Proof.
  intros creates threads acting chunks Ht Hl N H. destruct (C18_chunks threads acting Ht Hl) as (cs & E & C & L & _). rewrite H in E. injection E as <-. assert (R : NoDup (concat chunks)) by (now rewrite C). split; [now apply race_iff|].
  intros -> D. apply race_iff in D; [|exact R]. destruct D as (k & l & i & j & D & Ii & Ij & _). destruct chunks as [|c [|c2 cs]]; cbn in L; try lia. destruct k as [|[|]], l as [|[|]]; cbn in Ii, Ij; try contradiction.
Qed.
Print Assumptions C207_race_exactly.
(** With as many threads as agents that act, any two that create are a data race - whatever they create. *)
Theorem C207_any_two_refuted : forall creates threads (acting : list identity) chunks i j, 1 <= threads -> Z.of_nat (length acting) < W64 -> NoDup acting ->
  thread_chunks threads acting = Ret chunks -> Z.of_nat (length acting) <= threads ->
  In i acting -> In j acting -> i <> j -> creates i <> [] -> creates j <> [] -> data_race (map (thread_accesses creates) chunks).
Proof.
  intros creates threads acting chunks i j Ht Hl N H Hn Ii Ij D Ci Cj. destruct (C18_chunks threads acting Ht Hl) as (cs & E & C & L & Bal). rewrite H in E. injection E as <-.
  apply race_iff; [now rewrite C|].
  assert (Find : forall x, In x acting -> exists k, (k < length chunks)%nat /\ In x (nth k chunks [])).
  { intros x I. rewrite <- C in I. apply in_concat in I. destruct I as (c & Ic & Ix). destruct (In_nth _ _ [] Ic) as (k & Lk & Ek). exists k. split; [exact Lk|now rewrite Ek]. }
  destruct (Find i Ii) as (k & Lk & Ik), (Find j Ij) as (l & Ll & Il). exists k, l, i, j. split; [|auto].
  intros <-. assert (Two : (2 <= length (nth k chunks []))%nat). { destruct (nth k chunks []) as [|x [|y t]]; cbn in Ik, Il; [contradiction| |cbn; lia]. destruct Ik as [->|[]], Il as [->|[]]. now contradiction D. }
  assert (All : forall n, (n < length chunks)%nat -> (1 <= length (nth n chunks []))%nat).
  { intros n Ln. destruct (le_lt_dec n k) as [X|X]; [specialize (Bal n k ltac:(lia)); lia|]. specialize (Bal k n ltac:(lia)). lia. }
  assert (Sum : forall cs : list (list identity), (forall n, (n < length cs)%nat -> (1 <= length (nth n cs []))%nat) -> (length cs <= length (concat cs))%nat /\ forall k, (k < length cs)%nat -> (length (nth k cs []) + length cs - 1 <= length (concat cs))%nat).
  { clear. induction cs as [|c cs IH]; intros H; [split; [cbn; lia|intros k Hk; cbn in Hk; lia]|]. destruct IH as [I1 I2]; [intros n Hn; apply (H (S n)); cbn; lia|]. pose proof (H 0%nat ltac:(cbn; lia)) as H0. cbn [nth] in H0. cbn [length concat]. rewrite app_length. split; [lia|].
    intros [|k] Hk; cbn [nth]; [lia|]. specialize (I2 k ltac:(lia)). lia. }
  destruct (Sum chunks All) as [_ S2]. specialize (S2 k Lk). rewrite C in S2. lia.
Qed.
Print Assumptions C207_any_two_refuted.
(** Even if every access happened at once: two threads that create children of the same entity can give them the same identity. *)
Theorem C207_duplicate_refuted : forall c before first between second after parent, In parent first -> In parent second ->
  exists xs, mixed (all_actions 0 (before ++ first :: between ++ second :: after)) xs /\ ~ NoDup (made (acts (start c) xs)).
Proof. intros c a p b s d q H1 H2. now apply (duplicate c a p b q s d). Qed.
Print Assumptions C207_duplicate_refuted.
(** If no entity gets children from two threads, every interleaving numbers the children of each entity one after the other, without gaps. *)
Theorem C207_fresh : forall c programs xs, own_parents programs -> (forall q, 0 <= c q /\ c q + Z.of_nat (count_of q (concat programs)) < W64) ->
  mixed (all_actions 0 programs) xs -> let m := acts (start c) xs in
  NoDup (made m) /\ (forall i, In i (made m) <-> exists q k, i = q ++ [k] /\ c q <= k < c q + Z.of_nat (count_of q (concat programs))) /\
  forall q, counters m q = c q + Z.of_nat (count_of q (concat programs)).
Proof. intros c programs xs O B H. now apply fresh. Qed.
Print Assumptions C207_fresh.
(** Three agents, the first and the third of which create. *)
Definition creators (i : identity) : list identity := if id_eqb i [2] then [] else [[7]].
Example C207_case : thread_chunks 2 [[1]; [2]; [3]] = Ret [[[1]; [2]]; [[3]]] /\ creators_apart creators [[[1]; [2]]; [[3]]] /\ ~ creators_apart creators [[[1]; [2]; [3]]] /\
  thread_chunks 3 [[1]; [2]; [3]] = Ret [[[1]]; [[2]]; [[3]]].
Proof.
  split; [reflexivity|]. split; [|split; [|reflexivity]].
  - exists 0%nat, 1%nat, [1], [3]. split; [discriminate|]. split; [now left|]. split; [now left|]. split; discriminate.
  - intros (k & l & i & j & D & Ii & Ij & _). destruct k as [|[|]], l as [|[|]]; cbn in Ii, Ij; try contradiction.
Qed.
Example C207_numbers : own_parents [[[1]; [1]]; [[2]]] /\
  (exists xs, mixed (all_actions 0 [[[1]; [1]]; [[2]]]) xs /\ made (acts (start (fun _ => 3)) xs) = [[1; 3]; [2; 3]; [1; 4]]) /\
  exists xs, mixed (all_actions 0 [[[1]]; [[1]]]) xs /\ made (acts (start (fun _ => 3)) xs) = [[1; 3]; [1; 3]].
Proof.
  split; [|split].
  - intros k l q H1 H2. destruct k as [|[|[|]]], l as [|[|[|]]]; cbn in H1, H2; try contradiction; try reflexivity; exfalso; intuition congruence.
  - exists [Digit 0 [1]; Digit 1 [2]; Fetch 0 [1]; Store 0 [1]; Fetch 1 [2]; Digit 0 [1]; Fetch 0 [1]; Store 0 [1]; Store 1 [2]]. split; [|reflexivity]. cbn.
    apply (mixed_one [] _ _ [_]). apply (mixed_one [_] _ _ []). apply (mixed_one [] _ _ [_]). apply (mixed_one [] _ _ [_]). apply (mixed_one [_] _ _ []). apply (mixed_one [] _ _ [_]). apply (mixed_one [] _ _ [_]). apply (mixed_one [] _ _ [_]). apply (mixed_one [_] _ _ []). constructor. repeat constructor.
  - exists [Digit 0 [1]; Digit 1 [1]; Fetch 0 [1]; Store 0 [1]; Fetch 1 [1]; Store 1 [1]]. split; [|reflexivity]. cbn.
    apply (mixed_one [] _ _ [_]). apply (mixed_one [_] _ _ []). apply (mixed_one [] _ _ [_]). apply (mixed_one [] _ _ [_]). apply (mixed_one [_] _ _ []). apply (mixed_one [_] _ _ []). constructor. repeat constructor.
Qed.
