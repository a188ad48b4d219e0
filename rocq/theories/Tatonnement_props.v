From Coq Require Import SpecFloat.
From Verif Require Import Base Identity Identity_proofs IdMap IdMap_proofs StaticTicks Tatonnement Tatonnement_spec Tatonnement_proofs.
From Coq Require Import ZifyBool ZifyNat.

Definition apple : identity := [1].
Definition pear : identity := [2].
(** The multiplier of a property in what participants see. *)
Definition seen (p : identity) (s : idmap (Z * spec_float)) : spec_float := match im_find p s with Some (_, x) => x | None => zero end.
Definition num_ (z : Z) : spec_float := of_Z double z.
Definition quiet_step (st : Z) (x : list spec_float) (g : spec_float) : step := mk_step st false x g.

(** * C109 *)
Theorem C109_root_within qs orders breaker max_iterations methods solver h m h' p x :
  Forall (fun m => m = Root) methods -> NoDup (map fst qs) -> matches qs (solver Root) ->
  (forall k, Forall numeric (point (solver Root k))) -> SFleb (fst breaker) (snd breaker) = true ->
  compute_clearing_quotes qs orders breaker max_iterations methods solver h = (Found m, h') ->
  im_find p m = Some x -> SFleb (fst breaker) x = true /\ SFleb x (snd breaker) = true.
Proof.
  intros F N M P B H X. apply compute_found in H as (method & h0 & I & H). rewrite Forall_forall in F. rewrite (F _ I) in H. clear F I.
  cbn [attempt] in H.
  assert (A : (root_many qs orders breaker max_iterations (solver Root) h0, h0) = (Found m, h') -> SFleb (fst breaker) x = true /\ SFleb x (snd breaker) = true).
  { clear H. intros H. injection H as H _. unfold root_many in H. destruct (values qs orders (ones qs)); [|discriminate].
    destruct (many_loop qs orders (solver Root) h0 max_iterations 1 CONTINUE (ones qs)) as [st y| |] eqn:L; try discriminate.
    destruct (st =? SUCCESS) eqn:S; [|discriminate]. injection H as <-. replace st with SUCCESS in L by lia.
    apply many_loop_point in L as (j & -> & _); [|discriminate].
    apply result_spec in X; [|exact N|rewrite map_length; apply M]. destruct X as (n & q & _ & X). rewrite nth_error_map in X.
    destruct (nth_error (point (solver Root j)) n) as [r|] eqn:R; [|discriminate]. cbn in X. injection X as <-.
    apply limit_many_within; [|exact B]. specialize (P j). rewrite Forall_forall in P. apply P. now apply nth_error_In in R. }
  destruct qs as [|a [|b l]]; try (apply A; exact H). unfold root_one in H.
  destruct (value_at [a] orders one) as [e|]; [|discriminate].
  destruct (one_loop [a] orders (solver Root) (Init.Nat.pred max_iterations) 1 one e) as [[st y]|] eqn:L; [|discriminate].
  destruct (st =? SUCCESS); [|discriminate]. injection H as <- _. apply result_spec in X; [|exact N|reflexivity]. destruct X as (n & q & _ & X).
  destruct n as [|[|n]]; cbn in X; try discriminate. injection X as <-. apply limit_one_within; [|exact B].
  apply one_loop_point in L as [->|[j ->]]; [discriminate|]. specialize (P j). rewrite Forall_forall in P.
  destruct (point (solver Root j)) as [|c t]; [discriminate|]. apply P. now left.
Qed.
Print Assumptions C109_root_within.

(** The other methods do not look at the limits. *)
Theorem C109_others_unlimited qs orders breaker breaker' max_iterations methods solver h :
  ~ In Root methods ->
  compute_clearing_quotes qs orders breaker max_iterations methods solver h = compute_clearing_quotes qs orders breaker' max_iterations methods solver h.
Proof.
  intros R. unfold compute_clearing_quotes. destruct methods as [|a l]; [reflexivity|]. revert R h. generalize (a :: l). clear a l. intros l.
  induction l as [|a l IH]; intros R h; cbn [try_methods]; [reflexivity|].
  assert (E : attempt qs orders breaker max_iterations solver a h = attempt qs orders breaker' max_iterations solver a h).
  { destruct a; try reflexivity. elim R. now left. }
  rewrite E. destruct (attempt qs orders breaker' max_iterations solver a h) as [[] h']; try reflexivity. apply IH. intros I. apply R. now right.
Qed.
Print Assumptions C109_others_unlimited.

(** One property with excess demand 100 minus the multiplier; root finding gets nowhere and minimization finds the solution. *)
Definition demo_hundred : order := fun s => [(apple, sub double (num_ 100) (seen apple s))].
Definition demo_solver (m : method) : steps :=
  fun _ => match m with
           | Root => quiet_step 9 [one] one
           | _ => quiet_step SUCCESS [num_ 100] one
           end.
Theorem C109_default_refuted :
  exists m h x, compute_clearing_quotes [(apple, 500)] [demo_hundred] default_breaker 16 default_methods demo_solver Default = (Found m, h) /\
    im_find apple m = Some x /\ SFltb (snd default_breaker) x = true.
Proof.
  exists [(apple, num_ 100)], Default, (num_ 100). split; [vm_compute; reflexivity|]. split; vm_compute; reflexivity.
Qed.
Print Assumptions C109_default_refuted.
(** Two properties, whose root is beyond the upper limit for the first and below the lower for the second. *)
Definition demo_two : order := fun s => [(apple, sub double (num_ 20) (seen apple s)); (pear, sub double (div double one (num_ 50)) (seen pear s))].
Definition demo_two_solver (m : method) : steps := fun _ => quiet_step SUCCESS [num_ 20; div double one (num_ 50)] one.
Example C109_applies :
  compute_clearing_quotes [(apple, 500); (pear, 700)] [demo_two] default_breaker 16 [Root] demo_two_solver Default
    = (Found [(apple, num_ 11); (pear, div double one (num_ 11))], Default)
  /\ Forall numeric (point (demo_two_solver Root 1%nat)) /\ SFleb (fst default_breaker) (snd default_breaker) = true.
Proof. split; [vm_compute; reflexivity|]. split; [|reflexivity]. repeat constructor; vm_compute; discriminate. Qed.

(** * C110 *)
(** The tolerances are the closest doubles: no other multiple of the same power of two is closer. *)
Example C110_tolerances : 2 * Z.abs (10000 * 7378697629483821 - 2 ^ 66) <= 10000 /\ 2 * Z.abs (1000000 * 4722366482869645 - 2 ^ 72) <= 1000000.
Proof. split; vm_compute; discriminate. Qed.
(** Several properties: the point the solver stopped at clears the market, and the multipliers are those, limited. *)
Theorem C110_several_clear qs orders breaker max_iterations methods solver h m h' :
  Forall (fun m => m = Root) methods -> NoDup (map fst qs) -> length qs <> 1%nat -> matches qs (solver Root) ->
  SFleb (fst breaker) (snd breaker) = true ->
  compute_clearing_quotes qs orders breaker max_iterations methods solver h = (Found m, h') ->
  exists k s, offered qs (point (solver Root k)) s /\ (forall p, In p (map fst qs) -> mentions orders s p) /\
    SFltb (imbalance qs orders s) ten_thousandth = true /\
    forall p x, im_find p m = Some x <-> exists q r, In (p, (q, r)) s /\ x = limited breaker r.
Proof.
  intros F N L1 M B H. apply compute_found in H as (method & h0 & I & H). rewrite Forall_forall in F. rewrite (F _ I) in H. clear F I.
  cbn [attempt] in H.
  assert (A : root_many qs orders breaker max_iterations (solver Root) h0 = Found m).
  { destruct qs as [|a [|b l]]; [congruence|now elim L1|congruence]. }
  clear H. unfold root_many in A. destruct (values qs orders (ones qs)); [|discriminate].
  destruct (many_loop qs orders (solver Root) h0 max_iterations 1 CONTINUE (ones qs)) as [st y| |] eqn:L; try discriminate.
  destruct (st =? SUCCESS) eqn:S; [|discriminate]. injection A as <-. replace st with SUCCESS in L by lia.
  apply many_loop_point in L as (j & -> & f & V & R); [|discriminate].
  assert (E : excess qs orders (point (solver Root j)) = Some f) by (unfold values in V; destruct qs; [discriminate|exact V]).
  pose proof (scalars_offered qs (point (solver Root j)) N (M j)) as O. pose proof O as [SO FO].
  exists j, (scalars qs (point (solver Root j))). split; [exact O|]. split.
  { intros p P. assert (Z : excess qs orders (point (solver Root j)) <> None) by congruence. rewrite excess_none in Z.
    destruct (demands orders (scalars qs (point (solver Root j))) p) as [|d dl] eqn:D.
    - elim Z. exists p. split; [exact P|]. now apply demands_nil.
    - assert (I : In d (demands orders (scalars qs (point (solver Root j))) p)) by (rewrite D; now left).
      unfold demands in I. apply in_flat_map in I as [g [G I]]. exists g. split; [exact G|]. apply in_map_iff in I as [[k v] [_ I]]. apply filter_In in I as [I K].
      apply id_eqb_eq in K. cbn in K. subst k. now apply (in_map fst) in I. }
  split; [now rewrite <- (residual_imbalance _ _ _ _ E)|].
  intros p x. destruct (result_spec qs (map (limit_many breaker) (point (solver Root j))) N) as [_ RS]; [rewrite map_length; apply M|].
  rewrite RS. split.
  - intros (n & q & Q & X). rewrite nth_error_map in X. destruct (nth_error (point (solver Root j)) n) as [r|] eqn:Y; [|discriminate].
    cbn in X. injection X as <-. exists q, r. split; [apply FO; now exists n|now apply limit_many_limited].
  - intros (q & r & Q & ->). apply FO in Q as (n & Q & Y). exists n, q. split; [exact Q|]. rewrite nth_error_map, Y. cbn. now rewrite limit_many_limited.
Qed.
Print Assumptions C110_several_clear.
Definition demo_linear : order := fun s => [(apple, sub double (num_ 3) (seen apple s)); (pear, sub double (num_ 2) (seen pear s))].
Definition demo_linear_solver (m : method) : steps := fun k => if Nat.eqb k 1 then quiet_step SUCCESS [one; one] one else quiet_step SUCCESS [num_ 3; num_ 2] one.
Example C110_several_applies :
  compute_clearing_quotes [(apple, 500); (pear, 700)] [demo_linear] default_breaker 16 [Root] demo_linear_solver Default
    = (Found [(apple, num_ 3); (pear, num_ 2)], Default).
Proof. vm_compute. reflexivity. Qed.

(** One property: a solver that does not ask to continue is only ever asked for one step. *)
Theorem C110_one_step_only q orders breaker max_iterations max_iterations' solver solver' h :
  status (solver Root 1%nat) <> CONTINUE -> solver Root 1%nat = solver' Root 1%nat ->
  compute_clearing_quotes [q] orders breaker max_iterations [Root] solver h = compute_clearing_quotes [q] orders breaker max_iterations' [Root] solver' h.
Proof.
  intros C E. cbn [compute_clearing_quotes try_methods attempt]. unfold root_one.
  destruct (value_at [q] orders one) as [e|]; [|reflexivity].
  assert (L : one_loop [q] orders (solver Root) (Init.Nat.pred max_iterations) 1 one e = one_loop [q] orders (solver' Root) (Init.Nat.pred max_iterations') 1 one e).
  { destruct (Init.Nat.pred max_iterations), (Init.Nat.pred max_iterations'); cbn [one_loop]; rewrite <- E;
      (destruct (value_at [q] orders (nth 0 (point (solver Root 1%nat)) zero)) as [e'|]; [|reflexivity]);
      replace (status (solver Root 1%nat) =? CONTINUE) with false by lia; reflexivity. }
  now rewrite L.
Qed.
Print Assumptions C110_one_step_only.
(** Excess demand 1/x^2 - 1/4, which clears at 2: the first step of Newton's method from 1 is at 1.375 and is the
    answer, although 16 iterations are allowed and the next ones would be at 2. *)
Definition demo_square : order := fun s => [(apple, sub double (div double one (mul double (seen apple s) (seen apple s))) (div double one (num_ 4)))].
Definition demo_newton (m : method) : steps := fun k => quiet_step SUCCESS [if Nat.eqb k 1 then div double (num_ 11) (num_ 8) else num_ 2] one.
Theorem C110_one_property_refuted :
  exists m h x s, compute_clearing_quotes [(apple, 500)] [demo_square] default_breaker 16 default_methods demo_newton Default = (Found m, h) /\
    im_find apple m = Some x /\ offered [(apple, 500)] [x] s /\ SFltb (div double one (num_ 4)) (imbalance [(apple, 500)] [demo_square] s) = true /\
    exists s2, offered [(apple, 500)] [num_ 2] s2 /\ imbalance [(apple, 500)] [demo_square] s2 = zero.
Proof.
  exists [(apple, div double (num_ 11) (num_ 8))], Quiet, (div double (num_ 11) (num_ 8)), [(apple, (500, div double (num_ 11) (num_ 8)))].
  split; [vm_compute; reflexivity|]. split; [vm_compute; reflexivity|].
  assert (O : forall r, offered [(apple, 500)] [r] [(apple, (500, r))]).
  { intros r. assert (E : [(apple, (500, r))] = scalars [(apple, 500)] [r]) by reflexivity. rewrite E. apply scalars_offered; [|reflexivity].
    repeat constructor. intros []. }
  split; [apply O|]. split; [vm_compute; reflexivity|]. exists [(apple, (500, num_ 2))]. split; [apply O|]. vm_compute. reflexivity.
Qed.
Print Assumptions C110_one_property_refuted.
(** One property, and a solver that asks to continue after every step: multipliers are only found when a step has brought excess demand below a
    millionth, and the multiplier is, limited, that of the step or an earlier one that is not worse. *)
Theorem C110_one_clears p v orders breaker max_iterations methods solver h m h' :
  Forall (fun m => m = Root) methods -> matches [(p, v)] (solver Root) -> (forall k, status (solver Root k) = CONTINUE) -> SFleb (fst breaker) (snd breaker) = true ->
  compute_clearing_quotes [(p, v)] orders breaker max_iterations methods solver h = (Found m, h') ->
  exists k s b s', offered [(p, v)] (point (solver Root k)) s /\ SFltb (imbalance [(p, v)] orders s) millionth = true /\ (1 <= k <= max 1 max_iterations)%nat /\
    offered [(p, v)] [b] s' /\ SFltb (imbalance [(p, v)] orders s) (imbalance [(p, v)] orders s') = false /\
    (b = one \/ exists j, (1 <= j <= k)%nat /\ point (solver Root j) = [b]) /\ (forall p' x, im_find p' m = Some x <-> p' = p /\ x = limited breaker b).
Proof.
  intros F M C B H. apply compute_found in H as (method & h0 & I & H). rewrite Forall_forall in F. rewrite (F _ I) in H. clear F I.
  cbn [attempt] in H. unfold root_one in H. destruct (value_at [(p, v)] orders one) as [e|] eqn:E; [|discriminate].
  destruct (one_loop [(p, v)] orders (solver Root) (Init.Nat.pred max_iterations) 1 one e) as [[st b]|] eqn:L; [|discriminate].
  destruct (st =? SUCCESS) eqn:S; [|discriminate]. injection H as <- _. replace st with SUCCESS in L by lia.
  assert (N : NoDup (map fst [(p, v)])) by (repeat constructor; intros []).
  assert (Mk : forall k, point (solver Root k) = [nth 0 (point (solver Root k)) zero]) by (intros k; specialize (M k); destruct (point (solver Root k)) as [|y [|z l]]; [discriminate|reflexivity|discriminate]).
  apply (one_loop_success (p, v) orders (solver Root) C) in L; [|exact E]. destruct L as (k & K & T & W & J).
  exists k, (scalars [(p, v)] [nth 0 (point (solver Root k)) zero]), b, (scalars [(p, v)] [b]).
  split; [rewrite (Mk k) at 1; apply scalars_offered; [exact N|reflexivity]|]. split; [exact T|]. split; [lia|]. split; [apply scalars_offered; [exact N|reflexivity]|]. split; [exact W|]. split.
  { destruct J as [->|(j & Lj & ->)]; [now left|right; exists j; split; [exact Lj|apply Mk]]. }
  intros p' x. destruct (result_spec [(p, v)] [limit_one breaker b] N eq_refl) as [_ RS]. rewrite RS, limit_one_limited by exact B. split.
  - intros ([|[|n]] & q & Q & X); cbn in Q, X; try discriminate. injection Q as <- <-. injection X as <-. auto.
  - intros [-> ->]. exists 0%nat, v. split; reflexivity.
Qed.
Print Assumptions C110_one_clears.
(** Excess demand 3 minus the multiplier, and a solver that gets there by 2 and 5. *)
Definition demo_three : order := fun s => [(apple, sub double (num_ 3) (seen apple s))].
Definition demo_patient (m : method) : steps := fun k => quiet_step CONTINUE [num_ (match k with 1%nat => 2 | 2%nat => 5 | _ => 3 end)] one.
Example C110_one_applies :
  compute_clearing_quotes [(apple, 500)] [demo_three] default_breaker 16 [Root] demo_patient Default = (Found [(apple, num_ 3)], Quiet) /\
  compute_clearing_quotes [(apple, 500)] [demo_three] default_breaker 2 [Root] demo_patient Default = (NotFound, Default).
Proof. split; vm_compute; reflexivity. Qed.

(** Minimization with derivatives accepts any point with a small gradient. *)
Theorem C110_flat_refuted :
  forall q orders breaker max_iterations solver h x,
    status (solver Minimization 1%nat) = SUCCESS -> reports (solver Minimization 1%nat) = false -> point (solver Minimization 1%nat) = [x] ->
    SFltb (gradient (solver Minimization 1%nat)) ten_thousandth = true ->
    compute_clearing_quotes [q] orders breaker max_iterations [Minimization] solver h = (Found [(fst q, x)], h).
Proof.
  intros [p v] orders breaker n solver h x S R P G. cbn [compute_clearing_quotes try_methods attempt]. unfold minimize. cbn [error_at].
  assert (L : minimize_loop [(p, v)] orders (solver Minimization) gradient_test h (Init.Nat.pred n) 1 = Ended SUCCESS [x]).
  { assert (A : aborts h (solver Minimization 1%nat) = false) by (destruct h; cbn; auto).
    assert (T : gradient_test (solver Minimization 1%nat) = SUCCESS) by (unfold gradient_test, below; change tolerance4 with ten_thousandth; now rewrite G).
    destruct (Init.Nat.pred n); cbn [minimize_loop]; rewrite A, P; cbn [error_at];
      (destruct (SFleb (mismatch [(p, v)] orders [x]) tolerance4); [reflexivity|]); rewrite S, T; reflexivity. }
  rewrite L. reflexivity.
Qed.
Print Assumptions C110_flat_refuted.
Definition demo_constant : order := fun s => [(apple, num_ 1000)].
Example C110_flat_applies : let solver := fun _ _ => quiet_step SUCCESS [one] zero in
  compute_clearing_quotes [(apple, 500)] [demo_constant] default_breaker 16 [Minimization] solver Default = (Found [(apple, one)], Default)
  /\ imbalance [(apple, 500)] [demo_constant] [(apple, (500, one))] = num_ 1000.
Proof. split; vm_compute; reflexivity. Qed.

(** The default methods never end without multipliers: when all else fails, finding a root without derivatives
    returns the start. *)
Theorem C110_always_answers qs orders breaker max_iterations solver h :
  fst (compute_clearing_quotes qs orders breaker max_iterations default_methods solver h) <> NotFound.
Proof.
  cbn [compute_clearing_quotes default_methods try_methods].
  destruct (attempt qs orders breaker max_iterations solver Root h) as [[] h1]; try discriminate.
  destruct (attempt qs orders breaker max_iterations solver Minimization h1) as [[] h2]; try discriminate.
  destruct (attempt qs orders breaker max_iterations solver FreeRoot h2) as [r h3] eqn:E. destruct r; try discriminate.
  cbn [attempt] in E. injection E as E _. unfold root_free in E. destruct (values qs orders (ones qs)); [|discriminate].
  destruct (free_loop _ _ _ _ _ _ _ _); discriminate.
Qed.
Print Assumptions C110_always_answers.
Theorem C110_failure_refuted :
  exists m h s, compute_clearing_quotes [(apple, 500)] [demo_constant] default_breaker 16 default_methods (fun _ _ => quiet_step 27 [one] zero) Default = (Found m, h) /\
    im_find apple m = Some one /\ offered [(apple, 500)] [one] s /\ imbalance [(apple, 500)] [demo_constant] s = num_ 1000.
Proof.
  exists [(apple, one)], Default, (scalars [(apple, 500)] [one]). split; [vm_compute; reflexivity|]. split; [reflexivity|].
  split; [apply scalars_offered; [repeat constructor; intros []|reflexivity]|]. vm_compute. reflexivity.
Qed.
Print Assumptions C110_failure_refuted.

(** Minimization without derivatives only ends with multipliers whose squared excess demands are small. *)
Theorem C110_free_minimization_clears qs orders breaker max_iterations methods solver h m h' :
  Forall (fun m => m = FreeMinimization) methods -> NoDup (map fst qs) -> matches qs (solver FreeMinimization) -> (Z.of_nat (length qs) < 2 ^ 53) ->
  compute_clearing_quotes qs orders breaker max_iterations methods solver h = (Found m, h') ->
  exists k s e, offered qs (point (solver FreeMinimization k)) s /\ squared_imbalance orders s e /\ SFleb e ten_thousandth = true /\
    forall p x, im_find p m = Some x <-> exists q, In (p, (q, x)) s.
Proof.
  intros F N M B H. apply compute_found in H as (method & h0 & I & H). rewrite Forall_forall in F. rewrite (F _ I) in H. clear F I.
  cbn [attempt] in H. injection H as H _. unfold minimize in H.
  destruct (error_at qs orders (ones qs)) eqn:Q; [|discriminate]. assert (Q' : qs <> []) by (intros ->; discriminate). clear Q.
  destruct (minimize_loop qs orders (solver FreeMinimization) (size_test qs) h0 (Init.Nat.pred max_iterations) 1) as [st y| |] eqn:L; try discriminate.
  destruct (st =? SUCCESS) eqn:S; [|discriminate]. injection H as <-. replace st with SUCCESS in L by lia.
  apply minimize_loop_point in L as (j & e & -> & E & T).
  pose proof (scalars_offered qs (point (solver FreeMinimization j)) N (M j)) as O. pose proof O as [SO FO].
  exists j, (scalars qs (point (solver FreeMinimization j))), e. split; [exact O|].
  assert (E' : mismatch qs orders (point (solver FreeMinimization j)) = e) by (unfold error_at in E; destruct qs; [discriminate|congruence]).
  split; [rewrite <- E'; apply mismatch_spec|]. split.
  { destruct T as [T|T]; [exact T|]. exfalso. unfold size_test, below in T. destruct qs as [|a l]; [now elim Q'|].
    replace (Z.of_nat (length (a :: l))) with (Z.pos (Pos.of_succ_nat (length l))) in * by (cbn [length]; lia).
    rewrite size_not_small in T by exact B. discriminate. }
  intros p x. destruct (result_spec qs (point (solver FreeMinimization j)) N (M j)) as [_ RS]. rewrite RS. split.
  - intros (n & q & A). exists q. apply FO. now exists n.
  - intros (q & A). apply FO in A as (n & A). now exists n, q.
Qed.
Print Assumptions C110_free_minimization_clears.
Example C110_free_applies :
  compute_clearing_quotes [(apple, 500); (pear, 700)] [demo_linear] default_breaker 16 [FreeMinimization] demo_linear_solver Default
    = (Found [(apple, num_ 3); (pear, num_ 2)], Default).
Proof. vm_compute. reflexivity. Qed.

(** Finding a root without derivatives ends with the best of the points that it visited - all before the first that is good
    enough - or with the start, when none of them is better than the number of quotes. *)
Theorem C110_free_root_best qs orders breaker max_iterations solver h m h' :
  NoDup (map fst qs) -> matches qs (solver FreeRoot) -> (forall k, status (solver FreeRoot k) = SUCCESS) ->
  compute_clearing_quotes qs orders breaker max_iterations [FreeRoot] solver h = (Found m, h') ->
  exists x s r, offered qs x s /\ (forall p y, im_find p m = Some y <-> exists q, In (p, (q, y)) s) /\
    (x = map (fun _ => one) qs /\ r = sum (map (fun _ => one) qs) \/
     exists b, (1 <= b <= max_iterations)%nat /\ x = point (solver FreeRoot b) /\ r = imbalance qs orders s /\ SFltb r (sum (map (fun _ => one) qs)) = true) /\
    forall k t, (1 <= k <= max_iterations)%nat ->
      (forall j u, (1 <= j < k)%nat -> offered qs (point (solver FreeRoot j)) u -> SFltb (imbalance qs orders u) ten_thousandth = false) ->
      offered qs (point (solver FreeRoot k)) t -> SFltb (imbalance qs orders t) r = false.
Proof.
  intros N M OK H. cbn [compute_clearing_quotes try_methods attempt] in H.
  assert (A : root_free qs orders max_iterations (solver FreeRoot) h = Found m) by (destruct (root_free qs orders max_iterations (solver FreeRoot) h); congruence).
  clear H. unfold root_free in A. destruct (values qs orders (ones qs)) eqn:Q; [|discriminate].
  assert (VE : forall x f, values qs orders x = Some f -> excess qs orders x = Some f) by (intros x f E; unfold values in E; destruct qs; [discriminate|exact E]).
  destruct (free_loop qs orders (solver FreeRoot) h max_iterations 1 (ones qs) (residual (ones qs))) as [x| |] eqn:L; try discriminate. injection A as <-.
  assert (RS : residual (ones qs) = sum (map (fun _ => one) qs)).
  { unfold residual, sum, ones. generalize zero. clear. induction qs as [|q l IH]; intros z; cbn [map fold_left]; [reflexivity|]. apply IH. }
  assert (LX : length x = length qs).
  { destruct (free_loop_point _ _ _ _ _ _ _ _ _ L) as [->|[j ->]]; [apply ones_length|apply M]. }
  apply free_loop_best in L; [|exact OK]. destruct L as (r & A & O & B).
  pose proof (scalars_offered qs x N LX) as F. exists x, (scalars qs x), r. split; [exact F|]. split.
  { intros p y. destruct (result_spec qs x N LX) as [_ S]. rewrite S. destruct F as [_ F]. split.
    - intros (n & q & Q1 & Q2). exists q. apply F. now exists n.
    - intros (q & H). apply F in H as (n & Q1 & Q2). now exists n, q. }
  split.
  { destruct A as [[-> ->]|(b & f & J & -> & V & -> & R)]; [left; split; [reflexivity|exact RS]|]. right. exists b. split; [lia|]. split; [reflexivity|].
    rewrite <- RS. split; [apply residual_imbalance; now apply VE|exact R]. }
  intros k t K V T. destruct (B k) as (f & E & R); [lia| |].
  - intros i f I E. rewrite (residual_imbalance _ _ _ _ (VE _ _ E)). apply (V i); [lia|]. apply scalars_offered; [exact N|apply M].
  - rewrite <- (offered_unique _ _ _ _ (scalars_offered qs (point (solver FreeRoot k)) N (M k)) T). now rewrite <- (residual_imbalance _ _ _ _ (VE _ _ E)).
Qed.
Print Assumptions C110_free_root_best.
Definition demo_wander (m : method) : steps := fun k => quiet_step SUCCESS (if Nat.eqb k 1 then [num_ 3; num_ 1] else [num_ 9; num_ 9]) one.
Example C110_free_root_applies :
  compute_clearing_quotes [(apple, 500); (pear, 700)] [demo_linear] default_breaker 16 [FreeRoot] demo_wander Default
    = (Found [(apple, num_ 3); (pear, num_ 1)], Default).
Proof. vm_compute. reflexivity. Qed.

(** * C111 *)
Theorem C111_unmentioned_refuted qs orders breaker max_iterations solver h p :
  In p (map fst qs) -> (forall s, ~ mentions orders s p) ->
  fst (compute_clearing_quotes qs orders breaker max_iterations default_methods solver h) = Undefined.
Proof.
  intros P A. cbn [compute_clearing_quotes default_methods try_methods].
  assert (E : fst (attempt qs orders breaker max_iterations solver Root h) = Undefined).
  { cbn [attempt]. destruct qs as [|a [|b l]]; [destruct P| |].
    - unfold root_one, value_at. rewrite (values_none _ _ _ p P A). reflexivity.
    - unfold root_many. rewrite (values_none _ _ _ p P A). reflexivity. }
  destruct (attempt qs orders breaker max_iterations solver Root h) as [r h']. cbn in E. rewrite E. reflexivity.
Qed.
Print Assumptions C111_unmentioned_refuted.
Example C111_applies : ~ mentions [demo_hundred] (scalars [(apple, 500); (pear, 700)] [one; one]) pear.
Proof. intros (f & [<-|[]] & [H|[]]). discriminate. Qed.
Theorem C111_defined qs orders breaker max_iterations methods solver h :
  qs <> [] -> (forall s p, In p (map fst qs) -> mentions orders s p) ->
  fst (compute_clearing_quotes qs orders breaker max_iterations methods solver h) <> Undefined.
Proof.
  intros Q A.
  assert (V : forall x, exists f, values qs orders x = Some f). { intros x. destruct (values qs orders x) eqn:E; [eauto|]. now apply values_some in E. }
  assert (VA : forall x, exists f, value_at qs orders x = Some f) by (intros x; now apply value_at_values).
  assert (EA : forall x, exists f, error_at qs orders x = Some f) by (intros x; unfold error_at; destruct qs; [now elim Q|eauto]).
  assert (ML : forall s test h n k, minimize_loop qs orders s test h n k <> Broke).
  { intros s test h0 n. induction n as [|n IH]; intros k; cbn [minimize_loop]; (destruct (aborts h0 (s k)); [discriminate|]);
      destruct (EA (point (s k))) as [e ->]; destruct (SFleb e tolerance4); try discriminate; destruct (negb (status (s k) =? SUCCESS)); try discriminate;
      destruct (test (s k) =? CONTINUE); try discriminate. apply IH. }
  assert (MI : forall s test h, minimize qs orders max_iterations s test h <> Undefined).
  { intros s test h0. unfold minimize. destruct (EA (ones qs)) as [e ->]. specialize (ML s test h0 (Init.Nat.pred max_iterations) 1%nat).
    destruct (minimize_loop qs orders s test h0 (Init.Nat.pred max_iterations) 1) as [st x| |]; [destruct (st =? SUCCESS); discriminate|now elim ML|discriminate]. }
  assert (AT : forall m h, fst (attempt qs orders breaker max_iterations solver m h) <> Undefined).
  { intros m h0. destruct m; cbn [attempt]; try apply MI.
    - assert (RM : root_many qs orders breaker max_iterations (solver Root) h0 <> Undefined).
      { unfold root_many. destruct (V (ones qs)) as [f ->].
        assert (L : forall n k st x, many_loop qs orders (solver Root) h0 n k st x <> Broke).
        { intros n. induction n as [|n IH]; intros k st x; cbn [many_loop]; [discriminate|]. destruct (negb (st =? CONTINUE)); [discriminate|].
          destruct (aborts h0 (solver Root k)); [discriminate|]. destruct (negb (status (solver Root k) =? SUCCESS)); [discriminate|].
          destruct (V (point (solver Root k))) as [f' ->]. apply IH. }
        specialize (L max_iterations 1%nat CONTINUE (ones qs)).
        destruct (many_loop qs orders (solver Root) h0 max_iterations 1 CONTINUE (ones qs)) as [st x| |]; [destruct (st =? SUCCESS); discriminate|now elim L|discriminate]. }
      destruct qs as [|a [|b l]]; try exact RM. unfold root_one. destruct (VA one) as [e ->].
      assert (L : forall n k bx be, one_loop [a] orders (solver Root) n k bx be <> None).
      { intros n. induction n as [|n IH]; intros k bx be; cbn [one_loop]; destruct (VA (nth 0 (point (solver Root k)) zero)) as [e' ->];
          destruct (SFltb (SFabs e') tolerance6); try discriminate; destruct (status (solver Root k) =? CONTINUE); try discriminate. apply IH. }
      specialize (L (Init.Nat.pred max_iterations) 1%nat one e). destruct (one_loop [a] orders (solver Root) (Init.Nat.pred max_iterations) 1 one e) as [[st x]|]; [|now elim L].
      destruct (st =? SUCCESS); discriminate.
    - cbn. unfold root_free. destruct (V (ones qs)) as [f ->].
      assert (L : forall n k b br, free_loop qs orders (solver FreeRoot) h0 n k b br <> Failed).
      { intros n. induction n as [|n IH]; intros k b br; cbn [free_loop]; [discriminate|]. destruct (aborts h0 (solver FreeRoot k)); [discriminate|].
        destruct (negb (status (solver FreeRoot k) =? SUCCESS)); [discriminate|]. destruct (V (point (solver FreeRoot k))) as [f' ->].
        destruct (below (residual f') tolerance4 =? SUCCESS); [discriminate|]. apply IH. }
      specialize (L max_iterations 1%nat (ones qs) (residual (ones qs))).
      destruct (free_loop qs orders (solver FreeRoot) h0 max_iterations 1 (ones qs) (residual (ones qs))); [discriminate|now elim L|discriminate]. }
  unfold compute_clearing_quotes. destruct methods as [|a l]; [discriminate|]. generalize (a :: l) h. clear a l h. intros l.
  induction l as [|a l IH]; intros h; cbn [try_methods]; [discriminate|]. specialize (AT a h).
  destruct (attempt qs orders breaker max_iterations solver a h) as [[] h']; try exact AT. apply IH.
Qed.
Print Assumptions C111_defined.
Example C111_defined_applies : forall s p, In p (map fst [(apple, 500); (pear, 700)]) -> mentions [demo_linear] s p.
Proof. intros s p [<-|[<-|[]]]; exists demo_linear; (split; [now left|]); cbn; auto. Qed.

(** * C112 *)
(** With several quotes, and whenever no multipliers are found, the error handler is what it was. *)
Theorem C112_restored qs orders breaker max_iterations methods solver h r h' :
  compute_clearing_quotes qs orders breaker max_iterations methods solver h = (r, h') ->
  length qs <> 1%nat \/ ~ In Root methods \/ r = NotFound -> h' = h.
Proof.
  unfold compute_clearing_quotes. destruct methods as [|a l]; [congruence|]. generalize (a :: l) h. clear a l h. intros l.
  induction l as [|a l IH]; intros h H C; cbn [try_methods] in H; [congruence|].
  destruct (attempt qs orders breaker max_iterations solver a h) as [r1 h1] eqn:E.
  assert (K : r1 = NotFound -> h1 = h) by (intros ->; eapply attempt_handler; [exact E|auto]).
  assert (C1 : length qs <> 1%nat \/ a <> Root \/ r1 = NotFound -> h1 = h) by (eapply attempt_handler; exact E).
  assert (C2 : length qs <> 1%nat \/ ~ In Root l \/ r = NotFound) by (destruct C as [C|[C|C]]; auto; right; left; intros I; apply C; now right).
  destruct r1; try (injection H as <- <-; apply C1; destruct C as [C|[C|C]]; [auto| |discriminate]; right; left; intros ->; apply C; now left).
  rewrite (IH _ H C2). auto.
Qed.
Print Assumptions C112_restored.
(** With one quote it is replaced, for good, whenever the first step of root finding works. *)
Theorem C112_replaced_refuted q orders breaker max_iterations methods solver h :
  (forall s, mentions orders s (fst q)) -> status (solver Root 1%nat) = SUCCESS ->
  snd (compute_clearing_quotes [q] orders breaker max_iterations (Root :: methods) solver h) = Quiet.
Proof.
  intros A S. cbn [compute_clearing_quotes try_methods attempt]. unfold root_one.
  assert (VA : forall x, exists v, value_at [q] orders x = Some v). { intros x. apply value_at_values; [discriminate|]. intros s p [<-|[]]. apply A. }
  destruct (VA one) as [e ->].
  assert (L : exists x, one_loop [q] orders (solver Root) (Init.Nat.pred max_iterations) 1 one e = Some (SUCCESS, x)).
  { destruct (Init.Nat.pred max_iterations); cbn [one_loop]; destruct (VA (nth 0 (point (solver Root 1%nat)) zero)) as [e' ->];
      (destruct (SFltb (SFabs e') tolerance6); [eauto|]); rewrite S; eexists; reflexivity. }
  destruct L as [x ->]. reflexivity.
Qed.
Print Assumptions C112_replaced_refuted.
Example C112_applies : snd (compute_clearing_quotes [(apple, 500)] [demo_square] default_breaker 16 default_methods demo_newton Default) = Quiet
  /\ snd (compute_clearing_quotes [(apple, 500); (pear, 700)] [demo_linear] default_breaker 16 default_methods demo_linear_solver Default) = Default.
Proof. split; vm_compute; reflexivity. Qed.

(** * C113 *)
(** With several quotes and the default error handler, an error of the root solver ends the program. *)
Theorem C113_ends_refuted qs orders breaker max_iterations methods solver :
  (length qs > 1)%nat -> (max_iterations > 0)%nat -> (forall s p, In p (map fst qs) -> mentions orders s p) -> reports (solver Root 1%nat) = true ->
  fst (compute_clearing_quotes qs orders breaker max_iterations (Root :: methods) solver Default) = Aborted.
Proof.
  intros Q N A R. cbn [compute_clearing_quotes try_methods attempt]. destruct qs as [|a [|b l]]; cbn in Q; try lia.
  unfold root_many. destruct (values (a :: b :: l) orders (ones (a :: b :: l))) eqn:V; [|apply values_some in V; [destruct V|discriminate|exact A]].
  destruct max_iterations as [|n]; [lia|]. cbn [many_loop]. cbn [Z.eqb negb CONTINUE Pos.eqb]. cbn [aborts]. rewrite R. reflexivity.
Qed.
Print Assumptions C113_ends_refuted.
Theorem C113_goes_on qs orders breaker max_iterations methods solver h :
  h <> Default -> fst (compute_clearing_quotes qs orders breaker max_iterations methods solver h) <> Aborted.
Proof.
  intros H.
  assert (AB : forall s, aborts h s = false) by (intros s; destruct h; [now elim H|reflexivity|reflexivity]).
  assert (ML : forall s test n k, minimize_loop qs orders s test h n k <> Stopped).
  { intros s test n. induction n as [|n IH]; intros k; cbn [minimize_loop]; rewrite AB; (destruct (error_at qs orders (point (s k))) as [e|]; [|discriminate]);
      destruct (SFleb e tolerance4); try discriminate; destruct (negb (status (s k) =? SUCCESS)); try discriminate;
      destruct (test (s k) =? CONTINUE); try discriminate. apply IH. }
  assert (MI : forall s test, minimize qs orders max_iterations s test h <> Aborted).
  { intros s test. unfold minimize. destruct (error_at qs orders (ones qs)); [|discriminate]. specialize (ML s test (Init.Nat.pred max_iterations) 1%nat).
    destruct (minimize_loop qs orders s test h (Init.Nat.pred max_iterations) 1) as [st x| |]; [destruct (st =? SUCCESS); discriminate|discriminate|now elim ML]. }
  assert (AT : forall m, fst (attempt qs orders breaker max_iterations solver m h) <> Aborted).
  { intros m. destruct m; cbn [attempt]; try apply MI.
    - assert (RM : root_many qs orders breaker max_iterations (solver Root) h <> Aborted).
      { unfold root_many. destruct (values qs orders (ones qs)); [|discriminate].
        assert (L : forall n k st x, many_loop qs orders (solver Root) h n k st x <> Stopped).
        { intros n. induction n as [|n IH]; intros k st x; cbn [many_loop]; [discriminate|]. destruct (negb (st =? CONTINUE)); [discriminate|].
          rewrite AB. destruct (negb (status (solver Root k) =? SUCCESS)); [discriminate|].
          destruct (values qs orders (point (solver Root k))); [apply IH|discriminate]. }
        specialize (L max_iterations 1%nat CONTINUE (ones qs)).
        destruct (many_loop qs orders (solver Root) h max_iterations 1 CONTINUE (ones qs)) as [st x| |]; [destruct (st =? SUCCESS); discriminate|discriminate|now elim L]. }
      destruct qs as [|a [|b l]]; try exact RM. unfold root_one. destruct (value_at [a] orders one); [|discriminate].
      destruct (one_loop [a] orders (solver Root) (Init.Nat.pred max_iterations) 1 one s) as [[st x]|]; [|discriminate]. destruct (st =? SUCCESS); discriminate.
    - cbn. unfold root_free. destruct (values qs orders (ones qs)); [|discriminate].
      assert (L : forall n k b br, free_loop qs orders (solver FreeRoot) h n k b br <> Ending).
      { intros n. induction n as [|n IH]; intros k b br; cbn [free_loop]; [discriminate|]. rewrite AB.
        destruct (negb (status (solver FreeRoot k) =? SUCCESS)); [discriminate|]. destruct (values qs orders (point (solver FreeRoot k))) as [f'|]; [|discriminate].
        destruct (below (residual f') tolerance4 =? SUCCESS); [discriminate|]. apply IH. }
      specialize (L max_iterations 1%nat (ones qs) (residual (ones qs))).
      destruct (free_loop qs orders (solver FreeRoot) h max_iterations 1 (ones qs) (residual (ones qs))); [discriminate|discriminate|now elim L]. }
  unfold compute_clearing_quotes. destruct methods as [|a l]; [discriminate|]. generalize (a :: l). clear a l. intros l.
  induction l as [|a l IH]; cbn [try_methods]; [discriminate|]. specialize (AT a).
  destruct (attempt qs orders breaker max_iterations solver a h) as [r h'] eqn:E. destruct r; try exact AT.
  assert (h' = h) as -> by (eapply attempt_handler; [exact E|auto]). exact IH.
Qed.
Print Assumptions C113_goes_on.
(** The root solver reports an error; minimization would have found the solution. *)
Definition demo_error (m : method) : steps := fun k => match m with Root => mk_step 27 true [one; one] one | _ => demo_linear_solver m 2%nat end.
Example C113_applies :
  fst (compute_clearing_quotes [(apple, 500); (pear, 700)] [demo_linear] default_breaker 16 default_methods demo_error Default) = Aborted
  /\ compute_clearing_quotes [(apple, 500); (pear, 700)] [demo_linear] default_breaker 16 default_methods demo_error Users = (Found [(apple, num_ 3); (pear, num_ 2)], Users).
Proof. split; vm_compute; reflexivity. Qed.

(** * C114 *)
Theorem C114_covers qs orders breaker max_iterations methods solver h m h' p :
  NoDup (map fst qs) -> (forall m, matches qs (solver m)) ->
  compute_clearing_quotes qs orders breaker max_iterations methods solver h = (Found m, h') ->
  (exists x, im_find p m = Some x) <-> In p (map fst qs).
Proof.
  intros N M H. apply compute_found in H as (method & h0 & _ & H). apply attempt_found in H as (x & L & ->); [|exact M].
  rewrite <- (result_keys qs x p N L). destruct (result_spec qs x N L) as [S _]. split.
  - intros [v V]. apply (im_find_in _ _ _ S) in V. now apply (in_map fst) in V.
  - intros I. destruct (im_find p (result qs x)) eqn:E; [eauto|]. apply (im_find_none _ _ S) in E. contradiction.
Qed.
Print Assumptions C114_covers.
(** No methods, an exception. *)
Theorem C114_no_methods qs orders breaker max_iterations methods solver h :
  fst (compute_clearing_quotes qs orders breaker max_iterations methods solver h) = Invalid <-> methods = [].
Proof.
  split; [|now intros ->]. unfold compute_clearing_quotes. destruct methods as [|a l]; [reflexivity|].
  assert (A : forall l h, fst (try_methods qs orders breaker max_iterations solver l h) <> Invalid).
  { clear. intros l. induction l as [|a l IH]; intros h; cbn [try_methods]; [discriminate|].
    assert (AT : fst (attempt qs orders breaker max_iterations solver a h) <> Invalid).
    { assert (MI : forall s test h, minimize qs orders max_iterations s test h <> Invalid).
      { intros s test h0. unfold minimize. destruct (error_at qs orders (ones qs)); [|discriminate].
        destruct (minimize_loop qs orders s test h0 (Init.Nat.pred max_iterations) 1) as [st x| |]; try discriminate. destruct (st =? SUCCESS); discriminate. }
      destruct a; cbn [attempt]; try apply MI.
      - assert (RM : root_many qs orders breaker max_iterations (solver Root) h <> Invalid).
        { unfold root_many. destruct (values qs orders (ones qs)); [|discriminate].
          destruct (many_loop qs orders (solver Root) h max_iterations 1 CONTINUE (ones qs)) as [st x| |]; try discriminate. destruct (st =? SUCCESS); discriminate. }
        destruct qs as [|a [|b r]]; try exact RM. unfold root_one. destruct (value_at [a] orders one); [|discriminate].
        destruct (one_loop [a] orders (solver Root) (Init.Nat.pred max_iterations) 1 one s) as [[st x]|]; [|discriminate]. destruct (st =? SUCCESS); discriminate.
      - cbn. unfold root_free. destruct (values qs orders (ones qs)); [|discriminate].
        destruct (free_loop qs orders (solver FreeRoot) h max_iterations 1 (ones qs) (residual (ones qs))); discriminate. }
    destruct (attempt qs orders breaker max_iterations solver a h) as [[] h']; try exact AT. apply IH. }
  intros H. now apply A in H.
Qed.
Print Assumptions C114_no_methods.
Example C114_applies : matches [(apple, 500); (pear, 700)] (demo_linear_solver Root) /\ NoDup (map fst [(apple, 500); (pear, 700)]).
Proof. split; [intros k; unfold demo_linear_solver; now destruct (Nat.eqb k 1)|]. repeat constructor; cbn; intuition discriminate. Qed.
