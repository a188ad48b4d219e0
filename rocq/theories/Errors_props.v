(** Errors of agents in a round (C208). *)
From Verif Require Import Base Identity IdMap Communicator Simulation Simulation_spec Simulation_proofs Simulation_proofs2 Simulation_proofs3 Simulation_props Errors.
From Coq Require Import ZifyBool ZifyNat.

(** With one thread, the exception of an agent reaches the caller. *)
Theorem C208_one_thread : forall {St} hash shuffle threads lower upper n (w : world St) e, threads <= 1 ->
  (acting_ends hash shuffle threads lower upper n w e <-> e = ends false (act_phase hash shuffle lower upper n w)) /\
  (act_phase hash shuffle lower upper n w = Throw -> forall e, acting_ends hash shuffle threads lower upper n w e -> e = Caught).
Proof.
  intros St hash shuffle threads lower upper n w e Ht. split; [split; [intros [|chunks xs H _ _]; [reflexivity|lia]|intros ->; now constructor]|].
  intros E e' [|chunks xs H _ _]; [now rewrite E|lia].
Qed.
Print Assumptions C208_one_thread.
(** With more, it never does: a round that would have thrown ends the program, or something undefined happens before. *)
Theorem C208_terminated_refuted : forall {St} hash shuffle threads lower upper n (w : world St), well_formed w -> 1 < threads -> Z.of_nat (length (acting w lower)) < W64 ->
  (forall e, acting_ends hash shuffle threads lower upper n w e -> e <> Caught) /\
  (act_phase hash shuffle lower upper n w = Throw -> forall e, acting_ends hash shuffle threads lower upper n w e -> e = Terminated \/ e = Anything) /\
  exists e, acting_ends hash shuffle threads lower upper n w e /\ e = ends true (act_phase hash shuffle lower upper n w).
Proof.
  intros St hash shuffle threads lower upper n w Hwf Ht Hl. split; [|split].
  - intros e [H|chunks xs _ _ _]; [lia|]. now destruct (run_parts _ _ _ _ _ _ _).
  - intros E e [H|chunks xs _ Hc Hx]; [lia|]. destruct (run_parts hash shuffle lower upper n (begin_round w lower) xs) as [p| |] eqn:R; cbn; [|now left|now right].
    assert (Ht' : 1 <= threads) by lia. apply (C18_any_interleaving_same_result St hash shuffle threads lower upper n w chunks xs Hwf Ht' Hl Hc Hx) in R. congruence.
  - destruct (C18_chunks threads (acting w lower) ltac:(lia) Hl) as (chunks & Hc & C & _). exists (ends true (act_phase hash shuffle lower upper n w)). split; [|reflexivity].
    assert (I : interleaving (map (flat_map job) chunks) (flat_map job (acting w lower))).
    { rewrite <- C. clear. induction chunks as [|c cs IH]; [constructor; constructor|]. cbn [map concat]. rewrite flat_map_app.
      assert (G : forall (l : list part) ts xs, interleaving ts xs -> interleaving (l :: ts) (l ++ xs)).
      { induction l as [|x l IHl]; intros ts xs H; cbn [app]; [|apply (il_part [] x l ts); now apply IHl]. clear - H. assert (K : forall ts xs, interleaving ts xs -> interleaving ([] :: ts) xs).
        { clear. intros t x K. induction K as [ts F|ts1 x t ts2 xs K IH]; [constructor; now constructor|]. apply (il_part ([] :: ts1) x t ts2). exact IH. } now apply K. }
      now apply G. }
    exact (together hash shuffle threads lower upper n w chunks _ Ht Hc I).
Qed.
Print Assumptions C208_terminated_refuted.
(** Whether a round returns, and with what, does not depend on the number of threads. *)
Theorem C208_returns : forall {St} hash shuffle threads lower upper n (w : world St) p, well_formed w -> Z.of_nat (length (acting w lower)) < W64 ->
  (act_phase hash shuffle lower upper n w = Ret p <-> acting_ends hash shuffle threads lower upper n w (Returned p)) /\
  (act_phase hash shuffle lower upper n w = Ret p -> forall e, acting_ends hash shuffle threads lower upper n w e -> e = Returned p).
Proof.
  intros St hash shuffle threads lower upper n w p Hwf Hl.
  assert (A : act_phase hash shuffle lower upper n w = Ret p -> forall e, acting_ends hash shuffle threads lower upper n w e -> e = Returned p).
  { intros E e [H|chunks xs H Hc Hx]; [now rewrite E|]. assert (Ht' : 1 <= threads) by lia. apply (C18_any_interleaving_same_result St hash shuffle threads lower upper n w chunks xs Hwf Ht' Hl Hc Hx) in E. now rewrite E. }
  split; [split|exact A].
  - intros E. destruct (Z_le_gt_dec threads 1) as [L|L].
    + pose proof (alone hash shuffle threads lower upper n w L) as X. now rewrite E in X.
    + destruct (C208_terminated_refuted hash shuffle threads lower upper n w Hwf ltac:(lia) Hl) as (_ & _ & e & X & ->). now rewrite E in X.
  - intros X. remember (Returned p) as e eqn:Ee. destruct X as [H|chunks xs H Hc Hx].
    + destruct (act_phase hash shuffle lower upper n w); cbn in Ee; congruence.
    + destruct (run_parts hash shuffle lower upper n (begin_round w lower) xs) as [q| |] eqn:R; cbn in Ee; try discriminate. injection Ee as ->. assert (Ht' : 1 <= threads) by lia.
      now apply (C18_any_interleaving_same_result St hash shuffle threads lower upper n w chunks xs Hwf Ht' Hl Hc Hx).
Qed.
Print Assumptions C208_returns.
(** An agent that asks for a wake-up time in the past. *)
Definition hasty : agent unit := mk_agent (lock (new_communicator false)) (fun lower _ _ o => (o, lower - 1)) [] (tt, []).
Definition hasty_world : world unit := mk_world [([1], hasty)] [] 10 0.
Example C208_case : well_formed hasty_world /\ act_phase (fun _ => 0) (fun _ l => l) 0 10 0 hasty_world = Throw /\
  acting_ends (fun _ => 0) (fun _ l => l) 1 0 10 0 hasty_world Caught /\ acting_ends (fun _ => 0) (fun _ l => l) 2 0 10 0 hasty_world Terminated.
Proof.
  split; [split; [|split]; repeat constructor|]. split; [reflexivity|]. split; [apply (alone (fun _ => 0) (fun _ l => l) 1 0 10 0 hasty_world); lia|].
  apply (together (fun _ => 0) (fun _ l => l) 2 0 10 0 hasty_world [[[1]]; []] (job [1])); [lia|reflexivity|]. cbn. apply (il_part [] _ _ [_]). apply (il_part [] _ _ [_]). apply (il_part [] _ _ [_]). constructor. repeat constructor.
Qed.
