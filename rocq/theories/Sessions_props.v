(** C202: a market in a simulation holds one session in every time step, with the orders of all participants; C203: but participants that
    trade sleep through the next session. *)
From Verif Require Import Base Identity IdMap IdMap_proofs Communicator Simulation Simulation_spec Walras Markets Messages Sessions Sessions_spec Sessions_proofs3.
From Coq Require Import SpecFloat.

(** Whatever participants order and book, and however messages are shuffled: if those that get transfers ask to be activated again at the next
    time, the run consists of sessions, one at each time from 0 until the end of the run; the market puts out precisely the quotes of
    these sessions, and each participant has answered each of these quotes once and booked each transfer once.  The run comes to its end
    unless the market cannot be cleared at some time. *)
Theorem C202_sessions {T D : Type} (encode : list (identity * Z) -> Z) (order_of : Z -> D)
  (solver : list (identity * D) -> list (identity * Z) -> option (list (identity * spec_float)))
  (answer : identity -> Z -> T -> Z -> T * Z) (settlement : list (identity * D) -> list (identity * Z) -> list (identity * Z))
  (booked : identity -> Z -> T -> Z -> T) (eager : identity -> bool)
  (hash : identity -> Z) (shuffle : seed -> list message -> list message)
  (random : identity -> bool) (market : identity) (participants : list identity) (fuel : nat) (w : world (member T)) quotes states :
  (forall s l, Permutation (shuffle s l) l) ->
  NoDup participants -> ~ In market participants -> participants <> [] -> 0 < w_end w < W64 ->
  settles_with_eager settlement eager ->
  market_world encode order_of solver answer settlement booked eager random market participants quotes states w ->
  (Z.to_nat (w_end w) + 3 <= fuel)%nat ->
  exists outputs last, sessions encode order_of solver answer settlement booked participants (w_end w) 0 quotes states outputs last /\
    match last with
    | Some (last_quotes, last_states) => (exists w', run_from hash shuffle fuel 0 w = Some (Ret (w', times 0 (Z.to_nat (w_end w)))) /\
        outcome_of market participants last_quotes last_states outputs w') /\ map fst outputs = times 0 (Z.to_nat (w_end w))
    | None => forall r, run_from hash shuffle fuel 0 w <> Some (Ret r)
    end.
Proof.
  intros Sh Nd Nm Ne E He M Fu.
  exact (run_market encode order_of solver answer settlement booked eager hash shuffle Sh random market participants Nd Nm Ne fuel quotes states w He E M Fu).
Qed.
Print Assumptions C202_sessions.

(** Two traders: each orders what is quoted and what it has, and books what it is sent; the market doubles quotes if less than 300 is
    ordered, and halves them otherwise, and sends each trader a tenth of what it ordered. *)
Definition sum_of (l : list (identity * Z)) : Z := fold_right (fun x a => snd x + a) 0 l.
Definition doubles_or_halves (orders quotes : list (identity * Z)) : option (list (identity * spec_float)) :=
  let factor := if sum_of orders <? 300 then S754_finite false 4503599627370496 (-51) else S754_finite false 4503599627370496 (-53) in
  Some (map (fun x => (fst x, factor)) quotes).
Definition orders_more (i : identity) (time t body : Z) : Z * Z := (t, t + body).
Definition a_tenth (orders quotes : list (identity * Z)) : list (identity * Z) := map (fun x => (fst x, snd x / 10)) orders.
Definition adds (i : identity) (time t body : Z) : Z := t + body.
Definition trading (eager : identity -> bool) : world (member Z) :=
  mk_world [([1], market_agent sum_of (fun z => z) doubles_or_halves a_tenth true [1] (new_setter [([9], 100)] [[2]; [3]]));
            ([2], participant_agent orders_more adds eager false [2] 0); ([3], participant_agent orders_more adds eager true [3] 50)] [] 4 0.
Definition opening : identity -> Z := fun i => if id_eqb i [2] then 0 else 50.
Lemma trading_market eager : market_world sum_of (fun z => z) doubles_or_halves orders_more a_tenth adds eager (fun i => negb (id_eqb i [2])) [1] [[2]; [3]] [([9], 100)] opening (trading eager).
Proof.
  split; [split; [|split]; repeat constructor|]. split; [reflexivity|]. split; [reflexivity|]. split.
  - intros i [<-|[<-|[]]]; reflexivity.
  - intros i N1 N2. destruct (im_find i (agents (trading eager))) eqn:F; [|reflexivity]. apply im_find_in in F; [|repeat constructor]. cbn in F. destruct F as [[= <- _]|[[= <- _]|[[= <- _]|[]]]]; [now contradiction N1|exfalso; apply N2; now left|exfalso; apply N2; right; now left].
Qed.
Lemma tenth_orderers : settles_with_orderers a_tenth.
Proof. intros orders quotes x Hx. apply in_map_iff in Hx. destruct Hx as (y & <- & Hy). cbn [fst]. now apply in_map. Qed.
Definition seen (w : world (member Z)) : list (Z * list (identity * Z)) * list Z :=
  (match im_find [1] (agents w) with Some a => match fst (ag_own a) with Setter _ _ outputs => outputs | _ => [] end | None => [] end,
   map (fun i => match im_find i (agents w) with Some a => match fst (ag_own a) with Participant t => t | _ => 0 end | None => 0 end) [[2]; [3]]).
Example C202_case :
  settles_with_eager a_tenth (fun _ => true) /\
  market_world sum_of (fun z => z) doubles_or_halves orders_more a_tenth adds (fun _ => true) (fun i => negb (id_eqb i [2])) [1] [[2]; [3]] [([9], 100)] opening (trading (fun _ => true)) /\
  match run_from (fun _ => 0) (fun _ l => l) 7 0 (trading (fun _ => true)) with
  | Some (Ret (w', ts)) => ts = [0; 1; 2; 3] /\ seen w' = ([(0, [([9], 200)]); (1, [([9], 100)]); (2, [([9], 50)]); (3, [([9], 100)])], [53; 126])
  | _ => False
  end.
Proof. split; [split; [apply tenth_orderers|reflexivity]|]. split; [apply trading_market|]. vm_compute. split; reflexivity. Qed.

(** ** C203 *)
(** Transfers are delivered at the time of the trade: those that get them are activated again at that time and, by default, then ask for the
    end of the run - so they sleep through the quotes of the next time.  When all participants trade at time 0, the market never gets orders at
    time 1 and the run never ends, whatever the fuel. *)
Theorem C203_sleep_refuted {T D : Type} (encode : list (identity * Z) -> Z) (order_of : Z -> D)
  (solver : list (identity * D) -> list (identity * Z) -> option (list (identity * spec_float)))
  (answer : identity -> Z -> T -> Z -> T * Z) (settlement : list (identity * D) -> list (identity * Z) -> list (identity * Z))
  (booked : identity -> Z -> T -> Z -> T) (eager : identity -> bool)
  (hash : identity -> Z) (shuffle : seed -> list message -> list message)
  (random : identity -> bool) (market : identity) (participants : list identity) (fuel : nat) (w : world (member T)) quotes states :
  (forall s l, Permutation (shuffle s l) l) ->
  NoDup participants -> ~ In market participants -> participants <> [] -> 1 < w_end w < W64 ->
  settles_with_orderers settlement -> (forall i, In i participants -> eager i = false) ->
  all_trade encode order_of answer settlement participants 0 quotes states ->
  market_world encode order_of solver answer settlement booked eager random market participants quotes states w ->
  forall r, run_from hash shuffle fuel 0 w <> Some (Ret r).
Proof.
  intros Sh Nd Nm Ne E Ho He Ha M.
  exact (all_sleep encode order_of solver answer settlement booked eager hash shuffle Sh random market participants Nd Nm Ne fuel quotes states w Ho He Ha E M).
Qed.
Print Assumptions C203_sleep_refuted.
(** The world of C202_case, with traders as they are by default. *)
Theorem C203_next_session_refuted : forall fuel r, run_from (fun _ => 0) (fun _ l => l) fuel 0 (trading (fun _ => false)) <> Some (Ret r).
Proof.
  intros fuel. apply (C203_sleep_refuted sum_of (fun z => z) doubles_or_halves orders_more a_tenth adds (fun _ => false) (fun _ => 0) (fun _ l => l) (fun i => negb (id_eqb i [2])) [1] [[2]; [3]] fuel _ [([9], 100)] opening).
  - reflexivity.
  - repeat constructor; cbn; intuition discriminate.
  - cbn; intuition discriminate.
  - discriminate.
  - unfold W64. cbn. lia.
  - apply tenth_orderers.
  - reflexivity.
  - intros orders i P Hi. assert (H : In i (map fst orders)). { apply (Permutation_in _ (Permutation_map fst (Permutation_sym P))). unfold all_orders. rewrite map_map. cbn [fst]. now rewrite map_id. }
    apply in_map_iff in H. destruct H as (x & <- & Hx). exists (snd x / 10). unfold a_tenth. apply in_map_iff. exists x. split; [reflexivity|exact Hx].
  - apply trading_market.
Qed.
Print Assumptions C203_next_session_refuted.
(** What happens: at time 1 the market acts in every round, and nobody else does. *)
Example C203_case :
  all_trade sum_of (fun z => z) orders_more a_tenth [[2]; [3]] 0 [([9], 100)] opening /\
  match step (fun _ => 0) (fun _ l => l) 10 0 4 (trading (fun _ => false)) with
  | Some (Ret (w', next)) => next = 1 /\ seen w' = ([(0, [([9], 200)])], [10; 65]) /\ im_find [2] (wake_up_times w') = Some 4 /\ im_find [3] (wake_up_times w') = Some 4 /\
      step (fun _ => 0) (fun _ l => l) 100 1 4 w' = None
  | _ => False
  end.
Proof.
  split; [|vm_compute; repeat split].
  intros orders i P Hi. assert (H : In i (map fst orders)). { apply (Permutation_in _ (Permutation_map fst (Permutation_sym P))). exact Hi. }
  apply in_map_iff in H. destruct H as (x & <- & Hx). exists (snd x / 10). unfold a_tenth. apply in_map_iff. exists x. split; [reflexivity|exact Hx].
Qed.
