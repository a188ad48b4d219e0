(** C211: an impact market in a simulation is cleared once in every time step, with one order of each participant, which has answered the quotes
    once; C212: orders need not say when they were sent. *)
From Verif Require Import Base Identity IdMap IdMap_proofs Communicator Simulation Simulation_spec Walras Markets Messages Sessions_spec ImpactSessions ImpactSessions_spec ImpactSessions_proofs2.
From Coq Require Import ZifyBool ZifyNat.

(** Whatever participants order, and however messages are shuffled: if orders say when they were sent, the run comes to its end and passes
    through all times; from time 1 on there is one session at each time, with one order of every participant; the market calls the impact function with
    the net volumes of these and quotes what it quoted before, with price 0 for what else was ordered.  Participants answer the quotes of time
    1 twice, and those of later times once. *)
Theorem C211_sessions {T : Type} (encode : list (identity * Z) -> Z) (order_of : Z -> volumes) (answer : identity -> Z -> T -> Z -> T * Z)
  (hash : identity -> Z) (shuffle : seed -> list message -> list message)
  (random : identity -> bool) (market : identity) (participants : list identity) (fuel : nat) (w : world (party T)) quotes states :
  (forall s l, Permutation (shuffle s l) l) ->
  NoDup participants -> ~ In market participants -> participants <> [] -> 0 < w_end w < W64 ->
  impact_world encode order_of answer true random market participants quotes states w ->
  (Z.to_nat (w_end w) + 3 <= fuel)%nat ->
  exists log last_quotes last_states w',
    impact_sessions encode order_of answer participants (w_end w) 2 1 quotes states log last_quotes last_states /\
    map fst log = times 1 (Z.to_nat (w_end w) - 1) /\
    run_from hash shuffle fuel 0 w = Some (Ret (w', times 0 (Z.to_nat (w_end w)))) /\
    impact_outcome market participants last_quotes last_states log w'.
Proof.
  intros Sh Nd Nm Ne E M Fu. exact (run_market encode order_of answer true hash shuffle Sh random market participants Nd Nm Ne fuel quotes states w eq_refl E M Fu).
Qed.
Print Assumptions C211_sessions.

(** So the claim fails: participants that count their answers have given one more than there were sessions, in every run beyond time 1. *)
Definition counts (body : Z) (i : identity) (time t quotes : Z) : Z * Z := (t + 1, body).
Lemma count_answers body i time n : forall t q, fst (answers (counts body) i time n t q) = t + Z.of_nat n.
Proof. induction n as [|n IH]; intros t q; cbn [answers]; [cbn; lia|]. unfold counts at 1. specialize (IH (t + 1) q). destruct (answers (counts body) i time n (t + 1) q) as [t2 bs]. cbn [fst] in *. lia. Qed.
Lemma count_sessions body encode order_of participants until opening time quotes states log last last_states :
  impact_sessions encode order_of (counts body) participants until opening time quotes states log last last_states ->
  forall i, In i participants -> last_states i = states i + (match log with [] => 0 | _ => Z.of_nat opening + Z.of_nat (length log) - 1 end).
Proof.
  induction 1 as [opening quotes states|opening time quotes states orders extra states' log last last_states L Ho He Hs S IH]; intros i Hi; [lia|].
  rewrite (IH i Hi), (Hs i Hi), count_answers. destruct log as [|x log]; cbn [length]; lia.
Qed.
Theorem C211_answers_refuted (encode : list (identity * Z) -> Z) (order_of : Z -> volumes) (body : Z)
  (hash : identity -> Z) (shuffle : seed -> list message -> list message)
  (random : identity -> bool) (market : identity) (participants : list identity) (fuel : nat) (w : world (party Z)) quotes :
  (forall s l, Permutation (shuffle s l) l) ->
  NoDup participants -> ~ In market participants -> participants <> [] -> 1 < w_end w < W64 ->
  impact_world encode order_of (counts body) true random market participants quotes (fun _ => 0) w ->
  (Z.to_nat (w_end w) + 3 <= fuel)%nat ->
  exists log last_quotes w', run_from hash shuffle fuel 0 w = Some (Ret (w', times 0 (Z.to_nat (w_end w)))) /\
    impact_outcome market participants last_quotes (fun _ => w_end w) log w' /\ Z.of_nat (length log) = w_end w - 1.
Proof.
  intros Sh Nd Nm Ne E M Fu. destruct (C211_sessions encode order_of (counts body) hash shuffle random market participants fuel w quotes (fun _ => 0) Sh Nd Nm Ne ltac:(lia) M Fu) as (log & q' & st' & w' & Se & Ml & Er & Om & Op).
  assert (Ll : length log = (Z.to_nat (w_end w) - 1)%nat) by (rewrite <- (map_length fst log), Ml; unfold times; now rewrite map_length, seq_length).
  exists log, q', w'. split; [exact Er|]. split; [|lia]. split; [exact Om|]. intros i Hi. destruct (Op i Hi) as (c & a & inbox & out & F). pose proof (count_sessions _ _ _ _ _ _ _ _ _ _ _ _ Se i Hi) as X.
  destruct log as [|x log]; [cbn in Ll; lia|]. exists c, a, inbox, out. rewrite F. do 4 f_equal. lia.
Qed.
Print Assumptions C211_answers_refuted.

(** Two traders: the first orders shares, the second shares and bonds; bonds are not quoted. *)
Definition two_orders (z : Z) : volumes := if z =? 0 then [([9], (0, Sell))] else [([9], (0, Sell)); ([8], (1, Sell))].
Definition first_quote (q : list (identity * Z)) : Z := match q with (_, p) :: _ => p | [] => 0 end.
Definition bids (i : identity) (time t q : Z) : Z * Z := (t + q, if id_eqb i [2] then 0 else t).
Definition impact_trading (stamped : bool) : world (party Z) :=
  mk_world [([1], impact_agent first_quote two_orders true [1] (new_impact [([9], 100)] [[2]; [3]]));
            ([2], trader_agent bids stamped false [2] 1); ([3], trader_agent bids stamped true [3] 1)] [] 4 0.
Lemma trading_impact stamped : impact_world first_quote two_orders bids stamped (fun i => negb (id_eqb i [2])) [1] [[2]; [3]] [([9], 100)] (fun _ => 1) (impact_trading stamped).
Proof.
  split; [split; [|split]; repeat constructor|]. split; [reflexivity|]. split; [reflexivity|]. split.
  - intros i [<-|[<-|[]]]; reflexivity.
  - intros i N1 N2. destruct (im_find i (agents (impact_trading stamped))) eqn:F; [|reflexivity]. apply im_find_in in F; [|repeat constructor]. cbn in F. destruct F as [[= <- _]|[[= <- _]|[[= <- _]|[]]]]; [now contradiction N1|exfalso; apply N2; now left|exfalso; apply N2; right; now left].
Qed.
Definition seen (w : world (party Z)) :=
  (match im_find [1] (agents w) with Some a => match fst (ag_own a) with Impact _ _ log => log | _ => [] end | None => [] end,
   map (fun i => match im_find i (agents w) with Some a => match fst (ag_own a) with Trader t => t | _ => 0 end | None => 0 end) [[2]; [3]]).
Example C211_case :
  impact_world first_quote two_orders bids true (fun i => negb (id_eqb i [2])) [1] [[2]; [3]] [([9], 100)] (fun _ => 1) (impact_trading true) /\
  match run_from (fun _ => 0) (fun _ l => l) 7 0 (impact_trading true) with
  | Some (Ret (w', ts)) => ts = [0; 1; 2; 3] /\
      seen w' = ([(1, ([([9], 2); ([8], -1)], [([9], 100); ([8], 0)])); (2, ([([9], 2); ([8], -1)], [([9], 100); ([8], 0)])); (3, ([([9], 2); ([8], -1)], [([9], 100); ([8], 0)]))], [401; 401])
  | _ => False
  end.
Proof. split; [apply trading_impact|]. vm_compute. split; reflexivity. Qed.

(** ** C212 *)
(** The time of sending is an optional argument of orders, 0 by default.  The market takes such orders for old ones, and asks to be activated
    again at the same time, over and over: no run beyond time 2 ever ends. *)
Theorem C212_default_refuted {T : Type} (encode : list (identity * Z) -> Z) (order_of : Z -> volumes) (answer : identity -> Z -> T -> Z -> T * Z)
  (hash : identity -> Z) (shuffle : seed -> list message -> list message)
  (random : identity -> bool) (market : identity) (participants : list identity) (fuel : nat) (w : world (party T)) quotes states :
  (forall s l, Permutation (shuffle s l) l) ->
  NoDup participants -> ~ In market participants -> participants <> [] -> 2 < w_end w < W64 ->
  impact_world encode order_of answer false random market participants quotes states w ->
  run_from hash shuffle fuel 0 w = None.
Proof.
  intros Sh Nd Nm Ne E M. exact (run_refused encode order_of answer false hash shuffle Sh random market participants Nd Nm Ne fuel quotes states w eq_refl E M).
Qed.
Print Assumptions C212_default_refuted.
Example C212_case : impact_world first_quote two_orders bids false (fun i => negb (id_eqb i [2])) [1] [[2]; [3]] [([9], 100)] (fun _ => 1) (impact_trading false) /\
  run_from (fun _ => 0) (fun _ l => l) 50 0 (impact_trading false) = None /\
  (* the steps at times 0 and 1 return; in the latter the market is not cleared, though both have sent orders twice *)
  match step (fun _ => 0) (fun _ l => l) 10 0 4 (impact_trading false) with
  | Some (Ret (w1, next)) => next = 1 /\ match step (fun _ => 0) (fun _ l => l) 10 1 4 w1 with Some (Ret (w2, next2)) => next2 = 2 /\ seen w2 = ([], [201; 201]) | _ => False end
  | _ => False
  end.
Proof. split; [apply trading_impact|]. vm_compute. repeat split. Qed.
