(** Model of message delivery, of a step of a model and of a run —
    /repo/esl/computation/environment.cpp, /repo/esl/simulation/model.cpp,
    /repo/esl/simulation/agent_collection.hpp.  The single-process environment is modelled, not
    the MPI one.  Agent behaviour (callbacks and [act]) is an arbitrary deterministic function of
    what the agent is given and of its own state and outbox; it does not touch other agents, the
    inbox or the model.  [create] of new agents during a step is modelled in Population.v. *)
From Verif Require Import Base Interval Identity Quantity IdMap Multimap Communicator.

Section Simulation.
(** The private state of agents. *)
Context {St : Type}.
(** What callbacks and [act] work on: private state and outbox. *)
Definition own : Type := St * list message.
Definition action : Type := Z -> Z -> seed -> own -> own * Z.
(** agent.hpp:41-75 with communicator.hpp: behaviour, inbox (by delivery time), own state. *)
Record agent := mk_agent {
  ag_comm : communicator own; ag_act : action; ag_inbox : list (Z * message); ag_own : own }.
Definition ag_outbox (a : agent) : list message := snd (ag_own a).
Definition with_inbox (a : agent) (i : list (Z * message)) : agent := mk_agent (ag_comm a) (ag_act a) i (ag_own a).
Definition with_own (a : agent) (o : own) : agent := mk_agent (ag_comm a) (ag_act a) (ag_inbox a) o.
(** model.hpp:45-120: local agents and wake-up times by identity, the end of the simulation. *)
Record world := mk_world { agents : idmap agent; wake_up_times : idmap Z; w_end : Z; w_sample : Z }.

(** *** environment.cpp:134-168 [send_messages]. *)
(** One message, lines 144-159. *)
Definition deliver (w : world) (m : message) : outcome world :=
  match im_find (m_recipient m) (agents w) with
  | None => Throw
  | Some r =>
      let agents' := im_set (m_recipient m) (with_inbox r (mm_insert (m_received m) m (ag_inbox r))) (agents w) in
      let time := match im_find (m_recipient m) (wake_up_times w) with
                  | None => m_received m
                  | Some t => Z.min t (m_received m)
                  end in
      Ret (mk_world agents' (im_set (m_recipient m) time (wake_up_times w)) (w_end w) (w_sample w))
  end.
Fixpoint deliver_all (w : world) (ms : list message) : outcome world :=
  match ms with
  | [] => Ret w
  | m :: ms' => match deliver w m with Ret w' => deliver_all w' ms' | Throw => Throw | UB => UB end
  end.
(** One agent, lines 140-165: deliver its outbox, then clear it. *)
Definition send_from (w : world) (i : identity) : outcome (world * Z) :=
  match im_find i (agents w) with
  | None => UB
  | Some a =>
      match deliver_all w (ag_outbox a) with
      | Ret w1 =>
          match im_find i (agents w1) with
          | None => UB
          | Some a1 =>
              Ret (mk_world (im_set i (with_own a1 (fst (ag_own a1), [])) (agents w1)) (wake_up_times w1) (w_end w1) (w_sample w1),
                   Z.of_nat (length (ag_outbox a)))
          end
      | Throw => Throw
      | UB => UB
      end
  end.
Fixpoint send_all (w : world) (ids : list identity) (count : Z) : outcome (world * Z) :=
  match ids with
  | [] => Ret (w, count)
  | i :: ids' => match send_from w i with Ret (w', n) => send_all w' ids' (count + n) | Throw => Throw | UB => UB end
  end.
Definition send_messages (w : world) : outcome (world * Z) := send_all w (map fst (agents w)) 0.

(** *** model.cpp:67-85 [determine_next_event]: the earliest wake-up, at most the end. *)
Definition determine_next_event (w : world) : Z :=
  fold_left (fun r it => if r >? snd it then Z.min r (snd it) else r) (wake_up_times w) (w_end w).

(** *** model.cpp:114-190: the job of one acting agent.  [hash] is [std::hash<identity>],
    [shuffle] the shuffling of equal-priority messages. *)
Context (hash : identity -> Z) (shuffle : seed -> list message -> list message).
Definition seed_of (i : identity) (lower round sample : Z) : seed := [hash i; lower; round; sample].
(** Lines 138-141: handle messages, then act; the agent's new own state and wake-up time. *)
Definition handle (a : agent) (lower upper : Z) (s : seed) : outcome (own * Z) :=
  match process_messages (ag_comm a) shuffle lower upper s (ag_inbox a) (ag_own a) with
  | Ret (o, message_time) => let '(o', act_time) := ag_act a lower upper s o in Ret (o', Z.min message_time act_time)
  | Throw => Throw
  | UB => UB
  end.
(** Lines 172-180: only messages of the future stay. *)
Definition keep_future (lower : Z) (inbox : list (Z * message)) : list (Z * message) :=
  fold_left (fun acc tm => if fst tm >? lower then mm_insert (fst tm) (snd tm) acc else acc) inbox [].

(** The job is three atomic parts: the agent's own work; the schedule under the lock
    (lines 145-160); the inbox (172-180).  [p_pending] holds [wake_up_] between the parts, one
    slot per agent (each thread works on one agent at a time). *)
Record progress := mk_progress { p_world : world; p_pending : idmap Z; p_first : Z }.
Inductive part := Handle (i : identity) | Schedule (i : identity) | Trim (i : identity).
Definition run_part (lower upper round : Z) (p : progress) (x : part) : outcome progress :=
  let w := p_world p in
  match x with
  | Handle i =>
      match im_find i (agents w) with
      | None => UB
      | Some a =>
          match handle a lower upper (seed_of i lower round (w_sample w)) with
          | Ret (o, t) =>
              Ret (mk_progress (mk_world (im_set i (with_own a o) (agents w)) (wake_up_times w) (w_end w) (w_sample w))
                               (im_set i t (p_pending p)) (p_first p))
          | Throw => Throw
          | UB => UB
          end
      end
  | Schedule i =>
      match im_find i (p_pending p) with
      | None => UB
      | Some t =>
          if t <? lower then Throw
          else
            let w' := mk_world (agents w) (im_set i t (wake_up_times w)) (w_end w) (w_sample w) in
            Ret (mk_progress w' (p_pending p) (determine_next_event w'))
      end
  | Trim i =>
      match im_find i (agents w) with
      | None => UB
      | Some a =>
          Ret (mk_progress (mk_world (im_set i (with_inbox a (keep_future lower (ag_inbox a))) (agents w)) (wake_up_times w) (w_end w) (w_sample w))
                           (p_pending p) (p_first p))
      end
  end.
Fixpoint run_parts (lower upper round : Z) (p : progress) (xs : list part) : outcome progress :=
  match xs with
  | [] => Ret p
  | x :: xs' => match run_part lower upper round p x with Ret p' => run_parts lower upper round p' xs' | Throw => Throw | UB => UB end
  end.
Definition job (i : identity) : list part := [Handle i; Schedule i; Trim i].

(** *** model.cpp:193-208: agents without a wake-up time get the present time; the acting agents
    are those that wake up now. *)
Definition schedule_new (w : world) (lower : Z) : world :=
  mk_world (agents w) (fold_left (fun t i => im_emplace i lower t) (map fst (agents w)) (wake_up_times w)) (w_end w) (w_sample w).
Definition acting (w : world) (lower : Z) : list identity :=
  filter (fun i => match im_find i (wake_up_times w) with Some t => t =? lower | None => true end) (map fst (agents w)).
(** *** model.cpp:102-247: one round, sequential (lines 213-216). *)
Definition finish_round (p : progress) : outcome (world * Z) :=
  match send_messages (p_world p) with
  | Ret (w', sent) => Ret (w', if 0 <? sent then determine_next_event w' else p_first p)
  | Throw => Throw
  | UB => UB
  end.
Definition begin_round (w : world) (lower : Z) : progress := mk_progress (schedule_new w lower) [] (determine_next_event w).
Definition act_phase (lower upper n : Z) (w : world) : outcome progress :=
  run_parts lower upper n (begin_round w lower) (flat_map job (acting w lower)).
Definition round (lower upper n : Z) (w : world) : outcome (world * Z) :=
  match act_phase lower upper n w with
  | Ret p => finish_round p
  | Throw => Throw
  | UB => UB
  end.
(** *** model.cpp:217-238: with several threads.  The acting agents are split into consecutive
    chunks of the sizes [quantity(n) / threads]; taking more agents than there are runs off the end
    of the vector. *)
Fixpoint take_chunks (sizes : list Z) (l : list identity) : outcome (list (list identity)) :=
  match sizes with
  | [] => Ret []
  | k :: sizes' =>
      if Z.of_nat (length l) <? k then UB
      else match take_chunks sizes' (skipn (Z.to_nat k) l) with
           | Ret cs => Ret (firstn (Z.to_nat k) l :: cs)
           | r => r
           end
  end.
Definition thread_chunks (threads : Z) (l : list identity) : outcome (list (list identity)) :=
  match q_split (Z.of_nat (length l)) threads with
  | Ret sizes => take_chunks sizes l
  | Throw => Throw
  | UB => UB
  end.
(** Each thread runs the jobs of its chunk in sequence; the parts of different threads interleave
    in any way.  (An exception in a thread ends the program: only returning executions are
    related to the sequential round.) *)
Inductive interleaving : list (list part) -> list part -> Prop :=
| il_done ts : Forall (fun t => t = []) ts -> interleaving ts []
| il_part ts1 x t ts2 xs : interleaving (ts1 ++ t :: ts2) xs -> interleaving (ts1 ++ (x :: t) :: ts2) (x :: xs).
Definition threaded_round (threads lower upper n : Z) (w : world) (r : world * Z) : Prop :=
  exists chunks xs p, thread_chunks threads (acting w lower) = Ret chunks /\ interleaving (map (flat_map job) chunks) xs /\
    run_parts lower upper n (begin_round w lower) xs = Ret p /\ finish_round p = Ret r.
(** model.cpp:102-250: rounds until the next event lies after [lower]; [None]: not finished
    within the given number of rounds. *)
Fixpoint rounds (fuel : nat) (lower upper n : Z) (w : world) : option (outcome (world * Z)) :=
  match fuel with
  | O => None
  | S fuel' =>
      match round lower upper n w with
      | Ret (w', first) => if lower >=? first then rounds fuel' lower upper (w32 (n + 1)) w' else Some (Ret (w', first))
      | Throw => Some Throw
      | UB => Some UB
      end
  end.
(** The same with several threads: any returning execution. *)
Inductive threaded_rounds (threads lower upper : Z) : Z -> world -> world * Z -> Prop :=
| tr_last n w w' first : threaded_round threads lower upper n w (w', first) -> lower < first -> threaded_rounds threads lower upper n w (w', first)
| tr_more n w w' first r : threaded_round threads lower upper n w (w', first) -> first <= lower ->
    threaded_rounds threads lower upper (w32 (n + 1)) w' r -> threaded_rounds threads lower upper n w r.
(** model.cpp:90-255 [step]. *)
Definition step (fuel : nat) (lower upper : Z) (w : world) : option (outcome (world * Z)) :=
  if ti_empty lower upper then Some Throw else rounds fuel lower upper 0 w.

(** *** environment.cpp:202-270 [run], from time [lower] on, with the list of the times at which
    [step] was called.  The calls of [activate]/[deactivate] (228-229) are modelled in Population.v; here
    they do nothing.  The user's [initialize] and [terminate] and the progress output are left out. *)
Fixpoint run_from (fuel : nat) (lower : Z) (w : world) : option (outcome (world * list Z)) :=
  match fuel with
  | O => None
  | S fuel' =>
      match step fuel lower (w_end w) w with
      | Some (Ret (w', next)) =>
          if next <? w_end w'
          then match run_from fuel' next w' with
               | Some (Ret (w2, ts)) => Some (Ret (w2, lower :: ts))
               | r => r
               end
          else Some (Ret (w', [lower]))
      | Some Throw => Some Throw
      | Some UB => Some UB
      | None => None
      end
  end.
End Simulation.
Arguments agent : clear implicits.
Arguments world : clear implicits.
