(** Model of the distributed environment - /repo/esl/computation/distributed/mpi_environment.cpp, with
    /repo/esl/computation/distributed/protocol.hpp and /repo/esl/simulation/agent_collection.cpp.
    A cluster is the list of its processes; the rank of a process is its position.  Collective
    operations of MPI involve all processes and are one step of the cluster. *)
From Verif Require Import Base Identity IdMap Communicator.

(** protocol.hpp:65-85. *)
Record migration := mk_migration { source : Z; target : Z; migrant : identity }.

Section Cluster.
(** What is known of an agent besides its identity. *)
Context {A : Type}.
(** mpi_environment.hpp:63-67, environment.hpp:46-62, agent_collection.hpp:62-64: where agents are, the
    agents of the process, agents activated and deactivated recently. *)
Record node := mk_node { locations : idmap Z; local_agents : idmap A; activated : list identity; deactivated : list identity }.
Definition cluster : Type := list node.

(** [boost::mpi::all_to_all]: every process passes one value for each process and obtains one from
    each.  Passing another number of values than there are processes breaks the precondition (asserted
    by Boost; with fewer, values are read that do not exist). *)
Definition all_to_all {X} (passed : list (list X)) : outcome (list (list X)) :=
  if forallb (fun row => Nat.eqb (length row) (length passed)) passed
  then Ret (map (fun r => flat_map (fun row => match nth_error row r with Some x => [x] | None => [] end) passed) (seq 0 (length passed)))
  else UB.

Definition learn (places : list (Z * identity)) (book : idmap Z) : idmap Z := fold_left (fun b p => im_set (snd p) (fst p) b) places book.

(** mpi_environment.cpp:386-394 [activate_agent] by a process of the given rank, with
    agent_collection.cpp:40-45: a new agent. *)
Definition create_agent (rank : Z) (i : identity) (a : A) (n : node) : node :=
  mk_node (im_set i rank (locations n)) (im_emplace i a (local_agents n)) (activated n ++ [i]) (deactivated n).
(** mpi_environment.cpp:408-413 [deactivate_agent]. *)
Definition deactivate_agent (i : identity) (n : node) : node :=
  mk_node (im_erase i (locations n)) (local_agents n) (activated n) (deactivated n ++ [i]).
(** agent_collection.cpp:47-52 [deactivate]. *)
Definition remove_agent (i : identity) (n : node) : node :=
  deactivate_agent i (mk_node (locations n) (im_erase i (local_agents n)) (activated n) (deactivated n)).

(** mpi_environment.cpp:96-126 [activate]: the cluster and the results of the processes. *)
Definition activate (c : cluster) : outcome (list (node * Z)) :=
  let rows := map (fun x => repeat (map (fun i => (Z.of_nat (fst x), i)) (activated (snd x))) (length c)) (combine (seq 0 (length c)) c) in
  match all_to_all rows with
  | Ret received =>
      Ret (map (fun x => let '(n, rows) := x in
                 (mk_node (learn (concat rows) (locations n)) (local_agents n) [] (deactivated n), Z.of_nat (length (concat rows))))
               (combine c received))
  | Throw => Throw
  | UB => UB
  end.
(** mpi_environment.cpp:129-145 [deactivate]. *)
Definition deactivate (c : cluster) : outcome (list (node * Z)) :=
  match all_to_all (map deactivated c) with
  | Ret received => Ret (map (fun x => let '(n, ids) := x in (fold_left (fun n i => deactivate_agent i n) ids n, Z.of_nat (length (deactivated n)))) (combine c received))
  | Throw => Throw
  | UB => UB
  end.

(** *** mpi_environment.cpp:150-320 [migrate], in three parts.
    Lines 160-177: proposals of one process, by process proposed to.  [ideas] is what the virtual
    function [migrate_agents] returns. *)
Definition propose (size : nat) (over : bool) (rank : nat) (n : node) (ideas : list migration) : outcome (list (list migration)) :=
  if over
  then Ret (if Nat.eqb rank 0 then repeat [] size
            else map (fun t => if Nat.eqb t 0 then map (fun a => mk_migration (Z.of_nat rank) 0 (fst a)) (local_agents n) else []) (seq 0 size))
  else if forallb (fun m => (0 <=? target m) && (target m <? Z.of_nat size)) ideas
       then Ret (map (fun t => filter (fun m => target m =? Z.of_nat t) ideas) (seq 0 size))
       else UB.
Fixpoint all_outcomes {X} (l : list (outcome X)) : outcome (list X) :=
  match l with
  | [] => Ret []
  | Ret x :: l' => match all_outcomes l' with Ret r => Ret (x :: r) | Throw => Throw | UB => UB end
  | Throw :: _ => Throw
  | UB :: _ => UB
  end.
(** Lines 253-278: a process accepts what is proposed to it and tells everyone. *)
Definition agree (c : cluster) (over : bool) (ideas : list (list migration)) : outcome (list (list migration)) :=
  match all_outcomes (map (fun x => propose (length c) over (fst x) (fst (snd x)) (snd (snd x))) (combine (seq 0 (length c)) (combine c ideas))) with
  | Ret proposed =>
      match all_to_all proposed with
      | Ret propositions =>
          match all_to_all (map (fun x => repeat (filter (fun p => target p =? Z.of_nat (fst x)) (concat (snd x))) (length c))
                                (combine (seq 0 (length c)) propositions)) with
          | Ret migrations => Ret (map (@concat migration) migrations)
          | Throw => Throw
          | UB => UB
          end
      | Throw => Throw
      | UB => UB
      end
  | Throw => Throw
  | UB => UB
  end.
(** Lines 80-86 [process_migrations]. *)
Definition process_migrations (ms : list migration) (n : node) : node :=
  mk_node (learn (map (fun m => (target m, migrant m)) ms) (locations n)) (local_agents n) (activated n) (deactivated n).

(** Lines 282-322: the processes work through the list of migrations, each at its own pace.
    [pc]: how many a process has done; [channel s t]: what process [s] has sent to [t] and [t] has not
    received.  A blocking send completes when the message is received, or before if it is buffered. *)
Record transit := mk_transit { pc : Z -> nat; agents_at : Z -> idmap A; channel : Z -> Z -> list (identity * A) }.
Definition upd {X} (f : Z -> X) (i : Z) (x : X) : Z -> X := fun j => if j =? i then x else f j.
Definition upd2 {X} (f : Z -> Z -> X) (i j : Z) (x : X) : Z -> Z -> X := fun k l => if (k =? i) && (l =? j) then x else f k l.
(** [buffered]: whether the step uses a buffer. *)
Inductive migration_step (size : nat) (ms : list migration) : bool -> transit -> transit -> Prop :=
| ms_skip i m s : 0 <= i < Z.of_nat size -> nth_error ms (pc s i) = Some m -> source m <> i -> target m <> i ->
    migration_step size ms false s (mk_transit (upd (pc s) i (S (pc s i))) (agents_at s) (channel s))
| ms_absent i m s : 0 <= i < Z.of_nat size -> nth_error ms (pc s i) = Some m -> source m = i -> im_find (migrant m) (agents_at s i) = None ->
    migration_step size ms false s (mk_transit (upd (pc s) i (S (pc s i))) (agents_at s) (channel s))
| ms_send i m a s : 0 <= i < Z.of_nat size -> nth_error ms (pc s i) = Some m -> source m = i -> im_find (migrant m) (agents_at s i) = Some a ->
    migration_step size ms true s (mk_transit (upd (pc s) i (S (pc s i))) (upd (agents_at s) i (im_erase (migrant m) (agents_at s i)))
      (upd2 (channel s) i (target m) (channel s i (target m) ++ [(migrant m, a)])))
| ms_receive j m i a rest s : 0 <= j < Z.of_nat size -> nth_error ms (pc s j) = Some m -> target m = j -> source m <> j ->
    channel s (source m) j = (i, a) :: rest ->
    migration_step size ms false s (mk_transit (upd (pc s) j (S (pc s j))) (upd (agents_at s) j (im_emplace i a (agents_at s j)))
      (upd2 (channel s) (source m) j rest))
| ms_rendezvous i j m m' a s : 0 <= i < Z.of_nat size -> 0 <= j < Z.of_nat size ->
    nth_error ms (pc s i) = Some m -> source m = i -> target m = j -> im_find (migrant m) (agents_at s i) = Some a ->
    nth_error ms (pc s j) = Some m' -> target m' = j -> source m' = i -> i <> j -> channel s i j = [] ->
    migration_step size ms false s (mk_transit (upd (upd (pc s) i (S (pc s i))) j (S (pc s j)))
      (upd (upd (agents_at s) i (im_erase (migrant m) (agents_at s i))) j (im_emplace (migrant m) a (agents_at s j))) (channel s)).
Inductive migration_steps (size : nat) (ms : list migration) : transit -> transit -> Prop :=
| mss_refl s : migration_steps size ms s s
| mss_step s1 s2 s3 b : migration_steps size ms s1 s2 -> migration_step size ms b s2 s3 -> migration_steps size ms s1 s3.
Definition start (c : cluster) : transit :=
  mk_transit (fun _ => O) (fun i => if i <? 0 then [] else match nth_error c (Z.to_nat i) with Some n => local_agents n | None => [] end) (fun _ _ => []).
(** Every process has left the loop. *)
Definition finished (size : nat) (ms : list migration) (s : transit) : Prop := forall i, 0 <= i < Z.of_nat size -> nth_error ms (pc s i) = None.
End Cluster.
Arguments node : clear implicits. Arguments cluster : clear implicits. Arguments transit : clear implicits.

(** *** mpi_environment.cpp:326-373 [send_messages].  An agent is its inbox and outbox. *)
Definition mailbox : Type := list (Z * message) * list message.
(** Lines 335-347, one message sent by a process of the given rank; [agent_locations_[...]] makes an
    entry with location 0 if there is none.  The process, and for which process the message is queued. *)
Definition route (rank : Z) (n : node mailbox) (m : message) : outcome (node mailbox * list (Z * message)) :=
  let '(place, book) := match im_find (m_recipient m) (locations n) with
                        | Some p => (p, locations n)
                        | None => (0, im_set (m_recipient m) 0 (locations n))
                        end in
  if place =? rank
  then match im_find (m_recipient m) (local_agents n) with
       | Some (inbox, outbox) =>
           Ret (mk_node book (im_set (m_recipient m) (Multimap.mm_insert (m_received m) m inbox, outbox) (local_agents n)) (activated n) (deactivated n), [])
       | None => UB
       end
  else Ret (mk_node book (local_agents n) (activated n) (deactivated n), [(place, m)]).
Fixpoint route_all (rank : Z) (n : node mailbox) (ms : list message) : outcome (node mailbox * list (Z * message)) :=
  match ms with
  | [] => Ret (n, [])
  | m :: ms' =>
      match route rank n m with
      | Ret (n1, q1) => match route_all rank n1 ms' with Ret (n2, q2) => Ret (n2, q1 ++ q2) | Throw => Throw | UB => UB end
      | Throw => Throw
      | UB => UB
      end
  end.
Fixpoint route_agents (rank : Z) (n : node mailbox) (ids : list identity) : outcome (node mailbox * list (Z * message)) :=
  match ids with
  | [] => Ret (n, [])
  | i :: ids' =>
      match im_find i (local_agents n) with
      | None => UB
      | Some (_, outbox) =>
          match route_all rank n outbox with
          | Ret (n1, q1) =>
              let n2 := mk_node (locations n1) (match im_find i (local_agents n1) with Some (inbox, _) => im_set i (inbox, []) (local_agents n1) | None => local_agents n1 end)
                                (activated n1) (deactivated n1) in
              match route_agents rank n2 ids' with Ret (n3, q2) => Ret (n3, q1 ++ q2) | Throw => Throw | UB => UB end
          | Throw => Throw
          | UB => UB
          end
      end
  end.
Fixpoint send_local (rank : Z) (c : cluster mailbox) : outcome (list (node mailbox * list (Z * message))) :=
  match c with
  | [] => Ret []
  | n :: c' =>
      match route_agents rank n (map fst (local_agents n)) with
      | Ret x => match send_local (rank + 1) c' with Ret r => Ret (x :: r) | Throw => Throw | UB => UB end
      | Throw => Throw
      | UB => UB
      end
  end.
(** Lines 352-375.  What a process receives is not used, except that a process that received
    something from itself would resend messages for ever (the loop in lines 361-367 does not end); the result is 0. *)
Inductive sending := Sent (c : cluster mailbox) (count : Z) | Loops | Fails | Corrupts.
Definition send_messages (c : cluster mailbox) : sending :=
  match send_local 0 c with
  | Ret xs =>
      if forallb (fun x => forallb (fun q => (0 <=? fst q) && (fst q <? Z.of_nat (length c))) (snd x)) xs
      then
        let rows := map (fun x => map (fun t => filter (fun q => fst q =? Z.of_nat t) (snd x)) (seq 0 (length c))) xs in
        match all_to_all rows with
        | Ret received =>
            if existsb (fun x => match nth_error (snd x) (fst x) with Some (_ :: _) => true | _ => false end) (combine (seq 0 (length c)) received)
            then Loops
            else Sent (map fst xs) 0
        | Throw => Fails
        | UB => Corrupts
        end
      else Corrupts
  | Throw => Fails
  | UB => Corrupts
  end.
