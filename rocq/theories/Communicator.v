(** Model of message handling — /repo/esl/interaction/communicator.{hpp,cpp} and
    /repo/esl/interaction/header.hpp. *)
From Verif Require Import Base Identity Multimap.

(** header.hpp:73-107; [m_body] stands for what a derived message class carries. *)
Record message := mk_message {
  m_type : Z; m_sender : identity; m_recipient : identity; m_sent : Z; m_received : Z; m_body : Z }.
(** The integers given to [std::seed_seq] (model.cpp:123-127). *)
Definition seed : Type := list Z.

Section Communicator.
(** What callbacks may read and change: the agent's own state including its outbox. *)
Context {A : Type}.
(** communicator.hpp:72-75: a callback gets the message, the step [[lower, upper)] and the seed,
    and returns the time of its next event. *)
Definition callback : Type := message -> Z -> Z -> seed -> A -> A * Z.
(** communicator.hpp:137-159: callbacks by message code and priority, lock and schedule. *)
Record communicator := mk_communicator {
  callbacks : list (Z * list (Z * callback)); locked : bool; random : bool }.
(** communicator.cpp:32-37. *)
Definition new_communicator (schedule : bool) : communicator := mk_communicator [] false schedule.
(** agent_collection.hpp:83-85: locking after construction. *)
Definition lock (c : communicator) : communicator := mk_communicator (callbacks c) true (random c).
(** communicator.hpp:221-265 [register_callback]; [dynamic_pointer_cast] and the descriptive
    strings are left out. *)
Definition register (c : communicator) (type priority : Z) (f : callback) : outcome communicator :=
  if locked c then Throw
  else
    let fs := match fm_find type (callbacks c) with Some fs => fs | None => [] end in
    Ret (mk_communicator (fm_set type (mm_insert priority f fs) (callbacks c)) (locked c) (random c)).

(** communicator.cpp:60-75: the loop over the callbacks of one message; a failing [assert] is an
    abort, or undefined when assertions are off. *)
Fixpoint call_all (m : message) (lower upper : Z) (s : seed) (fs : list (Z * callback)) (first : Z) (a : A)
  : outcome (A * Z) :=
  match fs with
  | [] => Ret (a, first)
  | (_, f) :: fs' =>
      let '(a', next) := f m lower upper s a in
      if (lower <=? next) && (next <=? upper)
      then call_all m lower upper s fs' (Z.min first next) a'
      else UB
  end.
(** communicator.cpp:48-79 [process_message]. *)
Definition process_message (c : communicator) (lower upper : Z) (s : seed) (m : message) (a : A) : outcome (A * Z) :=
  match fm_find (m_type m) (callbacks c) with
  | None => Ret (a, upper)
  | Some fs => call_all m lower upper s (rev fs) upper a
  end.

(** communicator.cpp:104-110: the highest priority of the callbacks. *)
Definition highest_priority (fs : list (Z * callback)) : Z := fold_left (fun h f => Z.max h (fst f)) fs (-128).
(** communicator.cpp:91-113: messages that are due and have callbacks, by priority.  The inbox is
    ordered by delivery time, and the loop ends at the first message of the future. *)
Fixpoint by_priority (c : communicator) (lower : Z) (inbox : list (Z * message)) (acc : list (Z * message))
  : list (Z * message) :=
  match inbox with
  | [] => acc
  | (k, m) :: inbox' =>
      if k >? lower then acc
      else match fm_find (m_type m) (callbacks c) with
           | None | Some [] => by_priority c lower inbox' acc
           | Some fs => by_priority c lower inbox' (mm_insert (highest_priority fs) m acc)
           end
  end.
(** communicator.cpp:117-126: runs of equal priority. *)
Fixpoint runs (l : list (Z * message)) : list (Z * list message) :=
  match l with
  | [] => []
  | (p, m) :: l' =>
      match runs l' with
      | (p', ms) :: r => if p =? p' then (p, m :: ms) :: r else (p, [m]) :: (p', ms) :: r
      | [] => [(p, [m])]
      end
  end.
Fixpoint handle_all (c : communicator) (lower upper : Z) (s : seed) (ms : list message) (first : Z) (a : A)
  : outcome (A * Z) :=
  match ms with
  | [] => Ret (a, first)
  | m :: ms' =>
      match process_message c lower upper s m a with
      | Ret (a', next) => handle_all c lower upper s ms' (Z.min first next) a'
      | Throw => Throw
      | UB => UB
      end
  end.
(** communicator.cpp:87-141 [process_messages]; [shuffle] is [std::shuffle] with
    [std::minstd_rand(seed)]: some permutation. *)
Definition handling_order (c : communicator) (shuffle : seed -> list message -> list message) (lower : Z) (s : seed)
    (inbox : list (Z * message)) : list message :=
  concat (map (fun r => if random c then shuffle s (snd r) else snd r) (runs (rev (by_priority c lower inbox [])))).
Definition process_messages (c : communicator) (shuffle : seed -> list message -> list message)
    (lower upper : Z) (s : seed) (inbox : list (Z * message)) (a : A) : outcome (A * Z) :=
  handle_all c lower upper s (handling_order c shuffle lower s inbox) upper a.
End Communicator.
Arguments callback : clear implicits.
Arguments communicator : clear implicits.
