(** Vocabulary about clusters of processes. *)
From Verif Require Import Base Identity IdMap Communicator Distributed.

Section Spec.
Context {A : Type}.
Implicit Types (c : cluster A).
(** Process [r] of the cluster. *)
Definition process_of c (r : Z) (n : node A) : Prop := 0 <= r /\ nth_error c (Z.to_nat r) = Some n.
(** Agent [i], with what it consists of, is on process [r]. *)
Definition resides c (r : Z) (i : identity) (a : A) : Prop := exists n, process_of c r n /\ In (i, a) (local_agents n).
(** Keys of a map are in ascending order; no agent is on two processes. *)
Definition ascending {V} (m : idmap V) : Prop := StronglySorted (fun x y => id_ltb (fst x) (fst y) = true) m.
Definition well_formed c : Prop :=
  (forall n, In n c -> ascending (locations n) /\ ascending (local_agents n)) /\
  (forall r1 r2 i a1 a2, resides c r1 i a1 -> resides c r2 i a2 -> r1 = r2).
(** What each process proposes: moving agents that it has to other processes, every agent once. *)
Definition sensible c (ideas : list (list migration)) : Prop :=
  length ideas = length c /\
  (forall r l m, nth_error ideas r = Some l -> In m l ->
     source m = Z.of_nat r /\ 0 <= target m < Z.of_nat (length c) /\ target m <> source m /\ exists a, resides c (source m) (migrant m) a) /\
  NoDup (map migrant (concat ideas)).
(** Where agent [i] should be afterwards: where the proposal says, or where it was. *)
Definition destined c (ideas : list (list migration)) (r : Z) (i : identity) (a : A) : Prop :=
  (exists m, In m (concat ideas) /\ migrant m = i /\ target m = r /\ resides c (source m) i a) \/
  ((forall m, In m (concat ideas) -> migrant m <> i) /\ resides c r i a).
(** Process [r] has announced agent [i]. *)
Definition announced c (i : identity) (r : Z) : Prop := exists n, process_of c r n /\ In i (activated n).
End Spec.

(** Every process knows where the recipients of its messages are. *)
Definition well_informed (c : cluster mailbox) : Prop :=
  forall r n i inbox outbox m, process_of c r n -> In (i, (inbox, outbox)) (local_agents n) -> In m outbox ->
  exists place, im_find (m_recipient m) (locations n) = Some place /\ 0 <= place < Z.of_nat (length c) /\
    (place = r <-> exists box, In (m_recipient m, box) (local_agents n)).
(** The messages that the agents of a process have put in their outboxes. *)
Definition outgoing (n : node mailbox) : list message := flat_map (fun x => snd (snd x)) (local_agents n).
(** Inboxes are in the order of delivery times. *)
Definition by_time (box : list (Z * message)) : Prop := StronglySorted (fun x y => fst x <= fst y) box.
Definition orderly (c : cluster mailbox) : Prop := forall r n i inbox outbox, process_of c r n -> In (i, (inbox, outbox)) (local_agents n) -> by_time inbox.
(** The inbox after the messages have arrived: by delivery time, and for equal times as they came. *)
Definition with_messages (inbox : list (Z * message)) (ms : list message) (box : list (Z * message)) : Prop :=
  by_time box /\ forall t, filter (fun x => fst x =? t) box = filter (fun x => fst x =? t) inbox ++ filter (fun x => fst x =? t) (map (fun m => (m_received m, m)) ms).
