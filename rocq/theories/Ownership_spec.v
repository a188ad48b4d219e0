(** Specification for accounts that are kept over a simulation, and for owners. *)
From Verif Require Import Base Identity IdMap Communicator Communicator_spec Simulation Inventory Inventory_spec Messages Ownership.
From Verif Require Simulation_spec.

Section Accounts.
Context {St : Type}.
(** A quantity of which an agent's state has some worth and a message in transit some effect; amounts are compared up to
    multiples of [modulus] (0: exactly).  [good] states and [fit] messages are those for which this is meant. *)
Context (modulus : Z) (worth : identity -> St -> Z) (effect : message -> Z) (good : identity -> St -> Prop) (fit : message -> Prop).
Definition same (x y : Z) : Prop := (modulus | x - y).
Definition in_transit (ms : list message) : Z := zsum (map effect ms).
Definition proper (i : identity) (o : own) : Prop := good i (fst o) /\ Forall fit (snd o).
(** The worth of an agent's state and of the messages in its outbox. *)
Definition balance (i : identity) (o : own) : Z := worth i (fst o) + in_transit (snd o).
(** Agent [i] keeps accounts: handling a message changes its balance by the effect of the message, acting does not change it. *)
Definition keeps_accounts (i : identity) (a : agent St) : Prop :=
  (exists b rs c, registers (new_communicator b) rs c /\ Forall (fun r => int8 (r_priority r)) rs /\ (ag_comm a = c \/ ag_comm a = lock c)) /\
  (forall lower upper s m o o' t, fit m -> m_recipient m = i -> proper i o ->
     process_message (ag_comm a) lower upper s m o = Ret (o', t) -> proper i o' /\ same (balance i o') (balance i o + effect m)) /\
  (forall lower upper s o o' t, proper i o -> ag_act a lower upper s o = (o', t) -> proper i o' /\ same (balance i o') (balance i o)).
(** All there is in the world: states, outboxes and inboxes. *)
Definition account (w : world St) : Z :=
  zsum (map (fun x => balance (fst x) (ag_own (snd x)) + in_transit (map snd (ag_inbox (snd x)))) (agents w)).
Definition orderly (w : world St) : Prop :=
  Simulation_spec.well_formed w /\
  forall i a, im_find i (agents w) = Some a -> keeps_accounts i a /\ proper i (ag_own a) /\
    Forall (fun x => fit (snd x) /\ m_recipient (snd x) = i) (ag_inbox a).
End Accounts.

Section Owners.
Context {X : Type} (content : Z -> transfer).
Implicit Types (w : world (@owner_state X)).
Definition is_transfer (m : message) : bool := m_type m =? transfer_code.
(** What a message adds to its recipient's holding of [p]. *)
Definition transfer_effect (p : identity) (m : message) : Z :=
  let t := content (m_body m) in
  if negb (is_transfer m) || id_eqb (transferor t) (transferee t) then 0
  else if id_eqb (m_recipient m) (transferor t) then - held (transferred t) p
  else if id_eqb (m_recipient m) (transferee t) then held (transferred t) p else 0.
Definition fit_transfer (m : message) : Prop := is_transfer m = true -> valid (transferred (content (m_body m))).
(** Messages that, together, give as much as they take. *)
Definition balanced (ms : list message) : Prop := Forall fit_transfer ms /\ forall p, (2 ^ 64 | in_transit (transfer_effect p) ms).
(** Behaviour that leaves the inventory alone and sends balanced messages. *)
Definition leaves_inventory (o o' : @own (@owner_state X)) : Prop :=
  fst (fst o') = fst (fst o) /\ exists ms, snd o' = snd o ++ ms /\ balanced ms.
Definition neutral (f : callback (@own (@owner_state X))) : Prop := forall m lower upper s o, leaves_inventory o (fst (f m lower upper s o)).
(** An owner: among its callbacks the library's callback for transfers is registered once; everything else it does is neutral. *)
Definition is_owner (i : identity) (a : agent (@owner_state X)) : Prop :=
  (exists b rs1 rs2 c, registers (new_communicator b) (rs1 ++ mk_registration transfer_code owner_priority (owner_callback content i) :: rs2) c /\
     Forall (fun r => int8 (r_priority r) /\ neutral (r_callback r)) (rs1 ++ rs2) /\ (ag_comm a = c \/ ag_comm a = lock c)) /\
  (forall lower upper s o, leaves_inventory o (fst (ag_act a lower upper s o))).
(** Worlds of owners with valid inventories, and valid transfers underway, each in the inbox of the agent it is addressed to. *)
Definition all_owners w : Prop :=
  Simulation_spec.well_formed w /\
  forall i a, im_find i (agents w) = Some a -> is_owner i a /\ valid (fst (fst (ag_own a))) /\ Forall fit_transfer (ag_outbox a) /\
    Forall (fun x => fit_transfer (snd x) /\ m_recipient (snd x) = i) (ag_inbox a).
(** Units of [p] in the inventories, and those that messages underway will add or take away. *)
Definition owned w (p : identity) : Z := zsum (map (fun x => held (fst (fst (ag_own (snd x)))) p) (agents w)).
Definition underway w (p : identity) : Z :=
  zsum (map (fun x => in_transit (transfer_effect p) (ag_outbox (snd x)) + in_transit (transfer_effect p) (map snd (ag_inbox (snd x)))) (agents w)).
End Owners.
