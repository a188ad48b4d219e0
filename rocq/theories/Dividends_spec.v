(** Specification of a simulation of a company that announces a dividend. *)
From Verif Require Import Company.
From Verif Require Import Base Identity IdMap Communicator Simulation Simulation_spec Dividends.

(** The world consists of a company that offers one policy throughout, and of its shareholders, who hold some shares. *)
Definition dividend_world {T} write ex_date write_record (random : identity -> bool) (firm : identity) (holders : list identity) (p : policy)
  (shares : identity -> list (identity * list (Z * Z))) (w : world (party T)) : Prop :=
  well_formed w /\ wake_up_times w = [] /\ NoDup (firm :: holders) /\
  im_find firm (agents w) = Some (firm_agent write (random firm) firm (fun _ _ _ => Some p) (new_company holders)) /\
  (forall j, In j holders -> im_find j (agents w) = Some (holder_agent ex_date write_record (random j) j (mk_shareholder [] (shares j) []))) /\
  (forall j, j <> firm -> ~ In j holders -> im_find j (agents w) = None).
(** The shareholder holds shares of the company. *)
Definition holds (firm : identity) (shares : list (identity * list (Z * Z))) : Prop := Exchange.f_find id_eqb firm shares <> None.
(** What a shareholder knows of ex-dividend dates after a run. *)
Definition knows {T} (j : identity) (dates : list (Z * identity)) (w : world (party T)) : Prop :=
  exists a h, im_find j (agents w) = Some a /\ fst (ag_own a) = Holder h /\ h_dates h = dates.
(** The policies for which a simulation until [until] ends. *)
Definition bearable (until : Z) (firm : identity) (holders : list identity) (shares : identity -> list (identity * list (Z * Z))) (p : policy) : Prop :=
  until <= p_announcement p \/
  (p_payable p <= p_announcement p /\
   (p_announcement p = 0 \/ (forall j, In j holders -> ~ holds firm (shares j)) \/ p_ex_dividend p < p_announcement p \/ until < p_ex_dividend p)).
