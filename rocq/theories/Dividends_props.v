(** A simulation in which a company announces a dividend (C206). *)
From Verif Require Import Company Company_proofs.
From Verif Require Import Base Interval Identity IdMap IdMap_proofs Communicator Simulation Simulation_spec Simulation_proofs3 Isolation_proofs Dividends Dividends_spec Dividends_proofs Dividends_proofs2.
From Coq Require Import ZifyBool.

(** A company that is to pay after it has announced, and offers the policy until then, keeps any simulation from ending: between the two dates it asks to be woken at the announcement date.
    Nothing is assumed of the other agents. *)
Theorem C206_endless_refuted : forall {T} hash shuffle write r (firm : identity) p c inbox fuel lower (w : world (party T)) result,
  well_formed w -> im_find firm (agents w) = Some (mk_agent (lock (new_communicator r)) (firm_act write firm (fun _ _ _ => Some p)) inbox (Firm c, [])) ->
  im_find firm (wake_up_times w) = None -> lower <= p_announcement p -> p_announcement p < p_payable p -> p_announcement p < w_end w ->
  run_from hash shuffle fuel lower w <> Some (Ret result).
Proof.
  intros T hash shuffle write r firm p c inbox fuel lower w result Wf F K L1 L2 L3. apply (waits_forever hash shuffle write (fun z => z) firm p); [exact Wf| |lia|exact L3].
  exists r, inbox, c, []. split; [exact F|]. intros t H. congruence.
Qed.
Print Assumptions C206_endless_refuted.
(** With nobody else but the shareholders: exactly which policies let the simulation end, and what the shareholders know then. *)
Theorem C206_exact : forall {T} hash shuffle write ex_date write_record random (firm : identity) holders p shares (w : world (party T)),
  (forall s l, Permutation (shuffle s l) l) -> ex_date (write p) = p_ex_dividend p ->
  dividend_world write ex_date write_record random firm holders p shares w -> 0 < w_end w -> 0 <= p_announcement p ->
  ((exists fuel w' ts, run_from hash shuffle fuel 0 w = Some (Ret (w', ts))) <-> bearable (w_end w) firm holders shares p) /\
  forall fuel w' ts j, run_from hash shuffle fuel 0 w = Some (Ret (w', ts)) -> In j holders ->
    knows j (if (0 <? p_announcement p) && (p_announcement p <? w_end w) then [(p_ex_dividend p, firm)] else []) w'.
Proof.
  intros T hash shuffle write ex_date write_record random firm holders p shares w Hsh Hread (Wf & Wk & ND & F & H & O) U A0.
  assert (St : in_state write ex_date write_record random firm holders p (w_end w) (new_company holders) (fun j => mk_shareholder [] (shares j) []) (fun _ => []) (fun _ => None) w).
  { split; [exact Wf|]. split; [reflexivity|]. split; [exact F|]. rewrite Wk. split; [reflexivity|]. split; [intros j I; split; [now apply H|reflexivity]|]. intros j N I. split; [now apply O|reflexivity]. }
  destruct (exact_end hash shuffle write ex_date write_record Hsh random firm holders p shares Hread w ND St U A0) as [E1 E2].
  assert (Dec : bearable (w_end w) firm holders shares p \/ ~ bearable (w_end w) firm holders shares p).
  { assert (D : (forall j, In j holders -> ~ holds firm (shares j)) \/ ~ (forall j, In j holders -> ~ holds firm (shares j))).
    { clear. induction holders as [|j l [IH|IH]]; [left; intros j []| |right; intros X; apply IH; intros k I; apply X; now right].
      unfold holds in *. destruct (Exchange.f_find id_eqb firm (shares j)) eqn:E; [right; intros X; apply (X j (or_introl eq_refl)); congruence|left]. intros k [<-|I]; [intros X; contradiction|now apply IH]. }
    unfold bearable. assert (forall a b, a <= b \/ ~ a <= b) as D1 by lia. assert (forall a b, a < b \/ ~ a < b) as D2 by lia. assert (forall a b : Z, a = b \/ ~ a = b) as D3 by lia. specialize (D1 (w_end w) (p_announcement p)) as X1. specialize (D1 (p_payable p) (p_announcement p)) as X2.
    specialize (D3 (p_announcement p) 0) as X3. specialize (D2 (p_ex_dividend p) (p_announcement p)) as X4. specialize (D2 (w_end w) (p_ex_dividend p)) as X5. tauto. }
  split; [split|].
  - intros (fuel & w' & ts & R). destruct Dec as [B|B]; [exact B|]. now destruct (E2 B fuel (w', ts)).
  - intros B. destruct (E1 B) as (fuel & w' & ts & R & _). eauto.
  - intros fuel w' ts j R I. destruct Dec as [B|B]; [|now destruct (E2 B fuel (w', ts))]. destruct (E1 B) as (fuel' & w2 & ts' & R' & K).
    pose proof (run_mono hash shuffle fuel 0 w _ R (Nat.max fuel fuel') ltac:(lia)) as Q1. pose proof (run_mono hash shuffle fuel' 0 w _ R' (Nat.max fuel fuel') ltac:(lia)) as Q2. rewrite Q1 in Q2. injection Q2 as <- _. now apply K.
Qed.
Print Assumptions C206_exact.
(** A company, one shareholder with shares and one without. *)
Definition the_shares (j : identity) : list (identity * list (Z * Z)) := if id_eqb j [1] then [([5], [(1, 30)])] else [].
Definition two_holders (p : policy) : world (party unit) :=
  mk_world [([1], holder_agent (fun z => z) (fun _ => 0) true [1] (mk_shareholder [] (the_shares [1]) []));
            ([2], holder_agent (fun z => z) (fun _ => 0) true [2] (mk_shareholder [] (the_shares [2]) []));
            ([5], firm_agent p_ex_dividend true [5] (fun _ _ _ => Some p) (new_company [[1]; [2]]))] [] 20 0.
Definition after (p : policy) (fuel : nat) : option (list Z * list (list (Z * identity))) :=
  match run_from (fun _ => 0) (fun _ l => l) fuel 0 (two_holders p) with
  | Some (Ret (w, ts)) => Some (ts, map (fun j => match im_find j (agents w) with Some a => match fst (ag_own a) with Holder h => h_dates h | _ => [] end | None => [] end) [[1]; [2]])
  | _ => None
  end.
(** Paid at the announcement, with the ex-dividend date after the end: the simulation ends. Within the simulation, or paid later: it does not. *)
Example C206_case :
  after (mk_policy 5 30 5 100) 10 = Some ([0; 5], [[(30, [5])]; [(30, [5])]]) /\
  after (mk_policy 5 8 5 100) 50 = None /\ after (mk_policy 5 30 6 100) 50 = None /\ after (mk_policy 25 8 30 100) 10 = Some ([0], [[]; []]) /\ after (mk_policy 0 8 0 100) 10 = Some ([0], [[]; []]).
Proof. vm_compute. split; [reflexivity|]. split; [reflexivity|]. split; [reflexivity|]. split; reflexivity. Qed.
Example C206_world p : dividend_world p_ex_dividend (fun z => z) (fun _ => 0) (fun _ => true) [5] [[1]; [2]] p the_shares (two_holders p) /\ 0 < w_end (two_holders p).
Proof.
  split; [|cbn; lia]. split; [|split; [reflexivity|split; [|split; [reflexivity|split]]]].
  - split; [|split]; cbn; repeat constructor.
  - repeat constructor; cbn; intuition discriminate.
  - intros j [<-|[<-|[]]]; reflexivity.
  - intros j N I. apply im_find_none; [cbn; repeat constructor|]. cbn. intros [E|[E|[E|[]]]]; [apply I; now left|apply I; right; now left|apply N; now symmetry].
Qed.
Example C206_bearable : bearable 20 [5] [[1]; [2]] the_shares (mk_policy 5 30 5 100) /\ ~ bearable 20 [5] [[1]; [2]] the_shares (mk_policy 5 8 5 100).
Proof.
  split; unfold bearable; cbn; [lia|]. intros [H|(_ & [H|[H|H]])]; try lia. apply (H [1]); [now left|]. vm_compute. discriminate.
Qed.
