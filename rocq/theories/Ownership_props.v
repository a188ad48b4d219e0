(** Theorems on accounts that are kept over a simulation, and on owners. *)
From Verif Require Import Base Identity Identity_proofs IdMap IdMap_proofs Multimap Multimap_proofs Communicator Communicator_spec Simulation Inventory Inventory_spec Inventory_proofs Messages Ownership Ownership_spec Ownership_proofs.
From Verif Require Simulation_spec Simulation_proofs3.
From Coq Require Import ZifyBool ZifyNat.

(** ** C173: what every agent accounts for is accounted for over a run: each message takes effect exactly once. *)
Theorem C173_run : forall (St : Type) modulus (worth : identity -> St -> Z) effect good fit hash shuffle fuel lower w w' ts,
  (forall s l, Permutation (shuffle s l) l) -> orderly modulus worth effect good fit w ->
  run_from hash shuffle fuel lower w = Some (Ret (w', ts)) ->
  orderly modulus worth effect good fit w' /\ same modulus (account worth effect w') (account worth effect w).
Proof. intros. eapply run_account; eauto. Qed.
Print Assumptions C173_run.
Theorem C173_step : forall (St : Type) modulus (worth : identity -> St -> Z) effect good fit hash shuffle fuel lower upper w w' t,
  (forall s l, Permutation (shuffle s l) l) -> orderly modulus worth effect good fit w ->
  step hash shuffle fuel lower upper w = Some (Ret (w', t)) ->
  orderly modulus worth effect good fit w' /\ same modulus (account worth effect w') (account worth effect w).
Proof. intros. eapply step_account; eauto. Qed.
Print Assumptions C173_step.
(** With several threads: any returning execution of the rounds of a step. *)
Theorem C173_threads : forall (St : Type) modulus (worth : identity -> St -> Z) effect good fit hash shuffle threads lower upper n w w' t,
  (forall s l, Permutation (shuffle s l) l) -> orderly modulus worth effect good fit w -> 1 <= threads -> Z.of_nat (length (agents w)) < 2 ^ 64 ->
  threaded_rounds hash shuffle threads lower upper n w (w', t) ->
  orderly modulus worth effect good fit w' /\ same modulus (account worth effect w') (account worth effect w).
Proof.
  intros St modulus worth effect good fit hash shuffle threads lower upper n w w' t P O T L H.
  apply Simulation_proofs3.threaded_rounds_iff in H; [|exact T|apply O|exact L]. destruct H as [fuel H]. eapply rounds_account; eauto.
Qed.
Print Assumptions C173_threads.
(** A message delivered twice or never would change the total: a count of the handled messages, less those still underway, is an account.
    Two agents, of which the first sends three messages to the second: one for now, one for time 5 and one for after the end. *)
Definition count_callback : callback (@own Z) := fun _ _ upper _ o => ((fst o + 1, snd o), upper).
Definition ping (k : Z) (delivery : Z) : message := mk_message 7 [1] [2] 0 delivery k.
Definition pinging : communicator (@own Z) := match register (new_communicator true) 7 3 count_callback with Ret c => lock c | _ => new_communicator true end.
Definition sends_three : @action Z := fun lower upper _ o =>
  if (lower =? 0) && (fst o =? 0) then ((fst o - 3, snd o ++ [ping 1 0; ping 2 5; ping 3 20]), upper) else (o, upper).
Definition wakes_at_five : @action Z := fun lower upper _ o => (o, if lower <? 5 then 5 else upper).
Definition idle {St} : @action St := fun lower _ _ o => (o, lower + 1).
Definition demo_world : world Z :=
  mk_world [([1], mk_agent pinging sends_three [] (0, [])); ([2], mk_agent pinging wakes_at_five [] (0, []))] [] 10 0.
Definition one_each (m : message) : Z := 1.
Lemma pinging_counts a lower upper s m o o' t : ag_comm a = pinging -> m_type m = 7 -> process_message (ag_comm a) lower upper s m o = Ret (o', t) ->
  o' = (fst o + 1, snd o).
Proof.
  intros E T H. rewrite E in H. unfold process_message in H. rewrite T in H. cbn -[Z.add Z.leb Z.min] in H. change (7 <? 7) with false in H. change (7 =? 7) with true in H. unfold count_callback in H.
  cbn -[Z.add Z.leb Z.min] in H. destruct ((lower <=? upper) && (upper <=? upper)); [|discriminate]. congruence.
Qed.
Example C173_case : orderly 0 (fun _ n => n) one_each (fun _ _ => True) (fun m => m_type m = 7) demo_world /\
  account (fun _ n => n) one_each demo_world = 0 /\
  match run_from (fun _ => 0) (fun _ l => l) 20 0 demo_world with
  | Some (Ret (w', ts)) => ts = [0; 5] /\ map (fun x => fst (ag_own (snd x))) (agents w') = [-3; 2] /\ map (fun x => length (ag_inbox (snd x))) (agents w') = [0%nat; 1%nat]
  | _ => False
  end.
Proof.
  split; [|split; [reflexivity|vm_compute; auto]].
  assert (Rg : exists b rs c, registers (new_communicator b) rs c /\ Forall (fun r => int8 (r_priority r)) rs /\ (pinging = c \/ pinging = lock c)).
  { exists true, [mk_registration 7 3 count_callback]. eexists. split; [econstructor; [reflexivity|constructor]|]. split; [constructor; [unfold int8; cbn; lia|constructor]|]. right. reflexivity. }
  split.
  { split; [|split].
    - cbn. repeat constructor; cbn; reflexivity.
    - constructor.
    - repeat constructor. }
  intros i a H. apply im_find_in in H; [|cbn; repeat constructor; reflexivity].
  assert (K : forall b o, ag_comm b = pinging -> (forall lower upper s o o' t, Forall (fun m => m_type m = 7) (snd o) -> ag_act b lower upper s o = (o', t) ->
    Forall (fun m => m_type m = 7) (snd o') /\ fst o' + zsum (map one_each (snd o')) = fst o + zsum (map one_each (snd o))) -> ag_inbox b = [] -> ag_own b = (o, []) ->
    keeps_accounts 0 (fun _ n => n) one_each (fun _ _ => True) (fun m => m_type m = 7) i b /\ proper (fun _ _ => True) (fun m => m_type m = 7) i (ag_own b) /\
    Forall (fun x => m_type (snd x) = 7 /\ m_recipient (snd x) = i) (ag_inbox b)).
  { intros b o E Ha Hi Ho. split; [split; [rewrite E; exact Rg|split]|split].
    - intros lower upper s m o1 o2 t F _ [P1 P2] Hp. rewrite (pinging_counts b lower upper s m o1 o2 t E F Hp). split; [split; [exact I|exact P2]|].
      unfold same, balance, in_transit, one_each. cbn [fst snd]. exists 0. lia.
    - intros lower upper s o1 o2 t [P1 P2] Hact. destruct (Ha _ _ _ _ _ _ P2 Hact) as [A1 A2]. split; [split; [exact I|exact A1]|]. unfold same, balance, in_transit. exists 0. lia.
    - rewrite Ho. split; [exact I|constructor].
    - rewrite Hi. constructor. }
  destruct H as [H|[H|[]]].
  - injection H as <- <-. apply (K _ 0); try reflexivity. intros lower upper s o o' t F Hact. cbn in Hact. unfold sends_three in Hact. destruct ((lower =? 0) && (fst o =? 0)); [|injection Hact as <- _; auto].
    injection Hact as <- _. cbn [fst snd]. split; [apply Forall_app; split; [exact F|repeat constructor]|]. rewrite map_app, zsum_app. cbn. unfold one_each. lia.
  - injection H as <- <-. apply (K _ 0); try reflexivity. intros lower upper s o o' t F Hact. cbn in Hact. unfold wakes_at_five in Hact. injection Hact as <- _. auto.
Qed.

(** ** C174: transfers in a simulation neither create nor destroy property. *)
Theorem C174_conserved : forall (X : Type) content hash shuffle fuel lower (w w' : world (@owner_state X)) ts,
  (forall s l, Permutation (shuffle s l) l) -> all_owners content w -> run_from hash shuffle fuel lower w = Some (Ret (w', ts)) ->
  forall p, (2 ^ 64 | (owned w' p + underway content w' p) - (owned w p + underway content w p)).
Proof.
  intros X content hash shuffle fuel lower w w' ts P O H p. rewrite <- !account_owned. exact (proj2 (C173_run _ _ _ _ _ _ _ _ _ _ _ _ _ P (owners_orderly content p w O) H)).
Qed.
Print Assumptions C174_conserved.
(** When nothing is underway before and after, and nobody could hold 2^64 or more, the same units are owned. *)
Theorem C174_settled : forall (X : Type) content hash shuffle fuel lower (w w' : world (@owner_state X)) ts p,
  (forall s l, Permutation (shuffle s l) l) -> all_owners content w -> run_from hash shuffle fuel lower w = Some (Ret (w', ts)) ->
  underway content w p = 0 -> underway content w' p = 0 -> 0 <= owned w p < 2 ^ 64 -> 0 <= owned w' p < 2 ^ 64 -> owned w' p = owned w p.
Proof.
  intros X content hash shuffle fuel lower w w' ts p P O H U U' B B'. destruct (C174_conserved X content hash shuffle fuel lower w w' ts P O H p) as [k Hk]. rewrite U, U' in Hk.
  assert (k = 0); [|lia]. assert (-1 < k < 1) by lia. lia.
Qed.
Print Assumptions C174_settled.
(** A transfer that is sent to both parties is balanced, and so are several. *)
Theorem C174_both_parties : forall content m1 m2, m_type m1 = kind_code Transfer -> m_type m2 = kind_code Transfer -> content (m_body m1) = content (m_body m2) ->
  valid (transferred (content (m_body m1))) -> m_recipient m1 = transferor (content (m_body m1)) -> m_recipient m2 = transferee (content (m_body m1)) ->
  balanced content [m1; m2] /\ forall ms, balanced content ms -> balanced content ([m1; m2] ++ ms).
Proof.
  intros content m1 m2 T1 T2 C V R1 R2. assert (B : balanced content [m1; m2]); [|split; [exact B|intros ms Hm; now apply balanced_app]].
  split; [constructor; [intros _; exact V|constructor; [intros _; rewrite <- C; exact V|constructor]]|]. intros p. exists 0. unfold in_transit, transfer_effect, is_transfer, transfer_code. cbn [map zsum fold_right]. rewrite T1, T2, Z.eqb_refl. cbn [negb orb].
  rewrite <- C, R1, R2. destruct (id_eqb (transferor (content (m_body m1))) (transferee (content (m_body m1)))) eqn:E; [reflexivity|]. rewrite !id_eqb_refl. rewrite (id_eqb_sym (transferee _)), E. lia.
Qed.
Print Assumptions C174_both_parties.
(** Accepting a transfer keeps nobody awake: the owner asks for nothing before the end of the run. *)
Theorem C174_no_wakeup : forall (X : Type) content i b c lower upper s m (o o' : @own (@owner_state X)) t,
  register (new_communicator b) (kind_code Transfer) owner_priority (owner_callback content i) = Ret c -> m_type m = kind_code Transfer ->
  process_message c lower upper s m o = Ret (o', t) -> t = upper.
Proof.
  intros X content i b c lower upper s m o o' t R T H. injection R as <-. unfold process_message in H. rewrite T in H. cbn -[Z.sub Z.min Z.leb kind_code] in H.
  rewrite ?Z.ltb_irrefl, ?Z.eqb_refl in H. cbn -[Z.sub Z.min Z.leb kind_code] in H. unfold owner_callback in H. destruct (process_transfer i (content (m_body m)) (fst (fst o))) eqn:E; cbn -[Z.sub Z.min Z.leb] in H.
  - destruct ((lower <=? upper) && (upper <=? upper)); [|discriminate]. injection H as _ <-. lia.
  - destruct (Z.leb_spec lower (lower - 1)); [lia|]. discriminate.
Qed.
Print Assumptions C174_no_wakeup.
(** A transfer that is sent to the transferee alone creates property: the library does not prevent it. *)
Definition demo_content (b : Z) : transfer := if b =? 1 then mk_transfer [1] [2] [([7], 3)] else mk_transfer [2] [1] [([8], 5)].
Definition owner_comm (i : identity) : communicator (@own (@owner_state Z)) :=
  match register (new_communicator false) transfer_code owner_priority (owner_callback demo_content i) with Ret c => lock c | _ => new_communicator false end.
Definition gives_once (ms : list message) : @action (@owner_state Z) := fun lower upper _ o =>
  if snd (fst o) =? 0 then ((fst (fst o), 1, snd o ++ ms), lower + 1) else (o, lower + 1).
Definition owner_world (ms : list message) : world (@owner_state Z) :=
  mk_world [([1], mk_agent (owner_comm [1]) (gives_once ms) [] ([([7], 10)], 0, [])); ([2], mk_agent (owner_comm [2]) idle [] ([([8], 9)], 0, []))] [] 10 0.
Definition give (b : Z) (i : identity) (delivery : Z) : message := mk_message transfer_code [1] i 0 delivery b.
Definition exchange_messages : list message := [give 1 [1] 0; give 1 [2] 0; give 2 [2] 3; give 2 [1] 4].
Theorem C174_one_sided : exists w' ts, run_from (fun _ => 0) (fun _ l => l) 20 0 (owner_world [give 1 [2] 0]) = Some (Ret (w', ts)) /\
  (forall p, underway demo_content w' p = 0) /\ owned (owner_world [give 1 [2] 0]) [7] = 10 /\ owned w' [7] = 13.
Proof.
  assert (S : match run_from (fun _ => 0) (fun _ l => l) 20 0 (owner_world [give 1 [2] 0]) with
    | Some (Ret (w', ts)) => owned w' [7] = 13 /\ forallb (fun x => match ag_outbox (snd x), ag_inbox (snd x) with [], [] => true | _, _ => false end) (agents w') = true
    | _ => False end) by (vm_compute; auto).
  destruct (run_from (fun _ => 0) (fun _ l => l) 20 0 (owner_world [give 1 [2] 0])) as [[[w' ts]| |]|]; try contradiction. destruct S as [S1 S2]. exists w', ts. split; [reflexivity|].
  split; [|split; [vm_compute; reflexivity|exact S1]]. intros p. clear - S2. unfold underway. induction (agents w') as [|x l IH]; [reflexivity|]. cbn [forallb] in S2. apply andb_true_iff in S2. destruct S2 as [H1 H2].
  cbn [map]. rewrite zsum_cons, (IH H2). destruct (ag_outbox (snd x)); [|discriminate]. destruct (ag_inbox (snd x)); [reflexivity|discriminate].
Qed.
Print Assumptions C174_one_sided.
Example C174_case : all_owners demo_content (owner_world exchange_messages) /\
  match run_from (fun _ => 0) (fun _ l => l) 20 0 (owner_world exchange_messages) with
  | Some (Ret (w', ts)) => ts = [0; 1; 2; 3; 4; 5; 6; 7; 8; 9] /\ map (fun x => fst (fst (ag_own (snd x)))) (agents w') = [[([7], 7); ([8], 5)]; [([8], 4); ([7], 3)]]
  | _ => False
  end.
Proof.
  split; [|vm_compute; auto]. split.
  { split; [|split].
    - cbn. repeat constructor; cbn; reflexivity.
    - constructor.
    - repeat constructor. }
  assert (Rg : forall i, exists b rs1 rs2 c, registers (new_communicator b) (rs1 ++ mk_registration transfer_code owner_priority (owner_callback demo_content i) :: rs2) c /\
     Forall (fun r => int8 (r_priority r) /\ neutral demo_content (r_callback r)) (rs1 ++ rs2) /\ (owner_comm i = c \/ owner_comm i = lock c)).
  { intros i. exists false, [], []. eexists. split; [econstructor; [reflexivity|constructor]|]. split; [constructor|]. right. reflexivity. }
  assert (V : forall k x, 0 <= x < 2 ^ 64 -> valid [(k, x)]). { intros k x H. split; [constructor; [intros []|constructor]|constructor; [exact H|constructor]]. }
  assert (B : balanced demo_content exchange_messages).
  { apply (C174_both_parties demo_content (give 1 [1] 0) (give 1 [2] 0)); try reflexivity; [apply V; lia|].
    destruct (C174_both_parties demo_content (give 2 [2] 3) (give 2 [1] 4)) as [B _]; try reflexivity; [apply V; lia|]. exact B. }
  intros i a H. apply im_find_in in H; [|cbn; repeat constructor; reflexivity]. destruct H as [H|[H|[]]].
  - injection H as <- <-. split; [split; [apply Rg|]|split; [apply V; lia|split; constructor]].
    intros lower upper s o. cbn. unfold gives_once. destruct (snd (fst o) =? 0); cbn [fst snd]; [|apply leaves_refl]. split; [reflexivity|]. exists exchange_messages. split; [reflexivity|exact B].
  - injection H as <- <-. split; [split; [apply Rg|]|split; [apply V; lia|split; constructor]].
    intros lower upper s o. cbn. apply leaves_refl.
Qed.
