(** C204: orders that arrive at an exchange at different times are entered in the order of their arrival. *)
From Verif Require Import Base Identity IdMap IdMap_proofs Communicator Simulation Simulation_spec BinaryBook Messages FirstCome FirstCome_spec FirstCome_proofs.
From Verif Require Exchange.

(** If the exchange asks to be activated at every time, or if everyone sends messages of the kinds it handles to it for the present time step only: the exchange, at
    the end of a run, is as if the messages to it had been handled one after the other, each at its time of delivery and earlier ones before
    later ones.  These are all the messages of the kinds it handles that were sent to it, but for those still to be delivered after the end. *)
Theorem C204_first_come (delay : identity -> Z) (event_of : message -> Exchange.event) (post : Exchange.message -> message) (watchful random : bool) {T : Type}
  (hash : identity -> Z) (shuffle : seed -> list message -> list message) fuel lower i x (w w' : world (role T)) ts :
  (forall s l, Permutation (shuffle s l) l) -> well_formed w ->
  im_find i (agents w) = Some (exchange_agent delay event_of post watchful random x) ->
  watchful = true \/ all_prompt_to shuffle for_exchange i w ->
  run_from hash shuffle fuel lower w = Some (Ret (w', ts)) ->
  exists h sent a, first_come h /\ Forall (fun p => lower <= fst p) h /\ rounds_sending hash shuffle w sent w' /\ im_find i (agents w') = Some a /\
    fst (ag_own a) = Hall match Exchange.operate delay (map (fun p => (fst p, event_of (snd p))) h) x with Ret (x', _) => Ret x' | Throw => Throw | UB => UB end /\
    Permutation (map snd h ++ filter for_exchange (map snd (ag_inbox a))) (filter (fun m => addressed_to i m && for_exchange m) sent) /\
    Forall (fun p => for_exchange (snd p) = true -> w_end w <= m_received (snd p)) (ag_inbox a).
Proof. intros Sh W F C H. eapply exchange_run; eauto. Qed.
Print Assumptions C204_first_come.

(** Three traders. [2] logs on at time 0 and sends an order to buy one for 10, which takes until time 5; [3] sends the same at time 6, to
    arrive at 7; [4] sends an order to sell one for 10 at time 8, to arrive at once. *)
Definition ask_for (m : message) : Exchange.event :=
  if m_type m =? kind_code Logon then Exchange.Logon (m_sender m) []
  else Exchange.NewOrder (m_sender m) (mk_order GTC (if 0 <? m_body m then Buy else Sell) 7 (m_sender m) 10 1).
Definition answer_with (m : Exchange.message) : message :=
  match m with
  | Exchange.Execution recipient arrival o r => mk_message (kind_code ExecutionReport) [1] recipient 0 arrival (match rp_state r with Matched => 1 | _ => 0 end)
  | Exchange.MarketData recipient arrival _ _ _ _ => mk_message (kind_code MarketData) [1] recipient 0 arrival 0
  end.
(** A trader sends what it is to send at each time, and asks for the next such time. *)
Definition trader_act (plan : list (Z * message)) : @action (role unit) := fun lower upper _ o =>
  ((fst o, snd o ++ map snd (filter (fun p => fst p =? lower) plan)),
   fold_left (fun t p => if lower <? fst p then Z.min t (fst p) else t) plan upper).
Definition trader (plan : list (Z * message)) : agent (role unit) := mk_agent (lock (new_communicator false)) (trader_act plan) [] (Other tt, []).
Definition to_exchange (k : kind) (sender : identity) (sent received body : Z) : Z * message := (sent, mk_message (kind_code k) sender [1] sent received body).
Definition floor (latency : bool) (watchful : bool) : world (role unit) :=
  let late t := if latency then t else 0 in
  mk_world [([1], exchange_agent (fun _ => 1) ask_for answer_with watchful false (Exchange.new_exchange [7] [(7, (empty_book, []))]));
            ([2], trader [to_exchange Logon [2] 0 0 0; to_exchange NewOrderSingle [2] 0 (late 5) 1]);
            ([3], trader [to_exchange NewOrderSingle [3] 6 (6 + late 1) 1]);
            ([4], trader [to_exchange NewOrderSingle [4] 8 8 (-1)])] [] 10 0.
(** Whose order rests in the book in the end, and how often each trader was told of a match. *)
Definition resting (x : role unit) : list identity :=
  match x with
  | Hall (Ret x) => match Exchange.f_find Z.eqb 7 (Exchange.x_books x) with Some (b, _) => map (fun e => o_owner (e_order e)) (b_bids b ++ b_asks b) | None => [] end
  | _ => []
  end.
Definition resting_after (w : world (role unit)) : option (list Z * list identity) :=
  match run_from (fun _ => 0) (fun _ l => l) 30 0 w with
  | Some (Ret (w', ts)) => match im_find [1] (agents w') with Some a => Some (ts, resting (fst (ag_own a))) | None => None end
  | _ => None
  end.
(** The exchange handles the first message to it and then, as the library has it, asks for the end of the run: the order that arrives at 5 is not
    handled at 5, but at 7 with the other one - after it.  The trader whose order came later has the trade, and the order of the first is left. *)
Theorem C204_late_refuted : exists w w' ts a, well_formed w /\
  im_find [1] (agents w) = Some (exchange_agent (fun _ => 1) ask_for answer_with false false (Exchange.new_exchange [7] [(7, (empty_book, []))])) /\
  run_from (fun _ => 0) (fun _ l => l) 30 0 w = Some (Ret (w', ts)) /\ im_find [1] (agents w') = Some a /\
  resting (fst (ag_own a)) = [[2]] /\
  (forall first, resting (Hall match Exchange.operate (fun _ => 1) (map (fun p => (fst p, ask_for (snd p)))
     [(0, snd (to_exchange Logon [2] 0 0 0)); (first, snd (to_exchange NewOrderSingle [2] 0 5 1)); (7, snd (to_exchange NewOrderSingle [3] 6 7 1)); (8, snd (to_exchange NewOrderSingle [4] 8 8 (-1)))])
     (Exchange.new_exchange [7] [(7, (empty_book, []))]) with Ret (x, _) => Ret x | Throw => Throw | UB => UB end) = [[3]]).
Proof.
  assert (S : match run_from (fun _ => 0) (fun _ l => l) 30 0 (floor true false) with
    | Some (Ret (w', ts)) => match im_find [1] (agents w') with Some a => resting (fst (ag_own a)) = [[2]] | None => False end
    | _ => False end) by (vm_compute; reflexivity).
  destruct (run_from _ _ 30 0 (floor true false)) as [[[w' ts]| |]|] eqn:R; try contradiction. destruct (im_find [1] (agents w')) as [a|] eqn:E; [|contradiction].
  exists (floor true false), w', ts, a. split; [split; [|split]; repeat constructor|]. split; [reflexivity|]. split; [exact R|]. split; [exact E|]. split; [exact S|]. intros first. vm_compute. reflexivity.
Qed.
Print Assumptions C204_late_refuted.
(** With an exchange that is watchful, or without latency, it is the order that came later that is left. *)
Example C204_case : resting_after (floor true true) = Some ([0; 1; 2; 3; 4; 5; 6; 7; 8; 9], [[3]]) /\ resting_after (floor false false) = Some ([0; 1; 6; 7; 8; 9], [[3]]) /\
  well_formed (floor true true) /\ well_formed (floor false false).
Proof. split; [vm_compute; reflexivity|]. split; [vm_compute; reflexivity|]. split; (split; [|split]; repeat constructor). Qed.
(** Without latency everyone is prompt. *)
Lemma trader_prompt plan : Forall (fun p => m_received (snd p) <= fst p) plan -> prompt_to (fun _ l => l) for_exchange [1] (trader plan).
Proof.
  intros F inbox x lower upper s o t H. unfold handle, process_messages in H. cbn [ag_comm ag_act ag_inbox ag_own trader] in H. rewrite deaf_order in H by reflexivity. cbn [handle_all] in H. unfold trader_act in H. injection H as <- _. cbn [snd app].
  apply Forall_forall. intros m Hm _ _. apply in_map_iff in Hm. destruct Hm as (p & <- & Hp). apply filter_In in Hp. destruct Hp as [Hp E]. rewrite Forall_forall in F. specialize (F p Hp). cbn in F. apply Z.eqb_eq in E. lia.
Qed.
Example C204_prompt : all_prompt_to (fun _ l => l) for_exchange [1] (floor false false).
Proof.
  intros j a Hj. apply im_find_in in Hj; [|repeat constructor]. cbn in Hj. destruct Hj as [[= <- <-]|[[= <- <-]|[[= <- <-]|[[= <- <-]|[]]]]]; (split; [|reflexivity]).
  - apply exchange_prompt. intros [recipient arrival o r|recipient arrival symbol trades asks bids]; reflexivity.
  - apply trader_prompt. repeat constructor; cbn; lia.
  - apply trader_prompt. repeat constructor; cbn; lia.
  - apply trader_prompt. repeat constructor; cbn; lia.
Qed.
