(** C205: what the traders of an exchange are told adds up. *)
From Verif Require Import Base Identity IdMap IdMap_proofs Multimap Communicator Simulation Simulation_spec Messages FirstCome FirstCome_spec.
From Verif Require Import Exchange Exchange_spec BinaryBook BinaryBook_spec.
From Verif Require Import Fills_spec Fills_proofs2 Fills_proofs3.

(** Whatever other agents do in a simulation, if they send no execution reports themselves: at the end the exchange has handled some messages, [h], of those
    sent to it; the others are in its inbox.  For each symbol that it traded, from an empty book, and each trader and side: what the trader has ordered with these
    is what it was told to have traded, what it was told to be cancelled or will be told with the next order for the symbol, and what rests
    on the book.  All reports together tell of as much bought as sold, and as much paid as received. *)
Theorem C205_fills (delay : identity -> Z) (event_of : Communicator.message -> event) (post : Exchange.message -> Communicator.message)
  (read : Communicator.message -> option (Z * report)) (watchful random : bool) {T : Type} (hash : identity -> Z)
  (shuffle : seed -> list Communicator.message -> list Communicator.message) fuel lower i traded books (w w' : world (role T)) ts a x :
  (forall s l, Permutation (shuffle s l) l) -> readable read post -> (forall m a o, event_of m = NewOrder a o -> 0 <= o_quantity o) -> well_formed w ->
  im_find i (agents w) = Some (exchange_agent delay event_of post watchful random (new_exchange traded books)) ->
  (forall j b, j <> i -> im_find j (agents w) = Some b -> mute read shuffle b) ->
  run_from hash shuffle fuel lower w = Some (Ret (w', ts)) -> im_find i (agents w') = Some a -> fst (ag_own a) = Hall (Ret x) ->
  exists h sent, rounds_sending hash shuffle w sent w' /\
    Permutation (h ++ filter for_exchange (map snd (ag_inbox a))) (filter (fun m => addressed_to i m && for_exchange m) sent) /\
    forall symbol, f_find Z.eqb symbol books = Some (empty_book, []) -> exists b, book_of x symbol = Some b /\
      (forall j s, ordered event_of symbol j s h =
         told read symbol j s Matched sent + told read symbol j s Cancelled sent + about j s Cancelled (unsent x symbol) + rests j s b) /\
      quantity_traded Buy (reports_in read symbol sent) = quantity_traded Sell (reports_in read symbol sent) /\
      money_traded Buy (reports_in read symbol sent) = money_traded Sell (reports_in read symbol sent).
Proof.
  intros Sh Hr Hq W F M H Fa Ea. destruct (exchange_transcript delay event_of post watchful shuffle Sh random read hash fuel lower i _ w w' ts a x W F M H Fa Ea) as (h & sent & ms & R & P & O & E).
  exists (map snd h), sent. split; [exact R|]. split; [exact P|]. intros symbol Fs. eapply books_balance; eassumption.
Qed.
Print Assumptions C205_fills.

(** Reports written as numbers, so that they can be read again: numbers are written with two binary digits for each of theirs, after their count. *)
Fixpoint put_pos (p rest : positive) : positive :=
  match p with xO q => xO (xO (put_pos q rest)) | xI q => xO (xI (put_pos q rest)) | xH => xI rest end.
Fixpoint get_pos (p : positive) : option (positive * positive) :=
  match p with
  | xO (xO r) => match get_pos r with Some (q, rest) => Some (xO q, rest) | None => None end
  | xO (xI r) => match get_pos r with Some (q, rest) => Some (xI q, rest) | None => None end
  | xI rest => Some (xH, rest)
  | _ => None
  end.
Definition to_pos (z : Z) : positive := match z with Z0 => xH | Zpos p => xO p | Zneg p => xI p end.
Definition of_pos (p : positive) : Z := match p with xH => Z0 | xO q => Zpos q | xI q => Zneg q end.
Definition put_all (l : list Z) (rest : positive) : positive := fold_right (fun z r => put_pos (to_pos z) r) rest l.
Fixpoint get_all (n : nat) (p : positive) : option (list Z) :=
  match n with
  | O => Some []
  | S n' => match get_pos p with Some (q, rest) => match get_all n' rest with Some l => Some (of_pos q :: l) | None => None end | None => None end
  end.
Definition put_list (l : list Z) : Z := Zpos (put_pos (to_pos (Z.of_nat (length l))) (put_all l xH)).
Definition get_list (z : Z) : option (list Z) :=
  match z with Zpos p => match get_pos p with Some (q, rest) => get_all (Z.to_nat (of_pos q)) rest | None => None end | _ => None end.
Lemma get_put p rest : get_pos (put_pos p rest) = Some (p, rest).
Proof. induction p as [q IH|q IH|]; cbn; rewrite ?IH; reflexivity. Qed.
Lemma of_to z : of_pos (to_pos z) = z.
Proof. destruct z; reflexivity. Qed.
Lemma get_put_list l : get_list (put_list l) = Some l.
Proof. unfold get_list, put_list. rewrite get_put, of_to, Nat2Z.id. induction l as [|z l IH]; [reflexivity|]. cbn [length get_all]. change (put_all (z :: l) xH) with (put_pos (to_pos z) (put_all l xH)). rewrite get_put, IH, of_to. reflexivity. Qed.
Definition number_of (r : report) : Z * Z := (match rp_state r with Cancelled => 0 | Matched => 1 | Placed => 2 end, match rp_side r with Buy => 0 | Sell => 1 end).
Definition write_report (symbol : Z) (r : report) : Z := put_list (symbol :: fst (number_of r) :: snd (number_of r) :: rp_quantity r :: rp_id r :: rp_limit r :: rp_owner r).
Definition read_report (m : Communicator.message) : option (Z * report) :=
  if m_type m =? kind_code ExecutionReport then
    match get_list (m_body m) with
    | Some (symbol :: st :: s :: q :: i :: limit :: owner) =>
        Some (symbol, mk_report (if st =? 0 then Cancelled else if st =? 1 then Matched else Placed) (if s =? 0 then Buy else Sell) q i limit owner)
    | _ => None
    end
  else None.
Definition send (m : Exchange.message) : Communicator.message :=
  match m with
  | Execution a t o r => mk_message (kind_code ExecutionReport) [1] a 0 t (write_report (o_symbol o) r)
  | Exchange.MarketData a t _ _ _ _ => mk_message (kind_code Messages.MarketData) [1] a 0 t 0
  end.
Example C205_readable : readable read_report send.
Proof.
  intros [a t o r|a t s tr ak bd]; [|reflexivity]. split; [|reflexivity]. unfold read_report, send. cbn [m_type m_body]. rewrite Z.eqb_refl. unfold write_report. rewrite get_put_list. destruct r as [[] [] q i l owner]; reflexivity.
Qed.

(** Three traders that note what they are told; all orders are for 10.  [2] orders to buy 5 at time 0, and cancels this at time 3; [3] orders to sell 3 at time 1; [4] orders to sell 1 at
    time 4, and [3] to buy 4 at time 6. *)
Definition wish (m : Communicator.message) : event :=
  if m_type m =? kind_code NewOrderSingle then NewOrder (m_sender m) (mk_order GTC (if 0 <? m_body m then Buy else Sell) 7 (m_sender m) 10 (Z.abs (m_body m)))
  else Exchange.CancelOrder 7 (m_body m).
Definition note : callback (@own (role (list report))) := fun m lower upper _ o =>
  match fst o, read_report m with
  | Other l, Some (_, r) => ((Other (l ++ [r]), snd o), upper)
  | _, _ => (o, upper)
  end.
Definition plan_act (plan : list (Z * Communicator.message)) : @action (role (list report)) := fun lower upper _ o =>
  ((fst o, snd o ++ map snd (filter (fun p => fst p =? lower) plan)),
   fold_left (fun t p => if lower <? fst p then Z.min t (fst p) else t) plan upper).
Definition noting : communicator (@own (role (list report))) := match register (new_communicator false) (kind_code ExecutionReport) 0 note with Ret c => c | _ => new_communicator false end.
Definition noter (plan : list (Z * Communicator.message)) : agent (role (list report)) := mk_agent (lock noting) (plan_act plan) [] (Other [], []).
Definition to_hall (k : kind) (sender : identity) (time body : Z) : Z * Communicator.message := (time, mk_message (kind_code k) sender [1] time time body).
Definition trading : world (role (list report)) :=
  mk_world [([1], exchange_agent (fun _ => 1) wish send false false (new_exchange [7] [(7, (empty_book, []))]));
            ([2], noter [to_hall NewOrderSingle [2] 0 5; to_hall Messages.CancelOrder [2] 3 0]);
            ([3], noter [to_hall NewOrderSingle [3] 1 (-3); to_hall NewOrderSingle [3] 6 4]);
            ([4], noter [to_hall NewOrderSingle [4] 4 (-1)])] [] 10 0.
Definition notes_of (i : identity) (w : world (role (list report))) : option (list (state * side * Z * Z)) :=
  match im_find i (agents w) with
  | Some a => match fst (ag_own a) with Other l => Some (map (fun r => (rp_state r, rp_side r, rp_quantity r, rp_limit r)) l) | Hall _ => None end
  | None => None
  end.
(** [2] is told of its cancellation only when [4] has ordered. *)
Example C205_case : exists w' ts x, run_from (fun _ => 0) (fun _ l => l) 30 0 trading = Some (Ret (w', ts)) /\ well_formed trading /\
  (exists a, im_find [1] (agents w') = Some a /\ fst (ag_own a) = Hall (Ret x) /\ ag_inbox a = []) /\
  notes_of [2] w' = Some [(Placed, Buy, 5, 10); (Matched, Buy, 3, 10); (Cancelled, Buy, 2, 10)] /\
  notes_of [3] w' = Some [(Matched, Sell, 3, 10); (Placed, Buy, 3, 10); (Matched, Buy, 1, 10)] /\
  notes_of [4] w' = Some [(Placed, Sell, 1, 10); (Matched, Sell, 1, 10)] /\
  option_map (rests [3] Buy) (book_of x 7) = Some 3.
Proof.
  assert (S : match run_from (fun _ => 0) (fun _ l => l) 30 0 trading with
    | Some (Ret (w', ts)) => match im_find [1] (agents w') with
        | Some a => match fst (ag_own a) with Hall (Ret x) => ag_inbox a = [] /\ notes_of [2] w' = Some [(Placed, Buy, 5, 10); (Matched, Buy, 3, 10); (Cancelled, Buy, 2, 10)] /\
           notes_of [3] w' = Some [(Matched, Sell, 3, 10); (Placed, Buy, 3, 10); (Matched, Buy, 1, 10)] /\
           notes_of [4] w' = Some [(Placed, Sell, 1, 10); (Matched, Sell, 1, 10)] /\ option_map (rests [3] Buy) (book_of x 7) = Some 3 | _ => False end
        | None => False end
    | _ => False end) by (vm_compute; auto 10).
  destruct (run_from _ _ 30 0 trading) as [[[w' ts]| |]|] eqn:R; try contradiction. destruct (im_find [1] (agents w')) as [a|] eqn:E; [|contradiction]. destruct (fst (ag_own a)) as [[x| |]|] eqn:Ea; try contradiction.
  destruct S as (S0 & S2 & S3 & S4 & S5). exists w', ts, x. split; [reflexivity|]. split; [split; [|split]; repeat constructor|]. split; [exists a; split; [exact E|split; [exact Ea|exact S0]]|]. auto.
Qed.
(** The traders send no execution reports. *)
Lemma noter_mute plan : Forall (fun p => m_type (snd p) <> kind_code ExecutionReport) plan -> mute read_report (fun _ l => l) (noter plan).
Proof.
  intros F. split; [reflexivity|]. intros inbox x lower upper s o t H. unfold Simulation.handle, process_messages in H. cbn [ag_comm ag_act ag_inbox ag_own noter] in H.
  assert (K : forall ms acc (o o' : @own (role (list report))) t, handle_all (lock noting) lower upper s ms acc o = Ret (o', t) -> snd o' = snd o).
  { clear. induction ms as [|m ms IH]; intros acc o o' t H; cbn [handle_all] in H; [injection H as <- _; reflexivity|]. destruct (process_message (lock noting) lower upper s m o) as [[o1 t1]| |] eqn:E; [|discriminate|discriminate].
    rewrite (IH _ _ _ _ H). unfold process_message in E. destruct (fm_find (m_type m) (callbacks (lock noting))) as [fs|] eqn:Ef; [|injection E as <- _; reflexivity].
    assert (fs = [(0, note)]). { cbn in Ef. destruct (kind_code ExecutionReport <? m_type m); [discriminate|]. destruct (kind_code ExecutionReport =? m_type m); [|discriminate]. congruence. }
    subst fs. cbn [rev app call_all] in E. destruct (note m lower upper s o) as [o2 t2] eqn:En. destruct ((lower <=? t2) && (t2 <=? upper)); [|discriminate]. assert (o2 = o1) by congruence. subst o2.
    unfold note in En. destruct (fst o) as [y|l]; [injection En as <- _; reflexivity|]. destruct (read_report m) as [[sy r]|]; injection En as <- _; reflexivity. }
  destruct (handle_all (lock noting) lower upper s _ upper (x, [])) as [[o1 t1]| |] eqn:E; [|discriminate|discriminate]. unfold plan_act in H. assert (Eo : (fst o1, snd o1 ++ map snd (filter (fun p => fst p =? lower) plan)) = o) by congruence.
  rewrite <- Eo, (K _ _ _ _ _ E). cbn [snd app]. apply Forall_forall. intros m Hm. apply in_map_iff in Hm. destruct Hm as (p & <- & Hp). apply filter_In in Hp. rewrite Forall_forall in F. specialize (F p (proj1 Hp)). unfold read_report. apply Z.eqb_neq in F. now rewrite F.
Qed.
Example C205_mute : forall j b, j <> [1] -> im_find j (agents trading) = Some b -> mute read_report (fun _ l => l) b.
Proof.
  intros j b Hj Hb. apply im_find_in in Hb; [|repeat constructor]. cbn in Hb. destruct Hb as [[= <- <-]|[[= <- <-]|[[= <- <-]|[[= <- <-]|[]]]]]; [contradiction| | |]; apply noter_mute; repeat constructor; discriminate.
Qed.
Example C205_quantities : forall m a o, wish m = NewOrder a o -> 0 <= o_quantity o.
Proof. intros m a o H. unfold wish in H. destruct (m_type m =? kind_code NewOrderSingle); [|discriminate]. injection H as <- <-. cbn. lia. Qed.
