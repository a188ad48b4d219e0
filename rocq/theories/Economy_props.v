(** C209: an economy with a Walrasian market. *)
From Verif Require Import Base Identity IdMap IdMap_proofs Inventory Inventory_spec Communicator Simulation Simulation_spec StaticTicks Walras Walras_spec Markets Clearing Sessions Sessions_spec Economy Economy_spec Economy_proofs TransferCodes.
From Verif Require Sessions_props.
From Coq Require Import SpecFloat ZifyBool ZifyNat.

Lemma as_combine {X Y} (l : list (X * Y)) : l = combine (map fst l) (map snd l).
Proof. induction l as [|[x y] l IH]; [reflexivity|]. cbn [map combine fst snd]. now rewrite <- IH. Qed.
Lemma economy {M D : Type} (A : arith) (e : Z) (usd p market : identity) (short_of : identity -> identity) (encode : list (identity * Z) -> Z) (order_of : Z -> D)
  (solver : list (identity * D) -> list (identity * Z) -> option (list (identity * spec_float)))
  (trade : list (identity * D) -> list (identity * spec_float) -> list (identity * Z)) (stated : D -> Z * Z)
  (code : transfer -> Z) (content : Z -> transfer) (strategy : identity -> Z -> option holdings * M -> Z -> M * Z)
  (hash : identity -> Z) (shuffle : seed -> list message -> list message)
  (random : identity -> bool) (participants : list identity) (fuel : nat) (w : world (member (option holdings * M))) old states w' ts :
  amounts A e -> 0 <= e ->
  (forall s l, Permutation (shuffle s l) l) -> (forall t, content (code t) = t) ->
  NoDup participants -> ~ In market participants -> participants <> [] -> p <> usd -> 0 < w_end w < W64 ->
  of_orderers trade -> prudent usd p encode order_of solver trade stated strategy participants ->
  market_world encode order_of solver (trader_answer strategy) (market_settlement A usd market short_of solver trade stated code) (trader_booked content) (fun _ => true)
    random market participants [(p, old)] states w ->
  solvent participants states -> all_have participants states p <= 2 ^ 53 ->
  all_have participants states usd + e * Z.of_nat (length participants) * w_end w < 2 ^ 50 ->
  (Z.to_nat (w_end w) + 3 <= fuel)%nat ->
  run_from hash shuffle fuel 0 w = Some (Ret (w', ts)) ->
  exists h last final, ts = times 0 (Z.to_nat (w_end w)) /\ length h = length ts /\ closed participants h /\
    outcome_of market participants last final (combine ts (map (fun x => [(p, fst x)]) h)) w' /\
    solvent participants final /\ accounted usd p e participants states final h /\
    all_have participants final p = all_have participants states p /\
    Z.abs (all_have participants final usd - all_have participants states usd) <= e * Z.of_nat (length participants) * w_end w.
Proof.
  intros Am E0 Sh Cc Nd Nm Ne Pu We Oo Pr Mw So Bp Bu Fu R.
  assert (Se : settles_with_eager (market_settlement A usd market short_of solver trade stated code) (fun _ => true)) by (split; [now apply orderers|reflexivity]).
  destruct (Sessions_props.C202_sessions encode order_of solver (trader_answer strategy) (market_settlement A usd market short_of solver trade stated code) (trader_booked content) (fun _ => true)
    hash shuffle random market participants fuel w [(p, old)] states Sh Nd Nm Ne We Se Mw Fu) as (outputs & last & Ss & H).
  destruct (all_sessions A usd p market short_of encode order_of solver trade stated code content strategy e participants Am E0 Pu Nd Nm Cc Pr _ _ _ _ _ _ Ss old eq_refl So Bp) as (h & Cl & Ho & Hl); [now rewrite Z.sub_0_r|].
  destruct last as [[q final]|]; [|exfalso; exact (H _ R)]. destruct H as [(w2 & R2 & Out) Ft]. rewrite R in R2. injection R2 as <- ->.
  destruct Hl as (Sf & Ac & Fp & Fu').
  assert (Lh : length h = length (times 0 (Z.to_nat (w_end w)))). { rewrite <- Ft, map_length. rewrite <- (map_length snd outputs), Ho, map_length. reflexivity. }
  exists h, q, final. split; [reflexivity|]. split; [exact Lh|]. split; [exact Cl|]. split.
  { rewrite <- Ft, <- Ho, <- as_combine. exact Out. }
  split; [exact Sf|]. split; [exact Ac|]. split; [exact Fp|]. rewrite Lh in Fu'. unfold times in Fu'. rewrite map_length, seq_length, Z2Nat.id in Fu' by lia. exact Fu'.
Qed.
(** Traders may follow any strategy of which they can bear the consequences - never sell what they do not have, nor buy what they cannot pay at the
    new price - and the market may solve for prices as it likes.  In a whole run of a simulation, whatever the schedule of messages, then:
    nobody fails to process a transfer; at every time everything that is sold is bought; at the end everyone has what it had and what it
    bought, has nothing else more or less than before, and has paid for it the prices the market has put out - but for one cent for each time at which
    it traded; all together have as many units as before, and as much money but for one cent for each of them and each time. *)
Theorem C209_doubles {M D : Type} (usd p market : identity) (short_of : identity -> identity) (encode : list (identity * Z) -> Z) (order_of : Z -> D)
  (solver : list (identity * D) -> list (identity * Z) -> option (list (identity * spec_float)))
  (trade : list (identity * D) -> list (identity * spec_float) -> list (identity * Z)) (stated : D -> Z * Z)
  (code : transfer -> Z) (content : Z -> transfer) (strategy : identity -> Z -> option holdings * M -> Z -> M * Z)
  (hash : identity -> Z) (shuffle : seed -> list message -> list message)
  (random : identity -> bool) (participants : list identity) (fuel : nat) (w : world (member (option holdings * M))) old states w' ts :
  (forall s l, Permutation (shuffle s l) l) -> (forall t, content (code t) = t) ->
  NoDup participants -> ~ In market participants -> participants <> [] -> p <> usd -> 0 < w_end w < W64 ->
  of_orderers trade -> prudent usd p encode order_of solver trade stated strategy participants ->
  market_world encode order_of solver (trader_answer strategy) (market_settlement double usd market short_of solver trade stated code) (trader_booked content) (fun _ => true)
    random market participants [(p, old)] states w ->
  solvent participants states -> all_have participants states p <= 2 ^ 53 ->
  all_have participants states usd + Z.of_nat (length participants) * w_end w < 2 ^ 50 ->
  (Z.to_nat (w_end w) + 3 <= fuel)%nat ->
  run_from hash shuffle fuel 0 w = Some (Ret (w', ts)) ->
  exists h last final, ts = times 0 (Z.to_nat (w_end w)) /\ length h = length ts /\ closed participants h /\
    outcome_of market participants last final (combine ts (map (fun x => [(p, fst x)]) h)) w' /\
    solvent participants final /\ accounted usd p 1 participants states final h /\
    all_have participants final p = all_have participants states p /\
    Z.abs (all_have participants final usd - all_have participants states usd) <= Z.of_nat (length participants) * w_end w.
Proof.
  intros Sh Cc Nd Nm Ne Pu We Oo Pr Mw So Bp Bu Fu R.
  destruct (economy double 1 usd p market short_of encode order_of solver trade stated code content strategy hash shuffle random participants fuel w old states w' ts double_amounts ltac:(lia) Sh Cc Nd Nm Ne Pu We Oo Pr Mw So Bp) as (h & last & final & H); [lia|exact Fu|exact R|].
  rewrite Z.mul_1_l in H. eauto.
Qed.
Print Assumptions C209_doubles.
(** Without rounding, everyone has paid precisely the prices, and there is precisely as much money as before. *)
Theorem C209_exact {M D : Type} (usd p market : identity) (short_of : identity -> identity) (encode : list (identity * Z) -> Z) (order_of : Z -> D)
  (solver : list (identity * D) -> list (identity * Z) -> option (list (identity * spec_float)))
  (trade : list (identity * D) -> list (identity * spec_float) -> list (identity * Z)) (stated : D -> Z * Z)
  (code : transfer -> Z) (content : Z -> transfer) (strategy : identity -> Z -> option holdings * M -> Z -> M * Z)
  (hash : identity -> Z) (shuffle : seed -> list message -> list message)
  (random : identity -> bool) (participants : list identity) (fuel : nat) (w : world (member (option holdings * M))) old states w' ts :
  (forall s l, Permutation (shuffle s l) l) -> (forall t, content (code t) = t) ->
  NoDup participants -> ~ In market participants -> participants <> [] -> p <> usd -> 0 < w_end w < W64 ->
  of_orderers trade -> prudent usd p encode order_of solver trade stated strategy participants ->
  market_world encode order_of solver (trader_answer strategy) (market_settlement exact usd market short_of solver trade stated code) (trader_booked content) (fun _ => true)
    random market participants [(p, old)] states w ->
  solvent participants states -> all_have participants states p <= 2 ^ 53 -> all_have participants states usd < 2 ^ 50 ->
  (Z.to_nat (w_end w) + 3 <= fuel)%nat ->
  run_from hash shuffle fuel 0 w = Some (Ret (w', ts)) ->
  exists h last final, ts = times 0 (Z.to_nat (w_end w)) /\ length h = length ts /\ closed participants h /\
    outcome_of market participants last final (combine ts (map (fun x => [(p, fst x)]) h)) w' /\
    solvent participants final /\
    (forall i, In i participants ->
       has final p i = has states p i + zsum (map (fun x => bought i (snd x)) h) /\ has final usd i = has states usd i - zsum (map (fun x => fst x * bought i (snd x)) h) /\
       forall k, k <> p -> k <> usd -> has final k i = has states k i) /\
    forall k, all_have participants final k = all_have participants states k.
Proof.
  intros Sh Cc Nd Nm Ne Pu We Oo Pr Mw So Bp Bu Fu R.
  destruct (economy exact 0 usd p market short_of encode order_of solver trade stated code content strategy hash shuffle random participants fuel w old states w' ts exact_amounts ltac:(lia) Sh Cc Nd Nm Ne Pu We Oo Pr Mw So Bp) as (h & last & final & H1 & H2 & H3 & H4 & H5 & H6 & H7 & H8); [lia|exact Fu|exact R|].
  exists h, last, final. split; [exact H1|]. split; [exact H2|]. split; [exact H3|]. split; [exact H4|]. split; [exact H5|].
  assert (H9 : forall i, In i participants -> has final p i = has states p i + zsum (map (fun x => bought i (snd x)) h) /\ has final usd i = has states usd i - zsum (map (fun x => fst x * bought i (snd x)) h) /\
       forall k, k <> p -> k <> usd -> has final k i = has states k i).
  { intros i Hi. destruct (H6 i Hi) as (K1 & K2 & K3). split; [exact K1|]. split; [lia|exact K3]. }
  split; [exact H9|]. intros k. destruct (list_eq_dec Z.eq_dec k p) as [->|N1]; [exact H7|]. destruct (list_eq_dec Z.eq_dec k usd) as [->|N2]; [lia|].
  unfold all_have. f_equal. apply map_ext_in. intros i Hi. now apply (H9 i Hi).
Qed.
Print Assumptions C209_exact.

(** Two traders.  At even times the first sells a unit to the second if it has one, at odd times the second to the first; a buyer wants a
    unit if it has 58 cents.  An order states what is wanted and what there is.  The price goes from 29 to 58 and back. *)
Definition d_usd : identity := [9].
Definition d_stock : identity := [7].
Definition d_encode (quotes : list (identity * Z)) : Z := 0.
Definition d_order (body : Z) : Z * Z := (body mod 3 - 1, body / 3).
Definition d_solver (orders : list (identity * (Z * Z))) (quotes : list (identity * Z)) : option (list (identity * spec_float)) :=
  match orders, quotes with
  | [(_, (v, _)); (_, (v', _))], [(k, q)] =>
      if v + v' =? 0 then
        if q =? 29 then Some [(k, S754_finite false 4503599627370496 (-51))] else if q =? 58 then Some [(k, S754_finite false 4503599627370496 (-53))] else None
      else None
  | _, _ => None
  end.
Definition d_trade (orders : list (identity * (Z * Z))) (result : list (identity * spec_float)) : list (identity * Z) := map (fun x => (fst x, fst (snd x))) orders.
Definition d_stated (d : Z * Z) : Z * Z := (snd d, 0).
Definition d_has (s : option holdings * Z) (k : identity) : Z := match fst s with Some inv => held inv k | None => 0 end.
(** They also count the orders they have given. *)
Definition d_want (i : identity) (time : Z) (s : option holdings * Z) : Z :=
  if Bool.eqb (id_eqb i [5]) (Z.even time) then (if 1 <=? d_has s d_stock then -1 else 0) else (if 58 <=? d_has s d_usd then 1 else 0).
Definition d_strategy (i : identity) (time : Z) (s : option holdings * Z) (body : Z) : Z * Z := (snd s + 1, 3 * d_has s d_stock + (d_want i time s + 1)).
Definition d_states (i : identity) : option holdings * Z := if id_eqb i [5] then (Some [(d_stock, 3); (d_usd, 100)], 0) else (Some [(d_usd, 200); ([1], 5)], 0).
Definition d_short (k : identity) : identity := k ++ [0].
Definition d_world (A : arith) : world (member (option holdings * Z)) :=
  mk_world [([3], market_agent d_encode d_order d_solver (market_settlement A d_usd [3] d_short d_solver d_trade d_stated write_transfer) true [3] (new_setter [(d_stock, 29)] [[5]; [6]]));
            ([5], participant_agent (trader_answer d_strategy) (trader_booked read_transfer) (fun _ => true) false [5] (d_states [5]));
            ([6], participant_agent (trader_answer d_strategy) (trader_booked read_transfer) (fun _ => true) true [6] (d_states [6]))] [] 3 0.
Lemma d_order_of (have want : Z) : -1 <= want <= 1 -> d_order (3 * have + (want + 1)) = (want, have).
Proof. intros H. unfold d_order. rewrite Z.add_comm, Z.mul_comm, Z.mod_add, Z.div_add, (Z.mod_small (want + 1)), (Z.div_small (want + 1)) by lia. f_equal; lia. Qed.
Lemma d_want_bound i time s : -1 <= d_want i time s <= 1.
Proof. unfold d_want. destruct (Bool.eqb _ _); [destruct (1 <=? _)|destruct (58 <=? _)]; lia. Qed.
Lemma d_computes a b v : -1 <= v <= 1 -> computes [(a, of_Z double v); (b, of_Z double (- v))] [(a, v); (b, - v)].
Proof.
  intros H. exists [(a, v); (b, - v)], 0, [(a, v); (b, - v)]. assert (C : v = -1 \/ v = 0 \/ v = 1) by lia.
  split; [destruct C as [-> | [-> | ->]]; reflexivity|]. split; [destruct C as [-> | [-> | ->]]; reflexivity|]. split; [|reflexivity]. split; [reflexivity|]. constructor; [constructor; constructor|]. constructor; [cbn; lia|constructor].
Qed.
Lemma d_new result old new v v' a b x y : d_solver [(a, (v, x)); (b, (v', y))] [(d_stock, old)] = Some result -> apply_results result [(d_stock, old)] = Ret [(d_stock, new)] -> v' = - v /\ 0 <= new <= 58.
Proof.
  cbn [d_solver]. destruct (Z.eqb_spec (v + v') 0); [|discriminate]. destruct (Z.eqb_spec old 29) as [->|]; [|destruct (Z.eqb_spec old 58) as [->|]; [|discriminate]]; intros [= <-] H; vm_compute in H; injection H as <-; lia.
Qed.
Lemma d_prudent : prudent d_usd d_stock d_encode d_order d_solver d_trade d_stated d_strategy [[5]; [6]].
Proof.
  intros time old states orders result new So P Es An.
  unfold all_orders in P. cbn [map] in P. unfold trader_answer, d_strategy in P. cbn [snd] in P. rewrite !d_order_of in P by apply d_want_bound.
  set (w5 := d_want [5] time (states [5])) in *. set (w6 := d_want [6] time (states [6])) in *. set (h5 := d_has (states [5]) d_stock) in *. set (h6 := d_has (states [6]) d_stock) in *.
  assert (B5 : - w5 <= h5 /\ w5 * 58 <= d_has (states [5]) d_usd /\ 0 <= d_has (states [5]) d_usd /\ -1 <= w5 <= 1).
  { destruct (So [5] (or_introl eq_refl)) as (inv & Ei & Vi). pose proof (Inventory_proofs.held_bound inv d_stock Vi) as W1. pose proof (Inventory_proofs.held_bound inv d_usd Vi) as W2. unfold u64 in W1, W2.
    unfold w5, h5, d_want, d_has. rewrite Ei. destruct (Bool.eqb _ _); [destruct (Z.leb_spec 1 (held inv d_stock))|destruct (Z.leb_spec 58 (held inv d_usd))]; lia. }
  assert (B6 : - w6 <= h6 /\ w6 * 58 <= d_has (states [6]) d_usd /\ 0 <= d_has (states [6]) d_usd /\ -1 <= w6 <= 1).
  { destruct (So [6] (or_intror (or_introl eq_refl))) as (inv & Ei & Vi). pose proof (Inventory_proofs.held_bound inv d_stock Vi) as W1. pose proof (Inventory_proofs.held_bound inv d_usd Vi) as W2. unfold u64 in W1, W2.
    unfold w6, h6, d_want, d_has. rewrite Ei. destruct (Bool.eqb _ _); [destruct (Z.leb_spec 1 (held inv d_stock))|destruct (Z.leb_spec 58 (held inv d_usd))]; lia. }
  assert (Hh : forall k i, has states k i = d_has (states i) k) by reflexivity.
  apply Permutation_sym, Permutation_length_2_inv in P. destruct P as [-> | ->]; destruct (d_new _ _ _ _ _ _ _ _ _ Es An) as [Ew Bn]; cbn [d_trade map fst snd].
  - split; [exists [([5], of_Z double w5); ([6], of_Z double (- w5))]; split; [reflexivity|rewrite Ew; now apply d_computes]|]. split; [lia|].
    intros i v [[= <- <-]|[[= <- <-]|[]]]; rewrite !Hh; (split; [intros d [[= <-]|[[= <-]|[]]]; reflexivity|]); fold h5; fold h6; split; nia.
  - split; [exists [([6], of_Z double w6); ([5], of_Z double (- w6))]; split; [apply perm_swap|rewrite Ew; now apply d_computes]|]. split; [lia|].
    intros i v [[= <- <-]|[[= <- <-]|[]]]; rewrite !Hh; (split; [intros d [[= <-]|[[= <-]|[]]]; reflexivity|]); fold h5; fold h6; split; nia.
Qed.
Lemma d_market A : market_world d_encode d_order d_solver (trader_answer d_strategy) (market_settlement A d_usd [3] d_short d_solver d_trade d_stated write_transfer) (trader_booked read_transfer) (fun _ => true)
  (fun i => negb (id_eqb i [5])) [3] [[5]; [6]] [(d_stock, 29)] d_states (d_world A).
Proof.
  split; [split; [|split]; repeat constructor|]. split; [reflexivity|]. split; [reflexivity|]. split.
  - intros i [<-|[<-|[]]]; reflexivity.
  - intros i N1 N2. destruct (im_find i (agents (d_world A))) eqn:F; [|reflexivity]. apply im_find_in in F; [|repeat constructor]. cbn [agents d_world In] in F. destruct F as [[= <- _]|[[= <- _]|[[= <- _]|[]]]]; [now contradiction N1|exfalso; apply N2; now left|exfalso; apply N2; right; now left].
Qed.
Lemma d_orderers : of_orderers d_trade.
Proof. intros orders result a H. unfold d_trade in H. rewrite map_map in H. exact H. Qed.
Lemma d_solvent : solvent [[5]; [6]] d_states.
Proof.
  intros i [<-|[<-|[]]]; eexists; (split; [reflexivity|]); (split; [repeat constructor; cbn; intuition discriminate|]); repeat constructor; unfold u64, W64; cbn; lia.
Qed.
Definition d_seen (w : world (member (option holdings * Z))) : list (Z * list (identity * Z)) * list (option (list Z) * Z) :=
  (match im_find [3] (agents w) with Some a => match fst (ag_own a) with Setter _ _ outputs => outputs | _ => [] end | None => [] end,
   map (fun i => match im_find i (agents w) with
     | Some a => match fst (ag_own a) with Participant (Some inv, n) => (Some (map (held inv) [d_stock; d_usd; [1]]), n) | Participant (None, n) => (None, n) | _ => (None, 0) end
     | None => (None, 0) end) [[5]; [6]]).
(** All the assumptions of the theorems hold.  In exact arithmetic the first trader gets 58 cents, pays 29 and gets 58; in double precision a
    cent less each time. *)
Example C209_case :
  prudent d_usd d_stock d_encode d_order d_solver d_trade d_stated d_strategy [[5]; [6]] /\ of_orderers d_trade /\ solvent [[5]; [6]] d_states /\
  (forall A, market_world d_encode d_order d_solver (trader_answer d_strategy) (market_settlement A d_usd [3] d_short d_solver d_trade d_stated write_transfer) (trader_booked read_transfer) (fun _ => true)
    (fun i => negb (id_eqb i [5])) [3] [[5]; [6]] [(d_stock, 29)] d_states (d_world A)) /\
  all_have [[5]; [6]] d_states d_stock = 3 /\ all_have [[5]; [6]] d_states d_usd + 2 * 3 < 2 ^ 50 /\
  match run_from (fun _ => 0) (fun _ l => l) 7 0 (d_world exact) with
  | Some (Ret (w', ts)) => ts = [0; 1; 2] /\ d_seen w' = ([(0, [(d_stock, 58)]); (1, [(d_stock, 29)]); (2, [(d_stock, 58)])], [(Some [2; 187; 0], 3); (Some [1; 113; 5], 3)])
  | _ => False
  end.
Proof.
  split; [apply d_prudent|]. split; [apply d_orderers|]. split; [apply d_solvent|]. split; [apply d_market|]. split; [reflexivity|]. split; [vm_compute; reflexivity|].
  vm_compute. split; reflexivity.
Qed.
Example C209_doubles_case :
  match run_from (fun _ => 0) (fun _ l => l) 7 0 (d_world double) with
  | Some (Ret (w', ts)) => ts = [0; 1; 2] /\ d_seen w' = ([(0, [(d_stock, 58)]); (1, [(d_stock, 29)]); (2, [(d_stock, 58)])], [(Some [2; 186; 0], 3); (Some [1; 114; 5], 3)])
  | _ => False
  end.
Proof. vm_compute. split; reflexivity. Qed.
