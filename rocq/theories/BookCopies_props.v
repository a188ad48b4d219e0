(** C232: copies of the fixed-tick order book. *)
From Coq Require Import ZifyBool ZifyNat.
From Verif Require Import Base BlockPool PoolCopies PoolCopies_proofs StaticBook BookCopies.

(** If there is a bid, or an ask, the copy of a book cannot be asked for it; if there is none, the copy says so. *)
Theorem C232_quotes_refuted decode (b : book) q :
  (bid decode b = Ok (Some q) -> c_bid b b = Undefined) /\ (ask decode b = Ok (Some q) -> c_ask b b = Undefined) /\
  (bid decode b = Ok None -> c_bid b b = Ok None) /\ (ask decode b = Ok None -> c_ask b b = Ok None).
Proof.
  unfold bid, ask, c_bid, c_ask.
  destruct (level b (b_bid b)) as [[[f|] s]| | |]; destruct (level b (b_ask b)) as [[[g|] t]| | |]; cbn; repeat split; try discriminate; reflexivity.
Qed.
Print Assumptions C232_quotes_refuted.
(** No order can be placed in a copy of a book with room for orders, whatever is in the book and whatever happened to the
    original since. *)
Theorem C232_insert_refuted lowest highest lot encode (o : limit_order) (b c : book) :
  o_lot o = lot -> lowest <= o_limit o <= highest -> 0 < o_quantity o -> 0 <= encode (o_limit o) < Z.of_nat (length (b_levels c)) ->
  o_lifetime o = good_until_cancelled -> size_ (b_pool c) < cap (b_pool c) ->
  forall rs, c_insert lowest highest lot encode o b c <> Ok rs.
Proof.
  intros L V Q E T S rs. unfold c_insert, valid.
  replace (o_lot o =? lot) with true by lia. replace ((lowest <=? o_limit o) && (o_limit o <=? highest)) with true by lia.
  replace (o_quantity o <=? 0) with false by lia. replace ((encode (o_limit o) <? 0) || _) with false by lia. cbn [negb orb].
  rewrite T. destruct (if o_buy o then c_ask b c else c_bid b c); try discriminate. cbn [bind_result].
  unfold c_store, copy_pool at 1 2. cbn. destruct (Z.geb_spec (size_ (b_pool c)) (cap (b_pool c))); [lia|]. destruct (end_ (b_pool c)); discriminate.
Qed.
Print Assumptions C232_insert_refuted.
(** Nothing is ever traded or placed in a copy: all that it does with an order is to reject it. *)
Theorem C232_inert lowest highest lot encode (o : limit_order) (b c : book) rs :
  c_insert lowest highest lot encode o b c = Ok rs ->
  exists r, rs = [r] /\ (p_state r = invalid \/ p_state r = cancelled) /\ p_quantity r = o_quantity o.
Proof.
  unfold c_insert. destruct (negb (o_lot o =? lot)); [discriminate|]. destruct (negb _ || _); [intros [= <-]; eexists; cbn; eauto|].
  destruct (_ || _); [discriminate|]. destruct (if o_buy o then c_ask b c else c_bid b c); try discriminate. cbn [bind_result].
  destruct (o_lifetime o); [|intros [= <-]; eexists; cbn; eauto|intros [= <-]; eexists; cbn; eauto].
  unfold c_store. destruct (_ >=? _); [discriminate|]. cbn. destruct (end_ (b_pool c)); discriminate.
Qed.
Print Assumptions C232_inert.

(** Cancelling an order in a copy removes it from the original's list of orders, though the original reports nothing: a book
    of three sell orders at a limit, of which the second is cancelled in a copy. *)
Definition sells : list operation := map (fun a => Insert (mk_order a false 4 1 5 good_until_cancelled)) [1; 2; 3].
Theorem C232_cancel_refuted : exists b0 b b' r,
  new_book 0 9 10 8 = Ok b0 /\ operate_all 0 9 1 (fun v => v) (fun i => i) true 20 b0 sells = Ok b /\
  orders 20 b = Ok [0; 1; 2] /\ c_orders 20 b b = Ok [0; 1; 2] /\
  c_cancel 0 9 (fun v => v) true 1 b b = Ok (b', [r]) /\ p_owner r = 2 /\
  orders 20 b' = Ok [0; 2] /\ b_reports b' = b_reports b.
Proof.
  do 4 eexists. split; [vm_compute; reflexivity|]. split; [vm_compute; reflexivity|]. split; [vm_compute; reflexivity|]. split; [vm_compute; reflexivity|].
  split; [cbv; reflexivity|]. repeat split; vm_compute; reflexivity.
Qed.
Print Assumptions C232_cancel_refuted.
(** The same book: neither the ask nor a new order. *)
Example C232_case :
  exists b0 b, new_book 0 9 10 8 = Ok b0 /\ operate_all 0 9 1 (fun v => v) (fun i => i) true 20 b0 sells = Ok b /\
  ask (fun i => i) b = Ok (Some 4) /\ c_ask b b = Undefined /\ c_bid b b = Ok None /\
  c_insert 0 9 1 (fun v => v) (mk_order 7 true 3 1 5 good_until_cancelled) b b = Undefined /\
  c_insert 0 9 1 (fun v => v) (mk_order 7 false 8 1 5 good_until_cancelled) b b = Undefined /\
  (exists r, c_insert 0 9 1 (fun v => v) (mk_order 7 false 8 1 5 fill_or_kill) b b = Ok [r]).
Proof.
  do 2 eexists. split; [vm_compute; reflexivity|]. split; [vm_compute; reflexivity|]. split; [vm_compute; reflexivity|]. split; [vm_compute; reflexivity|].
  split; [vm_compute; reflexivity|]. split; [vm_compute; reflexivity|]. split; [vm_compute; reflexivity|]. eexists. vm_compute. reflexivity.
Qed.
