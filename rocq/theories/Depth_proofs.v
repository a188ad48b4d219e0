(** Lemmas: the depth of a subscription is not used. *)
From Coq Require Import ZifyBool ZifyNat.
From Verif Require Import Base Identity Identity_proofs BinaryBook Exchange Exchange_spec Exchange_proofs Depth_spec.

Section Values.
Context {K V : Type} (eqb : K -> K -> bool) (g : V -> V).
Definition over (m : list (K * V)) : list (K * V) := map (fun p => (fst p, g (snd p))) m.
Lemma over_find k m : f_find eqb k (over m) = option_map g (f_find eqb k m).
Proof. induction m as [|[j v] m IH]; cbn [over map f_find fst snd]; [reflexivity|]. destruct (eqb j k); [reflexivity|exact IH]. Qed.
Lemma over_assign k v m : f_assign eqb k (g v) (over m) = over (f_assign eqb k v m).
Proof. induction m as [|[j w] m IH]; cbn [over map f_assign fst snd]; [reflexivity|]. destruct (eqb j k); cbn [map fst snd]; [reflexivity|]. f_equal. exact IH. Qed.
Lemma over_put k v m : f_put eqb k (g v) (over m) = over (f_put eqb k v m).
Proof. unfold f_put. rewrite over_find. destruct (f_find eqb k m); cbn [option_map]; [apply over_assign|]. unfold over. now rewrite map_app. Qed.
Lemma over_erase k m : f_erase eqb k (over m) = over (f_erase eqb k m).
Proof. induction m as [|[j w] m IH]; cbn [over map f_erase fst snd]; [reflexivity|]. destruct (eqb j k); cbn [map fst snd]; [reflexivity|]. f_equal. exact IH. Qed.
End Values.

Definition shallow (s : subscription) : subscription := mk_subscription 0 (s_start s) (s_periodicity s).
Notation forget := (over (over shallow)).
Definition lift {A} (f : A -> A) (r : outcome A) : outcome A := match r with Ret x => Ret (f x) | Throw => Throw | UB => UB end.
Lemma request_one_shallow now a ty d i (subs : list (Z * list (identity * subscription))) : request_one now a ty 0 i (forget subs) = lift forget (request_one now a ty d i subs).
Proof.
  unfold request_one. rewrite over_find. destruct ty.
  - replace (match option_map (over shallow) (f_find Z.eqb i subs) with Some l => l | None => [] end) with (over shallow (match f_find Z.eqb i subs with Some l => l | None => [] end : list (identity * subscription))) by (destruct (f_find Z.eqb i subs); reflexivity).
    change (mk_subscription 0 now (W64 - 1)) with (shallow (mk_subscription d now (W64 - 1))). now rewrite over_put, over_put.
  - destruct (f_find Z.eqb i subs) as [l|]; [|reflexivity]. cbn [option_map]. rewrite over_find. destruct (f_find id_eqb a l); [|reflexivity]. cbn [option_map]. now rewrite over_erase, over_assign.
  - destruct (f_find Z.eqb i subs) as [l|]; [|reflexivity]. cbn [option_map]. change (mk_subscription 0 now 0) with (shallow (mk_subscription d now 0)). now rewrite over_put, over_assign.
Qed.
Lemma request_all_shallow now a ty d is : forall subs, request_all now a ty 0 is (forget subs) = lift forget (request_all now a ty d is subs).
Proof. induction is as [|i is IH]; intros subs; cbn [request_all]; [reflexivity|]. rewrite (request_one_shallow now a ty d i subs). destruct (request_one now a ty d i subs); cbn [lift]; [apply IH|reflexivity|reflexivity]. Qed.
Lemma update_shallow delay now symbol r trade b (l : list (identity * subscription)) : update_subscribers delay now symbol r trade b (over shallow l) =
  (over shallow (fst (update_subscribers delay now symbol r trade b l)), snd (update_subscribers delay now symbol r trade b l)).
Proof.
  induction l as [|[a s] l IH]; cbn [over map fst snd update_subscribers]; [reflexivity|]. unfold over in IH at 1. rewrite IH. destruct (update_subscribers delay now symbol r trade b l) as [rest ms]. cbn [fst snd].
  cbn [shallow s_start s_periodicity s_depth]. destruct (_ >? now); reflexivity.
Qed.
Lemma send_shallow delay now sender o changed b rs : forall subs, send_reports delay now sender o changed b rs (forget subs) =
  (forget (fst (send_reports delay now sender o changed b rs subs)), snd (send_reports delay now sender o changed b rs subs)).
Proof.
  induction rs as [|r rs IH]; intros subs; cbn [send_reports]; [reflexivity|]. rewrite over_find. destruct (f_find Z.eqb (o_symbol o) subs) as [l|]; cbn [option_map].
  - destruct ((is_match r && id_eqb (rp_owner r) sender) || changed).
    + rewrite update_shallow. destruct (update_subscribers delay now (o_symbol o) r (is_match r) b l) as [l' ms]. cbn [fst snd]. rewrite over_assign, IH. destruct (send_reports delay now sender o changed b rs (f_assign Z.eqb (o_symbol o) l' subs)). reflexivity.
    + rewrite IH. destruct (send_reports delay now sender o changed b rs subs). reflexivity.
  - rewrite IH. destruct (send_reports delay now sender o changed b rs subs). reflexivity.
Qed.
Definition blind (x : exchange) : exchange := mk_exchange (x_traded x) (x_books x) (x_positions x) (forget (x_subscriptions x)).
Definition flat (e : event) : event := match e with Request a ty _ is => Request a ty 0 is | _ => e end.
Lemma handle_blind delay now e x : handle delay now (flat e) (blind x) = lift (fun p => (blind (fst p), snd p)) (handle delay now e x).
Proof.
  destruct e as [c sup|c|c ty dp is|c o|s i]; cbn [flat handle lift]; try reflexivity.
  - cbn [blind x_subscriptions x_traded x_books x_positions]. rewrite (request_all_shallow now c ty dp is). destruct (request_all now c ty dp is (x_subscriptions x)); reflexivity.
  - unfold insert_order. cbn [blind x_books x_subscriptions x_traded x_positions]. destruct (f_find Z.eqb (o_symbol o) (x_books x)) as [[bk p]|]; [|reflexivity]. destruct (insert bk o) as [b' nw].
    rewrite send_shallow. destruct (send_reports _ _ _ _ _ _ _ (x_subscriptions x)). reflexivity.
  - unfold cancel_order. cbn [blind x_books]. destruct (f_find Z.eqb s (x_books x)) as [[bk p]|]; [|reflexivity]. destruct (cancel bk i). reflexivity.
Qed.
Lemma operate_blind delay h : forall x, operate delay (map (fun te => (fst te, flat (snd te))) h) (blind x) = lift (fun p => (blind (fst p), snd p)) (operate delay h x).
Proof.
  induction h as [|[t e] h IH]; intros x; cbn [map operate fst snd]; [reflexivity|]. rewrite handle_blind. destruct (handle delay t e x) as [[x1 m1]| |]; cbn [lift fst snd]; try reflexivity.
  rewrite IH. destruct (operate delay h x1) as [[x2 m2]| |]; reflexivity.
Qed.
Lemma same_flat h h' : Forall2 same_but_depth h h' -> map (fun te => (fst te, flat (snd te))) h = map (fun te => (fst te, flat (snd te))) h'.
Proof. intros F. induction F as [|a b h h' S F IH]; cbn [map]; [reflexivity|]. rewrite IH. f_equal. destruct S as [->|(t & w & ty & d & d' & is & -> & ->)]; reflexivity. Qed.
