From Verif Require Import Base Quantity_proofs Identity Identity_proofs IdMap IdMap_proofs Communicator Simulation Simulation_spec Messages FirstCome FirstCome_spec.
From Verif Require Import Fills_spec Fills_proofs Fills_proofs2.
From Verif Require Import Exchange Exchange_spec Exchange_proofs BinaryBook BinaryBook_spec.
From Coq Require Import ZifyBool ZifyNat.

(** What waits to be sent is of cancellations. *)
Definition called_off (r : report) : Prop := rp_state r = Cancelled.
Lemma cancel_called_off b i : Forall called_off (snd (cancel b i)).
Proof.
  unfold cancel. destruct (map_find i (b_index b)) as [limit|]; [|constructor]. destruct (match bid b with Some q => q >=? limit | None => false end).
  - destruct (remove_entry limit i (b_bids b)) as [[e l]|]; repeat constructor.
  - destruct (match ask b with Some q => q <=? limit | None => false end); [|constructor]. destruct (remove_entry limit i (b_asks b)) as [[e l]|]; repeat constructor.
Qed.
Lemma handle_waiting delay now e x x' ms sym b l : f_find Z.eqb sym (x_books x) = Some (b, l) -> Forall called_off l -> Exchange.handle delay now e x = Ret (x', ms) ->
  exists b' l', f_find Z.eqb sym (x_books x') = Some (b', l') /\ Forall called_off l'.
Proof.
  intros F C H. destruct e as [a supply|a|a type depth ins|a o|s i]; cbn [Exchange.handle] in H.
  - injection H as <- <-. exists b, l. now split.
  - injection H as <- <-. exists b, l. now split.
  - destruct (request_all now a type depth ins (x_subscriptions x)); try discriminate. injection H as <- <-. exists b, l. now split.
  - unfold insert_order in H. destruct (f_find Z.eqb (o_symbol o) (x_books x)) as [[bk p]|] eqn:E; [|discriminate]. destruct (insert bk o) as [b' new].
    destruct (send_reports delay now a o _ b' (p ++ new) (x_subscriptions x)) as [subs ms']. injection H as <- <-. cbn [x_books]. rewrite (f_find_assign Z.eqb Zeqb_eq), E, F. destruct (o_symbol o =? sym); eexists; eexists; (split; [reflexivity|]); [constructor|exact C].
  - injection H as <- <-. unfold cancel_order. destruct (f_find Z.eqb s (x_books x)) as [[bk p]|] eqn:E; [|exists b, l; now split]. pose proof (cancel_called_off bk i) as K. destruct (cancel bk i) as [b' new]. cbn [x_books snd] in *.
    rewrite (f_find_assign Z.eqb Zeqb_eq), E, F. destruct (s =? sym) eqn:Es; eexists; eexists; (split; [reflexivity|]); [|exact C]. apply Z.eqb_eq in Es. subst s. assert ((bk, p) = (b, l)) as [= -> ->] by congruence. apply Forall_app. now split.
Qed.
Lemma operate_waiting delay sym h : forall x x' ms b l, f_find Z.eqb sym (x_books x) = Some (b, l) -> Forall called_off l -> operate delay h x = Ret (x', ms) ->
  exists b' l', f_find Z.eqb sym (x_books x') = Some (b', l') /\ Forall called_off l'.
Proof.
  induction h as [|[t e] h IH]; intros x x' ms b l F C H; cbn [operate] in H; [injection H as <- <-; exists b, l; now split|].
  destruct (Exchange.handle delay t e x) as [[x1 m1]| |] eqn:E; try discriminate. destruct (operate delay h x1) as [[x2 m2]| |] eqn:E2; try discriminate. injection H as <- <-.
  destruct (handle_waiting _ _ _ _ _ _ _ _ _ F C E) as (b1 & l1 & F1 & C1). eapply IH; eassumption.
Qed.
Section Reading.
Context (read : Communicator.message -> option (Z * report)) (post : Exchange.message -> Communicator.message) (Hr : readable read post).
Lemma reports_heard sym l : reports_in read sym l = reports_in read sym (filter (heard read) l).
Proof. unfold reports_in. induction l as [|m l IH]; [reflexivity|]. cbn [flat_map filter]. unfold heard at 1. destruct (read m) as [[s r]|] eqn:E; [cbn [flat_map]; rewrite E, IH; reflexivity|exact IH]. Qed.
Lemma filter_swap {X} (f g : X -> bool) l : filter f (filter g l) = filter g (filter f l).
Proof. induction l as [|x l IH]; [reflexivity|]. cbn [filter]. destruct (f x) eqn:Ef, (g x) eqn:Eg; cbn [filter]; rewrite ?Ef, ?Eg, ?IH; reflexivity. Qed.
Lemma reports_posted sym j ms : reports_in read sym (filter (addressed_to j) (map post ms)) = map snd (filter (fun p => id_eqb (fst p) j) (notices sym ms)).
Proof.
  induction ms as [|m ms IH]; [reflexivity|]. cbn [map filter]. unfold notices in *. cbn [flat_map]. rewrite filter_app, map_app, <- IH. pose proof (Hr m) as H. destruct m as [a t o r|a t s tr ak bd].
  - destruct H as [H1 H2]. unfold addressed_to at 1. rewrite H2. destruct (o_symbol o =? sym) eqn:Es; [cbn [filter fst]; destruct (id_eqb a j)|destruct (id_eqb a j)]; cbn [map snd app]; [|reflexivity| |reflexivity]; unfold reports_in; cbn [flat_map]; rewrite H1, Es; reflexivity.
  - cbn [filter map app]. destruct (addressed_to j (post (MarketData a t s tr ak bd))); [|reflexivity]. unfold reports_in. cbn [flat_map]. rewrite H. reflexivity.
Qed.
Lemma reports_all sym ms : reports_in read sym (map post ms) = map snd (notices sym ms).
Proof.
  unfold reports_in, notices. induction ms as [|m ms IH]; [reflexivity|]. cbn [map flat_map]. rewrite IH, map_app. pose proof (Hr m) as H. destruct m as [a t o r|a t s tr ak bd]; [destruct H as [-> _]|rewrite H; reflexivity]. destruct (o_symbol o =? sym); reflexivity.
Qed.
End Reading.
Lemma weigh_called_off f s l : Forall called_off l -> weigh f s l = 0.
Proof. intros H. unfold weigh. induction H as [|r l H _ IH]; [reflexivity|]. cbn [filter]. unfold is_state at 1. rewrite H. exact IH. Qed.
Lemma matched_called_off P l : Forall called_off l -> sum_of P Matched l = 0.
Proof. intros H. unfold sum_of, total. induction H as [|r l H _ IH]; [reflexivity|]. cbn [filter]. unfold is_state at 1. rewrite H. exact IH. Qed.
Lemma concerned (i : identity) s l : zsum (map e_qty (filter (fun e => side_eqb (o_side (e_order e)) s && id_eqb (o_owner (e_order e)) i) l)) =
  quantity_of (filter (fun x => id_eqb (o_owner (snd x)) i && side_eqb (o_side (snd x)) s) (map (fun e => (e_ident e, e_order e)) l)).
Proof.
  unfold quantity_of. induction l as [|e l IH]; [reflexivity|]. cbn [map filter snd]. rewrite (andb_comm (side_eqb _ _)). destruct (id_eqb (o_owner (e_order e)) i && side_eqb (o_side (e_order e)) s); [|exact IH].
  cbn [map]. unfold zsum in *. cbn [fold_right snd]. rewrite IH. reflexivity.
Qed.
Lemma ordered_calls (event_of : Communicator.message -> event) sym i s (h : list (Z * Communicator.message)) :
  ordered event_of sym i s (map snd h) = zsum (map (asks_for (fun s' o => side_eqb s' s && id_eqb o i)) (calls sym (map (fun p => (fst p, event_of (snd p))) h))).
Proof.
  unfold ordered, calls. induction h as [|[t m] h IH]; [reflexivity|]. cbn [map flat_map snd fst]. rewrite map_app, zsum_app, <- IH. unfold zsum at 1. cbn [fold_right]. fold (zsum (map (fun m => match event_of m with NewOrder _ o => if (o_symbol o =? sym) && id_eqb (o_owner o) i && side_eqb (o_side o) s then o_quantity o else 0 | _ => 0 end) (map snd h))).
  f_equal. destruct (event_of m) as [| | |a o|s' k]; try reflexivity; [destruct (o_symbol o =? sym)|destruct (s' =? sym)]; try reflexivity. cbn. unfold concerns. rewrite (andb_comm (side_eqb _ _)). destruct (id_eqb (o_owner o) i && side_eqb (o_side o) s); lia.
Qed.
Lemma sensible_calls (event_of : Communicator.message -> event) sym (h : list (Z * Communicator.message)) : (forall m a o, event_of m = NewOrder a o -> 0 <= o_quantity o) ->
  Forall sensible (calls sym (map (fun p => (fst p, event_of (snd p))) h)).
Proof.
  intros Q. unfold calls. induction h as [|[t m] h IH]; [constructor|]. cbn [map flat_map snd fst]. apply Forall_app. split; [|exact IH]. destruct (event_of m) as [| | |a o|s' k] eqn:E; try constructor; [destruct (o_symbol o =? sym)|destruct (s' =? sym)]; repeat constructor. cbn. eapply Q, E.
Qed.
Section Final.
Context (delay : identity -> Z) (event_of : Communicator.message -> event) (post : Exchange.message -> Communicator.message) (read : Communicator.message -> option (Z * report)).
Context (Hr : readable read post) (Hq : forall m a o, event_of m = NewOrder a o -> 0 <= o_quantity o).
Lemma total_filter (p q : report -> bool) l : total p (filter q l) = total (fun r => p r && q r) l.
Proof. unfold total. induction l as [|r l IH]; [reflexivity|]. cbn [filter]. destruct (q r) eqn:E; cbn [filter]; rewrite ?E, ?andb_true_r, ?andb_false_r; [destruct (p r); cbn [map]; unfold zsum in *; cbn [fold_right]; rewrite ?IH; reflexivity|exact IH]. Qed.
Lemma books_balance traded books h x ms sym sent : f_find Z.eqb sym books = Some (empty_book, []) ->
  operate delay (map (fun p => (fst p, event_of (snd p))) h) (new_exchange traded books) = Ret (x, ms) -> filter (heard read) sent = filter (heard read) (map post ms) ->
  exists b, book_of x sym = Some b /\
    (forall i s, ordered event_of sym i s (map snd h) = told read sym i s Matched sent + told read sym i s Cancelled sent + about i s Cancelled (unsent x sym) + rests i s b) /\
    quantity_traded Buy (reports_in read sym sent) = quantity_traded Sell (reports_in read sym sent) /\
    money_traded Buy (reports_in read sym sent) = money_traded Sell (reports_in read sym sent).
Proof.
  intros F H E. destruct (operate_reports delay sym _ (new_exchange traded books) x ms empty_book [] (new_uniq traded books) F H) as (b & l & rs & F' & R & N & A). cbn [app] in A.
  destruct (operate_waiting delay sym _ (new_exchange traded books) x ms empty_book [] F (Forall_nil _) H) as (b1 & l1 & F1 & C). rewrite F' in F1. injection F1 as <- <-.
  pose proof (sensible_calls event_of sym h Hq) as Sc. assert (O : orderly empty_book) by (split; constructor).
  exists b. unfold book_of, unsent. rewrite F'. split; [reflexivity|].
  assert (L : reports_in read sym sent = map snd (notices sym ms)) by (rewrite (reports_heard read sym sent), E, <- (reports_heard read sym (map post ms)); now apply reports_all).
  split.
  - intros i s. pose proof (run_sums (fun s' o => side_eqb s' s && id_eqb o i) (fun _ => 0) _ (fun _ _ _ _ => eq_refl) Sc empty_book O) as S. rewrite R in S. destruct S as (_ & S & _). rewrite <- ordered_calls, A, !sum_of_app, (matched_called_off _ l C) in S.
    assert (T : forall st, told read sym i s st sent = sum_of (fun s' o => side_eqb s' s && id_eqb o i) st (map snd (notices sym ms))).
    { intros st. unfold told. assert (X : reports_in read sym (filter (addressed_to i) sent) = filter (fun r => id_eqb (rp_owner r) i) (map snd (notices sym ms))).
      { rewrite (reports_heard read sym (filter _ sent)), filter_swap, E, filter_swap, <- (reports_heard read sym (filter _ (map post ms))). rewrite (reports_posted read post Hr), N at 1. generalize (map snd (notices sym ms)). intros k. induction k as [|r k IH]; [reflexivity|]. cbn [map filter fst]. destruct (id_eqb (rp_owner r) i); cbn [map snd]; rewrite IH; reflexivity. }
      rewrite X, total_filter. unfold sum_of, total. f_equal. f_equal. apply filter_ext. intros r. now rewrite andb_assoc. }
    rewrite !T. assert (Ab : about i s Cancelled l = sum_of (fun s' o => side_eqb s' s && id_eqb o i) Cancelled l). { unfold about, sum_of, total. f_equal. f_equal. apply filter_ext. intros r. now rewrite andb_assoc. }
    assert (Re : rests i s b = both (fun s' o => side_eqb s' s && id_eqb o i) b). { unfold rests, both, resting, held, concerns. rewrite map_app, filter_app. rewrite !concerned. unfold quantity_of. now rewrite map_app, zsum_app. }
    rewrite Ab, Re. change (both _ empty_book) with 0 in S. lia.
  - assert (W : forall f, by_trade f -> weigh f Buy (map snd (notices sym ms)) = weigh f Sell (map snd (notices sym ms))).
    { intros f Hf. pose proof (run_sums (fun _ _ => true) f _ Hf Sc empty_book O) as S. rewrite R in S. destruct S as (_ & _ & S). rewrite A, !weigh_app, !(weigh_called_off f _ l C) in S. lia. }
    rewrite L. split; apply W; intros r1 r2 E1 E2; congruence.
Qed.
End Final.
