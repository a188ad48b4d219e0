(** Lemmas about the exchange. *)
From Coq Require Import ZifyBool ZifyNat.
From Verif Require Import Base Identity Identity_proofs BinaryBook Exchange Exchange_spec.

Section M.
Context {K V : Type} (eqb : K -> K -> bool) (eqb_eq : forall a b, eqb a b = true <-> a = b).
Lemma eq_refl_b k : eqb k k = true. Proof. now apply eqb_eq. Qed.
Lemma f_find_assign k v (m : list (K * V)) j : f_find eqb j (f_assign eqb k v m) = if eqb k j then match f_find eqb k m with Some _ => Some v | None => None end else f_find eqb j m.
Proof.
  induction m as [|[k' x] m IH]; cbn [f_find f_assign]; [destruct (eqb k j); reflexivity|]. destruct (eqb k' k) eqn:E.
  - apply eqb_eq in E. subst k'. cbn [f_find]. destruct (eqb k j); reflexivity.
  - cbn [f_find]. destruct (eqb k' j) eqn:J; [|exact IH]. destruct (eqb k j) eqn:L; [|reflexivity].
    apply eqb_eq in J, L. subst. rewrite eq_refl_b in E. discriminate.
Qed.
Lemma f_find_app j (m1 m2 : list (K * V)) : f_find eqb j (m1 ++ m2) = match f_find eqb j m1 with Some v => Some v | None => f_find eqb j m2 end.
Proof. induction m1 as [|[k v] m1 IH]; cbn [f_find app]; [reflexivity|]. destruct (eqb k j); [reflexivity|exact IH]. Qed.
Lemma f_find_put k v (m : list (K * V)) j : f_find eqb j (f_put eqb k v m) = if eqb k j then Some v else f_find eqb j m.
Proof.
  unfold f_put. destruct (f_find eqb k m) as [x|] eqn:E.
  - rewrite f_find_assign, E. destruct (eqb k j); reflexivity.
  - rewrite f_find_app. cbn [f_find]. destruct (eqb k j) eqn:J; [apply eqb_eq in J; subst; now rewrite E|]. destruct (f_find eqb j m); reflexivity.
Qed.
Lemma f_find_emplace k v (m : list (K * V)) j : f_find eqb j (f_emplace eqb k v m) = match f_find eqb j m with Some x => Some x | None => if eqb k j then Some v else None end.
Proof.
  unfold f_emplace. destruct (f_find eqb k m) as [x|] eqn:E.
  - destruct (f_find eqb j m) eqn:J; [reflexivity|]. destruct (eqb k j) eqn:L; [apply eqb_eq in L; congruence|reflexivity].
  - rewrite f_find_app. reflexivity.
Qed.
Lemma f_find_none k (m : list (K * V)) : f_find eqb k m = None <-> ~ In k (map fst m).
Proof.
  induction m as [|[k' x] m IH]; cbn [f_find map fst In]; [tauto|]. destruct (eqb k' k) eqn:E.
  - apply eqb_eq in E. split; [discriminate|]. intros H. exfalso. auto.
  - rewrite IH. split; [|tauto]. intros H [->|H1]; [rewrite eq_refl_b in E; discriminate|tauto].
Qed.
Lemma f_find_in k v (m : list (K * V)) : f_find eqb k m = Some v -> In (k, v) m.
Proof. induction m as [|[k' x] m IH]; cbn [f_find]; [discriminate|]. destruct (eqb k' k) eqn:E; [apply eqb_eq in E; intros H; injection H as ->; subst; now left|intros; right; auto]. Qed.
Lemma f_in_find k v (m : list (K * V)) : NoDup (map fst m) -> In (k, v) m -> f_find eqb k m = Some v.
Proof.
  induction m as [|[k' x] m IH]; cbn [f_find map fst In]; [contradiction|]. intros N [H|H]; inversion_clear N.
  - injection H as -> ->. now rewrite eq_refl_b.
  - destruct (eqb k' k) eqn:E; [apply eqb_eq in E; subst; exfalso; apply H0; apply in_map_iff; exists (k, v); auto|auto].
Qed.
Lemma f_erase_incl k (m : list (K * V)) : incl (f_erase eqb k m) m.
Proof. induction m as [|[k' x] m IH]; cbn [f_erase]; [apply incl_refl|]. destruct (eqb k' k); [apply incl_tl, incl_refl|]. intros y [->|H]; [now left|right; auto]. Qed.
Lemma f_erase_nodup k (m : list (K * V)) : NoDup (map fst m) -> NoDup (map fst (f_erase eqb k m)).
Proof.
  induction m as [|[k' x] m IH]; cbn [f_erase map fst]; intros N; [exact N|]. inversion_clear N. destruct (eqb k' k); [assumption|]. cbn [map fst]. constructor; [|auto].
  intros H1. apply H. apply in_map_iff in H1 as (y & <- & Hy). apply in_map. now apply (f_erase_incl k).
Qed.
Lemma f_find_erase k (m : list (K * V)) j : NoDup (map fst m) -> f_find eqb j (f_erase eqb k m) = if eqb k j then None else f_find eqb j m.
Proof.
  induction m as [|[k' x] m IH]; cbn [f_find f_erase map fst]; intros N; [destruct (eqb k j); reflexivity|]. inversion_clear N. destruct (eqb k' k) eqn:E.
  - apply eqb_eq in E. subst k'. destruct (eqb k j) eqn:J; [apply eqb_eq in J; subst; now apply f_find_none|reflexivity].
  - cbn [f_find]. rewrite IH by assumption. destruct (eqb k' j) eqn:J; [|reflexivity]. destruct (eqb k j) eqn:L; [|reflexivity]. apply eqb_eq in J, L. subst. rewrite eq_refl_b in E. discriminate.
Qed.
Lemma f_assign_keys k v (m : list (K * V)) : map fst (f_assign eqb k v m) = map fst m.
Proof. induction m as [|[k' x] m IH]; cbn [f_assign]; [reflexivity|]. destruct (eqb k' k); cbn [map fst]; [reflexivity|now rewrite IH]. Qed.
Lemma f_put_nodup k v (m : list (K * V)) : NoDup (map fst m) -> NoDup (map fst (f_put eqb k v m)).
Proof.
  intros N. unfold f_put. destruct (f_find eqb k m) eqn:E; [now rewrite f_assign_keys|]. rewrite map_app. cbn [map fst]. apply f_find_none in E.
  apply (Permutation_NoDup (l := k :: map fst m)); [apply Permutation_cons_append|now constructor].
Qed.
Lemma f_assign_forall (P : K * V -> Prop) k v m : (forall k', P (k', v)) -> Forall P m -> Forall P (f_assign eqb k v m).
Proof. intros H F. induction m as [|[k' x] m IH]; cbn [f_assign]; [constructor|]. inversion_clear F. destruct (eqb k' k); constructor; auto. Qed.
Lemma f_put_forall (P : K * V -> Prop) k v m : (forall k', P (k', v)) -> Forall P m -> Forall P (f_put eqb k v m).
Proof. intros H F. unfold f_put. destruct (f_find eqb k m); [now apply f_assign_forall|]. apply Forall_app. split; [exact F|]. constructor; [apply H|constructor]. Qed.
End M.

Notation subs_t := (list (Z * list (identity * subscription))).
Definition sub_in (subs : subs_t) (sym : Z) (a : identity) : option subscription :=
  match f_find Z.eqb sym subs with Some l => f_find id_eqb a l | None => None end.
Definition uniq (subs : subs_t) : Prop := Forall (fun kl : Z * list (identity * subscription) => NoDup (map fst (snd kl))) subs.
Definition due (now : Z) (s : subscription) : bool := negb (w64 (s_start s + s_periodicity s) >? now).
Definition touch (now : Z) (s : subscription) : subscription := if due now s then mk_subscription (s_depth s) now (s_periodicity s) else s.
Lemma Zeqb_eq a b : (a =? b) = true <-> a = b. Proof. lia. Qed.

Section U.
Context (delay : identity -> Z) (now : Z).
Lemma update_keys symbol r trade b l : map fst (fst (update_subscribers delay now symbol r trade b l)) = map fst l.
Proof.
  induction l as [|[a s] l IH]; cbn [update_subscribers]; [reflexivity|]. destruct (update_subscribers delay now symbol r trade b l) as [rest ms]. cbn [fst] in IH.
  destruct (_ >? now); cbn [fst map]; now rewrite IH.
Qed.
Lemma update_find symbol r trade b l a : f_find id_eqb a (fst (update_subscribers delay now symbol r trade b l)) = option_map (touch now) (f_find id_eqb a l).
Proof.
  induction l as [|[c s] l IH]; cbn [update_subscribers]; [reflexivity|]. destruct (update_subscribers delay now symbol r trade b l) as [rest ms]. cbn [fst] in IH.
  cbn [f_find]. destruct (_ >? now) eqn:E; cbn [fst f_find]; destruct (id_eqb c a); try exact IH; cbn [option_map]; unfold touch, due; rewrite E; reflexivity.
Qed.
Lemma update_sends symbol r trade b l a s : f_find id_eqb a l = Some s -> due now s = true ->
  updates a symbol (snd (update_subscribers delay now symbol r trade b l)) <> [].
Proof.
  induction l as [|[c s'] l IH]; cbn [update_subscribers]; [discriminate|]. destruct (update_subscribers delay now symbol r trade b l) as [rest ms]. cbn [snd] in IH.
  cbn [f_find]. intros F D. destruct (id_eqb c a) eqn:C.
  - injection F as ->. unfold due in D. destruct (_ >? now); [discriminate|]. cbn [snd]. unfold updates. cbn [filter]. rewrite C, Z.eqb_refl. discriminate.
  - specialize (IH F D). destruct (_ >? now); cbn [snd]; [exact IH|]. unfold updates. cbn [filter]. rewrite C. cbn [andb]. exact IH.
Qed.
Lemma update_only symbol r trade b l m : In m (snd (update_subscribers delay now symbol r trade b l)) ->
  exists a s, In (a, s) l /\ due now s = true /\ m = MarketData a (w64 (now + delay a)) symbol (if trade then [(rp_limit r, rp_quantity r)] else []) (to_list (ask b)) (to_list (bid b)).
Proof.
  induction l as [|[c s] l IH]; cbn [update_subscribers]; [contradiction|]. destruct (update_subscribers delay now symbol r trade b l) as [rest ms]. cbn [snd] in IH.
  destruct (_ >? now) eqn:E; cbn [snd].
  - intros H. destruct (IH H) as (a & s' & I & D & ->). exists a, s'. split; [now right|auto].
  - intros [<-|H]; [exists c, s; split; [now left|]; split; [unfold due; now rewrite E|reflexivity]|]. destruct (IH H) as (a & s' & I & D & ->). exists a, s'. split; [now right|auto].
Qed.

Lemma touch_touch s : touch now (touch now s) = touch now s.
Proof. unfold touch. destruct (due now s) eqn:D; [|now rewrite D]. unfold due. cbn [s_start s_periodicity s_depth]. destruct (_ >? now); reflexivity. Qed.
Lemma updates_app a sym l1 l2 : updates a sym (l1 ++ l2) = updates a sym l1 ++ updates a sym l2.
Proof. unfold updates. apply filter_app. Qed.

(** A subscription stays as it is while it is not due; once due it stays with its period. *)
Definition kept (now' : Z) (s s' : subscription) : Prop := s' = s \/ (due now' s = true /\ s' = mk_subscription (s_depth s) now' (s_periodicity s)).
Lemma send_reports_spec sender o changed b rs : forall subs, uniq subs ->
  let '(subs', ms) := send_reports delay now sender o changed b rs subs in
  uniq subs' /\
  notices (o_symbol o) ms = map (fun r => (rp_owner r, r)) rs /\
  (forall r a t d, In (Execution a t d r) ms -> In r rs /\ a = rp_owner r /\ t = w64 (now + delay sender) /\ d = o) /\
  (forall sym a, match sub_in subs sym a with None => sub_in subs' sym a = None | Some s => exists s', sub_in subs' sym a = Some s' /\ (s' = s \/ s' = touch now s) end) /\
  (forall sym, f_find Z.eqb sym subs = None <-> f_find Z.eqb sym subs' = None) /\
  (forall a sym, updates a sym ms <> [] -> sym = o_symbol o /\ exists s, sub_in subs sym a = Some s /\ (due now s = true \/ due now (touch now s) = true)) /\
  (forall a s, sub_in subs (o_symbol o) a = Some s -> due now s = true -> due now (touch now s) = true ->
     (exists r, In r rs /\ ((is_match r && id_eqb (rp_owner r) sender) || changed) = true) -> updates a (o_symbol o) ms <> []).
Proof.
  induction rs as [|r rs IH]; intros subs U; cbn [send_reports].
  - split; [exact U|]. split; [reflexivity|]. split; [contradiction|]. split.
    { intros sym a. destruct (sub_in subs sym a) eqn:E; [exists s; auto|reflexivity]. }
    split; [tauto|]. split; [intros a sym H; contradiction|]. intros a s _ _ _ (r & [] & _).
  - destruct (match f_find Z.eqb (o_symbol o) subs with Some _ => _ | None => _ end) as [subs' ms] eqn:E.
    (* one report *)
    assert (S1 : uniq subs' /\ notices (o_symbol o) ms = [] /\ (forall a t d r', ~ In (Execution a t d r') ms) /\
      (forall sym a, match sub_in subs sym a with None => sub_in subs' sym a = None | Some s => exists s', sub_in subs' sym a = Some s' /\ (s' = s \/ s' = touch now s) end) /\
      (forall sym, f_find Z.eqb sym subs = None <-> f_find Z.eqb sym subs' = None) /\
      (forall a sym, updates a sym ms <> [] -> sym = o_symbol o /\ exists s, sub_in subs sym a = Some s /\ due now s = true) /\
      (forall a s, sub_in subs (o_symbol o) a = Some s -> due now s = true -> ((is_match r && id_eqb (rp_owner r) sender) || changed) = true -> updates a (o_symbol o) ms <> [])).
    { destruct (f_find Z.eqb (o_symbol o) subs) as [l|] eqn:F.
      - destruct ((is_match r && id_eqb (rp_owner r) sender) || changed) eqn:W.
        + pose proof (update_keys (o_symbol o) r (is_match r) b l) as Kk. pose proof (update_find (o_symbol o) r (is_match r) b l) as Kf.
          pose proof (update_sends (o_symbol o) r (is_match r) b l) as Ks. pose proof (update_only (o_symbol o) r (is_match r) b l) as Ko.
          destruct (update_subscribers delay now (o_symbol o) r (is_match r) b l) as [l' ms']. cbn [fst snd] in *. injection E as <- <-.
          assert (Nl : NoDup (map fst l)) by (unfold uniq in U; rewrite Forall_forall in U; apply (U (o_symbol o, l)); now apply (f_find_in Z.eqb Zeqb_eq)).
          split; [apply f_assign_forall; [intros k'; cbn [snd]; now rewrite Kk|exact U]|].
          assert (X : forall m, In m ms' -> match m with MarketData _ _ _ _ _ _ => True | _ => False end) by (intros m Hm; destruct (Ko m Hm) as (? & ? & _ & _ & ->); exact I).
          split. { clear - X. unfold notices. induction ms' as [|m ms' IHm]; [reflexivity|]. cbn [flat_map]. rewrite IHm by (intros; apply X; now right). specialize (X m (or_introl eq_refl)). destruct m; [contradiction|reflexivity]. }
          split. { intros a t d r' H. apply X in H. exact H. }
          split. { intros sym a. unfold sub_in. rewrite (f_find_assign Z.eqb Zeqb_eq), F. destruct (Z.eqb_spec (o_symbol o) sym) as [<-|Ne].
            - rewrite F, Kf. destruct (f_find id_eqb a l); cbn [option_map]; [eexists; split; [reflexivity|now right]|reflexivity].
            - destruct (f_find Z.eqb sym subs); [|reflexivity]. destruct (f_find id_eqb a l0); [eexists; split; [reflexivity|now left]|reflexivity]. }
          split. { intros sym. rewrite (f_find_assign Z.eqb Zeqb_eq), F. destruct (Z.eqb_spec (o_symbol o) sym) as [<-|Ne]; [rewrite F; split; discriminate|tauto]. }
          split. { intros a sym H. unfold updates in H. destruct (filter _ ms') as [|m q] eqn:Q; [contradiction|]. assert (Hm : In m (m :: q)) by now left. rewrite <- Q in Hm. apply filter_In in Hm as [Hm Hb].
            destruct (Ko m Hm) as (c & s & I1 & D & ->). apply andb_true_iff in Hb as [H1 H2]. apply id_eqb_eq in H1. apply Zeqb_eq in H2. subst. split; [reflexivity|]. exists s.
            unfold sub_in. rewrite F. split; [|exact D]. apply f_in_find; [apply id_eqb_eq|exact Nl|exact I1]. }
          intros a s Hs D _. unfold sub_in in Hs. rewrite F in Hs. exact (Ks a s Hs D).
        + injection E as <- <-. split; [exact U|]. split; [reflexivity|]. split; [intros; intros []|]. split. { intros sym a. destruct (sub_in subs sym a); [eexists; split; [reflexivity|now left]|reflexivity]. }
          split; [tauto|]. split; [intros a sym H; contradiction|]. discriminate.
      - injection E as <- <-. split; [exact U|]. split; [reflexivity|]. split; [intros; intros []|]. split. { intros sym a. destruct (sub_in subs sym a); [eexists; split; [reflexivity|now left]|reflexivity]. }
        split; [tauto|]. split; [intros a sym H; contradiction|]. intros a s Hs. unfold sub_in in Hs. rewrite F in Hs. discriminate. }
    destruct S1 as (U1 & N1 & E1 & K1 & F1 & O1 & W1). specialize (IH subs' U1).
    destruct (send_reports delay now sender o changed b rs subs') as [subs'' ms'] eqn:R. destruct IH as (U2 & N2 & E2 & K2 & F2 & O2 & W2).
    split; [exact U2|]. split. { unfold notices in *. cbn [flat_map]. rewrite Z.eqb_refl, flat_map_app, N1, N2. reflexivity. }
    split. { intros r' a t d [H|H].
      - injection H as <- <- <- <-. split; [now left|auto].
      - apply in_app_or in H as [H|H]; [exfalso; eapply E1; exact H|]. destruct (E2 _ _ _ _ H) as (I & ?). split; [now right|assumption]. }
    split. { intros sym a. specialize (K1 sym a). specialize (K2 sym a). destruct (sub_in subs sym a) as [s|].
      - destruct K1 as (s1 & Hs1 & C1). rewrite Hs1 in K2. destruct K2 as (s2 & Hs2 & C2). exists s2. split; [exact Hs2|].
        destruct C1 as [->| ->], C2 as [->| ->]; auto. right. apply touch_touch.
      - rewrite K1 in K2. exact K2. }
    split. { intros sym. rewrite F1. apply F2. }
    split. { intros a sym H. change (Execution (rp_owner r) (w64 (now + delay sender)) o r :: ms ++ ms') with ([Execution (rp_owner r) (w64 (now + delay sender)) o r] ++ ms ++ ms') in H.
      rewrite !updates_app in H. cbn [updates filter app] in H. destruct (updates a sym ms) eqn:Q.
      - cbn [app] in H. destruct (O2 a sym H) as (E0 & s & Hs & D). split; [exact E0|]. specialize (K1 sym a). destruct (sub_in subs sym a) as [s0|]; [|congruence].
        destruct K1 as (s1 & Hs1 & C). rewrite Hs1 in Hs. injection Hs as <-. exists s0. split; [reflexivity|]. destruct C as [->| ->]; [exact D|]. rewrite touch_touch in D. tauto.
      - destruct (O1 a sym) as (E0 & s & Hs & D); [rewrite Q; discriminate|]. split; [exact E0|]. exists s. auto. }
    intros a s Hs D D' (r' & I & W). change (Execution (rp_owner r) (w64 (now + delay sender)) o r :: ms ++ ms') with ([Execution (rp_owner r) (w64 (now + delay sender)) o r] ++ ms ++ ms').
    rewrite !updates_app. cbn [updates filter app]. destruct I as [->|I].
    + specialize (W1 a s Hs D W). destruct (updates a (o_symbol o) ms); [contradiction|discriminate].
    + specialize (K1 (o_symbol o) a). rewrite Hs in K1. destruct K1 as (s1 & Hs1 & C).
      assert (Q : updates a (o_symbol o) ms' <> []).
      { apply (W2 a s1 Hs1); [destruct C as [->| ->]; assumption|destruct C as [->| ->]; rewrite ?touch_touch; assumption|exists r'; auto]. }
      destruct (updates a (o_symbol o) ms); [exact Q|discriminate].
Qed.
End U.

(** ** Subscriptions over histories *)
Lemma request_uniq now b type depth is : forall subs subs', uniq subs -> request_all now b type depth is subs = Ret subs' -> uniq subs'.
Proof.
  induction is as [|i is IH]; intros subs subs' U H; cbn [request_all] in H; [injection H as <-; exact U|].
  destruct (request_one now b type depth i subs) as [s1| |] eqn:E; try discriminate. apply (IH s1 subs'); [|exact H]. clear IH H.
  assert (G : forall l, f_find Z.eqb i subs = Some l -> NoDup (map fst l)).
  { intros l Hl. apply (f_find_in Z.eqb Zeqb_eq) in Hl. unfold uniq in U. rewrite Forall_forall in U. apply (U _ Hl). }
  unfold request_one in E. destruct type.
  - injection E as <-. apply f_put_forall; [|exact U]. intros k'. cbn [snd]. apply (f_put_nodup id_eqb id_eqb_eq). destruct (f_find Z.eqb i subs); [now apply G|constructor].
  - destruct (f_find Z.eqb i subs) as [l|] eqn:F; [|injection E as <-; exact U]. destruct (f_find id_eqb b l); [|discriminate]. injection E as <-.
    apply f_assign_forall; [|exact U]. intros k'. cbn [snd]. apply (f_erase_nodup id_eqb). now apply G.
  - destruct (f_find Z.eqb i subs) as [l|] eqn:F; [|injection E as <-; exact U]. injection E as <-.
    apply f_assign_forall; [|exact U]. intros k'. cbn [snd]. apply (f_put_nodup id_eqb id_eqb_eq). now apply G.
Qed.
Lemma request_other now b type depth a : id_eqb b a = false -> forall is subs subs' sym, uniq subs -> request_all now b type depth is subs = Ret subs' -> sub_in subs' sym a = sub_in subs sym a.
Proof.
  intros Hb. induction is as [|i is IH]; intros subs subs' sym U H; cbn [request_all] in H; [injection H as <-; reflexivity|].
  destruct (request_one now b type depth i subs) as [s1| |] eqn:E; try discriminate.
  assert (U1 : uniq s1) by (apply (request_uniq now b type depth [i] subs s1 U); cbn [request_all]; now rewrite E).
  rewrite (IH s1 subs' sym U1 H). clear IH H.
  assert (G : forall l, f_find Z.eqb i subs = Some l -> NoDup (map fst l)).
  { intros l Hl. apply (f_find_in Z.eqb Zeqb_eq) in Hl. unfold uniq in U. rewrite Forall_forall in U. apply (U _ Hl). }
  unfold request_one in E. unfold sub_in. destruct type.
  - injection E as <-. rewrite (f_find_put Z.eqb Zeqb_eq). destruct (Z.eqb_spec i sym) as [<-|]; [|reflexivity]. rewrite (f_find_put id_eqb id_eqb_eq), Hb.
    destruct (f_find Z.eqb i subs); reflexivity.
  - destruct (f_find Z.eqb i subs) as [l|] eqn:F; [|injection E as <-; reflexivity]. destruct (f_find id_eqb b l); [|discriminate]. injection E as <-.
    rewrite (f_find_assign Z.eqb Zeqb_eq), F. destruct (Z.eqb_spec i sym) as [<-|]; [|reflexivity]. rewrite F, (f_find_erase id_eqb id_eqb_eq), Hb; [reflexivity|now apply G].
  - destruct (f_find Z.eqb i subs) as [l|] eqn:F; [|injection E as <-; reflexivity]. injection E as <-.
    rewrite (f_find_assign Z.eqb Zeqb_eq), F. destruct (Z.eqb_spec i sym) as [<-|]; [|reflexivity]. rewrite F, (f_find_put id_eqb id_eqb_eq), Hb. reflexivity.
Qed.
Lemma subscribed_in x sym a : subscribed x sym a = sub_in (x_subscriptions x) sym a. Proof. reflexivity. Qed.
Lemma option_eqb_eq a b : option_eqb a b = true <-> a = b.
Proof. destruct a, b; cbn; split; intros H; try discriminate; auto; [apply Zeqb_eq in H; congruence|injection H as ->; apply Z.eqb_refl]. Qed.
Lemma handle_spec delay now e x x' ms a sym : uniq (x_subscriptions x) -> handle delay now e x = Ret (x', ms) -> asks_by a e = false ->
  uniq (x_subscriptions x') /\
  match subscribed x sym a with None => subscribed x' sym a = None | Some s => exists s', subscribed x' sym a = Some s' /\ (s' = s \/ s' = touch now s) end /\
  (updates a sym ms <> [] -> exists s, subscribed x sym a = Some s /\ (due now s = true \/ due now (touch now s) = true)) /\
  (forall b o s, e = NewOrder b o -> o_symbol o = sym -> newsworthy x b o -> subscribed x sym a = Some s -> due now s = true -> due now (touch now s) = true -> updates a sym ms <> []).
Proof.
  intros U H Q.
  assert (Same : forall y, x_subscriptions y = x_subscriptions x -> uniq (x_subscriptions y) /\
    match subscribed x sym a with None => subscribed y sym a = None | Some s => exists s', subscribed y sym a = Some s' /\ (s' = s \/ s' = touch now s) end).
  { intros y Ey. split; [now rewrite Ey|]. rewrite ?subscribed_in. rewrite Ey. destruct (sub_in (x_subscriptions x) sym a); [eexists; split; [reflexivity|now left]|reflexivity]. }
  destruct e as [b sup|b|b ty dp is|b o|s i]; cbn [handle] in H.
  - injection H as <- <-. destruct (Same (logon b sup x) eq_refl) as [S1 S2]. split; [exact S1|]. split; [exact S2|]. split; [intros K; contradiction|]. discriminate.
  - injection H as <- <-. destruct (Same (logout b x) eq_refl) as [S1 S2]. split; [exact S1|]. split; [exact S2|]. split; [intros K; contradiction|]. discriminate.
  - cbn [asks_by] in Q. destruct (request_all now b ty dp is (x_subscriptions x)) as [subs| |] eqn:R; try discriminate. injection H as <- <-. rewrite ?subscribed_in. cbn [x_subscriptions].
    split; [exact (request_uniq _ _ _ _ _ _ _ U R)|]. rewrite (request_other _ _ _ _ _ Q _ _ _ sym U R).
    split; [destruct (sub_in (x_subscriptions x) sym a); [eexists; split; [reflexivity|now left]|reflexivity]|]. split; [intros K; contradiction|]. discriminate.
  - unfold insert_order in H. destruct (f_find Z.eqb (o_symbol o) (x_books x)) as [[bk pending]|] eqn:F; [|discriminate].
    destruct (insert bk o) as [bk' new] eqn:I. remember (negb (option_eqb (ask bk) (ask bk') && option_eqb (bid bk) (bid bk'))) as changed.
    pose proof (send_reports_spec delay now b o changed bk' (pending ++ new) (x_subscriptions x) U) as S.
    destruct (send_reports delay now b o changed bk' (pending ++ new) (x_subscriptions x)) as [subs ms0]. injection H as <- <-. cbn [x_subscriptions] in *.
    destruct S as (U' & _ & _ & K & _ & O & W). split; [exact U'|]. rewrite ?subscribed_in. cbn [x_subscriptions]. split; [apply K|]. split; [intros Hu; destruct (O a sym Hu) as [_ ?]; assumption|].
    intros b0 o0 s E Es Nw Hs D D'. injection E as <- <-. subst sym. apply (W a s Hs D D').
    destruct Nw as (bk0 & Eb & Hn). unfold book_of in Eb. rewrite F in Eb. cbn in Eb. injection Eb as <-. rewrite I in Hn.
    destruct Hn as [(r & Ir & Em & Eo)|[Hc Hne]].
    + exists r. split; [apply in_or_app; now right|]. unfold is_match. rewrite Em, Eo. cbn [andb]. assert (id_eqb b b = true) as -> by now apply id_eqb_eq. reflexivity.
    + destruct new as [|r new]; [contradiction|]. exists r. split; [apply in_or_app; right; now left|]. assert (changed = true) as ->; [|apply orb_true_r].
      subst changed. apply negb_true_iff. destruct (option_eqb (ask bk) (ask bk')) eqn:E1; [|reflexivity]. destruct (option_eqb (bid bk) (bid bk')) eqn:E2; [|reflexivity].
      apply option_eqb_eq in E1, E2. exfalso. destruct Hc; congruence.
  - injection H as <- <-. assert (E0 : x_subscriptions (cancel_order s i x) = x_subscriptions x).
    { unfold cancel_order. destruct (f_find Z.eqb s (x_books x)) as [[bk p]|]; [|reflexivity]. destruct (cancel bk i). reflexivity. }
    destruct (Same (cancel_order s i x) E0) as [S1 S2]. split; [exact S1|]. split; [exact S2|]. split; [intros K; contradiction|]. discriminate.
Qed.
Lemma timed_bound h : forall from, timed from h -> from < W64.
Proof. induction h as [|[t e] h IH]; cbn [timed]; intros from H; [exact H|]. destruct H as [H1 H2]. apply IH in H2. lia. Qed.
Definition live (T : Z) (s : subscription) : Prop := 0 <= s_start s <= T /\ (s_periodicity s = 0 \/ (s_periodicity s = W64 - 1 /\ 1 <= s_start s)).
Lemma live_due T now s : live T s -> T <= now < W64 -> due now s = true /\ live now (touch now s) /\ due now (touch now s) = true.
Proof.
  intros [B P] Hn. assert (D : forall u, live now u -> due now u = true).
  { intros u [Bu Pu]. unfold due. apply negb_true_iff. destruct Pu as [-> |[-> P1]].
    - rewrite Z.add_0_r. unfold w64. rewrite Z.mod_small by lia. lia.
    - assert (w64 (s_start u + (W64 - 1)) = s_start u - 1) as ->; [|lia]. unfold w64. symmetry. apply (Z.mod_unique_pos _ _ 1); lia. }
  assert (L : live now s) by (split; [lia|exact P]). split; [now apply D|].
  assert (L' : live now (touch now s)). { unfold touch. rewrite (D s L). split; cbn; [lia|]. destruct P as [->|[-> P1]]; [now left|right; split; [reflexivity|lia]]. }
  auto.
Qed.
Lemma operate_live delay a sym h : forall T x x' ms s, uniq (x_subscriptions x) -> timed T h -> subscribed x sym a = Some s -> live T s ->
  Forall (fun te => asks_by a (snd te) = false) h -> operate delay h x = Ret (x', ms) ->
  uniq (x_subscriptions x') /\ exists s', subscribed x' sym a = Some s' /\ live (fold_left (fun _ te => fst te) h T) s'.
Proof.
  induction h as [|[t e] h IH]; intros T x x' ms s U Ti Hs L F H; cbn [operate] in H.
  - injection H as <- <-. split; [exact U|]. exists s. auto.
  - destruct Ti as [Ti1 Ti2]. inversion_clear F. cbn [snd] in H0. destruct (handle delay t e x) as [[x1 m1]| |] eqn:E; try discriminate.
    destruct (operate delay h x1) as [[x2 m2]| |] eqn:E2; try discriminate. injection H as <- <-.
    destruct (handle_spec delay t e x x1 m1 a sym U E H0) as (U1 & K & _ & _). rewrite Hs in K. destruct K as (s1 & Hs1 & C).
    pose proof (timed_bound _ _ Ti2). destruct (live_due T t s L ltac:(lia)) as (D & L1 & _).
    cbn [fold_left fst]. apply (IH t x1 x2 m2 s1 U1 Ti2 Hs1); [|assumption|exact E2].
    destruct C as [->| ->]; [|exact L1]. destruct L as [B P]. split; [lia|exact P].
Qed.

(** ** Positions *)
Lemma positions_kept delay now e x x' ms : (forall t, In t (x_traded x) -> f_find Z.eqb t (x_positions x) = Some []) -> handle delay now e x = Ret (x', ms) ->
  x_positions x' = x_positions x /\ x_traded x' = x_traded x.
Proof.
  intros P H. destruct e as [b sup|b|b ty dp is|b o|s i]; cbn [handle] in H.
  - injection H as <- <-. split; [|reflexivity]. cbn [logon x_positions]. revert P. generalize (x_positions x) as m. generalize (x_traded x). intros l.
    induction l as [|t l IH]; intros m P; cbn [fold_left]; [reflexivity|]. unfold f_emplace at 2. rewrite (P t (or_introl eq_refl)). apply IH. intros; apply P; now right.
  - injection H as <- <-. split; [|reflexivity]. cbn [logout x_positions]. revert P. generalize (x_positions x) as m. generalize (x_traded x). intros l.
    induction l as [|t l IH]; intros m P; cbn [fold_left]; [reflexivity|]. rewrite (P t (or_introl eq_refl)). cbn [f_find]. apply IH. intros; apply P; now right.
  - destruct (request_all now b ty dp is (x_subscriptions x)); try discriminate. injection H as <- <-. auto.
  - unfold insert_order in H. destruct (f_find Z.eqb (o_symbol o) (x_books x)) as [[bk p]|]; [|discriminate]. destruct (insert bk o) as [b' nw]. destruct (send_reports _ _ _ _ _ _ _ _). injection H as <- <-. auto.
  - injection H as <- <-. unfold cancel_order. destruct (f_find Z.eqb s (x_books x)) as [[bk p]|]; [|auto]. destruct (cancel bk i). auto.
Qed.
Lemma operate_positions delay h : forall x x' ms, (forall t, In t (x_traded x) -> f_find Z.eqb t (x_positions x) = Some []) -> operate delay h x = Ret (x', ms) ->
  x_positions x' = x_positions x.
Proof.
  induction h as [|[t e] h IH]; intros x x' ms P H; cbn [operate] in H; [now injection H as <- <-|].
  destruct (handle delay t e x) as [[x1 m1]| |] eqn:E; try discriminate. destruct (operate delay h x1) as [[x2 m2]| |] eqn:E2; try discriminate. injection H as <- <-.
  destruct (positions_kept _ _ _ _ _ _ P E) as [E3 E4]. rewrite <- E3. apply (IH x1 x2 m2); [|exact E2]. rewrite E3, E4. exact P.
Qed.
Lemma new_positions traded : forall m, (forall t l, f_find Z.eqb t m = Some l -> l = []) -> let m' := fold_left (fun m t => f_emplace Z.eqb t ([] : list (identity * position)) m) traded m in
  (forall t l, f_find Z.eqb t m' = Some l -> l = []) /\ (forall t, In t traded \/ f_find Z.eqb t m <> None -> f_find Z.eqb t m' = Some []).
Proof.
  induction traded as [|t traded IH]; intros m P; cbn [fold_left]; cbv zeta.
  - split; [exact P|]. intros t [[]|H]. destruct (f_find Z.eqb t m) as [l|] eqn:E; [|contradiction]. now rewrite (P t l E).
  - assert (P1 : forall u l, f_find Z.eqb u (f_emplace Z.eqb t [] m) = Some l -> l = []).
    { intros u l. rewrite (f_find_emplace Z.eqb Zeqb_eq). destruct (f_find Z.eqb u m) eqn:E; [intros Q; injection Q as <-; eapply P; exact E|]. destruct (t =? u); [intros Q; now injection Q as <-|discriminate]. }
    destruct (IH _ P1) as [I1 I2]. split; [exact I1|]. intros u H. apply I2. rewrite (f_find_emplace Z.eqb Zeqb_eq). destruct H as [[->|H]|H].
    + right. destruct (f_find Z.eqb u m); [discriminate|]. rewrite Z.eqb_refl. discriminate.
    + now left.
    + right. destruct (f_find Z.eqb u m); [discriminate|contradiction].
Qed.

(** ** Reports *)
Lemma notices_app sym a b : notices sym (a ++ b) = notices sym a ++ notices sym b.
Proof. unfold notices. apply flat_map_app. Qed.
Lemma calls_app sym a b : calls sym (a ++ b) = calls sym a ++ calls sym b.
Proof. unfold calls. apply flat_map_app. Qed.
Lemma handle_reports delay now e x x' ms sym b l : uniq (x_subscriptions x) -> f_find Z.eqb sym (x_books x) = Some (b, l) -> handle delay now e x = Ret (x', ms) ->
  uniq (x_subscriptions x') /\ exists b' l' rs, f_find Z.eqb sym (x_books x') = Some (b', l') /\ run b (calls sym [(now, e)]) = (b', rs) /\
  notices sym ms = map (fun r => (rp_owner r, r)) (map snd (notices sym ms)) /\ l ++ rs = map snd (notices sym ms) ++ l'.
Proof.
  intros U F H. pose proof (handle_spec delay now e x x' ms) as HS.
  assert (Same : x_books x' = x_books x -> ms = [] -> calls sym [(now, e)] = [] -> exists b' l' rs, f_find Z.eqb sym (x_books x') = Some (b', l') /\ run b (calls sym [(now, e)]) = (b', rs) /\
    notices sym ms = map (fun r => (rp_owner r, r)) (map snd (notices sym ms)) /\ l ++ rs = map snd (notices sym ms) ++ l').
  { intros -> -> ->. exists b, l, []. split; [exact F|]. split; [reflexivity|]. split; [reflexivity|]. apply app_nil_r. }
  destruct e as [c sup|c|c ty dp is|c o|s i]; cbn [handle] in H.
  - injection H as <- <-. split; [exact U|]. now apply Same.
  - injection H as <- <-. split; [exact U|]. now apply Same.
  - destruct (request_all now c ty dp is (x_subscriptions x)) as [subs| |] eqn:R; try discriminate. injection H as <- <-. split; [exact (request_uniq _ _ _ _ _ _ _ U R)|]. now apply Same.
  - split; [exact (proj1 (HS [] 0 U H eq_refl))|]. clear HS Same.
    unfold insert_order in H. destruct (f_find Z.eqb (o_symbol o) (x_books x)) as [[bk pending]|] eqn:G; [|discriminate].
    destruct (insert bk o) as [bk' new] eqn:I. remember (negb (option_eqb (ask bk) (ask bk') && option_eqb (bid bk) (bid bk'))) as changed.
    pose proof (send_reports_spec delay now c o changed bk' (pending ++ new) (x_subscriptions x) U) as S.
    destruct (send_reports delay now c o changed bk' (pending ++ new) (x_subscriptions x)) as [subs ms0]. injection H as <- <-. destruct S as (_ & N & E & _).
    cbn [x_books]. rewrite (f_find_assign Z.eqb Zeqb_eq), G. unfold calls. cbn [flat_map snd app]. destruct (Z.eqb_spec (o_symbol o) sym) as [<-|Ne].
    + rewrite G in F. injection F as -> ->. exists bk', [], new. split; [reflexivity|]. cbn [app run step]. rewrite I. split; [now rewrite app_nil_r|]. rewrite N.
      assert (X : forall q : list report, map snd (map (fun r => (rp_owner r, r)) q) = q) by (intros q; rewrite map_map; apply map_id).
      rewrite !X. split; [reflexivity|].
      now rewrite app_nil_r.
    + exists b, l, []. split; [exact F|]. split; [reflexivity|]. assert (notices sym ms0 = []) as ->; [|split; [reflexivity|apply app_nil_r]].
      clear - E Ne. unfold notices. induction ms0 as [|m ms0 IH]; [reflexivity|]. cbn [flat_map]. rewrite IH; [|intros; apply (E r a t d); now right].
      destruct m as [a t d r|]; [|reflexivity]. destruct (E r a t d (or_introl eq_refl)) as (_ & _ & _ & ->). destruct (Z.eqb_spec (o_symbol o) sym); [contradiction|reflexivity].
  - injection H as <- <-. assert (E0 : x_subscriptions (cancel_order s i x) = x_subscriptions x).
    { unfold cancel_order. destruct (f_find Z.eqb s (x_books x)) as [[bk p]|]; [|reflexivity]. destruct (cancel bk i). reflexivity. }
    split; [now rewrite E0|]. unfold calls. cbn [flat_map snd app]. unfold cancel_order. destruct (f_find Z.eqb s (x_books x)) as [[bk p]|] eqn:G.
    + destruct (cancel bk i) as [bk' new] eqn:I. cbn [x_books]. rewrite (f_find_assign Z.eqb Zeqb_eq), G. destruct (Z.eqb_spec s sym) as [<-|Ne].
      * rewrite G in F. injection F as -> ->. exists bk', (l ++ new), new. split; [reflexivity|]. cbn [app run step]. rewrite I, app_nil_r. auto.
      * exists b, l, []. split; [exact F|]. split; [reflexivity|]. split; [reflexivity|]. apply app_nil_r.
    + destruct (Z.eqb_spec s sym) as [<-|Ne]; [congruence|]. exists b, l, []. split; [exact F|]. split; [reflexivity|]. split; [reflexivity|]. apply app_nil_r.
Qed.
Lemma run_app b h1 h2 : run b (h1 ++ h2) = let '(b1, r1) := run b h1 in let '(b2, r2) := run b1 h2 in (b2, r1 ++ r2).
Proof.
  revert b. induction h1 as [|x h1 IH]; intros b; cbn [app run]; [destruct (run b h2); reflexivity|]. destruct (step b x) as [b1 r1]. rewrite IH.
  destruct (run b1 h1) as [b2 r2]. destruct (run b2 h2) as [b3 r3]. now rewrite app_assoc.
Qed.
Lemma operate_reports delay sym h : forall x x' ms b l, uniq (x_subscriptions x) -> f_find Z.eqb sym (x_books x) = Some (b, l) -> operate delay h x = Ret (x', ms) ->
  exists b' l' rs, f_find Z.eqb sym (x_books x') = Some (b', l') /\ run b (calls sym h) = (b', rs) /\
  notices sym ms = map (fun r => (rp_owner r, r)) (map snd (notices sym ms)) /\ l ++ rs = map snd (notices sym ms) ++ l'.
Proof.
  induction h as [|[t e] h IH]; intros x x' ms b l U F H; cbn [operate] in H.
  - injection H as <- <-. exists b, l, []. split; [exact F|]. split; [reflexivity|]. split; [reflexivity|]. apply app_nil_r.
  - destruct (handle delay t e x) as [[x1 m1]| |] eqn:E; try discriminate. destruct (operate delay h x1) as [[x2 m2]| |] eqn:E2; try discriminate. injection H as <- <-.
    destruct (handle_reports delay t e x x1 m1 sym b l U F E) as (U1 & b1 & l1 & r1 & F1 & R1 & N1 & A1). destruct (IH x1 x2 m2 b1 l1 U1 F1 E2) as (b2 & l2 & r2 & F2 & R2 & N2 & A2).
    exists b2, l2, (r1 ++ r2). split; [exact F2|]. change ((t, e) :: h) with ([(t, e)] ++ h). rewrite calls_app, run_app, R1, R2. split; [reflexivity|].
    rewrite notices_app, !map_app, <- N1, <- N2. split; [reflexivity|]. rewrite app_assoc, A1, <- !app_assoc. now rewrite A2.
Qed.

Lemma handle_uniq delay now e x x' ms : uniq (x_subscriptions x) -> handle delay now e x = Ret (x', ms) -> uniq (x_subscriptions x').
Proof.
  intros U H. destruct e as [b sup|b|b ty dp is|b o|s i]; try (eapply (proj1 (handle_spec delay now _ x x' ms [] 0 U H eq_refl))).
  cbn [handle] in H. destruct (request_all now b ty dp is (x_subscriptions x)) as [subs| |] eqn:R; try discriminate. injection H as <- <-. exact (request_uniq _ _ _ _ _ _ _ U R).
Qed.
Lemma operate_uniq delay h : forall x x' ms, uniq (x_subscriptions x) -> operate delay h x = Ret (x', ms) -> uniq (x_subscriptions x').
Proof.
  induction h as [|[t e] h IH]; intros x x' ms U H; cbn [operate] in H; [now injection H as <- <-|].
  destruct (handle delay t e x) as [[x1 m1]| |] eqn:E; try discriminate. destruct (operate delay h x1) as [[x2 m2]| |] eqn:E2; try discriminate. injection H as <- <-.
  eapply IH; [|exact E2]. eapply handle_uniq; [exact U|exact E].
Qed.
Lemma new_uniq traded books : uniq (x_subscriptions (new_exchange traded books)). Proof. constructor. Qed.
Lemma timed_app h1 t e : forall from, timed from (h1 ++ [(t, e)]) -> timed from h1 /\ fold_left (fun _ te => fst te) h1 from <= t < W64.
Proof.
  induction h1 as [|[u f] h1 IH]; intros from H; cbn [app timed fold_left fst] in *; [lia|]. destruct H as [H1 H2]. destruct (IH u H2) as [I1 I2]. auto.
Qed.
(** Requests by the subscriber: what the last instruments of the list leave. *)
Lemma snapshot_sub now a depth is : forall subs subs' sym, request_all now a Snapshot depth is subs = Ret subs' ->
  sub_in subs' sym a = if existsb (Z.eqb sym) is then Some (mk_subscription depth now (W64 - 1)) else sub_in subs sym a.
Proof.
  induction is as [|i is IH]; intros subs subs' sym H; cbn [request_all request_one existsb] in *; [now injection H as <-|].
  rewrite (IH _ _ sym H). destruct (existsb (Z.eqb sym) is); [now rewrite orb_true_r|]. rewrite orb_false_r. unfold sub_in. rewrite (f_find_put Z.eqb Zeqb_eq).
  rewrite (Z.eqb_sym i sym). destruct (sym =? i); [|reflexivity]. rewrite (f_find_put id_eqb id_eqb_eq). assert (id_eqb a a = true) as -> by now apply id_eqb_eq. reflexivity.
Qed.
Lemma stream_maps now a depth is : forall subs subs' sym, request_all now a Stream depth is subs = Ret subs' -> f_find Z.eqb sym subs <> None -> f_find Z.eqb sym subs' <> None.
Proof.
  induction is as [|i is IH]; intros subs subs' sym H Hn; cbn [request_all request_one] in H; [now injection H as <-|].
  destruct (f_find Z.eqb i subs) as [l|] eqn:F; [|now apply (IH _ _ sym H)]. apply (IH _ _ sym H). rewrite (f_find_assign Z.eqb Zeqb_eq), F. destruct (i =? sym); [discriminate|exact Hn].
Qed.
Lemma stream_sub now a depth is : forall subs subs' sym, request_all now a Stream depth is subs = Ret subs' -> f_find Z.eqb sym subs <> None -> In sym is ->
  sub_in subs' sym a = Some (mk_subscription depth now 0).
Proof.
  assert (G : forall is subs subs' sym, request_all now a Stream depth is subs = Ret subs' -> sub_in subs sym a = Some (mk_subscription depth now 0) -> sub_in subs' sym a = Some (mk_subscription depth now 0)).
  { clear is. induction is as [|i is IH]; intros subs subs' sym H Hs; cbn [request_all request_one] in H; [now injection H as <-|].
    destruct (f_find Z.eqb i subs) as [l|] eqn:F; [|now apply (IH _ _ sym H)]. apply (IH _ _ sym H). unfold sub_in in *. rewrite (f_find_assign Z.eqb Zeqb_eq), F.
    destruct (Z.eqb_spec i sym) as [<-|]; [|exact Hs]. rewrite (f_find_put id_eqb id_eqb_eq). assert (id_eqb a a = true) as -> by now apply id_eqb_eq. reflexivity. }
  induction is as [|i is IH]; intros subs subs' sym H Hn I; [contradiction|]. destruct I as [->|I].
  - cbn [request_all request_one] in H. destruct (f_find Z.eqb sym subs) as [l|] eqn:F; [|contradiction]. apply (G _ _ _ sym H). unfold sub_in. rewrite (f_find_assign Z.eqb Zeqb_eq), F, Z.eqb_refl.
    rewrite (f_find_put id_eqb id_eqb_eq). assert (id_eqb a a = true) as -> by now apply id_eqb_eq. reflexivity.
  - cbn [request_all request_one] in H. destruct (f_find Z.eqb i subs) as [l|] eqn:F; [|now apply (IH _ _ sym H)]. apply (IH _ _ sym H); [|exact I].
    rewrite (f_find_assign Z.eqb Zeqb_eq), F. destruct (i =? sym); [discriminate|exact Hn].
Qed.
(** Once live, every newsworthy order leads to an update. *)
Lemma live_updates delay a sym h t b o x x2 ms2 x3 ms3 s T : uniq (x_subscriptions x) -> subscribed x sym a = Some s -> live T s ->
  timed T (h ++ [(t, NewOrder b o)]) -> Forall (fun te => asks_by a (snd te) = false) h -> operate delay h x = Ret (x2, ms2) ->
  o_symbol o = sym -> newsworthy x2 b o -> handle delay t (NewOrder b o) x2 = Ret (x3, ms3) -> updates a sym ms3 <> [].
Proof.
  intros U Hs L Ti F H Es Nw H3. apply timed_app in Ti as [T1 T2]. destruct (operate_live delay a sym h T x x2 ms2 s U T1 Hs L F H) as (U2 & s2 & Hs2 & L2).
  destruct (live_due _ t s2 L2 T2) as (D & _ & D'). destruct (handle_spec delay t (NewOrder b o) x2 x3 ms3 a sym U2 H3 eq_refl) as (_ & _ & _ & K).
  now apply (K b o s2).
Qed.
(** A subscription that is never due. *)
Lemma never_due delay a sym h : forall x x' ms depth, uniq (x_subscriptions x) -> subscribed x sym a = Some (mk_subscription depth 0 (W64 - 1)) ->
  Forall (fun te => asks_by a (snd te) = false /\ fst te < W64 - 1) h -> operate delay h x = Ret (x', ms) -> updates a sym ms = [].
Proof.
  induction h as [|[t e] h IH]; intros x x' ms depth U Hs F H; cbn [operate] in H; [now injection H as <- <-|].
  destruct (handle delay t e x) as [[x1 m1]| |] eqn:E; try discriminate. destruct (operate delay h x1) as [[x2 m2]| |] eqn:E2; try discriminate. injection H as <- <-.
  inversion_clear F. destruct H as [Q B]. cbn [fst snd] in Q, B. destruct (handle_spec delay t e x x1 m1 a sym U E Q) as (U1 & K & O & _). rewrite Hs in K, O.
  assert (D : due t (mk_subscription depth 0 (W64 - 1)) = false) by (unfold due; cbn [s_start s_periodicity]; unfold w64; rewrite Z.mod_small by (unfold W64; lia); lia).
  assert (Tt : touch t (mk_subscription depth 0 (W64 - 1)) = mk_subscription depth 0 (W64 - 1)) by (unfold touch; now rewrite D).
  rewrite Tt in *. rewrite updates_app. rewrite (IH x1 x2 m2 depth U1); [|destruct K as (s' & K & [->| ->]); exact K|exact H0|exact E2].
  destruct (updates a sym m1) eqn:Em; [reflexivity|]. destruct O as (s & Es & Hd); [discriminate|]. injection Es as <-. rewrite Tt, D in Hd. destruct Hd; discriminate.
Qed.
Lemma no_subscription delay a sym h : forall x x' ms, uniq (x_subscriptions x) -> subscribed x sym a = None ->
  Forall (fun te => asks_by a (snd te) = false) h -> operate delay h x = Ret (x', ms) -> updates a sym ms = [].
Proof.
  induction h as [|[t e] h IH]; intros x x' ms U Hs F H; cbn [operate] in H; [now injection H as <- <-|].
  destruct (handle delay t e x) as [[x1 m1]| |] eqn:E; try discriminate. destruct (operate delay h x1) as [[x2 m2]| |] eqn:E2; try discriminate. injection H as <- <-.
  inversion_clear F. cbn [snd] in H. destruct (handle_spec delay t e x x1 m1 a sym U E H) as (U1 & K & O & _). rewrite Hs in K, O.
  rewrite updates_app, (IH x1 x2 m2 U1 K H0 E2). destruct (updates a sym m1); [reflexivity|]. destruct O as (s & Es & _); discriminate.
Qed.
Lemma handle_map delay now e x x' ms sym : uniq (x_subscriptions x) -> f_find Z.eqb sym (x_subscriptions x) = None -> handle delay now e x = Ret (x', ms) ->
  (forall b d is, e = Request b Snapshot d is -> ~ In sym is) -> f_find Z.eqb sym (x_subscriptions x') = None /\ forall a, updates a sym ms = [].
Proof.
  intros U F H Ns. destruct e as [b sup|b|b ty dp is|b o|s i]; cbn [handle] in H.
  - injection H as <- <-. auto.
  - injection H as <- <-. auto.
  - destruct (request_all now b ty dp is (x_subscriptions x)) as [subs| |] eqn:R; try discriminate. injection H as <- <-. split; [|reflexivity]. cbn [x_subscriptions].
    clear U. revert R F Ns. generalize (x_subscriptions x). induction is as [|i is IH]; intros l R F Ns; cbn [request_all] in R; [now injection R as <-|].
    destruct (request_one now b ty dp i l) as [l1| |] eqn:E1; try discriminate. apply (IH l1 R).
    + unfold request_one in E1. destruct ty.
      * injection E1 as <-. rewrite (f_find_put Z.eqb Zeqb_eq). destruct (Z.eqb_spec i sym) as [->|]; [|exact F]. exfalso. apply (Ns b dp (sym :: is) eq_refl). now left.
      * destruct (f_find Z.eqb i l) as [q|] eqn:Fi; [|now injection E1 as <-]. destruct (f_find id_eqb b q); [|discriminate]. injection E1 as <-. rewrite (f_find_assign Z.eqb Zeqb_eq), Fi.
        destruct (Z.eqb_spec i sym) as [->|]; [congruence|exact F].
      * destruct (f_find Z.eqb i l) as [q|] eqn:Fi; [|now injection E1 as <-]. injection E1 as <-. rewrite (f_find_assign Z.eqb Zeqb_eq), Fi.
        destruct (Z.eqb_spec i sym) as [->|]; [congruence|exact F].
    + intros b0 d0 is0 E0. injection E0 as -> -> -> ->. intros I. apply (Ns b0 d0 (i :: is0) eq_refl). now right.
  - unfold insert_order in H. destruct (f_find Z.eqb (o_symbol o) (x_books x)) as [[bk pending]|] eqn:G; [|discriminate].
    destruct (insert bk o) as [bk' new] eqn:I. remember (negb (option_eqb (ask bk) (ask bk') && option_eqb (bid bk) (bid bk'))) as changed.
    pose proof (send_reports_spec delay now b o changed bk' (pending ++ new) (x_subscriptions x) U) as S.
    destruct (send_reports delay now b o changed bk' (pending ++ new) (x_subscriptions x)) as [subs ms0]. injection H as <- <-. destruct S as (_ & _ & _ & _ & M & O & _).
    cbn [x_subscriptions]. split; [now apply M|]. intros a. destruct (updates a sym ms0) eqn:Em; [reflexivity|]. destruct (O a sym) as (_ & s & Hs & _); [rewrite Em; discriminate|].
    unfold sub_in in Hs. rewrite F in Hs. discriminate.
  - injection H as <- <-. split; [|reflexivity]. unfold cancel_order. destruct (f_find Z.eqb s (x_books x)) as [[bk p]|]; [|exact F]. destruct (cancel bk i). exact F.
Qed.
