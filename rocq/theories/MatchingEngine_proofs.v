From Verif Require Import Base Identity Identity_proofs Money Money_spec Money_proofs BinaryBook MatchingEngine MatchingEngine_spec.

Definition klt (x y : ticker * shelf) : Prop := tk_ltb (fst x) (fst y) = true.
Lemma tk_irrefl x : tk_ltb x x = false. Proof. apply tk_total. Qed.
Lemma tk_trans x y z : tk_ltb x y = true -> tk_ltb y z = true -> tk_ltb x z = true. Proof. apply tk_total. Qed.
Lemma tk_tri x y : tk_ltb x y = true \/ x = y \/ tk_ltb y x = true. Proof. apply tk_total. Qed.
Lemma tk_asym x y : tk_ltb x y = true -> tk_ltb y x = false.
Proof. intros H. destruct (tk_ltb y x) eqn:E; [|reflexivity]. pose proof (tk_trans _ _ _ H E) as C. rewrite tk_irrefl in C. discriminate. Qed.

Lemma find_modify_same t f e : find t (modify t f e) = option_map f (find t e).
Proof.
  induction e as [|[k x] e IH]; cbn; [reflexivity|]. destruct (tk_ltb k t) eqn:E; [cbn; rewrite E; exact IH|].
  destruct (tk_ltb t k) eqn:F; cbn; rewrite E, F; reflexivity.
Qed.
Lemma find_modify_other t t' f e : t <> t' -> find t' (modify t f e) = find t' e.
Proof.
  intros Hn. induction e as [|[k x] e IH]; cbn; [reflexivity|]. destruct (tk_ltb k t) eqn:E; [cbn; destruct (tk_ltb k t'), (tk_ltb t' k); auto|].
  destruct (tk_ltb t k) eqn:F; cbn; [reflexivity|]. destruct (tk_tri k t) as [G|[->|G]]; [congruence| |congruence].
  destruct (tk_tri t t') as [G|[G|G]]; [| congruence|].
  - rewrite G. reflexivity.
  - rewrite (tk_asym _ _ G), G. reflexivity.
Qed.
Lemma find_emplace_same t s e : find t e = None -> find t (emplace t s e) = Some s.
Proof.
  induction e as [|[k x] e IH]; cbn; [intros _; now rewrite tk_irrefl|]. destruct (tk_ltb k t) eqn:E; [cbn; rewrite E; exact IH|].
  destruct (tk_ltb t k) eqn:F; cbn; [intros _; now rewrite tk_irrefl|discriminate].
Qed.
Lemma find_emplace_other t t' s e : StronglySorted klt e -> t <> t' -> find t' (emplace t s e) = find t' e.
Proof.
  intros Hs Hn. induction Hs as [|[k x] e Hs IH Hf]; cbn.
  - destruct (tk_tri t t') as [G|[G|G]]; [| congruence|]; rewrite ?G; [reflexivity|]. rewrite (tk_asym _ _ G). reflexivity.
  - destruct (tk_ltb k t) eqn:E; [cbn; rewrite IH; reflexivity|].
    destruct (tk_ltb t k) eqn:F; cbn; [|reflexivity].
    destruct (tk_tri t t') as [G|[G|G]]; [| congruence|].
    + rewrite G. reflexivity.
    + rewrite (tk_asym _ _ G), G. rewrite (tk_asym _ _ (tk_trans _ _ _ G F)). rewrite (tk_trans _ _ _ G F). reflexivity.
Qed.
Lemma emplace_sorted t s e : StronglySorted klt e -> StronglySorted klt (emplace t s e).
Proof.
  intros Hs. induction Hs as [|[k x] e Hs IH Hf]; cbn; [repeat constructor|].
  destruct (tk_ltb k t) eqn:E.
  - constructor; [exact IH|]. clear IH Hs. induction e as [|[k' x'] e IHe]; cbn; [constructor; [exact E|constructor]|].
    inversion Hf; subst. destruct (tk_ltb k' t); [constructor; auto|]. destruct (tk_ltb t k'); [constructor; [exact E|assumption]|assumption].
  - destruct (tk_ltb t k) eqn:F.
    + constructor; [constructor; assumption|]. constructor; [exact F|]. eapply Forall_impl; [|exact Hf]. intros [a b] H. unfold klt in *. cbn in *. eapply tk_trans; eauto.
    + constructor; assumption.
Qed.
Lemma modify_keys t f e : map fst (modify t f e) = map fst e.
Proof. induction e as [|[k x] e IH]; cbn; [reflexivity|]. destruct (tk_ltb k t); [cbn; now rewrite IH|]. destruct (tk_ltb t k); reflexivity. Qed.
Lemma sorted_map e : StronglySorted klt e <-> StronglySorted (fun a b => tk_ltb a b = true) (map fst e).
Proof.
  split.
  - induction 1 as [|x e Hs IH Hf]; cbn; constructor; auto. apply Forall_map. exact Hf.
  - induction e as [|x e IH]; intros H; [constructor|]. inversion H; subst. constructor; auto. apply Forall_map in H3. exact H3.
Qed.
Lemma modify_sorted t f e : StronglySorted klt e -> StronglySorted klt (modify t f e).
Proof. rewrite !sorted_map, modify_keys. auto. Qed.
Lemma step_sorted e x : StronglySorted klt e -> StronglySorted klt (engine_step e x).
Proof.
  intros H. destruct x as [t [o|i]]; unfold engine_step, engine_insert, engine_cancel; cbn.
  - apply modify_sorted. destruct (find t e); [exact H|now apply emplace_sorted].
  - destruct (find t e); [now apply modify_sorted|exact H].
Qed.
Lemma run_sorted h : StronglySorted klt (engine_run h).
Proof.
  unfold engine_run. assert (G : forall e, StronglySorted klt e -> StronglySorted klt (fold_left engine_step h e)); [|apply G; constructor].
  induction h as [|x h IH]; intros e He; cbn; [exact He|]. apply IH. now apply step_sorted.
Qed.

(** One step, observed through [find]. *)
Lemma step_other e t x t' : StronglySorted klt e -> t <> t' -> find t' (engine_step e (t, x)) = find t' e.
Proof.
  intros Hs Hn. destruct x as [o|i]; unfold engine_step, engine_insert, engine_cancel; cbn.
  - rewrite find_modify_other by assumption. destruct (find t e); [reflexivity|now apply find_emplace_other].
  - destruct (find t e); [now apply find_modify_other|reflexivity].
Qed.
Lemma step_same e t x : find t (engine_step e (t, x)) =
  match find t e with
  | Some s => Some (on_book (fun b => step b x) s)
  | None => if is_insert x then Some (on_book (fun b => step b x) (empty_book, [])) else None
  end.
Proof.
  destruct x as [o|i]; unfold engine_step, engine_insert, engine_cancel; cbn.
  - rewrite find_modify_same. destruct (find t e) eqn:E; [rewrite E; reflexivity|]. rewrite find_emplace_same by assumption. reflexivity.
  - destruct (find t e) eqn:E; [rewrite find_modify_same, E; reflexivity|exact E].
Qed.
Lemma run_snoc b h x : run b (h ++ [x]) = let '(b1, r1) := run b h in let '(b2, r2) := step b1 x in (b2, r1 ++ r2).
Proof.
  revert b. induction h as [|y h IH]; intros b; cbn.
  - destruct (step b x). now rewrite app_nil_r.
  - destruct (step b y) as [b1 r1]. rewrite IH. destruct (run b1 h) as [b2 r2]. destruct (step b2 x). now rewrite app_assoc.
Qed.
Lemma isolation h t : find t (engine_run h) =
  if existsb is_insert (addressed t h) then Some (after (addressed t h), reports_of (addressed t h)) else None.
Proof.
  induction h as [|[k x] h IH] using rev_ind; [reflexivity|].
  unfold engine_run in *. rewrite fold_left_app. cbn [fold_left]. fold (engine_run h) in *.
  unfold addressed in *. rewrite filter_app, map_app. cbn [filter fst].
  destruct (tk_eqb k t) eqn:E.
  - apply tk_eqb_eq in E. subst k. cbn [map snd]. rewrite step_same. fold (addressed t h) in *. rewrite IH, existsb_app. cbn [existsb]. rewrite orb_false_r.
    unfold after, reports_of. rewrite run_snoc. destruct (existsb is_insert (addressed t h)) eqn:X.
    + cbn [orb]. f_equal. unfold on_book, after, reports_of. cbn [fst snd]. destruct (run empty_book (addressed t h)) as [b r]. cbn [fst]. destruct (step b x). reflexivity.
    + cbn [orb]. destruct x as [o|i]; [|reflexivity]. cbn [is_insert]. f_equal.
      assert (R : run empty_book (addressed t h) = (empty_book, [])).
      { clear IH. induction (addressed t h) as [|[o'|i] l IHl]; [reflexivity|discriminate X|]. cbn in X |- *. change (cancel empty_book i) with (empty_book, @nil report). rewrite IHl by exact X. reflexivity. }
      rewrite R. unfold on_book. cbn [fst snd]. destruct (step empty_book (Insert o)). reflexivity.
  - cbn [map]. rewrite app_nil_r, <- IH. apply step_other; [apply run_sorted|]. intros ->. assert (tk_eqb t t = true) by now apply tk_eqb_eq. congruence.
Qed.
Lemma cancel_unknown h t i : find t (engine_run h) = None -> engine_run (h ++ [(t, Cancel i)]) = engine_run h.
Proof. intros H. unfold engine_run. rewrite fold_left_app. fold (engine_run h). cbn [fold_left]. unfold engine_step, engine_cancel. cbn [fst snd]. now rewrite H. Qed.
Lemma keys_nodup h : NoDup (map fst (engine_run h)).
Proof.
  pose proof (run_sorted h) as H. apply sorted_map in H. induction H as [|k l Hs IH Hf]; constructor; [|exact IH].
  intros Hi. rewrite Forall_forall in Hf. specialize (Hf _ Hi). rewrite tk_irrefl in Hf. discriminate.
Qed.
