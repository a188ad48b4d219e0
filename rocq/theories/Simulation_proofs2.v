From Verif Require Import Base Identity Identity_proofs Quantity Quantity_spec Quantity_proofs IdMap IdMap_proofs Multimap Multimap_proofs
  Communicator Simulation Simulation_spec Simulation_proofs.
From Coq Require Import ZifyBool ZifyNat.

Section Rounds.
Context {St : Type}.
Context (hash : identity -> Z) (shuffle : seed -> list message -> list message).
Implicit Types (w : world St) (a : agent St) (p : @progress St).
Notation run_part := (run_part hash shuffle).
Notation run_parts := (run_parts hash shuffle).

Definition target (x : part) : identity := match x with Handle i | Schedule i | Trim i => i end.
Definition lview : Type := option (agent St) * option Z * option Z.
Definition view (i : identity) p : lview := (im_find i (agents (p_world p)), im_find i (wake_up_times (p_world p)), im_find i (p_pending p)).
Definition lpart (lower upper n sample : Z) (x : part) (v : lview) : outcome lview :=
  let '(ag, wk, pd) := v in
  match x with
  | Handle i =>
      match ag with
      | None => UB
      | Some a => match handle shuffle a lower upper (seed_of hash i lower n sample) with
                  | Ret (o, t) => Ret (Some (with_own a o), wk, Some t)
                  | Throw => Throw
                  | UB => UB
                  end
      end
  | Schedule i => match pd with None => UB | Some t => if t <? lower then Throw else Ret (ag, Some t, pd) end
  | Trim i => match ag with None => UB | Some a => Ret (Some (with_inbox a (keep_future lower (ag_inbox a))), wk, pd) end
  end.
Fixpoint lparts (lower upper n sample : Z) (xs : list part) (v : lview) : outcome lview :=
  match xs with
  | [] => Ret v
  | x :: xs' => match lpart lower upper n sample x v with Ret v' => lparts lower upper n sample xs' v' | Throw => Throw | UB => UB end
  end.
Definition sorted_progress p : Prop := sorted_world (p_world p) /\ im_sorted (p_pending p).
Definition same_frame p p' : Prop :=
  map fst (agents (p_world p')) = map fst (agents (p_world p)) /\ w_end (p_world p') = w_end (p_world p) /\ w_sample (p_world p') = w_sample (p_world p).

Lemma run_part_view lower upper n p x : sorted_progress p ->
  match lpart lower upper n (w_sample (p_world p)) x (view (target x) p) with
  | Ret v => exists p', run_part lower upper n p x = Ret p' /\ sorted_progress p' /\ same_frame p p' /\
      view (target x) p' = v /\ forall j, j <> target x -> view j p' = view j p
  | Throw => run_part lower upper n p x = Throw
  | UB => run_part lower upper n p x = UB
  end.
Proof.
  intros [[Ha Hw] Hp]. unfold view. destruct x as [i|i|i]; cbn [target lpart Simulation.run_part].
  - destruct (im_find i (agents (p_world p))) as [a|] eqn:E; [|reflexivity].
    destruct (handle shuffle a lower upper (seed_of hash i lower n (w_sample (p_world p)))) as [[o t]| |] eqn:Eh; [|reflexivity|reflexivity].
    eexists. split; [reflexivity|]. cbn. split; [repeat split; cbn; auto using im_set_sorted|].
    split; [repeat split; cbn; apply im_set_keys; [exact Ha|congruence]|].
    split; [now rewrite !im_find_set, id_eqb_refl by assumption|].
    intros j Hj. rewrite !im_find_set by assumption. rewrite id_eqb_neq by congruence. reflexivity.
  - destruct (im_find i (p_pending p)) as [t|] eqn:E; [|reflexivity]. destruct (t <? lower); [reflexivity|].
    eexists. split; [reflexivity|]. cbn. split; [repeat split; cbn; auto using im_set_sorted|].
    split; [repeat split|].
    split; [now rewrite im_find_set, id_eqb_refl, E by assumption|].
    intros j Hj. rewrite im_find_set by assumption. rewrite id_eqb_neq by congruence. reflexivity.
  - destruct (im_find i (agents (p_world p))) as [a|] eqn:E; [|reflexivity].
    eexists. split; [reflexivity|]. cbn. split; [repeat split; cbn; auto using im_set_sorted|].
    split; [repeat split; cbn; apply im_set_keys; [exact Ha|congruence]|].
    split; [now rewrite im_find_set, id_eqb_refl by assumption|].
    intros j Hj. rewrite im_find_set by assumption. rewrite id_eqb_neq by congruence. reflexivity.
Qed.
Definition proj (i : identity) (xs : list part) : list part := filter (fun x => id_eqb (target x) i) xs.
Lemma same_frame_trans p q r : same_frame p q -> same_frame q r -> same_frame p r.
Proof. unfold same_frame. intuition congruence. Qed.
Lemma run_parts_views lower upper n xs : forall p p', sorted_progress p -> run_parts lower upper n p xs = Ret p' ->
  sorted_progress p' /\ same_frame p p' /\ forall i, lparts lower upper n (w_sample (p_world p)) (proj i xs) (view i p) = Ret (view i p').
Proof.
  induction xs as [|x xs IH]; intros p p' Hs H; cbn [Simulation.run_parts] in H.
  - injection H as <-. split; [exact Hs|]. split; [repeat split|]. reflexivity.
  - pose proof (run_part_view lower upper n p x Hs) as V.
    destruct (lpart lower upper n (w_sample (p_world p)) x (view (target x) p)) as [v| |] eqn:E; [|rewrite V in H; discriminate|rewrite V in H; discriminate].
    destruct V as (p1 & E1 & S1 & F1 & V1 & O1). rewrite E1 in H. destruct (IH p1 p' S1 H) as (S2 & F2 & V2).
    split; [exact S2|]. split; [eapply same_frame_trans; eauto|]. intros i. cbn [proj filter]. fold (proj i xs).
    destruct F1 as (_ & _ & F1). rewrite F1 in V2.
    destruct (id_eqb (target x) i) eqn:Ei.
    + apply id_eqb_eq in Ei. subst i. cbn [lparts]. rewrite E, <- V1. apply V2.
    + rewrite <- O1; [apply V2|]. intros ->. rewrite id_eqb_refl in Ei. discriminate.
Qed.
Lemma run_parts_total lower upper n xs : forall p, sorted_progress p ->
  (forall i, exists v, lparts lower upper n (w_sample (p_world p)) (proj i xs) (view i p) = Ret v) -> exists p', run_parts lower upper n p xs = Ret p'.
Proof.
  induction xs as [|x xs IH]; intros p Hs H; cbn [Simulation.run_parts]; [eauto|].
  pose proof (run_part_view lower upper n p x Hs) as V. destruct (H (target x)) as (v0 & Hv0). cbn [proj filter] in Hv0. rewrite id_eqb_refl in Hv0. cbn [lparts] in Hv0.
  destruct (lpart lower upper n (w_sample (p_world p)) x (view (target x) p)) as [v| |] eqn:E; [|discriminate|discriminate].
  destruct V as (p1 & E1 & S1 & F1 & V1 & O1). rewrite E1. apply IH; [exact S1|]. destruct F1 as (_ & _ & F1). rewrite F1.
  intros i. destruct (id_eqb (target x) i) eqn:Ei.
  - apply id_eqb_eq in Ei. subst i. rewrite V1. eauto.
  - destruct (H i) as (vi & Hvi). cbn [proj filter] in Hvi. rewrite Ei in Hvi. fold (proj i xs) in Hvi. rewrite O1 by (intros ->; rewrite id_eqb_refl in Ei; discriminate). eauto.
Qed.
(** First event. *)
Definition is_schedule (x : part) : bool := match x with Schedule _ => true | _ => false end.
Lemma next_event_wake (t1 t2 : world St) : wake_up_times t1 = wake_up_times t2 -> w_end t1 = w_end t2 -> determine_next_event t1 = determine_next_event t2.
Proof. unfold determine_next_event. now intros -> ->. Qed.
Lemma run_parts_first lower upper n xs : forall p p', run_parts lower upper n p xs = Ret p' ->
  (p_first p = determine_next_event (p_world p) \/ existsb is_schedule xs = true) -> p_first p' = determine_next_event (p_world p').
Proof.
  induction xs as [|x xs IH]; intros p p' H Hf; cbn [Simulation.run_parts] in H.
  - injection H as <-. destruct Hf; [assumption|discriminate].
  - destruct (run_part lower upper n p x) as [p1| |] eqn:E; [|discriminate|discriminate]. apply (IH p1 p' H).
    destruct x as [i|i|i]; cbn in E, Hf.
    + destruct Hf as [Hf|Hf]; [left|auto]. destruct (im_find i (agents (p_world p))); [|discriminate]. destruct (handle _ _ _ _ _) as [[]| |]; [|discriminate|discriminate]. injection E as <-. cbn. rewrite Hf. now apply next_event_wake.
    + left. destruct (im_find i (p_pending p)); [|discriminate]. destruct (_ <? _); [discriminate|]. injection E as <-. reflexivity.
    + destruct Hf as [Hf|Hf]; [left|auto]. destruct (im_find i (agents (p_world p))); [|discriminate]. injection E as <-. cbn. rewrite Hf. now apply next_event_wake.
Qed.
Lemma progress_ext p1 p2 : sorted_progress p1 -> sorted_progress p2 -> (forall i, view i p1 = view i p2) ->
  w_end (p_world p1) = w_end (p_world p2) -> w_sample (p_world p1) = w_sample (p_world p2) -> p_first p1 = p_first p2 -> p1 = p2.
Proof.
  destruct p1 as [[a1 t1 e1 s1] q1 f1], p2 as [[a2 t2 e2 s2] q2 f2]. intros [[A1 A2] A3] [[B1 B2] B3] V E1 E2 E3. unfold view in V. cbn in *. subst.
  assert (a1 = a2) as -> by (apply im_ext; auto; intros i; specialize (V i); congruence).
  assert (t1 = t2) as -> by (apply im_ext; auto; intros i; specialize (V i); congruence).
  assert (q1 = q2) as -> by (apply im_ext; auto; intros i; specialize (V i); congruence). reflexivity.
Qed.
Lemma same_projections lower upper n p xs ys : sorted_progress p -> (forall i, proj i xs = proj i ys) ->
  (p_first p = determine_next_event (p_world p) \/ (existsb is_schedule xs = true /\ existsb is_schedule ys = true)) ->
  forall p', run_parts lower upper n p xs = Ret p' -> run_parts lower upper n p ys = Ret p'.
Proof.
  intros Hs Hp Hf p' H. destruct (run_parts_views lower upper n xs p p' Hs H) as (S1 & F1 & V1).
  destruct (run_parts_total lower upper n ys p Hs) as (p2 & E2). { intros i. rewrite <- Hp. eauto. }
  destruct (run_parts_views lower upper n ys p p2 Hs E2) as (S2 & F2 & V2). rewrite E2. f_equal. apply progress_ext; auto.
  - intros i. specialize (V1 i). specialize (V2 i). rewrite Hp in V1. congruence.
  - unfold same_frame in *. intuition congruence.
  - unfold same_frame in *. intuition congruence.
  - rewrite (run_parts_first _ _ _ _ _ _ E2), (run_parts_first _ _ _ _ _ _ H) by tauto. apply next_event_wake.
    + destruct S1 as [[_ A] _], S2 as [[_ B] _]. apply im_ext; auto. intros i. specialize (V1 i). specialize (V2 i). rewrite Hp in V1. unfold view in *. congruence.
    + unfold same_frame in *. intuition congruence.
Qed.

(** *** Projections of the jobs. *)
Lemma proj_job i j : proj i (job j) = if id_eqb j i then job i else [].
Proof. unfold proj, job. cbn. destruct (id_eqb j i) eqn:E; [apply id_eqb_eq in E; now subst|reflexivity]. Qed.
Lemma proj_app i xs ys : proj i (xs ++ ys) = proj i xs ++ proj i ys.
Proof. apply filter_app. Qed.
Lemma proj_jobs i l : NoDup l -> proj i (flat_map job l) = if is_in l i then job i else [].
Proof.
  induction 1 as [|j l Hn Hnd IH]; cbn [flat_map]; [reflexivity|]. rewrite proj_app, IH, proj_job. unfold is_in in *. cbn [existsb].
  destruct (id_eqb j i) eqn:E; cbn [orb]; [|reflexivity]. apply id_eqb_eq in E. subst j.
  destruct (existsb (fun j => id_eqb j i) l) eqn:X; [exfalso; apply Hn; apply is_in_iff; exact X|reflexivity].
Qed.
Lemma proj_jobs_notin i l : ~ In i l -> proj i (flat_map job l) = [].
Proof.
  induction l as [|j l IH]; cbn [flat_map]; [reflexivity|]. intros H. rewrite proj_app, proj_job, IH by (intros X; apply H; right; exact X).
  rewrite id_eqb_neq; [reflexivity|]. intros ->. apply H. left. reflexivity.
Qed.
Definition solo (i : identity) (ts : list (list part)) : Prop :=
  exists l1 t l2, ts = l1 ++ t :: l2 /\ Forall (fun t => proj i t = []) l1 /\ Forall (fun t => proj i t = []) l2.
Lemma proj_concat_nil i ts : Forall (fun t => proj i t = []) ts -> proj i (concat ts) = [].
Proof. induction 1 as [|t ts H Hf IH]; cbn [concat]; [reflexivity|]. now rewrite proj_app, H, IH. Qed.
Lemma proj_concat_eq i (a : list (list part)) x t b : (proj i [x] = [] \/ Forall (fun t => proj i t = []) a) ->
  proj i (concat (a ++ (x :: t) :: b)) = proj i [x] ++ proj i (concat (a ++ t :: b)).
Proof.
  intros H. rewrite !concat_app. cbn [concat]. change (x :: t) with ([x] ++ t). rewrite <- app_assoc. rewrite !proj_app.
  destruct H as [->|H]; [reflexivity|]. now rewrite (proj_concat_nil i a H).
Qed.
Lemma app_cons_cases {X} (a b c d : list X) x y : a ++ x :: b = c ++ y :: d ->
  (a = c /\ x = y /\ b = d) \/ (exists m, a = c ++ y :: m /\ d = m ++ x :: b) \/ (exists m, c = a ++ x :: m /\ b = m ++ y :: d).
Proof.
  revert c. induction a as [|u a IH]; intros [|v c] H; cbn in *.
  - injection H as -> ->. auto.
  - injection H as -> ->. right. right. exists c. auto.
  - injection H as -> <-. right. left. exists a. auto.
  - injection H as -> H. destruct (IH c H) as [(-> & -> & ->)|[(m & -> & ->)|(m & -> & ->)]]; [auto| |]; right; [left|right]; exists m; auto.
Qed.
Lemma solo_step i (a : list (list part)) x t b : solo i (a ++ (x :: t) :: b) ->
  (proj i [x] = [] \/ Forall (fun t => proj i t = []) a) /\ solo i (a ++ t :: b).
Proof.
  intros (l1 & s & l2 & E & H1 & H2). apply app_cons_cases in E. destruct E as [(-> & <- & ->)|[(m & -> & ->)|(m & -> & ->)]].
  - split; [auto|]. exists l1, t, l2. auto.
  - apply Forall_app in H2. destruct H2 as [Hm H2]. inversion H2 as [|? ? Hx Hb]; subst.
    change (x :: t) with ([x] ++ t) in Hx. rewrite proj_app in Hx. apply app_eq_nil in Hx. destruct Hx as [Hx Ht]. split; [auto|].
    exists l1, s, (m ++ t :: b). rewrite <- app_assoc. split; [reflexivity|]. split; [exact H1|]. apply Forall_app. split; [exact Hm|constructor; assumption].
  - apply Forall_app in H1. destruct H1 as [Ha H1]. inversion H1 as [|? ? Hx Hm]; subst.
    change (x :: t) with ([x] ++ t) in Hx. rewrite proj_app in Hx. apply app_eq_nil in Hx. destruct Hx as [Hx Ht]. split; [auto|].
    exists (a ++ t :: m), s, l2. rewrite <- app_assoc. split; [reflexivity|]. split; [apply Forall_app; split; [exact Ha|constructor; assumption]|exact H2].
Qed.
Lemma interleaving_proj i ts xs : interleaving ts xs -> solo i ts -> proj i xs = proj i (concat ts).
Proof.
  induction 1 as [ts H|a x t b xs H IH]; intros Hs.
  - symmetry. apply proj_concat_nil. eapply Forall_impl; [|exact H]. now intros t ->.
  - destruct (solo_step _ _ _ _ _ Hs) as [H1 H2]. rewrite proj_concat_eq by exact H1. rewrite <- (IH H2). change (x :: xs) with ([x] ++ xs). apply proj_app.
Qed.
Lemma chunks_solo i chunks : chunks <> [] -> NoDup (concat chunks) -> solo i (map (flat_map job) chunks).
Proof.
  induction chunks as [|c chunks IH]; intros Hn Hnd; [congruence|]. cbn [concat] in Hnd.
  assert (Hd : forall x, In x c -> In x (concat chunks) -> False) by (clear - Hnd; induction c as [|y c IHc]; cbn in *; [contradiction|]; inversion Hnd; subst; intros x [<-|Hx] Hy; [apply H1; apply in_or_app; auto|eapply IHc; eauto]).
  destruct (in_dec (list_eq_dec Z.eq_dec) i c) as [Hi|Hi].
  - exists [], (flat_map job c), (map (flat_map job) chunks). split; [reflexivity|]. split; [constructor|]. apply Forall_map. apply Forall_forall. intros d Hd'. apply proj_jobs_notin.
    intros Hx. apply (Hd i Hi). apply in_concat. eauto.
  - destruct chunks as [|d chunks].
    + exists [], (flat_map job c), []. repeat split; constructor.
    + destruct IH as (l1 & t & l2 & E & H1 & H2); [discriminate| |].
      { clear - Hnd. induction c; cbn in *; [exact Hnd|]. inversion Hnd; subst. auto. }
      exists (flat_map job c :: l1), t, l2. cbn [map]. cbn [map] in E. rewrite E. split; [reflexivity|]. split; [|exact H2]. constructor; [|exact H1]. now apply proj_jobs_notin.
Qed.
Lemma flat_map_concat chunks : flat_map job (concat chunks) = concat (map (flat_map job) chunks).
Proof. induction chunks as [|c cs IH]; cbn; [reflexivity|]. now rewrite flat_map_app, IH. Qed.
Lemma interleaving_in ts xs x : interleaving ts xs -> (In x xs <-> In x (concat ts)).
Proof.
  induction 1 as [ts H|a y t b xs H IH].
  - split; [contradiction|]. intros Hx. apply in_concat in Hx. destruct Hx as (l & Hl & Hx). rewrite Forall_forall in H. rewrite (H l Hl) in Hx. exact Hx.
  - cbn [In]. rewrite IH. rewrite !concat_app. cbn [concat]. rewrite !in_app_iff. cbn [In]. tauto.
Qed.
Lemma existsb_in {X} (f : X -> bool) l1 l2 : (forall x, In x l1 <-> In x l2) -> existsb f l1 = existsb f l2.
Proof.
  intros H. destruct (existsb f l2) eqn:E.
  - apply existsb_exists in E. destruct E as (x & Hx & Hf). apply existsb_exists. exists x. split; [now apply H|exact Hf].
  - destruct (existsb f l1) eqn:E1; [|reflexivity]. apply existsb_exists in E1. destruct E1 as (x & Hx & Hf). rewrite <- E. symmetry. apply existsb_exists. exists x. split; [now apply H|exact Hf].
Qed.
(** *** Chunks. *)
Lemma take_chunks_spec sizes l : Forall (fun k => 0 <= k) sizes -> zsum sizes = Z.of_nat (length l) ->
  exists cs, take_chunks sizes l = Ret cs /\ concat cs = l /\ map (fun c => Z.of_nat (length c)) cs = sizes.
Proof.
  revert l. induction sizes as [|k sizes IH]; intros l Hf Hs; cbn [take_chunks].
  - exists []. cbn in *. destruct l; [repeat split|cbn in Hs; lia].
  - inversion Hf; subst. cbn in Hs. fold (zsum sizes) in Hs.
    assert (0 <= zsum sizes) by (clear - H2; induction H2 as [|x l Hx Hl IHl]; cbn; [lia|]; fold (zsum l); lia).
    destruct (Z.ltb_spec (Z.of_nat (length l)) k); [lia|].
    destruct (IH (skipn (Z.to_nat k) l) H2) as (cs & E & C & M). { rewrite skipn_length. lia. }
    rewrite E. exists (firstn (Z.to_nat k) l :: cs). split; [reflexivity|]. cbn [concat map]. rewrite C, firstn_skipn. split; [reflexivity|]. rewrite M, firstn_length. f_equal. lia.
Qed.
Lemma thread_chunks_spec threads l : 1 <= threads -> Z.of_nat (length l) < W64 ->
  exists cs, thread_chunks threads l = Ret cs /\ concat cs = l /\ length cs = Z.to_nat threads /\
    forall i j, (i <= j < Z.to_nat threads)%nat -> (length (nth j cs []) <= length (nth i cs []) <= length (nth j cs []) + 1)%nat.
Proof.
  intros Ht Hl. unfold thread_chunks. destruct (split_fair (Z.of_nat (length l)) threads) as (parts & E & _ & (F1 & F2 & F3 & F4)); [split; [lia|exact Hl]|exact Ht|].
  rewrite E. destruct (take_chunks_spec parts l) as (cs & Ec & C & M); [apply Forall_forall; exact F3|exact F2|].
  exists cs. split; [exact Ec|]. split; [exact C|]. split; [rewrite <- F1, <- M; symmetry; apply map_length|].
  assert (N : forall k, nth k parts 0 = Z.of_nat (length (nth k cs []))).
  { intros k. rewrite <- M. exact (map_nth (fun c : list identity => Z.of_nat (length c)) cs [] k). }
  intros i j Hij. specialize (F4 i j Hij). rewrite !N in F4. lia.
Qed.
End Rounds.
