(** Lemmas on the Python interface. *)
From Coq Require Import String SpecFloat.
From Verif Require Import Base Text Interval Identity Identity_proofs IdMap IdMap_proofs Multimap Money Codes Outputs Communicator Simulation Simulation_spec
  Simulation_proofs Simulation_proofs2 Simulation_proofs3 Distributed_proofs Bindings Bindings_spec.
From Coq Require Import ZifyBool ZifyNat.
Local Open Scope Z_scope.

Lemma prefixb_iff pat s : prefixb pat s = true <-> exists b, s = pat ++ b.
Proof.
  revert s. induction pat as [|a pat IH]; intros s; cbn; [split; [eauto|reflexivity]|].
  destruct s as [|c s]; [split; [discriminate|intros (b & H); discriminate]|]. rewrite andb_true_iff, IH, Z.eqb_eq. split.
  - intros (-> & b & ->). eauto.
  - intros (b & H). injection H as -> ->. eauto.
Qed.
Lemma rfind_none pat s : rfind pat s = None <-> ~ occurs pat s.
Proof.
  induction s as [|c s IH]; cbn [rfind].
  - destruct (prefixb pat []) eqn:E.
    + split; [discriminate|]. intros H. exfalso. apply H. apply prefixb_iff in E. destruct E as (b & E). exists [], b. exact E.
    + split; [|reflexivity]. intros _ (a & b & H). destruct a; [|discriminate]. assert (prefixb pat [] = true) by (apply prefixb_iff; exists b; exact H). congruence.
  - destruct (rfind pat s) as [i|] eqn:E.
    + split; [discriminate|]. intros H. exfalso. assert (X : ~ ~ occurs pat s) by (intros X; apply IH in X; discriminate).
      apply X. intros (a & b & ->). apply H. exists (c :: a), b. reflexivity.
    + assert (N : ~ occurs pat s) by (apply IH; reflexivity). destruct (prefixb pat (c :: s)) eqn:P.
      * split; [discriminate|]. intros H. exfalso. apply H. apply prefixb_iff in P. destruct P as (b & P). exists [], b. exact P.
      * split; [|reflexivity]. intros _ (a & b & H). destruct a as [|x a].
        -- assert (prefixb pat (c :: s) = true) by (apply prefixb_iff; exists b; exact H). congruence.
        -- injection H as -> ->. apply N. exists a, b. reflexivity.
Qed.
Lemma rfind_app pat a s i : rfind pat s = Some i -> rfind pat (a ++ s) = Some (length a + i)%nat.
Proof. intros H. induction a as [|c a IH]; cbn [rfind app length]; [exact H|]. rewrite IH. reflexivity. Qed.
Lemma skip_both {X} (a c b : list X) n : n = length c -> skipn (length a + 0 + n) (a ++ c ++ b) = b.
Proof. intros ->. rewrite Nat.add_0_r, app_assoc, <- app_length, skipn_app, Nat.sub_diag, skipn_all. reflexivity. Qed.
Lemma shown_library a b : ~ occurs (codes "esl/") b -> shown_path (a ++ codes "esl/" ++ b) = b.
Proof.
  intros H. unfold shown_path. apply rfind_none in H.
  assert (E : rfind (codes "esl/") (codes "esl/" ++ b) = Some O).
  { change (codes "esl/" ++ b) with (101 :: 115 :: 108 :: 47 :: b). change (codes "esl/") with [101; 115; 108; 47] in *. cbn [rfind]. rewrite H.
    cbn. reflexivity. }
  rewrite (rfind_app _ a _ _ E). now apply skip_both.
Qed.
Lemma shown_other a b : ~ occurs (codes "esl/") (a ++ codes "/" ++ b) -> ~ In 47 b -> shown_path (a ++ codes "/" ++ b) = b.
Proof.
  intros H N. unfold shown_path. apply rfind_none in H. rewrite H.
  assert (B : rfind (codes "/") b = None) by (apply rfind_none; intros (x & y & ->); apply N, in_or_app; right; left; reflexivity).
  assert (E : rfind (codes "/") (codes "/" ++ b) = Some O) by (change (codes "/") with [47] in *; cbn [rfind app]; rewrite B; reflexivity).
  rewrite (rfind_app _ a _ _ E). now apply skip_both.
Qed.
Lemma shown_plain p : ~ In 47 p -> shown_path p = p.
Proof.
  intros N. unfold shown_path. assert (A : rfind (codes "esl/") p = None).
  { apply rfind_none. intros (x & y & ->). apply N. change (codes "esl/") with [101; 115; 108; 47]. apply in_or_app. right. cbn. tauto. }
  assert (B : rfind (codes "/") p = None) by (apply rfind_none; intros (x & y & ->); apply N, in_or_app; right; left; reflexivity).
  now rewrite A, B.
Qed.

Lemma add_constant_spec name v m : im_sorted m ->
  (fits_constant v -> exists p, add_constant name v m = Ret (im_set name p m) /\
     match v with PFloat x | PNumpyFloat x => p = CDouble x | PInt n | PNumpySigned n => p = CInt64 n | PNumpyUnsigned n => p = CUint64 n | PPrice q => p = CPrice q | POther => False end) /\
  (~ fits_constant v -> add_constant name v m = Throw).
Proof.
  intros _. unfold add_constant, make_constant, make_int64, make_uint64, in_i64. destruct v as [x|n|q|n|n|x|]; cbn [fits_constant]; split; intros H; try (exfalso; exact (H I)); try contradiction; eauto.
  - destruct (_ && _) eqn:E; [eauto|lia].
  - destruct (_ && _) eqn:E; [lia|reflexivity].
  - destruct (_ && _) eqn:E; [eauto|lia].
  - destruct (_ && _) eqn:E; [lia|reflexivity].
  - destruct (_ && _) eqn:E; [eauto|lia].
  - destruct (_ && _) eqn:E; [lia|reflexivity].
Qed.
Lemma python_model_iff m t : python_model m = Ret t <-> exists a b c d e,
  unsigned "start" m a /\ unsigned "end" m b /\ unsigned "sample" m c /\ unsigned "verbosity" m d /\ unsigned "threads" m e /\ t = mk_times a b a c d (Z.max 1 e).
Proof.
  unfold python_model, get_u64, unsigned. split.
  - repeat (match goal with |- context[match im_find ?k m with _ => _ end] => destruct (im_find k m) as [[]|]; cbn [bind]; try discriminate end).
    intros [= <-]. repeat eexists.
  - intros (a & b & c & d & e & -> & -> & -> & -> & -> & ->). reflexivity.
Qed.

(** Emplacing a list. *)
Lemma im_find_emplace {V} i (v : V) m j : im_sorted m -> im_find j (im_emplace i v m) =
  match im_find j m with Some x => Some x | None => if id_eqb i j then Some v else None end.
Proof.
  intros S. unfold im_emplace. destruct (im_find i m) eqn:E.
  - destruct (im_find j m) eqn:F; [reflexivity|]. destruct (id_eqb i j) eqn:G; [|reflexivity]. apply id_eqb_eq in G. congruence.
  - rewrite im_find_set by exact S. destruct (id_eqb i j) eqn:G; [|now destruct (im_find j m)]. apply id_eqb_eq in G. subst. now rewrite E.
Qed.
Definition first {V} (j : identity) (l : list (identity * V)) : option V := option_map snd (find (fun e => id_eqb (fst e) j) l).
Lemma first_in {V} j (v : V) l : NoDup (map fst l) -> (first j l = Some v <-> In (j, v) l).
Proof.
  unfold first. induction l as [|[k x] l IH]; intros N; cbn; [split; [discriminate|intros []]|]. inversion N as [|? ? N1 N2]; subst. destruct (id_eqb k j) eqn:E; cbn.
  - apply id_eqb_eq in E. subst k. split; [intros [= <-]; left; reflexivity|]. intros [H|H]; [now injection H as <-|]. exfalso. apply N1. apply in_map_iff. exists (j, v). split; [reflexivity|exact H].
  - rewrite IH by exact N2. split; [tauto|]. intros [H|H]; [|exact H]. injection H as -> _. rewrite id_eqb_refl in E. discriminate.
Qed.
Lemma emplace_fold {V} (d : list (identity * V)) : forall m, im_sorted m -> im_sorted (fold_left (fun m e => im_emplace (fst e) (snd e) m) d m) /\
  forall j, im_find j (fold_left (fun m e => im_emplace (fst e) (snd e) m) d m) = match im_find j m with Some x => Some x | None => first j d end.
Proof.
  induction d as [|[k x] d IH]; intros m S; cbn [fold_left fst snd].
  - split; [exact S|]. intros j. now destruct (im_find j m).
  - destruct (IH _ (im_emplace_sorted k x m S)) as [A B]. split; [exact A|]. intros j. rewrite B, im_find_emplace by exact S. unfold first. cbn [find fst].
    destruct (im_find j m); [reflexivity|]. destruct (id_eqb k j); reflexivity.
Qed.
(** The entries of an answer that convert. *)
Fixpoint converted (to_double : Z -> outcome spec_float) (l : list (pykey * pynumber)) : outcome (list (identity * spec_float)) :=
  match l with
  | [] => Ret []
  | (KProperty i, v) :: l' =>
      match extract_double to_double v with
      | Some (Ret x) => bind (converted to_double l') (fun r => Ret ((i, x) :: r))
      | Some Throw => Throw
      | Some UB => UB
      | None => converted to_double l'
      end
  | (KOther _, _) :: l' => converted to_double l'
  end.
Lemma collect_converted f l : forall m, collect_demand f l m = bind (converted f l) (fun r => Ret (fold_left (fun m e => im_emplace (fst e) (snd e) m) r m)).
Proof.
  induction l as [|[[i|k] v] l IH]; intros m; cbn [collect_demand converted]; [reflexivity| |apply IH].
  destruct (extract_double f v) as [[x| |]|]; [|reflexivity|reflexivity|apply IH]. rewrite IH. destruct (converted f l); reflexivity.
Qed.
Lemma converted_spec f l : NoDup (map fst l) -> match converted f l with
  | Ret r => NoDup (map fst r) /\ (forall i x, In (i, x) r <-> answers f l i x) /\ (forall i, In i (map fst r) -> In (KProperty i) (map fst l))
  | Throw => exists i n, In (KProperty i, NInt n) l /\ f n = Throw
  | UB => exists i n, In (KProperty i, NInt n) l /\ f n = UB
  end.
Proof.
  unfold answers. induction l as [|[[i|k] v] l IH]; intros N; cbn [converted].
  - split; [constructor|]. split; [|intros i []]. intros i x. split; [intros []|]. intros [[]|(n & [] & _)].
  - cbn [map fst] in N. inversion N as [|? ? N1 N2]; subst. specialize (IH N2). unfold extract_double. destruct v as [x|n|k].
    + destruct (converted f l) as [r| |]; cbn [bind].
      * destruct IH as (A & B & C). split; [constructor; [intros H; apply N1, C, H|exact A]|]. split.
        -- intros j y. cbn [In]. rewrite B. split.
           ++ intros [H|[H|(n & H & E)]]; [left; left; congruence|left; right; exact H|right; exists n; split; [right; exact H|exact E]].
           ++ intros [[H|H]|(n & [H|H] & E)]; [left; congruence|right; left; exact H|discriminate|right; right; exists n; split; assumption].
        -- intros j [H|H]; [left; cbn in H; now rewrite H|right; apply C, H].
      * destruct IH as (j & n & H & E). exists j, n. split; [right; exact H|exact E].
      * destruct IH as (j & n & H & E). exists j, n. split; [right; exact H|exact E].
    + destruct (f n) as [x| |] eqn:F.
      * destruct (converted f l) as [r| |]; cbn [bind].
        -- destruct IH as (A & B & C). split; [constructor; [intros H; apply N1, C, H|exact A]|]. split.
           ++ intros j y. cbn [In]. rewrite B. split.
              ** intros [H|[H|(n' & H & E)]]; [right; exists n; injection H as -> ->; split; [left; reflexivity|exact F]|left; right; exact H|right; exists n'; split; [right; exact H|exact E]].
              ** intros [[H|H]|(n' & [H|H] & E)]; [discriminate|right; left; exact H|left; injection H as -> ->; congruence|right; right; exists n'; split; assumption].
           ++ intros j [H|H]; [left; cbn in H; now rewrite H|right; apply C, H].
        -- destruct IH as (j & n' & H & E). exists j, n'. split; [right; exact H|exact E].
        -- destruct IH as (j & n' & H & E). exists j, n'. split; [right; exact H|exact E].
      * exists i, n. split; [left; reflexivity|exact F].
      * exists i, n. split; [left; reflexivity|exact F].
    + destruct (converted f l) as [r| |].
      * destruct IH as (A & B & C). split; [exact A|]. split; [|intros j H; right; apply C, H]. intros j y. rewrite B. split.
        -- intros [H|(n & H & E)]; [left; right; exact H|right; exists n; split; [right; exact H|exact E]].
        -- intros [[H|H]|(n & [H|H] & E)]; [discriminate|left; exact H|discriminate|right; exists n; split; assumption].
      * destruct IH as (j & n & H & E). exists j, n. split; [right; exact H|exact E].
      * destruct IH as (j & n & H & E). exists j, n. split; [right; exact H|exact E].
  - cbn [map fst] in N. inversion N as [|? ? N1 N2]; subst. specialize (IH N2). destruct (converted f l) as [r| |].
    + destruct IH as (A & B & C). split; [exact A|]. split; [|intros j H; right; apply C, H]. intros j y. rewrite B. split.
      * intros [H|(n & H & E)]; [left; right; exact H|right; exists n; split; [right; exact H|exact E]].
      * intros [[H|H]|(n & [H|H] & E)]; [discriminate|left; exact H|discriminate|right; exists n; split; assumption].
    + destruct IH as (j & n & H & E). exists j, n. split; [right; exact H|exact E].
    + destruct IH as (j & n & H & E). exists j, n. split; [right; exact H|exact E].
Qed.

(** Agents that return nothing. *)
Lemma no_mail {St} shuffle (c : communicator (own (St:=St))) lower upper s o : process_messages c shuffle lower upper s [] o = Ret (o, upper).
Proof. reflexivity. Qed.
Lemma silent_run {St} hash shuffle fuel start (w : world St) (methods : identity -> py_action (St:=St)) :
  well_formed w -> wake_up_times w = [] -> start < w_end w ->
  (forall i a, im_find i (agents w) = Some a -> ag_act a = python_act (Some (methods i)) /\ ag_inbox a = [] /\ ag_outbox a = [] /\ silent (methods i)) ->
  exists w', run_from hash shuffle (S fuel) start w = Some (Ret (w', [start])) /\
    forall i a, im_find i (agents w) = Some a -> exists a', im_find i (agents w') = Some a' /\
      ag_own a' = fst (methods i start (w_end w) (seed_of hash i start 0 (w_sample w)) (ag_own a)).
Proof.
  intros Hwf W He HA. pose proof (wf_sorted w Hwf) as Hs.
  assert (Hh : forall i a, im_find i (agents w) = Some a -> handle shuffle a start (w_end w) (seed_of hash i start 0 (w_sample w)) =
     Ret (fst (methods i start (w_end w) (seed_of hash i start 0 (w_sample w)) (ag_own a)), w_end w)).
  { intros i a Ha. destruct (HA i a Ha) as (E & I & _ & Sl). unfold handle. rewrite I, no_mail, E. unfold python_act.
    destruct (Sl start (w_end w) (seed_of hash i start 0 (w_sample w)) (ag_own a)) as [S1 _]. destruct (methods i _ _ _ _) as [o' [t|]]; [discriminate|]. cbn. now rewrite Z.min_id. }
  assert (Ho : forall i a, im_find i (agents w) = Some a -> snd (fst (methods i start (w_end w) (seed_of hash i start 0 (w_sample w)) (ag_own a))) = []).
  { intros i a Ha. destruct (HA i a Ha) as (_ & _ & O & Sl). destruct (Sl start (w_end w) (seed_of hash i start 0 (w_sample w)) (ag_own a)) as [_ S2]. rewrite S2. exact O. }
  assert (Hd : forall i, local w i -> is_due w start i) by (intros i L; split; [exact L|right; rewrite W; reflexivity]).
  destruct (act_phase_total hash shuffle start (w_end w) 0 w Hwf) as (p & Ep). { intros i a D Ha. exists (fst (methods i start (w_end w) (seed_of hash i start 0 (w_sample w)) (ag_own a))), (w_end w). split; [now apply Hh|lia]. }
  destruct (act_phase_spec _ _ _ _ _ _ _ Hwf Ep) as ((K & N & P) & S & HP & HN). pose proof (act_wf _ _ _ _ _ _ _ Hwf Ep) as Hwp. pose proof (wf_sorted _ Hwp) as Hsp.
  assert (Hp : forall i a, im_find i (agents w) = Some a -> exists a', im_find i (agents (p_world p)) = Some a' /\ ag_own a' = fst (methods i start (w_end w) (seed_of hash i start 0 (w_sample w)) (ag_own a)) /\
     im_find i (wake_up_times (p_world p)) = Some (w_end w)).
  { intros i a Ha. destruct (HP i a Ha) as [H1 _]. destruct H1 as (o & t & E & _ & F & T); [apply Hd; unfold local; congruence|]. rewrite (Hh i a Ha) in E. injection E as <- <-. eexists. split; [exact F|]. split; [reflexivity|exact T]. }
  assert (Hsent : sent (p_world p) = []).
  { unfold sent. assert (X : Forall (fun x => ag_outbox (snd x) = []) (agents (p_world p))).
    { apply Forall_forall. intros [i a'] Hi. apply im_find_in in Hi; [|apply Hsp]. cbn [snd]. destruct (im_find i (agents w)) as [a|] eqn:Ha.
      - destruct (Hp i a Ha) as (a2 & F & O & _). rewrite F in Hi. injection Hi as <-. unfold ag_outbox. rewrite O. now apply Ho.
      - destruct (HN i) as [X _]; [unfold local; congruence|]. congruence. }
    clear - X. induction X as [|x l Hx _ IH]; [reflexivity|]. cbn. rewrite Hx. exact IH. }
  destruct (send_spec (p_world p) Hsp) as [_ HS]. destruct HS as (w' & Ew & S' & K' & N' & P' & A' & T'); [rewrite Hsent; intros m []|].
  rewrite Hsent in Ew, A', T'.
  assert (Er : round hash shuffle start (w_end w) 0 w = Ret (w', p_first p)) by (unfold round, finish_round; rewrite Ep, Ew; reflexivity).
  destruct (round_spec _ _ _ _ _ _ _ _ Hwf Er) as (W' & F' & N2 & _).
  assert (Fe : p_first p = w_end w).
  { rewrite F'. destruct (next_event_spec w' S') as ([->|(i & Hi)] & _ & _); [exact N2|]. rewrite T' in Hi. cbn in Hi.
    destruct (im_find i (agents w)) as [a|] eqn:Ha.
    - destruct (Hp i a Ha) as (_ & _ & _ & T). rewrite T in Hi. now injection Hi as <-.
    - destruct (HN i) as [_ X]; [unfold local; congruence|]. rewrite X, W in Hi. discriminate. }
  exists w'. split.
  - cbn [run_from]. unfold step. destruct (ti_empty start (w_end w)) eqn:X; [apply ti_empty_iff in X; lia|]. cbn [rounds]. rewrite Er, Fe.
    destruct (start >=? w_end w) eqn:G; [lia|]. rewrite N2. destruct (w_end w <? w_end w) eqn:G2; [lia|]. reflexivity.
  - intros i a Ha. destruct (Hp i a Ha) as (a' & F & O & _). rewrite A', F. eexists. split; [reflexivity|]. rewrite <- O.
    assert (OB : snd (ag_own a') = []) by (rewrite O; now apply Ho). destruct a' as [c ac ib [st ob]]. cbn in OB. subst ob. reflexivity.
Qed.

(** A recorded message from Python. *)
Lemma python_log_buffer release level l message file line b t : python_level level = Some l -> 0 <= l ->
  python_log release 0 level message file line (mk_logs b t false) =
  Ret (mk_logs (((b ++ log_prefix l file (w32 line)) ++ message) ++ [10])
               (if release then t else ((t ++ log_prefix l file (w32 line)) ++ message) ++ [10]) false).
Proof.
  intros P L. unfold python_log. rewrite P. unfold log_get_at. destruct (Z.ltb_spec l 0); [lia|].
  set (x := log_prefix l file (w32 line)). destruct release; reflexivity.
Qed.
