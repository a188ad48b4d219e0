From Coq Require Import String.
From Verif Require Import Base Text Identity_spec Identity_proofs Outputs Outputs_spec Outputs_proofs.
From Coq Require Import ZifyBool ZifyNat.
Local Open Scope list_scope.
Local Open Scope Z_scope.

(** * C120 *)
(** Vectors and arrays of elements whose text is not empty and has no comma can be read back. *)
Theorem C120_vector {V} (show : V -> text) l l' : Forall (plain show) l -> Forall (plain show) l' ->
  (forall x y, In x l -> In y l' -> show x = show y -> x = y) -> print_vector show l = print_vector show l' -> l = l'.
Proof. apply print_vector_inj. Qed.
Print Assumptions C120_vector.
Example C120_vector_example : print_vector dec [12; 3; 0] = codes "[12, 3, 0]"%string /\ print_vector dec [] = codes "[]"%string.
Proof. vm_compute. auto. Qed.
Theorem C120_numbers l l' : Forall u64 l -> Forall u64 l' -> print_vector dec l = print_vector dec l' -> l = l'.
Proof.
  intros U U'. rewrite Forall_forall in U, U'. apply print_vector_inj.
  - apply Forall_forall. intros x I. apply dec_plain. auto.
  - apply Forall_forall. intros x I. apply dec_plain. auto.
  - intros x y I J. apply dec_inj; auto.
Qed.
Print Assumptions C120_numbers.
Example C120_numbers_example : Forall u64 [12; 3; 0] /\ print_vector dec [12; 3] <> print_vector dec [1; 23].
Proof. split; [repeat constructor; vm_compute; congruence|vm_compute; discriminate]. Qed.
Theorem C120_map {K V} (key : K -> text) (show : V -> text) l l' :
  (forall k v, In (k, v) (l ++ l') -> ~ In 44 (key k) /\ ~ In 58 (key k) /\ ~ In 44 (show v)) ->
  (forall k v k' v', In (k, v) l -> In (k', v') l' -> (key k = key k' -> k = k') /\ (show v = show v' -> v = v')) ->
  print_map key show l = print_map key show l' -> l = l'.
Proof.
  intros H I E. apply print_map_vector in E.
  assert (P : forall p, In p (l ++ l') -> plain (item key show) p).
  { intros [k v] J. destruct (H k v J) as (A & B & C). unfold plain, item. cbn [fst snd]. split.
    - intros X. apply app_eq_nil in X. destruct X as [_ X]. discriminate.
    - intros X. apply in_app_or in X. destruct X as [X|[X|[X|X]]]; try lia; tauto. }
  apply print_vector_inj in E; [assumption| | |].
  - apply Forall_forall. intros p J. apply P. apply in_or_app. now left.
  - apply Forall_forall. intros p J. apply P. apply in_or_app. now right.
  - intros [k v] [k' v'] J J' X. unfold item in X. cbn [fst snd app] in X.
    apply split_at in X; [|apply (H k v); apply in_or_app; now left|apply (H k' v'); apply in_or_app; now right].
    destruct X as [X Y]. injection Y as Y. destruct (I k v k' v' J J') as [IK IV]. now rewrite (IK X), (IV Y).
Qed.
Print Assumptions C120_map.
Example C120_map_example : print_map dec dec [(1, 20); (2, 30)] = codes "{1: 20, 2: 30}"%string.
Proof. reflexivity. Qed.
(** Text with a comma cannot. *)
Theorem C120_text_refuted : exists l l' : list text, l <> l' /\ print_vector (fun x => x) l = print_vector (fun x => x) l'.
Proof. exists [codes "a, b"%string], [codes "a"%string; codes "b"%string]. split; [discriminate|reflexivity]. Qed.
Print Assumptions C120_text_refuted.
(** Of a queue, the first half of the elements and one more are printed. *)
Theorem C120_queue {V} (show : V -> text) l : print_queue show l = print_vector show (firstn (1 + length l / 2) l).
Proof. apply print_queue_firstn. Qed.
Print Assumptions C120_queue.
Theorem C120_queue_refuted l : Forall u64 l -> (3 <= length l)%nat -> print_queue dec l <> print_vector dec l /\ exists l', Forall u64 l' /\ l' <> l /\ print_queue dec l' = print_queue dec l.
Proof.
  intros U L. set (k := (1 + length l / 2)%nat). assert (K : (k < length l)%nat).
  { unfold k. pose proof (Nat.div_mod (length l) 2 ltac:(lia)). pose proof (Nat.mod_upper_bound (length l) 2 ltac:(lia)). lia. }
  assert (F : Forall u64 (firstn k l)) by (rewrite Forall_forall in *; intros x I; apply U; rewrite <- (firstn_skipn k l); apply in_or_app; now left).
  split.
  - rewrite print_queue_firstn. intros E. apply C120_numbers in E; [|exact F|exact U].
    apply (f_equal (@length Z)) in E. rewrite firstn_length in E. fold k in E. unfold k in *. lia.
  - set (d := match last l 0 with 0 => 1 | _ => 0 end).
    exists (removelast l ++ [d]).
    assert (NE : l <> []) by (intros ->; cbn in L; lia).
    pose proof (app_removelast_last 0 NE) as SP.
    assert (LR : length (removelast l) = (length l - 1)%nat) by (rewrite SP at 2; rewrite app_length; cbn; lia).
    assert (H : forall x, firstn k (removelast l ++ [x]) = firstn k (removelast l)).
    { intros x. rewrite firstn_app, LR. replace (k - (length l - 1))%nat with 0%nat by lia. apply app_nil_r. }
    repeat split.
    + apply Forall_app. split.
      * rewrite SP in U. apply Forall_app in U. tauto.
      * repeat constructor; unfold d; destruct (last l 0); cbn; unfold u64, W64; lia.
    + rewrite SP at 2. intros E. apply app_inj_tail in E. destruct E as [_ E]. unfold d in E. destruct (last l 0); discriminate.
    + rewrite !print_queue_firstn. rewrite app_length, LR. cbn [length]. replace (length l - 1 + 1)%nat with (length l) by lia.
      change (S (length l / 2)) with k. f_equal. rewrite H. transitivity (firstn k (removelast l ++ [last l 0])); [now rewrite H|now rewrite <- SP].
Qed.
Print Assumptions C120_queue_refuted.
Example C120_queue_example : print_queue dec [1; 2; 3] = codes "[1, 2]"%string.
Proof. reflexivity. Qed.

(** * C121 *)
(** Every stream has received the lines of exactly the values put into the unbuffered outputs it was attached to at the
    time, in order, and as often as it was attached. *)
Theorem C121_streams {V} (show : V -> text) es y s : sensible es -> history show es nothing = Ret y -> contents s y = received show s [] es.
Proof. intros S E. now apply (history_agrees show es y S E). Qed.
Print Assumptions C121_streams.
Theorem C121_values {V} (show : V -> text) es y h o : sensible es -> history show es nothing = Ret y -> nth_error (y_objects y) h = Some o -> o_values o = values_of h es.
Proof. intros S E. apply (ag_values _ _ (proj1 (history_agrees show es y S E))). Qed.
Print Assumptions C121_values.
(** Two series written to streams of their own give the same text only if they are the same. *)
Theorem C121_readable (l l' : list (Z * list Z)) :
  Forall (fun p => u64 (fst p) /\ Forall u64 (snd p)) l -> Forall (fun p => u64 (fst p) /\ Forall u64 (snd p)) l' ->
  series_text (print_vector dec) l = series_text (print_vector dec) l' -> l = l'.
Proof.
  intros U U'. rewrite Forall_forall in U, U'. apply lines_inj.
  - intros p I. assert (W : u64 (fst p) /\ Forall u64 (snd p)) by (apply in_app_or in I; destruct I; auto).
    split; [apply W|]. intros J. apply print_vector_in in J. destruct J as [J|[J|[J|[J|(x & X & J)]]]]; try lia.
    destruct W as [_ W]. rewrite Forall_forall in W. revert J. apply dec_no; [auto|lia].
  - intros p q I J. apply C120_numbers; [apply (U p I)|apply (U' q J)].
Qed.
Print Assumptions C121_readable.
Lemma attached_put {V} s h (es : list (event V)) k t vs : attached s h (es ++ [Put k t vs]) = attached s h es.
Proof.
  unfold attached. rewrite filter_app, app_length. cbn [filter attaches length]. rewrite Nat.add_0_r. f_equal. apply filter_ext.
  intros e. destruct e; try reflexivity. cbn [attaches]. rewrite first_of_app. f_equal. destruct (first_of name 0 es); reflexivity.
Qed.
(** An output made by a producer, a stream added to it, and then the series: the stream has the text of the series. *)
Theorem C121_series {V} (show : V -> text) name s l y :
  history show ([Create name; Attach name s] ++ map (fun p => Put 0 (fst p) [snd p]) l) nothing = Ret y -> contents s y = series_text show l.
Proof.
  intros E. assert (S : @sensible V ([Create name; Attach name s] ++ map (fun p => Put 0 (fst p) [snd p]) l)).
  { intros before e after h X U. destruct before as [|e1 before]; [injection X as <- _; discriminate|]. injection X as <- X.
    assert (I : In e (before ++ e :: after)) by (apply in_or_app; right; now left). rewrite <- X in I. destruct I as [<-|I]; [discriminate|].
    apply in_map_iff in I. destruct I as (p & <- & _). injection U as <-. cbn. lia. }
  rewrite (C121_streams show _ y s S E). rewrite received_app. cbn [received app]. clear E S y.
  assert (G : forall pre, made (Create name :: Attach name s :: pre) <> [] -> nth 0 (made (Create name :: Attach name s :: pre)) true = false -> attached s 0 (Create name :: Attach name s :: pre) = 1%nat ->
    received show s (Create name :: Attach name s :: pre) (map (fun p : Z * V => Put 0 (fst p) [snd p]) l) = series_text show l).
  { induction l as [|[t v] l IH]; intros pre M B A; [reflexivity|]. cbn [map received fst snd]. rewrite B, A. cbn [flat_map repeat concat]. rewrite !app_nil_r.
    unfold series_text. cbn [flat_map fst snd]. f_equal. cbn [app]. apply (IH (pre ++ [Put 0 t [v]])).
    - discriminate.
    - reflexivity.
    - change (Create name :: Attach name s :: pre ++ [Put 0 t [v]]) with ((Create name :: Attach name s :: pre) ++ [Put 0 t [v]]).
      rewrite attached_put. exact A. }
  apply (G []); [discriminate|reflexivity|]. unfold attached. cbn [filter attaches first_of].
  destruct (list_eq_dec Z.eq_dec name name); [|contradiction]. rewrite !Nat.eqb_refl. reflexivity.
Qed.
Print Assumptions C121_series.
(** Two outputs; the second stream joins later; an output with two variables gives two lines. *)
Definition demo_events : list (event (list Z)) :=
  [Create [97]; Create [98]; Attach [97] 0; Put 0 1 [[5; 6]]; Attach [97] 1; AttachTo 1 1; Put 0 2 [[7]]; Put 1 2 [[8]; []]].
Example C121_example : sensible demo_events /\ exists y, history (print_vector dec) demo_events nothing = Ret y /\
  contents 0 y = codes "(1, [5, 6])"%string ++ [10] ++ codes "(2, [7])"%string ++ [10] /\
  contents 1 y = codes "(2, [7])"%string ++ [10] ++ codes "(2, [8])"%string ++ [10] ++ codes "(2, [])"%string ++ [10].
Proof.
  split.
  - unfold demo_events. intros before e after h E U.
    repeat (destruct before as [|? before]; [injection E; intros _ <-; first [discriminate U|injection U as <-; vm_compute; lia]|injection E as <- E]).
    destruct before; discriminate E.
  - eexists. split; [reflexivity|]. vm_compute. auto.
Qed.
Theorem C121_missing {V} (show : V -> text) es y name s : sensible es -> history show es nothing = Ret y ->
  (history show (es ++ [Attach name s]) nothing = Throw <-> ~ In (Create name) es).
Proof.
  intros S E. assert (A : forall l z w, history show l z = Ret w -> history show (l ++ [Attach name s]) z = history show [Attach name s] w).
  { induction l as [|e l IH]; intros z w Hl; cbn [history app] in *; [now injection Hl as ->|]. destruct (happen show e z) as [z'| |]; try discriminate. now apply IH. }
  rewrite (A es nothing y E). cbn [history happen]. unfold add_output_stream. rewrite (ag_names _ _ (proj1 (history_agrees show es y S E))).
  assert (G : forall k, first_of name k es = None <-> ~ In (@Create V name) es).
  { clear. induction es as [|e es IH]; intros k; [cbn; tauto|]. destruct e; cbn [first_of In]; rewrite ?IH; try (intuition discriminate).
    destruct (list_eq_dec Z.eq_dec name0 name) as [->|N]; [split; [discriminate|intros H; elim H; now left]|]. rewrite IH.
    split; [intros H [X|X]; [injection X; congruence|tauto]|tauto]. }
  rewrite <- (G 0%nat). destruct (first_of name 0 es); split; congruence.
Qed.
Print Assumptions C121_missing.
Example C121_missing_example : @history (list Z) (print_vector dec) [Create [97]; Attach [98] 0] nothing = Throw.
Proof. reflexivity. Qed.

(** * C122 *)
Lemma attached_pos {V} s h (es : list (event V)) e : In e es -> attaches s h es e = true -> (1 <= attached s h es)%nat.
Proof.
  intros I A. unfold attached. assert (J : In e (filter (attaches s h es) es)) by (apply filter_In; auto).
  destruct (filter (attaches s h es) es); [destruct J|cbn; lia].
Qed.
(** If the name is used for one output, a stream added under the name gets what is put into that output. *)
Theorem C122_unique {V} (show : V -> text) before after name s t vs y :
  sensible (before ++ Create name :: after) -> history show (before ++ Create name :: after) nothing = Ret y ->
  ~ In (Create name) before -> In (Attach name s) after ->
  let h := length (made before) in
  exists k, (1 <= k)%nat /\ contents s (put show h t vs y) = contents s y ++ flat_map (fun v => concat (repeat (text_line show t v) k)) vs.
Proof.
  intros S E N I h. set (es := before ++ Create name :: after) in *.
  destruct (history_agrees show es y S E) as [A C].
  assert (F : first_of name 0 es = Some h).
  { unfold es. rewrite first_of_app. replace (first_of name 0 before) with (@None nat).
    - cbn. destruct (list_eq_dec Z.eq_dec name name); [reflexivity|contradiction].
    - symmetry. clear -N. generalize 0%nat. induction before as [|e b IH]; intros k; [reflexivity|].
      assert (NB : ~ In (Create name) b) by (intros X; apply N; now right).
      destruct e; cbn [first_of]; auto. destruct (list_eq_dec Z.eq_dec name0 name) as [->|]; [elim N; now left|auto]. }
  assert (B : nth h (made es) true = false).
  { unfold es. rewrite made_app. rewrite app_nth2 by (unfold h; lia). unfold h. rewrite Nat.sub_diag. reflexivity. }
  assert (H : (h < length (made es))%nat) by (unfold es; rewrite made_app, app_length; unfold h; cbn; lia).
  assert (S2 : sensible (es ++ [Put h t vs])).
  { intros b e a k X U. destruct (destruct_list a) as [(z & l & Y)|Y].
    - subst a. destruct (exists_last (l := z :: l) ltac:(discriminate)) as (l' & x & Z1). rewrite Z1 in X.
      change (b ++ e :: l' ++ [x]) with (b ++ (e :: l') ++ [x]) in X. rewrite app_assoc in X. apply app_inj_tail in X. destruct X as [X _].
      now apply (S b e l' k).
    - subst a. change (b ++ [e]) with (b ++ [e]) in X. apply app_inj_tail in X. destruct X as [<- <-]. injection U as <-. exact H. }
  exists (attached s h es). split.
  - apply (attached_pos s h es (Attach name s)); [unfold es; apply in_or_app; right; now right|]. cbn. rewrite F, !Nat.eqb_refl. reflexivity.
  - rewrite (contents_step show es y (Put h t vs) (put show h t vs y) s A S2 eq_refl). f_equal. cbn [received]. rewrite B, app_nil_r. reflexivity.
Qed.
Print Assumptions C122_unique.
Example C122_unique_example : sensible ([] ++ Create [97] :: [Attach [97] 0] : list (event (list Z))) /\
  exists y, @history (list Z) (print_vector dec) ([] ++ Create [97] :: [Attach [97] 0]) nothing = Ret y /\ contents 0 (put (print_vector dec) 0 3 [[4]] y) = codes "(3, [4])"%string ++ [10].
Proof.
  split.
  - intros before e after h E U.
    repeat (destruct before as [|? before]; [injection E; intros _ <-; first [discriminate U|injection U as <-; vm_compute; lia]|injection E as <- E]).
    destruct before; discriminate E.
  - eexists. split; [reflexivity|]. vm_compute. reflexivity.
Qed.
(** What is put into a second output of the same name is written nowhere, whatever streams are added under the name. *)
Theorem C122_second_refuted {V} (show : V -> text) before middle after name t vs y s :
  let es := before ++ Create name :: middle ++ Create name :: after in
  let second := length (made (before ++ Create name :: middle)) in
  sensible es -> history show es nothing = Ret y -> (forall s', ~ In (AttachTo second s') es) ->
  contents s (put show second t vs y) = contents s y.
Proof.
  intros es second S E N. destruct (history_agrees show es y S E) as [A C].
  assert (Z0 : forall e, In e es -> attaches s second es e = false).
  { intros e I. destruct e as [| |n s'|h' s'| |]; try reflexivity.
    - cbn. destruct (first_of n 0 es) as [k|] eqn:F; [|apply andb_false_r].
      destruct (Nat.eqb_spec k second) as [->|]; [|apply andb_false_r]. exfalso.
      unfold es in F. change (before ++ Create name :: middle ++ Create name :: after) with (before ++ (Create name :: middle) ++ Create name :: after) in F.
      rewrite app_assoc, first_of_app in F. destruct (first_of n 0 (before ++ Create name :: middle)) eqn:G.
      + injection F as ->. apply first_of_bound in G. fold second in G. lia.
      + cbn [first_of Nat.add] in F. destruct (list_eq_dec Z.eq_dec name n) as [D|D].
        * subst n. rewrite first_of_app in G. destruct (first_of name 0 before); [discriminate|]. cbn in G. destruct (list_eq_dec Z.eq_dec name name); [discriminate|contradiction].
        * fold second in F. apply first_of_bound in F. lia.
    - cbn. destruct (Nat.eqb_spec h' second) as [->|]; [|reflexivity]. exfalso. now apply (N s'). }
  assert (K : attached s second es = 0%nat).
  { unfold attached. destruct (filter _ es) as [|e r] eqn:F; [reflexivity|]. exfalso. assert (I : In e (e :: r)) by now left.
    rewrite <- F in I. apply filter_In in I. destruct I as [I J]. rewrite (Z0 e I) in J. discriminate. }
  unfold put. destruct (nth_error (y_objects y) second) as [o|] eqn:G; [|reflexivity].
  destruct y as [ns os w]. cbn [y_names y_objects y_written] in *. rewrite contents_written.
  assert (Q : concat (map snd (filter (fun p : nat * text => Nat.eqb (fst p) s) (if o_buffered o then [] else flat_map (fun v : V => map (fun s0 : nat => (s0, line show t v)) (o_streams o)) vs))) = []).
  { destruct (o_buffered o); [reflexivity|]. rewrite written_lines, (ag_streams _ _ A second o s G), K. cbn. induction vs; auto. }
  rewrite Q, app_nil_r. reflexivity.
Qed.
Print Assumptions C122_second_refuted.
Example C122_second_example : exists y, @history (list Z) (print_vector dec) [Create [97]; Create [97]; Attach [97] 0; Put 1 3 [[4]]] nothing = Ret y /\ contents 0 y = [].
Proof. eexists. split; [reflexivity|]. vm_compute. reflexivity. Qed.

(** * C123 *)
(** A buffered output keeps its values, and nothing of them is ever written. *)
Theorem C123_buffered_refuted {V} (show : V -> text) es y h t vs s : sensible es -> history show es nothing = Ret y -> nth h (made es) false = true ->
  contents s (after_run (put show h t vs y)) = contents s y.
Proof.
  intros S E B. destruct (history_agrees show es y S E) as [A _]. unfold after_run, put. destruct (nth_error (y_objects y) h) as [o|] eqn:G; [|reflexivity].
  assert (O : o_buffered o = true).
  { rewrite <- (ag_objects _ _ A) in B. erewrite nth_error_nth in B; [exact B|]. rewrite nth_error_map, G. reflexivity. }
  rewrite O. destruct y as [ns os w]. cbn [y_names y_objects y_written]. rewrite app_nil_r. reflexivity.
Qed.
Print Assumptions C123_buffered_refuted.
(** The outputs that a producer makes are not buffered. *)
Theorem C123_created {V} (show : V -> text) es y name : sensible es -> history show es nothing = Ret y ->
  exists o, nth_error (y_objects (create_output name y)) (length (made es)) = Some o /\ o_buffered o = false.
Proof.
  intros S E. destruct (history_agrees show es y S E) as [A _]. unfold create_output, construct. cbn [y_objects].
  rewrite <- (ag_objects _ _ A), map_length. rewrite nth_error_app2, Nat.sub_diag by lia. eexists. split; reflexivity.
Qed.
Print Assumptions C123_created.
Example C123_example : exists y, @history (list Z) (print_vector dec) [Construct true; AttachTo 0 0; Put 0 3 [[4]]; EndOfRun] nothing = Ret y /\ contents 0 y = [] /\ map (@o_values _) (y_objects y) = [[(3, [[4]])]].
Proof. eexists. split; [reflexivity|]. vm_compute. auto. Qed.

(** * C124 *)
(** In a release, a message below the level of the log goes nowhere, and another one goes to its buffer. *)
Theorem C124_release filter level message g : l_held g = false ->
  log_message true filter level message g = Ret (if level <? filter then g else
    mk_logs (l_buffer g ++ codes "("%string ++ severity_name level ++ codes ") "%string ++ message ++ [10]) (l_terminal g) false).
Proof.
  intros H. destruct g as [b t held]. cbn in H. subst held. unfold log_message, log_get. destruct (level <? filter); [reflexivity|].
  cbn -[severity_name]. rewrite <- !app_assoc. cbn. rewrite <- !app_assoc. reflexivity.
Qed.
Print Assumptions C124_release.
(** In other builds it is shown on the terminal, without its level. *)
Theorem C124_debug_refuted filter level message g : l_held g = false -> level < filter ->
  log_message false filter level message g = Ret (mk_logs (l_buffer g) (l_terminal g ++ message ++ [10]) false).
Proof.
  intros H L. destruct g as [b t held]. cbn in H. subst held. unfold log_message, log_get. destruct (Z.ltb_spec level filter); [|lia].
  cbn. rewrite <- app_assoc. reflexivity.
Qed.
Print Assumptions C124_debug_refuted.
Theorem C124_debug filter level message g : l_held g = false -> filter <= level ->
  let m := codes "("%string ++ severity_name level ++ codes ") "%string ++ message ++ [10] in
  log_message false filter level message g = Ret (mk_logs (l_buffer g ++ m) (l_terminal g ++ m) false).
Proof.
  intros H L. destruct g as [b t held]. cbn in H. subst held. unfold log_message, log_get. destruct (Z.ltb_spec level filter); [lia|].
  cbn -[severity_name]. rewrite <- !app_assoc. cbn. rewrite <- !app_assoc. reflexivity.
Qed.
Print Assumptions C124_debug.
(** The names of the levels. *)
Theorem C124_names filter level message g : l_held g = false -> 0 <= level < 4 -> filter <= level ->
  log_message true filter level message g = Ret (mk_logs (l_buffer g ++ codes "("%string ++
    codes (nth (Z.to_nat level) ["trace"; "notice"; "warning"; "error"]%string ""%string) ++ codes ") "%string ++ message ++ [10]) (l_terminal g) false).
Proof.
  intros H B L. rewrite C124_release by exact H. destruct (Z.ltb_spec level filter); [lia|].
  assert (C : level = 0 \/ level = 1 \/ level = 2 \/ level = 3) by lia. destruct C as [->|[->|[->| ->]]]; reflexivity.
Qed.
Print Assumptions C124_names.
(** A level chosen at run time filters in the same way. *)
Theorem C124_dynamic filter level message g : l_held g = false ->
  channel_value true (log_get_dynamic filter level) message g = Ret (if level <? filter then g else mk_logs (l_buffer g ++ message) (l_terminal g) false).
Proof. intros H. destruct g as [b t held]. cbn in H. subst held. unfold log_get_dynamic. destruct (level <? filter); reflexivity. Qed.
Print Assumptions C124_dynamic.
Example C124_example : log_message true 2 0 (codes "tick"%string) (mk_logs [] [] false) = Ret (mk_logs [] [] false) /\
  log_message false 2 0 (codes "tick"%string) (mk_logs [] [] false) = Ret (mk_logs [] (codes "tick"%string ++ [10]) false) /\
  log_message true 2 3 (codes "tick"%string) (mk_logs [] [] false) = Ret (mk_logs (codes "(error) tick"%string ++ [10]) [] false).
Proof. vm_compute. auto. Qed.

(** * C125 *)
(** [std::endl] ends the line; [channel::endl] locks a mutex that is held. *)
Theorem C125_std_endl release k g : l_held g = false ->
  exists g', channel_std_endl release k g = Ret g' /\ l_held g' = false /\ l_buffer g' = (match k with Buffer => l_buffer g ++ [10] | Null => l_buffer g end) /\
    l_terminal g' = if release then l_terminal g else l_terminal g ++ [10].
Proof. intros H. destruct g as [b t held]. cbn in H. subst held. unfold channel_std_endl, locked. cbn. eexists. split; [reflexivity|]. destruct k, release; cbn; auto. Qed.
Print Assumptions C125_std_endl.
Theorem C125_endl_refuted release k g : channel_endl release k g = UB.
Proof. unfold channel_endl, locked. destruct (l_held g); reflexivity. Qed.
Print Assumptions C125_endl_refuted.
Example C125_example : channel_std_endl true Buffer (mk_logs [104] [] false) = Ret (mk_logs [104; 10] [] false).
Proof. reflexivity. Qed.

(** * C126 *)
(** Restoring a producer brings back none of its outputs. *)
Theorem C126_restored_refuted {V} (show : V -> text) es y : sensible es -> history show es nothing = Ret y -> (exists name, In (Create name) es) ->
  save_outputs y <> [] /\ forall readable (y' : system V), load_outputs readable (save_outputs y) nothing = Ret y' -> y_names y' = [] /\ y_objects y' = [] /\ y_names y' <> y_names y.
Proof.
  intros S E [name I]. destruct (history_agrees show es y S E) as [A _].
  assert (N : y_names y <> []).
  { intros H. pose proof (ag_names _ _ A name) as F. rewrite H in F. cbn in F. symmetry in F. clear -F I. revert F. generalize 0%nat.
    induction es as [|e es IH]; intros k F; [destruct I|]. destruct I as [->|I].
    - cbn in F. destruct (list_eq_dec Z.eq_dec name name); [discriminate|contradiction].
    - destruct e; cbn [first_of] in F; try (now apply (IH I k)); try (now apply (IH I (S k))).
      destruct (list_eq_dec Z.eq_dec name0 name); [discriminate|now apply (IH I (S k))]. }
  split.
  - unfold save_outputs. destruct (y_names y); [contradiction|discriminate].
  - intros [] y' X; [|discriminate]. injection X as <-. cbn. repeat split. congruence.
Qed.
Print Assumptions C126_restored_refuted.
(** What a producer has already stays. *)
Theorem C126_kept {V} readable archive (y y' : system V) : load_outputs readable archive y = Ret y' -> y_names y' = y_names y /\ y_objects y' = y_objects y /\ y_written y' = y_written y.
Proof. intros H. destruct readable; [|discriminate]. injection H as <-. auto. Qed.
Print Assumptions C126_kept.
Example C126_example : exists y, history (print_vector dec) demo_events nothing = Ret y /\ save_outputs y = [[97]; [98]].
Proof. eexists. split; [reflexivity|]. vm_compute. reflexivity. Qed.
