From Coq Require Import String.
From Verif Require Import Base Text Identity_spec Identity_proofs Outputs Outputs_spec.
From Coq Require Import ZifyBool ZifyNat.
Local Open Scope list_scope.
Local Open Scope Z_scope.

(** ** Separators *)
Lemma split_at (c : Z) a : forall b x y, ~ In c a -> ~ In c b -> a ++ c :: x = b ++ c :: y -> a = b /\ x = y.
Proof.
  induction a as [|u a IH]; intros [|v b] x y Ha Hb E; cbn in *.
  - injection E as ->. auto.
  - injection E as <- _. exfalso. apply Hb. now left.
  - injection E as -> _. exfalso. apply Ha. now left.
  - injection E as -> E. apply IH in E; [|tauto|tauto]. destruct E as [-> ->]. auto.
Qed.
Lemma no_split (c : Z) a : forall b y, ~ In c a -> a <> b ++ c :: y.
Proof. intros b y H ->. apply H. apply in_or_app. right. now left. Qed.

Section Vectors.
Context {V : Type} (show : V -> text).
Let rest (l : list V) := flat_map (fun y => [44; 32] ++ show y) l.
Lemma rest_inj l : forall l', Forall (plain show) l -> Forall (plain show) l' ->
  (forall x y, In x l -> In y l' -> show x = show y -> x = y) -> forall a b, ~ In 44 a -> ~ In 44 b -> a ++ rest l = b ++ rest l' -> a = b /\ l = l'.
Proof.
  induction l as [|x l IH]; intros [|y l'] P P' I a b Ha Hb E; cbn in E.
  - rewrite !app_nil_r in E. auto.
  - rewrite app_nil_r in E. exfalso. revert E. now apply no_split.
  - rewrite app_nil_r in E. symmetry in E. exfalso. revert E. now apply no_split.
  - inversion P as [|? ? [Px Cx] P1]; subst. inversion P' as [|? ? [Py Cy] P1']; subst.
    apply split_at in E; [|assumption|assumption]. destruct E as [-> E]. injection E as E.
    apply IH in E; auto; [|intros; apply I; [now right|now right|assumption]].
    destruct E as [E ->]. apply I in E; [|now left|now left]. subst. auto.
Qed.
Lemma print_vector_inj l l' : Forall (plain show) l -> Forall (plain show) l' ->
  (forall x y, In x l -> In y l' -> show x = show y -> x = y) -> print_vector show l = print_vector show l' -> l = l'.
Proof.
  intros P P' I E. unfold print_vector in E. injection E as E. apply app_inj_tail in E. destruct E as [E _].
  destruct l as [|x l], l' as [|y l'].
  - reflexivity.
  - inversion P' as [|? ? [Py _] _]; subst. destruct (show y); [contradiction|discriminate].
  - inversion P as [|? ? [Px _] _]; subst. destruct (show x); [contradiction|discriminate].
  - inversion P as [|? ? [Px Cx] P1]; subst. inversion P' as [|? ? [Py Cy] P1']; subst.
    apply rest_inj in E; auto; [|intros; apply I; [now right|now right|assumption]].
    destruct E as [E ->]. apply I in E; [|now left|now left]. now subst.
Qed.
Lemma queue_loop_rest q : forall f c, (length q <= f + c)%nat -> queue_loop show f c q = rest (firstn ((length q - c + 1) / 2) q).
Proof.
  induction q as [|x q IH]; intros f c L.
  - rewrite firstn_nil. destruct f, c; reflexivity.
  - destruct f as [|f].
    + replace (length (x :: q) - c)%nat with 0%nat by lia. cbn [queue_loop].
      destruct (c <? length (x :: q))%nat; reflexivity.
    + cbn [queue_loop]. destruct (Nat.ltb_spec c (length (x :: q))) as [H|H].
      * rewrite IH by (cbn in L; lia).
        replace ((length (x :: q) - c + 1) / 2)%nat with (S ((length q - S c + 1) / 2)); [reflexivity|].
        cbn [length] in *. destruct (Nat.eq_dec c (length q)) as [->|N].
        -- replace (length q - S (length q))%nat with 0%nat by lia. replace (S (length q) - length q + 1)%nat with 2%nat by lia. reflexivity.
        -- replace (S (length q) - c + 1)%nat with (1 * 2 + (length q - S c + 1))%nat by lia. rewrite Nat.div_add_l by lia. lia.
      * replace (length (x :: q) - c)%nat with 0%nat by lia. reflexivity.
Qed.
End Vectors.
Lemma print_queue_firstn {V} (show : V -> text) l : print_queue show l = print_vector show (firstn (S (length l / 2)) l).
Proof.
  destruct l as [|x l]; [reflexivity|]. unfold print_queue, print_vector. rewrite (queue_loop_rest show l) by lia.
  replace (S (length (x :: l) / 2)) with (S ((length l - 0 + 1) / 2)) by (cbn [length]; f_equal; f_equal; lia). reflexivity.
Qed.

(** A map is printed like a vector of pairs. *)
Definition item {K V} (key : K -> text) (show : V -> text) (p : K * V) : text := key (fst p) ++ [58; 32] ++ show (snd p).
Lemma print_map_vector {K V} (key : K -> text) (show : V -> text) l l' :
  print_map key show l = print_map key show l' -> print_vector (item key show) l = print_vector (item key show) l'.
Proof.
  unfold print_map, print_vector. intros E. injection E as E. apply app_inj_tail in E. destruct E as [E _].
  f_equal. f_equal. destruct l as [|[k v] l], l' as [|[k' v'] l']; exact E.
Qed.

(** ** Numbers *)
Lemma dec_inj x y : u64 x -> u64 y -> dec x = dec y -> x = y.
Proof. intros X Y E. rewrite <- (proj2 (dec_ok x X)), <- (proj2 (dec_ok y Y)). now rewrite E. Qed.
Lemma dec_plain x : u64 x -> plain dec x.
Proof.
  intros X. split.
  - unfold dec. cbn [dec_fuel]. destruct (x <? 10); [discriminate|]. intros H. apply app_eq_nil in H. now destruct H.
  - intros I. pose proof (proj1 (dec_ok x X)) as D. rewrite Forall_forall in D. specialize (D _ I). unfold is_digit in D. lia.
Qed.
Lemma dec_no c x : u64 x -> ~ (48 <= c <= 57) -> ~ In c (dec x).
Proof. intros X N I. pose proof (proj1 (dec_ok x X)) as D. rewrite Forall_forall in D. exact (N (D _ I)). Qed.
Lemma print_vector_in {V} (show : V -> text) c l : In c (print_vector show l) -> c = 91 \/ c = 93 \/ c = 44 \/ c = 32 \/ exists x, In x l /\ In c (show x).
Proof.
  intros [<-|I]; [auto|]. apply in_app_or in I. destruct I as [I|[<-|[]]]; [|auto].
  destruct l as [|x l]; [destruct I|]. apply in_app_or in I. destruct I as [I|I]; [right; right; right; right; exists x; split; [now left|assumption]|].
  apply in_flat_map in I. destruct I as (y & Y & I). apply in_app_or in I. destruct I as [I|I].
  - cbn in I. destruct I as [<-|[<-|[]]]; auto.
  - right; right; right; right. exists y. split; [now right|assumption].
Qed.

(** ** Histories *)
Section Histories.
Context {V : Type} (show : V -> text).
Implicit Types (es : list (event V)) (y : system V).

Lemma line_text t (v : V) : line show t v = text_line show t v.
Proof. unfold line, text_line, print_pair. cbn [fst snd codes]. rewrite <- app_comm_cons, <- !app_assoc. reflexivity. Qed.
Lemma text_eqb_eq a b : text_eqb a b = true <-> a = b.
Proof.
  revert b. induction a as [|x a IH]; intros [|y b]; cbn; try (split; [discriminate|discriminate]); [tauto|].
  rewrite andb_true_iff, Z.eqb_eq, IH. split; [intros [-> ->]; reflexivity|]. intros H. injection H as -> ->. auto.
Qed.
Lemma nth_error_change {A} (f : A -> A) l k j : nth_error (change k f l) j = if Nat.eqb j k then option_map f (nth_error l j) else nth_error l j.
Proof.
  revert k j. induction l as [|x l IH]; intros k j.
  - destruct k, j; cbn; try reflexivity. destruct (Nat.eqb _ _); reflexivity.
  - destruct k, j; cbn; try reflexivity. rewrite IH. reflexivity.
Qed.
Lemma change_length {A} (f : A -> A) l k : length (change k f l) = length l.
Proof. revert k. induction l as [|x l IH]; intros [|k]; cbn; auto. Qed.

Lemma history_app es es' y : history show (es ++ es') y = match history show es y with Ret y' => history show es' y' | Throw => Throw | UB => UB end.
Proof. revert y. induction es as [|e es IH]; intros y; cbn; [reflexivity|]. destruct (happen show e y); auto. Qed.

(** First creations. *)
Lemma first_of_app n es es' : forall k, first_of n k (es ++ es') = match first_of n k es with Some h => Some h | None => first_of n (k + length (made es))%nat es' end.
Proof.
  induction es as [|e es IH]; intros k; cbn; [now rewrite Nat.add_0_r|].
  destruct e; cbn; try apply IH.
  - rewrite IH. destruct (first_of n (S k) es); [reflexivity|]. now rewrite Nat.add_succ_r.
  - destruct (list_eq_dec Z.eq_dec name n); [reflexivity|]. rewrite IH. destruct (first_of n (S k) es); [reflexivity|]. now rewrite Nat.add_succ_r.
Qed.
Lemma made_app es es' : made (es ++ es') = made es ++ made es'.
Proof. apply flat_map_app. Qed.
Lemma first_of_bound n es : forall k h, first_of n k es = Some h -> (k <= h < k + length (made es))%nat.
Proof.
  induction es as [|e es IH]; intros k h; [discriminate|]. destruct e; cbn [first_of]; intros H; try now apply IH.
  - apply IH in H. unfold made in *. cbn [flat_map app length]. lia.
  - unfold made in *. cbn [flat_map app length]. destruct (list_eq_dec Z.eq_dec name n); [injection H as <-; lia|]. apply IH in H. lia.
Qed.

(** Attachments. *)
Lemma attached_more s h es e : (forall n s', e = Attach n s' -> first_of n 0 es <> None) -> (forall n s', In (Attach n s') es -> first_of n 0 es <> None) ->
  attached s h (es ++ [e]) = (attached s h es + (if attaches s h es e then 1 else 0))%nat.
Proof.
  intros He Hs. unfold attached. rewrite filter_app, app_length.
  assert (S1 : forall n, first_of n 0 es <> None -> first_of n 0 (es ++ [e]) = first_of n 0 es).
  { intros n N. rewrite first_of_app. destruct (first_of n 0 es); [reflexivity|contradiction]. }
  f_equal.
  - f_equal. apply filter_ext_in. intros [] I; cbn; try reflexivity. rewrite S1; [reflexivity|]. eapply Hs; eassumption.
  - cbn. replace (attaches s h (es ++ [e]) e) with (attaches s h es e); [destruct (attaches s h es e); reflexivity|].
    destruct e; cbn; try reflexivity. rewrite S1; [reflexivity|]. eapply He; reflexivity.
Qed.

Definition count (s : nat) (l : list nat) : nat := length (filter (fun x => Nat.eqb x s) l).
Record agrees (es : list (event V)) (y : system V) : Prop := mk_agrees {
  ag_objects : map (@o_buffered V) (y_objects y) = made es;
  ag_names : forall n, find_name n (y_names y) = first_of n 0 es;
  ag_streams : forall h o s, nth_error (y_objects y) h = Some o -> count s (o_streams o) = attached s h es;
  ag_values : forall h o, nth_error (y_objects y) h = Some o -> o_values o = values_of h es;
  ag_attached : forall n s, In (Attach n s) es -> first_of n 0 es <> None }.

Lemma find_name_app n l m h : find_name n (l ++ [(m, h)]) = match find_name n l with Some k => Some k | None => if text_eqb m n then Some h else None end.
Proof. induction l as [|[m' h'] l IH]; cbn; [reflexivity|]. destruct (text_eqb m' n); auto. Qed.
Lemma agrees_nothing : agrees [] nothing.
Proof.
  split; cbn [nothing y_objects y_names]; try reflexivity.
  - intros h o s E; destruct h; discriminate E.
  - intros h o E; destruct h; discriminate E.
  - intros ? ? [].
Qed.
Lemma map_change {A B} (g : A -> B) f k l : (forall x, g (f x) = g x) -> map g (change k f l) = map g l.
Proof. intros H. revert k. induction l as [|x l IH]; intros [|k]; cbn; auto; [now rewrite H|now rewrite IH]. Qed.
Lemma values_of_app h es es' : values_of h (es ++ es') = values_of h es ++ values_of h es'.
Proof. apply flat_map_app. Qed.
Lemma values_fresh es h : sensible es -> (length (made es) <= h)%nat -> values_of h es = [].
Proof.
  intros S L. unfold values_of. destruct (flat_map _ es) as [|p r] eqn:E; [reflexivity|]. exfalso.
  assert (I : In p (p :: r)) by now left. rewrite <- E in I. apply in_flat_map in I. destruct I as (e & I & J).
  apply in_split in I. destruct I as (b & a & ->). destruct e as [| | | |h' t vs|]; try destruct J.
  destruct (Nat.eqb_spec h' h) as [->|]; [|destruct J]. specialize (S b (Put h t vs) a h eq_refl eq_refl).
  rewrite made_app, app_length in L. lia.
Qed.
Lemma attached_fresh es s h : sensible es -> (forall n s', In (Attach n s') es -> first_of n 0 es <> None) -> (length (made es) <= h)%nat -> attached s h es = 0%nat.
Proof.
  intros S A L. unfold attached. destruct (filter _ es) as [|e r] eqn:E; [reflexivity|]. exfalso.
  assert (I : In e (e :: r)) by now left. rewrite <- E in I. apply filter_In in I. destruct I as [I J].
  destruct e as [| |n s'|h' s'| |]; try discriminate.
  - cbn in J. apply andb_true_iff in J. destruct J as [_ J]. destruct (first_of n 0 es) as [k|] eqn:F; [|discriminate].
    apply Nat.eqb_eq in J. subst. apply first_of_bound in F. lia.
  - cbn in J. apply andb_true_iff in J. destruct J as [J _]. apply Nat.eqb_eq in J. subst.
    apply in_split in I. destruct I as (b & a & ->). specialize (S b (AttachTo h s') a h eq_refl eq_refl).
    rewrite made_app, app_length in L. lia.
Qed.
Lemma sensible_prefix es es' : sensible (es ++ es') -> sensible es.
Proof. intros S b e a h -> U. apply (S b e (a ++ es') h); [|assumption]. now rewrite <- app_assoc. Qed.

Lemma agrees_add es y b : agrees es y -> sensible es -> forall e names, made [e] = [b] -> uses e = None -> (forall s h, attaches s h es e = false) ->
  (forall n s, e <> Attach n s) -> (forall n, find_name n names = first_of n 0 (es ++ [e])) ->
  agrees (es ++ [e]) (mk_system names (y_objects y ++ [mk_output b [] []]) (y_written y)).
Proof.
  intros A S e names M U T N F.
  assert (L : length (y_objects y) = length (made es)) by (rewrite <- (ag_objects _ _ A), map_length; reflexivity).
  assert (W : forall h, values_of h [e] = []) by (intros h; destruct e; try reflexivity; discriminate U).
  assert (Q : forall s h, attached s h (es ++ [e]) = attached s h es).
  { intros s h. rewrite attached_more; [rewrite T; lia| |apply (ag_attached _ _ A)]. intros n s' ->. exfalso. now apply (N n s'). }
  split; cbn [y_objects y_names].
  - rewrite map_app, made_app, (ag_objects _ _ A), M. reflexivity.
  - exact F.
  - intros h o s E. rewrite Q. destruct (Nat.lt_ge_cases h (length (y_objects y))) as [H|H].
    + rewrite nth_error_app1 in E by assumption. now apply (ag_streams _ _ A).
    + rewrite nth_error_app2 in E by assumption. destruct (h - length (y_objects y))%nat as [|k] eqn:D; [|destruct k; discriminate].
      injection E as <-. cbn. symmetry. apply attached_fresh; [assumption|apply (ag_attached _ _ A)|lia].
  - intros h o E. rewrite values_of_app, W, app_nil_r. destruct (Nat.lt_ge_cases h (length (y_objects y))) as [H|H].
    + rewrite nth_error_app1 in E by assumption. now apply (ag_values _ _ A).
    + rewrite nth_error_app2 in E by assumption. destruct (h - length (y_objects y))%nat as [|k] eqn:D; [|destruct k; discriminate].
      injection E as <-. cbn. symmetry. apply values_fresh; [assumption|lia].
  - intros n s I. apply in_app_or in I. rewrite first_of_app. destruct I as [I|[I|[]]]; [|now elim (N n s)].
    pose proof (ag_attached _ _ A n s I). destruct (first_of n 0 es); [discriminate|contradiction].
Qed.
Lemma agrees_keep es y e names objects written : agrees es y -> made [e] = [] -> names = y_names y ->
  map (@o_buffered V) objects = map (@o_buffered V) (y_objects y) ->
  (forall n s, e = Attach n s -> first_of n 0 es <> None) ->
  (forall h o s, nth_error objects h = Some o -> exists o', nth_error (y_objects y) h = Some o' /\ count s (o_streams o) = (count s (o_streams o') + if attaches s h es e then 1 else 0)%nat /\ o_values o = o_values o' ++ values_of h [e]) ->
  agrees (es ++ [e]) (mk_system names objects written).
Proof.
  intros A M -> B T O.
  assert (F : forall n, first_of n 0 (es ++ [e]) = first_of n 0 es).
  { intros n. rewrite first_of_app. destruct (first_of n 0 es); [reflexivity|]. destruct e; try reflexivity; discriminate M. }
  split; cbn [y_objects y_names].
  - rewrite made_app, M, app_nil_r, B. apply (ag_objects _ _ A).
  - intros n. rewrite F. apply (ag_names _ _ A).
  - intros h o s E. destruct (O h o s E) as (o' & E' & C & _). rewrite C, (ag_streams _ _ A _ _ _ E').
    rewrite attached_more; [reflexivity|assumption|apply (ag_attached _ _ A)].
  - intros h o E. destruct (O h o 0%nat E) as (o' & E' & _ & C). rewrite C, (ag_values _ _ A _ _ E'), values_of_app. reflexivity.
  - intros n s I. rewrite F. apply in_app_or in I. destruct I as [I|[I|[]]]; [now apply (ag_attached _ _ A n s)|now apply (T n s)].
Qed.
Lemma count_add s x l : count s (l ++ [x]) = (count s l + if Nat.eqb x s then 1 else 0)%nat.
Proof. unfold count. rewrite filter_app, app_length. cbn. destruct (Nat.eqb x s); reflexivity. Qed.

Lemma agrees_step es y e y' : agrees es y -> sensible (es ++ [e]) -> happen show e y = Ret y' -> agrees (es ++ [e]) y'.
Proof.
  intros A S E. pose proof (sensible_prefix _ _ S) as S'. destruct e as [b|n|n s|h s|h t vs|]; cbn [happen] in E.
  - injection E as <-. apply (agrees_add es y b A S'); try reflexivity; try discriminate.
    intros n. rewrite (ag_names _ _ A), first_of_app. cbn. destruct (first_of n 0 es); reflexivity.
  - injection E as <-. unfold create_output. apply (agrees_add es y false A S'); try reflexivity; try discriminate.
    intros m. rewrite first_of_app. cbn [first_of]. rewrite (ag_names _ _ A). cbn [construct y_objects].
    assert (L : length (y_objects y) = length (made es)) by (rewrite <- (ag_objects _ _ A), map_length; reflexivity).
    destruct (first_of n 0 es) as [k|] eqn:F.
    + rewrite (ag_names _ _ A). destruct (first_of m 0 es) eqn:G; [reflexivity|].
      destruct (list_eq_dec Z.eq_dec n m) as [->|]; [congruence|reflexivity].
    + rewrite find_name_app, (ag_names _ _ A). destruct (first_of m 0 es); [reflexivity|].
      destruct (text_eqb n m) eqn:T; destruct (list_eq_dec Z.eq_dec n m) as [D|D].
      * now rewrite L.
      * apply text_eqb_eq in T. contradiction.
      * subst. rewrite (proj2 (text_eqb_eq m m) eq_refl) in T. discriminate.
      * reflexivity.
  - unfold add_output_stream in E. rewrite (ag_names _ _ A) in E. destruct (first_of n 0 es) as [k|] eqn:F; [|discriminate]. injection E as <-.
    apply (agrees_keep es y); [assumption|reflexivity|reflexivity|now apply map_change| |].
    + intros n' s' H. injection H as -> ->. congruence.
    + intros h o s' H. rewrite nth_error_change in H. destruct (Nat.eqb_spec h k) as [->|N].
      * destruct (nth_error (y_objects y) k) as [o'|] eqn:G; [|discriminate]. injection H as <-. exists o'. split; [reflexivity|].
        cbn [attaches add_stream o_streams o_values values_of flat_map]. rewrite count_add, F, Nat.eqb_refl, andb_true_r, app_nil_r. auto.
      * exists o. split; [assumption|]. cbn [attaches values_of flat_map]. rewrite F. destruct (Nat.eqb_spec k h); [congruence|].
        rewrite andb_false_r, app_nil_r. split; [lia|reflexivity].
  - injection E as <-. apply (agrees_keep es y); [assumption|reflexivity|reflexivity|now apply map_change|discriminate|].
    intros k o s' H. rewrite nth_error_change in H. destruct (Nat.eqb_spec k h) as [->|N].
    + destruct (nth_error (y_objects y) h) as [o'|] eqn:G; [|discriminate]. injection H as <-. exists o'. split; [reflexivity|].
      cbn [attaches add_stream o_streams o_values values_of flat_map]. rewrite count_add, Nat.eqb_refl, app_nil_r. auto.
    + exists o. split; [assumption|]. cbn [attaches values_of flat_map]. destruct (Nat.eqb_spec h k); [congruence|].
      rewrite app_nil_r, Nat.add_0_r. split; reflexivity.
  - injection E as <-. unfold put. destruct (nth_error (y_objects y) h) as [o0|] eqn:G.
    + apply (agrees_keep es y); [assumption|reflexivity|reflexivity|now apply map_change|discriminate|].
      intros k o s' H. rewrite nth_error_change in H. cbn [values_of flat_map attaches]. destruct (Nat.eqb_spec k h) as [->|N].
      * rewrite G in H. injection H as <-. exists o0. split; [assumption|]. rewrite Nat.eqb_refl, Nat.add_0_r. split; reflexivity.
      * exists o. split; [assumption|]. destruct (Nat.eqb_spec h k); [congruence|]. rewrite app_nil_r, Nat.add_0_r. split; reflexivity.
    + exfalso. apply nth_error_None in G. specialize (S es (Put h t vs) [] h eq_refl eq_refl).
      rewrite <- (ag_objects _ _ A), map_length in S. lia.
  - injection E as <-. unfold after_run. destruct y as [ns os w]. apply (agrees_keep es (mk_system ns os w)); try reflexivity; try discriminate; [assumption|].
    intros h o s H. exists o. split; [assumption|]. cbn [attaches values_of flat_map]. rewrite app_nil_r, Nat.add_0_r. split; reflexivity.
Qed.

Lemma contents_written s names objects w w' : contents s (@mk_system V names objects (w ++ w')) = contents s (@mk_system V names objects w) ++ concat (map snd (filter (fun p => Nat.eqb (fst p) s) w')).
Proof. unfold contents. cbn. rewrite filter_app, map_app, concat_app. reflexivity. Qed.
Lemma written_lines (s : nat) (f : V -> text) streams vs :
  concat (map snd (filter (fun p => Nat.eqb (fst p) s) (flat_map (fun v => map (fun x => (x, f v)) streams) vs))) =
  flat_map (fun v => concat (repeat (f v) (count s streams))) vs.
Proof.
  induction vs as [|v vs IH]; [reflexivity|]. cbn [flat_map]. rewrite filter_app, map_app, concat_app, IH. f_equal.
  clear IH. unfold count. induction streams as [|x l IHl]; [reflexivity|]. cbn. destruct (Nat.eqb x s); cbn; [now rewrite IHl|exact IHl].
Qed.
Lemma contents_step es y e y' s : agrees es y -> sensible (es ++ [e]) -> happen show e y = Ret y' ->
  contents s y' = contents s y ++ received show s es [e].
Proof.
  intros A S E. cbn [received]. rewrite app_nil_r.
  destruct e as [b|n|n s'|h s'|h t vs|]; cbn [happen] in E; try (injection E as <-; rewrite app_nil_r; reflexivity).
  - unfold add_output_stream in E. destruct (find_name n (y_names y)); [|discriminate]. injection E as <-. rewrite app_nil_r. reflexivity.
  - injection E as <-. unfold put. destruct (nth_error (y_objects y) h) as [o|] eqn:G.
    + assert (B : nth h (made es) true = o_buffered o).
      { rewrite <- (ag_objects _ _ A). apply nth_error_nth. rewrite nth_error_map, G. reflexivity. }
      rewrite B. rewrite contents_written. f_equal. destruct (o_buffered o); [reflexivity|].
      rewrite written_lines, (ag_streams _ _ A _ _ s G). apply flat_map_ext. intros v. now rewrite line_text.
    + exfalso. apply nth_error_None in G. specialize (S es (Put h t vs) [] h eq_refl eq_refl).
      rewrite <- (ag_objects _ _ A), map_length in S. lia.
Qed.
Lemma received_app s es : forall before es', received show s before (es ++ es') = received show s before es ++ received show s (before ++ es) es'.
Proof.
  induction es as [|e es IH]; intros before es'; cbn; [now rewrite app_nil_r|]. rewrite IH, <- !app_assoc. reflexivity.
Qed.
Theorem history_agrees es : forall y, sensible es -> history show es nothing = Ret y -> agrees es y /\ forall s, contents s y = received show s [] es.
Proof.
  induction es as [|e es IH] using rev_ind; intros y S E.
  - injection E as <-. split; [apply agrees_nothing|reflexivity].
  - rewrite history_app in E. destruct (history show es nothing) as [y0| |] eqn:F; try discriminate.
    destruct (IH y0 (sensible_prefix _ _ S) eq_refl) as [A C]. cbn in E. destruct (happen show e y0) as [y1| |] eqn:G; try discriminate. injection E as <-.
    split; [now apply (agrees_step es y0)|]. intros s. rewrite (contents_step es y0 e y1 s A S G), C, received_app. reflexivity.
Qed.
End Histories.

(** ** Reading a stream back *)
Lemma lines_inj {V} (show : V -> text) l : forall l', (forall p, In p (l ++ l') -> u64 (fst p) /\ ~ In 10 (show (snd p))) ->
  (forall p q, In p l -> In q l' -> show (snd p) = show (snd q) -> snd p = snd q) ->
  series_text show l = series_text show l' -> l = l'.
Proof.
  assert (N10 : forall p : Z * V, u64 (fst p) -> ~ In 10 (show (snd p)) -> ~ In 10 (codes "("%string ++ dec (fst p) ++ codes ", "%string ++ show (snd p) ++ codes ")"%string)).
  { intros p U S. cbn [codes]. intros I. repeat (apply in_app_or in I; destruct I as [I|I]); cbn in I;
      try (repeat (destruct I as [I|I]; [discriminate I|]); destruct I); try contradiction. now apply dec_no in I; [|assumption|lia]. }
  induction l as [|[t v] l IH]; intros [|[t' v'] l'] H I E.
  - reflexivity.
  - discriminate.
  - discriminate.
  - destruct (H (t, v)) as [U S]; [now left|]. destruct (H (t', v')) as [U' S']; [apply in_or_app; right; now left|]. cbn [fst snd] in *.
    unfold series_text in E. cbn [flat_map fst snd] in E. unfold text_line in E. rewrite !app_assoc in E. rewrite <- !(app_assoc _ [10]) in E.
    cbn [app] in E. rewrite <- !app_assoc in E.
    change (codes "("%string ++ dec t ++ codes ", "%string ++ show v ++ codes ")"%string ++ 10 :: series_text show l =
            codes "("%string ++ dec t' ++ codes ", "%string ++ show v' ++ codes ")"%string ++ 10 :: series_text show l') in E.
    rewrite !app_assoc in E. apply split_at in E.
    + destruct E as [E1 E2]. rewrite <- !app_assoc in E1.
      apply IH in E2; [| |].
      * cbn [codes app] in E1. injection E1 as E1. apply split_at in E1; [|now apply dec_no; [|lia]|now apply dec_no; [|lia]].
        destruct E1 as [E1 E3]. injection E3 as E3. apply app_inj_tail in E3. destruct E3 as [E3 _].
        apply dec_inj in E1; [|assumption|assumption]. subst. f_equal. f_equal. apply (I (t', v) (t', v')); [now left|now left|assumption].
      * intros p Hp. apply H. cbn. right. apply in_or_app. apply in_app_or in Hp. destruct Hp; [now left|right; now right].
      * intros p q Hp Hq. apply I; now right.
    + rewrite <- !app_assoc. now apply (N10 (t, v)).
    + rewrite <- !app_assoc. now apply (N10 (t', v')).
Qed.
