(** Lemmas about the formats. *)
From Coq Require Import ZifyBool ZifyNat.
From Verif Require Import Base BinaryBook Format Format_spec.

Section Dsv.
Context (d q e : Z) (Hdq : d <> q) (Hde : d <> e) (Hqe : q <> e).
Definition esc (c : Z) : list Z := if (q =? c) || (e =? c) then [e; c] else [c].
Lemma read_body quoted text : forall cur s, (quoted = true \/ existsb (Z.eqb d) text = false) ->
  read_fields d q e quoted false cur (flat_map esc text ++ s) = read_fields d q e quoted false (cur ++ text) s.
Proof.
  induction text as [|c text IH]; intros cur s H; cbn [flat_map app]; [now rewrite app_nil_r|].
  assert (H' : quoted = true \/ existsb (Z.eqb d) text = false) by (destruct H as [H|H]; [now left|right; cbn in H; now apply orb_false_elim in H]).
  replace (cur ++ c :: text) with ((cur ++ [c]) ++ text) by now rewrite <- app_assoc.
  unfold esc at 1. destruct ((q =? c) || (e =? c)) eqn:E; cbn [app read_fields].
  - rewrite Z.eqb_refl. rewrite (IH _ s H'). reflexivity.
  - apply orb_false_elim in E. destruct E as [E1 E2]. rewrite (Z.eqb_sym c e), E2, (Z.eqb_sym c q), E1.
    assert (negb quoted && (c =? d) = false) as ->; [|now apply IH].
    destruct H as [->|H]; [reflexivity|]. cbn in H. apply orb_false_elim in H. rewrite (Z.eqb_sym c d). destruct H as [-> _]. apply andb_false_r.
Qed.
Lemma read_render text s : read_fields d q e false false [] (render d q e text ++ s) = read_fields d q e false false text s.
Proof.
  unfold render. change (flat_map _ text) with (flat_map esc text).
  destruct (existsb (Z.eqb d) text || existsb (Z.eqb e) text) eqn:Q.
  - cbn [app read_fields]. assert (q =? e = false) as E by lia. rewrite E, Z.eqb_refl. rewrite <- app_assoc, read_body by now left.
    cbn [app read_fields negb]. rewrite E, Z.eqb_refl. cbn [negb]. reflexivity.
  - apply orb_false_elim in Q. apply read_body. right. apply Q.
Qed.
Lemma read_row row : row <> [] -> read_fields d q e false false [] (join d (map (render d q e) row)) = row.
Proof.
  induction row as [|t row IH]; intros N; [easy|]. destruct row as [|t' row].
  - cbn [map join]. rewrite <- (app_nil_r (render d q e t)), read_render. reflexivity.
  - change (join d (map (render d q e) (t :: t' :: row))) with (render d q e t ++ d :: join d (map (render d q e) (t' :: row))).
    rewrite read_render. cbn [read_fields]. assert (d =? e = false) as -> by lia. assert (d =? q = false) as -> by lia. rewrite Z.eqb_refl. cbn [negb andb]. f_equal. apply IH. discriminate.
Qed.
Context (Hd : d <> 10) (Hq : q <> 10) (He : e <> 10).
Definition safe (text : list Z) : Prop := In 10 text -> In d text \/ In e text.
Lemma lines_body quoted text : forall row cur s, (quoted = true \/ existsb (Z.eqb d) text = false /\ ~ In 10 text) ->
  read_lines d q e quoted false row cur (flat_map esc text ++ s) = read_lines d q e quoted false row (cur ++ text) s.
Proof.
  induction text as [|c text IH]; intros row cur s H; cbn [flat_map app]; [now rewrite app_nil_r|].
  assert (H' : quoted = true \/ existsb (Z.eqb d) text = false /\ ~ In 10 text) by (destruct H as [H|[H N]]; [now left|right; cbn in H, N; apply orb_false_elim in H; intuition]).
  replace (cur ++ c :: text) with ((cur ++ [c]) ++ text) by now rewrite <- app_assoc.
  unfold esc at 1. destruct ((q =? c) || (e =? c)) eqn:E; cbn [app read_lines].
  - rewrite Z.eqb_refl. rewrite (IH row _ s H'). reflexivity.
  - apply orb_false_elim in E. destruct E as [E1 E2]. rewrite (Z.eqb_sym c e), E2, (Z.eqb_sym c q), E1.
    assert (negb quoted && (c =? d) = false /\ negb quoted && (c =? 10) = false) as [-> ->]; [|now apply IH].
    destruct H as [->|[H N]]; [now split|]. cbn in H, N. apply orb_false_elim in H. rewrite (Z.eqb_sym c d). destruct H as [-> _]. split; [apply andb_false_r|]. assert (c =? 10 = false) as -> by lia. apply andb_false_r.
Qed.
Lemma lines_render text row s : safe text -> read_lines d q e false false row [] (render d q e text ++ s) = read_lines d q e false false row text s.
Proof.
  intros G. unfold render. change (flat_map _ text) with (flat_map esc text).
  destruct (existsb (Z.eqb d) text || existsb (Z.eqb e) text) eqn:Q.
  - cbn [app read_lines]. assert (q =? e = false) as E by lia. rewrite E, Z.eqb_refl. rewrite <- app_assoc, lines_body by now left.
    cbn [app read_lines negb]. rewrite E, Z.eqb_refl. cbn [negb]. reflexivity.
  - apply orb_false_elim in Q. destruct Q as [Q1 Q2]. apply lines_body. right. split; [exact Q1|]. intros I.
    assert (X : forall c, existsb (Z.eqb c) text = false -> ~ In c text). { intros c Hc Ic. assert (existsb (Z.eqb c) text = true) by (apply existsb_exists; exists c; split; [exact Ic|apply Z.eqb_refl]). congruence. }
    destruct (G I) as [J|J]; [now apply (X d)|now apply (X e)].
Qed.
Lemma lines_row row : forall done s, row <> [] -> Forall safe row ->
  read_lines d q e false false done [] (join d (map (render d q e) row) ++ 10 :: s) = (done ++ row) :: read_lines d q e false false [] [] s.
Proof.
  induction row as [|t row IH]; intros done s N F; [easy|]. inversion F as [|? ? F1 F2]. subst. destruct row as [|t' row].
  - cbn [map join]. rewrite lines_render by exact F1. cbn [read_lines]. assert (10 =? e = false) as -> by lia. assert (10 =? q = false) as -> by lia. assert (10 =? d = false) as -> by lia. reflexivity.
  - change (join d (map (render d q e) (t :: t' :: row))) with (render d q e t ++ d :: join d (map (render d q e) (t' :: row))). rewrite <- app_assoc.
    rewrite lines_render by exact F1. cbn [read_lines app]. assert (d =? e = false) as -> by lia. assert (d =? q = false) as -> by lia. rewrite Z.eqb_refl. cbn [negb andb].
    rewrite IH by (easy || exact F2). now rewrite <- app_assoc.
Qed.
Lemma lines_file rows : Forall (fun row => row <> [] /\ Forall safe row) rows ->
  read_lines d q e false false [] [] (flat_map (fun row => join d (map (render d q e) row) ++ [10]) rows) = rows.
Proof.
  induction 1 as [|row rows [N F] _ IH]; [reflexivity|]. cbn [flat_map]. rewrite <- app_assoc. cbn [app]. rewrite lines_row by assumption. now rewrite IH.
Qed.
End Dsv.

Lemma split_text d text : forall cur s, ~ In d text -> split_at d cur (text ++ s) = split_at d (cur ++ text) s.
Proof.
  induction text as [|c t IH]; intros cur s H; cbn [app split_at]; [now rewrite app_nil_r|].
  cbn in H. assert (c =? d = false) as -> by (apply Z.eqb_neq; intuition). rewrite IH by intuition. now rewrite <- app_assoc.
Qed.
Lemma split_row row : row <> [] -> Forall (fun t => ~ In 44 t) row -> split_at 44 [] (extract_elements row) = row.
Proof.
  induction row as [|t row IH]; intros N F; [easy|]. inversion F as [|? ? F1 F2]. subst. destruct row as [|t' row].
  - cbn [extract_elements]. rewrite <- (app_nil_r t) at 1. rewrite split_text by assumption. reflexivity.
  - change (extract_elements (t :: t' :: row)) with (t ++ 44 :: extract_elements (t' :: row)). rewrite split_text by assumption. cbn [app split_at].
    assert (44 =? 44 = true) as -> by reflexivity. f_equal. now apply IH.
Qed.

Lemma big_length n : forall z, length (big_endian n z) = n.
Proof. induction n; intros; cbn [big_endian]; rewrite ?app_length, ?IHn; cbn; lia. Qed.
Lemma big_field n : forall z, 0 <= z < 256 ^ Z.of_nat n -> little_endian (rev (big_endian n z)) = z.
Proof.
  induction n as [|n IH]; intros z H; cbn [big_endian]. - cbn. change (256 ^ Z.of_nat 0) with 1 in H. lia.
  - rewrite rev_app_distr. cbn [rev app little_endian]. replace (Z.of_nat (S n)) with (Z.of_nat n + 1) in H by lia. rewrite Z.pow_add_r in H by lia. change (256 ^ 1) with 256 in H.
    rewrite IH. + pose proof (Z.div_mod z 256). lia.
    + split; [apply Z.div_pos; lia|apply Z.div_lt_upper_bound; lia].
Qed.

Lemma skip_front (a b : list Z) k n : length a = n -> (n <= k)%nat -> skipn k (a ++ b) = skipn (k - n) b.
Proof. intros L H. rewrite skipn_app, L. rewrite skipn_all2 by lia. reflexivity. Qed.
Lemma first_front (a b : list Z) n : length a = n -> firstn n (a ++ b) = a.
Proof. intros L. rewrite firstn_app, <- L, firstn_all, Nat.sub_diag. cbn. apply app_nil_r. Qed.
Lemma nth_skip (l : list Z) k x : nth k l x = nth 0 (skipn k l) x.
Proof. revert l. induction k; destruct l; cbn [skipn nth]; auto. Qed.

Lemma space_white c : space c = true <-> white c.
Proof. unfold space, white. cbn. lia. Qed.
Lemma drop_pad p : Forall white p -> forall l, drop_spaces (p ++ l) = drop_spaces l.
Proof. induction 1 as [|c p W P IH]; intros; cbn [app drop_spaces]; [reflexivity|]. rewrite (proj2 (space_white c) W). apply IH. Qed.
Lemma trim_pad s p : ~ white (last s 0) -> Forall white p -> trim_right (s ++ p) = s.
Proof.
  intros H0 P. assert (H : forall c, last s 0 = c -> space c = false).
  { intros c <-. destruct (space (last s 0)) eqn:E; [apply space_white in E; contradiction|reflexivity]. }
  unfold trim_right. rewrite rev_app_distr, drop_pad by now apply Forall_rev. destruct s as [|a s] using rev_ind; [reflexivity|]. rewrite rev_app_distr. cbn [rev app drop_spaces].
  rewrite last_last in H. rewrite (H a eq_refl). rewrite <- (rev_involutive s) at 2. change (a :: rev s) with ([a] ++ rev s). now rewrite rev_app_distr.
Qed.
Lemma layout_length u : well_formed u -> length (layout u) = 71%nat.
Proof.
  unfold well_formed, layout. intros (? & ? & ? & ? & ? & ? & ? & ? & ? & _). rewrite !app_length, !big_length by assumption. cbn [length]. lia.
Qed.

Ltac sk L := match type of L with length ?a = ?n =>
  repeat match goal with |- context [skipn ?k (a ++ ?b)] => rewrite (skip_front a b k n L) by lia; cbn [Nat.sub] end end.
Lemma read_layout u : well_formed u ->
  read_message (layout u) = if is_update u then
    match event_lot (u_scale u) with Ret lot => Ret [entry_of (event_time (u_milliseconds u) (u_microseconds u)) lot u] | Throw => Throw | UB => UB end
  else Ret [].
Proof.
  unfold well_formed. intros (L1 & L2 & L3 & L4 & L5 & L6 & L7 & L8 & Pw & S & T & M1 & M2 & N & Q).
  assert (L9 : length (u_symbol u ++ u_padding u) = 11%nat) by (rewrite app_length; exact L8).
  pose proof (big_length 2 (u_type u)) as B1. pose proof (big_length 4 (u_milliseconds u)) as B2. pose proof (big_length 2 (u_microseconds u)) as B3.
  pose proof (big_length 4 (u_numerator u)) as B4. pose proof (big_length 4 (u_quantity u)) as B5.
  assert (C : length [u_condition u; u_status u] = 2%nat) by reflexivity. assert (C1 : length [u_scale u] = 1%nat) by reflexivity.
  assert (C2 : length [u_side u; u_filler u; u_reason u] = 3%nat) by reflexivity.
  assert (Sk : forall k, (4 <= k)%nat -> skipn k (layout u) = skipn (k - 4) (big_endian 2 (u_type u) ++ u_send_time u ++ (u_symbol u ++ u_padding u) ++ u_size_index u ++
  big_endian 4 (u_milliseconds u) ++ big_endian 2 (u_microseconds u) ++ [u_condition u; u_status u] ++ u_source u ++
  [u_scale u] ++ big_endian 4 (u_numerator u) ++ u_volume u ++ big_endian 4 (u_quantity u) ++ u_orders u ++ [u_side u; u_filler u; u_reason u] ++ u_suffix u)) by (intros; now apply skip_front).
  unfold read_message, field, byte.
  rewrite (nth_skip _ 40), (nth_skip _ 34), (nth_skip _ 57), (nth_skip _ 55).
  rewrite !Sk by lia. cbn [Nat.sub].
  sk B1. sk L2. sk L9. sk L3. sk B2. sk B3. sk C. sk L4. sk C1. sk B4. sk L5. sk B5. sk L6.
  cbn [skipn]. rewrite !first_front by assumption. cbn [app skipn nth].
  rewrite !big_field by (change (256 ^ Z.of_nat 2) with (2 ^ 16); change (256 ^ Z.of_nat 4) with (2 ^ 32); assumption). rewrite trim_pad by assumption.
  unfold is_update, entry_of. reflexivity.
Qed.

(** What the reader does with a list of messages. *)
Fixpoint deliveries (us : list update) : outcome (list entry) :=
  match us with
  | [] => Ret []
  | u :: us' =>
    match (if is_update u then match event_lot (u_scale u) with Ret lot => Ret [entry_of (event_time (u_milliseconds u) (u_microseconds u)) lot u] | Throw => Throw | UB => UB end else Ret []) with
    | Ret e => match deliveries us' with Ret es => Ret (e ++ es) | Throw => Throw | UB => UB end
    | Throw => Throw | UB => UB end
  end.
Lemma read_deliveries us tail : Forall well_formed us -> (length tail < 71)%nat ->
  read_openbook (flat_map layout us ++ tail) = deliveries us.
Proof.
  intros F T. unfold read_openbook. assert (length (flat_map layout us ++ tail) / 71 = length us)%nat as ->.
  { rewrite app_length. assert (length (flat_map layout us) = 71 * length us)%nat as ->.
    { induction F as [|u us H F IH]; [reflexivity|]. cbn [flat_map length]. rewrite app_length, IH, (layout_length u H). lia. }
    rewrite Nat.mul_comm, Nat.div_add_l, Nat.div_small by lia. lia. }
  induction F as [|u us H F IH]; [reflexivity|]. cbn [flat_map length read_messages deliveries]. rewrite <- app_assoc.
  rewrite (first_front _ _ _ (layout_length u H)), (skip_front _ _ _ _ (layout_length u H)) by lia. change (71 - 71)%nat with 0%nat. cbn [skipn]. rewrite IH, (read_layout u H). reflexivity.
Qed.
Lemma event_time_mod s u : event_time s u = (1000 * s + u) mod 2 ^ 32.
Proof. unfold event_time, w32, W32. rewrite Z.add_mod_idemp_l by lia. f_equal. lia. Qed.
Lemma event_lot_value s : 2 <= s <= 11 -> event_lot s = Ret (10 ^ (s - 2)).
Proof.
  intros H. unfold event_lot. assert (10 ^ s / 100 = 10 ^ (s - 2)) as ->.
  { replace s with ((s - 2) + 2) at 1 by lia. rewrite Z.pow_add_r by lia. change (10 ^ 2) with 100. apply Z.div_mul. lia. }
  assert (10 ^ (s - 2) <= 10 ^ 9) by (apply Z.pow_le_mono_r; lia). change (10 ^ 9) with 1000000000 in *. pose proof (Z.pow_pos_nonneg 10 (s - 2)).
  unfold W32. assert (2 ^ 32 <=? 10 ^ (s - 2) = false) as -> by lia. assert (10 ^ (s - 2) =? 0 = false) as -> by lia. reflexivity.
Qed.
Lemma same_text_eq a : forall b, same_text a b = true <-> a = b.
Proof.
  induction a as [|x a IH]; intros [|y b]; cbn [same_text]; try easy. rewrite andb_true_iff, IH, Z.eqb_eq. split; [intros [-> ->]; reflexivity|intros H; injection H; auto].
Qed.
