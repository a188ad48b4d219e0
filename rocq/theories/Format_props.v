(** C69-C71, C87-C89: delimiter separated values and OpenBook files. *)
From Coq Require Import ZifyBool ZifyNat.
From Coq Require Import String.
From Verif Require Import Base BinaryBook Text Format Format_spec Format_proofs.
Local Open Scope Z_scope.
Local Open Scope list_scope.

(** Rendered texts joined by delimiters are read back as the same texts, so each can be read back and none
    contains an unprotected delimiter. *)
Theorem C69_row_round_trip : forall delimiter quote escape texts, delimiter <> quote -> delimiter <> escape -> quote <> escape -> texts <> [] ->
  read_fields delimiter quote escape false false [] (join delimiter (map (render delimiter quote escape) texts)) = texts.
Proof. intros d q e texts H1 H2 H3 N. now apply read_row. Qed.
Print Assumptions C69_row_round_trip.
Theorem C69_field_round_trip : forall delimiter quote escape text, delimiter <> quote -> delimiter <> escape -> quote <> escape ->
  read_fields delimiter quote escape false false [] (render delimiter quote escape text) = [text].
Proof. intros d q e text H1 H2 H3. apply (C69_row_round_trip d q e [text]); auto. discriminate. Qed.
Print Assumptions C69_field_round_trip.
(** Texts that need no protection are left alone. *)
Theorem C69_plain : forall delimiter quote escape text, ~ In delimiter text -> ~ In quote text -> ~ In escape text -> render delimiter quote escape text = text.
Proof.
  intros d q e text H1 H2 H3. unfold render.
  assert (forall c, ~ In c text -> existsb (Z.eqb c) text = false) as X.
  { intros c H. apply not_true_is_false. intros E. apply existsb_exists in E. destruct E as (y & I & E). apply Z.eqb_eq in E. now subst. }
  rewrite (X d H1), (X e H3). cbn [orb]. clear H1 X. induction text as [|c t IH]; [reflexivity|]. cbn [flat_map]. cbn in H2, H3.
  assert ((q =? c) || (e =? c) = false) as -> by (apply orb_false_intro; apply Z.eqb_neq; intuition congruence). cbn [app]. f_equal. apply IH; intuition.
Qed.
Print Assumptions C69_plain.
Example C69_example : let texts := [codes "plain"; codes "a,b"; [34; 104; 105; 34]; [92]; []; [34; 44; 92; 34]] in
  join 44 (map (render 44 34 92) texts) <> join 44 texts /\ read_fields 44 34 92 false false [] (join 44 (map (render 44 34 92) texts)) = texts.
Proof. split; [vm_compute; discriminate|vm_compute; reflexivity]. Qed.

(** Rows are written without any protection: two different rows with as many columns are written alike,
    whatever the texts in them. *)
Theorem C70_refuted : forall a b c rest, let row := a :: (b ++ 44 :: c) :: rest in let other := (a ++ 44 :: b) :: c :: rest in
  row <> other /\ length row = length other /\ render_row row = render_row other.
Proof.
  intros a b c rest. cbv zeta. split; [|split; [reflexivity|]].
  - intros H. injection H as H _. apply (f_equal (@length Z)) in H. rewrite app_length in H. cbn in H. lia.
  - unfold render_row. f_equal. destruct rest as [|d rest]; cbn [extract_elements]; rewrite <- ?app_assoc; cbn [app]; rewrite <- ?app_assoc; reflexivity.
Qed.
Print Assumptions C70_refuted.
(** Without commas and line breaks the columns can be told apart. *)
Theorem C70_without_delimiters : forall row, row <> [] -> Forall (fun t => ~ In 44 t) row ->
  exists line, render_row row = line ++ [10] /\ split_at 44 [] line = row.
Proof. intros row N F. exists (extract_elements row). split; [reflexivity|now apply split_row]. Qed.
Print Assumptions C70_without_delimiters.
(** All rows are written, one per line. *)
Theorem C70_table : forall rows, Forall (fun row => row <> [] /\ Forall (fun t => ~ In 44 t /\ ~ In 10 t) row) rows ->
  map (split_at 44 []) (removelast (split_at 10 [] (render_records rows))) = rows.
Proof.
  assert (E : forall rows, Forall (fun row => Forall (fun t => ~ In 44 t /\ ~ In 10 t) row) rows -> split_at 10 [] (render_records rows) = map extract_elements rows ++ [[]]).
  { induction 1 as [|row rows F _ IH]; [reflexivity|]. unfold render_records in *. cbn [flat_map map]. unfold render_row at 1. rewrite <- app_assoc, split_text.
    - cbn [app split_at]. cbn. now rewrite IH.
    - clear - F. induction F as [|t row [F1 F2] F IH]; [intros []|]. destruct row as [|u row]; [exact F2|].
      change (extract_elements (t :: u :: row)) with (t ++ 44 :: extract_elements (u :: row)). intros H. apply in_app_or in H. destruct H as [H|[H|H]]; [contradiction|discriminate|contradiction]. }
  intros rows F. rewrite E by (eapply Forall_impl; [|exact F]; cbv beta; intros a [_ H]; exact H). rewrite removelast_last, map_map. rewrite <- (map_id rows) at 2. apply map_ext_in. intros row Hr.
  rewrite Forall_forall in F. destruct (F row Hr) as [N G]. apply split_row; [exact N|]. eapply Forall_impl; [|exact G]. cbv beta. intros t [H _]. exact H.
Qed.
Print Assumptions C70_table.
Example C70_table_case : render_records [[codes "a"; codes "1"]; [codes "b"; codes "2"]] = codes "a,1" ++ [10] ++ codes "b,2" ++ [10].
Proof. reflexivity. Qed.
Example C70_example : render_row [codes "a"; codes "b,c"] = render_row [codes "a,b"; codes "c"] /\
  split_at 44 [] (codes "12,x y,-3") = [codes "12"; codes "x y"; codes "-3"].
Proof. split; reflexivity. Qed.

(** A line break does not make a text quoted, and is not escaped. *)
Theorem C88_line_break_refuted : forall delimiter quote escape a b,
  ~ In delimiter (a ++ 10 :: b) -> ~ In quote (a ++ 10 :: b) -> ~ In escape (a ++ 10 :: b) ->
  render delimiter quote escape (a ++ 10 :: b) ++ [10] = render delimiter quote escape a ++ [10] ++ render delimiter quote escape b ++ [10].
Proof.
  intros d q e a b H1 H2 H3. rewrite !C69_plain; [now rewrite <- app_assoc| | | | | | | | |]; auto;
    intros I; first [solve [apply H1; apply in_or_app; cbn; auto] | solve [apply H2; apply in_or_app; cbn; auto] | solve [apply H3; apply in_or_app; cbn; auto]].
Qed.
Print Assumptions C88_line_break_refuted.
(** Records can be told apart if each text with a line break contains something else for which it is quoted. *)
Theorem C88_otherwise : forall delimiter quote escape rows, NoDup [delimiter; quote; escape; 10] ->
  Forall (fun row => row <> [] /\ Forall (fun text => In 10 text -> In delimiter text \/ In escape text) row) rows ->
  read_lines delimiter quote escape false false [] [] (flat_map (fun row => join delimiter (map (render delimiter quote escape) row) ++ [10]) rows) = rows.
Proof.
  intros d q e rows N F. inversion N as [|? ? N1 M1]; subst. inversion M1 as [|? ? N2 M2]; subst. inversion M2 as [|? ? N3 _]; subst. cbn in N1, N2, N3.
  apply lines_file; intuition congruence || exact F.
Qed.
Print Assumptions C88_otherwise.
Example C88_otherwise_case : let rows := [[codes "a"; [98; 10; 44]]; [[92; 10; 34]; codes "c,d"; []]; [[]]] in
  read_lines 44 34 92 false false [] [] (flat_map (fun row => join 44 (map (render 44 34 92) row) ++ [10]) rows) = rows /\
  read_lines 44 34 92 false false [] [] (join 44 (map (render 44 34 92) [[97; 10; 98]]) ++ [10]) = [[codes "a"]; [codes "b"]].
Proof. split; vm_compute; reflexivity. Qed.
Example C88_example : render 44 34 92 ([97; 10; 98] ++ []) ++ [10] = render 44 34 92 [97] ++ [10] ++ render 44 34 92 [98] ++ [10].
Proof. reflexivity. Qed.

(** Every update in the file is delivered once, in order and with its symbol, status, reason, price, quantity and
    side, and nothing else is; a partial message at the end is ignored. The time is reduced modulo 2^32 microseconds. *)
Theorem C87_all_updates : forall us tail, Forall well_formed us -> Forall (fun u => is_update u = true -> 2 <= u_scale u <= 11) us -> (length tail < 71)%nat ->
  read_openbook (flat_map layout us ++ tail) =
    Ret (map (fun u => entry_of ((1000 * u_milliseconds u + u_microseconds u) mod 2 ^ 32) (10 ^ (u_scale u - 2)) u) (filter is_update us)).
Proof.
  intros us tail F S T. rewrite (read_deliveries us tail F T). clear F. induction S as [|u us H S IH]; [reflexivity|].
  cbn [deliveries filter]. destruct (is_update u).
  - rewrite (event_lot_value _ (H eq_refl)), IH, event_time_mod. reflexivity.
  - rewrite IH. reflexivity.
Qed.
Print Assumptions C87_all_updates.
(** Prices with no or with one decimal are lost: reading stops with an exception at the first of them. *)
Theorem C87_few_decimals_refuted : forall us u vs tail, Forall well_formed (us ++ u :: vs) -> Forall (fun u => is_update u = true -> 2 <= u_scale u <= 11) us ->
  is_update u = true -> 0 <= u_scale u <= 1 -> (length tail < 71)%nat -> read_openbook (flat_map layout (us ++ u :: vs) ++ tail) = Throw.
Proof.
  intros us u vs tail F S U K T. rewrite (read_deliveries _ tail F T). clear F. induction S as [|v us H S IH]; cbn [app deliveries].
  - rewrite U. assert (u_scale u = 0 \/ u_scale u = 1) as [E|E] by lia; rewrite E; reflexivity.
  - rewrite IH. destruct (is_update v); [rewrite (event_lot_value _ (H eq_refl))|]; reflexivity.
Qed.
Print Assumptions C87_few_decimals_refuted.
(** Prices with more than eleven decimals are undefined behaviour. *)
Theorem C87_many_decimals_refuted : forall u tail, well_formed u -> is_update u = true -> 12 <= u_scale u -> (length tail < 71)%nat ->
  read_openbook (layout u ++ tail) = UB.
Proof.
  intros u tail F U K T. pose proof (read_deliveries [u] tail (Forall_cons u F (Forall_nil _)) T) as E. cbn [flat_map] in E. rewrite app_nil_r in E. rewrite E. cbn [deliveries]. rewrite U.
  unfold event_lot. assert (10 ^ 12 <= 10 ^ u_scale u) by (apply Z.pow_le_mono_r; lia). assert (10 ^ 12 / 100 <= 10 ^ u_scale u / 100) by (apply Z.div_le_mono; lia).
  change (10 ^ 12 / 100) with 10000000000 in *. unfold W32. assert (2 ^ 32 <=? 10 ^ u_scale u / 100 = true) as -> by lia. reflexivity.
Qed.
Print Assumptions C87_many_decimals_refuted.

(** The time of every update from 2^32 microseconds (01:11:34.967) on is wrong. *)
Theorem C71_refuted : forall us tail u es, Forall well_formed us -> Forall (fun u => is_update u = true -> 2 <= u_scale u <= 11) us -> (length tail < 71)%nat ->
  In u us -> is_update u = true -> 2 ^ 32 <= 1000 * u_milliseconds u + u_microseconds u -> read_openbook (flat_map layout us ++ tail) = Ret es ->
  In (entry_of ((1000 * u_milliseconds u + u_microseconds u) mod 2 ^ 32) (10 ^ (u_scale u - 2)) u) es /\
  Forall (fun e => n_time e <> 1000 * u_milliseconds u + u_microseconds u) es.
Proof.
  intros us tail u es F S T I U K R. rewrite (C87_all_updates us tail F S T) in R. injection R as <-. split.
  - apply in_map_iff. exists u. split; [reflexivity|]. apply filter_In. auto.
  - apply Forall_forall. intros e H. apply in_map_iff in H. destruct H as (v & <- & _). cbn [n_time entry_of].
    pose proof (Z.mod_pos_bound (1000 * u_milliseconds v + u_microseconds v) (2 ^ 32) eq_refl). lia.
Qed.
Print Assumptions C71_refuted.
(** Before that it is right. *)
Theorem C71_early : forall us tail, Forall well_formed us -> Forall (fun u => is_update u = true -> 2 <= u_scale u <= 11) us -> (length tail < 71)%nat ->
  Forall (fun u => 1000 * u_milliseconds u + u_microseconds u < 2 ^ 32) us ->
  read_openbook (flat_map layout us ++ tail) = Ret (map (fun u => entry_of (1000 * u_milliseconds u + u_microseconds u) (10 ^ (u_scale u - 2)) u) (filter is_update us)).
Proof.
  intros us tail F S T K. rewrite (C87_all_updates us tail F S T). f_equal. apply map_ext_in. intros u H. apply filter_In in H. destruct H as [H _].
  rewrite Forall_forall in K, F. specialize (K u H). specialize (F u H). rewrite Z.mod_small; [reflexivity|].
  unfold well_formed in F. lia.
Qed.
Print Assumptions C71_early.
(** A buy order for 200 at 12.1000 in ABC, one at the given time of day and with the given decimals. *)
Definition demo_update (type milliseconds scale : Z) : update :=
  mk_update type (codes "ABC") [32; 32; 9; 32; 32; 32; 32; 32] milliseconds 7 79 scale 121000 200 66 79 (repeat 1 4) (repeat 2 4) (repeat 3 6) 32 (repeat 4 5) (repeat 5 4) (repeat 6 2) 7 (repeat 8 13).
Lemma demo_well_formed type milliseconds scale : 0 <= type < 2 ^ 16 -> 0 <= milliseconds < 2 ^ 32 -> well_formed (demo_update type milliseconds scale).
Proof. intros. unfold well_formed. cbn -[Z.pow white]. repeat split; try lia; try (repeat constructor; cbn; tauto); unfold white; cbn; lia. Qed.
(** A message that is no update is passed over, as is a message cut short; one decimal throws, twelve are undefined. *)
Example C87_case : Forall well_formed [demo_update 230 4000 4; demo_update 2 0 0; demo_update 231 5000 2] /\
  read_openbook (flat_map layout [demo_update 230 4000 4; demo_update 2 0 0; demo_update 231 5000 2] ++ firstn 70 (layout (demo_update 230 0 4))) =
    Ret [mk_entry (codes "ABC") 79 79 4000007 121000 100 200 Buy; mk_entry (codes "ABC") 79 79 5000007 121000 1 200 Buy] /\
  read_openbook (flat_map layout [demo_update 230 4000 4; demo_update 230 4000 1; demo_update 230 4000 4]) = Throw /\ read_openbook (layout (demo_update 230 4000 12)) = UB.
Proof.
  split; [apply Forall_cons; [apply demo_well_formed; lia|]; apply Forall_cons; [apply demo_well_formed; lia|]; apply Forall_cons; [apply demo_well_formed; lia|]; apply Forall_nil|]. split; [vm_compute; reflexivity|]. split; vm_compute; reflexivity.
Qed.
Example C71_example :
  read_openbook (flat_map layout [demo_update 230 4000000 4; demo_update 2 0 0; demo_update 231 34200000 2] ++ [1; 2; 3]) =
    Ret [mk_entry (codes "ABC") 79 79 4000000007 121000 100 200 Buy; mk_entry (codes "ABC") 79 79 (34200000007 - 7 * 2 ^ 32) 121000 1 200 Buy] /\
  read_openbook (flat_map layout [demo_update 230 4000000 4; demo_update 230 4000000 1]) = Throw.
Proof. split; vm_compute; reflexivity. Qed.

(** The main session of a symbol: its new orders and cancellations while the stock is open, in order. *)
Theorem C89_main_session : forall us tail symbol, Forall well_formed us -> Forall (fun u => is_update u = true -> 2 <= u_scale u <= 11) us -> (length tail < 71)%nat ->
  Forall (fun u => 1000 * u_milliseconds u + u_microseconds u < 2 ^ 32) us ->
  exists kept, parse_main_session (flat_map layout us ++ tail) symbol =
      Ret (map (fun u => entry_of (1000 * u_milliseconds u + u_microseconds u) (10 ^ (u_scale u - 2)) u) (filter kept us)) /\
    forall u, kept u = true <-> (u_type u = 230 \/ u_type u = 231) /\ u_symbol u = symbol /\ u_status u = 79 /\ (u_reason u = 79 \/ u_reason u = 67).
Proof.
  intros us tail symbol F S T K. set (g := fun u => entry_of _ _ u). exists (fun u => is_update u && main_session_keeps symbol (g u)). split.
  - unfold parse_main_session. rewrite (C71_early us tail F S T K). fold g. f_equal. clear. induction us as [|u us IH]; [reflexivity|]. cbn [filter]. destruct (is_update u); cbn [andb]; [|exact IH].
    cbn [map filter]. destruct (main_session_keeps symbol (g u)); cbn [map]; now rewrite IH.
  - intros u. unfold is_update, main_session_keeps, g, entry_of. cbn [n_status n_reason n_symbol]. rewrite !andb_true_iff, !orb_true_iff, !Z.eqb_eq, same_text_eq. intuition.
Qed.
Print Assumptions C89_main_session.
Example C89_example :
  parse_main_session (flat_map layout [demo_update 230 4000000 4; demo_update 2 0 0]) (codes "ABC") = Ret [mk_entry (codes "ABC") 79 79 4000000007 121000 100 200 Buy] /\
  parse_main_session (flat_map layout [demo_update 230 4000000 4; demo_update 2 0 0]) (codes "AB") = Ret [].
Proof. split; vm_compute; reflexivity. Qed.
