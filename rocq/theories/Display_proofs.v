(** Proofs about the display of the fixed-tick book. *)
From Coq Require Import ZifyBool ZifyNat.
From Verif Require Import Base BlockPool BlockPool_spec BlockPool_proofs StaticBook StaticBook_spec StaticBook_proofs StaticMatch_spec StaticMatch_proofs StaticMatch_more Display Display_spec.

Lemma zsum_part (f : entry -> bool) l : Forall (fun e => 0 < e_quantity e) l -> 0 <= zsum (map e_quantity (filter f l)) <= zsum (map e_quantity l).
Proof.
  induction 1 as [|e l P _ IH]; [cbn; lia|]. cbn [filter map]. change (zsum (e_quantity e :: map e_quantity l)) with (e_quantity e + zsum (map e_quantity l)).
  destruct (f e); cbn [map]; [|lia]. change (zsum (e_quantity e :: map e_quantity (filter f l))) with (e_quantity e + zsum (map e_quantity (filter f l))). lia.
Qed.
Lemma zsum_positive l : Forall (fun e => 0 < e_quantity e) l -> l <> [] -> 0 < zsum (map e_quantity l).
Proof.
  intros P N. destruct P as [|e l P1 P2]; [contradiction|]. cbn [map]. change (zsum (e_quantity e :: ?m)) with (e_quantity e + zsum m).
  pose proof (zsum_part (fun _ => true) l P2). rewrite filter_true in H by auto. lia.
Qed.
Lemma total_seg p : forall q n pre acc, seg p pre q None -> (length q <= n)%nat -> 0 <= acc -> Forall (fun a => 0 <= r_quantity (data p a)) q ->
  acc + zsum (map (fun a => r_quantity (data p a)) q) < W64 -> total n p (hd_error q) acc = Ok (acc + zsum (map (fun a => r_quantity (data p a)) q)).
Proof.
  induction q as [|a q IH]; intros n pre acc S L A F B; [destruct n; cbn; f_equal; lia|]. destruct n as [|n]; [cbn in L; lia|].
  cbn [seg] in S. destruct S as (_ & S2 & S3). cbn [hd_error total]. rewrite S2. change (match q with [] => None | b :: _ => Some b end) with (hd_error q).
  inversion F as [|? ? F1 F2]; subst. cbn [map] in B |- *. change (zsum (r_quantity (data p a) :: ?m)) with (r_quantity (data p a) + zsum m) in B |- *.
  assert (0 <= zsum (map (fun a => r_quantity (data p a)) q)).
  { clear - F2. induction F2 as [|x q Hx _ IH]; [cbn; lia|]. cbn [map]. change (zsum (r_quantity (data p x) :: ?m)) with (r_quantity (data p x) + zsum m). lia. }
  unfold w64. rewrite Z.mod_small by lia. rewrite (IH n (Some a)); [f_equal; lia|exact S3|cbn in L; lia|lia|exact F2|lia].
Qed.

Section Rep.
Context (lowest highest capacity : Z) (size fuel : nat) (encode decode : Z -> Z).
Context (HF : faithful lowest highest size encode decode).
Context (Hfuel : capacity <= Z.of_nat fuel).
Local Notation lev e := (encode (e_limit e)).
Local Notation core := (core lowest highest capacity size encode).
Let lev_lt := lev_lt lowest highest size encode decode HF.
Let lev_bounds := lev_bounds lowest highest size encode decode HF.

Lemma level_total b l handed i : core b l handed -> zsum (map e_quantity l) < W64 -> 0 <= i < Z.of_nat size ->
  exists x, level b i = Ok x /\
    match fst x with
    | None => forall e, In e l -> lev e <> i
    | Some a => (exists e, In e l /\ lev e = i) /\ total fuel (b_pool b) (Some a) 0 = Ok (zsum (map e_quantity (filter (fun e => lev e =? i) l)))
    end.
Proof.
  intros C B Hi. pose proof C as C'. destruct C'. eexists. split; [apply (level_ok size b i co_levels Hi)|].
  destruct (co_queues i Hi) as (S1 & S2 & _). rewrite S2.
  pose proof (queue_length lowest highest capacity size fuel encode decode HF Hfuel b l handed i C) as L.
  assert (P : Forall (fun e => 0 < e_quantity e) l). { eapply Forall_impl; [|exact co_inside]. intros e (_ & ? & _). assumption. }
  assert (Q : map (fun a => r_quantity (data (b_pool b) a)) (slots encode (b_pool b) l i) = map e_quantity (filter (fun e => lev e =? i) l)).
  { unfold slots. rewrite map_map. apply map_ext_in. intros e He. apply filter_In in He. rewrite Forall_forall in co_data. destruct (co_data e (proj1 He)) as (_ & E & _). exact E. }
  pose proof (zsum_part (fun e => lev e =? i) l P) as Z.
  assert (T : total fuel (b_pool b) (hd_error (slots encode (b_pool b) l i)) 0 = Ok (zsum (map e_quantity (filter (fun e => lev e =? i) l)))).
  { rewrite (total_seg _ _ fuel None 0 S1 L ltac:(lia)); rewrite ?Q; [f_equal; lia| |lia].
    apply Forall_forall. intros a Ha. apply (in_slots encode) in Ha. destruct Ha as (e & He & _ & <-). rewrite Forall_forall in co_data, P. destruct (co_data e He) as (_ & E & _). pose proof (P e He). unfold holds in E. cbv zeta in E. lia. }
  destruct (slots encode (b_pool b) l i) as [|a q] eqn:E; cbn [hd_error] in *.
  - intros e He X. assert (Hin : In (slot (b_pool b) (e_identifier e)) (slots encode (b_pool b) l i)) by (apply (in_slots encode); eauto). rewrite E in Hin. contradiction.
  - split; [|exact T]. assert (Hin : In a (slots encode (b_pool b) l i)) by (rewrite E; now left). apply (in_slots encode) in Hin. destruct Hin as (e & He & Le & _). eauto.
Qed.
(** One level: everything on it is on one side, at one limit. *)
Lemma one_limit b l handed buy i : core b l handed -> (forall e, In e l -> lev e = i -> e_buy e = buy) -> (exists e, In e l /\ lev e = i) ->
  (exists e, In e l /\ e_buy e = buy /\ e_limit e = decode i) /\ zsum (map e_quantity (filter (fun e => lev e =? i) l)) = quantity_at buy (decode i) l /\ 0 < quantity_at buy (decode i) l.
Proof.
  intros [] S (e & He & Le). rewrite Forall_forall in co_inside. split.
  - exists e. split; [exact He|]. split; [now apply S|]. rewrite <- Le. symmetry. apply lev_bounds. now apply co_inside.
  - assert (X : filter (fun e => lev e =? i) l = filter (fun e => Bool.eqb (e_buy e) buy && (e_limit e =? decode i)) l).
    { apply filter_ext_in. intros x Hx. destruct (Z.eqb_spec (lev x) i) as [E|N].
      - rewrite (S x Hx E), Bool.eqb_reflx. rewrite <- E. rewrite (proj2 (lev_bounds x (co_inside x Hx))). symmetry. apply Z.eqb_refl.
      - destruct (Z.eqb_spec (e_limit x) (decode i)) as [E|]; [|symmetry; apply andb_false_r]. exfalso. apply N. rewrite E, <- Le.
        now rewrite (proj2 (lev_bounds e (co_inside e He))). }
    unfold quantity_at. rewrite <- X. split; [reflexivity|].
    assert (Hf : In e (filter (fun e => lev e =? i) l)) by (apply filter_In; split; [exact He|lia]).
    assert (P : Forall (fun e => 0 < e_quantity e) (filter (fun e => lev e =? i) l)) by (apply Forall_forall; intros x Hx; apply filter_In in Hx; destruct (co_inside x (proj1 Hx)) as (_ & ? & _); assumption).
    apply zsum_positive; [exact P|]. intros E. rewrite E in Hf. contradiction.
Qed.
Definition asks_above (l : list entry) (i n : Z) (rows : list (Z * Z)) : Prop :=
  StronglySorted (fun a c => better false (fst a) (fst c)) rows /\
  Forall (fun r => (exists e, In e l /\ e_buy e = false /\ e_limit e = fst r /\ i <= lev e) /\ snd r = quantity_at false (fst r) l) rows /\
  Z.of_nat (length rows) <= n /\
  forall e, In e l -> i <= lev e -> In (e_limit e) (map fst rows) \/ (Z.of_nat (length rows) = n /\ Forall (fun r => better false (fst r) (e_limit e)) rows).
Lemma asks_ok b l handed : core b l handed -> zsum (map e_quantity l) < W64 -> forall n i levels, 0 <= i -> 0 <= levels -> (Z.of_nat size - i < Z.of_nat n) ->
  (0 < Z.of_nat n) -> (forall e, In e l -> e_buy e = true -> lev e < i) ->
  exists rows, show_asks fuel decode n b i levels = Ok (map (fun r => (fst r, snd r mod 2 ^ 32)) rows) /\ asks_above l i levels rows.
Proof.
  intros C B. pose proof C as C'. destruct C'. rewrite Forall_forall in co_inside.
  induction n as [|n IH]; intros i levels Hi Hl Hn Hp Hb; [lia|]. cbn [show_asks]. rewrite co_levels.
  destruct (Z.leb_spec i (Z.of_nat size - 1)) as [L|L]; cbn [andb].
  2: { exists []. split; [reflexivity|]. split; [constructor|]. split; [constructor|]. split; [cbn; lia|]. intros e He Le. pose proof (lev_bounds e (co_inside e He)). lia. }
  destruct (Z.ltb_spec 0 levels) as [P|P].
  2: { exists []. split; [reflexivity|]. split; [constructor|]. split; [constructor|]. split; [cbn; lia|]. intros e He Le. right. split; [cbn; lia|constructor]. }
  destruct (level_total b l handed i C B ltac:(lia)) as (x & -> & T). cbn [bind_result]. destruct (fst x) as [a|].
  - destruct T as [Ex T]. rewrite T. cbn [bind_result].
    assert (Sd : forall e, In e l -> lev e = i -> e_buy e = false). { intros e He Le. destruct (e_buy e) eqn:E; [|reflexivity]. pose proof (Hb e He E). lia. }
    destruct (one_limit b l handed false i C Sd Ex) as ((e0 & H1 & H2 & H3) & -> & Q). destruct (Z.leb_spec (quantity_at false (decode i) l) 0); [lia|].
    destruct (IH (i + 1) (levels - 1) ltac:(lia) ltac:(lia) ltac:(lia) ltac:(lia) ltac:(intros e He Eb; pose proof (Hb e He Eb); lia)) as (rows & -> & R1 & R2 & R3 & R4).
    assert (Li : forall e, In e l -> lev e = i -> e_limit e = decode i). { intros e He <-. symmetry. apply lev_bounds. now apply co_inside. }
    assert (Le0 : lev e0 = i). { destruct Ex as (e1 & G1 & G2). rewrite H3, <- (Li e1 G1 G2). exact G2. }
    exists ((decode i, quantity_at false (decode i) l) :: rows). split; [reflexivity|]. 
    assert (Bt : forall e, In e l -> i + 1 <= lev e -> decode i < e_limit e).
    { intros e He G. rewrite <- H3. apply lev_lt; [apply (co_inside e0 H1)|apply (co_inside e He)|lia]. }
    split; [|split; [|split]].
    + constructor; [exact R1|]. rewrite Forall_forall in R2 |- *. intros r Hr. destruct (R2 r Hr) as ((e & E1 & E2 & E3 & E4) & _). cbn [better fst]. rewrite <- E3. now apply Bt.
    + constructor; [cbn [fst snd]; split; [exists e0; repeat split; auto; lia|reflexivity]|]. eapply Forall_impl; [|exact R2]. intros r ((e & E1 & E2 & E3 & E4) & E5). split; [exists e; repeat split; auto; lia|exact E5].
    + cbn [length]. lia.
    + intros e He Le. cbn [map In length fst]. destruct (Z.eq_dec (lev e) i) as [E|N]; [left; left; symmetry; now apply Li|].
      destruct (R4 e He ltac:(lia)) as [|[G1 G2]]; [auto|]. right. split; [lia|]. constructor; [cbn [better fst]; apply Bt; [exact He|lia]|exact G2].
  - destruct (IH (i + 1) levels ltac:(lia) Hl ltac:(lia) ltac:(lia) ltac:(intros e He Eb; pose proof (Hb e He Eb); lia)) as (rows & -> & R1 & R2 & R3 & R4).
    exists rows. split; [reflexivity|]. split; [exact R1|]. split; [|split; [exact R3|]].
    + eapply Forall_impl; [|exact R2]. intros r ((e & E1 & E2 & E3 & E4) & E5). split; [exists e; repeat split; auto; lia|exact E5].
    + intros e He Le. apply R4; [exact He|]. pose proof (T e He). lia.
Qed.
Definition bids_below (l : list entry) (i n : Z) (rows : list (Z * Z)) : Prop :=
  StronglySorted (fun a c => better true (fst a) (fst c)) rows /\
  Forall (fun r => (exists e, In e l /\ e_buy e = true /\ e_limit e = fst r /\ lev e <= i) /\ snd r = quantity_at true (fst r) l) rows /\
  Z.of_nat (length rows) <= n /\
  forall e, In e l -> lev e <= i -> In (e_limit e) (map fst rows) \/ (Z.of_nat (length rows) = n /\ Forall (fun r => better true (fst r) (e_limit e)) rows).
Lemma bids_ok b l handed : core b l handed -> zsum (map e_quantity l) < W64 -> forall n i levels, i < Z.of_nat size -> 0 <= levels -> i + 1 < Z.of_nat n -> 0 < Z.of_nat n ->
  (forall e, In e l -> e_buy e = false -> i < lev e) ->
  exists rows, show_bids fuel decode n b i levels = Ok rows /\ bids_below l i levels rows.
Proof.
  intros C B. pose proof C as C'. destruct C'. rewrite Forall_forall in co_inside.
  induction n as [|n IH]; intros i levels Hi Hl Hn Hp Hb; [lia|]. cbn [show_bids].
  destruct (Z.leb_spec 0 i) as [L|L]; cbn [andb].
  2: { exists []. split; [reflexivity|]. split; [constructor|]. split; [constructor|]. split; [cbn; lia|]. intros e He Le. pose proof (lev_bounds e (co_inside e He)). lia. }
  destruct (Z.ltb_spec 0 levels) as [P|P].
  2: { exists []. split; [reflexivity|]. split; [constructor|]. split; [constructor|]. split; [cbn; lia|]. intros e He Le. right. split; [cbn; lia|constructor]. }
  destruct (level_total b l handed i C B ltac:(lia)) as (x & -> & T). cbn [bind_result]. destruct (fst x) as [a|].
  - destruct T as [Ex T]. rewrite T. cbn [bind_result].
    assert (Sd : forall e, In e l -> lev e = i -> e_buy e = true). { intros e He Le. destruct (e_buy e) eqn:E; [reflexivity|]. pose proof (Hb e He E). lia. }
    destruct (one_limit b l handed true i C Sd Ex) as ((e0 & H1 & H2 & H3) & -> & Q). destruct (Z.leb_spec (quantity_at true (decode i) l) 0); [lia|].
    destruct (IH (i - 1) (levels - 1) ltac:(lia) ltac:(lia) ltac:(lia) ltac:(lia) ltac:(intros e He Eb; pose proof (Hb e He Eb); lia)) as (rows & -> & R1 & R2 & R3 & R4).
    assert (Li : forall e, In e l -> lev e = i -> e_limit e = decode i). { intros e He <-. symmetry. apply lev_bounds. now apply co_inside. }
    assert (Le0 : lev e0 = i). { destruct Ex as (e1 & G1 & G2). rewrite H3, <- (Li e1 G1 G2). exact G2. }
    exists ((decode i, quantity_at true (decode i) l) :: rows). split; [reflexivity|].
    assert (Bt : forall e, In e l -> lev e <= i - 1 -> e_limit e < decode i).
    { intros e He G. rewrite <- H3. apply lev_lt; [apply (co_inside e He)|apply (co_inside e0 H1)|lia]. }
    split; [|split; [|split]].
    + constructor; [exact R1|]. rewrite Forall_forall in R2 |- *. intros r Hr. destruct (R2 r Hr) as ((e & E1 & E2 & E3 & E4) & _). cbn [better fst]. rewrite <- E3. now apply Bt.
    + constructor; [cbn [fst snd]; split; [exists e0; repeat split; auto; lia|reflexivity]|]. eapply Forall_impl; [|exact R2]. intros r ((e & E1 & E2 & E3 & E4) & E5). split; [exists e; repeat split; auto; lia|exact E5].
    + cbn [length]. lia.
    + intros e He Le. cbn [map In length fst]. destruct (Z.eq_dec (lev e) i) as [E|N]; [left; left; symmetry; now apply Li|].
      destruct (R4 e He ltac:(lia)) as [|[G1 G2]]; [auto|]. right. split; [lia|]. constructor; [cbn [better fst]; apply Bt; [exact He|lia]|exact G2].
  - destruct (IH (i - 1) levels ltac:(lia) Hl ltac:(lia) ltac:(lia) ltac:(intros e He Eb; pose proof (Hb e He Eb); lia)) as (rows & -> & R1 & R2 & R3 & R4).
    exists rows. split; [reflexivity|]. split; [exact R1|]. split; [|split; [exact R3|]].
    + eapply Forall_impl; [|exact R2]. intros r ((e & E1 & E2 & E3 & E4) & E5). split; [exists e; repeat split; auto; lia|exact E5].
    + intros e He Le. apply R4; [exact He|]. pose proof (T e He). lia.
Qed.
Lemma display_ok b l handed levels : good lowest highest capacity size encode b l handed -> zsum (map e_quantity l) < W64 -> 0 <= levels -> (0 < size)%nat ->
  exists asks bids, display fuel decode levels b = Ok (rev (map (fun r => (fst r, snd r mod 2 ^ 32)) asks), bids) /\ best_rows false l levels asks /\ best_rows true l levels bids.
Proof.
  intros [C (B1 & B2 & B3) (A1 & A2 & A3)] S Hl Hs. pose proof C as C'. destruct C'. rewrite Forall_forall in co_inside.
  assert (Na : 0 <= b_ask b). { destruct A3 as [->|(e & He & _ & <-)]; [lia|]. pose proof (lev_bounds e (co_inside e He)). lia. }
  assert (Nb : b_bid b < Z.of_nat size). { destruct B3 as [->|(e & He & _ & <-)]; [lia|]. pose proof (lev_bounds e (co_inside e He)). lia. }
  assert (Sa : forall e, In e l -> e_buy e = true -> lev e < b_ask b).
  { intros e He Eb. destruct A3 as [->|(x & Hx & Bx & <-)]; [pose proof (lev_bounds e (co_inside e He)); lia|]. now apply co_cross. }
  assert (Sb : forall e, In e l -> e_buy e = false -> b_bid b < lev e).
  { intros e He Eb. destruct B3 as [->|(x & Hx & Bx & <-)]; [pose proof (lev_bounds e (co_inside e He)); lia|]. now apply co_cross. }
  destruct (asks_ok b l handed C S (Datatypes.S (Datatypes.S (length (b_levels b)))) (b_ask b) levels Na Hl ltac:(lia) ltac:(lia) Sa) as (asks & Ea & K1 & K2 & K3 & K4).
  destruct (bids_ok b l handed C S (Datatypes.S (Datatypes.S (length (b_levels b)))) (b_bid b) levels Nb Hl ltac:(lia) ltac:(lia) Sb) as (bids & Eb & M1 & M2 & M3 & M4).
  exists asks, bids. split; [unfold display; rewrite Ea; cbn [bind_result]; rewrite Eb; reflexivity|]. split.
  - split; [exact K1|]. split; [eapply Forall_impl; [|exact K2]; intros r ((e & E1 & E2 & E3 & _) & E4); split; eauto|]. split; [exact K3|]. intros e He Ee. apply K4; [exact He|]. now apply A2.
  - split; [exact M1|]. split; [eapply Forall_impl; [|exact M2]; intros r ((e & E1 & E2 & E3 & _) & E4); split; eauto|]. split; [exact M3|]. intros e He Ee. apply M4; [exact He|]. now apply B2.
Qed.
End Rep.
