(** The fixed-tick book refines price-time priority: insertion and cancellation. *)
From Coq Require Import ZifyBool ZifyNat.
From Verif Require Import Base BlockPool BlockPool_spec BlockPool_proofs StaticBook StaticBook_spec StaticBook_proofs StaticMatch_spec StaticMatch_proofs.

Lemma filter_len {A} (f : A -> bool) l : (length (filter f l) <= length l)%nat.
Proof. induction l as [|a l IH]; cbn; [lia|]. destruct (f a); cbn; lia. Qed.

Section Rep.
Context (lowest highest lot capacity : Z) (size fuel : nat) (encode decode : Z -> Z) (comparable : bool).
Context (HF : faithful lowest highest size encode decode).
Context (Hfuel : capacity <= Z.of_nat fuel).
Local Notation lev e := (encode (e_limit e)).
Local Notation core := (core lowest highest capacity size encode).
Local Notation good := (good lowest highest capacity size encode).
Local Notation slots := (slots encode).
Local Notation bid_ok := (bid_ok encode).
Local Notation ask_ok := (ask_ok size encode).
Local Notation inside := (inside lowest highest).
Let lev_lt := lev_lt lowest highest size encode decode HF.
Let lev_le := lev_le lowest highest size encode decode HF.
Let lev_bounds := lev_bounds lowest highest size encode decode HF.
Let match_level := match_level lowest highest capacity size encode decode HF.
Let full_level := full_level lowest highest capacity size encode.
Let empty_level := empty_level lowest highest capacity size encode.
Let in_slots := in_slots encode.

(** ** Sweeping the levels *)
Lemma queue_length b l handed i : core b l handed -> (length (slots (b_pool b) l i) <= fuel)%nat.
Proof.
  intros []. pose proof (pinv_facts _ _ _ _ co_pool) as (_ & _ & _ & _ & _ & L & _). unfold StaticMatch_proofs.slots. rewrite map_length.
  pose proof (filter_len (fun e => lev e =? i) l). lia.
Qed.
Lemma sweep_up_ok o : lowest < o_limit o < highest -> o_buy o = true ->
  forall n b l handed rem i, good b l handed -> 0 < rem \/ rem = 0 -> 0 < i -> (forall x, In x l -> e_buy x = false -> i <= lev x) -> (forall x, In x l -> e_buy x = true -> lev x < i) ->
  encode (o_limit o) - i < Z.of_nat n ->
  exists b' l' rem' rs, sweep_up decode n fuel o b rem i (encode (o_limit o)) = Ok (b', rem') /\ good b' l' handed /\ trades o l rem rs l' rem' /\
    b_reports b' = b_reports b ++ rs /\ (rem' = 0 \/ 0 < rem' /\ forall e, In e l' -> ~ crosses o e).
Proof.
  intros Hlim Hb. pose proof (proj1 HF _ Hlim) as (Lo & _). induction n as [|n IH]; intros b l handed rem i G Hr Hi Hs Hbu Hn; cbn [sweep_up].
  all: assert (Stop : encode (o_limit o) < i -> forall e, In e l -> ~ crosses o e) by
    (intros L e He (X1 & X2); rewrite Hb in X1, X2; cbn [negb] in X1; pose proof (Hs e He X1); destruct G as [[] _ _];
     rewrite Forall_forall in co_inside; destruct (co_inside e He) as (Ie & _); pose proof (lev_le (e_limit e) (o_limit o) Ie Hlim); lia).
  - exists b, l, rem, []. split; [reflexivity|]. split; [exact G|]. split; [apply tr_done|]. split; [now rewrite app_nil_r|].
    destruct Hr; [right; split; [assumption|apply Stop; lia]|left; assumption].
  - destruct (Z.leb_spec i (encode (o_limit o))) as [L|L]; cbn [andb].
    2: { exists b, l, rem, []. split; [reflexivity|]. split; [exact G|]. split; [apply tr_done|]. split; [now rewrite app_nil_r|].
      destruct Hr; [right; split; [assumption|apply Stop; lia]|left; assumption]. }
    destruct (Z.ltb_spec 0 rem) as [R|R].
    2: { exists b, l, rem, []. split; [reflexivity|]. split; [exact G|]. split; [apply tr_done|]. split; [now rewrite app_nil_r|]. left. lia. }
    pose proof G as [C Bo Ao]. rewrite (level_ok size) by (try lia; destruct C; assumption). cbn [bind_result].
    destruct (fst (nth (Z.to_nat i) (b_levels b) (None, None))) as [a|] eqn:E.
    + destruct (full_level b l handed i a C ltac:(lia) E) as (q & S).
      assert (I : In a (slots (b_pool b) l i)) by (rewrite S; left; reflexivity). apply in_slots in I. destruct I as (x & Hx & X & _).
      assert (Bx : e_buy x = false) by (destruct (e_buy x) eqn:B; [pose proof (Hbu x Hx B); lia|reflexivity]).
      assert (Pa : b_ask b = i).
      { destruct Ao as (A1 & A2 & A3). pose proof (A2 x Hx Bx). destruct A3 as [A3|(y & Hy & Y1 & Y2)]; [lia|]. pose proof (Hs y Hy Y1). lia. }
      destruct (match_level o i Hlim ltac:(rewrite Hb; lia) ltac:(lia) q fuel b l handed rem a G S ltac:(rewrite Hb; exact Pa) R ltac:(rewrite <- S; eapply queue_length; eauto))
        as (b' & l' & rem' & rs & M & G' & T & Rs & R0 & Hend & Sub).
      rewrite M. cbn [bind_result fst snd].
      assert (Sub' : forall z, In z l' -> exists y, In y l /\ e_buy y = e_buy z /\ lev y = lev z).
      { intros z Hz. specialize (Sub z Hz). apply in_map_iff in Sub. destruct Sub as (y & Y & Hy). injection Y as Y1 Y2. eauto. }
      destruct Hend as [->|Emp].
      * exists b', l', 0, rs. split; [destruct n; cbn [sweep_up]; [reflexivity|]; rewrite andb_false_r; reflexivity|]. split; [exact G'|]. split; [exact T|]. split; [exact Rs|]. left. reflexivity.
      * destruct (IH b' l' handed rem' (i + 1) G' ltac:(lia) ltac:(lia)) as (b2 & l2 & rem2 & rs2 & M2 & G2 & T2 & Rs2 & H2).
        -- intros z Hz Bz. destruct (Sub' z Hz) as (y & Hy & Y1 & Y2). pose proof (Hs y Hy ltac:(congruence)).
           assert (lev z <> i); [|lia]. intros X'. assert (I : In (slot (b_pool b') (e_identifier z)) (slots (b_pool b') l' i)) by (apply in_slots; eauto). rewrite Emp in I. exact I.
        -- intros z Hz Bz. destruct (Sub' z Hz) as (y & Hy & Y1 & Y2). pose proof (Hbu y Hy ltac:(congruence)). lia.
        -- lia.
        -- exists b2, l2, rem2, (rs ++ rs2). split; [exact M2|]. split; [exact G2|]. split; [eapply trades_trans; eassumption|]. split; [rewrite Rs2, Rs, app_assoc; reflexivity|exact H2].
    + pose proof (proj1 (empty_level b l handed i C ltac:(lia)) E) as Em. apply IH; [assumption|assumption|lia| | |lia]; intros x Hx Bx.
      * pose proof (Hs x Hx Bx). pose proof (Em x Hx). lia.
      * pose proof (Hbu x Hx Bx). lia.
Qed.
Lemma sweep_down_ok o : lowest < o_limit o < highest -> o_buy o = false ->
  forall n b l handed rem i, good b l handed -> 0 < rem \/ rem = 0 -> i < Z.of_nat size - 1 -> (forall x, In x l -> e_buy x = true -> lev x <= i) -> (forall x, In x l -> e_buy x = false -> i < lev x) ->
  i - encode (o_limit o) < Z.of_nat n ->
  exists b' l' rem' rs, sweep_down decode n fuel o b rem i (encode (o_limit o)) = Ok (b', rem') /\ good b' l' handed /\ trades o l rem rs l' rem' /\
    b_reports b' = b_reports b ++ rs /\ (rem' = 0 \/ 0 < rem' /\ forall e, In e l' -> ~ crosses o e).
Proof.
  intros Hlim Hb. pose proof (proj1 HF _ Hlim) as (Lo & _). induction n as [|n IH]; intros b l handed rem i G Hr Hi Hs Hbu Hn; cbn [sweep_down].
  all: assert (Stop : i < encode (o_limit o) -> forall e, In e l -> ~ crosses o e) by
    (intros L e He (X1 & X2); rewrite Hb in X1, X2; cbn [negb] in X1; pose proof (Hs e He X1); destruct G as [[] _ _];
     rewrite Forall_forall in co_inside; destruct (co_inside e He) as (Ie & _); pose proof (lev_le (o_limit o) (e_limit e) Hlim Ie); lia).
  - exists b, l, rem, []. split; [reflexivity|]. split; [exact G|]. split; [apply tr_done|]. split; [now rewrite app_nil_r|].
    destruct Hr; [right; split; [assumption|apply Stop; lia]|left; assumption].
  - destruct (Z.leb_spec (encode (o_limit o)) i) as [L|L]; cbn [andb].
    2: { exists b, l, rem, []. split; [reflexivity|]. split; [exact G|]. split; [apply tr_done|]. split; [now rewrite app_nil_r|].
      destruct Hr; [right; split; [assumption|apply Stop; lia]|left; assumption]. }
    destruct (Z.ltb_spec 0 rem) as [R|R].
    2: { exists b, l, rem, []. split; [reflexivity|]. split; [exact G|]. split; [apply tr_done|]. split; [now rewrite app_nil_r|]. left. lia. }
    pose proof G as [C Bo Ao]. rewrite (level_ok size) by (try lia; destruct C; assumption). cbn [bind_result].
    destruct (fst (nth (Z.to_nat i) (b_levels b) (None, None))) as [a|] eqn:E.
    + destruct (full_level b l handed i a C ltac:(lia) E) as (q & S).
      assert (I : In a (slots (b_pool b) l i)) by (rewrite S; left; reflexivity). apply in_slots in I. destruct I as (x & Hx & X & _).
      assert (Bx : e_buy x = true) by (destruct (e_buy x) eqn:B; [reflexivity|pose proof (Hbu x Hx B); lia]).
      assert (Pa : b_bid b = i).
      { destruct Bo as (A1 & A2 & A3). pose proof (A2 x Hx Bx). destruct A3 as [A3|(y & Hy & Y1 & Y2)]; [lia|]. pose proof (Hs y Hy Y1). lia. }
      destruct (match_level o i Hlim ltac:(rewrite Hb; lia) ltac:(lia) q fuel b l handed rem a G S ltac:(rewrite Hb; exact Pa) R ltac:(rewrite <- S; eapply queue_length; eauto))
        as (b' & l' & rem' & rs & M & G' & T & Rs & R0 & Hend & Sub).
      rewrite M. cbn [bind_result fst snd].
      assert (Sub' : forall z, In z l' -> exists y, In y l /\ e_buy y = e_buy z /\ lev y = lev z).
      { intros z Hz. specialize (Sub z Hz). apply in_map_iff in Sub. destruct Sub as (y & Y & Hy). injection Y as Y1 Y2. eauto. }
      destruct Hend as [->|Emp].
      * exists b', l', 0, rs. split; [destruct n; cbn [sweep_down]; [reflexivity|]; rewrite andb_false_r; reflexivity|]. split; [exact G'|]. split; [exact T|]. split; [exact Rs|]. left. reflexivity.
      * destruct (IH b' l' handed rem' (i - 1) G' ltac:(lia) ltac:(lia)) as (b2 & l2 & rem2 & rs2 & M2 & G2 & T2 & Rs2 & H2).
        -- intros z Hz Bz. destruct (Sub' z Hz) as (y & Hy & Y1 & Y2). pose proof (Hs y Hy ltac:(congruence)).
           assert (lev z <> i); [|lia]. intros X'. assert (I : In (slot (b_pool b') (e_identifier z)) (slots (b_pool b') l' i)) by (apply in_slots; eauto). rewrite Emp in I. exact I.
        -- intros z Hz Bz. destruct (Sub' z Hz) as (y & Hy & Y1 & Y2). pose proof (Hbu y Hy ltac:(congruence)). lia.
        -- lia.
        -- exists b2, l2, rem2, (rs ++ rs2). split; [exact M2|]. split; [exact G2|]. split; [eapply trades_trans; eassumption|]. split; [rewrite Rs2, Rs, app_assoc; reflexivity|exact H2].
    + pose proof (proj1 (empty_level b l handed i C ltac:(lia)) E) as Em. apply IH; [assumption|assumption|lia| | |lia]; intros x Hx Bx.
      * pose proof (Hs x Hx Bx). pose proof (Em x Hx). lia.
      * pose proof (Hbu x Hx Bx). lia.
Qed.
(** ** Placing what is left *)
Lemma nth_default_level b k x : length (b_levels b) = size -> (k < size)%nat -> forall i, nth i (b_levels (set_level b k x)) (None, None) = if Nat.eqb i k then x else nth i (b_levels b) (None, None).
Proof. intros L K i. apply nth_set_level. lia. Qed.
Lemma core_append b b' l e handed i : core b l handed -> inside e -> (forall x, In x l -> ~ crosses (mk_order (e_owner e) (e_buy e) (e_limit e) lot (e_quantity e) good_until_cancelled) x) ->
  pinv capacity (b_pool b') (l ++ [e]) (e_identifier e :: handed) -> cap (b_pool b') = cap (b_pool b) -> slot (b_pool b) (e_identifier e) = i ->
  holds (b_pool b') e -> ~ In i (map (fun x => slot (b_pool b) (e_identifier x)) l) ->
  r_predecessor (data (b_pool b') i) = last_error (slots (b_pool b) l (lev e)) -> r_successor (data (b_pool b') i) = None ->
  (forall j, j <> i -> data (b_pool b') j = if same_pointer (last_error (slots (b_pool b) l (lev e))) (Some j) then with_successor (data (b_pool b) j) (Some i) else data (b_pool b) j) ->
  length (b_levels b') = size ->
  (forall k, 0 <= k < Z.of_nat size -> nth (Z.to_nat k) (b_levels b') (None, None) =
     if k =? lev e then (match slots (b_pool b) l (lev e) with [] => Some i | f :: _ => Some f end, Some i) else nth (Z.to_nat k) (b_levels b) (None, None)) ->
  core b' (l ++ [e]) (e_identifier e :: handed).
Proof.
  intros C Ie Nc Hp Hc Hi Hh Nin Hpre Hsuc Hd Hl Hn. destruct C.
  pose proof (pinv_facts _ _ _ _ co_pool) as (_ & _ & N & _).
  assert (Ni : forall k, ~ In i (slots (b_pool b) l k)).
  { intros k X. apply in_slots in X. destruct X as (x & Hx & _ & X). apply Nin. rewrite <- X. now apply (in_map (fun x => slot (b_pool b) (e_identifier x))). }
  constructor; [exact Hp| | |exact Hl| |].
  - apply Forall_app. split; [|constructor; [exact Hh|constructor]]. apply Forall_forall. intros x Hx. rewrite Forall_forall in co_data. specialize (co_data x Hx). revert co_data.
    unfold holds. cbv zeta. rewrite (slot_cap _ (b_pool b) _ Hc). rewrite Hd. { destruct (same_pointer _ _); auto. }
    intros X. apply Nin. rewrite <- X. now apply (in_map (fun x => slot (b_pool b) (e_identifier x))).
  - apply Forall_app. split; [exact co_inside|]. constructor; [exact Ie|constructor].
  - intros k Hk. rewrite Hn by exact Hk. destruct (co_queues k Hk) as (S1 & S2 & S3).
    rewrite slots_app, slots_cons. rewrite (slot_cap _ (b_pool b) _ Hc), Hi. rewrite (slots_pool encode (b_pool b') (b_pool b) l k Hc). change (slots (b_pool b') [] k) with (@nil nat). rewrite app_nil_r.
    destruct (Z.eqb_spec k (lev e)) as [->|Nk].
    + rewrite Z.eqb_refl. destruct (slots (b_pool b) l (lev e)) as [|f q] eqn:Eq.
      * cbn [app]. split; [|split; [reflexivity|intros _; reflexivity]]. cbn [seg]. repeat split; assumption.
      * split; [|split; [reflexivity|intros _; rewrite last_error_app; reflexivity]].
        assert (Ne : f :: q <> []) by discriminate. destruct (exists_last Ne) as (q0 & s & E0). rewrite E0 in *. rewrite last_error_app in Hpre, Hd.
        pose proof (NoDup_slots encode _ _ (lev e) N) as Nq. rewrite Eq in Nq. pose proof (NoDup_remove_2 _ _ _ Nq) as Ns. rewrite app_nil_r in Ns.
        apply seg_app. rewrite last_error_app. cbn [or_else hd_error]. split.
        -- eapply seg_last; [exact S1| | |].
           ++ intros a Ha. rewrite Hd by (intros ->; apply (Ni (lev e)); rewrite Eq; apply in_or_app; auto). cbn [same_pointer].
              destruct (Nat.eqb_spec s a) as [->|]; [contradiction|auto].
           ++ rewrite Hd by (intros ->; apply (Ni (lev e)); rewrite Eq; apply in_or_app; cbn; auto). cbn [same_pointer]. rewrite Nat.eqb_refl. reflexivity.
           ++ rewrite Hd by (intros ->; apply (Ni (lev e)); rewrite Eq; apply in_or_app; cbn; auto). cbn [same_pointer]. rewrite Nat.eqb_refl. reflexivity.
        -- cbn [seg]. repeat split; assumption.
    + destruct (Z.eqb_spec (lev e) k); [congruence|]. rewrite app_nil_r. split; [|split; [exact S2|exact S3]].
      eapply seg_frame; [|exact S1]. intros a Ha. rewrite Hd by (intros ->; apply (Ni k); exact Ha).
      destruct (same_pointer (last_error (slots (b_pool b) l (lev e))) (Some a)) eqn:E; [|auto]. exfalso.
      destruct (slots (b_pool b) l (lev e)) as [|f q] eqn:Eq; [discriminate|].
      assert (Ne : f :: q <> []) by discriminate. destruct (exists_last Ne) as (q0 & s & E0). rewrite E0 in *. rewrite last_error_app in E. cbn [same_pointer] in E.
      assert (s = a) by lia. subst s. apply Nk. eapply slots_apart; [exact N|exact Ha|]. rewrite Eq. apply in_or_app. cbn. auto.
  - intros x y Hx Hy Bx By. rewrite Forall_forall in co_inside. apply in_app_or in Hx, Hy. destruct Ie as (Ie & _).
    destruct Hx as [Hx|[<-|[]]], Hy as [Hy|[<-|[]]]; [auto| | |congruence].
    + destruct (co_inside x Hx) as (Ix & _). apply lev_lt; try assumption. specialize (Nc x Hx). unfold crosses in Nc. cbn [o_buy o_limit] in Nc. rewrite By in Nc. cbn [negb] in Nc.
      destruct (Z.lt_ge_cases (e_limit x) (e_limit e)); [assumption|]. exfalso. apply Nc. auto.
    + destruct (co_inside y Hy) as (Iy & _). apply lev_lt; try assumption. specialize (Nc y Hy). unfold crosses in Nc. cbn [o_buy o_limit] in Nc. rewrite Bx in Nc. cbn [negb] in Nc.
      destruct (Z.lt_ge_cases (e_limit e) (e_limit y)); [assumption|]. exfalso. apply Nc. auto.
Qed.
Lemma bid_append i l e : bid_ok i l -> 0 < lev e -> bid_ok (if e_buy e then Z.max i (lev e) else i) (l ++ [e]).
Proof.
  intros (B1 & B2 & B3) Le. destruct (e_buy e) eqn:B; (split; [lia|]); split.
  - intros x Hx Bx. apply in_app_or in Hx. destruct Hx as [Hx|[<-|[]]]; [pose proof (B2 x Hx Bx); lia|lia].
  - destruct (Z.le_gt_cases i (lev e)) as [L|L].
    + right. exists e. split; [apply in_or_app; cbn; auto|]. split; [exact B|lia].
    + destruct B3 as [B3|(x & Hx & X1 & X2)]; [lia|]. right. exists x. split; [apply in_or_app; auto|]. split; [exact X1|lia].
  - intros x Hx Bx. apply in_app_or in Hx. destruct Hx as [Hx|[<-|[]]]; [auto|congruence].
  - destruct B3 as [B3|(x & Hx & X)]; [auto|]. right. exists x. split; [apply in_or_app; auto|exact X].
Qed.
Lemma ask_append i l e : ask_ok i l -> lev e < Z.of_nat size - 1 -> ask_ok (if e_buy e then i else Z.min i (lev e)) (l ++ [e]).
Proof.
  intros (B1 & B2 & B3) Le. destruct (e_buy e) eqn:B; (split; [lia|]); split.
  - intros x Hx Bx. apply in_app_or in Hx. destruct Hx as [Hx|[<-|[]]]; [auto|congruence].
  - destruct B3 as [B3|(x & Hx & X)]; [auto|]. right. exists x. split; [apply in_or_app; auto|exact X].
  - intros x Hx Bx. apply in_app_or in Hx. destruct Hx as [Hx|[<-|[]]]; [pose proof (B2 x Hx Bx); lia|lia].
  - destruct (Z.le_gt_cases (lev e) i) as [L|L].
    + right. exists e. split; [apply in_or_app; cbn; auto|]. split; [exact B|lia].
    + destruct B3 as [B3|(x & Hx & X1 & X2)]; [lia|]. right. exists x. split; [apply in_or_app; auto|]. split; [exact X1|lia].
Qed.
Lemma place_ok o b l handed rem : good b l handed -> lowest < o_limit o < highest -> 0 < rem -> (forall e, In e l -> ~ crosses o e) ->
  Z.of_nat (length l) < capacity -> few capacity (0 :: handed) -> o_lifetime o <> immediate_or_cancel ->
  exists b' h, place o (encode (o_limit o)) b rem = Ok b' /\ good b' (l ++ [mk_entry h (o_buy o) (o_limit o) rem (o_owner o)]) (h :: handed) /\
    b_reports b' = b_reports b ++ [mk_report placed (o_buy o) rem h (o_limit o) (o_owner o)] /\ Forall (fun x => x < h) handed /\ 0 <= h < W64 - 1.
Proof.
  intros [C Bo Ao] Hlim Hr Nc Hlen Hfew Hlt. pose proof (proj1 HF _ Hlim) as (Lo & _). pose proof C as C'. destruct C'.
  destruct (pinv_store capacity (b_pool b) l handed (mk_record (Some (o_limit o)) rem (o_owner o) None None) co_pool Hfew Hlen)
    as (p & h & i & Em & Hi & Hc & Nin & Hp & Di & Dj & Ii & Ij & Hh & H0).
  set (e := mk_entry h (o_buy o) (o_limit o) rem (o_owner o)).
  unfold place. destruct (Z.leb_spec rem 0); [lia|].
  assert (E : forall A (x y : A), match o_lifetime o with immediate_or_cancel => x | _ => y end = y) by (intros A x y; destruct (o_lifetime o); [reflexivity|congruence|reflexivity]).
  rewrite E. clear E. rewrite Em. cbn [of_outcome bind_result].
  set (p1 := set_index p i h). set (b1 := add_report (set_pool b p1) (mk_report placed (o_buy o) rem h (o_limit o) (o_owner o))).
  rewrite (level_ok size b1) by (first [exact co_levels|lia]). cbn [bind_result]. change (b_levels b1) with (b_levels b).
  destruct (co_queues (encode (o_limit o)) ltac:(lia)) as (S1 & S2 & S3).
  assert (Ni : ~ In i (slots (b_pool b) l (encode (o_limit o)))).
  { intros X. apply in_slots in X. destruct X as (x & Hx & _ & X). apply Nin. rewrite <- X. now apply (in_map (fun x => slot (b_pool b) (e_identifier x))). }
  assert (Ie : inside e) by (repeat split; cbn; lia).
  assert (Nc' : forall x, In x l -> ~ crosses (mk_order (e_owner e) (e_buy e) (e_limit e) lot (e_quantity e) good_until_cancelled) x) by (intros x Hx X; apply (Nc x Hx); exact X).
  assert (Hp' := Hp e eq_refl). fold p1 in Hp', Di, Dj, Ii, Ij.
  assert (Hc1 : cap p1 = cap (b_pool b)) by exact Hc.
  destruct (slots (b_pool b) l (encode (o_limit o))) as [|f q] eqn:Eq.
  - destruct (nth (Z.to_nat (encode (o_limit o))) (b_levels b) (None, None)) as [lf ls] eqn:El. cbn [fst hd_error] in S2. subst lf. cbn [bind_result].
    set (b2 := set_level b1 (Z.to_nat (encode (o_limit o))) (Some i, Some i)).
    assert (C2 : core b2 (l ++ [e]) (h :: handed)).
    { apply (core_append b b2 l e handed i C Ie Nc' Hp' Hc1 (eq_sym Hi)); cbn [e_limit e]; try (rewrite Eq).
      - unfold holds. cbv zeta. change (b_pool b2) with p1. change (e_identifier e) with h. rewrite (slot_cap p1 (b_pool b) _ Hc1), <- Hi, Di. auto.
      - exact Nin.
      - change (b_pool b2) with p1. rewrite Di. reflexivity.
      - change (b_pool b2) with p1. rewrite Di. reflexivity.
      - intros j Hj. change (b_pool b2) with p1. rewrite Dj by exact Hj. reflexivity.
      - unfold b2. rewrite set_level_length. exact co_levels.
      - intros k Hk. unfold b2. rewrite nth_default_level by (try exact co_levels; lia). change (b_levels b1) with (b_levels b).
        destruct (Z.eqb_spec k (encode (o_limit o))) as [->|]; [rewrite Nat.eqb_refl; reflexivity|]. destruct (Nat.eqb_spec (Z.to_nat k) (Z.to_nat (encode (o_limit o)))); [lia|reflexivity]. }
    exists (if o_buy o then set_bid b2 (Z.max (b_bid b2) (encode (o_limit o))) else set_ask b2 (Z.min (b_ask b2) (encode (o_limit o)))), h.
    split; [reflexivity|]. split.
    + pose proof (bid_append _ _ e Bo ltac:(cbn; lia)) as Bo'. pose proof (ask_append _ _ e Ao ltac:(cbn; lia)) as Ao'. cbn [e_buy e e_limit] in Bo', Ao'.
      destruct (o_buy o); (constructor; [first [apply core_set_bid|apply core_set_ask]; exact C2|exact Bo'|exact Ao']).
    + split; [destruct (o_buy o); reflexivity|]. split; [exact Hh|exact H0].
  - destruct (nth (Z.to_nat (encode (o_limit o))) (b_levels b) (None, None)) as [lf ls] eqn:El. cbn [fst snd hd_error] in S2, S3. subst lf.
    assert (Ne : f :: q <> []) by discriminate. destruct (exists_last Ne) as (q0 & s & E0). specialize (S3 Ne). rewrite E0, last_error_app in S3. subst ls. cbn [bind_result].
    change (b_pool b1) with p1. set (p2 := set_data p1 s (with_successor (data p1 s) (Some i))). set (p3 := set_data p2 i (with_predecessor (data p2 i) (Some s))).
    assert (Nis : i <> s) by (intros ->; apply Ni; rewrite E0; apply in_or_app; cbn; auto).
    set (b2 := set_level (set_pool b1 p3) (Z.to_nat (encode (o_limit o))) (Some f, Some i)).
    assert (Hi3 : data p3 i = mk_record (Some (o_limit o)) rem (o_owner o) (Some s) None).
    { unfold p3. rewrite data_set, Nat.eqb_refl. unfold p2. rewrite data_set. destruct (Nat.eqb_spec i s); [contradiction|]. rewrite Di. reflexivity. }
    assert (C2 : core b2 (l ++ [e]) (h :: handed)).
    { apply (core_append b b2 l e handed i C Ie Nc'); cbn [e_limit e]; try (rewrite Eq, E0, last_error_app); change (b_pool b2) with p3.
      - unfold p3, p2. repeat apply pinv_set. exact Hp'.
      - exact Hc1.
      - symmetry. exact Hi.
      - unfold holds. cbv zeta. change (e_identifier e) with h. rewrite (slot_cap p3 (b_pool b) _ Hc1), <- Hi, Hi3. auto.
      - exact Nin.
      - rewrite Hi3. reflexivity.
      - rewrite Hi3. reflexivity.
      - intros j Hj. cbn [same_pointer]. unfold p3. rewrite data_set. destruct (Nat.eqb_spec j i); [contradiction|]. unfold p2. rewrite data_set, Nat.eqb_sym.
        destruct (Nat.eqb_spec s j) as [<-|]; [rewrite Dj by congruence; reflexivity|apply Dj; exact Hj].
      - unfold b2. rewrite set_level_length. exact co_levels.
      - intros k Hk. unfold b2. rewrite nth_default_level by (try exact co_levels; lia). change (b_levels (set_pool b1 p3)) with (b_levels b).
        rewrite Eq. destruct (Z.eqb_spec k (encode (o_limit o))) as [->|]; [rewrite Nat.eqb_refl; reflexivity|]. destruct (Nat.eqb_spec (Z.to_nat k) (Z.to_nat (encode (o_limit o)))); [lia|reflexivity]. }
    exists (if o_buy o then set_bid b2 (Z.max (b_bid b2) (encode (o_limit o))) else set_ask b2 (Z.min (b_ask b2) (encode (o_limit o)))), h.
    split; [reflexivity|]. split.
    + pose proof (bid_append _ _ e Bo ltac:(cbn; lia)) as Bo'. pose proof (ask_append _ _ e Ao ltac:(cbn; lia)) as Ao'. cbn [e_buy e e_limit] in Bo', Ao'.
      destruct (o_buy o); (constructor; [first [apply core_set_bid|apply core_set_ask]; exact C2|exact Bo'|exact Ao']).
    + split; [destruct (o_buy o); reflexivity|]. split; [exact Hh|exact H0].
Qed.
Lemma zsum_app l1 l2 : zsum (l1 ++ l2) = zsum l1 + zsum l2.
Proof. unfold zsum. induction l1 as [|a l1 IH]; cbn [app fold_right]; lia. Qed.
(** ** Reports *)
Lemma resting_app rs rs' : resting (rs ++ rs') = fold_left note rs' (resting rs).
Proof. apply fold_left_app. Qed.
Lemma placed_app rs rs' : placed_identifiers (rs ++ rs') = placed_identifiers rs ++ placed_identifiers rs'.
Proof. unfold placed_identifiers. rewrite filter_app, map_app. reflexivity. Qed.
Lemma trades_placed o l q rs l' q' : trades o l q rs l' q' -> placed_identifiers rs = [].
Proof. induction 1; [reflexivity|]. rewrite placed_app, IHtrades. reflexivity. Qed.
Lemma executed_trade o e x rs : e_identifier e <> direct_order -> executed (trade o e x ++ rs) = x + executed rs.
Proof.
  intros H. unfold executed, trade. cbn [app filter p_state p_identifier]. rewrite Z.eqb_refl. destruct (Z.eqb_spec (e_identifier e) direct_order); [contradiction|reflexivity].
Qed.
Lemma trades_inside o l q rs l' q' : trades o l q rs l' q' -> Forall inside l -> NoDup (map e_identifier l) ->
  Forall inside l' /\ NoDup (map e_identifier l') /\ (length l' <= length l)%nat /\ available o l' = available o l - (q - q') /\ (0 <= q -> 0 <= q') /\ executed rs = q - q'.
Proof.
  induction 1 as [l q|l q e rs l' q' H1 H2 H3 H4 IH]; intros I N.
  - repeat split; auto; try lia. unfold executed. cbn. lia.
  - destruct H2 as (Be & older & younger & -> & _). set (x := Z.min q (e_quantity e)) in *.
    assert (Ie : inside e) by (apply Forall_app in I; destruct I as [_ I]; inversion I; assumption). pose proof Ie as (Ie1 & Ie2 & Ie3).
    assert (Cb : crossesb o e = true).
    { destruct H3 as (X1 & X2). unfold crossesb. rewrite X1, Bool.eqb_reflx. destruct (o_buy o); cbn [andb]; lia. }
    assert (A0 : available o (older ++ e :: younger) = zsum (map e_quantity (filter (crossesb o) older)) + e_quantity e + zsum (map e_quantity (filter (crossesb o) younger))).
    { unfold available. rewrite filter_app, map_app, zsum_app. cbn [filter]. rewrite Cb. cbn [map zsum fold_right]. unfold zsum. lia. }
    rewrite ledger_trade with (lowest := lowest) (highest := highest) in IH by (auto; lia).
    assert (K : Forall inside (after_trade older e younger x) /\ NoDup (map e_identifier (after_trade older e younger x)) /\ (length (after_trade older e younger x) <= length (older ++ e :: younger))%nat /\
                available o (after_trade older e younger x) = available o (older ++ e :: younger) - x).
    { apply Forall_app in I. destruct I as [I1 I2]. inversion I2 as [|? ? _ I4]; subst. unfold after_trade. destruct (Z.eqb_spec x (e_quantity e)) as [X|X].
      - split; [apply Forall_app; auto|]. split; [rewrite map_app in N |- *; cbn [map] in N; eapply NoDup_remove_1; exact N|]. split; [rewrite !app_length; cbn; lia|].
        rewrite A0. unfold available. rewrite filter_app, map_app, zsum_app. lia.
      - split; [apply Forall_app; split; [assumption|constructor; [repeat split; cbn; lia|assumption]]|]. split; [rewrite map_app in N |- *; exact N|]. split; [rewrite !app_length; cbn; lia|].
        rewrite A0. unfold available. rewrite filter_app, map_app, zsum_app. cbn [filter]. unfold crossesb at 2. cbn [e_buy e_limit]. fold (crossesb o e). rewrite Cb. cbn [map e_quantity]. unfold zsum. cbn [fold_right]. lia. }
    destruct K as (K1 & K2 & K3 & K4). destruct (IH K1 K2) as (J1 & J2 & J3 & J4 & J5 & J6). repeat split; try assumption; try lia.
    rewrite executed_trade by (unfold direct_order; lia). lia.
Qed.
Lemma available_none o l : (forall e, In e l -> ~ crosses o e) -> available o l = 0.
Proof.
  intros H. unfold available. rewrite filter_false; [reflexivity|]. intros e He. specialize (H e He). unfold crosses in H. unfold crossesb.
  destruct (Bool.eqb (e_buy e) (negb (o_buy o))) eqn:E; [|reflexivity]. apply Bool.eqb_prop in E. cbn [andb]. destruct (o_buy o); apply Bool.not_true_is_false; intros X; apply H; (split; [exact E|lia]).
Qed.
Lemma note_direct l buy q v w : Forall inside l -> note l (mk_report cancelled buy q direct_order v w) = l.
Proof. intros I. unfold note. cbn [p_state p_identifier]. apply filter_true. rewrite Forall_forall in I. intros e He. destruct (I e He) as (_ & _ & ?). unfold direct_order. lia. Qed.

(** ** Insertion *)
Definition ok (b : book) : Prop := good b (resting (b_reports b)) (rev (placed_identifiers (b_reports b))).
Definition increasing (rs rs' : list report) : Prop := Forall (fun h => Forall (fun x => x < h) (placed_identifiers rs) /\ 0 <= h < W64 - 1) (placed_identifiers rs').
Lemma few_not_exhausted rs : not_exhausted capacity rs -> few capacity (0 :: rev (placed_identifiers rs)).
Proof. unfold not_exhausted, few. cbn [length]. rewrite rev_length. intros; lia. Qed.
Definition outcome_ok (o : limit_order) (b : book) (r : result book) : Prop :=
  exists b' rs h, r = Ok b' /\ b_reports b' = b_reports b ++ rs /\ answer lowest highest o (resting (b_reports b)) h rs /\ increasing (b_reports b) rs /\ ok b'.
Lemma good_reports b b' l handed : good b l handed -> b_pool b' = b_pool b -> b_levels b' = b_levels b -> b_bid b' = b_bid b -> b_ask b' = b_ask b -> good b' l handed.
Proof. intros [[] G2 G3] E1 E2 E3 E4. constructor; [constructor; rewrite ?E1, ?E2; assumption|rewrite E3; assumption|rewrite E4; assumption]. Qed.
Lemma finish o b b' l' rem rs : ok b -> lowest < o_limit o < highest -> 0 < o_quantity o -> not_exhausted capacity (b_reports b) -> Z.of_nat (length (resting (b_reports b))) < capacity ->
  (o_lifetime o = fill_or_kill -> o_quantity o <= available o (resting (b_reports b))) ->
  trades o (resting (b_reports b)) (o_quantity o) rs l' rem -> good b' l' (rev (placed_identifiers (b_reports b))) -> b_reports b' = b_reports b ++ rs ->
  (rem = 0 \/ 0 < rem /\ forall e, In e l' -> ~ crosses o e) -> outcome_ok o b (place o (encode (o_limit o)) b' rem).
Proof.
  intros G Hlim Hq Hne Hlen Hfok T G' R Hend. pose proof (trades_executes _ _ _ _ _ _ T Hend) as X.
  pose proof (trades_placed _ _ _ _ _ _ T) as Pl. pose proof (trades_fold _ _ _ _ _ _ T) as Fo.
  destruct G as [[] _ _]. pose proof (pinv_facts _ _ _ _ co_pool) as (_ & _ & _ & NI & _).
  destruct (trades_inside _ _ _ _ _ _ T co_inside NI) as (I' & N' & L' & A' & _ & _). clear co_data co_levels co_queues co_cross co_pool.
  destruct Hend as [->|[Hr Hc]].
  - exists b', rs, 0. split; [reflexivity|]. split; [exact R|]. split; [eapply an_executed; [lia|lia|exact X]|]. split; [unfold increasing; rewrite Pl; constructor|].
    unfold ok. rewrite R, resting_app, placed_app, Fo, Pl, app_nil_r. exact G'.
  - destruct (o_lifetime o) eqn:Lt.
    + destruct (place_ok o b' l' _ rem G' Hlim Hr Hc ltac:(lia) (few_not_exhausted _ Hne) ltac:(congruence)) as (b2 & h & P & G2 & R2 & Hh & H0).
      exists b2, (rs ++ [mk_report placed (o_buy o) rem h (o_limit o) (o_owner o)]), h. split; [exact P|]. split; [rewrite R2, R, app_assoc; reflexivity|].
      split; [eapply an_placed; [lia|lia|exact X|exact Hr|exact Lt]|]. split.
      * unfold increasing. rewrite placed_app, Pl. cbn [app]. constructor; [|constructor]. cbn [p_identifier]. split; [|exact H0].
        apply Forall_rev in Hh. rewrite rev_involutive in Hh. exact Hh.
      * unfold ok. rewrite R2, R. rewrite <- app_assoc, resting_app, placed_app, fold_left_app, Fo, placed_app, Pl. cbn [app]. rewrite rev_app_distr. exact G2.
    + exists (add_report b' (mk_report cancelled (o_buy o) rem direct_order (o_limit o) (o_owner o))), (rs ++ [mk_report cancelled (o_buy o) rem direct_order (o_limit o) (o_owner o)]), 0.
      split; [unfold place; rewrite Lt; destruct (Z.leb_spec rem 0); [lia|reflexivity]|]. split; [cbn [b_reports add_report]; rewrite R, app_assoc; reflexivity|].
      split; [eapply an_cancelled; [lia|lia|exact X|exact Hr|exact Lt]|]. split; [unfold increasing; rewrite placed_app, Pl; constructor|].
      unfold ok. cbn [add_report b_reports]. rewrite R, <- app_assoc, resting_app, placed_app, fold_left_app, Fo, placed_app, Pl. cbn [app fold_left]. rewrite note_direct by exact I'.
      change (placed_identifiers [mk_report cancelled (o_buy o) rem direct_order (o_limit o) (o_owner o)]) with (@nil Z). rewrite app_nil_r.
      eapply good_reports; [exact G'|reflexivity..].
    + exfalso. specialize (Hfok eq_refl). pose proof (available_none o l' Hc). lia.
Qed.
Lemma alone o b : ok b -> lowest < o_limit o < highest -> 0 < o_quantity o -> not_exhausted capacity (b_reports b) -> Z.of_nat (length (resting (b_reports b))) < capacity ->
  (forall e, In e (resting (b_reports b)) -> ~ crosses o e) ->
  outcome_ok o b (match o_lifetime o with
    | immediate_or_cancel | fill_or_kill => Ok (add_report b (mk_report cancelled (o_buy o) (o_quantity o) direct_order (o_limit o) (o_owner o)))
    | _ => place o (encode (o_limit o)) b (o_quantity o) end).
Proof.
  intros G Hlim Hq Hne Hlen Hc. pose proof G as [[] _ _]. destruct (o_lifetime o) eqn:Lt.
  - eapply finish; [exact G|exact Hlim|exact Hq|exact Hne|exact Hlen|congruence|apply tr_done|exact G|now rewrite app_nil_r|auto].
  - exists (add_report b (mk_report cancelled (o_buy o) (o_quantity o) direct_order (o_limit o) (o_owner o))), ([] ++ [mk_report cancelled (o_buy o) (o_quantity o) direct_order (o_limit o) (o_owner o)]), 0.
    split; [reflexivity|]. split; [reflexivity|]. split; [eapply an_cancelled; [lia|lia|apply ex_alone; assumption|exact Hq|exact Lt]|]. split; [constructor|].
    unfold ok. cbn [add_report b_reports]. rewrite resting_app, placed_app. cbn [fold_left]. rewrite note_direct by assumption. cbn. rewrite app_nil_r.
    eapply good_reports; [exact G|reflexivity..].
  - exists (add_report b (mk_report cancelled (o_buy o) (o_quantity o) direct_order (o_limit o) (o_owner o))), [mk_report cancelled (o_buy o) (o_quantity o) direct_order (o_limit o) (o_owner o)], 0.
    split; [reflexivity|]. split; [reflexivity|]. split; [apply an_killed; [lia|lia|exact Lt|]; rewrite available_none by exact Hc; lia|]. split; [constructor|].
    unfold ok. cbn [add_report b_reports]. rewrite resting_app, placed_app. cbn [fold_left]. rewrite note_direct by assumption. cbn. rewrite app_nil_r.
    eapply good_reports; [exact G|reflexivity..].
Qed.
Lemma quote_ask b l handed : good b l handed -> (0 < size)%nat ->
  (exists e, In e l /\ e_buy e = false /\ b_ask b = lev e /\ ask decode b = Ok (Some (e_limit e)) /\ forall x, In x l -> e_buy x = false -> e_limit e <= e_limit x) \/
  (ask decode b = Ok None /\ forall x, In x l -> e_buy x <> false).
Proof.
  intros [C Bo (A1 & A2 & A3)] Sz. pose proof C as C'. destruct C'. rewrite Forall_forall in co_inside. destruct A3 as [A3|(e & He & E1 & E2)].
  - right. unfold ask. rewrite A3. rewrite (level_ok size) by (first [exact co_levels|lia]). cbn [bind_result].
    rewrite (proj2 (empty_level b l handed (Z.of_nat size - 1) C ltac:(lia))).
    + split; [reflexivity|]. intros x Hx Bx. pose proof (A2 x Hx Bx). pose proof (lev_bounds x (co_inside x Hx)). lia.
    + intros x Hx. pose proof (lev_bounds x (co_inside x Hx)). lia.
  - left. exists e. split; [exact He|]. split; [exact E1|]. split; [now symmetry|]. pose proof (lev_bounds e (co_inside e He)) as (L1 & L2). split.
    + unfold ask. rewrite <- E2. rewrite (level_ok size) by (first [exact co_levels|lia]). cbn [bind_result].
      destruct (fst (nth (Z.to_nat (lev e)) (b_levels b) (None, None))) eqn:X; [rewrite L2; reflexivity|].
      exfalso. exact (proj1 (empty_level b l handed (lev e) C ltac:(lia)) X e He eq_refl).
    + intros x Hx Bx. pose proof (A2 x Hx Bx). destruct (co_inside x Hx) as (Ix & _). destruct (co_inside e He) as (Ie & _). pose proof (lev_le (e_limit e) (e_limit x) Ie Ix). lia.
Qed.
Lemma quote_bid b l handed : good b l handed -> (0 < size)%nat ->
  (exists e, In e l /\ e_buy e = true /\ b_bid b = lev e /\ bid decode b = Ok (Some (e_limit e)) /\ forall x, In x l -> e_buy x = true -> e_limit x <= e_limit e) \/
  (bid decode b = Ok None /\ forall x, In x l -> e_buy x <> true).
Proof.
  intros [C (A1 & A2 & A3) Ao] Sz. pose proof C as C'. destruct C'. rewrite Forall_forall in co_inside. destruct A3 as [A3|(e & He & E1 & E2)].
  - right. unfold bid. rewrite A3. rewrite (level_ok size) by (first [exact co_levels|lia]). cbn [bind_result].
    rewrite (proj2 (empty_level b l handed 0 C ltac:(lia))).
    + split; [reflexivity|]. intros x Hx Bx. pose proof (A2 x Hx Bx). pose proof (lev_bounds x (co_inside x Hx)). lia.
    + intros x Hx. pose proof (lev_bounds x (co_inside x Hx)). lia.
  - left. exists e. split; [exact He|]. split; [exact E1|]. split; [now symmetry|]. pose proof (lev_bounds e (co_inside e He)) as (L1 & L2). split.
    + unfold bid. rewrite <- E2. rewrite (level_ok size) by (first [exact co_levels|lia]). cbn [bind_result].
      destruct (fst (nth (Z.to_nat (lev e)) (b_levels b) (None, None))) eqn:X; [rewrite L2; reflexivity|].
      exfalso. exact (proj1 (empty_level b l handed (lev e) C ltac:(lia)) X e He eq_refl).
    + intros x Hx Bx. pose proof (A2 x Hx Bx). destruct (co_inside x Hx) as (Ix & _). destruct (co_inside e He) as (Ie & _). pose proof (lev_le (e_limit x) (e_limit e) Ix Ie). lia.
Qed.
Lemma insert_ok o b : ok b -> not_exhausted capacity (b_reports b) -> allowed lowest highest lot capacity (resting (b_reports b)) (Insert o) ->
  outcome_ok o b (insert lowest highest lot encode decode fuel o b).
Proof.
  intros G Hne (Hlot & Hlo & Hhi & Hlen & Hfok). unfold insert. rewrite Hlot, Z.eqb_refl. cbn [negb]. unfold valid.
  destruct (negb ((lowest <=? o_limit o) && (o_limit o <=? highest)) || (o_quantity o <=? 0)) eqn:V.
  { exists (add_report b (mk_report invalid (o_buy o) (o_quantity o) direct_order (o_limit o) (o_owner o))), [mk_report invalid (o_buy o) (o_quantity o) direct_order (o_limit o) (o_owner o)], 0.
    split; [reflexivity|]. split; [reflexivity|]. split; [apply an_invalid; lia|]. split; [constructor|].
    unfold ok. cbn [add_report b_reports]. rewrite resting_app, placed_app. cbn. rewrite app_nil_r. eapply good_reports; [exact G|reflexivity..]. }
  assert (Hlim : lowest < o_limit o < highest) by lia. assert (Hq : 0 < o_quantity o) by lia. clear V.
  pose proof (proj1 HF _ Hlim) as (Lo & _). pose proof G as [C (B1 & B2 & B3) (A1 & A2 & A3)]. pose proof C as C'. destruct C'. rewrite co_levels.
  destruct ((encode (o_limit o) <? 0) || (Z.of_nat size <=? encode (o_limit o))) eqn:V; [lia|]. clear V.
  assert (Sz : (0 < size)%nat) by lia.
  destruct (o_buy o) eqn:Hb.
  - destruct (quote_ask b _ _ G Sz) as [(e & He & E1 & E2 & E3 & E4)|(E3 & E4)]; rewrite E3; cbn [bind_result].
    + destruct (Z.leb_spec (e_limit e) (o_limit o)) as [L|L].
      * rewrite Forall_forall in co_inside. pose proof (lev_bounds e (co_inside e He)) as (L1 & L2).
        destruct (sweep_up_ok o Hlim Hb size b _ _ (o_quantity o) (b_ask b) G ltac:(lia) ltac:(lia)) as (b' & l' & rem & rs & M & G' & T & R & Hend).
        -- exact A2.
        -- intros x Hx Bx. rewrite E2. apply co_cross; assumption.
        -- lia.
        -- rewrite M. cbn [bind_result fst snd]. eapply finish; try eassumption. intros F. destruct (Hfok F) as [F'|F']; [|exact F']. exfalso.
           assert (P : forall l, Forall inside l -> In e l -> 0 < available o l).
           { intros l I Hin. apply in_split in Hin. destruct Hin as (l1 & l2 & ->). apply Forall_app in I. destruct I as [I1 I2]. inversion I2 as [|? ? I3 I4]; subst.
             assert (Nn : forall l, Forall inside l -> 0 <= available o l).
             { clear. unfold available, zsum. induction l as [|a l IH]; [cbn; lia|]. inversion 1 as [|? ? I1 I2]; subst. cbn [filter]. destruct (crossesb o a); [|auto]. cbn [map fold_right]. destruct I1 as (_ & ? & _). specialize (IH I2). lia. }
             pose proof (Nn l1 I1). pose proof (Nn l2 I4). unfold available in *. rewrite filter_app, map_app, zsum_app. cbn [filter].
             assert (Cb : crossesb o e = true) by (unfold crossesb; rewrite Hb, E1; cbn; lia). rewrite Cb. cbn [map]. unfold zsum in *. cbn [fold_right]. destruct I3 as (_ & ? & _). lia. }
           specialize (P (resting (b_reports b)) ltac:(apply Forall_forall; exact co_inside) He). lia.
      * rewrite <- Hb. apply alone; try assumption. intros x Hx (X1 & X2). rewrite Hb in X1, X2. cbn [negb] in X1. pose proof (E4 x Hx X1). lia.
    + rewrite <- Hb. apply alone; try assumption. intros x Hx (X1 & X2). rewrite Hb in X1. cbn [negb] in X1. exact (E4 x Hx X1).
  - destruct (quote_bid b _ _ G Sz) as [(e & He & E1 & E2 & E3 & E4)|(E3 & E4)]; rewrite E3; cbn [bind_result].
    + destruct (Z.leb_spec (o_limit o) (e_limit e)) as [L|L].
      * rewrite Forall_forall in co_inside. pose proof (lev_bounds e (co_inside e He)) as (L1 & L2).
        destruct (sweep_down_ok o Hlim Hb size b _ _ (o_quantity o) (b_bid b) G ltac:(lia) ltac:(lia)) as (b' & l' & rem & rs & M & G' & T & R & Hend).
        -- exact B2.
        -- intros x Hx Bx. rewrite E2. apply co_cross; assumption.
        -- lia.
        -- rewrite M. cbn [bind_result fst snd]. eapply finish; try eassumption. intros F. destruct (Hfok F) as [F'|F']; [|exact F']. exfalso.
           assert (P : forall l, Forall inside l -> In e l -> 0 < available o l).
           { intros l I Hin. apply in_split in Hin. destruct Hin as (l1 & l2 & ->). apply Forall_app in I. destruct I as [I1 I2]. inversion I2 as [|? ? I3 I4]; subst.
             assert (Nn : forall l, Forall inside l -> 0 <= available o l).
             { clear. unfold available, zsum. induction l as [|a l IH]; [cbn; lia|]. inversion 1 as [|? ? I1 I2]; subst. cbn [filter]. destruct (crossesb o a); [|auto]. cbn [map fold_right]. destruct I1 as (_ & ? & _). specialize (IH I2). lia. }
             pose proof (Nn l1 I1). pose proof (Nn l2 I4). unfold available in *. rewrite filter_app, map_app, zsum_app. cbn [filter].
             assert (Cb : crossesb o e = true) by (unfold crossesb; rewrite Hb, E1; cbn; lia). rewrite Cb. cbn [map]. unfold zsum in *. cbn [fold_right]. destruct I3 as (_ & ? & _). lia. }
           specialize (P (resting (b_reports b)) ltac:(apply Forall_forall; exact co_inside) He). lia.
      * rewrite <- Hb. apply alone; try assumption. intros x Hx (X1 & X2). rewrite Hb in X1, X2. cbn [negb] in X1. pose proof (E4 x Hx X1). lia.
    + rewrite <- Hb. apply alone; try assumption. intros x Hx (X1 & X2). rewrite Hb in X1. cbn [negb] in X1. exact (E4 x Hx X1).
Qed.
(** ** Cancellation *)
Lemma core_cancel b b' l1 e l2 handed : core b (l1 ++ e :: l2) handed ->
  let s := slot (b_pool b) (e_identifier e) in
  let q1 := slots (b_pool b) l1 (lev e) in
  let q2 := slots (b_pool b) l2 (lev e) in
  pinv capacity (b_pool b') (l1 ++ l2) handed -> cap (b_pool b') = cap (b_pool b) ->
  (forall j, j <> s -> data (b_pool b') j =
     let d1 := if same_pointer (last_error q1) (Some j) then with_successor (data (b_pool b) j) (hd_error q2) else data (b_pool b) j in
     if same_pointer (hd_error q2) (Some j) then with_predecessor d1 (last_error q1) else d1) ->
  length (b_levels b') = size ->
  (forall i, 0 <= i < Z.of_nat size -> nth (Z.to_nat i) (b_levels b') (None, None) = if i =? lev e then (hd_error (q1 ++ q2), last_error (q1 ++ q2)) else nth (Z.to_nat i) (b_levels b) (None, None)) ->
  core b' (l1 ++ l2) handed.
Proof.
  intros C s q1 q2 Hp Hc Hd Hl Hn. destruct C. pose proof (pinv_facts _ _ _ _ co_pool) as (C1 & C2 & N & NI & Bi & Le & _).
  pose proof (NoDup_map_app (fun e => slot (b_pool b) (e_identifier e)) l1 e l2 N) as D. cbn beta in D. fold s in D.
  assert (Sq : slots (b_pool b) (l1 ++ e :: l2) (lev e) = q1 ++ s :: q2) by (rewrite slots_app, slots_cons, Z.eqb_refl; reflexivity).
  pose proof (NoDup_slots encode _ _ (lev e) N) as Nq. rewrite Sq in Nq.
  assert (Hpre : forall j, same_pointer (last_error q1) (Some j) = true -> exists q0, q1 = q0 ++ [j]).
  { intros j. destruct q1 as [|x q0 _] using rev_ind; [discriminate|]. rewrite last_error_app. cbn [same_pointer]. intros X. assert (x = j) by lia. subst. eauto. }
  assert (Hsuc : forall j, same_pointer (hd_error q2) (Some j) = true -> exists q0, q2 = j :: q0).
  { intros j. destruct q2 as [|x q0]; [discriminate|]. cbn [hd_error same_pointer]. intros X. assert (x = j) by lia. subst. eauto. }
  constructor; [exact Hp| | |exact Hl| |].
  - apply Forall_forall. intros x Hx. rewrite Forall_forall in co_data. specialize (co_data x (removed_sub _ _ _ _ Hx)). revert co_data.
    unfold holds. cbv zeta. rewrite (slot_cap _ (b_pool b) _ Hc). rewrite Hd by (apply D; exact Hx). cbv zeta. destruct (same_pointer _ _), (same_pointer _ _); auto.
  - apply Forall_forall. intros x Hx. rewrite Forall_forall in co_inside. apply co_inside. apply removed_sub. exact Hx.
  - intros i Hi. destruct (co_queues i Hi) as (S1 & S2 & S3). rewrite Hn by exact Hi. destruct (Z.eqb_spec i (lev e)) as [->|Ni].
    + assert (E : slots (b_pool b') (l1 ++ l2) (lev e) = q1 ++ q2) by (rewrite (slots_pool encode _ (b_pool b)) by congruence; apply slots_app).
      rewrite E. split; [|split; [reflexivity|intros _; reflexivity]]. rewrite Sq in S1. apply seg_app in S1. destruct S1 as [S11 S12]. cbn [hd_error or_else] in S11.
      cbn [seg] in S12. destruct S12 as (S12 & S13 & S14).
      assert (N1 : forall a, In a q1 -> a <> s) by (intros a Ha ->; apply (NoDup_remove_2 _ _ _ Nq); apply in_or_app; auto).
      assert (N2 : forall a, In a q2 -> a <> s) by (intros a Ha ->; apply (NoDup_remove_2 _ _ _ Nq); apply in_or_app; auto).
      pose proof (NoDup_remove_1 _ _ _ Nq) as Nd.
      assert (N12 : forall a, In a q1 -> In a q2 -> False).
      { intros a Ha Hb. clear - Nd Ha Hb. apply in_split in Ha. destruct Ha as (u & v & ->). rewrite <- app_assoc in Nd. cbn [app] in Nd. apply NoDup_remove_2 in Nd. apply Nd. apply in_or_app. right. apply in_or_app. auto. }
      apply seg_app. split.
      * replace (or_else (hd_error q2) None) with (hd_error q2) by (destruct q2; reflexivity).
        destruct q1 as [|x q0 _] using rev_ind; [exact I|]. rewrite last_error_app in *.
        assert (Fr : forall a, In a (q0 ++ [x]) -> same_pointer (hd_error q2) (Some a) = false).
        { intros a Ha. destruct (same_pointer (hd_error q2) (Some a)) eqn:X; [|reflexivity]. destruct (Hsuc a X) as (q3 & E3). exfalso. apply (N12 a Ha). rewrite E3. left. reflexivity. }
        eapply seg_last; [exact S11| | |].
        -- intros a Ha. rewrite Hd by (apply N1; apply in_or_app; auto). cbv zeta. rewrite Fr by (apply in_or_app; auto). cbn [same_pointer].
           destruct (Nat.eqb_spec x a) as [->|]; [|auto]. exfalso. rewrite <- app_assoc in Nd. cbn [app] in Nd. apply NoDup_remove_2 in Nd. apply Nd. apply in_or_app. auto.
        -- rewrite Hd by (apply N1; apply in_or_app; cbn; auto). cbv zeta. rewrite Fr by (apply in_or_app; cbn; auto). cbn [same_pointer]. rewrite Nat.eqb_refl. reflexivity.
        -- rewrite Hd by (apply N1; apply in_or_app; cbn; auto). cbv zeta. rewrite Fr by (apply in_or_app; cbn; auto). cbn [same_pointer]. rewrite Nat.eqb_refl. reflexivity.
      * replace (or_else (last_error q1) None) with (last_error q1) by (destruct (last_error q1); reflexivity).
        destruct q2 as [|y q3]; [exact I|].
        assert (Fr : forall a, In a (y :: q3) -> same_pointer (last_error q1) (Some a) = false).
        { intros a Ha. destruct (same_pointer (last_error q1) (Some a)) eqn:X; [|reflexivity]. destruct (Hpre a X) as (q0 & E0). exfalso. apply (N12 a); [rewrite E0; apply in_or_app; cbn; auto|exact Ha]. }
        eapply seg_first; [exact S14| | |].
        -- intros a Ha. rewrite Hd by (apply N2; cbn; auto). cbv zeta. rewrite Fr by (cbn; auto). cbn [hd_error same_pointer].
           destruct (Nat.eqb_spec y a) as [->|]; [|auto]. exfalso. apply NoDup_remove_2 in Nd. apply Nd. apply in_or_app. auto.
        -- rewrite Hd by (apply N2; cbn; auto). cbv zeta. rewrite Fr by (cbn; auto). cbn [hd_error same_pointer]. rewrite Nat.eqb_refl. reflexivity.
        -- rewrite Hd by (apply N2; cbn; auto). cbv zeta. rewrite Fr by (cbn; auto). cbn [hd_error same_pointer]. rewrite Nat.eqb_refl. reflexivity.
    + assert (Sl : slots (b_pool b') (l1 ++ l2) i = slots (b_pool b) (l1 ++ e :: l2) i).
      { rewrite (slots_pool encode _ (b_pool b)) by congruence. rewrite !slots_app, slots_cons. destruct (Z.eqb_spec (lev e) i); [congruence|reflexivity]. }
      rewrite Sl. split; [|split; [exact S2|exact S3]]. eapply seg_frame; [|exact S1]. intros x Hx.
      assert (Hxa : ~ In x (q1 ++ s :: q2)). { rewrite <- Sq. intros X. apply Ni. eapply slots_apart; [exact N|exact Hx|exact X]. }
      rewrite Hd by (intros ->; apply Hxa; apply in_or_app; cbn; auto). cbv zeta.
      destruct (same_pointer (last_error q1) (Some x)) eqn:E1; [destruct (Hpre x E1) as (q0 & E0); exfalso; apply Hxa; rewrite E0; apply in_or_app; left; apply in_or_app; cbn; auto|].
      destruct (same_pointer (hd_error q2) (Some x)) eqn:E2; [destruct (Hsuc x E2) as (q0 & E0); exfalso; apply Hxa; rewrite E0; apply in_or_app; cbn; auto|]. auto.
  - eapply cross_sub; [|exact co_cross]. intros x. apply removed_sub.
Qed.
Lemma cancel_ok h b : ok b -> allowed lowest highest lot capacity (resting (b_reports b)) (Cancel h) ->
  exists b' e, In e (resting (b_reports b)) /\ e_identifier e = h /\ cancel lowest highest encode decode comparable h b = Ok b' /\
    b_reports b' = b_reports b ++ [mk_report cancelled (e_buy e) (e_quantity e) h (e_limit e) (e_owner e)] /\ ok b'.
Proof.
  intros G (e & e' & He & Eh & He' & Nh & Be & Nb). set (l := resting (b_reports b)) in *. set (handed := rev (placed_identifiers (b_reports b))).
  assert (G' : good b l handed) by exact G. pose proof G' as [C Bo Ao]. pose proof C as C'. destruct C'.
  pose proof (pinv_facts _ _ _ _ co_pool) as (C1 & C2 & N & NI & Bi & Le & _).
  rewrite Forall_forall in co_inside, co_data, Bi. pose proof (co_inside e He) as Ie. pose proof (lev_bounds e Ie) as (L1 & L2). pose proof Ie as (Ie1 & _).
  destruct (co_data e He) as (D1 & D2 & D3). rewrite Eh in D1, D2, D3. assert (Sz : (0 < size)%nat) by lia.
  set (s := slot (b_pool b) h) in *.
  apply in_split in He. destruct He as (l1 & l2 & El).
  set (q1 := slots (b_pool b) l1 (lev e)). set (q2 := slots (b_pool b) l2 (lev e)).
  assert (Sq : slots (b_pool b) l (lev e) = q1 ++ s :: q2) by (rewrite El, slots_app, slots_cons, Z.eqb_refl, Eh; reflexivity).
  destruct (co_queues (lev e) ltac:(lia)) as (S1 & S2 & S3). rewrite Sq in S1, S2, S3.
  apply seg_app in S1. destruct S1 as [S11 S12]. cbn [seg] in S12. destruct S12 as (S12 & S13 & S14).
  assert (S12' : r_predecessor (data (b_pool b) s) = last_error q1) by (rewrite S12; destruct (last_error q1); reflexivity).
  assert (S13' : r_successor (data (b_pool b) s) = hd_error q2) by (rewrite S13; destruct q2; reflexivity).
  clear S12 S13.
  exists (
    let b1 := set_level b (Z.to_nat (lev e)) (hd_error (q1 ++ q2), last_error (q1 ++ q2)) in
    let b3 := add_report (set_pool b1 (fst (erase (b_pool b) h))) (mk_report cancelled (e_buy e) (e_quantity e) h (e_limit e) (e_owner e)) in
    let p1 := match last_error q1 with Some x => set_data (b_pool b3) x (with_successor (data (b_pool b3) x) (hd_error q2)) | None => b_pool b3 end in
    let p2 := match hd_error q2 with Some x => set_data p1 x (with_predecessor (data p1 x) (last_error q1)) | None => p1 end in
    set_pool b3 (set_data p2 s (mk_record None 0 0 None None))), e.
  split; [rewrite El; apply in_or_app; cbn; auto|]. split; [exact Eh|].
  rewrite El in co_pool. destruct (pinv_erase _ _ _ _ _ _ co_pool) as (p' & Er & P' & Cp & Dp & Ip). rewrite Eh in Er.
  split; [|split].
  - unfold cancel. fold s.
    assert (Hbid : exists d, bid decode b = Ok d /\ match d with Some q => negb (q <? e_limit e) | None => false end = e_buy e).
    { destruct (quote_bid b _ _ G' Sz) as [(x & Hx & X1 & X2 & X3 & X4)|(X3 & X4)].
      - exists (Some (e_limit x)). split; [exact X3|]. destruct (e_buy e) eqn:B.
        + assert (Hin : In e l) by (rewrite El; apply in_or_app; cbn; auto). pose proof (X4 e Hin B). lia.
        + assert (Hin : In e l) by (rewrite El; apply in_or_app; cbn; auto). pose proof (co_cross x e Hx Hin X1 B). destruct (co_inside x Hx) as (Ix & _).
          pose proof (lev_lt (e_limit x) (e_limit e) Ix Ie1). lia.
      - exists None. split; [exact X3|]. destruct (e_buy e) eqn:B; [|reflexivity]. exfalso. apply (X4 e); [rewrite El; apply in_or_app; cbn; auto|exact B]. }
    destruct Hbid as (d & Hbid & Hside). rewrite Hbid. cbn [bind_result]. rewrite D1. cbn [bind_result]. rewrite Hside.
    assert (V : valid lowest highest (e_limit e) = true) by (unfold valid; lia). rewrite V. cbn [negb].
    rewrite (level_ok size) by (first [exact co_levels|lia]). cbn [bind_result].
    destruct (nth (Z.to_nat (lev e)) (b_levels b) (None, None)) as [lf lk]. cbn [fst snd] in S2, S3.
    assert (Ne : q1 ++ s :: q2 <> []) by (destruct q1; discriminate). specialize (S3 Ne).
    assert (Ix : forall j, In j (q1 ++ s :: q2) -> (b_index (blocks (b_pool b) j) =? h) = Nat.eqb j s).
    { intros j Hj. rewrite <- Sq in Hj. apply in_slots in Hj. destruct Hj as (x & Hx & _ & <-). destruct (Bi x Hx) as [-> _].
      destruct (Nat.eqb_spec (slot (b_pool b) (e_identifier x)) s) as [X|X]; [|unfold s in X; destruct (Z.eqb_spec (e_identifier x) h); [congruence|reflexivity]].
      assert (x = e); [|subst x; lia]. apply (nodup_map_inj (fun e => slot (b_pool b) (e_identifier e)) l); [exact N|exact Hx|rewrite El; apply in_or_app; cbn; auto|]. rewrite Eh. exact X. }
    pose proof (NoDup_slots encode _ _ (lev e) N) as Nq. rewrite Sq in Nq.
    assert (Ef : exists f, lf = Some f /\ (if b_index (blocks (b_pool b) f) =? h then r_successor (data (b_pool b) f) else Some f) = hd_error (q1 ++ q2)).
    { destruct q1 as [|x q0]; cbn [app hd_error] in S2.
      - exists s. split; [exact S2|]. rewrite Ix by (left; reflexivity). rewrite Nat.eqb_refl. exact S13'.
      - exists x. split; [exact S2|]. rewrite Ix by (left; reflexivity). destruct (Nat.eqb_spec x s) as [->|]; [|reflexivity].
        exfalso. cbn [app] in Nq. inversion Nq as [|? ? X _]; subst. apply X. apply in_or_app. cbn. auto. }
    assert (Ek : exists k, lk = Some k /\ (if b_index (blocks (b_pool b) k) =? h then r_predecessor (data (b_pool b) k) else Some k) = last_error (q1 ++ q2)).
    { destruct q2 as [|y q3].
      - rewrite last_error_app in S3. exists s. split; [exact S3|]. rewrite Ix by (apply in_or_app; cbn; auto). rewrite Nat.eqb_refl, app_nil_r. exact S12'.
      - assert (Ny : y :: q3 <> []) by discriminate. destruct (exists_last Ny) as (q4 & z & Ez). rewrite last_error_app2 in S3 by discriminate.
        rewrite (last_error_app2 q1) by discriminate. rewrite Ez in *. change (s :: q4 ++ [z]) with ((s :: q4) ++ [z]) in S3. rewrite last_error_app in S3. exists z. split; [exact S3|].
        rewrite Ix by (apply in_or_app; right; right; apply in_or_app; cbn; auto). rewrite last_error_app. destruct (Nat.eqb_spec z s) as [->|]; [|reflexivity].
        exfalso. apply (NoDup_remove_2 _ _ _ Nq). apply in_or_app. right. apply in_or_app. cbn. auto. }
    destruct Ef as (f & -> & Ef). destruct Ek as (k & -> & Ek). rewrite Ef, Ek. change (b_pool (set_level b (Z.to_nat (lev e)) (hd_error (q1 ++ q2), last_error (q1 ++ q2)))) with (b_pool b).
    rewrite Er. cbn [Z.eqb fst]. rewrite D2, D3, S12', S13'. reflexivity.
  - reflexivity.
  - rewrite Er. cbn [fst]. cbv zeta. unfold ok. cbn [b_reports set_pool add_report set_level].
    rewrite resting_app, placed_app. change (placed_identifiers [mk_report cancelled (e_buy e) (e_quantity e) h (e_limit e) (e_owner e)]) with (@nil Z). rewrite app_nil_r. fold handed l.
    cbn [fold_left]. unfold note. cbn [p_state p_identifier].
    assert (Fl : filter (fun x => negb (e_identifier x =? h)) l = l1 ++ l2).
    { rewrite El in NI |- *. pose proof (NoDup_map_app e_identifier l1 e l2 NI) as D. rewrite filter_app. cbn [filter]. rewrite Eh, Z.eqb_refl. cbn [negb].
      rewrite !filter_true; [reflexivity| |]; intros x Hx; (destruct (Z.eqb_spec (e_identifier x) h) as [X|]; [|reflexivity]); exfalso; apply (D x); try (apply in_or_app; auto); congruence. }
    rewrite Fl. rewrite El in C, Bo, Ao. constructor; cbn [b_bid b_ask set_pool set_level add_report].
    + apply (core_cancel b _ l1 e l2 handed C); cbn [b_pool set_pool]; fold q1 q2; rewrite ?Eh; fold s.
      * apply pinv_set. destruct (last_error q1), (hd_error q2); repeat apply pinv_set; exact P'.
      * cbn [cap set_data]. destruct (last_error q1), (hd_error q2); exact Cp.
      * intros j Hj. rewrite data_set. destruct (Nat.eqb_spec j s); [contradiction|].
        assert (Hne : forall x y, last_error q1 = Some x -> hd_error q2 = Some y -> x <> y).
        { intros x y X Y ->. destruct q1 as [|z q0 _] using rev_ind; [discriminate|]. rewrite last_error_app in X. injection X as ->. destruct q2 as [|z q3]; [discriminate|]. injection Y as ->.
          pose proof (NoDup_slots encode _ _ (lev e) N) as Nq. rewrite Sq, <- app_assoc in Nq. apply NoDup_remove_2 in Nq. apply Nq. apply in_or_app. cbn. auto. }
        destruct (last_error q1) as [x|], (hd_error q2) as [y|]; cbn [same_pointer]; rewrite ?data_set; cbn [b_pool set_pool set_level add_report].
        -- specialize (Hne x y eq_refl eq_refl). rewrite !(Nat.eqb_sym j). destruct (Nat.eqb_spec y j) as [->|]; destruct (Nat.eqb_spec x j) as [->|]; rewrite ?data_set, ?Dp; try congruence;
             destruct (Nat.eqb_spec j x); congruence.
        -- rewrite (Nat.eqb_sym j). destruct (Nat.eqb_spec x j) as [->|]; rewrite ?Dp; reflexivity.
        -- rewrite (Nat.eqb_sym j). destruct (Nat.eqb_spec y j) as [->|]; rewrite ?Dp; reflexivity.
        -- apply Dp.
      * unfold add_report, set_pool. cbn [b_levels]. rewrite set_level_length. exact co_levels.
      * intros i Hi. unfold add_report, set_pool. cbn [b_levels]. rewrite nth_default_level by (try exact co_levels; lia).
        destruct (Z.eqb_spec i (lev e)) as [->|]; [rewrite Nat.eqb_refl; reflexivity|]. destruct (Nat.eqb_spec (Z.to_nat i) (Z.to_nat (lev e))); [lia|reflexivity].
    + assert (He2 : In e' (l1 ++ l2)). { rewrite El in He'. apply in_app_or in He'. apply in_or_app. destruct He' as [?|[->|?]]; [auto|congruence|auto]. }
      destruct Bo as (B1 & B2 & B3). split; [exact B1|]. split; [intros x Hx; apply B2; apply removed_sub; exact Hx|].
      destruct B3 as [B3|(x & Hx & X1 & X2)]; [auto|]. right. apply in_app_or in Hx. destruct Hx as [Hx|[->|Hx]]; [exists x; split; [apply in_or_app; auto|auto]| |exists x; split; [apply in_or_app; auto|auto]].
      exists e'. split; [exact He2|]. split; [congruence|]. rewrite X1 in Nb. unfold better in Nb. destruct (co_inside e' He') as (Ie' & _).
      pose proof (lev_le (e_limit x) (e_limit e') Ie1 Ie'). pose proof (B2 e' (removed_sub _ _ _ _ He2) ltac:(congruence)). lia.
    + assert (He2 : In e' (l1 ++ l2)). { rewrite El in He'. apply in_app_or in He'. apply in_or_app. destruct He' as [?|[->|?]]; [auto|congruence|auto]. }
      destruct Ao as (B1 & B2 & B3). split; [exact B1|]. split; [intros x Hx; apply B2; apply removed_sub; exact Hx|].
      destruct B3 as [B3|(x & Hx & X1 & X2)]; [auto|]. right. apply in_app_or in Hx. destruct Hx as [Hx|[->|Hx]]; [exists x; split; [apply in_or_app; auto|auto]| |exists x; split; [apply in_or_app; auto|auto]].
      exists e'. split; [exact He2|]. split; [congruence|]. rewrite X1 in Nb. unfold better in Nb. destruct (co_inside e' He') as (Ie' & _).
      pose proof (lev_le (e_limit e') (e_limit x) Ie' Ie1). pose proof (B2 e' (removed_sub _ _ _ _ He2) ltac:(congruence)). lia.
Qed.
(** ** Listing the orders *)
Lemma walk_ok p : forall q n pre, NoDup q -> seg p pre q None -> (length q <= n)%nat -> walk n p (hd_error q) = Ok (map (fun a => b_index (blocks p a)) q).
Proof.
  induction q as [|a q IH]; intros n pre N S L; [destruct n; reflexivity|]. destruct n as [|n]; [cbn in L; lia|]. cbn [seg] in S. destruct S as (_ & S2 & S3).
  cbn [hd_error walk]. rewrite S2. inversion N as [|? ? N1 N2]; subst.
  assert (E : same_pointer (match q with [] => None | b :: _ => Some b end) (Some a) = false).
  { destruct q as [|b q]; [reflexivity|]. cbn [same_pointer]. destruct (Nat.eqb_spec b a) as [->|]; [exfalso; apply N1; left; reflexivity|reflexivity]. }
  rewrite E. change (match q with [] => None | b :: _ => Some b end) with (hd_error q). rewrite (IH n (Some a) N2 S3) by (cbn in L; lia). reflexivity.
Qed.
Definition by_level (l : list entry) (i : nat) : list entry := filter (fun e => lev e =? Z.of_nat i) l.
Lemma orders_list b l handed : core b l handed -> orders fuel b = Ok (map e_identifier (flat_map (by_level l) (seq 0 size))).
Proof.
  intros C. pose proof C as C'. destruct C'. pose proof (pinv_facts _ _ _ _ co_pool) as (_ & _ & N & _ & Bi & _). rewrite Forall_forall in Bi.
  assert (K : forall lv k, (forall j, (j < length lv)%nat -> nth j lv (None, None) = nth (k + j) (b_levels b) (None, None)) -> (k + length lv = size)%nat ->
    walk_levels fuel (b_pool b) lv = Ok (map e_identifier (flat_map (by_level l) (seq k (length lv))))).
  { induction lv as [|x lv IH]; intros k Hx Hk; [reflexivity|]. cbn [walk_levels length seq flat_map].
    assert (Hk0 : (k < size)%nat) by (cbn [length] in Hk; lia).
    assert (E : x = nth k (b_levels b) (None, None)) by (specialize (Hx 0%nat ltac:(cbn; lia)); rewrite Nat.add_0_r in Hx; exact Hx).
    destruct (co_queues (Z.of_nat k) ltac:(lia)) as (S1 & S2 & _). rewrite Nat2Z.id, <- E in S2. rewrite S2.
    rewrite (walk_ok _ _ _ _ (NoDup_slots encode _ _ (Z.of_nat k) N) S1 (queue_length b l handed _ C)). cbn [bind_result].
    rewrite (IH (S k)); [|intros j Hj; specialize (Hx (S j) ltac:(cbn; lia)); cbn [nth] in Hx; rewrite Hx; f_equal; lia|cbn [length] in Hk; lia].
    cbn [bind_result]. rewrite map_app. f_equal. f_equal. unfold StaticMatch_proofs.slots, by_level. rewrite map_map. apply map_ext_in. intros e He. apply filter_In in He. apply Bi. tauto. }
  unfold orders. rewrite (K (b_levels b) 0%nat); [rewrite co_levels; reflexivity|intros j _; reflexivity|exact co_levels].
Qed.
Lemma flat_map_perm (l : list entry) : forall m k, Permutation (flat_map (by_level l) (seq k m)) (filter (fun e => (Z.of_nat k <=? lev e) && (lev e <? Z.of_nat (k + m))) l).
Proof.
  induction m as [|m IH]; intros k; cbn [seq flat_map].
  - rewrite filter_false; [constructor|]. intros e _. lia.
  - rewrite (IH (S k)). unfold by_level. clear IH. induction l as [|a l IH]; [constructor|]. cbn [filter].
    destruct (Z.eqb_spec (lev a) (Z.of_nat k)) as [E|E].
    + replace ((Z.of_nat (S k) <=? lev a) && (lev a <? Z.of_nat (S k + m))) with false by lia.
      replace ((Z.of_nat k <=? lev a) && (lev a <? Z.of_nat (k + S m))) with true by lia. cbn [app]. constructor. exact IH.
    + destruct ((Z.of_nat (S k) <=? lev a) && (lev a <? Z.of_nat (S k + m))) eqn:X.
      * replace ((Z.of_nat k <=? lev a) && (lev a <? Z.of_nat (k + S m))) with true by lia. rewrite <- Permutation_middle. constructor. exact IH.
      * replace ((Z.of_nat k <=? lev a) && (lev a <? Z.of_nat (k + S m))) with false by lia. exact IH.
Qed.
Lemma filter_by_level f l i : filter f (by_level l i) = by_level (filter f l) i.
Proof. unfold by_level. induction l as [|a l IH]; cbn; [reflexivity|]. destruct (lev a =? Z.of_nat i) eqn:E, (f a) eqn:F; cbn; rewrite ?E, ?F, IH; reflexivity. Qed.
Lemma filter_flat_map {A B} (f : B -> bool) (g : A -> list B) l : filter f (flat_map g l) = flat_map (fun x => filter f (g x)) l.
Proof. induction l as [|a l IH]; cbn; [reflexivity|]. rewrite filter_app, IH. reflexivity. Qed.
Lemma one_level (l : list entry) v : (forall e, In e l -> lev e = v) -> forall m k, flat_map (by_level l) (seq k m) = if (Z.of_nat k <=? v) && (v <? Z.of_nat (k + m)) then l else [].
Proof.
  intros H. induction m as [|m IH]; intros k; cbn [seq flat_map].
  - replace ((Z.of_nat k <=? v) && (v <? Z.of_nat (k + 0))) with false by lia. reflexivity.
  - rewrite IH. destruct (Z.eq_dec v (Z.of_nat k)) as [E|E].
    + replace ((Z.of_nat (S k) <=? v) && (v <? Z.of_nat (S k + m))) with false by lia. replace ((Z.of_nat k <=? v) && (v <? Z.of_nat (k + S m))) with true by lia.
      rewrite app_nil_r. apply filter_true. intros e He. rewrite (H e He). lia.
    + assert (X : by_level l k = []) by (apply filter_false; intros e He; rewrite (H e He); lia). rewrite X. cbn [app].
      replace ((Z.of_nat (S k) <=? v) && (v <? Z.of_nat (S k + m))) with ((Z.of_nat k <=? v) && (v <? Z.of_nat (k + S m))) by lia. reflexivity.
Qed.
Lemma levels_sorted (l : list entry) : Forall inside l -> forall m k, StronglySorted (fun a b => e_limit a <= e_limit b) (flat_map (by_level l) (seq k m)).
Proof.
  intros I. rewrite Forall_forall in I. induction m as [|m IH]; intros k; cbn [seq flat_map]; [constructor|].
  assert (K : forall f g, Forall (fun e => In e l /\ lev e = Z.of_nat k) f -> Forall (fun e => In e l /\ Z.of_nat k <= lev e) g -> StronglySorted (fun a b => e_limit a <= e_limit b) g -> StronglySorted (fun a b => e_limit a <= e_limit b) (f ++ g)).
  { induction f as [|a f IHf]; intros g Hf Hg Sg; [exact Sg|]. inversion Hf as [|? ? Ha Hf']; subst. cbn [app]. constructor; [apply IHf; assumption|].
    destruct Ha as [Ha La]. apply Forall_app. split; apply Forall_forall; intros x Hx.
    - rewrite Forall_forall in Hf'. destruct (Hf' x Hx) as [Ix Lx]. apply lev_le; [apply I; assumption|apply I; assumption|lia].
    - rewrite Forall_forall in Hg. destruct (Hg x Hx) as [Ix Lx]. apply lev_le; [apply I; assumption|apply I; assumption|lia]. }
  apply K; [| |apply IH].
  - apply Forall_forall. intros e He. apply filter_In in He. split; [tauto|lia].
  - apply Forall_forall. intros e He. apply in_flat_map in He. destruct He as (j & Hj & He). apply in_seq in Hj. apply filter_In in He. split; [tauto|lia].
Qed.
Lemma orders_ok b : ok b -> exists es, orders fuel b = Ok (map e_identifier es) /\ Permutation es (resting (b_reports b)) /\
  StronglySorted (fun a c => e_limit a <= e_limit c) es /\ forall v, filter (fun e => e_limit e =? v) es = filter (fun e => e_limit e =? v) (resting (b_reports b)).
Proof.
  intros [C _ _]. set (l := resting (b_reports b)) in *. pose proof C as C'. destruct C'. pose proof co_inside as I. rewrite Forall_forall in I.
  exists (flat_map (by_level l) (seq 0 size)). split; [eapply orders_list; exact C|]. split; [|split].
  - rewrite flat_map_perm. rewrite filter_true; [reflexivity|]. intros e He. pose proof (lev_bounds e (I e He)). lia.
  - apply levels_sorted. exact co_inside.
  - intros v. rewrite filter_flat_map. rewrite (flat_map_ext _ (by_level (filter (fun e => e_limit e =? v) l))) by (intros i; apply filter_by_level).
    destruct (filter (fun e => e_limit e =? v) l) as [|a f] eqn:E; [clear; generalize 0%nat; induction size as [|n IHn]; intros k; [reflexivity|apply IHn]|].
    rewrite (one_level _ (encode v)).
    + assert (Ha : In a (filter (fun e => e_limit e =? v) l)) by (rewrite E; left; reflexivity). apply filter_In in Ha. destruct Ha as [Ha La]. assert (X : e_limit a = v) by lia.
      pose proof (lev_bounds a (I a Ha)) as (X1 & _). rewrite X in X1. replace ((Z.of_nat 0 <=? encode v) && (encode v <? Z.of_nat (0 + size))) with true by lia. reflexivity.
    + intros e He. rewrite <- E in He. apply filter_In in He. f_equal. lia.
Qed.

(** ** All histories *)
Lemma new_ok b : new_book lowest highest size capacity = Ok b -> ok b.
Proof.
  unfold new_book. destruct (lowest >=? highest); [discriminate|]. destruct (new_pool default_record capacity) as [p| |] eqn:E; cbn; try discriminate. intros [= <-].
  unfold ok. cbn. constructor; [constructor|split; [cbn; lia|split; [intros e []|left; reflexivity]]|split; [cbn; lia|split; [intros e []|left; reflexivity]]]; cbn.
  - exists (seq 0 (Z.to_nat capacity)). apply (new_inv default_record). exact E.
  - constructor.
  - constructor.
  - apply repeat_length.
  - intros i Hi. assert (X : nth (Z.to_nat i) (repeat (@None nat, @None nat) size) (None, None) = (None, None)).
    { destruct (nth_in_or_default (Z.to_nat i) (repeat (@None nat, @None nat) size) (None, None)) as [H|H]; [apply repeat_spec in H; exact H|exact H]. }
    rewrite X. repeat split.
  - intros e e' [].
Qed.
Lemma reached_ok b : reached lowest highest lot capacity size fuel encode decode comparable b -> ok b.
Proof.
  induction 1 as [b E|b x b' H IH Hn Ha E]; [apply new_ok; exact E|]. destruct x as [o|h]; cbn [operate] in E.
  - destruct (insert_ok o b IH Hn Ha) as (b2 & rs & h & E2 & _ & _ & _ & G). congruence.
  - destruct (cancel_ok h b IH Ha) as (b2 & e & _ & _ & E2 & _ & G). congruence.
Qed.
(** ** The specification determines the reports *)
Lemma executes_trades o l q rs l' q' : executes o l q rs l' q' -> trades o l q rs l' q'.
Proof. induction 1; [apply tr_done|apply tr_done|apply tr_step; assumption]. Qed.
Lemma executes_end o l q rs l' q' : executes o l q rs l' q' -> q' = 0 \/ 0 < q' /\ forall e, In e l' -> ~ crosses o e.
Proof. induction 1; auto. Qed.
Lemma split_order {A} (a b c d : list A) x y : a ++ x :: b = c ++ y :: d -> (a = c /\ x = y /\ b = d) \/ In y a \/ In x c.
Proof.
  revert c. induction a as [|u a IH]; intros [|v c]; cbn [app]; intros [= E1 E2]; subst.
  - auto.
  - right. right. left. reflexivity.
  - right. left. left. reflexivity.
  - destruct (IH c E2) as [(-> & -> & ->)|[H|H]]; [auto|right; left; right; exact H|right; right; right; exact H].
Qed.
Lemma in_after {A} (a b c d : list A) x y : a ++ x :: b = c ++ y :: d -> In y a -> NoDup (a ++ x :: b) -> In x d.
Proof.
  revert c. induction a as [|u a IH]; intros [|v c]; cbn [app]; intros [= E1 E2] H N; subst; [destruct H|destruct H| |].
  - apply in_or_app. right. left. reflexivity.
  - destruct H as [->|H]; [|inversion N; eapply IH; eauto]. exfalso. inversion N as [|? ? X _]; subst. apply X. rewrite E2. apply in_or_app. right. left. reflexivity.
Qed.
Lemma next_unique buy l e e' : NoDup l -> next_in_line buy l e -> next_in_line buy l e' -> e = e'.
Proof.
  intros N (B & a & b & -> & F1 & F2) (B' & c & d & E & F1' & F2').
  destruct (split_order _ _ _ _ _ _ E) as [(_ & H & _)|[H|H]]; [exact H| |]; exfalso.
  - pose proof (in_after _ _ _ _ _ _ E H N) as H'. rewrite Forall_forall in F1, F2'. exact (F2' e H' B (F1 e' H B')).
  - rewrite E in N. pose proof (in_after _ _ _ _ _ _ (eq_sym E) H N) as H'. rewrite Forall_forall in F1', F2. exact (F2 e' H' B' (F1' e H B)).
Qed.
Lemma executes_unique o l q rs l' q' : executes o l q rs l' q' -> Forall inside l -> NoDup (map e_identifier l) -> forall rs2 l2 q2, executes o l q rs2 l2 q2 -> rs = rs2 /\ q' = q2.
Proof.
  induction 1 as [l|l q Hq Hc|l q e rs l' q' Hq Hn Hc x H IH]; intros I N rs2 l2 q2 H2.
  - inversion H2; subst; [auto|lia|lia].
  - inversion H2 as [|? ? X1 X2|? ? e ? ? ? X1 X2 X3 x4 X4]; subst; [lia|auto|]. exfalso. destruct X2 as (_ & a & b & -> & _). apply (Hc e); [apply in_or_app; cbn; auto|exact X3].
  - assert (In e l) by (destruct Hn as (_ & a & b & -> & _); apply in_or_app; cbn; auto).
    inversion H2 as [|? ? X1 X2|? ? e2 ? ? ? X1 X2 X3 x4 X4]; subst; [lia|exfalso; eapply X2; eauto|].
    assert (e2 = e) by (eapply next_unique; [|exact X2|exact Hn]; eapply NoDup_map_inv; exact N). subst e2.
    destruct (trades_inside o l q (trade o e x ++ []) (fold_left note (trade o e x) l) (q - x)) as (I' & N' & _); [|exact I|exact N|].
    { apply tr_step; [exact Hq|exact Hn|exact Hc|apply tr_done]. }
    destruct (IH I' N' _ _ _ X4) as (-> & ->). auto.
Qed.
Lemma crossesb_crosses o e : crossesb o e = true -> crosses o e.
Proof. unfold crossesb, crosses. intros H. apply andb_prop in H. destruct H as [H1 H2]. split; [apply Bool.eqb_prop; exact H1|]. destruct (o_buy o); lia. Qed.
Lemma answer_unique o l h rs rs' : Forall inside l -> NoDup (map e_identifier l) -> answer lowest highest o l h rs -> answer lowest highest o l h rs' -> rs = rs'.
Proof.
  intros I N A1 A2.
  assert (Av : forall rs l', executes o l (o_quantity o) rs l' 0 -> o_quantity o <= available o l).
  { intros rs0 l' X. apply executes_trades in X. destruct (trades_inside _ _ _ _ _ _ X I N) as (I' & _ & _ & A & _).
    assert (Nn : 0 <= available o l').
    { clear - I'. unfold available, zsum. induction l' as [|a l IH]; [cbn; lia|]. inversion I' as [|? ? I1 I2]; subst. cbn [filter]. destruct (crossesb o a); [|auto]. cbn [map fold_right]. destruct I1 as (_ & ? & _). specialize (IH I2). lia. }
    lia. }
  inversion A1; inversion A2; subst; try lia; try congruence; try reflexivity;
    repeat match goal with H : executes o l (o_quantity o) _ _ 0 |- _ => pose proof (Av _ _ H); revert H end; intros; try lia;
    match goal with H : executes o l (o_quantity o) _ _ _, H' : executes o l (o_quantity o) _ _ _ |- _ => destruct (executes_unique _ _ _ _ _ _ H I N _ _ _ H') as (? & ?); subst end; try lia; reflexivity.
Qed.
Lemma reached_ledger b : ok b -> Forall inside (resting (b_reports b)) /\ NoDup (map e_identifier (resting (b_reports b))).
Proof. intros [[] _ _]. split; [assumption|]. pose proof (pinv_facts _ _ _ _ co_pool) as (_ & _ & _ & NI & _). exact NI. Qed.
(** ** Fill or kill *)
Lemma fok_ok o b : ok b -> not_exhausted capacity (b_reports b) -> allowed lowest highest lot capacity (resting (b_reports b)) (Insert o) ->
  lowest <= o_limit o <= highest -> 0 < o_quantity o -> o_lifetime o = fill_or_kill -> 
  exists b' rs, insert lowest highest lot encode decode fuel o b = Ok b' /\ b_reports b' = b_reports b ++ rs /\
    if o_quantity o <=? available o (resting (b_reports b)) then executed rs = o_quantity o /\ placed_identifiers rs = []
    else rs = [mk_report cancelled (o_buy o) (o_quantity o) direct_order (o_limit o) (o_owner o)].
Proof.
  intros G Hne Ha Hlim Hq Lt. destruct (insert_ok o b G Hne Ha) as (b' & rs & h & E & R & A & _ & _). exists b', rs. split; [exact E|]. split; [exact R|].
  destruct (reached_ledger b G) as (I & N). inversion A; subst; try congruence; try lia.
  - destruct (Z.leb_spec (o_quantity o) (available o (resting (b_reports b)))); [lia|reflexivity].
  - apply executes_trades in H1. pose proof (trades_placed _ _ _ _ _ _ H1). destruct (trades_inside _ _ _ _ _ _ H1 I N) as (I' & _ & _ & Av & _ & X).
    assert (Nn : 0 <= available o l').
    { clear - I'. unfold available, zsum. induction l' as [|a l IH]; [cbn; lia|]. inversion I' as [|? ? I1 I2]; subst. cbn [filter]. destruct (crossesb o a); [|auto]. cbn [map fold_right]. destruct I1 as (_ & ? & _). specialize (IH I2). lia. }
    destruct (Z.leb_spec (o_quantity o) (available o (resting (b_reports b)))); [|lia]. split; [lia|assumption].
Qed.
End Rep.
