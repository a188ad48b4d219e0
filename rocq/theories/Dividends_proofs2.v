(** When a simulation with a dividend ends. *)
From Verif Require Import Company Company_proofs.
From Verif Require Import Base Interval Identity Identity_proofs IdMap IdMap_proofs Multimap Multimap_proofs Communicator Communicator_spec Communicator_proofs Messages
  Simulation Simulation_spec Simulation_proofs Simulation_proofs2 Simulation_proofs3 Isolation_proofs KnownRound_proofs Dividends Dividends_spec Dividends_proofs.
From Coq Require Import ZifyBool ZifyNat.

Section D.
Context (hash : identity -> Z) (shuffle : seed -> list message -> list message).
Context (write : policy -> Z) (ex_date : Z -> Z) (write_record : list (Z * Z) -> Z) {T : Type}.
Context (Hsh : forall s l, Permutation (shuffle s l) l) (random : identity -> bool) (firm : identity) (holders : list identity) (p : policy) (shares : identity -> list (identity * list (Z * Z))).
Context (Hread : ex_date (write p) = p_ex_dividend p).
Implicit Types (w : world (party T)).
Notation state := (in_state write ex_date write_record random firm holders p).
Notation newborn j := (mk_shareholder [] (shares j) []).
Notation A := (p_announcement p).
Notation X := (p_ex_dividend p).
Notation P := (p_payable p).
Lemma told_newborn j lower until : told_of firm p j lower until (newborn j) =
  (mk_shareholder [(X, firm)] (shares j) [],
   if (lower <=? X) && (X <=? until) then match Exchange.f_find id_eqb firm (shares j) with Some s => [mk_record firm 0 s] | None => [] end else []).
Proof. unfold told_of, on_announcement. cbn [insert_date h_dates h_shares h_stocks]. unfold submit_records. cbn [flat_map h_dates h_shares fst snd]. now rewrite app_nil_r. Qed.
Lemma told_known until c h inbox wake w dates : state until c h inbox wake w -> (forall j, In j holders -> h_dates (h j) = dates) -> forall j, In j holders -> knows j dates w.
Proof.
  intros (_ & _ & _ & _ & Hh & _) H j I. destruct (Hh j I) as [F _]. eexists _, (h j). split; [exact F|]. split; [reflexivity|now apply H].
Qed.
Lemma step_once fuel lower until w w' f : lower < until -> round hash shuffle lower until 0 w = Ret (w', f) -> lower < f -> step hash shuffle (S fuel) lower until w = Some (Ret (w', f)).
Proof.
  intros L E F. unfold step. destruct (ti_empty lower until) eqn:B; [apply ti_empty_iff in B; lia|]. cbn [rounds]. rewrite E. assert (lower >=? f = false) as -> by lia. reflexivity.
Qed.
Lemma step_twice fuel lower until w w1 f1 w' f : lower < until -> round hash shuffle lower until 0 w = Ret (w1, f1) -> f1 <= lower -> round hash shuffle lower until 1 w1 = Ret (w', f) -> lower < f ->
  step hash shuffle (S (S fuel)) lower until w = Some (Ret (w', f)).
Proof.
  intros L E F E1 F1. unfold step. destruct (ti_empty lower until) eqn:B; [apply ti_empty_iff in B; lia|]. cbn [rounds]. rewrite E. assert (lower >=? f1 = true) as -> by lia. change (w32 (0 + 1)) with 1. cbn [rounds]. rewrite E1. assert (lower >=? f = false) as -> by lia. reflexivity.
Qed.
Lemma run_once fuel lower w w' f : step hash shuffle (S fuel) lower (w_end w) w = Some (Ret (w', f)) -> w_end w' <= f -> run_from hash shuffle (S fuel) lower w = Some (Ret (w', [lower])).
Proof. intros E F. cbn [run_from]. rewrite E. assert (f <? w_end w' = false) as -> by lia. reflexivity. Qed.
Lemma run_more fuel lower w w1 f w' ts : step hash shuffle (S fuel) lower (w_end w) w = Some (Ret (w1, f)) -> f < w_end w1 -> run_from hash shuffle fuel f w1 = Some (Ret (w', ts)) -> run_from hash shuffle (S fuel) lower w = Some (Ret (w', lower :: ts)).
Proof. intros E F R. cbn [run_from]. rewrite E. assert (f <? w_end w1 = true) as -> by lia. now rewrite R. Qed.
Lemma quiet_not_stuck w lower f : is_next_event w f -> lower < f -> ~ stuck w lower.
Proof.
  intros N L S. apply (quiet_next w lower f N) in L. destruct L as [Q1 Q2]. destruct S as [S|(i & t & Hi & Ht)]; [lia|]. specialize (Q2 i t Hi). lia.
Qed.

Theorem exact_end w : NoDup (firm :: holders) -> state (w_end w) (new_company holders) (fun j => newborn j) (fun _ => []) (fun _ => None) w -> 0 < w_end w -> 0 <= A ->
  (bearable (w_end w) firm holders shares p -> exists fuel w' ts, run_from hash shuffle fuel 0 w = Some (Ret (w', ts)) /\ forall j, In j holders -> knows j (if (0 <? A) && (A <? w_end w) then [(X, firm)] else []) w') /\
  (~ bearable (w_end w) firm holders shares p -> forall fuel r, run_from hash shuffle fuel 0 w <> Some (Ret r)).
Proof.
  intros ND St U A0. remember (w_end w) as until eqn:Eu. pose proof St as (Wf & _).
  assert (Wt : A < until -> A < P -> forall fuel r, run_from hash shuffle fuel 0 w <> Some (Ret r)).
  { intros L1 L2 fuel r. apply (waits_forever hash shuffle write ex_date firm p); [exact Wf| |lia|lia]. destruct St as (_ & _ & F & K & _). eexists _, _, _, _. split; [exact F|]. intros t H. rewrite K in H. discriminate. }
  assert (Cases : (until <= A \/ (A = 0 /\ P <= 0)) \/ (A < until /\ A < P) \/ (0 < A < until /\ P <= A)) by lia.
  destruct Cases as [C|[[L1 L2]|[L1 L2]]].
  - (* nothing happens *)
    assert (G : exists c' next, Company.act 0 until (Some p) (new_company holders) = (c', [], next) /\ until <= next).
    { unfold Company.act, new_company. cbn [c_last_announced c_last_payment c_shareholders]. destruct (A <=? 0) eqn:E1, (0 <? A) eqn:E2; try lia; destruct (P <=? 0) eqn:E3; try lia; (eexists _, _; split; [reflexivity|lia]). }
    destruct G as (c' & next & EA & Ln). destruct (start_round hash shuffle write ex_date write_record Hsh random firm holders p shares ND until _ _ c' next 0 w St U EA ltac:(lia)) as (w1 & f & E & Nx & S1).
    assert (f = until). { eapply (state_next write ex_date write_record random firm holders p until); [exact S1|exact Nx| | |now left]; [|lia]. intros j x _ [= <-]. destruct (id_eqb j firm); lia. }
    subst f. split.
    + intros _. exists 1%nat, w1, [0]. split; [apply (run_once 0 0 w w1 until); [rewrite <- Eu; apply step_once; [lia|exact E|lia]|destruct S1 as (_ & -> & _); lia]|].
      assert ((0 <? A) && (A <? until) = false) as -> by lia. eapply told_known; [exact S1|]. reflexivity.
    + intros N. exfalso. apply N. unfold bearable. destruct C as [C|[C1 C2]]; [now left|right; split; [lia|now left]].
  - split; [|intros _; now apply Wt]. intros [B|[B _]]; lia.
  - assert (G : exists c', Company.act 0 until (Some p) (new_company holders) = (c', [], A) /\ c_shareholders c' = holders /\ c_last_announced c' = 0).
    { unfold Company.act, new_company. cbn [c_last_announced c_last_payment c_shareholders]. destruct (A <=? 0) eqn:E1; [lia|]. rewrite (Z.min_l A until) by lia. rewrite (Z.min_l A A) by lia. cbn [c_last_payment]. destruct (P <=? 0) eqn:E3, (0 <? A) eqn:E4; (eexists; split; [reflexivity|split; reflexivity]). }
    destruct G as (c1 & EA & Ec1 & Ea1). destruct (start_round hash shuffle write ex_date write_record Hsh random firm holders p shares ND until _ _ c1 A 0 w St U EA ltac:(lia)) as (w1 & f1 & E1 & Nx1 & S1).
    assert (f1 = A).
    { eapply (state_next write ex_date write_record random firm holders p until); [exact S1|exact Nx1| |lia|].
      - intros j x _ [= <-]. destruct (id_eqb j firm); lia.
      - right. exists firm. split; [now left|]. rewrite id_eqb_refl. f_equal. lia. }
    subst f1. rewrite (Z.min_r until A) in S1 by lia.
    assert (G : exists c2, Company.act A until (Some p) c1 = (c2, map (fun s => mk_announcement s A p) holders, until)).
    { unfold Company.act. rewrite Ea1, Ec1. assert (A <=? A = true) as -> by lia. assert (0 <? A = true) as -> by lia. assert (P <=? A = true) as -> by lia. cbn [c_last_payment]. eexists. reflexivity. }
    destruct G as (c2 & EA2). destruct (announcing_round hash shuffle write ex_date write_record Hsh random firm holders p shares ND until _ _ c2 until A 0 w1 S1 ltac:(lia) EA2 ltac:(lia)) as (w2 & f2 & E2 & Nx2 & S2).
    rewrite Z.min_id in S2. assert (St1 : forall fuel, step hash shuffle (S fuel) 0 until w = Some (Ret (w1, A))) by (intros fuel; apply step_once; [lia|exact E1|lia]).
    pose proof S1 as (_ & N1 & _). assert (I01 : (0 <? A) && (A <? until) = true) by lia. rewrite I01.
    destruct holders as [|j0 hs0] eqn:Eh.
    + assert (f2 = until). { eapply (state_next write ex_date write_record random firm [] p until); [exact S2|exact Nx2| |lia|now left]. intros j x [->|[]] [= <-]. rewrite id_eqb_refl. lia. }
      subst f2. split; [|intros N; exfalso; apply N; right; split; [lia|]; right; left; intros j []]. intros _. exists 2%nat, w2, [0; A].
      split; [|intros j []]. eapply run_more; [rewrite <- Eu; apply St1|lia|]. eapply run_once; [rewrite N1; apply step_once; [lia|exact E2|lia]|]. destruct S2 as (_ & -> & _). lia.
    + rewrite <- Eh in *. assert (I0 : In j0 holders) by (rewrite Eh; now left). clear Eh hs0.
      assert (f2 = A).
      { eapply (state_next write ex_date write_record random firm holders p until); [exact S2|exact Nx2| |lia|].
        - intros j x _ [= <-]. destruct (id_eqb j firm); lia.
        - right. exists j0. split; [now right|]. rewrite id_eqb_neq; [reflexivity|]. eapply not_firm; [exact ND|exact I0]. }
      subst f2.
      destruct (told_round hash shuffle write ex_date write_record Hsh random firm holders p shares Hread ND until c2 (fun j => newborn j) A 1 w2 S2 ltac:(lia)) as (w3 & f3 & E3 & Nx3 & Wf3 & Good & Bad).
      { intros j r _ Hr. rewrite told_newborn in Hr. cbn [snd] in Hr. destruct ((A <=? X) && (X <=? until)); [|contradiction]. destruct (Exchange.f_find id_eqb firm (shares j)); [|contradiction]. destruct Hr as [<-|[]]. split; reflexivity. }
      split.
      * intros [B|(_ & B)]; [lia|]. assert (None : forall j, In j holders -> snd (told_of firm p j A until (newborn j)) = []).
        { intros j I. rewrite told_newborn. cbn [snd]. destruct B as [B|[B|B]]; [lia| |].
          - specialize (B j I). unfold holds in B. destruct (Exchange.f_find id_eqb firm (shares j)); [exfalso; apply B; discriminate|]. now destruct ((A <=? X) && (X <=? until)).
          - assert ((A <=? X) && (X <=? until) = false) as -> by lia. reflexivity. }
        specialize (Good None). assert (f3 = until). { eapply (state_next write ex_date write_record random firm holders p until); [exact Good|exact Nx3| |lia|now left]. intros j x _ [= <-]. lia. }
        subst f3. exists 3%nat, w3, [0; A]. split.
        -- eapply run_more; [rewrite <- Eu; apply St1|lia|]. eapply run_once; [rewrite N1; eapply step_twice; [lia|exact E2|lia|exact E3|lia]|]. destruct Good as (_ & -> & _). lia.
        -- eapply told_known; [exact Good|]. intros j I. cbv beta. rewrite told_newborn. reflexivity.
      * intros N fuel r R. assert (Some_j : exists j, In j holders /\ snd (told_of firm p j A until (newborn j)) <> []).
        { destruct (forallb (fun j => match snd (told_of firm p j A until (newborn j)) with [] => true | _ => false end) holders) eqn:F.
          - exfalso. apply N. right. split; [lia|]. rewrite forallb_forall in F. destruct ((A <=? X) && (X <=? until)) eqn:B; [|right; right; lia]. right. left. intros j I H. specialize (F j I). rewrite told_newborn, B in F. cbn [snd] in F. unfold holds in H. destruct (Exchange.f_find id_eqb firm (shares j)); [discriminate|contradiction].
          - clear - F. induction holders as [|j l IH]; [discriminate|]. cbn [forallb] in F. destruct (snd (told_of firm p j A until (newborn j))) eqn:Q.
            + destruct (IH F) as (k & I & H). exists k. split; [now right|exact H].
            + exists j. split; [now left|]. rewrite Q. discriminate. }
        destruct Some_j as (j & I & Hj). pose proof (Bad j I Hj) as Stuck.
        destruct fuel as [|fuel]; [discriminate|]. cbn [run_from] in R. rewrite <- Eu, St1 in R. assert (A <? w_end w1 = true) as B1 by lia. rewrite B1 in R.
        destruct (run_from hash shuffle fuel A w1) as [[[w' ts]| |]|] eqn:R1; try discriminate. clear R. destruct fuel as [|fuel]; [discriminate|]. cbn [run_from] in R1. rewrite N1 in R1.
        destruct (step hash shuffle (S fuel) A until w1) as [[[w4 f4]| |]|] eqn:R2; try discriminate. clear R1. unfold step in R2. destruct (ti_empty A until); [discriminate|]. cbn [rounds] in R2. rewrite E2 in R2. assert (A >=? A = true) as B2 by lia. rewrite B2 in R2. change (w32 (0 + 1)) with 1 in R2.
        destruct fuel as [|fuel]; [discriminate|]. cbn [rounds] in R2. rewrite E3 in R2. destruct (A >=? f3) eqn:B3; [|apply (quiet_not_stuck w3 A f3 Nx3); [lia|exact Stuck]].
        exact (stuck_rounds hash shuffle fuel A until _ w3 (w4, f4) Wf3 Stuck R2).
Qed.
End D.
