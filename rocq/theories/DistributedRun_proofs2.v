From Verif Require Import Base Identity IdMap Communicator Distributed Distributed_spec Distributed_proofs Distributed_proofs4 DistributedRun DistributedRun_spec.
From Coq Require Import ZifyBool ZifyNat.

(** *** Runs. *)
Section R.
Context {A : Type}.
Lemma activate_keeps (c : cluster A) xs : activate c = Ret xs -> map (fun x => deactivated (fst x)) xs = map deactivated c.
Proof.
  unfold activate. destruct (all_to_all _) as [received| |] eqn:E; [|discriminate|discriminate]. intros [= <-].
  assert (L : length received = length c).
  { unfold all_to_all in E. destruct (forallb _ _); [|discriminate]. injection E as <-. rewrite map_length, seq_length, map_length, combine_length, seq_length. lia. }
  rewrite map_map. clear E. revert received L. induction c as [|n c IH]; intros [|r rs] L; try discriminate L; [reflexivity|]. cbn. f_equal. apply IH. cbn in L. lia.
Qed.
Lemma forgets_length ids : forall n : node A, length (deactivated (fold_left (fun n i => deactivate_agent i n) ids n)) = (length (deactivated n) + length ids)%nat.
Proof. induction ids as [|i ids IH]; intros n; cbn [fold_left]; [cbn; lia|]. rewrite IH. cbn. rewrite app_length. cbn. lia. Qed.
Lemma deactivate_defined (c : cluster A) ys : deactivate c = Ret ys -> length ys = length c /\ (forall n, In n c -> length (deactivated n) = length c) /\
  forall r n y, nth_error c r = Some n -> nth_error ys r = Some y -> (length (deactivated (fst y)) = length c + length c)%nat.
Proof.
  intros E. assert (L : forall n, In n c -> length (deactivated n) = length c).
  { intros n Hn. destruct (Nat.eq_dec (length (deactivated n)) (length c)) as [|D]; [assumption|]. exfalso. unfold deactivate in E. rewrite (proj1 (all_to_all_ub (map deactivated c))) in E; [discriminate|].
    exists (deactivated n). split; [now apply in_map|now rewrite map_length]. }
  rewrite deactivate_ret in E by exact L. injection E as <-. split; [rewrite map_length, combine_length, seq_length; lia|]. split; [exact L|].
  intros r n y Hn Hy. rewrite nth_error_map in Hy. destruct (nth_error (combine (seq 0 (length c)) c) r) as [[k n']|] eqn:Ec; [|discriminate]. injection Hy as <-. cbn [fst snd].
  assert (K : k = r /\ n' = n).
  { revert Ec Hn. clear. intros Ec Hn. assert (G : forall l (b : nat) r k (n' n : node A), nth_error (combine (seq b (length l)) l) r = Some (k, n') -> nth_error l r = Some n -> k = (b + r)%nat /\ n' = n).
    { induction l as [|x l IH]; intros b r0 k0 n1 n2; [destruct r0; discriminate|]. destruct r0 as [|r0]; cbn; [intros [= <- <-] [= <-]; split; [lia|reflexivity]|]. intros P Q. destruct (IH _ _ _ _ _ P Q) as [-> ->]. split; [lia|reflexivity]. }
    exact (G c O r k n' n Ec Hn). }
  destruct K as [-> ->]. rewrite forgets_length. rewrite (L n) by (eapply nth_error_In; eassumption). f_equal.
  assert (Hr : (r < length c)%nat) by (apply nth_error_Some; congruence).
  unfold told. rewrite (flat_map_some _ (fun n => nth r (deactivated n) [])); [apply map_length|]. intros x Hx. assert (Q : (r < length (deactivated x))%nat) by (rewrite (L x Hx); exact Hr). rewrite (nth_error_nth' (deactivated x) [] Q). reflexivity.
Qed.
Context (steps : Z -> cluster A -> outcome (cluster A * list Z)) (finish : Z).
Lemma run_stuffed fuel lower n0 c c' ts : keeps_deactivated steps -> (length (n0 :: c) < length (deactivated n0))%nat -> run steps finish fuel lower (n0 :: c) = Some (Ret (c', ts)) -> (length ts <= 1)%nat.
Proof.
  intros K H. destruct fuel as [|fuel]; [discriminate|]. cbn [run]. destruct (lower <? finish); [|intros [= <- <-]; cbn; lia].
  destruct (steps lower (n0 :: c)) as [[c1 nexts]| |] eqn:E1; [|discriminate|discriminate]. destruct (least nexts >=? finish); [intros [= <- <-]; cbn; lia|].
  destruct (activate c1) as [xs| |] eqn:Ea; [|discriminate|discriminate]. destruct (deactivate (map fst xs)) as [ys| |] eqn:Ed; [|discriminate|discriminate]. exfalso.
  destruct (K _ _ _ _ E1) as [L1 L2]. destruct c1 as [|n1 c1]; [discriminate L1|]. specialize (L2 O n0 n1 eq_refl eq_refl). apply activate_keeps in Ea. destruct xs as [|x xs]; [discriminate Ea|]. cbn [map] in Ea, Ed. injection Ea as Ex Exs.
  destruct (deactivate_defined _ _ Ed) as (_ & L & _). specialize (L _ (or_introl eq_refl)). rewrite Ex in L. cbn [length] in L. rewrite map_length in L. apply (f_equal (@length _)) in Exs. rewrite !map_length in Exs. cbn [length] in *. lia.
Qed.
Lemma run_two fuel lower c c' ts : keeps_deactivated steps -> c <> [] -> run steps finish fuel lower c = Some (Ret (c', ts)) ->
  ts = [] \/ ts = [lower] \/ exists t, lower < finish /\ t < finish /\ (ts = [lower; t] \/ ts = [lower; t; t]).
Proof.
  intros K N. destruct fuel as [|fuel]; [discriminate|]. cbn [run]. destruct (lower <? finish) eqn:F0; [|intros [= <- <-]; auto].
  destruct (steps lower c) as [[c1 nexts]| |] eqn:E1; [|discriminate|discriminate]. destruct (least nexts >=? finish) eqn:F1; [intros [= <- <-]; auto|].
  destruct (activate c1) as [xs| |] eqn:Ea; [|discriminate|discriminate]. destruct (deactivate (map fst xs)) as [ys| |] eqn:Ed; [|discriminate|discriminate].
  destruct (steps (least nexts) (map fst ys)) as [[c2 tt2]| |] eqn:E2; [|discriminate|discriminate].
  destruct (run steps finish fuel (least nexts) c2) as [[[c3 ts3]| |]|] eqn:Er; [|discriminate|discriminate|discriminate]. intros [= <- <-]. right. right. exists (least nexts). split; [lia|]. split; [lia|].
  destruct (K _ _ _ _ E1) as [L1 _]. destruct (deactivate_defined _ _ Ed) as (Ly & _ & Ld). apply activate_keeps in Ea. assert (Lx : length xs = length c1) by (apply (f_equal (@length _)) in Ea; now rewrite !map_length in Ea).
  destruct c as [|n c]; [congruence|]. destruct c1 as [|n1 c1]; [discriminate|]. destruct xs as [|x xs]; [discriminate|]. destruct ys as [|y ys]; [discriminate|].
  specialize (Ld O _ _ eq_refl eq_refl). destruct (K _ _ _ _ E2) as [L2 L3]. destruct c2 as [|n2 c2]; [discriminate|]. specialize (L3 O _ _ eq_refl eq_refl).
  assert (Q := run_stuffed fuel (least nexts) n2 c2 c3 ts3 K). assert (length ts3 <= 1)%nat as G. { apply Q; [|exact Er]. cbn [length map] in *. rewrite !map_length in *. lia. }
  clear - Er G. destruct fuel as [|fuel]; [discriminate|]. cbn [run] in Er. destruct (least nexts <? finish); [|injection Er as <- <-; auto].
  destruct (steps (least nexts) (n2 :: c2)) as [[c1' nexts']| |]; [|discriminate|discriminate]. destruct (least nexts' >=? finish); [injection Er as <- <-; auto|].
  destruct (activate c1'); [|discriminate|discriminate]. destruct (deactivate _); [|discriminate|discriminate]. destruct (steps _ _) as [[? ?]| |]; [|discriminate|discriminate]. destruct (run _ _ _ _ _) as [[[? ?]| |]|]; [|discriminate|discriminate|discriminate].
  injection Er as <- <-. cbn in G. lia.
Qed.
End R.
