(** C229: the display of the fixed-tick book. *)
From Coq Require Import ZifyBool ZifyNat.
From Verif Require Import Base BlockPool StaticTicks StaticBook StaticBook_spec StaticMatch_spec StaticMatch_proofs StaticMatch_more StaticMatch_props Display Display_spec Display_proofs.

(** For the histories of C78: the asks are shown from the worst to the best, then the bids from the best to the worst, as many
    limits of either as were asked for, but the quantity of an ask modulo 2^32. *)
Theorem C229_shown : forall lowest highest lot capacity size fuel encode decode comparable b levels,
  faithful lowest highest size encode decode -> capacity <= Z.of_nat fuel -> (0 < size)%nat ->
  reached lowest highest lot capacity size fuel encode decode comparable b -> 0 <= levels ->
  zsum (map e_quantity (resting (b_reports b))) < W64 ->
  exists asks bids, display fuel decode levels b = Ok (rev (map (fun r => (fst r, snd r mod 2 ^ 32)) asks), bids) /\
    best_rows false (resting (b_reports b)) levels asks /\ best_rows true (resting (b_reports b)) levels bids.
Proof.
  intros lowest highest lot capacity size fuel encode decode comparable b levels HF Hf Hs R Hl Hq.
  pose proof (reached_ok _ _ _ _ _ _ _ _ _ HF Hf _ R) as G.
  exact (display_ok _ _ _ _ _ _ _ HF Hf b _ _ levels G Hq Hl Hs).
Qed.
Print Assumptions C229_shown.
(** Two orders to sell that add up to 2^32 are shown as nothing; as orders to buy they are shown right. *)
Theorem C229_quantity_refuted : exists b b', demo [sell 1 5 (2 ^ 31); sell 2 5 (2 ^ 31)] = Ok b /\ display 20 demo_decode 5 b = Ok ([(5, 0)], []) /\
  quantity_at false 5 (resting (b_reports b)) = 2 ^ 32 /\
  demo [buy 1 5 (2 ^ 31); buy 2 5 (2 ^ 31)] = Ok b' /\ display 20 demo_decode 5 b' = Ok ([], [(5, 2 ^ 32)]).
Proof.
  destruct (demo [sell 1 5 (2 ^ 31); sell 2 5 (2 ^ 31)]) as [b| | |] eqn:E; try (vm_compute in E; discriminate E).
  destruct (demo [buy 1 5 (2 ^ 31); buy 2 5 (2 ^ 31)]) as [b'| | |] eqn:E'; try (vm_compute in E'; discriminate E').
  exists b, b'. split; [reflexivity|]. vm_compute in E, E'. injection E as <-. injection E' as <-. vm_compute. repeat split.
Qed.
Print Assumptions C229_quantity_refuted.
(** An order to sell at the lowest price is shown among the bids, too. *)
Theorem C229_side_refuted : exists b, demo [sell 1 1 10] = Ok b /\ display 20 demo_decode 5 b = Ok ([(1, 10)], [(1, 10)]) /\
  resting (b_reports b) = [mk_entry 0 false 1 10 1].
Proof.
  destruct (demo [sell 1 1 10]) as [b| | |] eqn:E; try (vm_compute in E; discriminate E).
  exists b. split; [reflexivity|]. vm_compute in E. injection E as <-. vm_compute. repeat split.
Qed.
Print Assumptions C229_side_refuted.
(** Three limits of either side, of which two are shown. *)
Example C229_case : exists b, demo [buy 1 5 10; buy 2 4 3; buy 3 4 4; buy 4 2 1; sell 5 7 5; sell 6 9 6; sell 7 8 2; sell 8 7 1] = Ok b /\
  display 20 demo_decode 2 b = Ok ([(8, 2); (7, 6)], [(5, 10); (4, 7)]) /\
  display 20 demo_decode 5 b = Ok ([(9, 6); (8, 2); (7, 6)], [(5, 10); (4, 7); (2, 1)]) /\ display 20 demo_decode 0 b = Ok ([], []).
Proof.
  destruct (demo [buy 1 5 10; buy 2 4 3; buy 3 4 4; buy 4 2 1; sell 5 7 5; sell 6 9 6; sell 7 8 2; sell 8 7 1]) as [b| | |] eqn:E; try (vm_compute in E; discriminate E).
  exists b. split; [reflexivity|]. vm_compute in E. injection E as <-. vm_compute. repeat split.
Qed.
