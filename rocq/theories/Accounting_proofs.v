From Verif Require Import Base Identity IdMap Money Money_proofs Accounting Accounting_spec.
From Coq Require Import ZifyBool ZifyNat.

Lemma equivalent_code x y : equivalent x y = true <-> same_code x y.
Proof.
  unfold equivalent, same_code, ccy_ltb. destruct x as [x0 x1 x2 dx], y as [y0 y1 y2 dy]. cbn [c0 c1 c2]. split.
  - intros H. destruct (x0 <? y0) eqn:A0, (y0 <? x0) eqn:B0, (x0 >? y0) eqn:C0, (y0 >? x0) eqn:D0,
      (x1 <? y1) eqn:A1, (y1 <? x1) eqn:B1, (x1 >? y1) eqn:C1, (y1 >? x1) eqn:D1; cbn in H; try discriminate; try lia;
      destruct (x2 <? y2) eqn:A2, (y2 <? x2) eqn:B2, (x2 >? y2) eqn:C2, (y2 >? x2) eqn:D2; cbn in H; try discriminate; lia.
  - intros (-> & -> & ->). rewrite !Z.ltb_irrefl. replace (y0 >? y0) with false by lia. replace (y1 >? y1) with false by lia. replace (y2 >? y2) with false by lia. reflexivity.
Qed.
Lemma rate_of_none c m : rate_of c m = None <-> forall k r, In (k, r) m -> ~ same_code k c.
Proof.
  induction m as [|[k r] m IH]; cbn; [split; [intros _ k r []|reflexivity]|].
  destruct (equivalent k c) eqn:E.
  - split; [discriminate|]. intros H. exfalso. apply (H k r); [now left|]. now apply equivalent_code.
  - rewrite IH. split.
    + intros H k' r' [K|K]; [injection K as <- <-; intros S; apply equivalent_code in S; congruence|now apply (H k' r')].
    + intros H k' r' K. apply (H k' r'). now right.
Qed.
Lemma s64_small x : 0 <= x < 2 ^ 63 -> s64 x = x.
Proof. intros H. apply s64_id. unfold i64. lia. Qed.
Lemma s64_range x : i64 (s64 x).
Proof. unfold s64, i64. assert (0 <= x mod W64 < W64) by (apply Z.mod_pos_bound; reflexivity). change W64 with (2 ^ 64) in *. destruct (x mod 2 ^ 64 <? 2 ^ 63) eqn:E; lia. Qed.

