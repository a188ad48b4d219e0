(** Lemmas about the samplers. *)
From Coq Require Import SpecFloat QArith Qround Qfield ZifyBool ZifyNat.
From Verif Require Import Base Identity Identity_proofs StaticTicks StaticTicks_proofs Sampler Sampler_spec.
Local Open Scope Z_scope.

(** ** Improved hypercube *)
Lemma in_update {X} k (x y : X) l : In y (update_nth k x l) -> y = x \/ In y l.
Proof. apply update_nth_In. Qed.
Lemma update_app {X} (l1 l2 : list X) x y k : length l1 = k -> update_nth k y (l1 ++ x :: l2) = l1 ++ y :: l2.
Proof. intros <-. induction l1; cbn [app update_nth length]; [reflexivity|]. now rewrite IHl1. Qed.

Lemma nodup_l {X} (a b : list X) : NoDup (a ++ b) -> NoDup a.
Proof. induction a; cbn; intros H; [constructor|]. inversion H; subst. constructor; [intros I; apply H2; apply in_or_app; now left|auto]. Qed.
Lemma Forall2_length {X Y} (R : X -> Y -> Prop) a b : Forall2 R a b -> length a = length b.
Proof. induction 1; cbn; lia. Qed.
Section I.
Context (first : nat -> Z) (draw : nat -> nat -> nat -> Z) (score : Z -> spec_float) (dimensions samples duplication : nat).
Notation shuffle := (shuffle draw). Notation stage := (stage draw score samples duplication). Notation stages := (stages draw score samples duplication).

Lemma shuffle_spec count i k : forall l, (k <= length l)%nat ->
  exists vs, shuffle count i k l = Ret vs /\ length vs = k /\ incl vs l.
Proof.
  induction k as [|k IH]; intros l H; cbn [Sampler.shuffle]; [exists []; repeat split; intros x []|].
  set (a := Z.to_nat (draw count i (S k) mod Z.of_nat (S k))).
  assert (Ha : (a < S k)%nat) by (pose proof (Z.mod_pos_bound (draw count i (S k)) (Z.of_nat (S k)) ltac:(lia)); lia).
  destruct (nth_error l a) as [v|] eqn:E; [|apply nth_error_None in E; lia].
  destruct (nth_error l k) as [w|] eqn:E2; [|apply nth_error_None in E2; lia].
  destruct (IH (update_nth a w l)) as (vs & -> & L & I); [rewrite update_nth_length; lia|].
  exists (vs ++ [v]). split; [reflexivity|]. split; [rewrite app_length; cbn; lia|].
  intros x Hx. apply in_app_or in Hx. destruct Hx as [Hx|[<-|[]]].
  - apply I in Hx. apply in_update in Hx. destruct Hx as [->|Hx]; [now apply nth_error_In in E2|exact Hx].
  - now apply nth_error_In in E.
Qed.
Lemma candidates_spec count l : (count <= length (options l))%nat ->
  length (candidates duplication count l) = (count * duplication)%nat /\ incl (candidates duplication count l) (firstn count (options l)).
Proof.
  intros H. unfold candidates. set (f := firstn count (options l)). assert (L : length f = count) by (unfold f; rewrite firstn_length; lia).
  clearbody f. induction duplication as [|d [IH1 IH2]]; cbn [repeat concat]; [split; [cbn; lia|intros x []]|].
  split; [rewrite app_length, IH1; lia|]. intros x Hx. apply in_app_or in Hx. destruct Hx; auto.
Qed.
Lemma best_bound scores : forall k b m, (b <= k)%nat -> (best_from k b m scores <= k + length scores)%nat /\ (b < k + length scores -> best_from k b m scores < k + length scores)%nat.
Proof.
  induction scores as [|s l IH]; intros k b m H; cbn [best_from length]; [lia|]. destruct (SFltb s m).
  - destruct (IH (S k) k s ltac:(lia)). lia.
  - destruct (IH (S k) b m ltac:(lia)). lia.
Qed.
Lemma get_best_bound count points lanes : (0 < duplication * count)%nat -> (get_best score samples duplication count points lanes < duplication * count)%nat.
Proof.
  intros H. unfold get_best. match goal with |- (best_from _ _ _ ?s < _)%nat => pose proof (best_bound s 0 0 largest_double ltac:(lia)) as [_ B]; assert (length s = duplication * count)%nat as L by (now rewrite map_length, seq_length) end. rewrite L in B. lia.
Qed.

Definition inv (c : nat) (l : lane) : Prop :=
  length (options l) = samples /\ (c <= samples)%nat /\ Permutation (firstn c (options l) ++ chosen l) (one_to samples) /\
  (forall j v, (j < c)%nat -> nth_error (options l) j = Some v -> where_is v (reverse l) = Some j).
Lemma one_to_nodup n : NoDup (one_to n).
Proof. unfold one_to. apply FinFun.Injective_map_NoDup; [intros a b; lia|apply seq_NoDup]. Qed.
Lemma firstn_nth {X} (l : list X) c j : (j < c)%nat -> nth_error (firstn c l) j = nth_error l j.
Proof. revert l j. induction c; intros [|x l] [|j] H; cbn; try lia; auto. apply IHc. lia. Qed.

Lemma select_inv count v l : (1 <= count)%nat -> inv count l -> In v (firstn count (options l)) ->
  exists l', select count v l = Ret l' /\ inv (count - 1) l'.
Proof.
  intros Hc (Ln & Le & P & W) I. apply In_nth_error in I. destruct I as [j I].
  assert (Hj : (j < count)%nat). { assert (nth_error (firstn count (options l)) j <> None) as N by congruence. apply nth_error_Some in N. rewrite firstn_length in N. lia. }
  rewrite firstn_nth in I by exact Hj. unfold select. rewrite (W j v Hj I), I.
  destruct (nth_error (options l) (count - 1)) as [w|] eqn:E; [|apply nth_error_None in E; lia]. rewrite Z.eqb_refl.
  eexists. split; [reflexivity|].
  assert (ND : NoDup (firstn count (options l))).
  { pose proof (Permutation_NoDup (Permutation_sym P) (one_to_nodup samples)) as N. now apply nodup_l in N. }
  assert (F : firstn count (options l) = firstn (count - 1) (options l) ++ [w]).
  { replace count with (S (count - 1)) at 1 by lia. clear - E. revert E. generalize (count - 1)%nat as c, (options l) as o. induction c; intros [|x o] E; try discriminate; cbn in *; [now injection E as ->|]. now rewrite (IHc o E). }
  unfold inv. cbn [options chosen reverse]. split; [now rewrite update_nth_length|]. split; [lia|]. split.
  - assert (X : Permutation (firstn (count - 1) (update_nth j w (options l)) ++ [v]) (firstn count (options l))).
    { rewrite F. destruct (Nat.eq_dec j (count - 1)) as [->|Nj].
      - rewrite E in I. injection I as ->. assert (U : update_nth (count - 1) v (options l) = options l) by now apply update_nth_same. now rewrite U.
      - assert (Hj' : (j < count - 1)%nat) by lia. rewrite <- (firstn_skipn (count - 1) (options l)) at 1.
        apply nth_error_split in I. destruct I as (l1 & l2 & E1 & L1).
        assert (firstn (count - 1) (options l) = l1 ++ v :: firstn (count - 1 - S j) l2) as ->.
        { rewrite E1, firstn_app, L1. rewrite firstn_all2 by lia. replace (count - 1 - j)%nat with (S (count - 1 - S j)) by lia. reflexivity. }
        rewrite <- app_assoc. cbn [app]. rewrite update_app by exact L1.
        assert (LL : length (l1 ++ v :: firstn (count - 1 - S j) l2) = (count - 1)%nat).
        { rewrite E1, app_length in Ln. cbn in Ln. rewrite app_length. cbn. rewrite firstn_length. lia. }
        rewrite app_length in LL. cbn in LL.
        replace (l1 ++ w :: firstn (count - 1 - S j) l2 ++ skipn (count - 1) (options l)) with ((l1 ++ w :: firstn (count - 1 - S j) l2) ++ skipn (count - 1) (options l)) by (now rewrite <- app_assoc).
        rewrite firstn_app, firstn_all2 by (rewrite app_length; cbn; lia). assert (count - 1 - length (l1 ++ w :: firstn (count - 1 - S j) l2) = 0)%nat as -> by (rewrite app_length; cbn; lia).
        cbn [firstn]. rewrite app_nil_r, <- !app_assoc. cbn [app]. apply Permutation_app_head. rewrite <- !Permutation_cons_append.
        apply perm_swap. }
    rewrite <- P. rewrite <- X, <- app_assoc. reflexivity.
  - intros i u Hi Hu. cbn [where_is record_position]. unfold record_position. cbn [where_is].
    rewrite nth_error_update in Hu. destruct (Nat.eq_dec j i) as [->|Nj].
    + assert ((i =? i)%nat = true) as Q by apply Nat.eqb_refl. rewrite ?Q in Hu. destruct (nth_error (options l) i); [|easy]. injection Hu as <-. now rewrite Z.eqb_refl.
    + assert (Q : (i =? j)%nat = false) by (apply Nat.eqb_neq; auto). assert (Q' : (j =? i)%nat = false) by (apply Nat.eqb_neq; auto). rewrite ?Q, ?Q' in Hu.
      destruct (Z.eqb_spec u w) as [->|_]; [|apply W; [lia|exact Hu]]. exfalso.
      assert (i = count - 1)%nat; [|lia]. eapply NoDup_nth_error; [exact ND|rewrite firstn_length; lia|]. rewrite !firstn_nth by lia. congruence.
Qed.

Lemma each_ok {X Y} (f : nat -> X -> outcome Y) (R : X -> Y -> Prop) l : forall i,
  (forall i x, In x l -> exists y, f i x = Ret y /\ R x y) -> exists ys, each f i l = Ret ys /\ Forall2 R l ys.
Proof.
  induction l as [|x l IH]; intros i H; cbn [each]; [exists []; auto|].
  destruct (H i x (or_introl eq_refl)) as (y & -> & Hy). destruct (IH (S i)) as (ys & -> & Hys); [intros; apply H; now right|]. exists (y :: ys). auto.
Qed.
Lemma stage_inv count lanes : (1 <= count)%nat -> (1 <= duplication)%nat -> Forall (inv count) lanes ->
  exists lanes', stage count lanes = Ret lanes' /\ Forall (inv (count - 1)) lanes' /\ length lanes' = length lanes.
Proof.
  intros Hc Hd F. unfold Sampler.stage. rewrite Forall_forall in F.
  destruct (each_ok (fun i l => shuffle count i (count * duplication) (candidates duplication count l))
     (fun l vs => length vs = (count * duplication)%nat /\ incl vs (firstn count (options l))) lanes 0) as (points & -> & FP).
  { intros i l I. destruct (F l I) as (Ln & Le & _). destruct (candidates_spec count l) as [L1 I1]; [lia|].
    destruct (shuffle_spec count i (count * duplication) (candidates duplication count l)) as (vs & -> & L2 & I2); [lia|]. exists vs. repeat split; auto. intros x Hx. auto. }
  set (best := get_best _ _ _ _ _ _). assert (HB : (best < duplication * count)%nat) by (apply get_best_bound; nia).
  clearbody best.
  destruct (each_ok (fun _ pl => match nth_error (fst pl) best with Some v => select count v (snd pl) | None => UB end)
     (fun pl l' => inv (count - 1) l') (combine points lanes) 0) as (ls & -> & FL).
  { intros i [p l] I. cbn [fst snd].
    assert (G : In l lanes /\ length p = (count * duplication)%nat /\ incl p (firstn count (options l))).
    { split; [now apply in_combine_r in I|]. clear - FP I. induction FP; cbn in I; [easy|]. destruct I as [I|I]; [injection I as <- <-; auto|auto]. }
    destruct G as (Il & Lp & Ip). destruct (nth_error p best) as [v|] eqn:E; [|apply nth_error_None in E; lia].
    apply select_inv; auto. apply Ip. now apply nth_error_In in E. }
  exists ls. split; [reflexivity|]. apply Forall2_length in FP. pose proof (Forall2_length _ _ _ FL) as L. rewrite combine_length in L. split; [|lia].
  clear - FL. induction FL; auto.
Qed.
Lemma stages_inv n : forall lanes, (1 <= duplication)%nat -> Forall (inv (S n)) lanes ->
  exists lanes', stages n lanes = Ret lanes' /\ Forall (inv 1) lanes' /\ length lanes' = length lanes.
Proof.
  induction n as [|n IH]; intros lanes Hd F; cbn [Sampler.stages]; [eauto|].
  destruct (stage_inv (S (S n)) lanes ltac:(lia) Hd F) as (l1 & -> & F1 & L1). cbn [Nat.sub] in F1. destruct (IH l1 Hd F1) as (l2 & -> & F2 & L2). exists l2. split; [reflexivity|]. split; [exact F2|lia].
Qed.

Lemma where_base k : forall a j, (j < k)%nat -> where_is (Z.of_nat (a + j) + 1) (map (fun j => (Z.of_nat j + 1, j)) (seq a k)) = Some (a + j)%nat.
Proof.
  induction k as [|k IH]; intros a j H; [lia|]. cbn [seq map where_is]. destruct j as [|j].
  - replace (a + 0)%nat with a by lia. now rewrite Z.eqb_refl.
  - destruct (Z.eqb_spec (Z.of_nat (a + S j) + 1) (Z.of_nat a + 1)); [lia|]. replace (a + S j)%nat with (S a + j)%nat by lia. apply IH. lia.
Qed.
Lemma one_to_nth n j v : nth_error (one_to n) j = Some v -> (j < n)%nat /\ v = Z.of_nat j + 1.
Proof.
  intros H. assert (L : (j < n)%nat). { assert (nth_error (one_to n) j <> None) as N by congruence. apply nth_error_Some in N. unfold one_to in N. now rewrite map_length, seq_length in N. }
  split; [exact L|]. unfold one_to in H. rewrite nth_error_map in H. rewrite nth_error_nth' with (d := 0%nat) in H by (now rewrite seq_length). rewrite seq_nth in H by exact L. cbn in H. now injection H as <-.
Qed.
Lemma start_inv i : (1 <= samples)%nat -> inv (samples - 1) (start_lane first samples i).
Proof.
  intros Hs. unfold start_lane, inv. cbn [options chosen reverse]. set (v := first_point first samples i).
  assert (Hv : 1 <= v <= Z.of_nat samples) by (unfold v, first_point; pose proof (Z.mod_pos_bound (first i) (Z.of_nat samples) ltac:(lia)); lia).
  clearbody v. fold (one_to samples). set (j := Z.to_nat (v - 1)). assert (Hj : (j < samples)%nat) by lia. assert (Ev : v = Z.of_nat j + 1) by lia. clearbody j. subst v.
  assert (Ln : length (one_to samples) = samples) by (unfold one_to; now rewrite map_length, seq_length).
  split; [now rewrite update_nth_length|]. split; [lia|]. split.
  - assert (S1 : one_to samples = one_to (samples - 1) ++ [Z.of_nat samples]).
    { unfold one_to. replace samples with (S (samples - 1)) at 1 by lia. rewrite seq_S, map_app. cbn [map]. do 2 f_equal. lia. }
    assert (Ln1 : length (one_to (samples - 1)) = (samples - 1)%nat) by (unfold one_to; now rewrite map_length, seq_length).
    rewrite S1. destruct (Nat.eq_dec j (samples - 1)) as [->|Nj].
    + rewrite update_app by exact Ln1. rewrite firstn_app, Ln1, Nat.sub_diag, firstn_all2 by lia. cbn [firstn]. rewrite app_nil_r. replace (Z.of_nat (samples - 1) + 1) with (Z.of_nat samples) by lia. reflexivity.
    + destruct (nth_error (one_to (samples - 1)) j) as [u|] eqn:E; [|apply nth_error_None in E; lia].
      pose proof (one_to_nth _ _ _ E) as [_ Eu]. subst u. apply nth_error_split in E. destruct E as (l1 & l2 & E1 & L1). rewrite E1, <- app_assoc. cbn [app].
      rewrite update_app by exact L1. rewrite E1, app_length in Ln1. cbn in Ln1.
      replace (l1 ++ Z.of_nat samples :: l2 ++ [Z.of_nat samples]) with ((l1 ++ Z.of_nat samples :: l2) ++ [Z.of_nat samples]) by (now rewrite <- app_assoc).
      rewrite firstn_app, firstn_all2 by (rewrite app_length; cbn; lia). assert (samples - 1 - length (l1 ++ Z.of_nat samples :: l2) = 0)%nat as -> by (rewrite app_length; cbn; lia).
      cbn [firstn]. rewrite app_nil_r, <- app_assoc. apply Permutation_app_head. cbn [app]. rewrite <- !Permutation_cons_append. apply perm_swap.
  - intros k u Hk Hu. unfold record_position. cbn [where_is]. rewrite nth_error_update in Hu.
    destruct (Nat.eq_dec j k) as [->|Nj].
    + assert ((k =? k)%nat = true) as Q by apply Nat.eqb_refl. rewrite ?Q in Hu. destruct (nth_error (one_to samples) k); [|easy]. injection Hu as <-. now rewrite Z.eqb_refl.
    + assert (Q : (k =? j)%nat = false) by (apply Nat.eqb_neq; auto). assert (Q' : (j =? k)%nat = false) by (apply Nat.eqb_neq; auto). rewrite ?Q, ?Q' in Hu.
      destruct (one_to_nth _ _ _ Hu) as [L ->]. destruct (Z.eqb_spec (Z.of_nat k + 1) (Z.of_nat samples)); [lia|]. apply (where_base samples 0 k L).
Qed.

Lemma improved_latin : (1 <= samples)%nat -> (1 <= duplication)%nat ->
  exists result, improved_hypercube first draw score dimensions samples duplication = Ret result /\ length result = dimensions /\ Forall (fun l => Permutation l (one_to samples)) result.
Proof.
  intros Hs Hd. unfold improved_hypercube. assert ((samples =? 0)%nat = false) as -> by (apply Nat.eqb_neq; lia).
  set (lanes := map (start_lane first samples) (seq 0 dimensions)). assert (Ll : length lanes = dimensions) by (unfold lanes; now rewrite map_length, seq_length).
  destruct (Nat.eq_dec samples 1) as [E|N].
  - rewrite E. cbn [Nat.sub Sampler.stages Nat.eqb].
    destruct (each_ok (fun (_ : nat) l => match nth_error (options l) 0 with Some v => Ret [v] | None => UB end) (fun _ r => Permutation r (one_to 1)) lanes 0) as (ys & Ey & F).
    { intros i l I. unfold lanes in I. rewrite E in I. apply in_map_iff in I. destruct I as (k & <- & _). unfold start_lane. cbn [options]. unfold first_point. rewrite Z.mod_1_r. change (Z.to_nat (1 + 0 - 1)) with 0%nat. cbn. eauto. }
    rewrite Ey. exists ys. split; [reflexivity|]. split; [apply Forall2_length in F; lia|]. clear - F. induction F; auto.
  - assert (F0 : Forall (inv (S (samples - 2))) lanes).
    { apply Forall_forall. intros l I. unfold lanes in I. apply in_map_iff in I. destruct I as (k & <- & _). replace (S (samples - 2)) with (samples - 1)%nat by lia. now apply start_inv. }
    destruct (stages_inv _ lanes Hd F0) as (ls & -> & F1 & L1).
    assert ((samples =? 1)%nat = false) as -> by now apply Nat.eqb_neq.
    destruct (each_ok (fun (_ : nat) l => match nth_error (options l) 0 with Some v => Ret (v :: chosen l) | None => UB end) (fun _ r => Permutation r (one_to samples)) ls 0) as (ys & Ey & F).
    { intros i l I. rewrite Forall_forall in F1. destruct (F1 l I) as (Ln & _ & P & _). destruct (options l) as [|v o]; [cbn in Ln; lia|]. cbn [nth_error]. eexists. split; [reflexivity|]. exact P. }
    rewrite Ey. exists ys. split; [reflexivity|]. split; [apply Forall2_length in F; lia|]. clear - F. induction F; auto.
Qed.
End I.

(** ** Grids *)
Lemma product_nonneg l : Forall (fun d => 0 <= d) l -> 0 <= product l.
Proof. induction 1; cbn [product fold_right]; [lia|]. change (fold_right Z.mul 1 l) with (product l). nia. Qed.
Lemma product_pos l : Forall (fun d => 1 <= d) l -> 1 <= product l.
Proof. induction 1; cbn [product fold_right]; [lia|]. change (fold_right Z.mul 1 l) with (product l). nia. Qed.
Lemma grid_points_mod A (ps : list (dimension A)) : grid_points A ps = product (map d_density ps) mod 2 ^ 32.
Proof.
  unfold grid_points. assert (G : forall ps k, fold_left (fun points p => w32 (points * d_density p)) ps (k mod 2 ^ 32) = (k * product (map (@d_density A) ps)) mod 2 ^ 32).
  { clear. induction ps as [|p ps IH]; intros k; cbn [fold_left map product fold_right]; [now rewrite Z.mul_1_r|].
    unfold w32 at 2, W32. rewrite Z.mul_mod_idemp_l by lia. rewrite IH. change (fold_right Z.mul 1 (map d_density ps)) with (product (map (@d_density A) ps)). f_equal. lia. }
  specialize (G ps 1). change (1 mod 2 ^ 32) with 1 in G. rewrite G. now rewrite Z.mul_1_l.
Qed.
Fixpoint digits (n : Z) (ds : list Z) : list Z := match ds with [] => [] | d :: ds' => n mod d :: digits (n / d) ds' end.
Fixpoint undigits (ds is : list Z) : Z := match ds, is with d :: ds', i :: is' => i + d * undigits ds' is' | _, _ => 0 end.
Lemma indices_digits A (ps : list (dimension A)) s : forall prefix, 1 <= prefix -> Forall (fun p => 1 <= d_density p) ps -> prefix * product (map d_density ps) < 2 ^ 32 ->
  grid_indices A s prefix ps = digits (s / prefix) (map d_density ps).
Proof.
  intros prefix H F. revert prefix H. induction F as [|p ps Hp F IH]; intros prefix H P; cbn [grid_indices map digits]; [reflexivity|]. cbn [map product fold_right] in P.
  change (fold_right Z.mul 1 (map d_density ps)) with (product (map (@d_density A) ps)) in P.
  assert (Q : 1 <= product (map (@d_density A) ps)) by (apply product_pos; now apply Forall_map).
  assert (w32 (prefix * d_density p) = prefix * d_density p) as -> by (unfold w32, W32; rewrite Z.mod_small; nia). rewrite IH; [|nia|nia]. rewrite Z.div_div by lia. reflexivity.
Qed.
Lemma digits_combination ds : forall n, Forall (fun d => 1 <= d) ds -> combination ds (digits n ds).
Proof. intros n F. revert n. induction F; intros n; cbn [digits]; constructor; [apply Z.mod_pos_bound; lia|apply IHF]. Qed.
Lemma undigits_digits ds : forall n, Forall (fun d => 1 <= d) ds -> 0 <= n < product ds -> undigits ds (digits n ds) = n.
Proof.
  intros n F. revert n. induction F as [|d ds H F IH]; intros n Hn; cbn [product fold_right digits undigits] in *; [lia|]. change (fold_right Z.mul 1 ds) with (product ds) in *.
  rewrite IH. - pose proof (Z.div_mod n d). lia. - split; [apply Z.div_pos; lia|apply Z.div_lt_upper_bound; lia].
Qed.
Lemma undigits_bound ds is : combination ds is -> 0 <= undigits ds is < product ds.
Proof. induction 1 as [|d i ds is H F IH]; cbn [product fold_right undigits]; [lia|]. change (fold_right Z.mul 1 ds) with (product ds) in *. nia. Qed.
Lemma digits_undigits ds is : combination ds is -> digits (undigits ds is) ds = is.
Proof.
  induction 1 as [|d i ds is H F IH]; cbn [undigits digits]; [reflexivity|]. rewrite Z.mul_comm. rewrite Z.mod_add, Z.div_add by lia. rewrite Z.mod_small, Z.div_small by lia. now rewrite Z.add_0_l, IH.
Qed.
Definition all_indices (ds : list Z) : list (list Z) := map (fun s => digits (Z.of_nat s) ds) (seq 0 (Z.to_nat (product ds))).
Lemma all_indices_nodup ds : Forall (fun d => 1 <= d) ds -> NoDup (all_indices ds).
Proof.
  intros F. unfold all_indices. pose proof (product_pos _ F). assert (G : forall l : list nat, NoDup l -> (forall x, In x l -> Z.of_nat x < product ds) -> NoDup (map (fun s => digits (Z.of_nat s) ds) l)).
  { induction 1 as [|x l N ND IH]; intros B; cbn [map]; constructor.
    - intros I. apply in_map_iff in I. destruct I as (y & E & I). apply (f_equal (undigits ds)) in E. rewrite !undigits_digits in E; auto.
      + assert (x = y) by lia. subst. auto. + split; [lia|]. apply B. now left. + split; [lia|]. apply B. now right.
    - apply IH. intros. apply B. now right. }
  apply G; [apply seq_NoDup|]. intros x I. apply in_seq in I. lia.
Qed.
Lemma all_indices_in ds is : Forall (fun d => 1 <= d) ds -> (In is (all_indices ds) <-> combination ds is).
Proof.
  intros F. unfold all_indices. rewrite in_map_iff. split.
  - intros (s & <- & _). now apply digits_combination.
  - intros C. pose proof (undigits_bound _ _ C). exists (Z.to_nat (undigits ds is)). rewrite Z2Nat.id by lia. split; [now apply digits_undigits|]. apply in_seq. lia.
Qed.
Lemma grid_spec A (ps : list (dimension A)) : Forall (fun p => 1 <= d_density p) ps -> product (map d_density ps) < 2 ^ 32 ->
  grid A ps = map (fun is => map (fun pi => grid_value A (fst pi) (snd pi)) (combine ps is)) (all_indices (map d_density ps)).
Proof.
  intros F P. unfold grid, all_indices. assert (F' : Forall (fun d => 1 <= d) (map (@d_density A) ps)) by now apply Forall_map. pose proof (product_pos _ F').
  rewrite grid_points_mod, Z.mod_small by lia. rewrite map_map. apply map_ext. intros s. unfold grid_sample. rewrite indices_digits by (auto; lia). now rewrite Z.div_1_r.
Qed.

(** ** Latin hypercubes *)
Lemma latin_column A density (ps : list (num A * num A)) shuffles i x p l :
  length shuffles = length ps -> nth_error ps i = Some p -> nth_error shuffles i = Some l ->
  map (fun sample => nth i sample x) (latin_hypercube A density ps shuffles) = map (fun s => grid_value A (mk_dimension (fst p) (snd p) density) (nth s l 0)) (seq 0 (Z.to_nat density)).
Proof.
  intros L Ep El. unfold latin_hypercube. rewrite map_map. apply map_ext. intros s.
  set (f := fun pi : num A * num A * list Z => _). assert (nth_error (map f (combine ps shuffles)) i = Some (f (p, l))) as E.
  { rewrite nth_error_map. assert (nth_error (combine ps shuffles) i = Some (p, l)) as ->; [|reflexivity].
    clear - Ep El. revert shuffles i Ep El. induction ps as [|a ps IH]; intros [|b sh] [|i] Ep El; try discriminate; cbn in *; [congruence|auto]. }
  exact (nth_error_nth _ _ _ E).
Qed.

(** The best of the candidates. *)
Lemma SFltb_trans x y z : SFltb x y = true -> SFltb y z = true -> SFltb x z = true.
Proof.
  unfold SFltb, SFcompare. destruct x as [[]|[]| |[] m1 e1], y as [[]|[]| |[] m2 e2], z as [[]|[]| |[] m3 e3]; try discriminate; try reflexivity;
  change Pos.compare_cont with Pos.compare_cont; intros H1 H2;
  repeat match goal with |- context [(?a ?= ?b)%Z] => destruct (Z.compare_spec a b) | H : context [(?a ?= ?b)%Z] |- _ => destruct (Z.compare_spec a b) end; subst; try discriminate; try reflexivity; try lia;
  unfold Pos.compare_cont in *; fold Pos.compare_cont in *;
  repeat match goal with H : context [Pos.compare_cont Eq ?a ?b] |- _ => change (Pos.compare_cont Eq a b) with (Pos.compare a b) in H | |- context [Pos.compare_cont Eq ?a ?b] => change (Pos.compare_cont Eq a b) with (Pos.compare a b) end;
  repeat match goal with |- context [Pos.compare ?a ?b] => destruct (Pos.compare_spec a b) | H : context [Pos.compare ?a ?b] |- _ => destruct (Pos.compare_spec a b) end; subst; try discriminate; try reflexivity; try lia.
Qed.
Lemma SFltb_irrefl x : SFltb x x = false.
Proof. unfold SFltb, SFcompare. destruct x as [[]|[]| |[] m e]; try reflexivity; rewrite Z.compare_refl; change (Pos.compare_cont Eq m m) with (Pos.compare m m); rewrite Pos.compare_refl; reflexivity. Qed.
Lemma best_least scores : forall k b m prefix, length prefix = k -> (Forall (fun x => SFltb x largest_double = true) (prefix ++ scores)) ->
  ((b = 0 /\ prefix = [] /\ m = largest_double) \/ (nth_error prefix b = Some m))%nat -> (forall x, In x prefix -> SFltb x m = false) ->
  let r := best_from k b m scores in (prefix ++ scores <> [] -> exists s, nth_error (prefix ++ scores) r = Some s /\ forall x, In x (prefix ++ scores) -> SFltb x s = false).
Proof.
  induction scores as [|s l IH]; intros k b m prefix L F B M r N; subst r; cbn [best_from].
  - rewrite app_nil_r in *. destruct B as [(_ & -> & _)|B]; [congruence|]. now exists m.
  - change (s :: l) with ([s] ++ l) in *. rewrite app_assoc in *. destruct (SFltb s m) eqn:E.
    + apply (IH (S k) k s (prefix ++ [s])); [rewrite app_length; cbn; lia|exact F|right; rewrite <- L, nth_error_app2, Nat.sub_diag by lia; reflexivity| |exact N].
      intros x Hx. apply in_app_or in Hx. destruct Hx as [Hx|[<-|[]]]; [|apply SFltb_irrefl].
      destruct (SFltb x s) eqn:Ex; [|reflexivity]. specialize (M x Hx). rewrite (SFltb_trans _ _ _ Ex E) in M. discriminate.
    + destruct B as [(-> & -> & ->)|B].
      * exfalso. rewrite Forall_forall in F. rewrite (F s) in E; [discriminate|]. apply in_or_app. left. now left.
      * apply (IH (S k) b m (prefix ++ [s])); [rewrite app_length; cbn; lia|exact F| | |exact N].
        -- right. rewrite nth_error_app1; [exact B|]. apply nth_error_Some. congruence.
        -- intros x Hx. apply in_app_or in Hx. destruct Hx as [Hx|[<-|[]]]; [now apply M|exact E].
Qed.
(** Distances computed are exact up to 65536 samples. *)
Lemma distance_exact p q : Forall (fun x => 1 <= x <= 65536) p -> Forall (fun x => 1 <= x <= 65536) q -> distance p q = squared_distance p q.
Proof.
  unfold distance, squared_distance. intros P Q. assert (E : map (fun pq => w32 (w32 (fst pq - snd pq) * w32 (fst pq - snd pq))) (combine p q) = map (fun xy => (fst xy - snd xy) * (fst xy - snd xy)) (combine p q)).
  { apply map_ext_in. intros [x y] H. pose proof (in_combine_l _ _ _ _ H) as Hx. pose proof (in_combine_r _ _ _ _ H) as Hy. rewrite Forall_forall in P, Q. specialize (P x Hx). specialize (Q y Hy). cbn [fst snd].
    unfold w32. rewrite <- Z.mul_mod by (unfold W32; lia). apply Z.mod_small. change W32 with 4294967296. assert (B : -65535 <= x - y <= 65535) by lia. revert B. generalize (x - y). intros d B. nia. }
  rewrite E. generalize (map (fun xy : Z * Z => (fst xy - snd xy) * (fst xy - snd xy)) (combine p q)). intros l. unfold zsum. 
  reflexivity.
Qed.
Lemma fold_min_spec (f : list Z -> Z) x l : let d := fold_right Z.min (f x) (map f l) in (exists q, In q (x :: l) /\ d = f q) /\ forall q, In q (x :: l) -> d <= f q.
Proof.
  induction l as [|y l [(q & Hq & E) IH]]; cbn [map fold_right].
  - split; [exists x; split; [now left|reflexivity]|]. intros q [<-|[]]. lia.
  - split.
    + destruct (Z.le_ge_cases (f y) (fold_right Z.min (f x) (map f l))) as [L|L].
      * exists y. split; [right; now left|lia].
      * exists q. split; [destruct Hq as [->|Hq]; [now left|right; now right]|lia].
    + intros z [<-|[<-|Hz]]; [specialize (IH x (or_introl eq_refl)); lia|lia|specialize (IH z (or_intror Hz)); lia].
Qed.
Lemma column_bounded k points n : (forall p, In p points -> (k < length p)%nat /\ Forall (fun x => 1 <= x <= n) p) -> Forall (fun x => 1 <= x <= n) (column k points).
Proof. intros H. unfold column. apply Forall_map, Forall_forall. intros p Hp. destruct (H p Hp) as [L F]. rewrite Forall_forall in F. apply F, nth_In, L. Qed.
Lemma get_best_nearest score samples duplication count points lanes :
  (1 <= duplication)%nat -> (1 <= count < samples)%nat ->
  (forall p, In p points -> length p = (count * duplication)%nat /\ Forall (fun x => 1 <= x <= 65536) p) ->
  (forall l, In l lanes -> length (chosen l) = (samples - count)%nat /\ Forall (fun x => 1 <= x <= 65536) (chosen l)) ->
  (forall d, 0 <= d -> SFltb (score d) largest_double = true) ->
  let selected := map (fun j => map (fun l => nth j (chosen l) 0) lanes) (seq 0 (samples - count)) in
  let candidate k := map (fun p => nth k p 0) points in
  let best := get_best score samples duplication count points lanes in
  (best < count * duplication)%nat /\ exists d, is_nearest (candidate best) selected d /\
    forall k d', (k < count * duplication)%nat -> is_nearest (candidate k) selected d' -> SFltb (score d') (score d) = false.
Proof.
  intros D C P L S selected candidate best.
  set (near k := fold_right Z.min (distance (column k points) (nth 0 selected [])) (map (distance (column k points)) selected)).
  assert (Esel : map (fun j => column j (map chosen lanes)) (seq 0 (samples - count)) = selected).
  { unfold selected. apply map_ext. intros j. unfold column. now rewrite map_map. }
  assert (Hb : best = best_from 0 0 largest_double (map (fun k => score (near k)) (seq 0 (duplication * count)))).
  { unfold best, get_best. now rewrite Esel. }
  assert (Hsel : Forall (fun q => Forall (fun x => 1 <= x <= 65536) q) selected).
  { rewrite <- Esel. apply Forall_map, Forall_forall. intros j Hj. apply in_seq in Hj. apply column_bounded. intros p Hp. apply in_map_iff in Hp. destruct Hp as (l & <- & Hl). destruct (L l Hl) as [E F]. split; [lia|exact F]. }
  assert (Hnear : forall k, (k < count * duplication)%nat -> is_nearest (candidate k) selected (near k)).
  { intros k Hk. assert (B : Forall (fun x => 1 <= x <= 65536) (column k points)) by (apply column_bounded; intros p Hp; destruct (P p Hp) as [E F]; split; [lia|exact F]).
    assert (Dx : forall q, In q selected -> distance (column k points) q = squared_distance (candidate k) q) by (intros q Hq; rewrite Forall_forall in Hsel; exact (distance_exact _ _ B (Hsel q Hq))).
    unfold near. destruct selected as [|q0 qs] eqn:Es; [apply (f_equal (@length _)) in Es; unfold selected in Es; rewrite map_length, seq_length in Es; cbn in Es; lia|].
    cbn [nth]. destruct (fold_min_spec (distance (column k points)) q0 (q0 :: qs)) as [(q & Hq & E) M]. 
    assert (Hq' : In q (q0 :: qs)) by (destruct Hq as [<-|Hq]; [now left|exact Hq]).
    split.
    - exists q. split; [exact Hq'|]. rewrite E. now apply Dx.
    - intros z Hz. rewrite <- Dx by exact Hz. apply M. now right. }
  assert (N0 : forall k, (k < count * duplication)%nat -> 0 <= near k).
  { intros k Hk. destruct (Hnear k Hk) as [(q & _ & ->) _]. unfold squared_distance. clear. induction (combine (candidate k) q) as [|[x y] l IH]; cbn [map fold_right fst snd]; [lia|]. pose proof (Z.square_nonneg (x - y)). lia. }
  destruct (best_least (map (fun k => score (near k)) (seq 0 (duplication * count))) 0 0 largest_double []) as (s & Es & Ms); try reflexivity.
  - cbn [app]. apply Forall_map, Forall_forall. intros k Hk. apply in_seq in Hk. apply S, N0. lia.
  - left. repeat split.
  - intros x [].
  - cbn [app]. intros E. apply (f_equal (@length _)) in E. rewrite map_length, seq_length in E. cbn in E. nia.
  - cbn [app] in Es, Ms. rewrite <- Hb in Es. rewrite nth_error_map in Es. destruct (nth_error (seq 0 (duplication * count)) best) as [k|] eqn:Ek; [|discriminate]. cbn in Es. injection Es as <-.
    assert (Lb : (best < duplication * count)%nat) by (assert (nth_error (seq 0 (duplication * count)) best <> None) as X by congruence; apply nth_error_Some in X; now rewrite seq_length in X).
    apply nth_error_nth with (d := 0%nat) in Ek. rewrite seq_nth in Ek by exact Lb. cbn in Ek. subst k.
    split; [lia|]. exists (near best). split; [apply Hnear; lia|].
    intros k d' Hk Hd. assert (d' = near k) as ->.
    { destruct Hd as [(q & Hq & E) M], (Hnear k Hk) as [(q' & Hq' & E') M']. specialize (M q' Hq'). specialize (M' q Hq). lia. }
    apply Ms. apply in_map_iff. exists k. split; [reflexivity|]. apply in_seq. lia.
Qed.
