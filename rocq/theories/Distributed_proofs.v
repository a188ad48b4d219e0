(** Lemmas about the distributed environment. *)
From Coq Require Import ZifyBool ZifyNat.
From Verif Require Import Base Identity Identity_proofs IdMap IdMap_proofs Distributed.

Section Maps.
Context {V : Type}.
Implicit Types (m : idmap V).
Lemma im_erase_sorted i m : im_sorted m -> im_sorted (im_erase i m).
Proof.
  unfold im_sorted, im_erase. intros H. induction H as [|x l Hs IH Hf]; cbn [filter]; [constructor|].
  destruct (negb _); [|exact IH]. constructor; [exact IH|]. rewrite Forall_forall in *. intros y Hy. apply filter_In in Hy. now apply Hf.
Qed.
Lemma im_find_erase i m j : im_sorted m -> im_find j (im_erase i m) = if id_eqb i j then None else im_find j m.
Proof.
  intros H. destruct (im_find j (im_erase i m)) as [v|] eqn:E.
  - apply im_find_in in E; [|now apply im_erase_sorted]. apply filter_In in E. destruct E as [E N]. cbn in N.
    rewrite id_eqb_sym in N. destruct (id_eqb i j); [discriminate|]. symmetry. now apply im_find_in.
  - destruct (id_eqb i j) eqn:Ei; [reflexivity|]. symmetry. destruct (im_find j m) as [v|] eqn:F; [|reflexivity]. exfalso.
    apply im_find_in in F; [|exact H]. assert (G : im_find j (im_erase i m) = Some v); [|congruence].
    apply im_find_in; [now apply im_erase_sorted|]. apply filter_In. split; [exact F|]. cbn. rewrite id_eqb_sym, Ei. reflexivity.
Qed.
Lemma sorted_ids_ext (l : list identity) : forall l', StronglySorted (fun x y => id_ltb x y = true) l -> StronglySorted (fun x y => id_ltb x y = true) l' -> (forall i, In i l <-> In i l') -> l = l'.
Proof.
  induction l as [|x l IH]; intros l' S S' H; destruct l' as [|y l'].
  - reflexivity.
  - exfalso. apply (proj2 (H y)). now left.
  - exfalso. apply (proj1 (H x)). now left.
  - inversion S as [|? ? S1 F1]; subst. inversion S' as [|? ? S2 F2]; subst. rewrite Forall_forall in F1, F2.
    assert (x = y).
    { destruct (proj1 (H x) (or_introl eq_refl)) as [<-|Hx]; [reflexivity|]. destruct (proj2 (H y) (or_introl eq_refl)) as [->|Hy]; [reflexivity|].
      pose proof (F2 x Hx). pose proof (F1 y Hy) as G. apply id_asym in G. congruence. }
    subst y. f_equal. apply IH; [exact S1|exact S2|]. intros i. split; intros Hi.
    + destruct (proj1 (H i) (or_intror Hi)) as [<-|]; [|assumption]. exfalso. pose proof (F1 x Hi) as G. pose proof (id_asym _ _ G). congruence.
    + destruct (proj2 (H i) (or_intror Hi)) as [<-|]; [|assumption]. exfalso. pose proof (F2 x Hi) as G. pose proof (id_asym _ _ G). congruence.
Qed.
End Maps.
Lemma sorted_keys {V} (m : idmap V) : im_sorted m -> StronglySorted (fun x y => id_ltb x y = true) (map fst m).
Proof.
  induction 1 as [|x m S IH F]; cbn; constructor; [exact IH|]. rewrite Forall_forall in *. intros i Hi. apply in_map_iff in Hi. destruct Hi as (y & <- & Hy). now apply F.
Qed.
Lemma im_keys_ext {V W} (m : idmap V) (m' : idmap W) : im_sorted m -> im_sorted m' -> (forall i, im_find i m = None <-> im_find i m' = None) -> map fst m = map fst m'.
Proof.
  intros S S' H. apply sorted_ids_ext; [now apply sorted_keys|now apply sorted_keys|].
  assert (D : forall {U} (k : idmap U) i, im_sorted k -> (In i (map fst k) <-> im_find i k <> None)).
  { intros U k i Sk. destruct (im_find i k) as [v|] eqn:E.
    - split; [discriminate|]. intros _. apply im_find_in in E; [|exact Sk]. apply in_map_iff. now exists (i, v).
    - split; [|congruence]. intros Hi. apply im_find_none in E; [contradiction|exact Sk]. }
  intros i. rewrite (D V m i S), (D W m' i S'). now rewrite (H i).
Qed.

(** * Address books *)
Definition last_place (i : identity) (places : list (Z * identity)) (o : option Z) : option Z :=
  fold_left (fun o p => if id_eqb (snd p) i then Some (fst p) else o) places o.
Lemma learn_find places : forall book i, im_sorted book ->
  im_sorted (learn places book) /\ im_find i (learn places book) = last_place i places (im_find i book).
Proof.
  induction places as [|[r k] places IH]; intros book i H; [split; [exact H|reflexivity]|].
  destruct (IH (im_set k r book) i (im_set_sorted _ _ _ H)) as [H1 H2]. split; [exact H1|].
  cbn [learn fold_left] in *. unfold learn in H2. cbn [fst snd]. rewrite H2. rewrite im_find_set by exact H. reflexivity.
Qed.
Lemma last_place_app i a b o : last_place i (a ++ b) o = last_place i b (last_place i a o).
Proof. unfold last_place. now rewrite fold_left_app. Qed.
Lemma last_place_none i places o : ~ In i (map snd places) -> last_place i places o = o.
Proof.
  revert o. induction places as [|[r k] l IH]; intros o H; [reflexivity|]. cbn [last_place fold_left fst snd]. cbn in H.
  rewrite id_eqb_neq by tauto. apply IH. tauto.
Qed.
Lemma last_place_in i places : forall o, In i (map snd places) -> exists before r after,
  places = before ++ (r, i) :: after /\ ~ In i (map snd after) /\ last_place i places o = Some r.
Proof.
  induction places as [|[r k] l IH]; intros o H; [contradiction|]. destruct (in_dec (list_eq_dec Z.eq_dec) i (map snd l)) as [D|D].
  - destruct (IH (if id_eqb k i then Some r else o) D) as (b & r' & a & E & N & L). exists ((r, k) :: b), r', a.
    split; [now rewrite E|]. split; [exact N|]. cbn [last_place fold_left fst snd]. exact L.
  - cbn in H. destruct H as [->|H]; [|contradiction]. exists [], r, l. split; [reflexivity|]. split; [exact D|].
    cbn [last_place fold_left fst snd]. rewrite id_eqb_refl. now apply last_place_none.
Qed.

(** * Collective exchange *)
Lemma all_to_all_ret {X} (rows : list (list X)) : (forall row, In row rows -> length row = length rows) ->
  all_to_all rows = Ret (map (fun r => flat_map (fun row => match nth_error row r with Some x => [x] | None => [] end) rows) (seq 0 (length rows))).
Proof.
  intros H. unfold all_to_all. rewrite (proj2 (forallb_forall _ _)); [reflexivity|]. intros row Hr. apply Nat.eqb_eq. now apply H.
Qed.
Lemma all_to_all_ub {X} (rows : list (list X)) : (exists row, In row rows /\ length row <> length rows) <-> all_to_all rows = UB.
Proof.
  unfold all_to_all. destruct (forallb _ rows) eqn:E.
  - split; [|discriminate]. intros (row & Hr & N). rewrite forallb_forall in E. specialize (E _ Hr). apply Nat.eqb_eq in E. contradiction.
  - split; [reflexivity|]. intros _. assert (D : forall l : list (list X), forallb (fun row => Nat.eqb (length row) (length rows)) l = false -> exists row, In row l /\ length row <> length rows).
    { induction l as [|x l IH]; [discriminate|]. cbn. destruct (Nat.eqb_spec (length x) (length rows)); cbn; [intros H; destruct (IH H) as (y & ? & ?); eauto|intros _; eauto]. }
    now apply D.
Qed.
Lemma flat_map_some {X Y} (f : X -> list Y) (g : X -> Y) l : (forall x, In x l -> f x = [g x]) -> flat_map f l = map g l.
Proof. induction l as [|x l IH]; intros H; [reflexivity|]. cbn. rewrite H by (left; reflexivity). cbn. f_equal. apply IH. intros; apply H; now right. Qed.
Lemma nth_error_repeat {X} (x : X) n k : (k < n)%nat -> nth_error (repeat x n) k = Some x.
Proof. revert k. induction n as [|n IH]; intros [|k] H; cbn; try lia; [reflexivity|]. apply IH. lia. Qed.
(** When every process passes the same value to all, all obtain the same. *)
Lemma all_to_all_public {X} (xs : list X) : all_to_all (map (fun x => repeat x (length xs)) xs) = Ret (repeat xs (length xs)).
Proof.
  rewrite all_to_all_ret.
  - f_equal. rewrite map_length.
    assert (G : forall l : list nat, (forall r, In r l -> (r < length xs)%nat) -> map (fun r => flat_map (fun row => match nth_error row r with Some x => [x] | None => [] end) (map (fun x => repeat x (length xs)) xs)) l = repeat xs (length l)).
    { induction l as [|r l IH]; intros H; [reflexivity|]. cbn [map repeat length]. f_equal; [|apply IH; intros; apply H; now right].
      rewrite flat_map_concat_map, map_map, <- flat_map_concat_map. rewrite (flat_map_some _ (fun x => x)); [apply map_id|].
      intros x _. rewrite nth_error_repeat; [reflexivity|]. apply H. now left. }
    rewrite G; [now rewrite seq_length|]. intros r Hr. apply in_seq in Hr. lia.
  - intros row Hr. apply in_map_iff in Hr. destruct Hr as (x & <- & _). now rewrite repeat_length, map_length.
Qed.

(** * Executing migrations *)
Section Transit.
Context {A : Type}.
Variable (size : nat) (ms : list migration) (f0 : Z -> idmap A).
Implicit Types (s : transit A).

(** The migrations one after the other. *)
Definition move (m : migration) (f : Z -> idmap A) : Z -> idmap A :=
  match im_find (migrant m) (f (source m)) with
  | Some a => upd (upd f (source m) (im_erase (migrant m) (f (source m)))) (target m) (im_emplace (migrant m) a (f (target m)))
  | None => f
  end.
Definition after (k : nat) : Z -> idmap A := fold_left (fun f m => move m f) (firstn k ms) f0.
Lemma firstn_snoc {X} (l : list X) k x : nth_error l k = Some x -> firstn (S k) l = firstn k l ++ [x].
Proof. revert k. induction l as [|y l IH]; intros [|k] H; cbn in *; try discriminate; [now injection H as ->|]. f_equal. now apply IH. Qed.
Lemma after_S k m : nth_error ms k = Some m -> after (S k) = move m (after k).
Proof. intros H. unfold after. rewrite (firstn_snoc _ _ _ H), fold_left_app. reflexivity. Qed.

Hypothesis proper : forall k m, nth_error ms k = Some m ->
  source m <> target m /\ 0 <= source m < Z.of_nat size /\ 0 <= target m < Z.of_nat size /\ exists a, im_find (migrant m) (after k (source m)) = Some a.

Definition cargo (i j : Z) (k : nat) : list (identity * A) :=
  match nth_error ms k with
  | Some m => if (source m =? i) && (target m =? j) then match im_find (migrant m) (after k i) with Some a => [(migrant m, a)] | None => [] end else []
  | None => []
  end.
Definition between (i j : Z) (a b : nat) : list (identity * A) := flat_map (cargo i j) (seq a (b - a)).
Record inv s : Prop := {
  inv_pc : forall i, (pc s i <= length ms)%nat;
  inv_agents : forall i, agents_at s i = after (pc s i) i;
  inv_order : forall k m, nth_error ms k = Some m -> (k < pc s (target m))%nat -> (k < pc s (source m))%nat;
  inv_channel : forall i j, channel s i j = between i j (pc s j) (pc s i)
}.
Lemma between_empty i j a b : (b <= a)%nat -> between i j a b = [].
Proof. intros H. unfold between. replace (b - a)%nat with O by lia. reflexivity. Qed.
Lemma between_self i j a : between i j a a = [].
Proof. now apply between_empty. Qed.
Lemma between_last i j a b : (a <= b)%nat -> between i j a (S b) = between i j a b ++ cargo i j b.
Proof.
  intros H. unfold between. replace (S b - a)%nat with (S (b - a)) by lia. rewrite seq_S, flat_map_app. cbn [flat_map].
  rewrite app_nil_r. do 2 f_equal. lia.
Qed.
Lemma between_first i j a b : (a < b)%nat -> between i j a b = cargo i j a ++ between i j (S a) b.
Proof. intros H. unfold between. replace (b - a)%nat with (S (b - S a)) by lia. reflexivity. Qed.
Lemma cargo_none i j k m : nth_error ms k = Some m -> (source m <> i \/ target m <> j) -> cargo i j k = [].
Proof. intros H N. unfold cargo. rewrite H. destruct (Z.eqb_spec (source m) i), (Z.eqb_spec (target m) j); cbn; try reflexivity. tauto. Qed.
Lemma between_last_none i j a b : cargo i j b = [] -> between i j a (S b) = between i j a b.
Proof.
  intros H. destruct (Nat.le_gt_cases a b) as [L|L]; [rewrite between_last by exact L; now rewrite H, app_nil_r|].
  rewrite (between_empty i j a (S b)), (between_empty i j a b) by lia. reflexivity.
Qed.
Lemma between_first_none i j a b : cargo i j a = [] -> between i j (S a) b = between i j a b.
Proof.
  intros H. destruct (Nat.le_gt_cases b a) as [L|L]; [rewrite (between_empty i j (S a) b), (between_empty i j a b) by lia; reflexivity|].
  rewrite (between_first i j a b) by exact L. now rewrite H.
Qed.
Lemma upd_same {X} (f : Z -> X) i x : upd f i x i = x.
Proof. unfold upd. now rewrite Z.eqb_refl. Qed.
Lemma upd_other {X} (f : Z -> X) i x j : j <> i -> upd f i x j = f j.
Proof. intros H. unfold upd. now rewrite (proj2 (Z.eqb_neq j i) H). Qed.
Lemma after_S_other k m i : nth_error ms k = Some m -> source m <> i -> target m <> i -> after (S k) i = after k i.
Proof. intros H S T. rewrite (after_S _ _ H). unfold move. destruct (im_find _ _); [|reflexivity]. rewrite !upd_other by congruence. reflexivity. Qed.
Lemma nth_lt {X} (l : list X) k x : nth_error l k = Some x -> (k < length l)%nat.
Proof. intros H. apply nth_error_Some. congruence. Qed.

Lemma inv_start : inv (mk_transit (fun _ => O) f0 (fun _ _ => [])).
Proof. constructor; cbn; intros; [lia|reflexivity|lia|reflexivity]. Qed.

Lemma inv_skip s i m : inv s -> nth_error ms (pc s i) = Some m -> source m <> i -> target m <> i ->
  inv (mk_transit (upd (pc s) i (S (pc s i))) (agents_at s) (channel s)).
Proof.
  intros [P G O C] E Ns Nt. constructor; cbn [pc agents_at channel].
  - intros j. unfold upd. destruct (Z.eqb_spec j i) as [->|]; [apply nth_lt in E; lia|apply P].
  - intros j. rewrite G. unfold upd. destruct (Z.eqb_spec j i) as [->|]; [|reflexivity]. symmetry. eapply after_S_other; eassumption.
  - intros k m' E' H. unfold upd in *. destruct (Z.eqb_spec (target m') i) as [T|T].
    + assert (k <> pc s i) by congruence. specialize (O k m' E'). rewrite T in O. destruct (Z.eqb_spec (source m') i) as [S|S]; lia.
    + specialize (O k m' E' H). destruct (Z.eqb_spec (source m') i) as [<-|S]; lia.
  - intros a b. rewrite C. unfold upd. destruct (Z.eqb_spec b i) as [->|Nb], (Z.eqb_spec a i) as [->|Na].
    + now rewrite !between_self.
    + symmetry. apply between_first_none. eapply cargo_none; [exact E|tauto].
    + symmetry. apply between_last_none. eapply cargo_none; [exact E|tauto].
    + reflexivity.
Qed.
Lemma inv_send s i m a : inv s -> nth_error ms (pc s i) = Some m -> source m = i -> im_find (migrant m) (agents_at s i) = Some a ->
  inv (mk_transit (upd (pc s) i (S (pc s i))) (upd (agents_at s) i (im_erase (migrant m) (agents_at s i)))
      (upd2 (channel s) i (target m) (channel s i (target m) ++ [(migrant m, a)]))).
Proof.
  intros [P G O C] E Es F. destruct (proper _ _ E) as (Nst & Rs & Rt & _).
  assert (Lt : (pc s (target m) <= pc s i)%nat). { destruct (Nat.le_gt_cases (pc s (target m)) (pc s i)) as [L|L]; [exact L|]. specialize (O _ _ E L). rewrite Es in O. lia. }
  constructor; cbn [pc agents_at channel].
  - intros j. unfold upd. destruct (Z.eqb_spec j i) as [->|]; [apply nth_lt in E; lia|apply P].
  - intros j. unfold upd. destruct (Z.eqb_spec j i) as [->|N]; [|apply G]. rewrite (after_S _ _ E). unfold move. rewrite Es, <- G, F.
    rewrite upd_other by congruence. now rewrite upd_same.
  - intros k m' E' H. unfold upd in *. destruct (Z.eqb_spec (target m') i) as [T|T].
    + assert (k <> pc s i). { intros ->. assert (m' = m) by congruence. subst m'. congruence. }
      specialize (O k m' E'). rewrite T in O. destruct (Z.eqb_spec (source m') i) as [S|S]; lia.
    + specialize (O k m' E' H). destruct (Z.eqb_spec (source m') i) as [<-|S]; lia.
  - intros x y. unfold upd2, upd. destruct (Z.eqb_spec x i) as [->|Nx]; cbn [andb].
    + destruct (Z.eqb_spec y (target m)) as [->|Ny].
      * rewrite (proj2 (Z.eqb_neq (target m) i)) by congruence. rewrite between_last by exact Lt. rewrite C. f_equal.
        unfold cargo. rewrite E, Es, !Z.eqb_refl. cbn. now rewrite <- G, F.
      * destruct (Z.eqb_spec y i) as [->|Nyi]; [now rewrite C, !between_self|].
        rewrite C. symmetry. apply between_last_none. eapply cargo_none; [exact E|]. right. congruence.
    + destruct (Z.eqb_spec y i) as [->|Nyi]; [|apply C]. rewrite C. symmetry. apply between_first_none. eapply cargo_none; [exact E|left; congruence].
Qed.
Lemma inv_receive s j m i a rest : inv s -> nth_error ms (pc s j) = Some m -> target m = j -> source m <> j -> channel s (source m) j = (i, a) :: rest ->
  inv (mk_transit (upd (pc s) j (S (pc s j))) (upd (agents_at s) j (im_emplace i a (agents_at s j))) (upd2 (channel s) (source m) j rest)).
Proof.
  intros [P G O C] E Et Nst H. destruct (proper _ _ E) as (_ & Rs & Rt & b & Fb).
  assert (Lt : (pc s j < pc s (source m))%nat). { destruct (Nat.le_gt_cases (pc s (source m)) (pc s j)) as [L|L]; [|exact L]. rewrite C, between_empty in H by exact L. discriminate. }
  rewrite C, between_first in H by exact Lt. unfold cargo in H at 1. rewrite E, Et, !Z.eqb_refl in H. cbn [andb] in H. rewrite Fb in H. cbn [app] in H. injection H as <- <- Hr.
  constructor; cbn [pc agents_at channel].
  - intros x. unfold upd. destruct (Z.eqb_spec x j) as [->|]; [apply nth_lt in E; lia|apply P].
  - intros x. unfold upd. destruct (Z.eqb_spec x j) as [->|N]; [|apply G]. rewrite (after_S _ _ E). unfold move. rewrite Fb, Et, upd_same. now rewrite G.
  - intros k m' E' H. unfold upd in *. destruct (Z.eqb_spec (target m') j) as [T|T].
    + destruct (Nat.eq_dec k (pc s j)) as [->|Nk].
      * assert (m' = m) by congruence. subst m'. rewrite (proj2 (Z.eqb_neq (source m) j)) by exact Nst. exact Lt.
      * specialize (O k m' E'). rewrite T in O. destruct (Z.eqb_spec (source m') j) as [S|S]; lia.
    + specialize (O k m' E' H). destruct (Z.eqb_spec (source m') j) as [<-|S]; lia.
  - intros x y. unfold upd2, upd. destruct (Z.eqb_spec y j) as [->|Ny].
    + destruct (Z.eqb_spec x (source m)) as [->|Nx]; cbn [andb].
      * rewrite (proj2 (Z.eqb_neq (source m) j)) by exact Nst. now rewrite Hr.
      * destruct (Z.eqb_spec x j) as [->|Nxj]; [now rewrite C, !between_self|].
        rewrite C. symmetry. apply between_first_none. eapply cargo_none; [exact E|left; congruence].
    + rewrite andb_false_r. destruct (Z.eqb_spec x j) as [->|Nxj]; [|apply C]. rewrite C. symmetry. apply between_last_none.
      eapply cargo_none; [exact E|right; congruence].
Qed.
Lemma inv_ext s s' : (forall i, pc s' i = pc s i) -> (forall i, agents_at s' i = agents_at s i) -> (forall i j, channel s' i j = channel s i j) -> inv s -> inv s'.
Proof.
  intros H1 H2 H3 [P G O C]. constructor.
  - intros i. rewrite H1. apply P.
  - intros i. rewrite H2, H1. apply G.
  - intros k m E. rewrite !H1. now apply O.
  - intros i j. rewrite H3, !H1. apply C.
Qed.
Lemma inv_step b s s' : inv s -> migration_step size ms b s s' -> inv s'.
Proof.
  intros I St. destruct St as [i m s R E Ns Nt|i m s R E Es F|i m a s R E Es F|j m i a rest s R E Et Ns H|i j m m' a s Ri Rj E Es Et F E' Et' Es' Nij H].
  - eapply inv_skip; eassumption.
  - exfalso. destruct (proper _ _ E) as (_ & _ & _ & a & Fa). rewrite (inv_agents _ I), <- Es in F. congruence.
  - eapply inv_send; eassumption.
  - eapply inv_receive; eassumption.
  - pose proof (inv_send s i m a I E Es F) as I1. rewrite Et, H in I1. cbn [app] in I1. set (s1 := mk_transit _ _ _) in I1.
    assert (P1 : pc s1 j = pc s j) by (cbn; now rewrite upd_other by congruence).
    assert (C1 : channel s1 (source m') j = [(migrant m, a)]) by (cbn; unfold upd2; now rewrite Es', !Z.eqb_refl).
    pose proof (inv_receive s1 j m' (migrant m) a [] I1) as I2. rewrite P1 in I2. specialize (I2 E' Et' ltac:(congruence) C1).
    revert I2. apply inv_ext; unfold s1; cbn [pc agents_at channel].
    + reflexivity.
    + intros x. unfold upd. destruct (Z.eqb_spec x j) as [->|]; [|reflexivity]. now rewrite (proj2 (Z.eqb_neq j i)) by congruence.
    + intros x y. unfold upd2. rewrite Es'. destruct (Z.eqb_spec x i) as [->|], (Z.eqb_spec y j) as [->|]; cbn; try reflexivity. exact H.
Qed.
Lemma inv_steps s s' : inv s -> migration_steps size ms s s' -> inv s'.
Proof. intros I H. induction H as [|s1 s2 s3 b H IH St]; [exact I|]. exact (inv_step b s2 s3 (IH I) St). Qed.

(** Progress: the process that is furthest behind, with the one it waits for. *)
Lemma behind s : (0 < size)%nat -> exists i, 0 <= i < Z.of_nat size /\ forall j, 0 <= j < Z.of_nat size -> (pc s i <= pc s j)%nat.
Proof.
  intros H. assert (D : forall n, (0 < n)%nat -> exists i, 0 <= i < Z.of_nat n /\ forall j, 0 <= j < Z.of_nat n -> (pc s i <= pc s j)%nat).
  { induction n as [|n IH]; [lia|]. intros _. destruct n as [|n]; [exists 0; split; [lia|]; intros j Hj; replace j with 0 by lia; lia|].
    destruct (IH ltac:(lia)) as (i & Hi & Mi). destruct (Nat.le_gt_cases (pc s i) (pc s (Z.of_nat (S n)))) as [L|L].
    - exists i. split; [lia|]. intros j Hj. destruct (Z.eq_dec j (Z.of_nat (S n))) as [->|]; [exact L|apply Mi; lia].
    - exists (Z.of_nat (S n)). split; [lia|]. intros j Hj. destruct (Z.eq_dec j (Z.of_nat (S n))) as [->|]; [lia|]. specialize (Mi j ltac:(lia)). lia. }
  now apply D.
Qed.
Lemma progress s : inv s -> ~ finished size ms s -> exists s', migration_step size ms false s s'.
Proof.
  intros I N. destruct (Nat.eq_dec size 0) as [Es0|Es0]; [exfalso; apply N; intros i Hi; lia|].
  destruct (behind s) as (i & Ri & Mi); [lia|].
  destruct (nth_error ms (pc s i)) as [m|] eqn:E.
  2:{ exfalso. apply N. intros j Hj. apply nth_error_None in E. apply nth_error_None. specialize (Mi j Hj). lia. }
  destruct (proper _ _ E) as (Nst & Rs & Rt & a & Fa).
  destruct (Z.eq_dec (target m) i) as [Et|Nt].
  - (* waiting for the source *)
    destruct (Nat.eq_dec (pc s (source m)) (pc s i)) as [Q|Q].
    + eexists. eapply (ms_rendezvous size ms (source m) i m m a s); try eassumption; try reflexivity; [now rewrite Q|now rewrite (inv_agents _ I), Q|congruence|].
      rewrite (inv_channel _ I), between_empty; [reflexivity|lia].
    + specialize (Mi _ Rs) as L. eexists. eapply (ms_receive size ms i m (migrant m) a _ s); try eassumption; [congruence|].
      rewrite (inv_channel _ I), between_first by lia. unfold cargo. rewrite E, Et, !Z.eqb_refl. cbn [andb]. rewrite Fa. reflexivity.
  - destruct (Z.eq_dec (source m) i) as [Es|Ns].
    + (* the target is at the same migration or has still to receive earlier ones *)
      assert (Q : pc s (target m) = pc s i).
      { pose proof (Mi _ Rt) as L. destruct (Nat.eq_dec (pc s (target m)) (pc s i)) as [|Q]; [assumption|]. pose proof (inv_order _ I _ _ E ltac:(lia)) as K. rewrite Es in K. lia. }
      assert (F : im_find (migrant m) (agents_at s i) = Some a) by (rewrite (inv_agents _ I); rewrite Es in Fa; exact Fa).
      eexists. eapply (ms_rendezvous size ms i (target m) m m a s); try eassumption; try reflexivity; [now rewrite Q|congruence|].
      rewrite (inv_channel _ I), between_empty; [reflexivity|lia].
    + eexists. eapply ms_skip; [exact Ri|exact E|exact Ns|exact Nt].
Qed.
End Transit.
