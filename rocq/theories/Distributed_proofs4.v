(** Activation, deactivation and messages in the distributed environment. *)
From Coq Require Import ZifyBool ZifyNat.
From Coq Require Import Permutation.
From Verif Require Import Base Identity Identity_proofs IdMap IdMap_proofs Multimap Multimap_proofs Communicator Distributed Distributed_spec Distributed_proofs Distributed_proofs2 Distributed_proofs3.

Section Activation.
Context {A : Type}.
Implicit Types (c : cluster A).
Definition announcement (x : nat * node A) : list (Z * identity) := map (fun i => (Z.of_nat (fst x), i)) (activated (snd x)).
Definition announcements c : list (Z * identity) := concat (map announcement (combine (seq 0 (length c)) c)).
Lemma combine_repeat {X Y} (l : list X) (y : Y) : combine l (repeat y (length l)) = map (fun x => (x, y)) l.
Proof. induction l as [|x l IH]; [reflexivity|]. cbn. now rewrite IH. Qed.
Lemma activate_ret c : activate c = Ret (map (fun n => (mk_node (learn (announcements c) (locations n)) (local_agents n) [] (deactivated n), Z.of_nat (length (announcements c)))) c).
Proof.
  unfold activate. set (xs := map announcement (combine (seq 0 (length c)) c)).
  assert (L : length xs = length c) by (unfold xs; rewrite map_length, combine_length, seq_length; lia).
  replace (map _ (combine (seq 0 (length c)) c)) with (map (fun x => repeat x (length xs)) xs) by (rewrite L; unfold xs; rewrite map_map; reflexivity).
  rewrite all_to_all_public, L, combine_repeat, map_map. reflexivity.
Qed.
Lemma announcements_in c r i : In (r, i) (announcements c) <-> announced c i r.
Proof.
  unfold announcements, announced, process_of. rewrite in_concat. split.
  - intros (l & Hl & Hi). apply in_map_iff in Hl. destruct Hl as ([k n] & <- & Hk). unfold announcement in Hi. cbn in Hi. apply in_map_iff in Hi. destruct Hi as (j & E & Hj). injection E as <- <-.
    apply In_nth_error in Hk. destruct Hk as [q Hq]. apply combine_nth_error in Hq. destruct Hq as [Q1 Q2]. apply nth_error_seq in Q1. destruct Q1 as [-> _].
    exists n. rewrite Nat2Z.id. repeat split; [lia|exact Q2|exact Hj].
  - intros (n & [R E] & Hi). exists (announcement (Z.to_nat r, n)). split.
    + apply in_map. apply (nth_error_In _ (Z.to_nat r)). apply combine_nth_error. split; [|exact E]. apply nth_error_seq. split; [reflexivity|apply nth_error_Some; congruence].
    + unfold announcement. cbn. apply in_map_iff. exists i. split; [f_equal; lia|exact Hi].
Qed.
(** Announcements come in the order of ranks. *)
Lemma announcements_ordered c before r i after : announcements c = before ++ (r, i) :: after -> forall r' i', In (r', i') before -> r' <= r.
Proof.
  unfold announcements. generalize O. revert before. induction c as [|n c IH]; intros before o E r' i' H.
  - destruct before; discriminate.
  - cbn [length seq combine map concat] in E. 
    assert (G : forall (c : cluster A) o p, In p (concat (map announcement (combine (seq o (length c)) c))) -> Z.of_nat o <= fst p).
    { clear. induction c as [|n c IH]; intros o p H; [contradiction|]. cbn [length seq combine map concat] in H. apply in_app_or in H. destruct H as [H|H].
      - apply in_map_iff in H. destruct H as (i & <- & _). cbn. lia.
      - apply IH in H. lia. }
    assert (F : forall p, In p (announcement (o, n)) -> fst p = Z.of_nat o) by (intros p Hp; apply in_map_iff in Hp; destruct Hp as (j & <- & _); reflexivity).
    apply app_eq_app in E. destruct E as (l & [[E1 E2]|[E1 E2]]).
    + (* the announcement of this process reaches further *)
      assert (I' : In (r', i') (announcement (o, n))) by (rewrite E1; apply in_or_app; now left). apply F in I'. cbn in I'. subst r'.
      destruct l as [|p l].
      * cbn in E2. specialize (G c (S o) (r, i)). rewrite <- E2 in G. specialize (G ltac:(now left)). cbn in G. lia.
      * cbn in E2. injection E2 as <- _. assert (Ip : In (r, i) (announcement (o, n))) by (rewrite E1; apply in_or_app; right; now left). apply F in Ip. cbn in Ip. lia.
    + subst before. apply in_app_or in H. destruct H as [H|H].
      * apply F in H. cbn in H. subst r'. assert (In (r, i) (concat (map announcement (combine (seq (S o) (length c)) c)))) by (rewrite E2; apply in_or_app; right; now left).
        apply G in H. cbn in H. lia.
      * eapply IH; eassumption.
Qed.
Lemma announced_place c i : (exists r, announced c i r) -> forall o, exists r, last_place i (announcements c) o = Some r /\ announced c i r /\ forall r', announced c i r' -> r' <= r.
Proof.
  intros (r0 & H0) o. apply announcements_in in H0.
  destruct (last_place_in i (announcements c) o) as (b & r & a & E & N & L); [apply in_map_iff; exists (r0, i); now split|].
  exists r. split; [exact L|]. split; [apply announcements_in; rewrite E; apply in_or_app; right; now left|].
  intros r' H. apply announcements_in in H. rewrite E in H. apply in_app_or in H. destruct H as [H|[H|H]].
  - eapply announcements_ordered; eassumption.
  - injection H as <-. lia.
  - exfalso. apply N. apply in_map_iff. exists (r', i). now split.
Qed.
Lemma not_announced_place c i o : (forall r, ~ announced c i r) -> last_place i (announcements c) o = o.
Proof. intros H. apply last_place_none. intros G. apply in_map_iff in G. destruct G as ([r j] & <- & G). apply (H r). now apply announcements_in. Qed.
Lemma announcements_length c : length (announcements c) = list_sum (map (fun n => length (activated n)) c).
Proof.
  unfold announcements. generalize O. induction c as [|n c IH]; intros o; [reflexivity|]. cbn [length seq combine map concat list_sum fold_right].
  rewrite app_length. unfold announcement at 1. rewrite map_length. cbn [snd]. specialize (IH (S o)). unfold list_sum in IH. now rewrite IH.
Qed.

(** * Deactivation *)
Lemma forget_all (ids : list identity) : forall n : node A, im_sorted (locations n) ->
  let n' := fold_left (fun n i => deactivate_agent i n) ids n in
  (forall i, im_find i (locations n') = if existsb (id_eqb i) ids then None else im_find i (locations n)) /\
  local_agents n' = local_agents n /\ activated n' = activated n /\ deactivated n' = deactivated n ++ ids.
Proof.
  induction ids as [|j ids IH]; intros n S; cbn [fold_left]; [cbn; rewrite app_nil_r; repeat split|].
  destruct (IH (deactivate_agent j n)) as (H1 & H2 & H3 & H4); [cbn; now apply im_erase_sorted|].
  split; [|cbn in *; split; [exact H2|split; [exact H3|rewrite H4; now rewrite <- app_assoc]]].
  intros i. cbn [existsb]. rewrite H1. cbn. rewrite im_find_erase by exact S. rewrite (id_eqb_sym i j). destruct (id_eqb j i), (existsb _ ids); reflexivity.
Qed.
Definition told c (r : nat) : list identity := flat_map (fun n => match nth_error (deactivated n) r with Some i => [i] | None => [] end) c.
Lemma deactivate_ret c : (forall n, In n c -> length (deactivated n) = length c) ->
  deactivate c = Ret (map (fun x => (fold_left (fun n i => deactivate_agent i n) (told c (fst x)) (snd x), Z.of_nat (length (deactivated (snd x))))) (combine (seq 0 (length c)) c)).
Proof.
  intros H. unfold deactivate. rewrite all_to_all_ret.
  2:{ intros row Hr. apply in_map_iff in Hr. destruct Hr as (n & <- & Hn). rewrite map_length. now apply H. }
  f_equal. rewrite map_length.
  assert (G : forall (c' : cluster A) o, map (fun x => let '(n, ids) := x in (fold_left (fun n i => deactivate_agent i n) ids n, Z.of_nat (length (deactivated n))))
      (combine c' (map (fun r => flat_map (fun row => match nth_error row r with Some x => [x] | None => [] end) (map deactivated c)) (seq o (length c')))) =
      map (fun x => (fold_left (fun n i => deactivate_agent i n) (told c (fst x)) (snd x), Z.of_nat (length (deactivated (snd x))))) (combine (seq o (length c')) c')).
  { induction c' as [|n c' IH]; intros o; [reflexivity|]. cbn [length seq map combine]. f_equal; [|apply IH]. cbn [fst snd]. do 2 f_equal. unfold told.
    clear. induction c as [|x c IH]; [reflexivity|]. cbn. now rewrite IH. }
  apply G.
Qed.
End Activation.

(** * Messages *)
Definition receive (box : list (Z * message)) (m : message) : list (Z * message) := mm_insert (m_received m) m box.
Definition for_agent (i : identity) (ms : list message) : list message := filter (fun m => id_eqb (m_recipient m) i) ms.
Definition known (size : nat) (rank : Z) (n : node mailbox) (m : message) : Prop :=
  exists place, im_find (m_recipient m) (locations n) = Some place /\ 0 <= place < Z.of_nat size /\ (place = rank <-> im_find (m_recipient m) (local_agents n) <> None).
Definition queued (size : nat) (rank : Z) (q : list (Z * message)) : Prop := forall p, In p q -> fst p <> rank /\ 0 <= fst p < Z.of_nat size.
Lemma known_ext size rank n n' m : locations n' = locations n -> (forall i, im_find i (local_agents n') = None <-> im_find i (local_agents n) = None) -> known size rank n m -> known size rank n' m.
Proof. intros E1 E2 (p & H1 & H2 & H3). exists p. specialize (E2 (m_recipient m)). rewrite E1. split; [exact H1|]. split; [exact H2|]. tauto. Qed.
Lemma route_all_ok size rank ms : forall n, im_sorted (local_agents n) -> (forall m, In m ms -> known size rank n m) ->
  exists n' q, route_all rank n ms = Ret (n', q) /\ queued size rank q /\ locations n' = locations n /\ activated n' = activated n /\ deactivated n' = deactivated n /\
    im_sorted (local_agents n') /\
    forall i, im_find i (local_agents n') = match im_find i (local_agents n) with Some (inbox, outbox) => Some (fold_left receive (for_agent i ms) inbox, outbox) | None => None end.
Proof.
  induction ms as [|m ms IH]; intros n S K.
  - exists n, []. repeat split; try assumption; try contradiction. intros i. cbn. now destruct (im_find i (local_agents n)) as [[? ?]|].
  - destruct (K m ltac:(now left)) as (p & Hp & R & Hl).
    assert (St : exists n1 q1, route rank n m = Ret (n1, q1) /\ queued size rank q1 /\ locations n1 = locations n /\ activated n1 = activated n /\ deactivated n1 = deactivated n /\ im_sorted (local_agents n1) /\
       forall i, im_find i (local_agents n1) = match im_find i (local_agents n) with Some (inbox, outbox) => Some (fold_left receive (for_agent i [m]) inbox, outbox) | None => None end).
    { unfold route. rewrite Hp. destruct (Z.eqb_spec p rank) as [->|N].
      - destruct (im_find (m_recipient m) (local_agents n)) as [[inbox outbox]|] eqn:F; [|exfalso; apply (proj1 Hl eq_refl); reflexivity].
        eexists _, []. split; [reflexivity|]. split; [intros ? []|]. cbn. repeat split; try reflexivity; [now apply im_set_sorted|].
        intros i. rewrite im_find_set by exact S. unfold for_agent. cbn. destruct (id_eqb (m_recipient m) i) eqn:E; cbn.
        + apply id_eqb_eq in E. subst i. now rewrite F.
        + now destruct (im_find i (local_agents n)) as [[? ?]|].
      - eexists _, [(p, m)]. split; [reflexivity|]. split; [intros x [<-|[]]; cbn; lia|]. cbn. repeat split; try reflexivity; [exact S|].
        intros i. unfold for_agent. cbn. destruct (id_eqb (m_recipient m) i) eqn:E; cbn; [|now destruct (im_find i (local_agents n)) as [[? ?]|]].
        apply id_eqb_eq in E. subst i. destruct (im_find (m_recipient m) (local_agents n)) as [[? ?]|] eqn:F; [|reflexivity]. exfalso. apply N. apply Hl. discriminate. }
    destruct St as (n1 & q1 & E1 & Q1 & L1 & A1 & D1 & S1 & F1).
    destruct (IH n1 S1) as (n2 & q2 & E2 & Q2 & L2 & A2 & D2 & S2 & F2).
    { intros m' Hm'. apply known_ext with (n := n); [exact L1| |apply K; now right]. intros i. rewrite F1. destruct (im_find i (local_agents n)) as [[? ?]|]; split; congruence. }
    exists n2, (q1 ++ q2). cbn [route_all]. rewrite E1, E2. split; [reflexivity|]. split; [intros x Hx; apply in_app_or in Hx; destruct Hx; [now apply Q1|now apply Q2]|].
    repeat split; try congruence; try exact S2. intros i. rewrite F2, F1. destruct (im_find i (local_agents n)) as [[inbox outbox]|]; [|reflexivity]. do 2 f_equal.
    rewrite <- fold_left_app. f_equal. unfold for_agent. now rewrite <- filter_app.
Qed.
Lemma flat_map_ext_in' {X Y} (f g : X -> list Y) l : (forall x, In x l -> f x = g x) -> flat_map f l = flat_map g l.
Proof. induction l as [|x l IH]; intros H; [reflexivity|]. cbn. rewrite H by now left. f_equal. apply IH. intros; apply H; now right. Qed.
Definition outbox_of (n : node mailbox) (i : identity) : list message := match im_find i (local_agents n) with Some (_, o) => o | None => [] end.
Lemma route_agents_ok size rank ids : forall n, im_sorted (local_agents n) -> NoDup ids -> (forall i, In i ids -> im_find i (local_agents n) <> None) ->
  (forall i m, In i ids -> In m (outbox_of n i) -> known size rank n m) ->
  exists n' q, route_agents rank n ids = Ret (n', q) /\ queued size rank q /\ locations n' = locations n /\ activated n' = activated n /\ deactivated n' = deactivated n /\
    im_sorted (local_agents n') /\
    forall i, im_find i (local_agents n') = match im_find i (local_agents n) with
      | Some (inbox, outbox) => Some (fold_left receive (for_agent i (flat_map (outbox_of n) ids)) inbox, if existsb (id_eqb i) ids then [] else outbox) | None => None end.
Proof.
  induction ids as [|j ids IH]; intros n S N P K.
  - exists n, []. repeat split; try assumption; try contradiction. intros i. cbn. now destruct (im_find i (local_agents n)) as [[? ?]|].
  - cbn [route_agents]. inversion N as [|? ? Nj Nids]; subst.
    destruct (im_find j (local_agents n)) as [[inj outj]|] eqn:Fj; [|exfalso; apply (P j); [now left|exact Fj]].
    assert (Oj : outbox_of n j = outj) by (unfold outbox_of; now rewrite Fj).
    destruct (route_all_ok size rank outj n S) as (n1 & q1 & E1 & Q1 & L1 & A1 & D1 & S1 & F1); [intros m Hm; apply (K j); [now left|now rewrite Oj]|].
    rewrite E1. pose proof (F1 j) as F1j. rewrite Fj in F1j. rewrite F1j.
    set (n2 := mk_node _ _ _ _).
    assert (S2 : im_sorted (local_agents n2)) by (cbn; now apply im_set_sorted).
    assert (F2 : forall i, im_find i (local_agents n2) = match im_find i (local_agents n) with Some (inbox, outbox) => Some (fold_left receive (for_agent i outj) inbox, if id_eqb j i then [] else outbox) | None => None end).
    { intros i. cbn. rewrite im_find_set by exact S1. destruct (id_eqb j i) eqn:E; [apply id_eqb_eq in E; subst i; now rewrite Fj|apply F1]. }
    assert (O2 : forall i, In i ids -> outbox_of n2 i = outbox_of n i).
    { intros i Hi. unfold outbox_of. rewrite F2. destruct (im_find i (local_agents n)) as [[? ?]|]; [|reflexivity]. rewrite id_eqb_neq; [reflexivity|]. intros ->. contradiction. }
    destruct (IH n2 S2 Nids) as (n3 & q2 & E3 & Q3 & L3 & A3 & D3 & S3 & F3).
    + intros i Hi. rewrite F2. specialize (P i ltac:(now right)). destruct (im_find i (local_agents n)) as [[? ?]|]; [discriminate|congruence].
    + intros i m Hi Hm. rewrite O2 in Hm by exact Hi. apply known_ext with (n := n); [exact L1| |apply (K i); [now right|exact Hm]].
      intros k. rewrite F2. destruct (im_find k (local_agents n)) as [[? ?]|]; split; intros; (reflexivity || discriminate).
    + exists n3, (q1 ++ q2). rewrite E3. split; [reflexivity|]. split; [intros x Hx; apply in_app_or in Hx; destruct Hx; [now apply Q1|now apply Q3]|].
      split; [exact (eq_trans L3 L1)|]. split; [exact (eq_trans A3 A1)|]. split; [exact (eq_trans D3 D1)|]. split; [exact S3|].
      intros i. rewrite F3, F2. destruct (im_find i (local_agents n)) as [[inbox outbox]|] eqn:Fi; [|reflexivity]. do 2 f_equal.
      * rewrite <- fold_left_app. f_equal. unfold for_agent. rewrite <- filter_app. cbn [flat_map]. rewrite Oj. do 2 f_equal.
        apply flat_map_ext_in'. exact O2.
      * cbn [existsb]. rewrite (id_eqb_sym i j). destruct (id_eqb j i), (existsb _ ids); reflexivity.
Qed.

Definition node_sent (size : nat) (rank : Z) (n n' : node mailbox) (q : list (Z * message)) : Prop :=
  queued size rank q /\ locations n' = locations n /\ activated n' = activated n /\ deactivated n' = deactivated n /\ im_sorted (local_agents n') /\
  forall i, im_find i (local_agents n') = match im_find i (local_agents n) with Some (inbox, outbox) => Some (fold_left receive (for_agent i (outgoing n)) inbox, []) | None => None end.
Lemma outgoing_by_id (n : node mailbox) : im_sorted (local_agents n) -> flat_map (outbox_of n) (map fst (local_agents n)) = outgoing n.
Proof.
  intros S. unfold outgoing. rewrite flat_map_concat_map, map_map, <- flat_map_concat_map. apply flat_map_ext_in'. intros [i [inbox outbox]] H. cbn.
  unfold outbox_of. now rewrite (proj2 (im_find_in i (local_agents n) (inbox, outbox) S) H).
Qed.
Lemma node_sends size rank (n : node mailbox) : im_sorted (local_agents n) ->
  (forall m, In m (outgoing n) -> known size rank n m) ->
  exists n' q, route_agents rank n (map fst (local_agents n)) = Ret (n', q) /\ node_sent size rank n n' q.
Proof.
  intros S K. destruct (route_agents_ok size rank (map fst (local_agents n)) n S) as (n' & q & E & Q & L & A & D & S' & F).
  - now apply im_keys_nodup.
  - intros i Hi H. apply im_find_none in H; [contradiction|exact S].
  - intros i m Hi Hm. apply K. rewrite <- outgoing_by_id by exact S. apply in_flat_map. now exists i.
  - exists n', q. split; [exact E|]. repeat split; try assumption; try (now apply Q). intros i. rewrite F, outgoing_by_id by exact S.
    destruct (im_find i (local_agents n)) as [[inbox outbox]|] eqn:Fi; [|reflexivity].
    assert (In i (map fst (local_agents n))). { apply im_find_in in Fi; [|exact S]. apply in_map_iff. now exists (i, (inbox, outbox)). }
    rewrite (proj2 (existsb_exists _ _)); [reflexivity|]. exists i. split; [assumption|apply id_eqb_refl].
Qed.
Lemma send_local_ok size c : forall o, (forall k n, nth_error c k = Some n -> im_sorted (local_agents n) /\ forall m, In m (outgoing n) -> known size (o + Z.of_nat k) n m) ->
  exists xs, send_local o c = Ret xs /\ length xs = length c /\
    forall k n, nth_error c k = Some n -> exists n' q, nth_error xs k = Some (n', q) /\ node_sent size (o + Z.of_nat k) n n' q.
Proof.
  induction c as [|n c IH]; intros o H.
  - exists []. repeat split. intros [|k] n Hk; discriminate.
  - destruct (H O n eq_refl) as [S K]. rewrite Z.add_0_r in K. destruct (node_sends size o n S K) as (n' & q & E & G).
    destruct (IH (o + 1)) as (xs & Ex & Lx & Gx).
    { intros k n1 Hk. replace (o + 1 + Z.of_nat k) with (o + Z.of_nat (Datatypes.S k)) by lia. now apply H. }
    exists ((n', q) :: xs). cbn [send_local]. rewrite E, Ex. split; [reflexivity|]. split; [cbn; now rewrite Lx|].
    intros [|k] n1 Hk; cbn in Hk.
    + injection Hk as <-. exists n', q. rewrite Z.add_0_r. now split.
    + destruct (Gx k n1 Hk) as (n2 & q2 & E2 & G2). exists n2, q2. split; [exact E2|]. now replace (o + Z.of_nat (Datatypes.S k)) with (o + 1 + Z.of_nat k) by lia.
Qed.
Lemma informed_known (c : cluster mailbox) k n m : well_formed c -> well_informed c -> nth_error c k = Some n -> In m (outgoing n) -> known (length c) (Z.of_nat k) n m.
Proof.
  intros W I E H. apply in_flat_map in H. destruct H as ([i [inbox outbox]] & Hi & Hm). cbn in Hm.
  assert (P : process_of c (Z.of_nat k) n) by (split; [lia|now rewrite Nat2Z.id]).
  destruct (I _ _ _ _ _ _ P Hi Hm) as (p & F & R & Q). exists p. split; [exact F|]. split; [exact R|]. rewrite Q.
  assert (S : im_sorted (local_agents n)) by (apply (proj1 W); eapply nth_error_In; eassumption). split.
  - intros [box Hb]. apply im_find_in in Hb; [|exact S]. congruence.
  - intros N. destruct (im_find (m_recipient m) (local_agents n)) as [box|] eqn:Fb; [|congruence]. exists box. now apply im_find_in.
Qed.
Lemma send_messages_ok (c : cluster mailbox) : well_formed c -> well_informed c ->
  exists c', send_messages c = Sent c' 0 /\ length c' = length c /\ forall k n, nth_error c k = Some n -> exists n' q, nth_error c' k = Some n' /\ node_sent (length c) (Z.of_nat k) n n' q.
Proof.
  intros W I. destruct (send_local_ok (length c) c 0) as (xs & E & L & G).
  { intros k n Hk. split; [apply (proj1 W); eapply nth_error_In; eassumption|]. intros m Hm. now apply informed_known. }
  assert (Q : forall k x, nth_error xs k = Some x -> queued (length c) (Z.of_nat k) (snd x)).
  { intros k [n' q] Hk. assert (Lk : (k < length c)%nat) by (rewrite <- L; apply nth_error_Some; congruence).
    destruct (nth_error c k) as [n|] eqn:En; [|apply nth_error_None in En; lia]. destruct (G k n En) as (n2 & q2 & E2 & G2). rewrite Hk in E2. injection E2 as <- <-. apply G2. }
  exists (map fst xs). split; [|split; [now rewrite map_length|]].
  - unfold send_messages. rewrite E. rewrite (proj2 (forallb_forall _ _)).
    2:{ intros x Hx. apply forallb_forall. intros p Hp. apply In_nth_error in Hx. destruct Hx as [k Hk]. specialize (Q k x Hk p Hp). lia. }
    rewrite all_to_all_ret.
    2:{ intros row Hr. apply in_map_iff in Hr. destruct Hr as (x & <- & _). rewrite !map_length, seq_length. now rewrite L. }
    rewrite map_length, L.
    match goal with |- (if ?b then _ else _) = _ => destruct b eqn:Eb end; [exfalso|reflexivity].
    apply existsb_exists in Eb. destruct Eb as ([r ls] & Hr & Hx). rewrite combine_seq_map in Hr. apply in_map_iff in Hr. destruct Hr as (r' & Er & Hin). injection Er as -> <-.
    apply in_seq in Hin. cbn [fst snd] in Hx. rewrite flat_map_concat_map, map_map, <- flat_map_concat_map in Hx.
    rewrite (flat_map_some _ (fun x => filter (fun q => fst q =? Z.of_nat r) (snd x))) in Hx by (intros x _; rewrite nth_error_map_seq by lia; reflexivity).
    rewrite nth_error_map in Hx. destruct (nth_error xs r) as [x|] eqn:Ex; [|discriminate]. cbn in Hx.
    rewrite (proj2 (forallb_filter_id_none _ _)) in Hx; [discriminate|]. intros p Hp. specialize (Q r x Ex p Hp). lia.
  - intros k n Hk. destruct (G k n Hk) as (n' & q & Ek & Gk). exists n', q. rewrite nth_error_map, Ek. now split.
Qed.
Lemma mm_insert_in {V} (k : Z) (v : V) l x : In x (mm_insert k v l) <-> x = (k, v) \/ In x l.
Proof.
  induction l as [|[k' v'] l IH]; cbn; [intuition congruence|]. destruct (_ : bool); cbn; rewrite ?IH; intuition congruence.
Qed.
Lemma received_in ms : forall box x, In x (fold_left receive ms box) <-> In x box \/ exists m, In m ms /\ x = (m_received m, m).
Proof.
  induction ms as [|m ms IH]; intros box x; cbn [fold_left].
  - split; [tauto|]. intros [H|(m & [] & _)]. exact H.
  - rewrite IH. unfold receive. rewrite mm_insert_in. split.
    + intros [[->|H]|(m' & H & ->)]; [right; exists m; split; [now left|reflexivity]|now left|right; exists m'; split; [now right|reflexivity]].
    + intros [H|(m' & [->|H] & ->)]; [left; now right|left; now left|right; exists m'; now split].
Qed.

(** Recipients nobody knows. *)
Definition unknown (n : node mailbox) (i : identity) : Prop := im_find i (locations n) = None /\ im_find i (local_agents n) = None.
Definition keeps (n n' : node mailbox) : Prop := im_sorted (local_agents n') /\ im_sorted (locations n') /\
  (forall i, im_find i (local_agents n') = None <-> im_find i (local_agents n) = None) /\ (forall i, unknown n i -> unknown n' i).
Lemma route_cases n m : im_sorted (local_agents n) -> im_sorted (locations n) ->
  route 0 n m = UB \/ (~ unknown n (m_recipient m) /\ exists n' q, route 0 n m = Ret (n', q) /\ keeps n n' /\ forall i, outbox_of n' i = outbox_of n i).
Proof.
  intros S S'. unfold route. destruct (im_find (m_recipient m) (locations n)) as [p|] eqn:E.
  - destruct (p =? 0).
    + destruct (im_find (m_recipient m) (local_agents n)) as [[inbox outbox]|] eqn:F; [|now left]. right. split; [unfold unknown; rewrite E; intros [? _]; discriminate|].
      eexists _, _. split; [reflexivity|]. split.
      * split; [now apply im_set_sorted|]. split; [exact S'|]. cbn.
        assert (G : forall i, im_find i (im_set (m_recipient m) (mm_insert (m_received m) m inbox, outbox) (local_agents n)) = None <-> im_find i (local_agents n) = None).
        { intros i. rewrite im_find_set by exact S. destruct (id_eqb (m_recipient m) i) eqn:Ei; [apply id_eqb_eq in Ei; subst; rewrite F; split; discriminate|reflexivity]. }
        split; [exact G|]. intros i [U1 U2]. split; [exact U1|]. now apply G.
      * intros i. unfold outbox_of. cbn. rewrite im_find_set by exact S. destruct (id_eqb (m_recipient m) i) eqn:Ei; [apply id_eqb_eq in Ei; subst; now rewrite F|reflexivity].
    + right. split; [unfold unknown; rewrite E; intros [? _]; discriminate|]. eexists _, _. split; [reflexivity|]. split; [|reflexivity].
      split; [exact S|]. split; [exact S'|]. split; [reflexivity|]. intros i U. exact U.
  - cbn [Z.eqb]. destruct (im_find (m_recipient m) (local_agents n)) as [[inbox outbox]|] eqn:F; [|now left]. right. split; [unfold unknown; rewrite F; intros [_ ?]; discriminate|].
    eexists _, _. split; [reflexivity|]. split.
    + split; [now apply im_set_sorted|]. split; [now apply im_set_sorted|]. cbn.
      assert (G : forall i, im_find i (im_set (m_recipient m) (mm_insert (m_received m) m inbox, outbox) (local_agents n)) = None <-> im_find i (local_agents n) = None).
      { intros i. rewrite im_find_set by exact S. destruct (id_eqb (m_recipient m) i) eqn:Ei; [apply id_eqb_eq in Ei; subst; rewrite F; split; discriminate|reflexivity]. }
      split; [exact G|]. intros i [U1 U2]. split; [|now apply G]. cbn. rewrite im_find_set by exact S'. destruct (id_eqb (m_recipient m) i) eqn:Ei; [apply id_eqb_eq in Ei; subst; congruence|exact U1].
    + intros i. unfold outbox_of. cbn. rewrite im_find_set by exact S. destruct (id_eqb (m_recipient m) i) eqn:Ei; [apply id_eqb_eq in Ei; subst; now rewrite F|reflexivity].
Qed.
Lemma keeps_trans a b c : keeps a b -> keeps b c -> keeps a c.
Proof. intros (_ & _ & H1 & H2) (H3 & H4 & H5 & H6). split; [exact H3|]. split; [exact H4|]. split; [intros i; now rewrite H5|intros i U; now apply H6, H2]. Qed.
Lemma route_all_cases ms : forall n, im_sorted (local_agents n) -> im_sorted (locations n) ->
  route_all 0 n ms = UB \/ ((forall m, In m ms -> ~ unknown n (m_recipient m)) /\ exists n' q, route_all 0 n ms = Ret (n', q) /\ keeps n n' /\ forall i, outbox_of n' i = outbox_of n i).
Proof.
  induction ms as [|m ms IH]; intros n S S'.
  - right. split; [intros ? []|]. exists n, []. split; [reflexivity|]. split; [|reflexivity]. split; [exact S|]. split; [exact S'|]. split; [reflexivity|auto].
  - cbn [route_all]. destruct (route_cases n m S S') as [->|(U & n1 & q1 & -> & K1 & O1)]; [now left|].
    destruct (IH n1) as [->|(U2 & n2 & q2 & -> & K2 & O2)]; [apply K1|apply K1|now left|]. right. split.
    + intros m' [<-|Hm']; [exact U|]. intros V. apply (U2 m' Hm'). now apply K1.
    + exists n2, (q1 ++ q2). split; [reflexivity|]. split; [eapply keeps_trans; eassumption|]. intros i. now rewrite O2, O1.
Qed.
Lemma route_agents_unknown ids : forall n i m, im_sorted (local_agents n) -> im_sorted (locations n) -> NoDup ids -> In i ids -> In m (outbox_of n i) -> unknown n (m_recipient m) ->
  route_agents 0 n ids = UB.
Proof.
  induction ids as [|j ids IH]; intros n i m S S' N Hi Hm U; [contradiction|]. cbn [route_agents].
  destruct (im_find j (local_agents n)) as [[inj outj]|] eqn:Fj; [|reflexivity]. inversion N as [|? ? Nj Nids]; subst.
  destruct (route_all_cases outj n S S') as [->|(V & n1 & q1 & -> & K1 & O1)]; [reflexivity|].
  destruct (list_eq_dec Z.eq_dec j i) as [->|Nji].
  - exfalso. unfold outbox_of in Hm. rewrite Fj in Hm. exact (V m Hm U).
  - destruct Hi as [->|Hi]; [congruence|]. set (n2 := mk_node _ _ _ _). assert (E : route_agents 0 n2 ids = UB); [|now rewrite E].
    destruct K1 as (K1 & K2 & K3 & K4). assert (Fj1 : im_find j (local_agents n1) <> None) by (rewrite K3, Fj; discriminate).
    destruct (im_find j (local_agents n1)) as [[ij oj]|] eqn:F1; [|congruence].
    apply (IH n2 i m).
    + cbn. now apply im_set_sorted.
    + exact K2.
    + exact Nids.
    + exact Hi.
    + rewrite <- O1 in Hm. unfold outbox_of in *. unfold n2. cbn. rewrite im_find_set by exact K1. rewrite id_eqb_neq by exact Nji. exact Hm.
    + destruct (K4 _ U) as [U1 U2]. split; [exact U1|]. unfold n2. cbn. rewrite im_find_set by exact K1. destruct (id_eqb j (m_recipient m)) eqn:Ej; [|exact U2].
      apply id_eqb_eq in Ej. exfalso. destruct U as [_ U]. rewrite <- Ej in U. congruence.
Qed.
Lemma received_with ms : forall box, by_time box -> with_messages box ms (fold_left receive ms box).
Proof.
  induction ms as [|m ms IH]; intros box B; cbn [fold_left].
  - split; [exact B|]. intros t. cbn. now rewrite app_nil_r.
  - assert (B' : by_time (receive box m)) by (now apply (mm_insert_sorted (m_received m) m box)). destruct (IH _ B') as [I1 I2]. split; [exact I1|].
    intros t. rewrite I2. unfold receive. pose proof (mm_insert_filter (m_received m) m box t B) as F. unfold key_is in F. rewrite F, <- app_assoc. f_equal.
    cbn [map filter fst]. destruct (m_received m =? t); reflexivity.
Qed.
