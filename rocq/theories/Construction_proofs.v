From Coq Require Import Lia.
From Verif Require Import Base Identity Quantity Inventory Inventory_spec Inventory_proofs Construction Construction_spec.

Lemma class_ind' (P : class -> Prop) : (forall n bs ins, Forall (fun vb => P (snd vb)) bs -> P (Class n bs ins)) -> forall c, P c.
Proof.
  intros F. fix IH 1. intros [n bs ins]. apply F. induction bs as [|[v b] bs IHb]; constructor; [apply IH | apply IHb].
Qed.
Lemma name_eqb_eq a b : name_eqb a b = true <-> a = b.
Proof. unfold name_eqb. destruct name_eq_dec; split; congruence. Qed.
Lemma name_eqb_refl a : name_eqb a a = true. Proof. now apply name_eqb_eq. Qed.

Definition vb_step (seen : list class) (vb : bool * class) : list class :=
  let seen' := virtual_bases (snd vb) seen in
  if fst vb && negb (existsb (fun k => name_eqb (named k) (named (snd vb))) seen') then seen' ++ [snd vb] else seen'.
Lemma virtual_bases_fold n bs ins seen : virtual_bases (Class n bs ins) seen = fold_left vb_step bs seen.
Proof.
  cbn [virtual_bases]. revert seen. induction bs as [|[v b] bs IH]; intros seen; [reflexivity|].
  cbn [fold_left]. rewrite IH. reflexivity.
Qed.
Lemma construct_base_flat n bs ins i : construct_base (Class n bs ins) i =
  flat_map (fun vb : bool * class => if fst vb then [] else construct_base (snd vb) (passed ins (named (snd vb)) i)) bs ++ [(n, i)].
Proof.
  cbn [construct_base]. f_equal. induction bs as [|[v b] bs IH]; [reflexivity|]. cbn [flat_map fst snd]. destruct v; cbn [app]; now rewrite IH.
Qed.

Lemma inherits_trans a b c : inherits a b -> inherits b c -> inherits a c.
Proof. induction 1 as [a v b B | a v d b B I IH]; intros J; eauto using inherits_indirect. Qed.
(** A virtual base class somewhere within [c]. *)
Definition within (c d : class) : Prop := c = d \/ inherits c d.
Definition virtual_in (c b : class) : Prop := exists d, within c d /\ In (true, b) (bases_of d).
Lemma virtual_in_base c v d b : In (v, d) (bases_of c) -> virtual_in d b -> virtual_in c b.
Proof. intros I (e & [<-|W] & B); [exists d | exists e]; (split; [right | exact B]); [now apply inherits_direct with v | now apply inherits_indirect with v d]. Qed.
Lemma virtual_in_cases n bs ins b : virtual_in (Class n bs ins) b -> In (true, b) bs \/ exists v d, In (v, d) bs /\ virtual_in d b.
Proof.
  intros (e & [<-|W] & B); [now left|]. right. inversion W; subst; cbn in *.
  - exists v, e. split; [easy|]. exists e. split; [now left | easy].
  - exists v, d. split; [easy|]. exists e. split; [now right | easy].
Qed.

(** *** The list of virtual base classes. *)
Lemma fold_prefix bs : Forall (fun vb => forall seen, exists l, virtual_bases (snd vb) seen = seen ++ l) bs ->
  forall seen, exists l, fold_left vb_step bs seen = seen ++ l.
Proof.
  induction 1 as [|[v b] bs H F IH]; intros seen; [exists []; now rewrite app_nil_r|]. cbn [fold_left].
  destruct (H seen) as [l E]. cbn [snd] in E. unfold vb_step at 2. cbn [fst snd]. rewrite E.
  destruct (v && _).
  - destruct (IH ((seen ++ l) ++ [b])) as [l' ->]. exists (l ++ [b] ++ l'). now rewrite !app_assoc.
  - destruct (IH (seen ++ l)) as [l' ->]. exists (l ++ l'). now rewrite app_assoc.
Qed.
Lemma virtual_bases_prefix c : forall seen, exists l, virtual_bases c seen = seen ++ l.
Proof. induction c as [n bs ins F] using class_ind'. intros seen. rewrite virtual_bases_fold. now apply fold_prefix. Qed.
Lemma seen_kept c seen x : In x seen -> In x (virtual_bases c seen).
Proof. destruct (virtual_bases_prefix c seen) as [l ->]. intros. apply in_or_app. now left. Qed.
Lemma fold_kept bs seen x : In x seen -> In x (fold_left vb_step bs seen).
Proof. destruct (fold_prefix bs ltac:(apply Forall_forall; intros; apply virtual_bases_prefix) seen) as [l ->]. intros. apply in_or_app. now left. Qed.

Lemma existsb_named l b : existsb (fun k => name_eqb (named k) (named b)) l = true <-> In (named b) (map named l).
Proof. rewrite existsb_exists, in_map_iff. split; intros (x & A & B); exists x; [apply name_eqb_eq in B | split; [|apply name_eqb_eq]]; easy. Qed.
Lemma existsb_named_false l b : existsb (fun k => name_eqb (named k) (named b)) l = false <-> ~ In (named b) (map named l).
Proof. rewrite <- existsb_named. destruct existsb; split; congruence. Qed.

Lemma nodup_snoc {X} (l : list X) x : NoDup l -> ~ In x l -> NoDup (l ++ [x]).
Proof. intros N I. rewrite <- (rev_involutive (l ++ [x])). apply NoDup_rev. rewrite rev_app_distr. constructor; [now rewrite <- in_rev | now apply NoDup_rev]. Qed.
Lemma virtual_bases_nodup c : forall seen, NoDup (map named seen) -> NoDup (map named (virtual_bases c seen)).
Proof.
  induction c as [n bs ins F] using class_ind'. intros seen. rewrite virtual_bases_fold. revert seen.
  induction F as [|[v b] bs H F IH]; intros seen N; [exact N|]. cbn [fold_left]. apply IH. unfold vb_step. cbn [fst snd] in *.
  destruct (v && _) eqn:E; [|now apply H]. rewrite map_app. apply andb_prop in E. destruct E as [_ E].
  apply Bool.negb_true_iff, existsb_named_false in E. apply nodup_snoc; [now apply H | easy].
Qed.

Lemma virtual_bases_sound c : forall seen b, In b (virtual_bases c seen) -> In b seen \/ virtual_in c b.
Proof.
  induction c as [n bs ins F] using class_ind'. intros seen b. rewrite virtual_bases_fold.
  assert (G : forall l, (forall vb, In vb l -> In vb bs) -> forall seen, In b (fold_left vb_step l seen) -> In b seen \/ virtual_in (Class n bs ins) b).
  { induction l as [|[v d] l IH]; intros S sn I; [now left|]. cbn [fold_left] in I. apply IH in I; [|intros; apply S; now right].
    destruct I as [I|I]; [|now right]. unfold vb_step in I. cbn [fst snd] in I.
    rewrite Forall_forall in F. assert (B : In (v, d) bs) by (apply S; now left).
    assert (D : In b (virtual_bases d sn) -> In b sn \/ virtual_in (Class n bs ins) b).
    { intros J. apply (F _ B) in J. destruct J as [J|J]; [now left|]. right. now apply virtual_in_base with v d. }
    destruct (v && _) eqn:E; [|now apply D]. apply in_app_or in I. destruct I as [I|[<-|[]]]; [now apply D|].
    right. exists (Class n bs ins). split; [now left|]. apply andb_prop in E. destruct E as [-> _]. exact B. }
  apply G; easy.
Qed.
Lemma virtual_bases_complete c : forall seen b, virtual_in c b -> In (named b) (map named (virtual_bases c seen)).
Proof.
  induction c as [n bs ins F] using class_ind'. intros seen b V. rewrite virtual_bases_fold. apply virtual_in_cases in V.
  assert (K : forall l s x, In x (map named s) -> In x (map named (fold_left vb_step l s))).
  { intros l s x I. apply in_map_iff in I. destruct I as (y & <- & I). apply in_map. now apply fold_kept. }
  assert (G : forall l seen, (In (true, b) l \/ exists v d, In (v, d) l /\ virtual_in d b) -> (forall vb, In vb l -> In vb bs) -> In (named b) (map named (fold_left vb_step l seen))).
  { clear V seen. induction l as [|[v d] l IH]; intros sn V S; [destruct V as [[]|(? & ? & [] & _)]|]. cbn [fold_left].
    rewrite Forall_forall in F. assert (B : In (v, d) bs) by (apply S; now left).
    destruct V as [[E|V]|(v' & d' & [E|I] & V)].
    - injection E as -> ->. apply K. unfold vb_step. cbn [fst snd andb]. destruct existsb eqn:X; cbn [negb]; [now apply existsb_named in X|].
      rewrite map_app. apply in_or_app. right. now left.
    - apply IH; [now left | intros; apply S; now right].
    - injection E as -> ->. apply K. unfold vb_step. cbn [fst snd]. specialize (F _ B sn b V). cbn [snd] in F.
      destruct (_ && _); [|exact F]. rewrite map_app. apply in_or_app. now left.
    - apply IH; [right; eauto | intros; apply S; now right]. }
  now apply G.
Qed.
(** Every class comes after its own virtual base classes. *)
Definition in_order (l : list class) : Prop := forall l1 x l2, l = l1 ++ x :: l2 -> forall y, virtual_in x y -> In (named y) (map named l1).
Lemma in_order_snoc l b : in_order l -> (forall y, virtual_in b y -> In (named y) (map named l)) -> in_order (l ++ [b]).
Proof.
  intros O B l1 x l2 E y V. destruct l2 as [|z l2 _] using rev_ind.
  - apply app_inj_tail in E. destruct E as [-> ->]. now apply B.
  - rewrite app_comm_cons, app_assoc in E. apply app_inj_tail in E. destruct E as [-> _]. now apply (O l1 x l2 eq_refl).
Qed.
Lemma virtual_bases_in_order c : forall seen, in_order seen -> in_order (virtual_bases c seen).
Proof.
  induction c as [n bs ins F] using class_ind'. intros seen. rewrite virtual_bases_fold. revert seen.
  induction F as [|[v b] bs H F IH]; intros seen N; [exact N|]. cbn [fold_left]. apply IH. unfold vb_step. cbn [fst snd] in *.
  destruct (v && _); [|now apply H]. apply in_order_snoc; [now apply H|]. intros. now apply virtual_bases_complete.
Qed.

(** *** A base class that is always virtual. *)
Lemma shares_base r c v b : shares r c -> In (v, b) (bases_of c) -> (named b = named r -> v = true /\ b = r) /\ shares r b.
Proof. intros S. destruct S as [c S]. apply S. Qed.
Lemma shares_inherits r c d : shares r c -> inherits c d -> shares r d /\ (named d = named r -> d = r).
Proof.
  intros S I. induction I as [c v b B | c v e b B I IH].
  - destruct (shares_base _ _ _ _ S B) as [E X]. split; [exact X | intros; now apply E].
  - apply IH. now apply (shares_base _ _ _ _ S B).
Qed.
Lemma base_without r c i : shares r c -> named c <> named r -> Forall (fun e => fst e <> named r) (construct_base c i).
Proof.
  revert i. induction c as [n bs ins F] using class_ind'. intros i S N. rewrite construct_base_flat. apply Forall_app. split; [|constructor; [exact N | constructor]].
  apply Forall_flat_map. rewrite Forall_forall in *. intros [v b] B. cbn [fst snd]. destruct v; [constructor|].
  destruct (shares_base _ _ _ _ S B) as [E X]. apply (F _ B); [exact X|]. intros Q. cbn [snd] in Q. destruct (E Q) as [[=] _].
Qed.
Lemma base_leaf r i : Forall (fun vb : bool * class => fst vb = true) (bases_of r) -> construct_base r i = [(named r, i)].
Proof.
  destruct r as [n bs ins]. cbn [bases_of named]. intros F. rewrite construct_base_flat.
  replace (flat_map _ bs) with (@nil (name * identity)); [reflexivity|]. induction F as [|[v b] bs H F IH]; [reflexivity|].
  cbn in *. subst v. exact IH.
Qed.
Lemma filter_none {X} (f : X -> bool) l : Forall (fun e => f e = false) l -> filter f l = [].
Proof. induction 1 as [|x l H F IH]; [reflexivity|]. cbn. now rewrite H. Qed.
Lemma without_filter r l : Forall (fun e : name * identity => fst e <> r) l -> filter (fun e => name_eqb (fst e) r) l = [].
Proof. intros F. apply filter_none. eapply Forall_impl; [|exact F]. cbn. intros e H. destruct name_eqb eqn:E; [apply name_eqb_eq in E; contradiction | reflexivity]. Qed.
Lemma inherits_virtual r c : shares r c -> inherits c r -> virtual_in c r.
Proof.
  intros S I. remember r as b eqn:E in I. induction I as [c v b B | c v e b B I IH]; subst b.
  - destruct (shares_base _ _ _ _ S B) as [E _]. destruct (E eq_refl) as [-> _]. exists c. split; [now left | exact B].
  - apply virtual_in_base with v e; [exact B|]. apply IH; [|easy]. now apply (shares_base _ _ _ _ S B).
Qed.
Lemma virtual_inherits c b : virtual_in c b -> inherits c b.
Proof.
  intros (d & [<-|W] & B); [now apply inherits_direct with true|]. revert B. induction W as [c v e E | c v e f E W IH]; intros B.
  - apply inherits_indirect with v e; [exact E | now apply inherits_direct with true].
  - apply inherits_indirect with v e; [exact E | now apply IH].
Qed.

(** The constructors with the name of the shared base class that run: none but its own, once. *)
Definition only_virtual (r : class) : Prop := Forall (fun vb : bool * class => fst vb = true) (bases_of r).
Lemma virtual_part r c i l : shares r c -> only_virtual r -> (forall b, In b l -> virtual_in c b) -> NoDup (map named l) ->
  filter (fun e => name_eqb (fst e) (named r)) (flat_map (fun b => construct_base b (passed (inits_of c) (named b) i)) l) =
  if existsb (fun k => name_eqb (named k) (named r)) l then [(named r, passed (inits_of c) (named r) i)] else [].
Proof.
  intros S O V N. induction l as [|b l IH]; [reflexivity|]. cbn [flat_map existsb]. rewrite filter_app.
  inversion N as [|x y N1 N2]; subst. rewrite IH; [|intros; apply V; now right | easy].
  destruct (shares_inherits _ _ _ S (virtual_inherits _ _ (V b (or_introl eq_refl)))) as [Sb Eb].
  destruct (name_eqb (named b) (named r)) eqn:E.
  - apply name_eqb_eq in E. rewrite (Eb E). cbn [orb]. rewrite (Eb E) in N1. apply existsb_named_false in N1. rewrite N1, app_nil_r, (base_leaf r _ O).
    cbn [filter fst]. now rewrite name_eqb_refl.
  - cbn [orb]. rewrite without_filter; [reflexivity|]. apply base_without; [exact Sb|]. intros Q. apply name_eqb_eq in Q. congruence.
Qed.
Lemma shared_once r c i : shares r c -> only_virtual r -> named c <> named r ->
  filter (fun e => name_eqb (fst e) (named r)) (construct c i) =
  if existsb (fun k => name_eqb (named k) (named r)) (virtual_bases c []) then [(named r, passed (inits_of c) (named r) i)] else [].
Proof.
  intros S O N. unfold construct. rewrite filter_app, (virtual_part r c i _ S O).
  - rewrite without_filter, app_nil_r; [reflexivity | now apply base_without].
  - intros b I. apply virtual_bases_sound in I. destruct I as [[]|I]; exact I.
  - apply virtual_bases_nodup. constructor.
Qed.
Lemma shared_present r c : shares r c -> (existsb (fun k => name_eqb (named k) (named r)) (virtual_bases c []) = true <-> inherits c r).
Proof.
  intros S. rewrite existsb_named. split; intros I.
  - apply in_map_iff in I. destruct I as (b & E & I). apply virtual_bases_sound in I. destruct I as [[]|I].
    apply virtual_inherits in I. destruct (shares_inherits _ _ _ S I) as [_ X]. now rewrite (X E) in I.
  - apply virtual_bases_complete. now apply inherits_virtual.
Qed.
Lemma passed_handed ins r i : In (r, true) ins -> passed ins r i = i.
Proof. intros I. unfold passed. replace (existsb _ ins) with true; [reflexivity|]. symmetry. apply existsb_exists. exists (r, true). cbn. now rewrite name_eqb_refl. Qed.
Lemma passed_not ins r i : ~ In (r, true) ins -> passed ins r i = [].
Proof.
  intros I. unfold passed. destruct existsb eqn:E; [|reflexivity]. apply existsb_exists in E. destruct E as ([b t] & J & E). cbn in E.
  apply andb_prop in E. destruct E as [E ->]. apply name_eqb_eq in E. subst b. contradiction.
Qed.
Lemma shared_identity r c i : shares r c -> only_virtual r -> named c <> named r -> inherits c r ->
  identities (named r) c i = [passed (inits_of c) (named r) i].
Proof. intros S O N I. unfold identities. rewrite (shared_once r c i S O N). apply (shared_present _ _ S) in I. now rewrite I. Qed.

Lemma line_parts r c : line r c -> bases_of r = [] -> forall i, virtual_bases c [] = [] /\ map snd (filter (fun e => name_eqb (fst e) (named r)) (construct_base c i)) = [i].
Proof.
  intros L B. destruct r as [rn rb ri]. cbn [bases_of] in B. subst rb. induction L as [n ins b -> N H | n ins b N1 N H L IH]; intros i.
  - split; [reflexivity|]. rewrite construct_base_flat. cbn [flat_map fst snd construct_base]. cbn [app named filter fst].
    rewrite name_eqb_refl. replace (name_eqb n rn) with false; [cbn; now rewrite passed_handed|]. symmetry. destruct name_eqb eqn:E; [apply name_eqb_eq in E; contradiction | easy].
  - specialize (IH i). destruct IH as [V E]. split.
    + rewrite virtual_bases_fold. cbn [fold_left]. unfold vb_step. cbn [fst snd andb]. exact V.
    + rewrite construct_base_flat. cbn [flat_map fst snd]. rewrite passed_handed by exact H. rewrite app_nil_r, filter_app, map_app, E.
      cbn [filter fst]. replace (name_eqb n (named (Class rn [] ri))) with false; [reflexivity|]. symmetry. destruct name_eqb eqn:Q; [apply name_eqb_eq in Q; contradiction | easy].
Qed.
Lemma line_identity r c i : line r c -> bases_of r = [] -> identities (named r) c i = [i].
Proof. intros L B. destruct (line_parts r c L B i) as [V E]. unfold identities, construct. now rewrite V. Qed.
