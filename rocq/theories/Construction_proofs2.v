From Coq Require Import Lia.
From Verif Require Import Base Identity Quantity Inventory Inventory_spec Inventory_proofs Construction Construction_spec Construction_proofs.

Lemma shares_leaf r c : bases_of c = [] -> shares r c.
Proof. intros E. constructor. rewrite E. intros v b []. Qed.
Section Library.
Context (r : class) (R : is_role r).
Lemma shares_agent : shares r agent. Proof. now apply shares_leaf. Qed.
Lemma role_named b : is_role b -> named b = named r -> b = r.
Proof. destruct R as [->|[->|[k ->]]], 1 as [->|[->|[j ->]]]; cbn; intros E; try discriminate; try reflexivity. now injection E as ->. Qed.
Lemma shares_owner : shares r owner.
Proof. constructor. intros v b [E|[]]. injection E as <- <-. split; [|exact shares_agent]. intros Q. split; [reflexivity|]. apply role_named; [now left | exact Q]. Qed.
Lemma shares_owner_of k : shares r (owner_of k).
Proof. constructor. intros v b [E|[]]. injection E as <- <-. split; [|exact shares_owner]. intros Q. split; [reflexivity|]. apply role_named; [right; now left | exact Q]. Qed.
Lemma made_role b : made_from_library b -> named b = named r -> is_role b.
Proof.
  intros M E. inversion M as [c I|k|n bs ins H]; subst.
  - unfold library_agents in I. cbn [In] in I. destruct R as [->|[->|[j ->]]]; decompose [or] I; subst; cbn in E; try discriminate; try contradiction; [now left | right; now left].
  - right. right. now exists k.
  - destruct R as [->|[->|[j ->]]]; discriminate.
Qed.
Lemma shares_list n l ins : (forall v b, In (v, b) l -> shares r b /\ (named b = named r -> v = true /\ is_role b)) -> shares r (Class n l ins).
Proof. intros H. constructor. cbn. intros v b I. destruct (H v b I) as [S E]. split; [|exact S]. intros Q. destruct (E Q) as [-> X]. split; [reflexivity | now apply role_named]. Qed.
Ltac user_shares := apply shares_list; intros v b J; cbn [In] in J;
  repeat match type of J with _ \/ _ => destruct J as [J|J] | False => destruct J | (_, _) = _ => injection J as <- <- end;
  (split; [auto | intros Q; first [solve [split; [reflexivity | unfold is_role; eauto]] | exfalso; destruct R as [->|[->|[? ->]]]; cbn in Q; discriminate]]).
Lemma shares_legal_person : shares r legal_person.
Proof. pose proof shares_agent. pose proof shares_owner. unfold legal_person. user_shares. Qed.
Lemma shares_organization : shares r organization.
Proof. pose proof shares_legal_person. unfold organization. user_shares. Qed.
Lemma shares_debtor : shares r debtor.
Proof. pose proof shares_legal_person. unfold debtor. user_shares. Qed.
Lemma shares_shareholder : shares r shareholder.
Proof. pose proof shares_owner_of. unfold shareholder. user_shares. Qed.
Lemma shares_bondholder : shares r bondholder.
Proof. pose proof shares_owner_of. unfold bondholder. user_shares. Qed.
Lemma shares_company : shares r company.
Proof. pose proof shares_organization. pose proof shares_shareholder. pose proof shares_bondholder. unfold company. user_shares. Qed.
Lemma shares_market : shares r market.
Proof. pose proof shares_agent. unfold market. user_shares. Qed.
Lemma made_shares c : made_from_library c -> shares r c.
Proof.
  revert c. refine (class_ind' _ _). intros n bs ins F M. inversion M as [c I|k|m bs' ins' H]; subst.
  - unfold library_agents in I. cbn [In] in I. pose proof shares_market as SM. decompose [or] I; try contradiction;
      try match goal with E : _ = Class n bs ins |- _ => rewrite <- E end;
      auto using shares_agent, shares_owner, shares_legal_person, shares_organization, shares_debtor, shares_shareholder, shares_bondholder, shares_company.
    all: first [unfold price_setter | unfold exchange | unfold impact_market]; user_shares.
  - apply shares_owner_of.
  - apply shares_list. intros v b I. destruct (H v b I) as [Mb V]. rewrite Forall_forall in F. split; [now apply (F _ I)|].
    intros Q. pose proof (made_role b Mb Q). split; [now apply V | easy].
Qed.
Lemma role_only_virtual : only_virtual r.
Proof. destruct R as [->|[->|[k ->]]]; repeat constructor. Qed.
End Library.

(** *** Handlers. *)
Definition handler_of (e : name * identity) : list (option nat) := match fst e with Owner => [None] | OwnerOf k => [Some k] | _ => [] end.
Definition handler_name (h : option nat) : name := match h with None => Owner | Some k => OwnerOf k end.
Definition handler_class (h : option nat) : class := match h with None => owner | Some k => owner_of k end.
Lemma handler_role h : is_role (handler_class h).
Proof. destruct h as [k|]; [right; right; now exists k | right; now left]. Qed.
Lemma handler_named h : named (handler_class h) = handler_name h. Proof. now destruct h. Qed.
Lemma handler_eq_dec (a b : option nat) : {a = b} + {a <> b}. Proof. decide equality. apply Nat.eq_dec. Defined.
Lemma handler_count ev h : count_occ handler_eq_dec (flat_map handler_of ev) h = length (filter (fun e => name_eqb (fst e) (handler_name h)) ev).
Proof.
  induction ev as [|[n i] ev IH]; [reflexivity|]. cbn [flat_map filter fst]. rewrite count_occ_app, IH. unfold handler_of. cbn [fst].
  destruct n; cbn [count_occ]; try (replace (name_eqb _ (handler_name h)) with false by (destruct h; reflexivity); reflexivity).
  - destruct h; [now cbn|]. cbn. reflexivity.
  - destruct h as [j|]; [|now cbn]. cbn [handler_name]. destruct handler_eq_dec as [E|E].
    + injection E as ->. rewrite name_eqb_refl. reflexivity.
    + replace (name_eqb _ _) with false; [reflexivity|]. symmetry. destruct name_eqb eqn:Q; [|easy]. apply name_eqb_eq in Q. congruence.
Qed.
Lemma made_named h c : made_from_library c -> named c = handler_name h -> c = handler_class h.
Proof.
  intros M E. rewrite <- handler_named in E. apply (role_named _ (handler_role h)); [|exact E]. now apply (made_role _ (handler_role h)).
Qed.
Lemma made_count c i h : made_from_library c ->
  count_occ handler_eq_dec (handlers c i) h = (if name_eq_dec (named c) (handler_name h) then 1 else if existsb (fun k => name_eqb (named k) (handler_name h)) (virtual_bases c []) then 1 else 0)%nat.
Proof.
  intros M. unfold handlers. rewrite count_occ_rev. change (fun e => match fst e with Owner => [None] | OwnerOf k => [Some k] | _ => [] end) with handler_of.
  rewrite handler_count. destruct name_eq_dec as [E|E].
  - rewrite (made_named h c M E). unfold construct. destruct h as [k|]; cbn [handler_class]; cbn; [|reflexivity].
    unfold name_eqb at 1. now destruct name_eq_dec.
  - rewrite <- handler_named in *. rewrite (shared_once _ c i); [now destruct existsb | apply made_shares; [apply handler_role | exact M] | apply role_only_virtual, handler_role | exact E].
Qed.
Lemma handlers_nodup c i : made_from_library c -> NoDup (handlers c i).
Proof.
  intros M. apply (NoDup_count_occ handler_eq_dec). intros h. rewrite made_count by exact M. destruct name_eq_dec; [lia|]. destruct existsb; lia.
Qed.
Lemma handlers_in c i h : made_from_library c -> (In h (handlers c i) <-> c = handler_class h \/ inherits c (handler_class h)).
Proof.
  intros M. rewrite (count_occ_In handler_eq_dec), made_count by exact M.
  pose proof (shared_present _ c (made_shares _ (handler_role h) c M)) as P. rewrite handler_named in P.
  destruct name_eq_dec as [E|E].
  - split; [intros _; left; now apply made_named | lia].
  - destruct existsb.
    + split; [intros _; right; now apply P | lia].
    + split; [lia|]. intros [->|I]; [destruct h; contradiction | apply P in I; discriminate].
Qed.
(** The handler of all property is registered before the others. *)
Lemma owner_virtual k : virtual_in (owner_of k) owner.
Proof. exists (owner_of k). split; [now left | now left]. Qed.
Lemma no_handler_of c i : made_from_library c -> (forall k, named c <> OwnerOf k) -> named c <> Owner -> flat_map handler_of (construct_base c i) = [].
Proof.
  intros M N1 N2. assert (H : forall h, Forall (fun e => fst e <> handler_name h) (construct_base c i)).
  { intros h. rewrite <- handler_named. apply base_without; [apply made_shares; [apply handler_role | exact M]|]. rewrite handler_named. destruct h; cbn; auto. }
  destruct (flat_map handler_of (construct_base c i)) as [|h l] eqn:E; [reflexivity|]. exfalso.
  specialize (H h). apply without_filter in H.
  pose proof (handler_count (construct_base c i) h) as Q. rewrite H, E in Q. cbn in Q. destruct handler_eq_dec; [discriminate | contradiction].
Qed.
Lemma made_inherits c b : made_from_library c -> inherits c b -> made_from_library b.
Proof.
  intros M I. induction I as [c v b B | c v e b B I IH].
  - inversion M as [d D|k|n bs ins H]; subst; [|cbn in B; destruct B as [B|[]]; injection B as <- <-; apply made_library; now right; left | now apply (H v b B)].
    unfold library_agents in D. cbn [In] in D. decompose [or] D; subst; cbn in B; try contradiction;
    repeat match type of B with _ \/ _ => destruct B as [B|B] | False => destruct B | (_, _) = _ => injection B as <- <- end; try contradiction;
    try apply made_owner; apply made_library; cbn; tauto.
  - apply IH. clear IH I b. inversion M as [d D|k|n bs ins H]; subst; [|cbn in B; destruct B as [B|[]]; injection B as <- <-; apply made_library; now right; left | now apply (H v e B)].
    unfold library_agents in D. cbn [In] in D. decompose [or] D; subst; cbn in B; try contradiction;
    repeat match type of B with _ \/ _ => destruct B as [B|B] | False => destruct B | (_, _) = _ => injection B as <- <- end; try contradiction;
    try apply made_owner; apply made_library; cbn; tauto.
Qed.
Lemma owner_first c i : made_from_library c -> c = owner \/ inherits c owner -> exists l, flat_map handler_of (construct c i) = None :: l.
Proof.
  intros M [->|I]; [eexists; reflexivity|].
  pose proof (shared_present _ c (made_shares _ (handler_role None) c M)) as P. apply P in I. apply existsb_named in I. apply in_map_iff in I. destruct I as (o & E & I).
  assert (V : forall b, In b (virtual_bases c []) -> virtual_in c b) by (intros b B; apply virtual_bases_sound in B; destruct B as [[]|B]; exact B).
  pose proof (V _ I) as Vo. apply virtual_inherits in Vo. pose proof (made_inherits _ _ M Vo) as Mo. apply (made_named None) in E; [|exact Mo]. cbn in E. subst o.
  apply in_split in I. destruct I as (l1 & l2 & E). unfold construct. rewrite E.
  pose proof (virtual_bases_in_order c [] ltac:(intros [|] ? ?; discriminate)) as O. pose proof (virtual_bases_nodup c [] ltac:(constructor)) as N. rewrite E in O, N, V.
  set (g := fun b => construct_base b (passed (inits_of c) (named b) i)).
  replace (flat_map g (l1 ++ owner :: l2)) with (flat_map g l1 ++ construct_base owner (passed (inits_of c) (named owner) i) ++ flat_map g l2)
    by (now rewrite (flat_map_app g)).
  rewrite !flat_map_app.
  assert (Z : flat_map handler_of (flat_map g l1) = []).
  { assert (G : forall b, In b l1 -> flat_map handler_of (construct_base b (passed (inits_of c) (named b) i)) = []).
    { intros b B. pose proof (virtual_inherits _ _ (V b ltac:(apply in_or_app; now left))) as Ib. pose proof (made_inherits _ _ M Ib) as Mb. apply no_handler_of; [exact Mb | |].
      - intros k Q. apply (made_named (Some k)) in Q; [|exact Mb]. cbn in Q. subst b. apply in_split in B. destruct B as (a & b & ->).
        assert (J : In (named owner) (map named a)) by (apply (O a (owner_of k) (b ++ owner :: l2)); [now rewrite <- app_assoc | apply owner_virtual]).
        rewrite !map_app in N. cbn [map] in N. rewrite <- app_assoc in N. cbn [app] in N.
        clear - N J. induction a as [|x a IH]; cbn in *; [destruct J|]. inversion N; subst. destruct J as [J|J]; [|now apply IH].
        apply H1. rewrite J. rewrite !in_app_iff. cbn. rewrite in_app_iff. cbn. tauto.
      - intros Q. apply (made_named None) in Q; [|exact Mb]. cbn in Q. subst b.
        rewrite map_app in N. cbn [map] in N. apply NoDup_remove_2 in N. apply N. apply in_or_app. left. now apply in_map. }
    clear - G. induction l1 as [|b l IH]; [reflexivity|]. cbn [flat_map]. rewrite flat_map_app. fold (g b) in *. unfold g at 1. rewrite (G b) by now left. apply IH. intros. apply G. now right. }
  rewrite Z. cbn. eexists. reflexivity.
Qed.
