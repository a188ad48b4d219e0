(** Property theorems C07-C10. *)
From Verif Require Import Base Text Identity Identity_spec Identity_proofs.

(** C07 *)
Theorem C07_identity_total_order :
  (forall a, id_ltb a a = false) /\
  (forall a b c, id_ltb a b = true -> id_ltb b c = true -> id_ltb a c = true) /\
  (forall a b, (id_ltb a b = true /\ a <> b /\ id_ltb b a = false) \/
               (id_ltb a b = false /\ a = b /\ id_ltb b a = false) \/
               (id_ltb a b = false /\ a <> b /\ id_ltb b a = true)) /\
  (forall a b, id_eqb a b = true <-> a = b) /\
  (forall a b,
    (id_leb a b = true <-> id_ltb a b = true \/ a = b) /\
    (id_gtb a b = true <-> id_ltb b a = true) /\
    (id_geb a b = true <-> id_ltb b a = true \/ a = b) /\
    (id_leb a b = negb (id_gtb a b))).
Proof. exact id_total_order. Qed.
Print Assumptions C07_identity_total_order.
(** A parent precedes its descendants, and whatever lies between a parent and one of its
    descendants is itself a descendant (families are contiguous). *)
Theorem C07_families_contiguous : forall a,
  (forall ds, ds <> [] -> id_ltb a (a ++ ds) = true) /\
  (forall b c, descends a b -> id_ltb a c = true -> id_ltb c b = true -> descends a c).
Proof. exact id_family. Qed.
Print Assumptions C07_families_contiguous.
Example C07_case : id_ltb [1;2] [1;2;0] = true /\ id_ltb [1;2;9;9] [1;3] = true /\ id_ltb [2] [10] = true.
Proof. vm_compute. auto. Qed.

(** C08: histories of creations by any entity of the growing tree. *)
Theorem C08_fresh_identities : forall root os,
  Z.of_nat (length os) < W64 -> only_creates os ->
  let ids := snd (id_run [new_entity root] os) in
  NoDup (root :: ids) /\
  (forall k i, nth_error ids k = Some i ->
     exists parent d, In parent (root :: firstn k ids) /\ i = parent ++ [d]).
Proof. exact creations_fresh. Qed.
Print Assumptions C08_fresh_identities.
(** The [j]-th creation, by entity [k], returns the digits of entity [k] followed by the
    number of children entity [k] had created before. *)
Theorem C08_exact_identities : forall root os,
  Z.of_nat (length os) < W64 -> valid_creates os ->
  let ids := snd (id_run [new_entity root] os) in
  length ids = length os /\
  forall j k, nth_error os j = Some (Create k) ->
    exists creator, nth_error (root :: ids) k = Some creator /\
      nth_error ids j = Some (creator ++ [times_creator k (firstn j os)]).
Proof. exact creations_exact. Qed.
Print Assumptions C08_exact_identities.
Example C08_case :
  let os := [Create 0; Create 0; Create 1; Create 3; Create 1] in
  snd (id_run [new_entity [5]] os) = [[5;0];[5;1];[5;0;0];[5;0;0;0];[5;0;1]] /\ only_creates os.
Proof. split; [reflexivity|]. repeat constructor. Qed.

(** C09: with agent copies the claim fails; C08 is the positive statement for histories
    without copies. *)
Theorem C09_copies_refuted : exists os, ~ NoDup (snd (id_run [new_entity [7]] os)).
Proof. exact creations_copy_dup. Qed.
Print Assumptions C09_copies_refuted.
(** Every copy of an agent that has created something creates an identity that exists already: the
    copy starts again with the first child. *)
Theorem C09_copy_starts_again : forall root os k,
  Z.of_nat (length os) < W64 -> valid_creates os -> (k <= length os)%nat ->
  exists creator, nth_error (root :: snd (id_run [new_entity root] os)) k = Some creator /\
    snd (id_run [new_entity root] (os ++ [CopyAgent k; Create (S (length os))])) =
    snd (id_run [new_entity root] os) ++ [creator ++ [0]].
Proof. exact copy_exact. Qed.
Print Assumptions C09_copy_starts_again.
Theorem C09_every_copy_collides_refuted : forall root os k,
  Z.of_nat (length os) < W64 -> valid_creates os -> In (Create k) os ->
  ~ NoDup (snd (id_run [new_entity root] (os ++ [CopyAgent k; Create (S (length os))]))).
Proof. exact copy_collides. Qed.
Print Assumptions C09_every_copy_collides_refuted.
(** A copy made by the copy constructor of entities goes on counting where the original was: the next child of both is the same, whatever was created before. *)
Theorem C09_entity_copy_refuted : forall e, fst (create (copy_entity e)) = fst (create e) /\ fst (create (snd (create (copy_entity e)))) = fst (create (snd (create e))).
Proof. intros e. split; reflexivity. Qed.
Print Assumptions C09_entity_copy_refuted.
Example C09_copy_case : valid_creates [Create 0; Create 1] /\
  snd (id_run [new_entity [7]] ([Create 0; Create 1] ++ [CopyAgent 1; Create 3])) = [[7;0]; [7;0;0]; [7;0;0]].
Proof.
  split; [|reflexivity]. intros [|[|j]] o; cbn; [intros [= <-]; exists 0%nat|intros [= <-]; exists 1%nat|destruct j; discriminate]; split; auto.
Qed.
Example C09_case : snd (id_run [new_entity [7]] [CopyAgent 0; Create 0; Create 1]) = [[7;0];[7;0]].
Proof. reflexivity. Qed.

(** C10: the printed form can be read back, whatever padding widths were used. *)
Theorem C10_print_reads_back : forall w i, Forall u64 i -> read_identity (id_print w i) = i.
Proof. exact read_print. Qed.
Print Assumptions C10_print_reads_back.
Theorem C10_print_injective : forall w w' i j, Forall u64 i -> Forall u64 j ->
  id_print w i = id_print w' j -> i = j.
Proof. exact print_injective. Qed.
Print Assumptions C10_print_injective.
Example C10_case : id_print 3 [7; 1234; 0] = [34; 48;48;55; 45; 49;50;51;52; 45; 48;48;48; 34]
  /\ Forall u64 [7; 1234; 0].
Proof. split; [reflexivity|]. repeat constructor; vm_compute; congruence. Qed.
