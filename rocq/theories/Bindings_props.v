(** Property theorems C154-C166: the Python interface. *)
From Coq Require Import String SpecFloat.
From Verif Require Import Base Text Interval Identity Identity_proofs IdMap IdMap_proofs Multimap Money Codes Outputs Communicator Simulation Simulation_spec
  Distributed_proofs StaticTicks Company Bindings Bindings_spec Bindings_proofs.
From Coq Require Import ZifyBool ZifyNat.
Local Open Scope Z_scope.

(** C154.  Messages logged from Python at the two lowest levels are recorded with their level and place. *)
Theorem C154_low release level message file line g : l_held g = false -> level = 0 \/ level = 1 -> 0 <= line < 2 ^ 32 ->
  match python_log release 0 level message file line g with
  | Ret g' => l_buffer g' = l_buffer g ++ codes "(" ++ codes (if level =? 0 then "trace" else "notice") ++ codes ", " ++ shown_path file ++
                codes "[" ++ dec line ++ codes "]) " ++ message ++ [10] /\ l_held g' = false
  | _ => False
  end.
Proof.
  intros H L B. destruct g as [b t held]. cbn in H. subst held.
  assert (W : w32 line = line) by (unfold w32; rewrite Z.mod_small; [reflexivity|exact B]).
  destruct L as [-> | ->].
  - rewrite (python_log_buffer release 0 0) by (reflexivity || lia). cbn [l_buffer l_held]. rewrite W. split; [|reflexivity]. unfold log_prefix. rewrite <- !app_assoc. reflexivity.
  - rewrite (python_log_buffer release 1 1) by (reflexivity || lia). cbn [l_buffer l_held]. rewrite W. split; [|reflexivity]. unfold log_prefix. rewrite <- !app_assoc. reflexivity.
Qed.
Print Assumptions C154_low.
(** Warnings and errors are recorded as notices. *)
Theorem C154_refuted release level message file line g : l_held g = false -> level = 2 \/ level = 3 ->
  python_log release 0 level message file line g = python_log release 0 1 message file line g /\
  match python_log release 0 level message file line g with
  | Ret g' => exists rest, l_buffer g' = l_buffer g ++ codes "(notice, " ++ rest
  | _ => False
  end.
Proof.
  intros H L. destruct g as [b t held]. cbn in H. subst held. split.
  - destruct L as [-> | ->]; reflexivity.
  - assert (P : python_level level = Some 1) by (destruct L as [-> | ->]; reflexivity). rewrite (python_log_buffer release level 1) by (assumption || lia). cbn [l_buffer].
    unfold log_prefix. rewrite <- !app_assoc. eexists. f_equal. change (codes "(notice, ") with (codes "(" ++ severity_name 1 ++ codes ", "). rewrite <- !app_assoc. reflexivity.
Qed.
Print Assumptions C154_refuted.
(** In a release nothing that is logged from Python is recorded, whatever its level, errors included; what C++ logs at those levels is. *)
Theorem C154_release_refuted level message file line g : l_held g = false ->
  python_log true (main_filter true) level message file line g = Ret g /\
  (level = 2 \/ level = 3 -> log_message true (main_filter true) level message g <> Ret g).
Proof.
  intros H. destruct g as [b t held]. cbn in H. subst held. split.
  - unfold python_log, python_level. destruct (level =? 0); [reflexivity|]. destruct (level =? 1); [reflexivity|]. destruct (level =? 2); [reflexivity|]. destruct (level =? 3); reflexivity.
  - intros [-> | ->]; cbn; intros [= E]; apply (f_equal (@List.length Z)) in E; rewrite !app_length in E; cbn in E; lia.
Qed.
Print Assumptions C154_release_refuted.
(** The path shown: after the last directory whose name ends in esl, or the name of the file. *)
Theorem C154_path a b :
  (~ occurs (codes "esl/") b -> shown_path (a ++ codes "esl/" ++ b) = b) /\
  (~ occurs (codes "esl/") (a ++ codes "/" ++ b) -> ~ In 47 b -> shown_path (a ++ codes "/" ++ b) = b) /\
  (~ In 47 b -> shown_path b = b).
Proof. split; [apply shown_library|]. split; [apply shown_other|apply shown_plain]. Qed.
Print Assumptions C154_path.
Example C154_case : shown_path (codes "/home/user/esl/esl/data/log.hpp") = codes "data/log.hpp" /\ shown_path (codes "/tmp/model.py") = codes "model.py" /\
  python_log true 0 3 (codes "bad") (codes "/tmp/model.py") 12 (mk_logs [] [] false) = Ret (mk_logs (codes "(notice, model.py[12]) bad" ++ [10]) [] false).
Proof. repeat split. Qed.

(** C155.  The code of a country is shown in full; two countries with the same code in Python are the same. *)
Theorem C155_country a b : List.length a = 2%nat -> List.length b = 2%nat -> python_country_code a = a /\ (python_country_code a = python_country_code b -> a = b).
Proof.
  intros A B. destruct a as [|x [|y [|]]]; try discriminate. destruct b as [|x' [|y' [|]]]; try discriminate. split; [reflexivity|]. cbn. exact (fun H => H).
Qed.
Print Assumptions C155_country.
(** The code of a currency loses its last letter: never the code, and currencies of the library become the same. *)
Theorem C155_currency_refuted c : python_currency_code c <> [c0 c; c1 c; c2 c] /\ [c0 c; c1 c; c2 c] = python_currency_code c ++ [c2 c].
Proof. split; [discriminate|reflexivity]. Qed.
Print Assumptions C155_currency_refuted.
Theorem C155_confused_refuted : exists a b, In a ["CHE"; "CHF"; "CHW"]%string /\ In b ["CHE"; "CHF"; "CHW"]%string /\
  ccy_eqb (currency_constant a) (currency_constant b) = false /\ python_currency_code (currency_constant a) = python_currency_code (currency_constant b).
Proof. exists "CHE"%string, "CHF"%string. split; [cbn; tauto|]. split; [cbn; tauto|]. split; vm_compute; reflexivity. Qed.
Print Assumptions C155_confused_refuted.
Example C155_case : python_currency_code (currency_constant "USD") = codes "US" /\ python_country_code (codes "GB") = codes "GB".
Proof. split; vm_compute; reflexivity. Qed.

(** C156.  The constants in Python: each has the name of the constant of the library that it is given. *)
Theorem C156_names :
  (forall n c, In (n, c) python_currencies -> n = c) /\ (forall n c, In (n, c) python_countries -> n = c) /\ (forall n c, In (n, c) python_jurisdictions -> n = c).
Proof.
  assert (G : forall l : list (string * string), forallb (fun e => String.eqb (fst e) (snd e)) l = true -> forall n c, In (n, c) l -> n = c).
  { intros l H n c I. rewrite forallb_forall in H. specialize (H _ I). cbn in H. now apply String.eqb_eq in H. }
  split; [|split]; apply G; vm_compute; reflexivity.
Qed.
Print Assumptions C156_names.
(** All currencies, and all jurisdictions, are there, once. *)
Theorem C156_complete :
  map fst python_currencies = map fst currency_constants /\ NoDup (map fst python_currencies) /\
  (forall n, In n (map fst jurisdiction_constants) -> In n (map fst python_jurisdictions)) /\ NoDup (map fst python_jurisdictions) /\ NoDup (map fst python_countries).
Proof.
  assert (D : forall l : list string, (fix d (l : list string) := match l with [] => true | x :: l' => if existsb (String.eqb x) l' then false else d l' end) l = true -> NoDup l).
  { induction l as [|x l IH]; intros H; [constructor|]. destruct (existsb (String.eqb x) l) eqn:E; [discriminate|]. constructor; [|now apply IH].
    intros I. assert (existsb (String.eqb x) l = true) by (apply existsb_exists; exists x; split; [exact I|apply String.eqb_refl]). congruence. }
  split; [vm_compute; reflexivity|]. split; [apply D; vm_compute; reflexivity|]. split; [|split; apply D; vm_compute; reflexivity].
  intros n I. assert (A : forallb (fun x => existsb (String.eqb x) (map fst python_jurisdictions)) (map fst jurisdiction_constants) = true) by (vm_compute; reflexivity).
  rewrite forallb_forall in A. specialize (A n I). apply existsb_exists in A. destruct A as (y & Iy & E). apply String.eqb_eq in E. subst y. exact Iy.
Qed.
Print Assumptions C156_complete.
(** One country is missing in Python, and one name, of a country and of a jurisdiction, is given a constant that the library does not define: the module can not be compiled. *)
Theorem C156_refuted :
  (forall n, In n (map fst country_constants) -> (In n (map fst python_countries) <-> n <> "AD"%string)) /\
  (forall c, In c (map snd python_countries) -> (~ In c (map fst country_constants) <-> c = "IN"%string)) /\
  (forall c, In c (map snd python_jurisdictions) -> (~ In c (map fst jurisdiction_constants) <-> c = "IN"%string)) /\
  In "AD"%string (map fst country_constants) /\ In "IN"%string (map snd python_countries) /\ In "IN"%string (map snd python_jurisdictions).
Proof.
  set (mem := fun (l : list string) x => existsb (String.eqb x) l).
  assert (M : forall l x, mem l x = true <-> In x l).
  { intros l x. unfold mem. rewrite existsb_exists. split; [intros (y & I & E); apply String.eqb_eq in E; now subst|intros I; exists x; split; [exact I|apply String.eqb_refl]]. }
  assert (G : forall (l l' : list string) (y : string), forallb (fun x => Bool.eqb (mem l' x) (negb (String.eqb x y))) l = true -> forall x, In x l -> (In x l' <-> x <> y)).
  { intros l l' y H x I. rewrite forallb_forall in H. specialize (H x I). cbn in H. apply Bool.eqb_prop in H. rewrite <- M, H, negb_true_iff. split.
    - intros E ->. rewrite String.eqb_refl in E. discriminate.
    - intros N. now apply String.eqb_neq. }
  assert (N : forall (l l' : list string) (y : string), forallb (fun x => Bool.eqb (mem l' x) (negb (String.eqb x y))) l = true -> forall x, In x l -> (~ In x l' <-> x = y)).
  { intros l l' y H x I. rewrite (G l l' y H x I). split; [|intros -> X; now apply X]. intros X. destruct (string_dec x y) as [E|E]; [exact E|]. exfalso. exact (X E). }
  split; [apply G; vm_compute; reflexivity|]. split; [apply N; vm_compute; reflexivity|]. split; [apply N; vm_compute; reflexivity|].
  split; [apply M; vm_compute; reflexivity|]. split; apply M; vm_compute; reflexivity.
Qed.
Print Assumptions C156_refuted.
Example C156_case : In ("USD", "USD")%string python_currencies /\ List.length python_countries = 248%nat.
Proof. split; [|reflexivity]. assert (E : find (fun e => String.eqb (fst e) "USD") python_currencies = Some ("USD", "USD")%string) by (vm_compute; reflexivity).
  apply find_some in E. apply E. Qed.

(** C157.  A number given as a constant parameter is read back as the same number; other parameters stay. *)
Theorem C157_numbers name v m m' : im_sorted m -> number v <> None -> add_constant name v m = Ret m' ->
  (exists v', get_item name m' = Ret v' /\ number v' = number v) /\ forall other, other <> name -> get_item other m' = get_item other m.
Proof.
  intros S N H. destruct (add_constant_spec name v m S) as [A B].
  assert (F : fits_constant v). { destruct v; cbn in *; try exact I; try congruence; unfold add_constant, make_constant, make_int64, make_uint64, in_i64 in H; destruct (_ && _) eqn:E in H; try discriminate; lia. }
  destruct (A F) as (p & E & P). rewrite E in H. injection H as <-. split.
  - unfold get_item. rewrite im_find_set, id_eqb_refl by exact S. destruct v; try congruence; try contradiction; subst p; cbn; eauto.
  - intros other O. unfold get_item. rewrite im_find_set, id_eqb_neq by (assumption || congruence). reflexivity.
Qed.
Print Assumptions C157_numbers.
(** It is accepted exactly when it fits; what does not is reported. *)
Theorem C157_accepted name v m : im_sorted m -> (fits_constant v -> exists m', add_constant name v m = Ret m' /\ im_sorted m') /\ (~ fits_constant v -> add_constant name v m = Throw).
Proof.
  intros S. destruct (add_constant_spec name v m S) as [A B]. split; [|exact B]. intros F. destruct (A F) as (p & E & _). eexists. split; [exact E|]. now apply im_set_sorted.
Qed.
Print Assumptions C157_accepted.
(** A price is accepted and can never be read. *)
Theorem C157_price_refuted name p m : im_sorted m -> exists m', add_constant name (PPrice p) m = Ret m' /\ get_item name m' = Throw.
Proof. intros S. eexists. split; [reflexivity|]. unfold get_item. now rewrite im_find_set, id_eqb_refl by exact S. Qed.
Print Assumptions C157_price_refuted.
(** A name that was never added is reported. *)
Theorem C157_missing name m : im_sorted m -> ~ In name (map fst m) -> get_item name m = Throw.
Proof. intros S H. unfold get_item. apply im_find_none in H; [|exact S]. now rewrite H. Qed.
Print Assumptions C157_missing.
Lemma defaults_sorted r : im_sorted (default_parameters r).
Proof. unfold default_parameters. repeat (apply im_set_sorted). constructor. Qed.
Example C157_case : im_sorted (default_parameters false) /\
  match add_constant (codes "tau") (PInt 50) (default_parameters false) with Ret m => get_item (codes "tau") m = Ret (PInt 50) /\ get_item (codes "end") m = Ret (PInt 1) | _ => False end /\
  add_constant (codes "tau") (PInt (2 ^ 63)) (default_parameters false) = Throw.
Proof. split; [apply defaults_sorted|]. repeat split. Qed.

(** C158.  A model made in Python takes its settings from unsigned numbers, as numpy has them. *)
Theorem C158_unsigned n : 0 <= n < 2 ^ 64 -> forall r,
  bind (add_constant (codes "end") (PNumpyUnsigned n) (default_parameters r)) python_model = Ret (mk_times 0 n 0 0 (if r then 0 else 1) 1) /\
  bind (add_constant (codes "start") (PNumpyUnsigned n) (default_parameters r)) python_model = Ret (mk_times n 1 n 0 (if r then 0 else 1) 1) /\
  bind (add_constant (codes "sample") (PNumpyUnsigned n) (default_parameters r)) python_model = Ret (mk_times 0 1 0 n (if r then 0 else 1) 1) /\
  bind (add_constant (codes "threads") (PNumpyUnsigned n) (default_parameters r)) python_model = Ret (mk_times 0 1 0 0 (if r then 0 else 1) (Z.max 1 n)).
Proof.
  intros B r. unfold add_constant, make_constant, make_uint64. destruct (_ && _) eqn:E; [|lia]. cbn [bind]. destruct r; repeat split.
Qed.
Print Assumptions C158_unsigned.
(** With an integer of Python, which is accepted and reads back as the same number, no model can be made: for each of the five settings. *)
Theorem C158_integer_refuted n m name : im_sorted m -> - 2 ^ 63 <= n < 2 ^ 63 -> In name ["start"; "end"; "sample"; "verbosity"; "threads"]%string ->
  exists m', add_constant (codes name) (PInt n) m = Ret m' /\ get_item (codes name) m' = Ret (PInt n) /\ python_model m' = Throw.
Proof.
  intros S B I. unfold add_constant, make_constant, make_int64, in_i64. destruct (_ && _) eqn:E; [|lia]. eexists. split; [reflexivity|]. split.
  - unfold get_item. now rewrite im_find_set, id_eqb_refl by exact S.
  - set (m' := im_set (codes name) (CInt64 n) m). destruct (python_model m') as [t| |] eqn:P; [|reflexivity|].
    + exfalso. apply python_model_iff in P. destruct P as (a & b & c & d & e & H1 & H2 & H3 & H4 & H5 & _). unfold unsigned in *. subst m'.
      destruct I as [<-|[<-|[<-|[<-|[<-|[]]]]]];
      match goal with H : im_find (codes ?k) (im_set (codes ?k) _ m) = _ |- _ => rewrite im_find_set, id_eqb_refl in H by exact S; discriminate H end.
    + exfalso. revert P. unfold python_model, get_u64, bind.
      repeat (match goal with |- context[match im_find ?k m' with _ => _ end] => destruct (im_find k m') as [[]|]; try discriminate end).
Qed.
Print Assumptions C158_integer_refuted.
(** Exactly when a model is made, and with which settings. *)
Theorem C158_exact m t : python_model m = Ret t <-> exists a b c d e,
  unsigned "start" m a /\ unsigned "end" m b /\ unsigned "sample" m c /\ unsigned "verbosity" m d /\ unsigned "threads" m e /\ t = mk_times a b a c d (Z.max 1 e).
Proof. apply python_model_iff. Qed.
Print Assumptions C158_exact.
(** An experiment needs a sample index of 32 bits. *)
Theorem C158_experiment m t : python_model m = Ret t -> simple_experiment m = if (0 <=? t_sample t) && (t_sample t <? 2 ^ 32) then Ret t else Throw.
Proof.
  intros P. unfold simple_experiment. rewrite P. cbn [bind]. apply python_model_iff in P. destruct P as (a & b & c & d & e & _ & _ & H & _ & _ & ->). unfold unsigned in H. unfold get_item. rewrite H. reflexivity.
Qed.
Print Assumptions C158_experiment.
Example C158_case : simple_experiment (default_parameters false) = Ret (mk_times 0 1 0 0 1 1) /\
  match add_constant (codes "end") (PInt 100) (default_parameters false) with Ret m => python_model m = Throw | _ => False end.
Proof. split; reflexivity. Qed.

(** C159.  A mapping of the library behaves as a dictionary of Python: what is put is got, others stay, a missing key is an error, and keys, values, length and membership agree. *)
Theorem C159_mapping (V : Type) (k : identity) (v : V) m : im_sorted m ->
  im_sorted (map_put k v m) /\ (forall j, map_get j (map_put k v m) = if id_eqb k j then Ret v else map_get j m) /\
  (map_get k m = Throw <-> map_contains k m = false) /\ (map_contains k m = true <-> In k (map_keys m)) /\
  (forall x, map_get k m = Ret x <-> In (k, x) (combine (map_keys m) (map_values m))) /\
  map_len m = Z.of_nat (List.length (map_keys m)) /\ map_len m = Z.of_nat (List.length (map_values m)) /\ NoDup (map_keys m).
Proof.
  intros S. unfold map_put, map_get, map_contains, map_keys, map_values, map_len. split; [now apply im_set_sorted|]. split.
  - intros j. rewrite im_find_set by exact S. now destruct (id_eqb k j).
  - split; [destruct (im_find k m); split; congruence|]. split.
    + destruct (im_find k m) as [x|] eqn:E.
      * split; [|reflexivity]. intros _. apply im_find_in in E; [|exact S]. apply in_map_iff. exists (k, x). split; [reflexivity|exact E].
      * split; [discriminate|]. intros H. apply im_find_none in E; [contradiction|exact S].
    + split.
      * intros x. assert (C : forall l : list (identity * V), combine (map fst l) (map snd l) = l) by (induction l as [|[a b] l IH]; cbn; congruence).
        rewrite C, <- im_find_in by exact S. destruct (im_find k m); split; congruence.
      * rewrite !map_length. split; [reflexivity|]. split; [reflexivity|]. now apply im_keys_nodup.
Qed.
Print Assumptions C159_mapping.
(** Deletion removes the key and nothing else, *)
Theorem C159_delete (V : Type) (k : identity) (m : idmap V) : im_sorted m -> exists m', map_delete k m = Ret m' /\ im_sorted m' /\
  (forall j, map_get j m' = if id_eqb k j then Throw else map_get j m).
Proof.
  intros S. eexists. split; [reflexivity|]. split; [now apply im_erase_sorted|]. intros j. unfold map_get. rewrite im_find_erase by exact S. now destruct (id_eqb k j).
Qed.
Print Assumptions C159_delete.
(** but the deletion of a key that is not there is not an error, as it is for a dictionary: it is ignored. *)
Theorem C159_delete_refuted (V : Type) (k : identity) (m : idmap V) : im_sorted m -> map_contains k m = false -> map_delete k m = Ret m.
Proof.
  intros S H. unfold map_delete, im_erase. f_equal. unfold map_contains in H. destruct (im_find k m) eqn:E; [discriminate|]. apply im_find_none in E; [|exact S].
  induction m as [|[j x] m IH]; [reflexivity|]. cbn [filter fst]. destruct (id_eqb j k) eqn:Q.
  - apply id_eqb_eq in Q. subst. exfalso. apply E. left. reflexivity.
  - cbn. f_equal. inversion S; subst. apply IH; [assumption|]. intros X. apply E. right. exact X.
Qed.
Print Assumptions C159_delete_refuted.
Example C159_case : im_sorted [([1], 10); ([2], 20)] /\ map_get [2] (map_put [3] 30 [([1], 10); ([2], 20)]) = Ret 20 /\ map_delete [7] [([1], 10); ([2], 20)] = Ret [([1], 10); ([2], 20)].
Proof. split; [repeat constructor|]. split; reflexivity. Qed.

(** C160.  An inbox from Python.  A key that is there can be assigned: every message at that time is replaced, the others stay. *)
Theorem C160_present (V : Type) k (v : V) m : (exists x, In (k, x) m) ->
  inbox_get k (inbox_put k v m) = Ret v /\ (forall j, j <> k -> inbox_get j (inbox_put k v m) = inbox_get j m) /\
  map fst (inbox_put k v m) = map fst m /\ forall x, In (k, x) (inbox_put k v m) -> x = v.
Proof.
  intros (x & I). split; [|split; [|split]].
  - unfold inbox_get, inbox_put. induction m as [|[j y] m IH]; [destruct I|]. cbn. destruct (Z.eqb_spec j k) as [->|N]; cbn; [now rewrite Z.eqb_refl|].
    destruct (Z.eqb_spec j k); [contradiction|]. apply IH. destruct I as [H|H]; [congruence|exact H].
  - intros j J. unfold inbox_get, inbox_put. clear I. induction m as [|[i y] m IH]; [reflexivity|]. cbn. destruct (Z.eqb_spec i k) as [->|N]; cbn.
    + destruct (Z.eqb_spec k j); [congruence|]. exact IH.
    + destruct (i =? j); [reflexivity|exact IH].
  - clear I. unfold inbox_put. induction m as [|[j y] m IH]; [reflexivity|]. cbn. rewrite IH. destruct (j =? k); reflexivity.
  - intros y H. unfold inbox_put in H. apply in_map_iff in H. destruct H as ([j z] & E & _). cbn in E. destruct (Z.eqb_spec j k); congruence.
Qed.
Print Assumptions C160_present.
(** The assignment of a key that is not there is ignored: nothing is inserted, and the key stays missing. *)
Theorem C160_absent_refuted (V : Type) k (v : V) m : (forall x, ~ In (k, x) m) -> inbox_put k v m = m /\ inbox_get k (inbox_put k v m) = Throw.
Proof.
  intros H. assert (E : inbox_put k v m = m).
  { unfold inbox_put. induction m as [|[j y] m IH]; [reflexivity|]. cbn. destruct (Z.eqb_spec j k) as [->|N]; [exfalso; apply (H y); left; reflexivity|].
    f_equal. apply IH. intros x X. apply (H x). right. exact X. }
  split; [exact E|]. rewrite E. unfold inbox_get. clear E. induction m as [|[j y] m IH]; [reflexivity|]. cbn. destruct (Z.eqb_spec j k) as [->|N]; [exfalso; apply (H y); left; reflexivity|].
  apply IH. intros x X. apply (H x). right. exact X.
Qed.
Print Assumptions C160_absent_refuted.
(** Reading a time gives its first message and hides the others; deleting removes them all. *)
Theorem C160_first (V : Type) k (x : V) a b : (forall y, ~ In (k, y) a) -> inbox_get k (a ++ (k, x) :: b) = Ret x.
Proof.
  intros H. unfold inbox_get. induction a as [|[j y] a IH]; cbn; [now rewrite Z.eqb_refl|]. destruct (Z.eqb_spec j k) as [->|N]; [exfalso; apply (H y); left; reflexivity|].
  apply IH. intros z X. apply (H z). right. exact X.
Qed.
Print Assumptions C160_first.
Theorem C160_delete (V : Type) k (m : list (Z * V)) : exists m', inbox_delete k m = Ret m' /\ forall j x, In (j, x) m' <-> In (j, x) m /\ j <> k.
Proof.
  eexists. split; [reflexivity|]. intros j x. rewrite filter_In. cbn. destruct (Z.eqb_spec j k); cbn; intuition congruence.
Qed.
Print Assumptions C160_delete.
Example C160_case : inbox_put 5 9 [(4, 1); (5, 2); (5, 3)] = [(4, 1); (5, 9); (5, 9)] /\ inbox_put 6 9 [(4, 1); (5, 2)] = [(4, 1); (5, 2)].
Proof. split; reflexivity. Qed.

(** C161.  Agents written in Python whose method returns nothing: each acts once, at the start, over the whole of the simulation, which has one step. *)
Theorem C161_once : forall (St : Type) hash shuffle fuel start (w : world St) (methods : identity -> py_action (St:=St)),
  well_formed w -> wake_up_times w = [] -> start < w_end w ->
  (forall i a, im_find i (agents w) = Some a -> ag_act a = python_act (Some (methods i)) /\ ag_inbox a = [] /\ ag_outbox a = [] /\ silent (methods i)) ->
  exists w', run_from hash shuffle (S fuel) start w = Some (Ret (w', [start])) /\
    forall i a, im_find i (agents w) = Some a -> exists a', im_find i (agents w') = Some a' /\
      ag_own a' = fst (methods i start (w_end w) (seed_of hash i start 0 (w_sample w)) (ag_own a)).
Proof. intros. now apply silent_run. Qed.
Print Assumptions C161_once.
(** In general: the time that is returned, and the end of the interval when there is none, or no method. *)
Theorem C161_returned (St : Type) (f : py_action (St:=St)) lower upper s o :
  snd (python_act (Some f) lower upper s o) = match snd (f lower upper s o) with Some t => t | None => upper end /\
  fst (python_act (Some f) lower upper s o) = fst (f lower upper s o) /\ python_act None lower upper s o = (o, upper).
Proof. unfold python_act. destruct (f lower upper s o) as [o' [t|]]; repeat split. Qed.
Print Assumptions C161_returned.
Definition counts : py_action (St:=Z) := fun _ _ _ o => ((fst o + 1, snd o), None).
Definition two_agents : world Z :=
  mk_world [([1], mk_agent (new_communicator false) (python_act (Some counts)) [] (0, [])); ([2], mk_agent (new_communicator false) (python_act (Some counts)) [] (5, []))] [] 100 0.
Example C161_case : well_formed two_agents /\ silent counts /\
  match run_from (fun _ => 0) (fun _ l => l) 10 0 two_agents with
  | Some (Ret (w', ts)) => ts = [0] /\ map (fun x => fst (ag_own (snd x))) (agents w') = [1; 6]
  | _ => False
  end.
Proof. split; [split; [repeat constructor|split; repeat constructor]|]. split; [intros lo up s o; split; reflexivity|]. vm_compute. split; reflexivity. Qed.

(** C162.  A message appended to the outbox of an agent in Python, or sent, is never delivered: the agent is as before, and what the environment delivers too. *)
Theorem C162_append_refuted (St : Type) (w : world St) i a m : im_sorted (agents w) -> im_find i (agents w) = Some a ->
  let a' := fst (append_to_outbox a m) in
  In m (snd (append_to_outbox a m)) /\ ag_outbox a' = ag_outbox a /\
  sent (mk_world (im_set i a' (agents w)) (wake_up_times w) (w_end w) (w_sample w)) = sent w.
Proof.
  intros S H a'. split; [apply in_or_app; right; left; reflexivity|]. split; [reflexivity|]. subst a'. cbn [append_to_outbox fst]. unfold sent. cbn [agents]. f_equal.
  assert (E : im_set i a (agents w) = agents w).
  { apply im_ext; [now apply im_set_sorted|exact S|]. intros j. rewrite im_find_set by exact S. destruct (id_eqb i j) eqn:Q; [apply id_eqb_eq in Q; now subst|reflexivity]. }
  now rewrite E.
Qed.
Print Assumptions C162_append_refuted.
Theorem C162_send_refuted (St : Type) (a : agent St) m : ag_outbox (python_send_message a m) = ag_outbox a.
Proof. reflexivity. Qed.
Print Assumptions C162_send_refuted.
(** Reading is right. *)
Theorem C162_read (St : Type) (a : agent St) : outbox_property a = ag_outbox a.
Proof. reflexivity. Qed.
Print Assumptions C162_read.
Example C162_case : let m := mk_message 1 [1] [2] 0 5 7 in match im_find [1] (agents two_agents) with
  | Some a => snd (append_to_outbox a m) = [m] /\ ag_outbox (fst (append_to_outbox a m)) = []
  | None => False
  end.
Proof. split; reflexivity. Qed.

(** C163.  The demand that an order written in Python gives is used when it converts to a double, for each property once. *)
Theorem C163_demand to_double answer m : NoDup (map fst answer) -> python_demand to_double answer = Ret m ->
  im_sorted m /\ forall i x, im_find i m = Some x <-> answers to_double answer i x.
Proof.
  intros N H. unfold python_demand in H. rewrite collect_converted in H. pose proof (converted_spec to_double answer N) as C.
  destruct (converted to_double answer) as [r| |]; cbn [bind] in H; try discriminate. injection H as <-. destruct C as (A & B & _).
  destruct (emplace_fold r [] ltac:(constructor)) as [S F]. split; [exact S|]. intros i x. rewrite F. cbn [im_find]. rewrite first_in by exact A. apply B.
Qed.
Print Assumptions C163_demand.
(** It fails exactly when an integer does not fit a double. *)
Theorem C163_fails to_double answer : NoDup (map fst answer) -> (forall n, to_double n <> UB) ->
  python_demand to_double answer <> UB /\ (python_demand to_double answer = Throw -> exists i n, In (KProperty i, NInt n) answer /\ to_double n = Throw).
Proof.
  intros N U. unfold python_demand. rewrite collect_converted. pose proof (converted_spec to_double answer N) as C.
  destruct (converted to_double answer) as [r| |]; cbn [bind]; [split; discriminate| |].
  - split; [discriminate|]. intros _. exact C.
  - destruct C as (i & n & _ & E). now apply U in E.
Qed.
Print Assumptions C163_fails.
(** What does not convert is silently no demand, for example a number of numpy with 32 bits. *)
Theorem C163_dropped_refuted to_double answer i k m : NoDup (map fst answer) -> In (KProperty i, NOther k) answer -> python_demand to_double answer = Ret m -> im_find i m = None.
Proof.
  intros N I H. destruct (C163_demand _ _ _ N H) as [_ F]. destruct (im_find i m) as [x|] eqn:E; [|reflexivity]. exfalso. apply F in E.
  assert (U : forall v, In (KProperty i, v) answer -> v = NOther k).
  { intros v J. clear - N I J. induction answer as [|[key w] l IH]; [destruct I|]. cbn in N. inversion N as [|? ? N1 N2]; subst.
    destruct I as [I|I], J as [J|J]; [congruence| | |now apply IH].
    - exfalso. apply N1. injection I as -> ->. apply in_map_iff. exists (KProperty i, v). split; [reflexivity|exact J].
    - exfalso. apply N1. injection J as -> ->. apply in_map_iff. exists (KProperty i, NOther k). split; [reflexivity|exact I]. }
  destruct E as [E|(n & E & _)]; apply U in E; discriminate.
Qed.
Print Assumptions C163_dropped_refuted.
(** The supply of an order: what is assigned is read back. *)
Theorem C163_supply d : NoDup (map fst d) -> im_sorted (set_supply d) /\ (forall i v, In (i, v) (get_supply (set_supply d)) <-> In (i, v) d).
Proof.
  intros N. unfold get_supply, set_supply. destruct (emplace_fold d [] ltac:(constructor)) as [S F]. split; [exact S|]. intros i v. rewrite <- im_find_in by exact S. rewrite F. cbn [im_find]. now apply first_in.
Qed.
Print Assumptions C163_supply.
Example C163_case : NoDup (map fst [(KProperty [1], NInt 3); (KOther 0, NInt 4); (KProperty [2], NOther 7)]) /\
  python_demand (fun n => Ret (of_Z double n)) [(KProperty [1], NInt 3); (KOther 0, NInt 4); (KProperty [2], NOther 7)] = Ret [([1], of_Z double 3)].
Proof. split; [repeat constructor; cbn; intuition discriminate|reflexivity]. Qed.

(** C164.  Quotes made from prices: one unit, the price as given; the price can be replaced and the lot stays. *)
Theorem C164_price p p' : exists q, quote_of_price p = Ret q /\ lot q = 1 /\ quote_get_price q = p /\ quote_get_price (quote_put_price q p') = p' /\ lot (quote_put_price q p') = 1.
Proof. eexists. repeat split. Qed.
Print Assumptions C164_price.
(** The lot of a quote, strictly positive in C++ by construction, can be assigned zero in Python. *)
Theorem C164_lot_refuted p : (forall q, new_quote p 0 <> Ret q) /\ exists q q', quote_of_price p = Ret q /\ quote_put_lot q 0 = Ret q' /\ lot q' = 0.
Proof. split; [intros q; discriminate|]. do 2 eexists. repeat split. Qed.
Print Assumptions C164_lot_refuted.
Theorem C164_lot q n : (0 <= n < 2 ^ 32 -> exists q', quote_put_lot q n = Ret q' /\ lot q' = n /\ quote_get_price q' = quote_get_price q) /\ (~ 0 <= n < 2 ^ 32 -> quote_put_lot q n = Throw).
Proof. unfold quote_put_lot. destruct (_ && _) eqn:E; (split; intros H; [|]); try lia; try reflexivity. eexists. repeat split. Qed.
Print Assumptions C164_lot.
Example C164_case : match quote_of_price (mk_price 123 (mk_currency 85 83 68 100)) with Ret q => lot q = 1 /\ value (quote_get_price q) = 123 | _ => False end.
Proof. split; reflexivity. Qed.

(** C165.  The code of an ISIN in Python: nine characters are read back as they were assigned, and the issuer stays. *)
Theorem C165_nine i code : List.length code = 9%nat -> exists i', set_isin_code i code = Ret i' /\ get_isin_code i' = code /\ fst i' = fst i.
Proof.
  intros H. unfold set_isin_code. rewrite H. eexists. split; [reflexivity|]. split; [|reflexivity]. cbn [snd get_isin_code]. apply firstn_all2. lia.
Qed.
Print Assumptions C165_nine.
(** A shorter code is undefined; a longer one is cut. *)
Theorem C165_refuted i code : (List.length code < 9)%nat -> set_isin_code i code = UB.
Proof. intros H. unfold set_isin_code. destruct (Nat.ltb_spec (List.length code) 9); [reflexivity|lia]. Qed.
Print Assumptions C165_refuted.
Theorem C165_longer i code rest : List.length code = 9%nat -> set_isin_code i (code ++ rest) = Ret (fst i, code).
Proof.
  intros H. unfold set_isin_code. rewrite app_length. destruct (Nat.ltb_spec (List.length code + List.length rest) 9); [lia|]. do 2 f_equal. rewrite firstn_app, H, Nat.sub_diag. change (firstn 0 rest) with (@nil Z).
  rewrite app_nil_r. apply firstn_all2. lia.
Qed.
Print Assumptions C165_longer.
Example C165_case : set_isin_code (codes "US", codes "037833100") (codes "594918104") = Ret (codes "US", codes "594918104").
Proof. reflexivity. Qed.

(** C166.  A company written in Python that does not say anything about dividends: its activation is an error, where the same company in C++ goes on to the end of the interval,
    unchanged, without any announcement. *)
Theorem C166_silent_refuted lower upper c : python_company_act None lower upper c = Throw /\ company_act lower upper c = Ret (c, [], upper).
Proof. split; reflexivity. Qed.
Print Assumptions C166_silent_refuted.
(** One that answers is activated as a company of C++ with that answer: an announcement is made to each shareholder once its date is reached, and once per date. *)
Theorem C166_answer f lower upper c o : f lower upper = Ret o -> exists c' ms next, python_company_act (Some f) lower upper c = Ret (c', ms, next) /\
  (ms <> [] -> exists p, o = Some p /\ c_last_announced c < p_announcement p <= lower /\ c_last_announced c' = p_announcement p /\ ms = map (fun s => mk_announcement s lower p) (c_shareholders c)) /\
  (o = None -> (c', ms, next) = (c, [], upper)) /\ next <= upper.
Proof.
  intros F. unfold python_company_act. cbn [python_upcoming_dividend]. rewrite F. cbn [bind]. destruct (act lower upper o c) as [[c' ms] next] eqn:A. exists c', ms, next. split; [reflexivity|].
  destruct o as [p|]; cbn [act] in A.
  - destruct (Z.leb_spec (p_announcement p) lower), (Z.ltb_spec (c_last_announced c) (p_announcement p)), (Z.leb_spec (p_payable p) lower);
      cbn [c_last_payment] in A; try destruct (c_last_payment c <? p_announcement p); injection A as <- <- <-;
      (split; [|split; [discriminate|lia]]); intros N; try (now contradiction N); exists p; repeat split; lia.
  - injection A as <- <- <-. split; [intros N; now contradiction N|]. split; [reflexivity|lia].
Qed.
Print Assumptions C166_answer.
Example C166_case : python_company_act (Some (fun lower _ => Ret (Some (mk_policy lower 5 6 100)))) 3 9 (new_company [[1]; [2]]) =
  Ret (mk_company [[1]; [2]] 3 0, [mk_announcement [1] 3 (mk_policy 3 5 6 100); mk_announcement [2] 3 (mk_policy 3 5 6 100)], 3).
Proof. reflexivity. Qed.
