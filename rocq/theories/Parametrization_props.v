(** Property theorems C22. *)
From Coq Require Import String.
From Verif Require Import Base Text Parametrization.
Local Open Scope string_scope.
Local Open Scope Z_scope.

(** C22: all but the number of threads. *)
Theorem C22_named_parameters : forall sample start stop verbosity threads,
  let m := parametrization sample start stop verbosity threads in
  get m Tuint64 (codes "sample") = Ret sample /\ get m Tuint64 (codes "start") = Ret start /\ get m Tuint64 (codes "end") = Ret stop /\ get m Tuint64 (codes "verbosity") = Ret verbosity.
Proof. intros. repeat split; reflexivity. Qed.
Print Assumptions C22_named_parameters.
(** The number of threads given is ignored: the verbosity is stored in its place. *)
Theorem C22_threads_refuted : exists sample start stop verbosity threads,
  get (parametrization sample start stop verbosity threads) Tuint64 (codes "threads") <> Ret threads.
Proof. exists 0, 0, 10, 0, 4. discriminate. Qed.
Print Assumptions C22_threads_refuted.
(** For all arguments: what is stored, and what a model makes of it. *)
Theorem C22_threads_are_the_verbosity : forall sample start stop verbosity threads,
  get (parametrization sample start stop verbosity threads) Tuint64 (codes "threads") = Ret verbosity /\
  model_settings (parametrization sample start stop verbosity threads) = Ret (mk_settings start stop start sample verbosity (Z.max 1 verbosity)).
Proof. intros. split; reflexivity. Qed.
Print Assumptions C22_threads_are_the_verbosity.
(** Any other name, and any other type, is reported. *)
Theorem C22_missing_parameter_reported : forall sample start stop verbosity threads t name,
  (get (parametrization sample start stop verbosity threads) t name = Throw <->
   t <> Tuint64 \/ ~ In name [codes "sample"; codes "start"; codes "end"; codes "verbosity"; codes "threads"]) /\
  get (parametrization sample start stop verbosity threads) t name <> UB.
Proof.
  intros sample start stop verbosity threads t name.
  assert (E : forall k, text_eqb k name = true <-> k = name) by (intros k; unfold text_eqb; destruct (list_eq_dec Z.eq_dec k name); split; congruence).
  assert (T : type_tag_eqb t Tuint64 = true <-> t = Tuint64) by (destruct t; cbn; split; congruence).
  unfold get. change (parametrization sample start stop verbosity threads) with
    [(s_sample, (Tuint64, sample)); (s_start, (Tuint64, start)); (s_end, (Tuint64, stop)); (s_verbosity, (Tuint64, verbosity)); (s_threads, (Tuint64, verbosity))].
  cbn [pm_find In].
  pose proof (E s_sample) as E1. pose proof (E s_start) as E2. pose proof (E s_end) as E3. pose proof (E s_verbosity) as E4. pose proof (E s_threads) as E5.
  destruct (text_eqb s_sample name), (text_eqb s_start name), (text_eqb s_end name), (text_eqb s_verbosity name), (text_eqb s_threads name);
    destruct (type_tag_eqb t Tuint64); (split; [|discriminate]); intuition congruence.
Qed.
Print Assumptions C22_missing_parameter_reported.
(** Lookups by name see the last assignment under that name. *)
Theorem C22_assignment : forall m name v name',
  pm_find name' (pm_set name v m) = if text_eqb name name' then Some v else pm_find name' m.
Proof.
  assert (E : forall a b, text_eqb a b = true <-> a = b) by (intros a b; unfold text_eqb; destruct (list_eq_dec Z.eq_dec a b); split; congruence).
  induction m as [|[k x] m IH]; intros name v name'; cbn; [reflexivity|].
  destruct (text_eqb k name) eqn:E1; cbn.
  - apply E in E1. subst k. destruct (text_eqb name name'); reflexivity.
  - rewrite IH. destruct (text_eqb k name') eqn:E2; [|reflexivity]. apply E in E2. subst k.
    destruct (text_eqb name name') eqn:E3; [|reflexivity]. apply E in E3. subst name. assert (text_eqb name' name' = true) by (now apply E). congruence.
Qed.
Print Assumptions C22_assignment.
(** What was assigned is found under its name, and only as what it was assigned as. *)
Theorem C22_types : forall m name t t' v, (get (pm_set name (t', v) m) t name = Ret v <-> t = t') /\ (t <> t' -> get (pm_set name (t', v) m) t name = Throw).
Proof.
  intros m name t t' v. unfold get. rewrite C22_assignment. assert (text_eqb name name = true) as -> by (unfold text_eqb; destruct (list_eq_dec Z.eq_dec name name); congruence).
  assert (T : type_tag_eqb t t' = true <-> t = t') by (destruct t, t'; cbn; rewrite ?Z.eqb_eq; split; congruence). destruct (type_tag_eqb t t'); split; intuition congruence.
Qed.
Print Assumptions C22_types.
(** A model can be made of parameters, from whatever source, only if they have the five it needs, as unsigned numbers. *)
Theorem C22_model_needs : forall m, model_settings m <> UB /\
  (model_settings m = Throw <-> exists name, In name [codes "start"; codes "end"; codes "sample"; codes "verbosity"; codes "threads"] /\ get m Tuint64 name = Throw).
Proof.
  intros m. assert (G : forall n, get m Tuint64 n <> UB) by (intros n; unfold get; destruct (pm_find n m) as [[t v]|]; [destruct (type_tag_eqb Tuint64 t)|]; discriminate).
  change (codes "start") with s_start. change (codes "end") with s_end. change (codes "sample") with s_sample. change (codes "verbosity") with s_verbosity. change (codes "threads") with s_threads.
  unfold model_settings. cbn [In]. pose proof (G s_start). pose proof (G s_end). pose proof (G s_sample). pose proof (G s_verbosity). pose proof (G s_threads).
  destruct (get m Tuint64 s_start) eqn:E1, (get m Tuint64 s_end) eqn:E2, (get m Tuint64 s_sample) eqn:E3, (get m Tuint64 s_verbosity) eqn:E4, (get m Tuint64 s_threads) eqn:E5; try congruence;
  (split; [discriminate|]); split; try discriminate; intros K; try reflexivity; try (destruct K as (n & [<-|[<-|[<-|[<-|[<-|[]]]]]] & K); congruence);
  first [exists s_start; now auto|exists s_end; now auto|exists s_sample; now auto|exists s_verbosity; now auto 6|exists s_threads; now auto 8].
Qed.
Print Assumptions C22_model_needs.
Example C22_model_needs_case : model_settings [(s_start, (Tuint64, 0)); (s_end, (Tuint64, 10)); (s_sample, (Tuint64, 0)); (s_verbosity, (Tuint64, 0))] = Throw.
Proof. reflexivity. Qed.
Example C22_case : get (parametrization 3 100 200 1 8) Tuint64 s_end = Ret 200 /\ get (parametrization 3 100 200 1 8) Tuint64 (codes "seed"%string) = Throw /\
  model_settings (parametrization 3 100 200 1 8) = Ret (mk_settings 100 200 100 3 1 1).
Proof. repeat split; reflexivity. Qed.
