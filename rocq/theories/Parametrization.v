(** Model of /repo/esl/simulation/parameter/parametrization.hpp and of the constructor of
    /repo/esl/simulation/model.cpp:38-55.  A parameter is a number tagged with its type; [time_point]
    and [std::uint64_t] are the same type. *)
From Verif Require Import Base Text.
From Coq Require Import String.
Local Open Scope Z_scope.

Definition text : Type := list Z.
Definition text_eqb (a b : text) : bool := if list_eq_dec Z.eq_dec a b then true else false.
Inductive type_tag := Tuint64 | Tother (k : Z).
Definition type_tag_eqb (a b : type_tag) : bool :=
  match a, b with Tuint64, Tuint64 => true | Tother i, Tother j => i =? j | _, _ => false end.
Definition parameters : Type := list (text * (type_tag * Z)).
(** [std::map<std::string, ...>]: lookup and assignment. *)
Fixpoint pm_find (name : text) (m : parameters) : option (type_tag * Z) :=
  match m with [] => None | (k, v) :: m' => if text_eqb k name then Some v else pm_find name m' end.
Fixpoint pm_set (name : text) (v : type_tag * Z) (m : parameters) : parameters :=
  match m with
  | [] => [(name, v)]
  | (k, x) :: m' => if text_eqb k name then (k, v) :: m' else (k, x) :: pm_set name v m'
  end.
Definition s_sample : text := codes "sample"%string.
Definition s_start : text := codes "start"%string.
Definition s_end : text := codes "end"%string.
Definition s_verbosity : text := codes "verbosity"%string.
Definition s_threads : text := codes "threads"%string.
(** parametrization.hpp:49-65 (line 64 stores [verbosity] under the name threads). *)
Definition parametrization (sample start stop verbosity threads : Z) : parameters :=
  pm_set s_threads (Tuint64, verbosity)
  (pm_set s_verbosity (Tuint64, verbosity)
  (pm_set s_end (Tuint64, stop)
  (pm_set s_start (Tuint64, start)
  (pm_set s_sample (Tuint64, sample) [])))).
(** Lines 75-89: [get<T>(name)]. *)
Definition get (m : parameters) (t : type_tag) (name : text) : outcome Z :=
  match pm_find name m with
  | None => Throw
  | Some (t', v) => if type_tag_eqb t t' then Ret v else Throw
  end.
(** model.cpp:38-53: start, end, time, sample, verbosity and number of threads of a model. *)
Record settings := mk_settings { st_start : Z; st_end : Z; st_time : Z; st_sample : Z; st_verbosity : Z; st_threads : Z }.
Definition model_settings (m : parameters) : outcome settings :=
  match get m Tuint64 s_start, get m Tuint64 s_end, get m Tuint64 s_sample, get m Tuint64 s_verbosity, get m Tuint64 s_threads with
  | Ret a, Ret b, Ret c, Ret d, Ret e => Ret (mk_settings a b a c d (Z.max 1 e))
  | _, _, _, _, _ => Throw
  end.
