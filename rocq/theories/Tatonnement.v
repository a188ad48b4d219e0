(** Model of the search for market clearing prices -
    /repo/esl/economics/markets/walras/tatonnement.hpp:72-172 and
    /repo/esl/economics/markets/walras/tatonnement.cpp:44-799, compiled with Adept (ADEPT_VERSION
    defined, automatic differentiation on).  Real numbers are IEEE doubles ([double] of StaticTicks.v).
    The solvers of the GNU Scientific Library are not modelled: what each of their steps does is an
    argument, so that theorems hold for whatever they do.  Derivatives are only used inside of those and
    are left out, as are the logs. *)
From Coq Require Import SpecFloat.
From Verif Require Import Base Identity IdMap StaticTicks.

Notation real := spec_float (only parsing).
Definition zero : real := S754_zero false.
Definition one : real := of_Z double 1.
(** [1e-4] and [1e-6], correctly rounded. *)
Definition tolerance4 : real := div double one (of_Z double 10000).
Definition tolerance6 : real := div double one (of_Z double 1000000).
(** [std::max(a, b)] and [std::min(a, b)] *)
Definition fmax (a b : real) : real := if SFltb a b then b else a.
Definition fmin (a b : real) : real := if SFltb b a then b else a.

(** ** The excess demand model.
    The quotes, in the order in which the map of quotes iterates: property and price. *)
Definition quotes : Type := list (identity * Z).
(** walras/differentiable_order_message.hpp: [excess_demand], from the quotes and the multipliers per
    property to the demands per property, both [std::map]. *)
Definition order : Type := idmap (Z * real) -> list (identity * real).

Section Model.
Context (qs : quotes) (orders : list order).

(** tatonnement.cpp:225-233, 268-273: [x] holds a multiplier for each of the quotes. *)
Definition scalars (x : list real) : idmap (Z * real) :=
  fold_left (fun m kv => im_emplace (fst (fst kv)) (snd (fst kv), snd kv) m) (combine qs x) [].

(** tatonnement.cpp:240-246 *)
Definition add_term (m : idmap real) (kd : identity * real) : idmap real :=
  match im_find (fst kd) m with
  | None => im_emplace (fst kd) (snd kd) m
  | Some v => im_set (fst kd) (add double v (snd kd)) m
  end.
(** tatonnement.cpp:223-256 [demand_supply_mismatch]; [pow(t, 2)] is taken to be the product. *)
Definition mismatch (x : list real) : real :=
  let terms := fold_left (fun m (f : order) => fold_left add_term (f (scalars x)) m) orders [] in
  fold_left (fun s kt => add double s (mul double (snd kt) (snd kt))) terms zero.

(** tatonnement.cpp:278-281 *)
Definition add_demand (m : idmap real) (kd : identity * real) : idmap real :=
  let m := im_emplace (fst kd) zero m in
  match im_find (fst kd) m with
  | None => m
  | Some v => im_set (fst kd) (add double v (snd kd)) m
  end.
(** tatonnement.cpp:265-290 [excess_demand]; a quoted property that is in no order dereferences the end
    iterator (line 287, the assertion before it is off). *)
Fixpoint look_up (qs : quotes) (terms : idmap real) : option (list real) :=
  match qs with
  | [] => Some []
  | (k, _) :: qs' =>
      match im_find k terms, look_up qs' terms with
      | Some v, Some l => Some (v :: l)
      | _, _ => None
      end
  end.
Definition excess (x : list real) : option (list real) :=
  look_up qs (fold_left (fun m (f : order) => fold_left add_demand (f (scalars x)) m) orders []).

(** tatonnement.cpp:315-328 [multiroot_function_value]; [&active_[0]] of no quotes is undefined. *)
Definition values (x : list real) : option (list real) :=
  match qs with [] => None | _ => excess x end.
(** tatonnement.cpp:144-152 [uniroot_function_value] *)
Definition value_at (x : real) : option real :=
  match values [x] with Some (v :: _) => Some v | _ => None end.
(** tatonnement.cpp:299-308 [excess_demand_function_value] *)
Definition error_at (x : list real) : option real :=
  match qs with [] => None | _ => Some (mismatch x) end.

(** ** The solvers *)
(** gsl_errno.h *)
Definition SUCCESS : Z := 0.
Definition CONTINUE : Z := -2.
(** What one step of a solver does: the status that it returns, whether it calls the error handler of the
    library, the point it is at afterwards, and the norm of the gradient there (for the minimizer). *)
Record step := mk_step { status : Z; reports : bool; point : list real; gradient : real }.
Definition steps : Type := nat -> step.
(** The error handler of the GNU Scientific Library, a global variable of the program: by default it ends the
    program; the one of tatonnement.cpp:192-198 does nothing; others are of the user and return. *)
Inductive handler := Default | Quiet | Users.
(** How the search ends: multipliers; none were found; an exception; undefined; the program was ended. *)
Inductive clearing := Found (m : idmap real) | NotFound | Invalid | Undefined | Aborted.
(** An attempt: as a search, with [NotFound] to try the next method. *)
Definition aborts (h : handler) (s : step) : bool :=
  match h with Default => reports s | _ => false end.
(** [result_.emplace(mapping_index_[i], x[i])] for each quote *)
Definition result (x : list real) : idmap real :=
  fold_left (fun m kv => im_emplace (fst (fst kv)) (snd kv) m) (combine qs x) [].
(** gsl_multiroot_test_residual, gsl_multimin_test_gradient and gsl_multimin_test_size *)
Definition residual (f : list real) : real := fold_left (fun s v => add double s (SFabs v)) f zero.
Definition below (x tolerance : real) : Z := if SFltb x tolerance then SUCCESS else CONTINUE.
(** tatonnement.cpp:397-407: every method starts from the current quotes. *)
Definition ones : list real := map (fun _ => one) qs.
(** hpp:100: the least and the greatest multiplier. *)
Context (breaker : real * real) (max_iterations : nat).
(** tatonnement.cpp:466-467 and 514-515 *)
Definition limit_one (x : real) : real := fmin (fmax x (fst breaker)) (snd breaker).
Definition limit_many (x : real) : real := fmax (fmin x (snd breaker)) (fst breaker).

(** tatonnement.cpp:445-461: the loop for one property from step [k] on, [n] more are allowed.
    [inl] is the last status and the best point. *)
Fixpoint one_loop (s : steps) (n k : nat) (best_x best_e : real) : option (Z * real) :=
  let x := nth 0 (point (s k)) zero in
  match value_at x with
  | None => None
  | Some e =>
      let better := SFltb (SFabs e) (SFabs best_e) in
      let best_x := if better then x else best_x in
      let best_e := if better then e else best_e in
      if SFltb (SFabs e) tolerance6 then Some (SUCCESS, best_x)
      else if status (s k) =? CONTINUE then
        match n with O => Some (status (s k), best_x) | S n' => one_loop s n' (S k) best_x best_e end
      else Some (status (s k), best_x)
  end.
(** tatonnement.cpp:417-475: the handler is set aside, and put back only after a failure. *)
Definition root_one (s : steps) (h : handler) : clearing * handler :=
  match value_at one with
  | None => (Undefined, Quiet)
  | Some e =>
      match one_loop s (pred max_iterations) 1 one e with
      | None => (Undefined, Quiet)
      | Some (st, x) => if st =? SUCCESS then (Found (result [limit_one x]), Quiet) else (NotFound, h)
      end
  end.

(** tatonnement.cpp:499-506: the loop for several properties, after [status] and at [x]. *)
Inductive ended := Ended (st : Z) (x : list real) | Broke | Stopped.
Fixpoint many_loop (s : steps) (h : handler) (n k : nat) (st : Z) (x : list real) : ended :=
  match n with
  | O => Ended st x
  | S n' =>
      if negb (st =? CONTINUE) then Ended st x
      else if aborts h (s k) then Stopped
      else if negb (status (s k) =? SUCCESS) then Ended (status (s k)) (point (s k))
      else match values (point (s k)) with
           | None => Broke
           | Some f => many_loop s h n' (S k) (below (residual f) tolerance4) (point (s k))
           end
  end.
(** tatonnement.cpp:476-524; setting up the solver evaluates the excess demand at its start. *)
Definition root_many (s : steps) (h : handler) : clearing :=
  match values ones with
  | None => Undefined
  | Some _ =>
      match many_loop s h max_iterations 1 CONTINUE ones with
      | Broke => Undefined
      | Stopped => Aborted
      | Ended st x => if st =? SUCCESS then Found (result (map limit_many x)) else NotFound
      end
  end.

(** tatonnement.cpp:594-614 and 663-687: the loops of the minimizers; [test] is what they do after a step that
    was neither good enough nor a failure. *)
Fixpoint minimize_loop (s : steps) (test : step -> Z) (h : handler) (n k : nat) : ended :=
  if aborts h (s k) then Stopped
  else match error_at (point (s k)) with
  | None => Broke
  | Some e =>
      if SFleb e tolerance4 then Ended SUCCESS (point (s k))
      else if negb (status (s k) =? SUCCESS) then Ended (status (s k)) (point (s k))
      else
        if test (s k) =? CONTINUE then
          match n with O => Ended (test (s k)) (point (s k)) | S n' => minimize_loop s test h n' (S k) end
        else Ended (test (s k)) (point (s k))
  end.
(** tatonnement.cpp:565-628 and 633-703; the initial steps of the second, in lines 635 and 660, are not set to
    anything, which is part of what its solver may do. *)
Definition minimize (s : steps) (test : step -> Z) (h : handler) : clearing :=
  match error_at ones with
  | None => Undefined
  | Some _ =>
      match minimize_loop s test h (pred max_iterations) 1 with
      | Broke => Undefined
      | Stopped => Aborted
      | Ended st x => if st =? SUCCESS then Found (result x) else NotFound
      end
  end.
Definition gradient_test (s : step) : Z := below (gradient s) tolerance4.
Definition size_test (s : step) : Z := below (of_Z double (Z.of_nat (length qs))) tolerance4.

(** tatonnement.cpp:734-781: the loop without derivatives, with the best point and its residual so far. *)
Inductive searched := Best (x : list real) | Failed | Ending.
Fixpoint free_loop (s : steps) (h : handler) (n k : nat) (best : list real) (best_residual : real) : searched :=
  match n with
  | O => Best best
  | S n' =>
      if aborts h (s k) then Ending
      else if negb (status (s k) =? SUCCESS) then Best best
      else match values (point (s k)) with
           | None => Failed
           | Some f =>
               let r := residual f in
               let better := SFltb r best_residual in
               let best := if better then point (s k) else best in
               if below r tolerance4 =? SUCCESS then Best best
               else free_loop s h n' (S k) best (if better then r else best_residual)
           end
  end.
(** tatonnement.cpp:706-795: whatever happened, there is a result. *)
Definition root_free (s : steps) (h : handler) : clearing :=
  match values ones with
  | None => Undefined
  | Some _ =>
      match free_loop s h max_iterations 1 ones (residual ones) with
      | Failed => Undefined
      | Ending => Aborted
      | Best x => Found (result x)
      end
  end.

(** hpp:90-95 *)
Inductive method := Minimization | Root | FreeMinimization | FreeRoot.
(** hpp:108-113 *)
Definition default_methods : list method := [Root; Minimization; FreeRoot; FreeMinimization].
(** tatonnement.cpp:396-797 *)
Definition attempt (solver : method -> steps) (m : method) (h : handler) : clearing * handler :=
  match m with
  | Root => match qs with [_] => root_one (solver Root) h | _ => (root_many (solver Root) h, h) end
  | Minimization => (minimize (solver Minimization) gradient_test h, h)
  | FreeMinimization => (minimize (solver FreeMinimization) size_test h, h)
  | FreeRoot => (root_free (solver FreeRoot) h, h)
  end.
Fixpoint try_methods (solver : method -> steps) (ms : list method) (h : handler) : clearing * handler :=
  match ms with
  | [] => (NotFound, h)
  | m :: ms' =>
      match attempt solver m h with
      | (NotFound, h') => try_methods solver ms' h'
      | r => r
      end
  end.
(** tatonnement.cpp:387-799 [compute_clearing_quotes] *)
Definition compute_clearing_quotes (methods : list method) (solver : method -> steps) (h : handler) : clearing * handler :=
  match methods with
  | [] => (Invalid, h)
  | _ => try_methods solver methods h
  end.
End Model.
(** hpp:100 *)
Definition default_breaker : real * real := (div double one (of_Z double 11), of_Z double 11).
