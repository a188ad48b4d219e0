(** What a stream ought to receive, from the history of an agent's outputs alone. Outputs are numbered in the order in
    which they are made. *)
From Coq Require Import String.
From Verif Require Import Base Text Outputs.
Local Open Scope list_scope.
Local Open Scope Z_scope.

Section Spec.
Context {V : Type} (show : V -> list Z).
(** For each output made, whether it is buffered. *)
Definition made (es : list (event V)) : list bool :=
  flat_map (fun e => match e with Construct b => [b] | Create _ => [false] | _ => [] end) es.
(** The number of the first output created under a name, when [k] were made before. *)
Fixpoint first_of (n : list Z) (k : nat) (es : list (event V)) : option nat :=
  match es with
  | [] => None
  | Create m :: es' => if list_eq_dec Z.eq_dec m n then Some k else first_of n (S k) es'
  | Construct _ :: es' => first_of n (S k) es'
  | _ :: es' => first_of n k es'
  end.
(** How often a stream was attached to an output: by name, which means the first output of that name, or directly. *)
Definition attaches (s h : nat) (es : list (event V)) (e : event V) : bool :=
  match e with
  | Attach n s' => Nat.eqb s' s && match first_of n 0 es with Some h' => Nat.eqb h' h | None => false end
  | AttachTo h' s' => Nat.eqb h' h && Nat.eqb s' s
  | _ => false
  end.
Definition attached (s h : nat) (es : list (event V)) : nat := length (filter (attaches s h es) es).
(** The line for a value. *)
Definition text_line (t : Z) (v : V) : list Z := codes "("%string ++ dec t ++ codes ", "%string ++ show v ++ codes ")"%string ++ [10].
(** The lines a stream receives, given what happened before. *)
Fixpoint received (s : nat) (before es : list (event V)) : list Z :=
  match es with
  | [] => []
  | e :: es' =>
    match e with
    | Put h t vs => if nth h (made before) true then [] else flat_map (fun v => concat (repeat (text_line t v) (attached s h before))) vs
    | _ => []
    end ++ received s (before ++ [e]) es'
  end.
(** The values put into an output. *)
Definition values_of (h : nat) (es : list (event V)) : list (Z * list V) :=
  flat_map (fun e => match e with Put h' t vs => if Nat.eqb h' h then [(t, vs)] else [] | _ => [] end) es.
(** The user only uses outputs that exist. *)
Definition uses (e : event V) : option nat := match e with AttachTo h _ => Some h | Put h _ _ => Some h | _ => None end.
Definition sensible (es : list (event V)) : Prop :=
  forall before e after h, es = before ++ e :: after -> uses e = Some h -> (h < length (made before))%nat.
(** The text of a time series, one value per line. *)
Definition series_text (l : list (Z * V)) : list Z := flat_map (fun p => text_line (fst p) (snd p)) l.
(** Elements whose text can be told apart in a list. *)
Definition plain (x : V) : Prop := show x <> [] /\ ~ In 44 (show x).
End Spec.
