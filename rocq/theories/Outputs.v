(** Model of what a simulation writes - /repo/esl/data/representation.hpp, output_base.hpp, output.hpp, producer.hpp,
    channel.hpp, log.hpp, null_streambuf.hpp and /repo/esl/computation/environment.cpp:97-128. *)
From Coq Require Import String.
From Verif Require Import Base Text.
Local Open Scope list_scope.
Local Open Scope Z_scope.

Definition text := list Z.

(** ** Collections: /repo/esl/data/representation.hpp
    [show] is [operator <<] of the elements. The operators for [std::set], [std::unordered_set], [std::list] and
    [std::forward_list] (104-117, 157-171, 256-269, 278-291) add one to an iterator that has no such operation and do
    not compile when used; they are not modelled. *)
Section Printing.
Context {K V : Type} (key : K -> text) (show : V -> text).
(** representation.hpp:213-226 (vector) and 300-315 (array): comma-separated in square brackets. *)
Definition print_vector (l : list V) : text :=
  91 :: match l with
        | [] => []
        | x :: l' => show x ++ flat_map (fun y => [44; 32] ++ show y) l'
        end ++ [93].
(** representation.hpp:53-70 (map), 80-97 (flat_map) and 129-147 (unordered_map): the pairs in the order of iteration. *)
Definition print_map (l : list (K * V)) : text :=
  123 :: match l with
         | [] => []
         | (k, v) :: l' => (key k ++ [58; 32] ++ show v) ++ flat_map (fun p => [44; 32] ++ key (fst p) ++ [58; 32] ++ show (snd p)) l'
         end ++ [125].
(** representation.hpp:233-246: the queue is a copy; the loop compares its counter with the size left. The fuel is the
    number of elements left. *)
Fixpoint queue_loop (fuel : nat) (c : nat) (q : list V) : text :=
  if (c <? length q)%nat then
    match fuel, q with
    | S f, x :: q' => [44; 32] ++ show x ++ queue_loop f (S c) q'
    | _, _ => []
    end
  else [].
Definition print_queue (l : list V) : text :=
  91 :: match l with
        | [] => []
        | x :: l' => show x ++ queue_loop (length l') 0 l'
        end ++ [93].
(** representation.hpp:173-201: a pair, as used for the lines of an output. *)
Definition print_pair (p : K * V) : text := 40 :: key (fst p) ++ [44; 32] ++ show (snd p) ++ [41].
End Printing.

(** ** Outputs
    An output is an object that the user holds by a shared pointer: here the number of the object. Streams are numbered
    as well; what is written is a list of pairs of stream and text. The variables of an output are of one type [V]
    (simplification: the code allows a different type for each). *)
Section Outputs.
Context {V : Type} (show : V -> text).
(** output_base.hpp:53-70, output.hpp:57-60. *)
Record output := mk_output { o_buffered : bool; o_streams : list nat; o_values : list (Z * list V) }.
(** producer.hpp:44: the map from names to outputs, here in order of insertion; all outputs that exist; what has been
    written. *)
Record system := mk_system { y_names : list (text * nat); y_objects : list output; y_written : list (nat * text) }.
Definition nothing : system := mk_system [] [] [].
Fixpoint text_eqb (a b : text) : bool :=
  match a, b with
  | [], [] => true
  | x :: a', y :: b' => (x =? y) && text_eqb a' b'
  | _, _ => false
  end.
Fixpoint find_name (n : text) (l : list (text * nat)) : option nat :=
  match l with
  | [] => None
  | (m, h) :: l' => if text_eqb m n then Some h else find_name n l'
  end.
Fixpoint change {A} (k : nat) (f : A -> A) (l : list A) : list A :=
  match l, k with
  | [], _ => []
  | x :: l', O => f x :: l'
  | x :: l', S k' => x :: change k' f l'
  end.
(** output.hpp:67-74: constructed by the user, outside a producer. *)
Definition construct (buffered : bool) (y : system) : system :=
  mk_system (y_names y) (y_objects y ++ [mk_output buffered [] []]) (y_written y).
(** producer.hpp:59-67 [create_output]: the output is not buffered; [flat_map::insert] keeps an earlier entry. *)
Definition create_output (name : text) (y : system) : system :=
  let h := length (y_objects y) in
  let y' := construct false y in
  mk_system (match find_name name (y_names y) with None => y_names y ++ [(name, h)] | Some _ => y_names y end) (y_objects y') (y_written y').
Definition add_stream (s : nat) (o : output) : output := mk_output (o_buffered o) (o_streams o ++ [s]) (o_values o).
(** producer.hpp:46-53 [add_output_stream]. *)
Definition add_output_stream (name : text) (s : nat) (y : system) : outcome system :=
  match find_name name (y_names y) with
  | None => Throw
  | Some h => Ret (mk_system (y_names y) (change h (add_stream s) (y_objects y)) (y_written y))
  end.
(** The user adds a stream to the member [streams] of an output (output_base.hpp:62-64). *)
Definition add_stream_to (h s : nat) (y : system) : system :=
  mk_system (y_names y) (change h (add_stream s) (y_objects y)) (y_written y).
(** output.hpp:81-88 [put] with output_base.hpp:74-80 [write]: for each variable, a line to each stream. An output that
    does not exist cannot be used; here nothing happens then. *)
Definition line (t : Z) (v : V) : text := print_pair dec show (t, v) ++ [10].
Definition put (h : nat) (t : Z) (vs : list V) (y : system) : system :=
  match nth_error (y_objects y) h with
  | None => y
  | Some o =>
    mk_system (y_names y)
      (change h (fun o => mk_output (o_buffered o) (o_streams o) (o_values o ++ [(t, vs)])) (y_objects y))
      (y_written y ++ if o_buffered o then [] else flat_map (fun v => map (fun s => (s, line t v)) (o_streams o)) vs)
  end.
(** environment.cpp:97-99 [after_run]: the first statement returns. *)
Definition after_run (y : system) : system := y.
(** producer.hpp:69-98 [save] and [load]: the archive has the names; the objects read are not kept. Whether the archive
    can be read is not modelled: [readable]. *)
Definition save_outputs (y : system) : list text := map fst (y_names y).
Definition load_outputs (readable : bool) (archive : list text) (y : system) : outcome system := if readable then Ret y else Throw.

Inductive event :=
| Construct (buffered : bool)
| Create (name : text)
| Attach (name : text) (s : nat)
| AttachTo (h s : nat)
| Put (h : nat) (t : Z) (vs : list V)
| EndOfRun.
Definition happen (e : event) (y : system) : outcome system :=
  match e with
  | Construct b => Ret (construct b y)
  | Create n => Ret (create_output n y)
  | Attach n s => add_output_stream n s y
  | AttachTo h s => Ret (add_stream_to h s y)
  | Put h t vs => Ret (put h t vs y)
  | EndOfRun => Ret (after_run y)
  end.
Fixpoint history (es : list event) (y : system) : outcome system :=
  match es with
  | [] => Ret y
  | e :: es' => match happen e y with Ret y' => history es' y' | Throw => Throw | UB => UB end
  end.
(** What a stream has received. *)
Definition contents (s : nat) (y : system) : text := concat (map snd (filter (fun p => Nat.eqb (fst p) s) (y_written y))).
End Outputs.
Arguments system V : clear implicits.
Arguments output V : clear implicits.
Arguments event V : clear implicits.

(** ** Logs
    A log keeps what is sent to its channels in a buffer; the mutex of all channels is held or not. *)
Record logs := mk_logs { l_buffer : text; l_terminal : text; l_held : bool }.
(** [std::lock_guard] of a [std::mutex] that the thread holds already is undefined ([thread.mutex.class]). *)
Definition locked (body : logs -> outcome logs) (g : logs) : outcome logs :=
  if l_held g then UB else
  match body (mk_logs (l_buffer g) (l_terminal g) true) with
  | Ret g' => Ret (mk_logs (l_buffer g') (l_terminal g') false)
  | Throw => Throw
  | UB => UB
  end.
(** A channel writes to the buffer of the log, or to the null stream (null_streambuf.hpp:48-66), which drops it. *)
Inductive target := Buffer | Null.
Definition send (k : target) (x : text) (g : logs) : logs :=
  match k with Buffer => mk_logs (l_buffer g ++ x) (l_terminal g) (l_held g) | Null => g end.
Definition to_terminal (release : bool) (x : text) (g : logs) : logs :=
  if release then g else mk_logs (l_buffer g) (l_terminal g ++ x) (l_held g).
(** channel.hpp:102-114: a value; in builds that are not releases it goes to the terminal too. *)
Definition channel_value (release : bool) (k : target) (x : text) (g : logs) : outcome logs :=
  locked (fun g => Ret (to_terminal release x (send k x g))) g.
(** channel.hpp:146-154: [std::endl]. *)
Definition channel_std_endl (release : bool) (k : target) (g : logs) : outcome logs :=
  locked (fun g => Ret (to_terminal release [10] (send k [10] g))) g.
(** channel.hpp:122-126 and 132-140: the manipulator [channel::endl]. *)
Definition channel_endl (release : bool) (k : target) (g : logs) : outcome logs :=
  locked (fun g => locked (fun g => match channel_std_endl release k g with
                                    | Ret g' => Ret (to_terminal release [10] g')
                                    | Throw => Throw
                                    | UB => UB
                                    end) g) g.
(** severity.hpp:33-58. *)
Definition severity_name (level : Z) : text :=
  codes (if level =? 0 then "trace"%string else if level =? 1 then "notice"%string else if level =? 2 then "warning"%string
         else if level =? 3 then "error"%string else ""%string).
(** log.hpp:116-134 [get] of a level known at compile time, without the name of a file, with 64-96: the prefix,
    sent here as one text. *)
Definition log_get (release : bool) (filter level : Z) (g : logs) : outcome (target * logs) :=
  if level <? filter then Ret (Null, g) else
  match channel_value release Buffer ([40] ++ severity_name level ++ [41; 32]) g with
  | Ret g' => Ret (Buffer, g')
  | Throw => Throw
  | UB => UB
  end.
(** log.hpp:144-150 [get] of a level at run time: no prefix. *)
Definition log_get_dynamic (filter level : Z) : target := if level <? filter then Null else Buffer.
(** A statement that logs a message with [std::endl] at the end. *)
Definition log_message (release : bool) (filter level : Z) (message : text) (g : logs) : outcome logs :=
  match log_get release filter level g with
  | Ret (k, g1) => match channel_value release k message g1 with
                   | Ret g2 => channel_std_endl release k g2
                   | Throw => Throw
                   | UB => UB
                   end
  | Throw => Throw
  | UB => UB
  end.
