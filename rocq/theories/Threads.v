(** Model of a whole run of a simulation with several threads - /repo/esl/computation/environment.cpp:202-270 with
    /repo/esl/simulation/model.cpp:90-255. *)
From Verif Require Import Base Identity Communicator Simulation Interval.

Section Threads.
Context {St : Type} (hash : identity -> Z) (shuffle : seed -> list message -> list message).
(** environment.cpp:202-270 as in Simulation.v, [run_from]; the steps with a number of threads.  Every execution that returns, with the times at
    which [step] was called. *)
Inductive threaded_run (threads : Z) : Z -> world St -> world St * list Z -> Prop :=
| run_last lower w w' next : ti_empty lower (w_end w) = false -> threaded_rounds hash shuffle threads lower (w_end w) 0 w (w', next) ->
    w_end w' <= next -> threaded_run threads lower w (w', [lower])
| run_more lower w w' next w2 ts : ti_empty lower (w_end w) = false -> threaded_rounds hash shuffle threads lower (w_end w) 0 w (w', next) ->
    next < w_end w' -> threaded_run threads next w' (w2, ts) -> threaded_run threads lower w (w2, lower :: ts).
End Threads.
