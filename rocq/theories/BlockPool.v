(** Model of /repo/esl/computation/block_pool.hpp (release build: the DEBUG members are absent).
    Pointers into the vector of blocks are positions, a null pointer is [None]. *)
From Verif Require Import Base.

Section BlockPool.
Context {A : Type}.
(** Lines 40-68. *)
Record block := mk_block { b_data : A; b_index : Z; b_next : option nat }.
(** Lines 93-133 (an array is a function on positions, used below the capacity only). *)
Record pool := mk_pool {
  blocks : nat -> block; cap : Z; begin_ : option nat; end_ : option nat;
  round_ : Z; back_ : Z; highest_ : Z; size_ : Z }.
Definition set_block (f : nat -> block) (i : nat) (b : block) : nat -> block := fun j => if Nat.eqb j i then b else f j.
(** Lines 137-150, with the default value of the element type.  Capacity 0 writes out of bounds. *)
Definition new_pool (default : A) (capacity : Z) : outcome pool :=
  if capacity <=? 0 then UB
  else Ret (mk_pool (fun i => mk_block default 0 (if Z.of_nat i + 1 <? capacity then Some (S i) else None))
                    capacity (Some 0%nat) (Some 0%nat) 0 0 0 0).
(** Lines 209-250 [emplace]: the handle assigned and the position of the block. *)
Definition emplace (p : pool) (e : A) : outcome (pool * Z * nat) :=
  if size_ p >=? cap p then Throw
  else match end_ p with
  | None => UB
  | Some i =>
      let offset := Z.of_nat i in
      let '(round1, back1) := if back_ p >? offset then (w64 (round_ p + 1), offset) else (round_ p, w64 (back_ p + 1)) in
      let '(round2, back2) := if back1 >? cap p then (w64 (round1 + 1), 0) else (round1, back1) in
      let assigned2 := w64 (round2 * cap p + offset) in
      let '(round3, assigned3) := if assigned2 <? highest_ p then (w64 (round2 + 1), w64 (w64 (round2 + 1) * cap p + offset)) else (round2, assigned2) in
      let old := blocks p i in
      Ret (mk_pool (set_block (blocks p) i (mk_block e (b_index old) (b_next old))) (cap p) (begin_ p) (b_next old)
                   round3 back2 (Z.max (highest_ p) (w64 (assigned3 + 1))) (w64 (size_ p + 1)), assigned3, i)
  end.
(** [block->index = handle], which [emplace] leaves to its caller
    (economics/markets/order_book/static_order_book.hpp:543-545). *)
Definition set_index (p : pool) (i : nat) (h : Z) : pool :=
  mk_pool (set_block (blocks p) i (mk_block (b_data (blocks p i)) h (b_next (blocks p i)))) (cap p) (begin_ p) (end_ p)
          (round_ p) (back_ p) (highest_ p) (size_ p).
(** An element stored the way static_order_book.hpp:534-545 does. *)
Definition store (p : pool) (e : A) : outcome (pool * Z) :=
  match emplace p e with Ret (p', h, i) => Ret (set_index p' i h, h) | Throw => Throw | UB => UB end.
Definition slot (p : pool) (h : Z) : nat := Z.to_nat (h mod cap p).
(** Lines 257-296 [erase]. *)
Definition same_pointer (a b : option nat) : bool :=
  match a, b with Some i, Some j => Nat.eqb i j | None, None => true | _, _ => false end.
Definition erase (p : pool) (h : Z) : pool * Z :=
  let i := slot p h in
  let removed := blocks p i in
  if negb (b_index removed =? h) then (p, 0)
  else
    let begin' := if same_pointer (begin_ p) (Some i) then b_next removed else begin_ p in
    let blocks' := set_block (blocks p) i (mk_block (b_data removed) (b_index removed) (end_ p)) in
    if size_ p =? 0
    then (mk_pool blocks' (cap p) begin' (Some i) (round_ p) (back_ p) (highest_ p) 0, 0)
    else (mk_pool blocks' (cap p) begin' (Some i) (round_ p) (back_ p) (highest_ p) (size_ p - 1), 1).
(** Lines 301-304 [operator[]]. *)
Definition read (p : pool) (h : Z) : A := b_data (blocks p (slot p h)).
End BlockPool.
Arguments block : clear implicits.
Arguments pool : clear implicits.
