(** Model of copying a block pool - /repo/esl/computation/block_pool.hpp:79-150: the class declares no copy constructor, so
    the vector of blocks is copied and the pointers in it and to it go on pointing into the vector of the original.
    A pointer of the copy is the position of a block of its own or of one of the original's.  The original does not
    point into the copy and is used as before (BlockPool.v). *)
From Verif Require Import Base BlockPool.

Section PoolCopies.
Context {A : Type}.
Inductive pointer : Type := Own (i : nat) | Foreign (i : nat).
(** Lines 40-68. *)
Record cblock := mk_cblock { c_data : A; c_index : Z; c_next : option pointer }.
(** Lines 93-133. *)
Record cpool := mk_cpool {
  c_blocks : nat -> cblock; c_cap : Z; c_begin : option pointer; c_end : option pointer;
  c_round : Z; c_back : Z; c_highest : Z; c_size : Z }.
(** The implicit copy constructor. *)
Definition copy_pool (p : pool A) : cpool :=
  mk_cpool (fun i => mk_cblock (b_data (blocks p i)) (b_index (blocks p i)) (option_map Foreign (b_next (blocks p i))))
           (cap p) (option_map Foreign (begin_ p)) (option_map Foreign (end_ p)) (round_ p) (back_ p) (highest_ p) (size_ p).
Definition c_set (f : nat -> cblock) (i : nat) (b : cblock) : nat -> cblock := fun j => if Nat.eqb j i then b else f j.
(** Lines 209-250 [emplace] on the copy, with the index set as in static_order_book.hpp:543-545.  Subtracting pointers into
    different vectors (line 223) is undefined. *)
Definition c_store (c : cpool) (e : A) : outcome (cpool * Z) :=
  if c_size c >=? c_cap c then Throw
  else match c_end c with
  | None | Some (Foreign _) => UB
  | Some (Own i) =>
      let offset := Z.of_nat i in
      let '(round1, back1) := if c_back c >? offset then (w64 (c_round c + 1), offset) else (c_round c, w64 (c_back c + 1)) in
      let '(round2, back2) := if back1 >? c_cap c then (w64 (round1 + 1), 0) else (round1, back1) in
      let assigned2 := w64 (round2 * c_cap c + offset) in
      let '(round3, assigned3) := if assigned2 <? c_highest c then (w64 (round2 + 1), w64 (w64 (round2 + 1) * c_cap c + offset)) else (round2, assigned2) in
      Ret (mk_cpool (c_set (c_blocks c) i (mk_cblock e assigned3 (c_next (c_blocks c i)))) (c_cap c) (c_begin c) (c_next (c_blocks c i))
                    round3 back2 (Z.max (c_highest c) (w64 (assigned3 + 1))) (w64 (c_size c + 1)), assigned3)
  end.
(** Whether a pointer of the copy points to a block of its own at a position. *)
Definition points_to (x : option pointer) (i : nat) : bool := match x with Some (Own j) => Nat.eqb j i | _ => false end.
Definition c_slot (c : cpool) (h : Z) : nat := Z.to_nat (h mod c_cap c).
(** Lines 257-296 [erase] on the copy. *)
Definition c_erase (c : cpool) (h : Z) : cpool * Z :=
  let i := c_slot c h in
  let removed := c_blocks c i in
  if negb (c_index removed =? h) then (c, 0)
  else
    let begin' := if points_to (c_begin c) i then c_next removed else c_begin c in
    let blocks' := c_set (c_blocks c) i (mk_cblock (c_data removed) (c_index removed) (c_end c)) in
    if c_size c =? 0
    then (mk_cpool blocks' (c_cap c) begin' (Some (Own i)) (c_round c) (c_back c) (c_highest c) 0, 0)
    else (mk_cpool blocks' (c_cap c) begin' (Some (Own i)) (c_round c) (c_back c) (c_highest c) (c_size c - 1), 1).
(** Lines 301-304 [operator[]] on the copy. *)
Definition c_read (c : cpool) (h : Z) : A := c_data (c_blocks c (c_slot c h)).

(** Histories: what is stored and erased, and what is returned: handles and numbers of elements erased. *)
Inductive pool_operation := Store (e : A) | Erase (h : Z).
Definition pool_operate (p : pool A) (x : pool_operation) : outcome (pool A * Z) :=
  match x with Store e => store p e | Erase h => Ret (erase p h) end.
Definition c_operate (c : cpool) (x : pool_operation) : outcome (cpool * Z) :=
  match x with Store e => c_store c e | Erase h => Ret (c_erase c h) end.
Section History.
Context {P : Type} (operate : P -> pool_operation -> outcome (P * Z)).
Fixpoint history (p : P) (xs : list pool_operation) : outcome (P * list Z) :=
  match xs with
  | [] => Ret (p, [])
  | x :: xs' =>
      match operate p x with
      | Ret (p', r) => match history p' xs' with Ret (p2, rs) => Ret (p2, r :: rs) | Throw => Throw | UB => UB end
      | Throw => Throw
      | UB => UB
      end
  end.
End History.
End PoolCopies.
Arguments cpool : clear implicits.
Arguments pool_operation : clear implicits.
