(** Transfers written as numbers, for the examples: the bodies of messages are numbers in Communicator.v. *)
From stdpp Require Import countable.
From Verif Require Import Base Identity Inventory.

(** As tuples, which std++ can count. *)
Definition write_transfer (t : transfer) : Z := Zpos (encode (transferor t, transferee t, transferred t)).
Definition read_transfer (z : Z) : transfer :=
  match z with
  | Zpos n => match decode (A := list Z * list Z * list (list Z * Z)) n with Some (a, b, h) => mk_transfer a b h | None => mk_transfer [] [] [] end
  | _ => mk_transfer [] [] []
  end.
Lemma read_write t : read_transfer (write_transfer t) = t.
Proof. unfold read_transfer, write_transfer. rewrite decode_encode. now destruct t. Qed.
Example written : read_transfer (write_transfer (mk_transfer [1; 2] [3] [([4], 29)])) = mk_transfer [1; 2] [3] [([4], 29)].
Proof. vm_compute. reflexivity. Qed.
Print Assumptions read_write.
