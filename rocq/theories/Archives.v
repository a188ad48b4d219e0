(** Model of what the classes of the library write to an archive and read back: messages, agents and small records —
    /repo/esl/interaction/{header,message,transfer,communicator}.hpp, /repo/esl/agent.hpp,
    /repo/esl/simulation/{entity,identity}.hpp, /repo/esl/law, /repo/esl/economics/finance, /repo/esl/economics/markets,
    /repo/esl/computation/timing.hpp.
    An archive is the sequence of items of Money.v. Containers are a count and their elements (the library of archives
    does this, it is not part of /repo). Properties that a map refers to by pointer are written as their identities
    (simplification). An item that is not the expected one is undefined here. *)
From Verif Require Import Base Text Identity Money.
Local Open Scope list_scope.
Local Open Scope Z_scope.

Definition reader (A : Type) : Type := list item -> outcome (A * list item).
Definition load_number : reader Z := fun a => match a with INum z :: a' => Ret (z, a') | _ => UB end.
Definition load_text : reader (list Z) := fun a => match a with IText s :: a' => Ret (s, a') | _ => UB end.
Definition load_both {A B} (f : reader A) (g : reader B) : reader (A * B) :=
  fun a => bind (f a) (fun xa => bind (g (snd xa)) (fun yb => Ret ((fst xa, fst yb), snd yb))).
Definition load_map {A B} (h : A -> B) (f : reader A) : reader B := fun a => bind (f a) (fun xa => Ret (h (fst xa), snd xa)).
Fixpoint load_times {A} (f : reader A) (n : nat) : reader (list A) :=
  match n with
  | O => fun a => Ret ([], a)
  | S n' => load_map (fun p => fst p :: snd p) (load_both f (load_times f n'))
  end.
Definition save_all {A} (save : A -> list item) (l : list A) : list item := INum (Z.of_nat (length l)) :: flat_map save l.
Definition load_all {A} (f : reader A) : reader (list A) := fun a => bind (load_number a) (fun na => load_times f (Z.to_nat (fst na)) (snd na)).

(** identity.hpp:347-352. *)
Definition save_identity (i : identity) : list item := save_all (fun d => [INum d]) i.
Definition load_identity : reader identity := load_all load_number.
(** quantity.hpp:340-345 in a map from properties to quantities (inventory.hpp:268-273). *)
Definition save_goods (g : list (identity * Z)) : list item := save_all (fun p => save_identity (fst p) ++ [INum (snd p)]) g.
Definition load_goods : reader (list (identity * Z)) := load_all (load_both load_identity load_number).

(** ** Small records *)
(** iso_3166_1_alpha_2.hpp:95-101: two characters, in a fixed array. *)
Record country := mk_country { k0 : Z; k1 : Z }.
Definition save_country (c : country) : list item := [IText [k0 c; k1 c]].
Definition load_country : reader country := fun a => match a with IText [x; y] :: a' => Ret (mk_country x y, a') | _ => UB end.
(** jurisdiction.hpp:60-68. *)
Record jurisdiction := mk_jurisdiction { sovereign : country; tender : currency }.
Definition save_jurisdiction (j : jurisdiction) : list item := save_country (sovereign j) ++ save_currency (tender j).
Definition load_jurisdiction : reader jurisdiction := load_map (fun p => mk_jurisdiction (fst p) (snd p)) (load_both load_country load_currency).
(** natural_person.hpp:49-54 and government.hpp:43-48. *)
Record natural_person := mk_natural_person { nationality : country }.
Definition save_natural_person (p : natural_person) : list item := save_country (nationality p).
Definition load_natural_person : reader natural_person := load_map mk_natural_person load_country.
Record government := mk_government { title : list Z }.
Definition save_government (g : government) : list item := [IText (title g)].
Definition load_government : reader government := load_map mk_government load_text.
(** share_class.hpp:115-127; the preference, a [float], as its bits; Booleans as numbers. *)
Record share_class := mk_share { rank : Z; votes : Z; preference : Z; pays : bool; cumulative : bool; redeemable : bool }.
Definition bit (b : bool) : Z := if b then 1 else 0.
Definition save_share (s : share_class) : list item :=
  [INum (rank s); INum (votes s); INum (preference s); INum (bit (pays s)); INum (bit (cumulative s)); INum (bit (redeemable s))].
Definition load_share : reader share_class := fun a =>
  match a with
  | INum r :: INum v :: INum p :: INum d :: INum c :: INum e :: a' => Ret (mk_share r v p (negb (d =? 0)) (negb (c =? 0)) (negb (e =? 0)), a')
  | _ => UB
  end.
(** interval.hpp:189-195. *)
Definition save_interval (i : Z * Z) : list item := [INum (fst i); INum (snd i)].
Definition load_interval : reader (Z * Z) := load_both load_number load_number.
(** timing.hpp:54-68: the two values are named, but not given to the archive. *)
Record timing := mk_timing { messaging : Z; acting : Z }.
Definition save_timing (t : timing) : list item := [].
Definition load_timing (target : timing) : reader timing := fun a => Ret (target, a).

(** ** Messages
    header.hpp:73-107. *)
Record head := mk_head { h_type : Z; h_sender : identity; h_recipient : identity; h_sent : Z; h_received : Z }.
(** What a message has besides: nothing (an object of the class [header]), or the members of one of the classes
    transfer.hpp:52-68, dividend.hpp:141-149, differentiable_order_message.hpp:42-51, impact_function/order.hpp:37-46. *)
Inductive body :=
| Plain
| Transfer (from to : identity) (goods : list (identity * Z))
| Record_ (shares : list (share_class * Z))
| Demand (supply : list (identity * (Z * Z)))
| Volumes (side : bool) (volumes : list (identity * (Z * bool))).
Record letter := mk_letter { l_head : head; l_body : body }.
(** The class of the object, which the archive records for pointers. *)
Definition class_of (b : body) : Z := match b with Plain => 0 | Transfer _ _ _ => 1 | Record_ _ => 2 | Demand _ => 3 | Volumes _ _ => 4 end.
(** header.hpp:42-57 [library_message_code] of the offset in the declaration of the class. *)
Definition code_of (b : body) : Z :=
  match b with
  | Plain => 0
  | Transfer _ _ _ => 2 ^ 63 + 2
  | Record_ _ => 2 ^ 63 + 3841
  | Demand _ => 2 ^ 63 + 162
  | Volumes _ _ => 2 ^ 63 + 178
  end.
(** header.hpp:154-163. *)
Definition save_head (h : head) : list item :=
  [INum (h_type h)] ++ save_identity (h_sender h) ++ save_identity (h_recipient h) ++ [INum (h_sent h); INum (h_received h)].
Definition load_head : reader head :=
  load_map (fun p => mk_head (fst p) (fst (fst (snd p))) (snd (fst (snd p))) (fst (snd (snd p))) (snd (snd (snd p))))
    (load_both load_number (load_both (load_both load_identity load_identity) (load_both load_number load_number))).
(** The default constructors, message.hpp:42-55. *)
Definition new_head (code : Z) : head := mk_head code [] [] 0 0.
(** message.hpp:71-87: the base [header] is named, but not given to the archive; the other bases write nothing.
    transfer.hpp:96-107; dividend.hpp:171-183; differentiable_order_message.hpp:60-71 (its bases, with order_message.hpp:68-77
    and differentiable_demand_supply_function.hpp, write nothing, and [supply] is not written); impact_function/order.hpp:59-66. *)
Definition save_letter (l : letter) : list item :=
  INum (class_of (l_body l)) ::
  match l_body l with
  | Plain => save_head (l_head l)
  | Transfer from to goods => save_identity from ++ save_identity to ++ save_goods goods
  | Record_ shares => save_all (fun p => save_share (fst p) ++ [INum (snd p)]) shares
  | Demand _ => []
  | Volumes _ _ => []
  end.
(** Reading makes an object of the class that was recorded with its default constructor, and then reads what the class
    has written. The member [side] of a new order has no value; [side] stands for what is there. *)
Definition load_letter (side : bool) : reader letter := fun a =>
  bind (load_number a) (fun ka =>
    let k := fst ka in
    if k =? 0 then load_map (fun h => mk_letter h Plain) load_head (snd ka)
    else if k =? 1 then
      load_map (fun p => let b := Transfer (fst (fst p)) (snd (fst p)) (snd p) in mk_letter (new_head (code_of b)) b)
        (load_both (load_both load_identity load_identity) load_goods) (snd ka)
    else if k =? 2 then
      load_map (fun s => mk_letter (new_head (code_of (Record_ s))) (Record_ s)) (load_all (load_both load_share load_number)) (snd ka)
    else if k =? 3 then Ret (mk_letter (new_head (code_of (Demand []))) (Demand []), snd ka)
    else if k =? 4 then Ret (mk_letter (new_head (code_of (Volumes side []))) (Volumes side []), snd ka)
    else Throw).

(** ** Agents
    entity.hpp:76-86, communicator.hpp:120-160: identity, number of children, the mail, whether the callbacks are locked, the
    schedule (random or in order), the callbacks (here: the codes of their messages). Outputs are the subject of
    Outputs.v. *)
Record agent := mk_agent { a_identity : identity; a_children : Z; a_inbox : list (Z * letter); a_outbox : list letter;
  a_locked : bool; a_random : bool; a_callbacks : list Z }.
(** agent.hpp:98-106 with entity.hpp:210-217 and communicator.hpp:297-305: the callbacks are not written. *)
Definition save_agent (x : agent) : list item :=
  save_identity (a_identity x) ++ [INum (a_children x)] ++
  save_all (fun p => INum (fst p) :: save_letter (snd p)) (a_inbox x) ++ save_all save_letter (a_outbox x) ++
  [INum (bit (a_locked x)); INum (bit (a_random x))].
Definition load_agent (side : bool) (target : agent) : reader agent :=
  load_map (fun p =>
      let '((i, n), ((inbox, outbox), (locked, random))) := p in
      mk_agent i n inbox outbox (negb (locked =? 0)) (negb (random =? 0)) (a_callbacks target))
    (load_both (load_both load_identity load_number)
      (load_both (load_both (load_all (load_both load_number (load_letter side))) (load_all (load_letter side))) (load_both load_number load_number))).
(** entity.hpp:120-128 [create]. *)
Definition create_child (x : agent) : identity * agent :=
  (a_identity x ++ [a_children x],
   mk_agent (a_identity x) (w64 (a_children x + 1)) (a_inbox x) (a_outbox x) (a_locked x) (a_random x) (a_callbacks x)).
