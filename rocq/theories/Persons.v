(** Model of what owners of property, legal persons and companies write to an archive and read back -
    /repo/esl/economics/owner.hpp:107-115, 260-269, /repo/esl/law/legal_person.hpp:50-162, /repo/esl/law/organization.hpp:54-59,
    /repo/esl/law/legal_entity.hpp:178-186, /repo/esl/economics/finance/shareholder.hpp:55-106,
    /repo/esl/economics/company.hpp:65-103, 159-172. Archives are as in Archives.v. *)
From Verif Require Import Base Text Identity Money Archives.
Local Open Scope list_scope.
Local Open Scope Z_scope.

(** ** Owners: the property, and the part of it of one type, which is kept separately (owner.hpp:193). *)
Record owner := mk_owner { o_agent : agent; o_inventory : list (identity * Z); o_view : list (identity * Z) }.
(** owner.hpp:107-115 and 260-269: agent and inventory; the view is a comment. *)
Definition save_owner (x : owner) : list item := save_agent (o_agent x) ++ save_goods (o_inventory x).
Definition load_owner (side : bool) (target : owner) : reader owner :=
  load_map (fun p => mk_owner (fst p) (snd p) (o_view target)) (load_both (load_agent side (o_agent target)) load_goods).

(** ** Legal persons: a legal entity, a natural person or a government (legal_person.hpp:54). *)
Inductive represented := Entity (local code : list Z) | Natural (p : natural_person) | Sovereign (g : government).
Record person := mk_person { p_owner : owner; p_represented : represented; p_jurisdiction : jurisdiction }.
(** legal_person.hpp:102-122 [save]: the number of the alternative, and it (legal_entity.hpp:178-186). *)
Definition save_represented (r : represented) : list item :=
  match r with
  | Entity local code => [INum 0; IText local; IText code]
  | Natural p => INum 1 :: save_natural_person p
  | Sovereign g => INum 2 :: save_government g
  end.
(** legal_person.hpp:124-143 [load]: another number leaves what is there. *)
Definition load_represented (target : represented) : reader represented := fun a =>
  bind (load_number a) (fun ka =>
    if fst ka =? 0 then load_map (fun p => Entity (fst p) (snd p)) (load_both load_text load_text) (snd ka)
    else if fst ka =? 1 then load_map Natural load_natural_person (snd ka)
    else if fst ka =? 2 then load_map Sovereign load_government (snd ka)
    else Ret (target, snd ka)).
(** legal_person.hpp:145-152: the base class [agent], not the base class [owner]. *)
Definition save_person (x : person) : list item := save_agent (o_agent (p_owner x)) ++ save_represented (p_represented x) ++ save_jurisdiction (p_jurisdiction x).
Definition load_person (side : bool) (target : person) : reader person :=
  load_map (fun p => mk_person (mk_owner (fst p) (o_inventory (p_owner target)) (o_view (p_owner target))) (fst (snd p)) (snd (snd p)))
    (load_both (load_agent side (o_agent (p_owner target))) (load_both (load_represented (p_represented target)) load_jurisdiction)).

(** ** Companies *)
Definition class_counts : Type := list (share_class * Z).
Record firm := mk_firm {
  f_person : person;
  f_shares : list (identity * class_counts);                  (* shareholder.hpp:81: shares of other companies *)
  f_dates : list (Z * identity);                              (* shareholder.hpp:90-91: ex-dividend dates *)
  f_stocks : list ((identity * share_class) * identity);      (* shareholder.hpp:65-66: the property that stands for the shares *)
  f_outstanding : class_counts;                               (* company.hpp:70 *)
  f_holders : list (identity * class_counts);                 (* company.hpp:75-77 *)
  f_announced : Z;                                            (* company.hpp:101 *)
  f_payment : Z }.                                            (* company.hpp:103 *)
Definition save_counts (c : class_counts) : list item := save_all (fun p => save_share (fst p) ++ [INum (snd p)]) c.
Definition load_counts : reader class_counts := load_all (load_both load_share load_number).
Definition save_holdings (m : list (identity * class_counts)) : list item := save_all (fun p => save_identity (fst p) ++ save_counts (snd p)) m.
Definition load_holdings : reader (list (identity * class_counts)) := load_all (load_both load_identity load_counts).
Definition save_dates (d : list (Z * identity)) : list item := save_all (fun p => [INum (fst p)] ++ save_identity (snd p)) d.
Definition load_dates : reader (list (Z * identity)) := load_all (load_both load_number load_identity).
(** company.hpp:159-172 with organization.hpp:54-59 and shareholder.hpp:100-106. *)
Definition save_firm (x : firm) : list item :=
  save_person (f_person x) ++ (save_holdings (f_shares x) ++ save_dates (f_dates x)) ++ (save_counts (f_outstanding x) ++ save_holdings (f_holders x)).
Definition load_firm (side : bool) (target : firm) : reader firm :=
  load_map (fun p => let '(x, ((shares, dates), (outstanding, holders))) := p in
      mk_firm x shares dates (f_stocks target) outstanding holders (f_announced target) (f_payment target))
    (load_both (load_person side (f_person target)) (load_both (load_both load_holdings load_dates) (load_both load_counts load_holdings))).
(** The object that reading starts with: legal_person.hpp:61-65 (a legal entity 0, in the United States), company.cpp:82-99. *)
Definition new_agent : agent := mk_agent [] 0 [] [] false true [].
Definition new_person : person := mk_person (mk_owner new_agent [] []) (Entity [48; 0; 0; 0] [48; 0; 0; 0; 0; 0; 0; 0; 0; 0; 0; 0])
  (mk_jurisdiction (mk_country 85 83) (mk_currency 85 83 68 100)).
Definition new_firm : firm := mk_firm new_person [] [] [] [] [] 0 0.
