(** C224: who takes part in a market that sends quotes. *)
From Coq Require Import ZifyBool ZifyNat.
From Verif Require Import Base Identity Walras Markets Markets_spec Markets_proofs Markets_props.

(** Over any number of acts, who the participants are makes no difference to the orders that count: with any others the quotes
    evolve in the same way, whoever has sent the orders... *)
Theorem C224_setter_refuted {D} solver (l : list (Z * Z * list (Z * letter D))) quotes participants others s mss :
  setter_acts solver l (new_setter quotes participants) = Ret (s, mss) ->
  exists s' mss', setter_acts solver l (new_setter quotes others) = Ret (s', mss') /\ s_quotes s' = s_quotes s /\ s_date s' = s_date s.
Proof.
  unfold new_setter. generalize false as c, 0 as d. intros c d. revert c quotes d s mss. induction l as [|[[lower upper] inbox] l IH]; intros c quotes d s mss H; cbn [setter_acts] in *.
  - injection H as <- <-. eexists _, _. split; [reflexivity|]. auto.
  - unfold setter_act in *. destruct (collect lower inbox []) as [orders st]. cbn [s_clearing s_quotes s_date s_participants] in *.
    destruct (match orders with [] => Ret quotes | _ :: _ => clear_quotes solver orders quotes end) as [q| |]; try discriminate.
    destruct ((negb c && (d =? 0)) || (d <? w64 (lower + match orders with [] => 0 | _ :: _ => 1 end))); destruct (setter_acts solver l _) as [[s1 m1]| |] eqn:E in H; try discriminate; injection H as <- <-;
      destruct (IH _ _ _ _ _ E) as (s' & mss' & -> & Q); eexists _, _; (split; [reflexivity|exact Q]).
Qed.
Print Assumptions C224_setter_refuted.
(** ...and the same for a market with an impact function. *)
Theorem C224_impact_refuted l quotes participants others :
  i_quotes (fst (impact_acts l (new_impact quotes others))) = i_quotes (fst (impact_acts l (new_impact quotes participants))).
Proof.
  unfold new_impact. generalize false as c. intros c. revert c quotes. induction l as [|[[lower upper] inbox] l IH]; intros c quotes; cbn [impact_acts]; [reflexivity|].
  unfold impact_act. cbn [i_clearing i_quotes i_participants].
  destruct (if c then _ else _) as [[q calls] next]. specialize (IH true q).
  destruct (impact_acts l (mk_impact true q others)) as [a b], (impact_acts l (mk_impact true q participants)) as [a' b']. exact IH.
Qed.
Print Assumptions C224_impact_refuted.
(** Quotes are sent to participants only. *)
Theorem C224_quotes {D} solver lower upper (inbox : list (Z * letter D)) s s' ms t n :
  setter_act solver lower upper inbox s = Ret (s', ms, t) -> In n ms -> In (n_recipient n) (s_participants s).
Proof.
  unfold setter_act. intros H I. destruct (collect lower inbox []) as [orders st]. destruct (match orders with [] => _ | _ => _ end) as [q| |]; try discriminate.
  destruct (_ || _); injection H as <- <- <-; [|destruct I]. apply in_map_iff in I as (p & <- & I). exact I.
Qed.
Print Assumptions C224_quotes.
(** Agent 9 is no participant; its order moves the price that the only participant, agent 1, is quoted. *)
Example C224_case :
  exists s mss, setter_acts demo_solver [(1, 2, []); (2, 3, [(2, Order [9] 2 11)])] (new_setter [([7], 100)] [[1]]) = Ret (s, mss) /\
  mss = [[mk_quotation [1] 1 [([7], 100)]]; [mk_quotation [1] 3 [([7], 110)]]].
Proof. do 2 eexists. split; vm_compute; reflexivity. Qed.
