From Verif Require Import Base Text Identity Money Archives Archives_spec Archives_proofs.
From Verif Require Messages.
From Coq Require Import ZifyBool ZifyNat.
Local Open Scope list_scope.
Local Open Scope Z_scope.

(** * C150 *)
(** A header that is archived on its own is restored. *)
Theorem C150_header : restores save_head load_head /\
  forall side l rest, plain l -> load_letter side (save_letter l ++ rest) = Ret (l, rest).
Proof. split; [exact head_restores|]. intros side l rest P. rewrite letter_read. unfold read_back. now rewrite P. Qed.
Print Assumptions C150_header.
(** Transfers and dividend records are restored with their contents and the code of their class. *)
Theorem C150_contents side l rest : (exists f t g, l_body l = Transfer f t g) \/ (exists s, l_body l = Record_ s) ->
  exists l', load_letter side (save_letter l ++ rest) = Ret (l', rest) /\ l_body l' = l_body l /\ h_type (l_head l') = code_of (l_body l).
Proof. intros H. exists (read_back side l). split; [apply letter_read|]. destruct l as [h b]. cbn in H. destruct H as [(f & t & g & ->)|[s ->]]; split; reflexivity. Qed.
Print Assumptions C150_contents.
(** The codes are those that the classes are declared with, so that a message that was read is handled as its class. *)
Theorem C150_codes side l rest : ~ plain l ->
  exists l', load_letter side (save_letter l ++ rest) = Ret (l', rest) /\
    (h_type (l_head l') = Messages.kind_code Messages.Transfer <-> exists f t g, l_body l = Transfer f t g) /\
    (h_type (l_head l') = Messages.kind_code Messages.DividendRecord <-> exists s, l_body l = Record_ s) /\
    (h_type (l_head l') = Messages.kind_code Messages.WalrasOrder <-> exists d, l_body l = Demand d) /\
    (h_type (l_head l') = Messages.kind_code Messages.ImpactOrder <-> exists b v, l_body l = Volumes b v).
Proof.
  intros P. exists (read_back side l). split; [apply letter_read|]. destruct l as [h b]. unfold plain in P. cbn in P.
  destruct b; [contradiction| | | |]; cbn; (split; [|split; [|split]]); split; intros H; try discriminate H; try reflexivity; try (repeat eexists); firstorder discriminate.
Qed.
Print Assumptions C150_codes.
(** No message but a plain header has its sender, its recipient and its times back. *)
Theorem C150_header_refuted side l rest : ~ plain l ->
  exists l', load_letter side (save_letter l ++ rest) = Ret (l', rest) /\
    h_sender (l_head l') = [] /\ h_recipient (l_head l') = [] /\ h_sent (l_head l') = 0 /\ h_received (l_head l') = 0.
Proof. intros P. exists (read_back side l). split; [apply letter_read|]. destruct l as [h b]. unfold plain in P. cbn in P. destruct b; [contradiction| | | |]; repeat split. Qed.
Print Assumptions C150_header_refuted.
(** Two transfers to different recipients are the same in the archive. *)
Theorem C150_recipient_refuted l r : ~ plain l -> h_recipient (l_head l) <> r ->
  lost save_letter l (mk_letter (mk_head (h_type (l_head l)) (h_sender (l_head l)) r (h_sent (l_head l)) (h_received (l_head l))) (l_body l)).
Proof.
  intros P N. split.
  - intros E. apply N. rewrite E. reflexivity.
  - intros load. f_equal. unfold save_letter. cbn [l_body]. destruct l as [h b]. unfold plain in P. cbn in *. destruct b; [contradiction|reflexivity..].
Qed.
Print Assumptions C150_recipient_refuted.
(** The demands and volumes of orders are lost. *)
Theorem C150_orders_refuted h d v side : d <> [] -> v <> [] ->
  lost save_letter (mk_letter h (Demand d)) (mk_letter h (Demand [])) /\ lost save_letter (mk_letter h (Volumes side v)) (mk_letter h (Volumes side [])).
Proof. intros D V. split; (split; [intros E; injection E; congruence|reflexivity]). Qed.
Print Assumptions C150_orders_refuted.
Definition payment : letter := mk_letter (mk_head (2 ^ 63 + 2) [1] [2; 5] 10 11) (Transfer [1] [2; 5] [([0; 7], 250); ([0; 9], 3)]).
Example C150_example : ~ plain payment /\ addressed payment /\
  load_letter false (save_letter payment ++ [INum 9]) = Ret (mk_letter (mk_head (2 ^ 63 + 2) [] [] 0 0) (l_body payment), [INum 9]) /\
  load_letter false (save_letter (mk_letter (l_head payment) Plain)) = Ret (mk_letter (l_head payment) Plain, []).
Proof. split; [discriminate|]. split; [discriminate|]. split; reflexivity. Qed.

(** * C151 *)
(** An agent whose mail is plain headers is restored, but for its callbacks; the children it creates afterwards have the
    identities they would have had. *)
Theorem C151_restored side target x rest : Forall (fun p => plain (snd p)) (a_inbox x) -> Forall plain (a_outbox x) ->
  exists y, load_agent side target (save_agent x ++ rest) = Ret (y, rest) /\
    a_identity y = a_identity x /\ a_inbox y = a_inbox x /\ a_outbox y = a_outbox x /\ a_locked y = a_locked x /\ a_random y = a_random x /\
    fst (create_child y) = a_identity x ++ [a_children x] /\ fst (create_child (snd (create_child y))) = a_identity x ++ [w64 (a_children x + 1)].
Proof.
  intros I O. rewrite agent_read. eexists. split; [reflexivity|]. unfold create_child. cbn. repeat split.
  - clear -I. induction I as [|[t l] m P _ IH]; [reflexivity|]. cbn in *. unfold read_back at 1. rewrite P. cbn. congruence.
  - clear -O. induction O as [|l m P _ IH]; [reflexivity|]. cbn. unfold read_back at 1. rewrite P. congruence.
Qed.
Print Assumptions C151_restored.
(** Whatever its mail, identities go on. *)
Theorem C151_children side target x rest : exists y, load_agent side target (save_agent x ++ rest) = Ret (y, rest) /\ 
  fst (create_child y) = a_identity x ++ [a_children x] /\ fst (create_child (snd (create_child y))) = a_identity x ++ [w64 (a_children x + 1)] /\
  length (a_inbox y) = length (a_inbox x) /\ map fst (a_inbox y) = map fst (a_inbox x) /\ length (a_outbox y) = length (a_outbox x).
Proof. rewrite agent_read. eexists. split; [reflexivity|]. unfold create_child. cbn. rewrite !map_length, map_map. cbn. repeat split. Qed.
Print Assumptions C151_children.
(** Messages other than plain headers that the agent was about to send have nobody to go to. *)
Theorem C151_mail_refuted side target x rest l : In l (a_outbox x) -> ~ plain l ->
  exists y l', load_agent side target (save_agent x ++ rest) = Ret (y, rest) /\ In l' (a_outbox y) /\ ~ addressed l' /\ h_sender (l_head l') = [].
Proof.
  intros I P. rewrite agent_read. eexists. exists (read_back side l). split; [reflexivity|]. cbn. split; [now apply in_map|].
  destruct l as [h b]. unfold plain in P. cbn in P. unfold addressed, read_back. destruct b; [contradiction| | | |]; cbn; auto.
Qed.
Print Assumptions C151_mail_refuted.
(** The callbacks are those of the object read into. *)
Theorem C151_callbacks_refuted side target x rest : exists y, load_agent side target (save_agent x ++ rest) = Ret (y, rest) /\ a_callbacks y = a_callbacks target.
Proof. rewrite agent_read. eexists. split; reflexivity. Qed.
Print Assumptions C151_callbacks_refuted.
Definition demo_agent : agent := mk_agent [0; 4] 2 [(3, mk_letter (mk_head 7 [0; 1] [0; 4] 2 3) Plain)] [payment] true false [7; 2 ^ 63 + 2].
Example C151_example : load_agent false (mk_agent [] 0 [] [] false true []) (save_agent demo_agent) =
    Ret (mk_agent [0; 4] 2 (a_inbox demo_agent) [mk_letter (mk_head (2 ^ 63 + 2) [] [] 0 0) (l_body payment)] true false [], []) /\
  fst (create_child demo_agent) = [0; 4; 2].
Proof. split; reflexivity. Qed.

(** * C152 *)
Theorem C152_restored : restores save_identity load_identity /\ restores save_country load_country /\ restores save_jurisdiction load_jurisdiction /\
  restores save_natural_person load_natural_person /\ restores save_government load_government /\ restores save_share load_share /\
  restores save_interval load_interval /\ restores save_goods load_goods.
Proof.
  split; [exact identity_restores|]. split; [exact country_restores|]. split; [exact jurisdiction_restores|].
  split; [intros [c] rest; apply map_restores, country_restores|]. split; [intros [t] rest; reflexivity|].
  split; [exact share_restores|]. split; [intros [l u] rest; reflexivity|exact goods_restores].
Qed.
Print Assumptions C152_restored.
Example C152_example : load_jurisdiction (save_jurisdiction (mk_jurisdiction (mk_country 78 76) (mk_currency 69 85 82 100))) =
    Ret (mk_jurisdiction (mk_country 78 76) (mk_currency 69 85 82 100), []) /\
  load_share (save_share (mk_share 2 1 0 true false true)) = Ret (mk_share 2 1 0 true false true, []).
Proof. split; reflexivity. Qed.

(** * C153 *)
(** Nothing of the times measured is archived. *)
Theorem C153_timing_refuted s t target rest : load_timing target (save_timing s ++ rest) = Ret (target, rest) /\ (s <> t -> lost save_timing s t).
Proof. split; [reflexivity|]. intros N. split; [exact N|reflexivity]. Qed.
Print Assumptions C153_timing_refuted.
Example C153_example : load_timing (mk_timing 0 0) (save_timing (mk_timing 12 340)) = Ret (mk_timing 0 0, []).
Proof. reflexivity. Qed.
