(** Property theorems C167-C169: classes of messages. *)
From Verif Require Import Base Identity Money Money_proofs Communicator Communicator_spec Communicator_proofs Messages Messages_spec.
From Coq Require Import ZifyBool ZifyNat.
Local Open Scope Z_scope.

(** C167.  Every class of the library has a code of its own, outside of the codes of users. *)
Theorem C167_codes k k' : 2 ^ 63 <= kind_code k < 2 ^ 64 /\ (kind_code k = kind_code k' -> k = k') /\ forall user, 0 <= user < 2 ^ 63 -> kind_code k <> user.
Proof.
  assert (C : kind_code k = 2 ^ 63 + offset_of k) by (destruct k; reflexivity). assert (C' : kind_code k' = 2 ^ 63 + offset_of k') by (destruct k'; reflexivity).
  assert (B : 0 < offset_of k < 2 ^ 12) by (destruct k; cbn; lia).
  split; [lia|]. split; [|lia]. rewrite C, C'. intros H. assert (E : offset_of k = offset_of k') by lia. clear - E. destruct k, k'; try reflexivity; discriminate E.
Qed.
Print Assumptions C167_codes.
Theorem C167_all k : In k kinds.
Proof. destruct k; cbn; tauto. Qed.
Print Assumptions C167_all.
(** So the functions called for a message of one class are those that were registered for that class: in order of priority, each once. *)
Theorem C167_dispatch (A : Type) b (ds : list (handler A)) c lower upper s k m a :
  registers (new_communicator b) (map registration_of ds) c -> m_type m = kind_code k ->
  exists order ts a', call_order (map registration_of (handlers_for k ds)) order /\ calls m lower upper s (map r_callback order) a ts a' /\
    (Forall (within lower upper) ts -> process_message c lower upper s m a = Ret (a', earliest upper ts)) /\
    (~ Forall (within lower upper) ts -> process_message c lower upper s m a = UB).
Proof.
  intros R T. destruct (message_callbacks b _ c lower upper s m a R) as (order & ts & a' & O & H). exists order, ts, a'. split; [|exact H].
  replace (map registration_of (handlers_for k ds)) with (for_type (m_type m) (map registration_of ds)); [exact O|]. rewrite T. unfold for_type, handlers_for. clear.
  induction ds as [|d ds IH]; [reflexivity|]. cbn [map filter]. cbn [registration_of r_type]. destruct (kind_eq_dec (d_kind d) k) as [->|N].
  - rewrite Z.eqb_refl. cbn [map]. now rewrite IH.
  - destruct (Z.eqb_spec (kind_code (d_kind d)) (kind_code k)) as [E|_]; [|exact IH]. destruct (C167_codes (d_kind d) k) as (_ & I & _). exfalso. exact (N (I E)).
Qed.
Print Assumptions C167_dispatch.
Definition count_message (n : Z) : callback Z := fun _ _ upper _ a => (a + n, upper).
Example C167_case : kind_code WalrasQuote = 0x80000000000000A0 /\ kind_code DividendRecord = 0x8000000000000F01 /\
  let ds := [mk_handler WalrasQuote 0 (count_message 1); mk_handler WalrasOrder 0 (count_message 10)] in
  exists c, registers (new_communicator false) (map registration_of ds) c /\ process_message c 0 5 [] (base WalrasQuote [1] [2] 0 0 0) 100 = Ret (101, 5).
Proof. split; [reflexivity|]. split; [reflexivity|]. eexists. split; [repeat (econstructor; [reflexivity|]); constructor|reflexivity]. Qed.

(** C168.  A message that is made with a sender, times and contents, and sent with [create_message], is last in the outbox, with the class, the sender, the recipient and
    the time of delivery of the call, and the time it was sent.  For the classes that take times: *)
Theorem C168_addressed k sender recipient sent received body m asserts to delivery outbox : construct k sender recipient sent received body = Some m ->
  k <> Transfer -> k <> DividendAnnouncement -> to <> [] ->
  exists m', create_message asserts to delivery m outbox = Some (m', outbox ++ [m']) /\ addressed k sender to sent delivery m' /\ m_body m' = m_body m.
Proof.
  intros C T D R. unfold create_message. assert (L : asserts && (length to =? 0)%nat = false) by (destruct to; [contradiction|destruct asserts; reflexivity]). rewrite L. eexists. split; [reflexivity|].
  destruct k; try contradiction; try discriminate C; injection C as <-; repeat split.
Qed.
Print Assumptions C168_addressed.
(** Transfers and announcements of dividends are always sent at time zero. *)
Theorem C168_time_refuted k sender recipient sent received body asserts to delivery outbox : k = Transfer \/ k = DividendAnnouncement -> to <> [] ->
  exists m m', construct k sender recipient sent received body = Some m /\ create_message asserts to delivery m outbox = Some (m', outbox ++ [m']) /\
    addressed k sender to 0 delivery m' /\ (sent <> 0 -> ~ addressed k sender to sent delivery m').
Proof.
  intros K R. assert (L : asserts && (length to =? 0)%nat = false) by (destruct to; [contradiction|destruct asserts; reflexivity]).
  destruct K as [-> | ->]; (eexists; eexists; split; [reflexivity|]; unfold create_message; rewrite L; split; [reflexivity|]; split; [repeat split|intros N (_ & _ & _ & E & _); cbn in E; congruence]).
Qed.
Print Assumptions C168_time_refuted.
(** Replacements of orders, requests for positions and the messages of Python can not be made with a sender: they have none, unless it is assigned. *)
Theorem C168_sender_refuted k : (forall sender recipient sent received body, construct k sender recipient sent received body = None) <->
  k = ReplaceOrder \/ k = PositionRequest \/ k = PythonMessage \/ k = PythonQuote.
Proof.
  split.
  - intros H. specialize (H [] [] 0 0 0). destruct k; try discriminate H; tauto.
  - intros [-> |[-> |[-> | ->]]]; reflexivity.
Qed.
Print Assumptions C168_sender_refuted.
Theorem C168_default k m to delivery outbox asserts : default k = Some m -> to <> [] ->
  exists m', create_message asserts to delivery m outbox = Some (m', outbox ++ [m']) /\ addressed k [] to 0 delivery m'.
Proof.
  intros C R. unfold create_message. assert (L : asserts && (length to =? 0)%nat = false) by (destruct to; [contradiction|destruct asserts; reflexivity]). rewrite L. eexists. split; [reflexivity|].
  destruct k; try discriminate C; injection C as <-; repeat split.
Qed.
Print Assumptions C168_default.
(** The contents given to the constructor are kept by those that take them. *)
Theorem C168_contents k sender recipient sent received body m : construct k sender recipient sent received body = Some m ->
  In k [Transfer; WalrasQuote; ImpactQuote; OrderStatusResponse; MarketDataRequest; DividendAnnouncement; DividendRecord] -> m_body m = body.
Proof. intros C I. cbn in I. repeat (destruct I as [<-|I]; [injection C as <-; reflexivity|]). destruct I. Qed.
Print Assumptions C168_contents.
(** A recipient without identity is not accepted when assertions are on. *)
Theorem C168_nobody delivery m outbox : create_message true [] delivery m outbox = None.
Proof. reflexivity. Qed.
Print Assumptions C168_nobody.
Example C168_case : exists m m', construct WalrasQuote [1] [2] 3 4 7 = Some m /\ create_message true [2; 1] 9 m [] = Some (m', [m']) /\ m_received m' = 9 /\ m_recipient m' = [2; 1] /\ m_sent m' = 3.
Proof. do 2 eexists. repeat split. Qed.

(** C169.  A reply to a quote goes back to who made it, from who received it, at the time it was received. *)
Theorem C169_reply k q m : reply k q = Some m -> addressed k (m_recipient q) (m_sender q) (m_received q) (m_received q) m.
Proof. intros H. destruct k; try discriminate. injection H as <-. repeat split. Qed.
Print Assumptions C169_reply.
(** A reply to the quotes of the market with differentiable orders can be made; one to the quotes of the other market can not. *)
Theorem C169_walras q : exists m, reply WalrasOrder q = Some m.
Proof. eexists. reflexivity. Qed.
Print Assumptions C169_walras.
Theorem C169_impact_refuted q : reply ImpactOrder q = None.
Proof. reflexivity. Qed.
Print Assumptions C169_impact_refuted.
Example C169_case : match reply WalrasOrder (base WalrasQuote [1] [2] 3 4 0) with Some m => m_sender m = [2] /\ m_recipient m = [1] /\ m_sent m = 4 | None => False end.
Proof. repeat split. Qed.
