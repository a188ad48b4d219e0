(** Specifications for the classes of messages. *)
From Verif Require Import Base Identity Communicator Communicator_spec Messages.
Local Open Scope Z_scope.

(** All classes. *)
Definition kinds : list kind :=
  [PythonMessage; Transfer; WalrasQuote; WalrasOrder; ImpactQuote; ImpactOrder; PythonQuote; Logon; Logout; MarketDataRequest; OrderStatusRequest;
   OrderStatusResponse; NewOrderSingle; NewOrderList; CancelOrder; ReplaceOrder; ExecutionReport; PositionRequest; MarketData; DividendAnnouncement; DividendRecord].
Definition kind_eq_dec (a b : kind) : {a = b} + {a <> b}. Proof. decide equality. Defined.
(** A handler for one class of messages: the class, the priority, the function. *)
Record handler (A : Type) := mk_handler { d_kind : kind; d_priority : Z; d_function : callback A }.
Arguments mk_handler {A}. Arguments d_kind {A}. Arguments d_priority {A}. Arguments d_function {A}.
Definition registration_of {A} (d : handler A) : registration A := mk_registration (kind_code (d_kind d)) (d_priority d) (d_function d).
Definition handlers_for {A} (k : kind) (ds : list (handler A)) : list (handler A) := filter (fun d => if kind_eq_dec (d_kind d) k then true else false) ds.
(** A message of class [k] from [sender] to [recipient], sent at [sent] and delivered at [received]. *)
Definition addressed (k : kind) (sender recipient : identity) (sent received : Z) (m : message) : Prop :=
  m_type m = kind_code k /\ m_sender m = sender /\ m_recipient m = recipient /\ m_sent m = sent /\ m_received m = received.
