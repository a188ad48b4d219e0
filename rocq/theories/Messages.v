(** Model of the classes of messages in the library - their codes, their construction, and replies.
    /repo/esl/interaction/message.hpp, header.hpp, communicator.hpp and the classes cited below. *)
From Verif Require Import Base Identity Money Communicator.
Local Open Scope Z_scope.

(** The classes of messages that the library declares. *)
Inductive kind :=
| PythonMessage | Transfer
| WalrasQuote | WalrasOrder | ImpactQuote | ImpactOrder | PythonQuote
| Logon | Logout | MarketDataRequest | OrderStatusRequest | OrderStatusResponse | NewOrderSingle | NewOrderList
| CancelOrder | ReplaceOrder | ExecutionReport | PositionRequest | MarketData
| DividendAnnouncement | DividendRecord.
(** The offset in the declaration of each class: python_module_esl.cpp:1031; transfer.hpp:53; walras/quote_message.hpp:39;
    walras/differentiable_order_message.hpp:45; impact_function/quote.hpp:35; impact_function/order.hpp:38;
    python_module_markets.hpp:34; logon_message.hpp:39; logout_message.hpp:37; market_data_request_message.hpp:40;
    order_status_request_message.hpp:37; order_status_response_message.hpp:36; new_order_single_message.hpp:37;
    new_order_list_message.hpp:39; cancel_order_message.hpp:37; replace_order_message.hpp:37; execution_report_message.hpp:37;
    position_request_message.hpp:38; market_data_message.hpp:36; finance/dividend.hpp:108 and 143. *)
Definition offset_of (k : kind) : Z :=
  match k with
  | PythonMessage => 0x1 | Transfer => 0x2
  | WalrasQuote => 0xA0 | WalrasOrder => 0xA2 | ImpactQuote => 0xB0 | ImpactOrder => 0xB2 | PythonQuote => 0x100
  | Logon => 0xC00 | Logout => 0xC01 | MarketDataRequest => 0xC02 | OrderStatusRequest => 0xC03 | OrderStatusResponse => 0xC04
  | NewOrderSingle => 0xC05 | NewOrderList => 0xC06 | CancelOrder => 0xC07 | ReplaceOrder => 0xC08 | ExecutionReport => 0xC09
  | PositionRequest => 0xC0A | MarketData => 0xC0B
  | DividendAnnouncement => 0xF00 | DividendRecord => 0xF01
  end.
Definition kind_code (k : kind) : Z := match library_message_code (offset_of k) with Some c => c | None => 0 end.

(** message.hpp:42-55 and header.hpp:130-143: what the base classes make of their arguments. *)
Definition base (k : kind) (sender recipient : identity) (sent received body : Z) : message :=
  mk_message (kind_code k) sender recipient sent received body.
(** The constructors of the classes, for a sender, a recipient, times, and the rest of the arguments as [body];
    0 stands for the defaults of the members.  Classes without a constructor with a sender have none.
    - quote_message.hpp:57-70, walras/quote_message.hpp:41-53, impact_function/quote.hpp:37-38, order_status_response_message.hpp:39-51;
    - order_message.hpp:44-53, walras/differentiable_order_message.hpp:56-58, impact_function/order.hpp:49-57;
    - the members of these orders and of the exchange messages (43-56 of logon_message.hpp and its neighbours) are set after construction;
    - market_data_request_message.hpp:68-85 and dividend.hpp:152-168 take the contents;
    - transfer.hpp:76-92 and dividend.hpp:112-120 take no times;
    - replace_order_message.hpp:35-40, position_request_message.hpp:36-42, python_module_esl.cpp:1029-1046 and
      python_module_markets.hpp:33-37 declare none. *)
Definition construct (k : kind) (sender recipient : identity) (sent received body : Z) : option message :=
  match k with
  | Transfer | DividendAnnouncement => Some (base k sender recipient 0 0 body)
  | ReplaceOrder | PositionRequest | PythonMessage | PythonQuote => None
  | WalrasQuote | ImpactQuote | OrderStatusResponse | MarketDataRequest | DividendRecord =>
      Some (base k sender recipient sent received body)
  | WalrasOrder | ImpactOrder | Logon | Logout | OrderStatusRequest | NewOrderSingle | NewOrderList | CancelOrder
  | ExecutionReport | MarketData => Some (base k sender recipient sent received 0)
  end.
(** The default constructors; impact_function/order.hpp has none. *)
Definition default (k : kind) : option message := match k with ImpactOrder => None | _ => Some (base k [] [] 0 0 0) end.

(** communicator.hpp:189-202 [create_message] with the arguments of the constructor: the recipient and the time of delivery of
    the call replace those of the constructor, and the message is put in the outbox.  An empty recipient stops the program
    or is accepted when assertions are off. *)
Definition create_message (assertions : bool) (recipient : identity) (delivery : Z) (m : message) (outbox : list message)
  : option (message * list message) :=
  if assertions && (length recipient =? 0)%nat then None else
  let m' := mk_message (m_type m) (m_sender m) recipient (m_sent m) delivery (m_body m) in
  Some (m', outbox ++ [m']).

(** order_message.hpp:60-66: an order made in reply to a quote; walras/differentiable_order_message.hpp:56-58 inherits the
    constructor, impact_function/order.hpp does not. *)
Definition reply (k : kind) (q : message) : option message :=
  match k with
  | WalrasOrder => Some (base k (m_recipient q) (m_sender q) (m_received q) (m_received q) 0)
  | _ => None
  end.
