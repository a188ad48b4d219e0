{"id": "C01", "title": "Splitting a quantity loses and creates nothing", "statement": "Dividing a quantity by n>=1 (quantity / n, or quantity::divide<n>()) returns exactly n parts; the parts sum to the original amount; any two parts differ by at most one unit; the larger parts come first; both APIs return the same parts.", "quantifier": "every 64-bit amount and every divisor n >= 1", "why_tests_cant": "The claim ranges over 2^64 amounts times every divisor, including the region where the intermediate 2*remainder wraps around; sampling cannot cover it.", "anchors": ["esl/quantity.hpp: quantity::divide", "esl/quantity.hpp: quantity::operator/"]}
{"id": "C02", "title": "Quantities never go negative", "statement": "a - b either throws (exactly when a < b) and leaves the operand unchanged, or returns the exact difference c with c + b = a; hence no sequence of -= / += that completes without wrap-around ever yields anything but the exact running balance, and a failed -= leaves the balance as it was.", "quantifier": "all pairs of 64-bit amounts and all finite sequences of deposits and withdrawals", "why_tests_cant": "Ranges over unbounded operation sequences and all amounts.", "anchors": ["esl/quantity.hpp: quantity::operator-", "esl/quantity.hpp: quantity::operator-=", "esl/quantity.hpp: quantity::operator+"]}
{"id": "C03", "title": "Quantity addition and multiplication are exact below 2^64", "statement": "q + r and q * k return the mathematical sum / product whenever it is below 2^64 and otherwise lose exactly a multiple of 2^64 (silently); addition is commutative and associative and multiplication distributes over it in all cases.", "quantifier": "all 64-bit operands", "why_tests_cant": "Overflow corners form a tiny fraction of the input space; algebraic laws quantify over triples.", "anchors": ["esl/quantity.hpp: quantity::operator+", "esl/quantity.hpp: quantity::operator*"]}
{"id": "C04", "title": "Decrementing a quantity lowers it by one, incrementing raises it by one", "statement": "Applying -- to a positive quantity (prefix or postfix) decreases the stored amount by exactly one, and ++ (prefix or postfix) increases it by exactly one.", "quantifier": "every 64-bit amount that does not wrap, both forms of the operators", "why_tests_cant": "Existing tests never use the prefix form; the claim is about every amount.", "anchors": ["esl/quantity.hpp: quantity::operator--()", "esl/quantity.hpp: quantity::operator--(int)"]}
{"id": "C05", "title": "A simulation time interval is exactly the half-open set [lower, upper)", "statement": "For time_interval, contains(t) holds exactly when lower <= t < upper; empty() holds exactly when no time point is contained; singleton() exactly when one and only one is; and if a <= b <= c then every time in [a,c) lies in exactly one of [a,b) and [b,c).", "quantifier": "all pairs of 64-bit bounds and every 64-bit time", "why_tests_cant": "2^128 bound pairs with unsigned subtraction corner cases.", "anchors": ["esl/mathematics/interval.hpp: interval::contains/empty/singleton", "esl/simulation/time.hpp: time_interval"]}
{"id": "C06", "title": "interval::empty() tells whether the interval has elements", "statement": "For every integral interval and every choice of open/closed endpoints, empty() returns true exactly when no value is contained in the interval, and singleton() exactly when one value is.", "quantifier": "all integer bounds, all four endpoint kinds", "why_tests_cant": "Infinite family of intervals; boundary widths 0,1,2 interact with endpoint kinds.", "anchors": ["esl/mathematics/interval.hpp: interval::empty", "esl/mathematics/interval.hpp: interval::singleton"]}
{"id": "C07", "title": "Identities are totally ordered", "statement": "operator< on identities is a strict total order consistent with ==: irreflexive, transitive, exactly one of a<b, a==b, b<a holds, <=, > and >= agree with it, and a parent sorts before all its descendants, which sort contiguously after it.", "quantifier": "all digit sequences of any length", "why_tests_cant": "Quantifies over all triples of unbounded sequences.", "anchors": ["esl/simulation/identity.hpp: identity::operator<", "esl/simulation/identity.hpp: identity::operator=="]}
{"id": "C08", "title": "Every entity created gets a fresh identity", "statement": "Starting from a root entity, after any sequence of create() calls on the root or any previously created entity (fewer than 2^64 children each), all identities handed out are pairwise distinct, and each child's identity is its creator's identity extended by one digit.", "quantifier": "all finite creation histories over the growing tree of entities", "why_tests_cant": "The uniqueness claim is about every interleaving of creations by every parent, an unbounded history.", "anchors": ["esl/simulation/entity.hpp: entity::create", "esl/simulation/identity.hpp: identity::create"]}
{"id": "C09", "title": "Copying an agent does not lead to duplicate identities", "statement": "Children created by an agent and by a copy of that agent never share an identity with each other or with children created before the copy.", "quantifier": "all histories of creations and agent copies", "why_tests_cant": "Depends on the order of copies and creations in an unbounded history.", "anchors": ["esl/agent.cpp: agent::agent(const agent&)", "esl/simulation/entity.hpp: entity::create"]}
{"id": "C10", "title": "An identity's printed form determines the identity", "statement": "Two identities that print the same text are equal: the representation can be parsed back to the original digits.", "quantifier": "all digit sequences", "why_tests_cant": "Injectivity is a statement about all pairs of an infinite set.", "anchors": ["esl/simulation/identity.hpp: operator<<", "esl/simulation/identity.hpp: identity::representation"]}
{"id": "C11", "title": "Callbacks for a message run in priority order and bound the next event", "statement": "When a message is processed, every callback registered for its type runs exactly once, in non-increasing priority; the returned next-event time is the minimum of the interval's upper bound and all callback results.", "quantifier": "all registration histories, all priorities, all callback results", "why_tests_cant": "Depends on the whole registration history and arbitrary user callbacks.", "anchors": ["esl/interaction/communicator.cpp: communicator::process_message", "esl/interaction/communicator.hpp: register_callback"]}
{"id": "C12", "title": "Exactly the due messages are processed, each once", "statement": "Processing messages for a step handles every message in the inbox whose delivery time is not after the start of the step exactly once, handles no later message, and returns the minimum of the interval's upper bound and all handler results - whatever the schedule (in order or shuffled).", "quantifier": "all inboxes, all steps, all schedules (any permutation chosen by the shuffle)", "why_tests_cant": "Quantifies over every permutation and every inbox.", "anchors": ["esl/interaction/communicator.cpp: communicator::process_messages"]}
{"id": "C13", "title": "In-order schedule processes equal-priority messages in arrival order", "statement": "With the in_order schedule, messages due at the same step whose processing priority ties are processed in the order they arrived.", "quantifier": "all inboxes", "why_tests_cant": "Order claims over arbitrary message sets.", "anchors": ["esl/interaction/communicator.cpp: communicator::process_messages"]}
{"id": "C14", "title": "Registering a callback after locking is rejected and changes nothing", "statement": "Once callbacks are locked, register_callback throws and no later message is handled differently; before locking, registering a callback for one message type never affects handling of another type.", "quantifier": "all registration histories and message types", "why_tests_cant": "Frame property over all histories.", "anchors": ["esl/interaction/communicator.hpp: communicator::register_callback"]}
{"id": "C15", "title": "Messages are delivered exactly once", "statement": "Sending messages moves every message of every local agent's outbox to exactly the inbox of its recipient under its delivery time, keeps the order of messages with equal delivery time, empties all outboxes, returns the number of messages moved, and neither loses, duplicates nor misroutes any message; messages already in inboxes stay.", "quantifier": "all populations of agents, all outbox and inbox contents", "why_tests_cant": "Exactly-once delivery is a statement about all message multisets over all agents.", "anchors": ["esl/computation/environment.cpp: environment::send_messages"]}
{"id": "C16", "title": "A recipient is scheduled no later than its earliest new message", "statement": "After messages are sent, each recipient's wake-up time is the minimum of its previous wake-up time and the delivery times of its new messages, and wake-up times of agents that received nothing are unchanged.", "quantifier": "all populations and message sets", "why_tests_cant": "Min over arbitrary multisets for every agent.", "anchors": ["esl/computation/environment.cpp: environment::send_messages"]}
{"id": "C17", "title": "Exactly the agents that are due act in a round", "statement": "In one round of a model step at time t, the agents that act are exactly the local agents whose scheduled wake-up is t (or that have no schedule yet), each exactly once; others' state, inbox and schedule are untouched by acting.", "quantifier": "all populations, schedules and agent behaviours", "why_tests_cant": "Arbitrary user behaviours and populations.", "anchors": ["esl/simulation/model.cpp: model::step"]}
{"id": "C18", "title": "The multi-threaded round is equivalent to the sequential one", "statement": "For any number of threads >= 1, the acting agents are partitioned into contiguous chunks covering each acting agent exactly once, and every interleaving of the per-agent jobs yields the same final agents, inboxes and schedules as running them one after the other.", "quantifier": "all thread counts, all populations, all interleavings of agent jobs", "why_tests_cant": "Schedules are exponentially many; tests observe a few.", "anchors": ["esl/simulation/model.cpp: model::step", "esl/quantity.hpp: quantity::operator/"]}
{"id": "C19", "title": "A model step that returns has advanced time", "statement": "If model::step on [lower, upper) returns, the returned next-event time is greater than lower, is the minimum of the model's end and of every scheduled wake-up, and no agent remains scheduled at or before lower. An empty interval is rejected.", "quantifier": "all model states, behaviours and step intervals", "why_tests_cant": "Holds through an unbounded inner loop driven by arbitrary behaviours.", "anchors": ["esl/simulation/model.cpp: model::step", "esl/simulation/model.cpp: determine_next_event"]}
{"id": "C20", "title": "A model step terminates when agents do not send messages into the past", "statement": "If all wake-ups and delivery times produced during a step are in the future, model::step returns after finitely many rounds.", "quantifier": "all model states and well-behaved agents; contrasted with a message whose delivery time lies before the step", "why_tests_cant": "Termination is not testable.", "anchors": ["esl/simulation/model.cpp: model::step", "esl/interaction/communicator.hpp: create_message"]}
{"id": "C21", "title": "Running a simulation visits strictly increasing times up to the end", "statement": "environment::run calls model::step on intervals whose lower bounds strictly increase, start at the model's start, never reach the end, have upper bound equal to the end, and covers every scheduled event; start >= end is rejected.", "quantifier": "all models, all behaviours", "why_tests_cant": "Whole-run property over unbounded executions.", "anchors": ["esl/computation/environment.cpp: environment::run", "esl/computation/environment.cpp: environment::step"]}
{"id": "C22", "title": "Model parameters set what their names say", "statement": "Constructing a parametrization with sample index, start, stop, threads and verbosity makes each retrievable under its own name with the value given; a missing name is reported by an exception.", "quantifier": "all parameter values", "why_tests_cant": "A swap of two values is invisible when tests use equal values.", "anchors": ["esl/simulation/parameter/parametrization.hpp: parametrization"]}
{"id": "C23", "title": "A block pool never hands out a slot twice", "statement": "Under any sequence of emplace and erase of live objects, all live objects occupy distinct slots below the capacity, reading a live object's index returns the value stored for it, emplace fails exactly when the pool is full, and handles handed out over time are pairwise distinct.", "quantifier": "all operation sequences over live handles, all capacities >= 1", "why_tests_cant": "Unbounded operation history with slot reuse.", "anchors": ["esl/computation/block_pool.hpp: block_pool::emplace", "esl/computation/block_pool.hpp: block_pool::erase", "esl/computation/block_pool.hpp: block_pool::operator[]"]}
{"id": "C24", "title": "Erasing twice from a block pool is harmless", "statement": "Erasing an object that has already been erased has no effect on other objects or on later allocations.", "quantifier": "all operation sequences, including stale handles", "why_tests_cant": "Requires adversarial history.", "anchors": ["esl/computation/block_pool.hpp: block_pool::erase"]}
{"id": "C25", "title": "The blocking queue is FIFO and loses nothing under any schedule", "statement": "For any interleaving of push, pop, try-operations and close by any number of threads, the values popped are, in pop order, exactly a prefix of the values pushed in push order, and what remains queued is the rest; a pop returns empty-handed only if the queue is closed and empty.", "quantifier": "all interleavings of atomic queue operations by any number of threads", "why_tests_cant": "Thread schedules cannot be enumerated by tests.", "anchors": ["esl/computation/blocking_queue.hpp: blocking_queue"]}
{"id": "C26", "title": "The thread pool runs every submitted task exactly once", "statement": "For any number of worker threads >= 1 and any schedule, every task enqueued before the pool is stopped is executed exactly once and no task is executed that was not enqueued, once all workers have finished.", "quantifier": "all task counts, worker counts and schedules", "why_tests_cant": "Schedules cannot be enumerated.", "anchors": ["esl/computation/thread_pool.hpp: thread_pool"]}
{"id": "C27", "title": "Integer power is exact modulo the word size", "statement": "nonnegative_integer_power(x, p) equals x^p (reduced modulo 2^w for an unsigned w-bit type), and 1 for p = 0.", "quantifier": "all bases and exponents", "why_tests_cant": "Unbounded exponent range and wrap-around.", "anchors": ["esl/algorithms.hpp: nonnegative_integer_power"]}
{"id": "C28", "title": "Array concatenation and slicing are inverse", "statement": "array_concatenate(a,b) has the elements of a followed by b; array_slice<i,j> returns elements i..j-1; slicing a concatenation at its seam gives back both parts; enumerate pairs each element with its position.", "quantifier": "all arrays and bounds 0 <= i <= j <= size", "why_tests_cant": "Quantifies over all arrays, sizes and split points.", "anchors": ["esl/algorithms.hpp: array_concatenate", "esl/algorithms.hpp: array_slice", "esl/algorithms.hpp: enumerate"]}
{"id": "C29", "title": "The order book is never crossed", "statement": "After any sequence of insertions and cancellations, every resting buy limit is strictly below every resting sell limit, every resting order has positive quantity, and bid() / ask() report the highest buy / lowest sell limit (or nothing when that side is empty).", "quantifier": "all finite histories of limit orders and cancellations", "why_tests_cant": "Invariant over unbounded histories.", "anchors": ["esl/economics/markets/order_book/binary_tree_order_book.hpp: insert, cancel, bid, ask"]}
{"id": "C30", "title": "Order quantity is conserved", "statement": "For every inserted order the reports account for its whole quantity: quantity = sum of its matched quantities + the quantity placed on the book; each match appears as two reports of equal quantity and price for taker and maker, and the maker's resting quantity drops by exactly that amount; over any history, total inserted = 2 * total traded + total resting + total cancelled.", "quantifier": "all finite histories", "why_tests_cant": "Conservation over every history and partial fill pattern.", "anchors": ["esl/economics/markets/order_book/binary_tree_order_book.hpp: insert", "esl/economics/markets/order_book/basic_book.hpp: reports"]}
{"id": "C31", "title": "Trades happen at the resting limit and never beyond the incoming limit", "statement": "Every match is executed at the resting order's limit price; a buyer never pays more than, and a seller never receives less than, its limit.", "quantifier": "all books reachable by any history and all incoming orders", "why_tests_cant": "Universal over reachable states.", "anchors": ["esl/economics/markets/order_book/binary_tree_order_book.hpp: insert"]}
{"id": "C32", "title": "Price-time priority", "statement": "An incoming order matches resting orders in order of best price and, within a price, earliest insertion; a resting order is touched only if every resting order on its side with priority over it has been completely filled; at most the last touched order is partially filled.", "quantifier": "all reachable books and incoming orders", "why_tests_cant": "Relational property over all books.", "anchors": ["esl/economics/markets/order_book/binary_tree_order_book.hpp: insert"]}
{"id": "C33", "title": "Order identifiers are fresh", "statement": "Identifiers given to resting orders strictly increase, are never reused, also after fills and cancellations, and uniquely identify a resting order.", "quantifier": "all histories shorter than 2^64 placements", "why_tests_cant": "History property.", "anchors": ["esl/economics/markets/order_book/binary_tree_order_book.hpp: insert", "esl/economics/markets/order_book/binary_tree_order_book.hpp: next_"]}
{"id": "C34", "title": "Cancelling removes exactly the order named", "statement": "cancel(id) of a resting order removes that order and only that order and produces one cancel report with its side, remaining quantity, limit and owner; cancelling an unknown, filled or already cancelled id changes no resting order and reports nothing.", "quantifier": "all reachable books and all identifiers", "why_tests_cant": "The side is inferred from prices, so the claim depends on an invariant of every reachable book.", "anchors": ["esl/economics/markets/order_book/binary_tree_order_book.hpp: cancel"]}
{"id": "C35", "title": "orders() lists exactly the active orders", "statement": "After any history, orders() returns exactly the identifiers of the orders resting on the book.", "quantifier": "all histories", "why_tests_cant": "History property; needs cancellations followed by queries.", "anchors": ["esl/economics/markets/order_book/binary_tree_order_book.hpp: orders", "esl/economics/markets/order_book/binary_tree_order_book.hpp: cancel"]}
{"id": "C36", "title": "Order lifetimes are respected", "statement": "An immediate-or-cancel or fill-or-kill order never rests on the book, and a fill-or-kill order trades either completely or not at all.", "quantifier": "all reachable books and all orders", "why_tests_cant": "Requires all combinations of book state and order.", "anchors": ["esl/economics/markets/order_book/binary_tree_order_book.hpp: insert", "esl/economics/markets/order_book/order.hpp: limit_order::lifetime_t"]}
{"id": "C37", "title": "The report stream reconstructs the book", "statement": "A client that only sees the execution reports and applies them (placement adds, match reduces, cancel removes) holds, after any history, exactly the resting orders of the book with the same identifiers, sides, quantities, limits and owners.", "quantifier": "all histories", "why_tests_cant": "Refinement over unbounded histories.", "anchors": ["esl/economics/markets/order_book/binary_tree_order_book.hpp: insert, cancel", "esl/economics/markets/order_book/execution_report.hpp"]}
{"id": "C38", "title": "The book behaves like its simple specification", "statement": "After any history the book's observable behaviour (reports, best quotes, resting orders) equals that of a naive specification that keeps resting orders in arrival order and repeatedly executes against the best-priced, earliest one.", "quantifier": "all histories", "why_tests_cant": "Refinement (observational equality) over unbounded histories.", "anchors": ["esl/economics/markets/order_book/binary_tree_order_book.hpp"]}
{"id": "C39", "title": "Books for different tickers are isolated", "statement": "Inserting into or cancelling from the book of one ticker leaves the books, quotes and reports of all other tickers unchanged; cancelling for an unknown ticker has no effect.", "quantifier": "all engines, tickers and operations", "why_tests_cant": "Frame property over all states.", "anchors": ["esl/economics/markets/order_book/matching_engine.hpp: insert, cancel"]}
{"id": "C40", "title": "The fixed-tick book maps every price in its range to a distinct level and back", "statement": "For a static order book over a price range, every admissible limit (both ends included) encodes to a valid level, distinct ticks to distinct levels preserving order, and decoding a level gives the limit back.", "quantifier": "all ranges and all limits within the range", "why_tests_cant": "All ranges times all prices; boundary index errors.", "anchors": ["esl/economics/markets/order_book/static_order_book.hpp: default_encode/default_decode"]}
{"id": "C41", "title": "Fill-or-kill on the fixed-tick book is all-or-nothing", "statement": "A fill-or-kill order inserted in the static order book either executes completely or leaves the book unchanged and trades nothing.", "quantifier": "all reachable books and orders", "why_tests_cant": "All states and quantities.", "anchors": ["esl/economics/markets/order_book/static_order_book.hpp: insert"]}
{"id": "C42", "title": "Fixed-tick book quotes reflect resting orders", "statement": "After any history, the static book's bid() / ask() equal the best resting buy / sell limit.", "quantifier": "all histories incl. cancellations", "why_tests_cant": "History property.", "anchors": ["esl/economics/markets/order_book/static_order_book.hpp: bid, ask, cancel"]}
{"id": "C43", "title": "Prices in different currencies are never silently compared", "statement": "Ordering two prices throws unless their currencies are equal; for equal currencies the comparison is the total order of their values; equality of prices implies equality of value and currency.", "quantifier": "all pairs of prices", "why_tests_cant": "All pairs.", "anchors": ["esl/economics/price.hpp: operator<,<=,>,>=,=="]}
{"id": "C44", "title": "Quotes with different lot sizes are never silently compared", "statement": "Every ordering operator of quote throws when lot sizes differ, and for equal lots and currency orders quotes by price.", "quantifier": "all pairs of quotes", "why_tests_cant": "All pairs including products that exceed 64 bits.", "anchors": ["esl/economics/markets/quote.hpp: operator<,<=,>,>=,=="]}
{"id": "C45", "title": "Applying an exchange rate rounds the exact product toward zero", "statement": "exchange_rate(n,d) * price p gives trunc(p*n/d) in the price's units, for every representable result.", "quantifier": "all rates and prices", "why_tests_cant": "Signed/unsigned conversions differ only on negative prices.", "anchors": ["esl/economics/exchange_rate.hpp: exchange_rate::operator*"]}
{"id": "C46", "title": "Currency ordering agrees with currency equality", "statement": "For ISO 4217 currencies neither a<b nor b<a implies a==b (so sets and maps keyed by currency keep different currencies apart).", "quantifier": "all currency values", "why_tests_cant": "All pairs.", "anchors": ["esl/economics/iso_4217.hpp: operator<, operator=="]}
{"id": "C47", "title": "Tickers are totally ordered and hash consistently", "statement": "Ticker comparison is a strict total order consistent with equality and equal tickers have equal hashes.", "quantifier": "all triples of tickers", "why_tests_cant": "All triples.", "anchors": ["esl/economics/markets/ticker.hpp: operator<, hash"]}
{"id": "C48", "title": "Message type codes of the library never collide with user codes and round-trip", "statement": "library_message_code marks exactly the library codes, the offset can be recovered from the code, and no user code below 2^63 equals a library code.", "quantifier": "all 64-bit codes", "why_tests_cant": "All codes.", "anchors": ["esl/interaction/header.hpp: library_message_code, library_message_offset"]}
{"id": "C49", "title": "Archived values are restored", "statement": "Saving a quote, a rational and a currency-denominated value to an archive and loading it gives back an equal value.", "quantifier": "all values", "why_tests_cant": "All values incl. those beyond 32 bits.", "anchors": ["esl/economics/markets/quote.hpp: save/load", "esl/mathematics/rational.hpp: save/load"]}
{"id": "C50", "title": "Transfers conserve property", "statement": "Delivering a transfer to both parties moves exactly the listed quantities: for every property, the sum of the two parties' holdings is unchanged, third parties and unlisted properties are untouched; a transfer to oneself changes nothing; a transfer that the transferor cannot cover is rejected.", "quantifier": "all inventories, transfers and parties", "why_tests_cant": "Conservation over arbitrary inventories and histories of transfers.", "anchors": ["esl/economics/owner.hpp: owner<law::property>", "esl/economics/accounting/inventory.hpp: insert_into, erase_from"]}
{"id": "C51", "title": "A rejected transfer leaves the inventory as it was", "statement": "If removing a set of properties from an inventory fails for insufficient holdings, the inventory is unchanged.", "quantifier": "all inventories and removal sets", "why_tests_cant": "Needs a failing item after a succeeding one, for every iteration order.", "anchors": ["esl/economics/accounting/inventory.hpp: erase_from"]}
{"id": "C52", "title": "The typed view of an owner's property agrees with its inventory", "statement": "For an owner<T>, the quantity of each T in the typed properties view equals the quantity in the inventory after any history of takes and transfers.", "quantifier": "all histories", "why_tests_cant": "History property over two redundant stores.", "anchors": ["esl/economics/owner.hpp: owner<T>::take", "esl/economics/owner.hpp: transfer callback"]}
{"id": "C53", "title": "Cash-flow statements add up", "statement": "For every ledger and every interval whose entries are in the reporting currency, income + expenses = revenue, income >= 0 >= expenses, and figures over [a,b) and [b,c) add to those over [a,c); if an entry of the interval is in another currency, no figure is returned.", "quantifier": "all ledgers and time intervals", "why_tests_cant": "All ledgers.", "anchors": ["esl/economics/accounting/cash_flow_statement.hpp: income, expenses, revenue"]}
{"id": "C54", "title": "ISIN check digits catch single errors", "statement": "The ISIN check digit makes the expanded number pass the Luhn test; changing any single digit of a numeric ISIN, or swapping two adjacent different digits other than 0 and 9, changes the check digit.", "quantifier": "all country codes and nine-character codes", "why_tests_cant": "36^9 * 26^2 codes.", "anchors": ["esl/economics/finance/isin.hpp: isin::checksum"]}
{"id": "C55", "title": "CUSIP check digits validate", "statement": "A CUSIP built from eight characters and its checksum is accepted; any other check digit is rejected; changing a single digit to another digit is always detected.", "quantifier": "all eight-character codes", "why_tests_cant": "Huge domain.", "anchors": ["esl/economics/finance/cusip.hpp: checksum, cusip(array<9>)"]}
{"id": "C56", "title": "SEDOL check digits catch single digit errors", "statement": "The weighted sum of a SEDOL with its check digit is divisible by 10 and replacing any one digit by a different digit changes the check digit.", "quantifier": "all six-character codes", "why_tests_cant": "Huge domain.", "anchors": ["esl/economics/finance/sedol.hpp: checksum"]}
{"id": "C57", "title": "LEI check digits satisfy ISO 7064 MOD 97-10", "statement": "For every legal entity identifier built by the library, the numeric expansion of the full 20-character code is congruent to 1 modulo 97, two check characters are always digits, the computation never overflows, and no single-character substitution in the code is undetected.", "quantifier": "all codes", "why_tests_cant": "36^18 codes.", "anchors": ["esl/law/legal_entity.hpp: iso_17442::checksum"]}
{"id": "C58", "title": "An ISIN constructed from text has that text's national code", "statement": "Constructing an ISIN from the 11-character text of country and national code stores that national code and prints back the same 11 characters followed by the check digit.", "quantifier": "all 11-character codes", "why_tests_cant": "All codes.", "anchors": ["esl/economics/finance/isin.hpp: isin(std::array<char,11>)"]}
{"id": "C59", "title": "Different share classes of different companies get different identifiers", "statement": "Share identifiers created for different (company, rank) pairs are different, and so are the ISIN national codes.", "quantifier": "all companies and ranks", "why_tests_cant": "All pairs.", "anchors": ["esl/economics/finance/stock.cpp: create_share_identifier, create_isin"]}
{"id": "C60", "title": "Walrasian allocation clears exactly", "statement": "Rounding of the market's allocation to whole units yields, for each property, integer trades that sum to zero over participants, and each participant's trade differs from its truncated demand by at most the number of corrections divided evenly (within one).", "quantifier": "all demand vectors", "why_tests_cant": "All real-valued demand vectors and participants.", "anchors": ["esl/economics/markets/walras/price_setter.cpp: compute_transfers"]}
{"id": "C61", "title": "Netting of clearing transfers preserves net positions", "statement": "Netting a participant's sent and received amounts of the same property leaves the net amount (received - sent) of every property unchanged.", "quantifier": "all send and receive inventories", "why_tests_cant": "All inventories.", "anchors": ["esl/economics/markets/walras/price_setter.cpp: clear_market"]}
{"id": "C62", "title": "Published prices stay positive", "statement": "After clearing, no quoted price is zero: a clearing multiplier that would round a price down to zero yields one unit instead.", "quantifier": "all quotes and multipliers", "why_tests_cant": "All multipliers.", "anchors": ["esl/economics/markets/walras/price_setter.cpp: apply_results"]}
{"id": "C63", "title": "A snapshot market data request yields a single update", "statement": "A subscriber that requested a snapshot is not sent further market data when later orders arrive.", "quantifier": "all request times >= 1 and order streams", "why_tests_cant": "Involves 64-bit wrap-around in the schedule.", "anchors": ["esl/economics/markets/centralized_exchange.hpp: market data request callback, insert_order"]}
{"id": "C64", "title": "Logging on to an exchange records the participant's supply", "statement": "After an agent logs on with a supply for a traded ticker, the exchange's position report for that agent and ticker shows that supply.", "quantifier": "all exchanges, agents and supplies", "why_tests_cant": "History property.", "anchors": ["esl/economics/markets/centralized_exchange.hpp: logon callback"]}
{"id": "C65", "title": "Every execution report reaches the order's owner exactly once", "statement": "When an order arrives at the exchange, exactly one execution report message is sent to the owner of each report the book produced for that order, and the book's report list is empty afterwards.", "quantifier": "all exchanges, books, orders and cancellations", "why_tests_cant": "History property involving pending reports.", "anchors": ["esl/economics/markets/centralized_exchange.hpp: insert_order"]}
{"id": "C66", "title": "Dividend announcements are made once per policy", "statement": "A company announces each dividend policy to each shareholder exactly once, at the first activation at or after its announcement date, and the next activation it requests is never in the past.", "quantifier": "all policies and activation times", "why_tests_cant": "All activation sequences.", "anchors": ["esl/economics/company.cpp: company::act"]}
{"id": "C67", "title": "Grid sampling enumerates every combination once", "statement": "sampler::grid over parameters with densities d1..dk returns d1*...*dk samples in which every combination of grid points occurs exactly once.", "quantifier": "all parameter lists with product of densities below 2^32", "why_tests_cant": "All sizes.", "anchors": ["esl/simulation/parameter/sampler.hpp: grid"]}
{"id": "C68", "title": "Improved hypercube sampling is a Latin hypercube for every random seed", "statement": "In each dimension the sampled coordinates are a permutation of 1..samples, whatever random numbers are drawn and whatever candidate is chosen at each stage; the internal consistency checks never throw.", "quantifier": "all dimensions, sample counts >= 1, duplication factors >= 1, and random streams", "why_tests_cant": "All random streams.", "anchors": ["esl/simulation/parameter/sampler.hpp: improved_hypercube_sampling"]}
{"id": "C69", "title": "Escaped text fields can be read back", "statement": "For delimiter, quote and escape characters that are pairwise different, render(text) can be decoded to exactly the original text, and never contains an unprotected delimiter.", "quantifier": "all texts", "why_tests_cant": "All texts.", "anchors": ["esl/data/format/delimiter_separated_values.hpp: render"]}
{"id": "C70", "title": "Rows of delimiter separated values keep their columns", "statement": "render_row writes a row from which each text column can be recovered even if it contains the delimiter.", "quantifier": "all rows", "why_tests_cant": "All rows.", "anchors": ["esl/data/format/delimiter_separated_values.hpp: render_row, extract_element"]}
{"id": "C71", "title": "Order events read from OpenBook files carry the event time in microseconds", "statement": "The time delivered for an event with source time s milliseconds and u microseconds is 1000*s+u, for every time of day.", "quantifier": "all times of day", "why_tests_cant": "All times of day; needs large times.", "anchors": ["esl/data/format/openbook.hpp: read_openbook"]}
{"id": "C72", "title": "Country codes are validated and hash without collisions", "statement": "A country code is accepted exactly when it consists of two capital letters and otherwise raises an exception, and distinct accepted codes have distinct hash values.", "quantifier": "all pairs of characters", "why_tests_cant": "All pairs of codes.", "anchors": ["esl/geography/iso_3166_1_alpha_2.hpp: constructor, std::hash"]}
{"id": "C73", "title": "Agents created before a run are activated without corrupting the environment", "statement": "For any number of agents created before a simulation is run, the environment's activation of newly created agents at the start of the run terminates, counts each of them once and leaves none pending.", "quantifier": "all numbers of agents and all vector growth policies", "why_tests_cant": "Depends on memory layout and the number of agents; a test passes or fails by luck.", "anchors": ["esl/computation/environment.cpp: environment::activate, deactivate, activate_agent", "esl/simulation/agent_collection.cpp: activate"]}
{"id": "C74", "title": "Stepping an environment repeatedly reaches the end like a run", "statement": "Calling environment::step repeatedly advances the model's time until the end is reached, as environment::run does.", "quantifier": "all models and all numbers of calls", "why_tests_cant": "All models and numbers of calls.", "anchors": ["esl/computation/environment.cpp: environment::step, run", "esl/simulation/model.hpp: time"]}
{"id": "C75", "title": "An element placed in a block pool can be erased by the handle emplace returned", "statement": "The handle returned by block_pool::emplace identifies the element: erasing by it removes that element and makes its slot available again.", "quantifier": "all pools and elements", "why_tests_cant": "Holds or fails for every allocation history; a test shows one.", "anchors": ["esl/computation/block_pool.hpp: block_pool::emplace, erase"]}
{"id": "C76", "title": "The simplex sampler enumerates the grid of the simplex", "statement": "sample_barycentric(d, n) returns every point with d nonnegative coordinates that are multiples of 1/n and add up to 1, each exactly once.", "quantifier": "all dimensions d >= 1 and divisions n >= 1", "why_tests_cant": "Unbounded dimensions and divisions; floating-point rounding decides boundary points.", "anchors": ["esl/algorithms.hpp: sample_barycentric"]}
{"id": "C77", "title": "Cancelling an order that is no longer resting leaves the fixed-tick book unchanged", "statement": "For every history of the fixed-tick order book, cancelling an order that has already been filled or cancelled has no effect on the other orders in the book.", "quantifier": "all books and histories of orders and cancellations", "why_tests_cant": "Depends on the re-use of storage in arbitrary histories.", "anchors": ["esl/economics/markets/order_book/static_order_book.hpp: cancel", "esl/computation/block_pool.hpp: erase"]}
{"id": "C78", "title": "The fixed-tick book matches by price and time within its valid levels", "statement": "For every history of limit orders strictly inside the valid range (in the book's lot, while there is room, and fill-or-kill only if all or nothing can be executed), invalid orders, and cancellations of resting orders other than the last one at the best limit, the fixed-tick book never throws nor reads out of bounds, and its quotes, its listing and its execution reports are those price-time priority determines.", "quantifier": "all histories of orders and cancellations", "why_tests_cant": "Unbounded histories; pointer-linked storage.", "anchors": ["esl/economics/markets/order_book/static_order_book.hpp: insert, match, cancel, bid, ask"]}
{"id": "C79", "title": "Participants of a Walrasian clearing are sent what they buy", "statement": "For every property a participant buys at a clearing, the market sends it the units it trades beyond what closes its short position, and takes what it sells from its long position first.", "quantifier": "all markets, trades and stated supplies", "why_tests_cant": "All combinations of trades over several properties.", "anchors": ["esl/economics/markets/walras/price_setter.cpp: clear_market"]}
{"id": "C80", "title": "Participants of a Walrasian clearing pay the price", "statement": "The cash transferred for n units at a price p per lot is n*p/lot in the smallest unit of the currency, rounded down.", "quantifier": "all units, prices and lots", "why_tests_cant": "Floating-point rounding at all prices.", "anchors": ["esl/economics/markets/walras/price_setter.cpp: clear_market", "esl/economics/money.hpp: money::amount"]}
{"id": "C81", "title": "A Walrasian clearing neither creates nor destroys money", "statement": "Over all participants, the cash received by the market at a clearing equals the cash it pays.", "quantifier": "all trades that sum to zero, prices and supplies", "why_tests_cant": "All trades and prices.", "anchors": ["esl/economics/markets/walras/price_setter.cpp: clear_market"]}
{"id": "C82", "title": "Rounding of a Walrasian allocation never turns a seller into a buyer", "statement": "When demands are rounded to whole units, no participant with negative demand is allotted a purchase and none with positive demand a sale.", "quantifier": "all demand vectors", "why_tests_cant": "All demand vectors.", "anchors": ["esl/economics/markets/walras/price_setter.cpp: compute_transfers"]}
{"id": "C83", "title": "A request for a stream of market data leads to updates", "statement": "After an agent asks the exchange for a continuous stream of market data on a ticker, every order that moves the market in that ticker leads to an update to that agent.", "quantifier": "all exchanges, histories and orders", "why_tests_cant": "History property.", "anchors": ["esl/economics/markets/centralized_exchange.hpp: market_data_subscriptions, data_subscription, create_message<market_data_message>"]}
{"id": "C84", "title": "Cancelling an order through the exchange is reported to its owner", "statement": "When a cancellation of a resting order reaches the exchange, the owner is sent a report about the order cancelled.", "quantifier": "all exchanges, histories and cancellations", "why_tests_cant": "History property involving pending reports.", "anchors": ["esl/economics/markets/centralized_exchange.hpp: cancel_order, insert_order"]}
{"id": "C85", "title": "Execution reports take the time of the connection to their recipient", "statement": "Each execution report is delivered at the time of the trade plus the delay of the connection between the exchange and the recipient.", "quantifier": "all exchanges, histories and delay functions", "why_tests_cant": "All combinations of delays.", "anchors": ["esl/economics/markets/centralized_exchange.hpp: insert_order"]}
{"id": "C86", "title": "Cancelling a market data subscription stops the updates and is harmless without one", "statement": "After an agent cancels its market data subscription it is sent no more updates until it asks again; cancelling a subscription that does not exist has no effect.", "quantifier": "all exchanges, histories and requests", "why_tests_cant": "History property; undefined behaviour.", "anchors": ["esl/economics/markets/centralized_exchange.hpp: market data request callback"]}
{"id": "C87", "title": "Every order book update in an OpenBook file is delivered once, in order and unchanged", "statement": "Reading a file calls the callback once for every full or delta update in it, in order, with the symbol, status, reason, price, lot, quantity and side the message says; other messages and an incomplete last message are skipped.", "quantifier": "all files of messages in the documented layout", "why_tests_cant": "All files.", "anchors": ["esl/data/format/openbook.hpp: read_openbook, convert_endian_aware"]}
{"id": "C88", "title": "Line breaks in text fields are protected", "statement": "A text that contains a line break is rendered such that records written one per line can be told apart.", "quantifier": "all texts with line breaks", "why_tests_cant": "All texts.", "anchors": ["esl/data/format/delimiter_separated_values.hpp: render"]}
{"id": "C89", "title": "The main session of a symbol contains its orders and cancellations while the stock is open", "statement": "parse_main_session returns, in order, exactly the updates of the given symbol with status open whose reason is a new order or a cancellation.", "quantifier": "all files and symbols", "why_tests_cant": "All files.", "anchors": ["esl/data/format/openbook.hpp: parse_main_session"]}
{"id": "C90", "title": "Latin hypercube sampling uses every point of each parameter once", "statement": "latin_hypercube with density n returns n samples in which, for each parameter, each of its n grid points occurs exactly once, whatever the shuffles.", "quantifier": "all parameter lists, densities and shuffles", "why_tests_cant": "All random streams.", "anchors": ["esl/simulation/parameter/sampler.hpp: latin_hypercube"]}
{"id": "C91", "title": "Investors submit one dividend record per announced dividend", "statement": "A shareholder that holds shares of a company and is told of a dividend submits its record to the company exactly once, on the ex-dividend date, to be delivered no earlier than it is sent.", "quantifier": "all sequences of announcements and steps", "why_tests_cant": "History property.", "anchors": ["esl/economics/finance/shareholder.cpp: shareholder::shareholder, submit_dividend_record"]}
{"id": "C92", "title": "Dividends computed from a profit do not exceed it", "statement": "The dividends compute_dividend_per_share assigns to the share classes are their fractions of the profit rounded down, and the total of a policy made of them is at most the profit.", "quantifier": "all profits, currencies and outstanding shares", "why_tests_cant": "All amounts; floating-point rounding.", "anchors": ["esl/economics/company.cpp: compute_dividend_per_share, total_shares", "esl/economics/finance/dividend.cpp: total_dividends"]}
{"id": "C93", "title": "Stock holdings add up the shares of all companies and classes", "statement": "stock_holdings returns for every stock the sum of the shares held that it stands for.", "quantifier": "all portfolios of shares", "why_tests_cant": "All portfolios; undefined behaviour.", "anchors": ["esl/economics/finance/shareholder.cpp: stock_holdings"]}
{"id": "C94", "title": "Investors value securities at the latest quote", "statement": "After any sequence of quotes, the price a shareholder or bondholder has recorded for a security is the one quoted last.", "quantifier": "all sequences of quotes", "why_tests_cant": "History property.", "anchors": ["esl/economics/finance/shareholder.cpp: extract_prices_", "esl/economics/finance/bondholder.cpp: process_quotes_"]}
{"id": "C95", "title": "Prices add up exactly in one currency; different currencies are rejected", "statement": "Adding, subtracting and negating prices in one currency is exact when the result fits 64 bits, and subtracting undoes adding; an operation on prices in different currencies is rejected. Products are exact too, quotients are truncated and undefined for zero. Quotes add and subtract likewise; different lots are rejected by an exception and the lot is kept.", "quantifier": "all pairs of prices and quotes, with assertions compiled in or not", "why_tests_cant": "All values, including overflow; undefined behaviour is not an observable failure in a test.", "anchors": ["esl/economics/price.hpp: operator +, operator -", "esl/economics/markets/quote.hpp: operator +, operator -"]}
{"id": "C96", "title": "A price converted to a double and back is unchanged", "statement": "Converting a price to a floating point amount and approximating a price in the same currency from it returns the price.", "quantifier": "all prices and currencies", "why_tests_cant": "Depends on rounding of every value; tests try a few.", "anchors": ["esl/economics/price.hpp: operator double, approximate"]}
{"id": "C97", "title": "Adding an amount to a price adds that amount of currency", "statement": "price + x for a floating point amount x, like the amounts prices convert to, is the price of x more; multiples are exact and parts are truncated.", "quantifier": "all prices and doubles that are integers up to 2^53 in size", "why_tests_cant": "All values; rounding.", "anchors": ["esl/economics/price.hpp: operator +(double), operator -(double), operator *(double), operator /(double)"]}
{"id": "C98", "title": "A quote converted to a double and back is unchanged", "statement": "Converting a quote to a floating point number and making a quote like it from that number returns the quote.", "quantifier": "all quotes: values below 2^50, lots below 2^32, denominators up to 2^53", "why_tests_cant": "Depends on rounding of every value and every lot size.", "anchors": ["esl/economics/markets/quote.hpp: operator double, quote(double, const quote &)"]}
{"id": "C99", "title": "In a distributed simulation every process learns where new agents are", "statement": "After all processes have exchanged activations, the address book of every process gives for every agent announced since the last exchange the process that announced it (the highest ranking if several did), other entries are unchanged, every process reports the same number of activations, and no announcement is repeated.", "quantifier": "clusters of any number of processes with any agents, address books and announcements", "why_tests_cant": "All cluster sizes and all combinations of announcements; a test needs a cluster and covers one combination.", "anchors": ["esl/computation/distributed/mpi_environment.cpp: activate, activate_agent"]}
{"id": "C100", "title": "In a distributed simulation every process forgets deactivated agents", "statement": "After all processes have exchanged deactivations, no address book contains an agent deactivated since the last exchange, other entries are unchanged, and the exchange is well defined whatever number of agents was deactivated.", "quantifier": "clusters of any number of processes with any numbers of deactivated agents", "why_tests_cant": "All cluster sizes and numbers of deactivations; undefined behaviour need not show in a test.", "anchors": ["esl/computation/distributed/mpi_environment.cpp: deactivate, deactivate_agent"]}
{"id": "C101", "title": "Migrating agents between processes loses, duplicates and deadlocks nothing", "statement": "When processes propose to move agents they have to other processes, all processes agree on one list with exactly these migrations; executing it ends, without deadlock even if sends are not buffered, with every migrating agent, unchanged, at its destination only and all others where they were; all address books name the new places. The same holds for any proposals.", "quantifier": "all clusters, all lists of proposals, all interleavings of the processes, buffered and unbuffered sends", "why_tests_cant": "All interleavings and cluster sizes; a deadlock depends on timing and buffer sizes.", "anchors": ["esl/computation/distributed/mpi_environment.cpp: migrate, process_migrations"]}
{"id": "C102", "title": "In a distributed simulation messages reach their recipients", "statement": "Sending messages delivers every message in an outbox to the inbox of its recipient, by delivery time and for equal times in the order sent, on whatever process the recipient is, and empties the outboxes.", "quantifier": "clusters of any number of processes with any agents and messages", "why_tests_cant": "All cluster sizes and distributions of agents; tests run one process.", "anchors": ["esl/computation/distributed/mpi_environment.cpp: send_messages"]}
{"id": "C103", "title": "At the end of a distributed simulation all agents are gathered on the first process", "statement": "Migrating at or after the end of the simulation moves every agent to the process with rank 0, whatever migrations would be proposed otherwise, without loss, duplication or deadlock, and every address book names that process for the agents moved.", "quantifier": "all clusters and all interleavings of the processes", "why_tests_cant": "All interleavings and cluster sizes.", "anchors": ["esl/computation/distributed/mpi_environment.cpp: migrate"]}
{"id": "C104", "title": "Improved hypercube sampling selects the best-spaced candidate", "statement": "In every stage of improved hypercube sampling the candidate selected is one whose distance to the nearest point selected so far is closest to the optimal spacing, among all candidates drawn.", "quantifier": "all numbers of samples, dimensions and duplications, all points selected before, all candidates drawn", "why_tests_cant": "Spacing is a minimum over all candidates and all points, and integer overflow of the squared differences only shows with more than 65536 samples.", "anchors": ["esl/simulation/parameter/sampler.hpp: get_best_distance, improved_hypercube_sampling"]}
{"id": "C105", "title": "Participants of the Walrasian market are told every change of the quotes once", "statement": "A price setter sends the same quotes to each of its participants, at most one message per delivery date, with delivery dates that increase from one act to the next, and whenever its quotes change the participants are told the new ones.", "quantifier": "all sequences of acts, inboxes, participants, quotes and results of the solver", "why_tests_cant": "Rounds within a time step depend on which agents answer when; the loss shows only if an order arrives a round later than another.", "anchors": ["esl/economics/markets/walras/price_setter.cpp: act"]}
{"id": "C106", "title": "A market without orders does not hold up the simulation", "statement": "If a market receives no orders in a time step, or only orders that were sent earlier, the simulation goes on to later times.", "quantifier": "all inboxes without orders of the step, all states of the market, all models the market is part of", "why_tests_cant": "Non-termination cannot be observed by a test, and depends on the behaviour of all agents.", "anchors": ["esl/economics/markets/walras/price_setter.cpp: act", "esl/economics/markets/impact_function/market.cpp: act", "esl/simulation/model.cpp: step"]}
{"id": "C107", "title": "A market counts exactly the orders delivered in the time step", "statement": "When a market clears, every order that has been delivered in the present time step counts, one per sender, and no order counts before its delivery time.", "quantifier": "all inboxes: numbers, senders and times of sending and delivery of orders, and other messages among them", "why_tests_cant": "The outcome depends on the order of all messages in the inbox.", "anchors": ["esl/economics/markets/walras/price_setter.cpp: act", "esl/economics/markets/impact_function/market.cpp: act"]}
{"id": "C108", "title": "An impact market moves prices by the impact of the net demand", "statement": "When an impact market clears, the impact function is given, for each property ordered, the volume bought less the volume sold, and the quotes sent afterwards are the previous ones moved by the impact; properties that are not traded are not quoted.", "quantifier": "all sequences of acts and sets of orders, all impact functions", "why_tests_cant": "All combinations of orders of all participants over time.", "anchors": ["esl/economics/markets/impact_function/market.cpp: act, clear_market", "esl/economics/markets/impact_function/order.hpp: order_message"]}
{"id": "C109", "title": "Price changes stay within the circuit breaker", "statement": "The multipliers of prices found by the clearing of a Walrasian market are never below the lower nor above the upper limit of the circuit breaker, whichever method found them.", "quantifier": "all quotes, orders, limits, lists of methods, numbers of iterations and behaviours of the solvers", "why_tests_cant": "The solvers may report any point.", "anchors": ["esl/economics/markets/walras/tatonnement.hpp: circuit_breaker", "esl/economics/markets/walras/tatonnement.cpp: compute_clearing_quotes"]}
{"id": "C110", "title": "Multipliers that are found clear the market", "statement": "When the search for clearing prices reports multipliers, the excess demand at these (before the circuit breaker) is below the tolerance; up to the given number of iterations are made; otherwise it reports that none were found.", "quantifier": "all quotes, excess demand functions, lists of methods, numbers of iterations and behaviours of the solvers", "why_tests_cant": "Excess demand functions are given by users; convergence depends on all steps of the solvers.", "anchors": ["esl/economics/markets/walras/tatonnement.cpp: compute_clearing_quotes, excess_demand, demand_supply_mismatch", "esl/economics/markets/walras/price_setter.cpp: clear_market"]}
{"id": "C111", "title": "A property without demand keeps its price", "statement": "A traded property for which no participant has sent an excess demand function keeps its previous price, as clear_market documents.", "quantifier": "all quotes, orders and behaviours of the solvers", "why_tests_cant": "All combinations of quoted and ordered properties.", "anchors": ["esl/economics/markets/walras/price_setter.cpp: clear_market", "esl/economics/markets/walras/tatonnement.cpp: excess_demand"]}
{"id": "C112", "title": "The search for prices leaves the error handling of the program as it was", "statement": "After a search for clearing prices the error handler of the numerical library is the one that was installed before.", "quantifier": "all quotes, orders, methods and behaviours of the solvers, all handlers", "why_tests_cant": "Only visible in later uses of the library, on all paths out of the search.", "anchors": ["esl/economics/markets/walras/tatonnement.cpp: compute_clearing_quotes, handler"]}
{"id": "C113", "title": "When a method makes no progress the next is tried", "statement": "When a solution method fails, the next of the list is tried, and the program goes on.", "quantifier": "all quotes, orders, lists of methods and behaviours of the solvers, all error handlers", "why_tests_cant": "All ways in which a solver may fail.", "anchors": ["esl/economics/markets/walras/tatonnement.hpp: methods", "esl/economics/markets/walras/tatonnement.cpp: compute_clearing_quotes"]}
{"id": "C114", "title": "The multipliers found are for the quoted properties", "statement": "When multipliers are found, there is exactly one for each quoted property and none for others, whatever orders mention; a search without methods is an exception and nothing else is.", "quantifier": "all quotes, orders, methods and behaviours of the solvers", "why_tests_cant": "All combinations of quoted and ordered properties; applying the result to a property without a multiplier is undefined.", "anchors": ["esl/economics/markets/walras/tatonnement.cpp: compute_clearing_quotes", "esl/economics/markets/walras/price_setter.cpp: apply_results"]}
{"id": "C115", "title": "Money is valued in the reporting currency", "statement": "Under an accounting standard an amount of money is worth that amount in its own currency, or, for a foreign currency for which a rate is provided, the converted amount in the reporting currency; without a rate it is an exception.", "quantifier": "all amounts, currencies, rates and standards", "why_tests_cant": "All currencies, rates and amounts, including large ones.", "anchors": ["esl/economics/accounting/standard.hpp: standard::value", "esl/economics/exchange_rate.hpp: operator *"]}
{"id": "C116", "title": "Positions in stocks are valued at market", "statement": "A position in a stock is worth the quoted price times the quantity over the lot size, converted to the reporting currency where a rate is provided; a stock without a quote is an exception.", "quantifier": "all quotes (including negative prices), lot sizes, quantities and standards", "why_tests_cant": "Prices, lots and quantities over their full ranges.", "anchors": ["esl/economics/accounting/standard.hpp: standard::value"]}
{"id": "C117", "title": "Short positions are valued opposite to long ones", "statement": "A securities lending contract is worth the negative of the value of the securities it is for, in the reporting currency.", "quantifier": "all quotes, contract sizes, quantities and standards", "why_tests_cant": "Prices, lots, sizes and quantities over their full ranges.", "anchors": ["esl/economics/accounting/standard.hpp: standard::value", "esl/economics/finance/securities_lending_contract.hpp: size"]}
{"id": "C118", "title": "Loans are debts", "statement": "A loan is valued at minus its principal in the reporting currency.", "quantifier": "all principals and denominators of currencies", "why_tests_cant": "All amounts over the full range.", "anchors": ["esl/economics/accounting/standard.hpp: standard::value"]}
{"id": "C119", "title": "The balance sheet adds up what is owned", "statement": "The assets on the balance sheet of an owner are the values of the properties it owns.", "quantifier": "all inventories and standards", "why_tests_cant": "All inventories.", "anchors": ["esl/economics/accounting/balance_sheet.hpp: balance_sheet::assets"]}
{"id": "C120", "title": "Printed collections can be read back", "statement": "The text of a vector, array, map or queue of numbers determines its contents: all elements are listed, in order, with separators.", "quantifier": "all collections of all lengths and all numbers; for general elements, all whose text has no separator", "why_tests_cant": "All lengths and values; two different collections must never have the same text.", "anchors": ["esl/data/representation.hpp: operator <<"]}
{"id": "C121", "title": "Streams of an output receive every value once and in order", "statement": "Each stream attached to an output that is not buffered receives one line for each variable of each value put into it afterwards, in order, and nothing else; the lines of a series of numbers determine the series; the output keeps all values; adding a stream under a name that no output has is an exception.", "quantifier": "all histories of outputs made, streams added and values put", "why_tests_cant": "All interleavings over several outputs and shared streams.", "anchors": ["esl/data/output.hpp: output::put", "esl/data/output_base.hpp: output_base::write", "esl/data/producer.hpp: producer::create_output, producer::add_output_stream"]}
{"id": "C122", "title": "A stream added under a name receives what is put into the output with that name", "statement": "What is put into the output that create_output(name) returned is written to the streams added under that name.", "quantifier": "all histories, including names used more than once", "why_tests_cant": "Depends on everything created before.", "anchors": ["esl/data/producer.hpp: producer::create_output, producer::add_output_stream"]}
{"id": "C123", "title": "Buffered outputs are written at the end of the simulation", "statement": "The values of a buffered output are kept until the end of the simulation and are written to its streams then, as the documentation of the flag says.", "quantifier": "all histories of outputs that end with the end of the run", "why_tests_cant": "All histories.", "anchors": ["esl/data/output_base.hpp: buffered", "esl/data/output.hpp: output::put", "esl/computation/environment.cpp: environment::after_run"]}
{"id": "C124", "title": "Messages below the severity of a log are not shown", "statement": "A message of a severity below that of the log leaves no trace; others are kept in the log with their severity.", "quantifier": "all messages, severities and states of the log, in both kinds of build", "why_tests_cant": "All combinations of severities and builds.", "anchors": ["esl/data/log.hpp: log::get", "esl/data/channel.hpp: channel::operator <<", "esl/data/severity.hpp: severity"]}
{"id": "C125", "title": "Ending a line of a log terminates", "statement": "Sending a line end to a channel ends the line in the log and returns, for std::endl and for channel::endl.", "quantifier": "all channels and states", "why_tests_cant": "A deadlock is not an observable result of a test.", "anchors": ["esl/data/channel.hpp: channel::endl, channel::operator <<"]}
{"id": "C126", "title": "The outputs of an agent survive archiving", "statement": "A producer restored from an archive has the outputs, with their values, of the producer that was archived.", "quantifier": "all histories of a producer", "why_tests_cant": "All histories.", "anchors": ["esl/data/producer.hpp: producer::save, producer::load"]}
{"id": "C127", "title": "Fractions are allocated as integers that add up", "statement": "allocate_fractions turns numbers into integers that add up to the requested sum, each less than one away from its number.", "quantifier": "all lists of numbers, all requested sums, all orders the sort may produce", "why_tests_cant": "Rounding errors accumulate over all numbers; sorting may break ties in any way.", "anchors": ["esl/algorithms.hpp: allocate_fractions"]}
{"id": "C128", "title": "The geometric mean is the root of the product", "statement": "The geometric mean of n positive numbers is the positive number whose n-th power is their product, for floating point and for integer element types.", "quantifier": "all non-empty lists of positive numbers (in real arithmetic)", "why_tests_cant": "All numbers and lengths.", "anchors": ["esl/algorithms.hpp: geometric_mean"]}
{"id": "C129", "title": "The growth rate of a series is its growth per step", "statement": "The growth rate of a series is the rate that, applied in every step, leads from its first to its last point; a series that grows by the same rate in every step has that growth rate.", "quantifier": "all series of positive numbers (in real arithmetic)", "why_tests_cant": "All series of all lengths.", "anchors": ["esl/algorithms.hpp: growth_rate"]}
{"id": "C130", "title": "The market making rule quotes a bid below the ask", "statement": "For a positive risk aversion, volatility and arrival rate and a time within the session, the market making rule returns a bid below the ask, both in the currency of the middle price, and trips no assertion; for ordinary magnitudes of the arguments it is defined.", "quantifier": "all middle prices, inventories and parameters (doubles), any logarithm function that is not negative from 1 on", "why_tests_cant": "Rounding of every combination of doubles; overflow of the conversion is undefined behaviour.", "anchors": ["esl/economics/markets/order_book/avellaneda_stoikov.hpp: avellaneda_stoikov"]}
{"id": "C131", "title": "Without an inventory the quotes surround the middle price, the wider the more volatile the market", "statement": "When as much has been bought as sold, the middle price is not below the bid and not above the ask; a higher volatility, or more time to the end of the session, never brings a quote closer to it.", "quantifier": "all prices below 2^52 units, all pairs of volatilities and times", "why_tests_cant": "All pairs of doubles; the counterexample depends on the last bit.", "anchors": ["esl/economics/markets/order_book/avellaneda_stoikov.hpp: avellaneda_stoikov"]}
{"id": "C132", "title": "A market maker that holds more quotes no higher", "statement": "With more bought or less sold, neither the bid nor the ask of the market making rule is higher.", "quantifier": "all middle prices, inventories and parameters", "why_tests_cant": "All pairs of inventories; monotonicity in floating point.", "anchors": ["esl/economics/markets/order_book/avellaneda_stoikov.hpp: avellaneda_stoikov"]}
{"id": "C133", "title": "The market making rule works for risk neutrality and little risk aversion", "statement": "A risk aversion of zero is risk neutrality and gives quotes; as the risk aversion goes to zero the spread goes to twice the reciprocal of the arrival rate.", "quantifier": "all middle prices, inventories and other parameters", "why_tests_cant": "Undefined behaviour is not an observable failure in a test; cancellation depends on magnitudes that tests do not try.", "anchors": ["esl/economics/markets/order_book/avellaneda_stoikov.hpp: avellaneda_stoikov"]}
{"id": "C134", "title": "Texts are read as market identifier codes exactly when they are such codes", "statement": "Making a market identifier code from a text succeeds exactly for texts of four capital letters and digits, and gives that text back; all other texts are rejected with an exception.", "quantifier": "all texts of all lengths", "why_tests_cant": "All texts; short ones are undefined behaviour, which need not fail in a test.", "anchors": ["esl/economics/markets/iso_10383.hpp: iso_10383"]}
{"id": "C135", "title": "Market identifier codes are ordered like their texts", "statement": "The six comparisons of market identifier codes agree with the alphabetical order of their texts, which is a strict total order, and equal codes have equal hashes.", "quantifier": "all pairs and triples of codes", "why_tests_cant": "All combinations of 36^4 codes.", "anchors": ["esl/economics/markets/iso_10383.hpp: iso_10383"]}
{"id": "C136", "title": "Currencies have different names exactly when they have different letters", "statement": "Printing the name of two currencies gives the same text exactly when they have the same three letters; every currency that the library lists has the name that is listed for it.", "quantifier": "all pairs of currencies, listed or not", "why_tests_cant": "Every pair of 26^3 codes; names come from a switch over a hash, where one collision would merge two currencies.", "anchors": ["esl/economics/currencies.hpp", "esl/economics/iso_4217.hpp"]}
{"id": "C137", "title": "Countries have different names, and every country of the library has one", "statement": "Printing the names of two countries gives the same text exactly for the same country; every country that the library lists has a name.", "quantifier": "all pairs of two letter codes, all listed countries", "why_tests_cant": "Every pair of codes; names come from a switch over a hash.", "anchors": ["esl/geography/countries.hpp"]}
{"id": "C138", "title": "The constants for currencies, countries and jurisdictions carry the codes of their names and are pairwise different", "statement": "Each constant for a currency or country has the code that its name says and passes the checks of construction; each jurisdiction is that of the country of its name with a listed currency as tender; no two of them are the same.", "quantifier": "all constants of the library", "why_tests_cant": "A test would repeat the table; here the table is compared with its own names.", "anchors": ["esl/economics/currencies.hpp", "esl/geography/countries.hpp", "esl/law/jurisdictions.hpp"]}
{"id": "C139", "title": "Cash in different currencies is kept apart in an inventory", "statement": "After any deposits into an inventory, the amount held of the cash of a currency is the sum of what was deposited of the cash of that currency.", "quantifier": "all sequences of deposits of cash, loans, contracts and stocks", "why_tests_cant": "All sequences and all currencies; cash is found by a hash of the currency.", "anchors": ["esl/economics/cash.hpp: cash::create_identifier", "esl/economics/accounting/inventory.hpp: insert", "esl/law/property_collection.hpp"]}
{"id": "C140", "title": "Different loans are kept apart in an inventory", "statement": "Loans between different parties are different entries of an inventory, so that each can be found, valued and handed over on its own.", "quantifier": "all sequences of deposits", "why_tests_cant": "All combinations of parties and orders of deposits.", "anchors": ["esl/economics/finance/loan.hpp", "esl/law/contract.hpp", "esl/law/property_collection.hpp"]}
{"id": "C141", "title": "Different contracts to lend securities are kept apart in an inventory", "statement": "Contracts on different securities, between different parties or for different sizes are different entries of an inventory; in particular the units on loan add up.", "quantifier": "all sequences of deposits", "why_tests_cant": "All combinations of parties, sizes and securities.", "anchors": ["esl/economics/finance/securities_lending_contract.hpp", "esl/law/property_collection.hpp"]}
{"id": "C142", "title": "A share never has the identity of other property of the company", "statement": "The identity made for a class of shares of a company is different from the identity of all other property that the company creates.", "quantifier": "all companies, all classes and all numbers of created properties", "why_tests_cant": "All histories of creation.", "anchors": ["esl/economics/finance/stock.cpp: create_share_identifier, stock", "esl/simulation/entity.hpp: create"]}
{"id": "C143", "title": "Printing a collection of property shows every item in it", "statement": "The text of a collection of property consists of the name and quantity of each item, separated by commas.", "quantifier": "all collections in all orders of iteration", "why_tests_cant": "The order of iteration of the hash table is not specified, so a test sees one of many.", "anchors": ["esl/law/property_collection.hpp: operator <<"]}
{"id": "C144", "title": "The shares recorded for a class are those last recorded for exactly that class", "statement": "In a map from classes of shares to numbers (the outstanding shares of a company, the holdings of a shareholder), looking up a class gives what was last stored for a class that compares equal.", "quantifier": "all sequences of assignments and all classes", "why_tests_cant": "All combinations of the attributes of a class.", "anchors": ["esl/economics/finance/share_class.hpp: operator ==, operator <", "esl/economics/company.hpp: shares_outstanding"]}
{"id": "C145", "title": "Unique items are handed over once or not at all", "statement": "Handing over an inventory of infungible items adds exactly one of each when none is held already, and otherwise throws an exception and changes nothing; adding a further item to such an inventory is never lost.", "quantifier": "all inventories and all holdings", "why_tests_cant": "All positions of the offending item; the state after an exception.", "anchors": ["esl/economics/accounting/inventory.hpp: inventory_by_fungibility<property_t_, false>"]}
{"id": "C146", "title": "A rate given as a decimal number with as many digits as the precision is that number", "statement": "A rate made from the floating point number closest to k/p with precision p is the fraction k/p; from any number it differs by less than one unit of the precision and the rounding of one multiplication.", "quantifier": "all k, all precisions and all doubles within range", "why_tests_cant": "Rounding of every double; 38 of the basis points from 0 to 5 percent are affected.", "anchors": ["esl/economics/rate.hpp: rate(double, precision)"]}
{"id": "C147", "title": "The inflation rate leads from the first price to the second", "statement": "The inflation rate between two consumer prices in the same currency, applied to the first, gives exactly the second; it has the duration that was given; prices in different currencies and a first price that is not positive are rejected.", "quantifier": "all pairs of prices", "why_tests_cant": "All pairs of 64-bit values; what happens depends on the build.", "anchors": ["esl/economics/interest_rate.hpp: inflation_rate::from_consumer_prices", "esl/economics/rate.hpp"]}
{"id": "C148", "title": "An exchange rate made similar to another has its precision", "statement": "An exchange rate made from a number and a similar exchange rate is the number up to one unit of the precision with which the similar rate was made.", "quantifier": "all similar rates and all numbers", "why_tests_cant": "The loss accumulates over sequences of rates each made similar to the one before.", "anchors": ["esl/economics/exchange_rate.hpp: exchange_rate(double, const exchange_rate &)"]}
{"id": "C149", "title": "An exchange rate has the value of the number or fraction it is made from", "statement": "An exchange rate made from two positive integers is their fraction, and so are its copies; an exchange rate made from a decimal number is that number.", "quantifier": "all pairs of 64-bit integers and all doubles", "why_tests_cant": "All pairs; which constructor is chosen depends on implicit conversions that compile silently.", "anchors": ["esl/economics/exchange_rate.hpp: exchange_rate"]}
{"id": "C150", "title": "An archived message is restored", "statement": "A message read from an archive has the type, sender, recipient, times and content of the message that was written.", "quantifier": "all messages: headers, transfers, dividend records, differentiable and impact orders", "why_tests_cant": "All contents of all classes of messages; which members are left out shows only when they differ from the defaults.", "anchors": ["esl/interaction/header.hpp: serialize", "esl/interaction/message.hpp: serialize", "esl/interaction/transfer.hpp: serialize", "esl/economics/finance/dividend.hpp: dividend_record", "esl/economics/markets/walras/differentiable_order_message.hpp", "esl/economics/markets/impact_function/order.hpp"]}
{"id": "C151", "title": "An archived agent continues where it stopped", "statement": "An agent read from an archive has the identity, the mail with its addresses, the schedule and the callbacks of the agent that was written, and gives its next children the identities they would have had.", "quantifier": "all agents with any mail", "why_tests_cant": "All states of an agent and its mail.", "anchors": ["esl/agent.hpp: serialize", "esl/simulation/entity.hpp: serialize, create", "esl/interaction/communicator.hpp: serialize"]}
{"id": "C152", "title": "Identities, countries, jurisdictions, persons, share classes, intervals and inventories are restored", "statement": "Each of these values read from an archive equals the value that was written, and reading stops where writing stopped.", "quantifier": "all values", "why_tests_cant": "All values; identities and inventories of any length.", "anchors": ["esl/simulation/identity.hpp: serialize", "esl/geography/iso_3166_1_alpha_2.hpp: serialize", "esl/law/jurisdiction.hpp", "esl/law/natural_person.hpp", "esl/law/government.hpp", "esl/economics/finance/share_class.hpp: serialize", "esl/mathematics/interval.hpp: serialize", "esl/economics/accounting/inventory.hpp: inventory_filter"]}
{"id": "C153", "title": "Timing measurements are restored", "statement": "The time an agent took for messages and for acting, read from an archive, is the time that was written.", "quantifier": "all measurements", "why_tests_cant": "All values; the default is what the target has.", "anchors": ["esl/computation/timing.hpp: agent_timing"]}
{"id": "C154", "title": "What is logged from Python is recorded with its severity and place", "statement": "A message logged from Python at a level appears in the log as a line with the name of that level, the file of the caller relative to the library and its line number, under the same rule for levels that are left out as for messages logged from C++.", "quantifier": "all levels, messages, paths and line numbers, builds", "why_tests_cant": "All paths and texts; the level is translated in a branch per level and per build.", "anchors": ["esl/python_module_esl.cpp: python_log_detailed", "esl/__init__.py: log", "esl/data/log.hpp: apply_formatting, get"]}
{"id": "C155", "title": "The code seen in Python identifies a currency or a country", "statement": "The text that Python gives for the code of a currency or of a country is its ISO code, so different currencies, and different countries, have different codes.", "quantifier": "all codes", "why_tests_cant": "All pairs of codes.", "anchors": ["esl/python_module_esl.cpp: python_currency_code, python_country_code"]}
{"id": "C156", "title": "Every country, currency and jurisdiction of the library is available in Python under its own name", "statement": "The names of the countries, currencies and jurisdictions in the Python module are those of the library, each bound to the constant of that name.", "quantifier": "all constants", "why_tests_cant": "Three tables with hundreds of entries against three others; a module that names a constant that is not defined does not compile.", "anchors": ["esl/python_module_esl.cpp: currencies, countries, jurisdictions", "esl/geography/countries.hpp", "esl/economics/currencies.hpp", "esl/law/jurisdictions.hpp"]}
{"id": "C157", "title": "A constant parameter set from Python is read back", "statement": "After a constant is added to a parametrization under a name, reading that name gives the same value, and other names are unaffected; a value that can not be stored is an error.", "quantifier": "all names, values and parametrizations", "why_tests_cant": "All values of all types of numbers.", "anchors": ["esl/__init__.py: add_constant_parameter_helper", "esl/python_module_esl.cpp: parametrization_get_helper, pack"]}
{"id": "C158", "title": "A model made from parameters set in Python has these settings", "statement": "After start, end, sample, verbosity or threads is set from Python to a natural number, the model made from the parametrization starts, ends, samples and runs as set.", "quantifier": "all numbers and parametrizations", "why_tests_cant": "Numbers of all types; which ones are accepted depends on their type.", "anchors": ["esl/__init__.py: simple_experiment", "esl/simulation/parameter/parametrization.hpp: get", "esl/simulation/model.cpp: model"]}
{"id": "C159", "title": "A mapping of the library behaves in Python as a dictionary", "statement": "Reading, assigning, deleting, testing, counting and listing keys of a mapping agree with each other as for a dictionary; reading or deleting a missing key is a KeyError.", "quantifier": "all mappings, keys and values", "why_tests_cant": "All contents of a mapping.", "anchors": ["esl/python_module_esl.cpp: map_indexing_suite"]}
{"id": "C160", "title": "An inbox behaves in Python as a mapping from times", "statement": "Assigning a time in an inbox makes the value readable at that time and changes no other; deleting a time removes its messages only.", "quantifier": "all inboxes, times and values", "why_tests_cant": "All contents, with several messages at a time.", "anchors": ["esl/python_module_esl.cpp: multimap_indexing_suite"]}
{"id": "C161", "title": "An agent written in Python that asks for no activation acts once", "statement": "When no agent sends messages and the method of each returns nothing, each agent acts exactly once, at the start of the simulation, for the whole of it.", "quantifier": "all environments, all start and end times, all states", "why_tests_cant": "All simulations.", "anchors": ["esl/python_module_esl.cpp: python_agent::act", "esl/agent.cpp: act", "esl/simulation/model.cpp: step", "esl/computation/environment.cpp: run"]}
{"id": "C162", "title": "A message that an agent sends from Python is delivered", "statement": "A message appended to the outbox of an agent in Python, or passed to its function to send messages, is among the messages that the environment delivers.", "quantifier": "all agents, messages and environments", "why_tests_cant": "All contents of an outbox; the property gives a copy.", "anchors": ["esl/python_module_esl.cpp: agent inbox and outbox properties, send_message_python"]}
{"id": "C163", "title": "The demand of an order written in Python is the demand the market sees", "statement": "For each property in the dictionary that an order returns for a list of quotes, the market sees the number under that property; the supply assigned to an order is read back.", "quantifier": "all dictionaries", "why_tests_cant": "All types of numbers that Python has; those that do not convert are left out without an error.", "anchors": ["esl/python_module_esl.cpp: python_differentiable_order_message::excess_demand, get_differentiable_order_message_supply, set_differentiable_order_message_supply"]}
{"id": "C164", "title": "Quotes in Python are valid", "statement": "A quote made from a price has that price and a lot of one; the price can be replaced; a quote never has a lot of zero.", "quantifier": "all prices and lots", "why_tests_cant": "All lots.", "anchors": ["esl/python_module_esl.cpp: quote", "esl/economics/markets/quote.hpp"]}
{"id": "C165", "title": "The code of an ISIN assigned in Python is read back", "statement": "After a code of nine characters is assigned, it is read back, and the issuing country is unchanged; other codes are an error.", "quantifier": "all texts", "why_tests_cant": "Texts of all lengths.", "anchors": ["esl/python_module_esl.cpp: get_isin_code, set_isin_code", "esl/algorithms.hpp: to_array"]}
{"id": "C166", "title": "A company written in Python without a dividend policy acts as one in C++", "statement": "A company written in Python that does not define a dividend policy has none, and one that does announces it to its shareholders when due.", "quantifier": "all companies and intervals", "why_tests_cant": "All sequences of activations.", "anchors": ["esl/python_module_esl.cpp: python_company::upcoming_dividend", "esl/economics/company.cpp: upcoming_dividend, act"]}
{"id": "C167", "title": "Each class of messages has a code of its own", "statement": "The codes of the message classes of the library are pairwise different and none is a code that users may choose, so the functions called for a message are exactly those registered for its class.", "quantifier": "all classes, all registrations and messages", "why_tests_cant": "All pairs of classes in many files, all sequences of registrations.", "anchors": ["esl/interaction/header.hpp: library_message_code", "esl/interaction/message.hpp", "esl/economics/markets/*_message.hpp", "esl/economics/finance/dividend.hpp", "esl/interaction/communicator.cpp: process_message"]}
{"id": "C168", "title": "A created message carries who sent it, when, to whom, and when it arrives", "statement": "A message made with a sender and a time and sent with create_message is last in the outbox, with this sender and time of sending, and with the recipient and the time of delivery of the call.", "quantifier": "all classes of messages, identities and times", "why_tests_cant": "All classes; some constructors have no times or no sender.", "anchors": ["esl/interaction/communicator.hpp: create_message", "esl/interaction/transfer.hpp: transfer", "esl/economics/finance/dividend.hpp: dividend_announcement_message", "esl/economics/markets/*_message.hpp"]}
{"id": "C169", "title": "An order made in reply to a quote goes back to the market", "statement": "An order constructed from a quote message is sent by the recipient of the quote to its sender, at the time the quote was received.", "quantifier": "all quotes and both kinds of orders", "why_tests_cant": "All quotes.", "anchors": ["esl/economics/markets/order_message.hpp: order_message", "esl/economics/markets/walras/differentiable_order_message.hpp", "esl/economics/markets/impact_function/order.hpp"]}
{"id": "C170", "title": "A random latency has the shift as its minimum and gets shorter with the rate", "statement": "A latency drawn for a shape, a rate and a shift is at least the shift, plus a waiting time that gets shorter in proportion to the rate, as for tasks with exponential waiting times of that rate.", "quantifier": "all shapes, rates, shifts and draws", "why_tests_cant": "A random quantity; tests see samples.", "anchors": ["esl/interaction/communication.hpp: shifted_gamma_latency::sample"]}
{"id": "C171", "title": "A draw from the zero-truncated Poisson distribution has its probabilities", "statement": "For a uniform draw the result is the number at which the distribution function of the Poisson distribution, given that it is positive, reaches it; it is positive and in the range of its type.", "quantifier": "all means and uniform draws", "why_tests_cant": "A random quantity; the probabilities are infinitely many.", "anchors": ["esl/mathematics/zero_truncated_poisson_distribution.hpp: operator()"]}
{"id": "C172", "title": "Currencies are counted in their minor units, and countries have their legal tender", "statement": "Every currency constant that ISO 4217 defines a minor unit for is counted in that unit (e.g. 1 for the yen, 1000 for the Kuwaiti dinar), and every jurisdiction constant has the currency of its country, or the one that the country shares.", "quantifier": "all constants for currencies and jurisdictions", "why_tests_cant": "The tests look at a handful of constants; an amount in the wrong unit is off by a factor of ten or more.", "anchors": ["esl/economics/currencies.hpp: iso_4217 constants", "esl/law/jurisdictions.hpp: jurisdiction constants"]}
{"id": "C173", "title": "Every message takes effect exactly once over a whole simulation", "statement": "Take any quantity that agents account for: a worth of each agent's state plus an effect of each message, such that handling a message adds its effect to the recipient's worth and acting keeps the sender's worth plus the effects of what it sends. Then the total over all agents, their outboxes and their inboxes is unchanged by every step and every run, with one or several threads: no message is lost, duplicated or handled by another agent.", "quantifier": "all agents that keep such accounts (any state, callbacks, actions, modulus), all shuffles, all numbers of steps, rounds and threads", "why_tests_cant": "Conservation over whole runs depends on every interleaving of rounds, deliveries and shuffles; a test sees one run of a few agents.", "anchors": ["esl/simulation/model.cpp: model::step", "esl/computation/environment.cpp: environment::run, send_messages", "esl/interaction/communicator.cpp: process_messages"]}
{"id": "C174", "title": "Transfers between owners neither create nor destroy property", "statement": "In a simulation whose agents are owners of property, whose own code leaves the inventory alone and sends only balanced sets of transfers (e.g. each transfer to both of its parties), the amount of every property that is owned plus what is underway is the same (modulo 2^64) before and after any run. When nothing is underway and no amount exceeds 64 bits, the same amounts are owned.", "quantifier": "all such simulations, all properties, all runs", "why_tests_cant": "An inventory that is updated by an interleaving of transfers from many senders over many steps can not be enumerated by tests.", "anchors": ["esl/economics/owner.hpp: owner, process_transfer", "esl/economics/accounting/inventory.hpp: inventory_filter", "esl/interaction/transfer.hpp: transfer", "esl/simulation/model.cpp: model::step"]}
{"id": "C175", "title": "A clearing market's settlement gives each participant its trade and takes its payment", "statement": "After a Walrasian clearing of one property without short positions, whatever order a participant processes its transfers in, it has gained what it bought (lost what it sold), paid (received) the cost of that trade, and holds the same amounts of everything else; those that did not trade receive nothing. Added up over all participants the transfers of a clearing create and destroy nothing, neither property nor cash.", "quantifier": "all demands, trades, inventories, prices and orders of processing", "why_tests_cant": "Rounding and the order of processing matter only for particular combinations of amounts and prices.", "anchors": ["esl/economics/markets/walras/price_setter.cpp: price_setter::clear_market", "esl/economics/owner.hpp: owner, process_transfer"]}
{"id": "C176", "title": "A message is handled at its time of delivery", "statement": "An agent that is sent a message with a time of delivery before the end of the simulation handles it in a step no later than its time of delivery allows: no time step passes a delivery by, and no message that is due before the end remains unhandled when the run ends.", "quantifier": "all agents, messages, delivery times and runs", "why_tests_cant": "A message is only forgotten when its recipient acts before the delivery and then sleeps past it, which is a particular order of events.", "anchors": ["esl/simulation/model.cpp: model::step", "esl/computation/environment.cpp: send_messages", "esl/interaction/communicator.cpp: process_messages"]}
{"id": "C177", "title": "Participants of a Walrasian clearing trade what their demand affords", "statement": "A participant whose excess demand for a property is worth some amount of money at the clearing price trades that many units, rounded towards zero and corrected by at most one unit when the demands clear: a buyer pays no more than the money it offered, and a seller gives no more than it asked money for. Every demand is counted once, for its own property and participant.", "quantifier": "all orders, quotes, lots, currencies and multipliers", "why_tests_cant": "Rounding errors depend on the combination of amount, price, lot and multiplier; the tests clear one market.", "anchors": ["esl/economics/markets/walras/price_setter.cpp: price_setter::clear_market, compute_transfers, apply_results", "esl/economics/markets/quote.hpp: quote::operator floating_point_t_"]}
{"id": "C178", "title": "The volume that a Walrasian market puts out is the volume that was traded", "statement": "After each clearing the output called volumes holds the number of units that changed hands, for each traded property, whatever the orders demand.", "quantifier": "all orders and quotes", "why_tests_cant": "The output is a time series of numbers that look plausible; no test compares it with the transfers.", "anchors": ["esl/economics/markets/walras/price_setter.cpp: price_setter::clear_market"]}
{"id": "C179", "title": "A demand for something that a Walrasian market does not trade is harmless", "statement": "An order that demands a property that the market has no quote for does not affect the clearing of the other orders.", "quantifier": "all orders and quotes", "why_tests_cant": "The tests submit well-formed orders only.", "anchors": ["esl/economics/markets/walras/price_setter.cpp: price_setter::clear_market"]}
{"id": "C180", "title": "Walrasian trades are paid in the currency in which they are quoted", "statement": "The cash that a buyer pays and a seller receives in a clearing is the number of units times the price, in the currency of the quote.", "quantifier": "all quotes in all currencies", "why_tests_cant": "The tests quote in US dollars only.", "anchors": ["esl/economics/markets/walras/price_setter.cpp: price_setter::clear_market", "esl/economics/money.hpp: money::amount", "esl/economics/price.hpp: price::operator double"]}
{"id": "C181", "title": "Agents that do not communicate with a group do not influence it", "statement": "Let the agents of a simulation be divided such that no message crosses between a group and the rest. Then a run with all agents leaves the group (private states, waiting messages, wake-up times) exactly as a run of the group alone does, and the group alone steps at some of the same times; so two simulations that differ in the other agents only agree on the group.", "quantifier": "all worlds, groups, behaviours of agents, schedules, seeds and runs that return", "why_tests_cant": "A relation between two runs of any length with arbitrary other agents; tests compare a few pairs of runs.", "anchors": ["esl/simulation/model.cpp: step", "esl/computation/environment.cpp: run, send_messages", "esl/interaction/communicator.cpp: process_messages"]}
{"id": "C182", "title": "Simulations that use no seed are the same for every sample and on every platform", "statement": "If no callback and no act uses the seed it is given, a run has the same result whatever the sample number, the hash of identities and the shuffling algorithm of the standard library.", "quantifier": "all worlds, samples, hash functions, shuffles and numbers of steps", "why_tests_cant": "Quantifies over implementations of the standard library and samples; tests run on one platform.", "anchors": ["esl/simulation/model.cpp: step", "esl/interaction/communicator.cpp: process_messages", "esl/interaction/communicator.hpp: communicator, schedule"]}
{"id": "C183", "title": "Prolonging a simulation does not change its past", "statement": "Let two simulations start with the same agents and the same scheduled times and end at end1 and end2, end1 <= end2, and let the agents use the end of the simulation only to limit the times they return. Then the longer simulation first steps at exactly the times of the shorter one, is then in a state in which every agent has the same mail, the same state and the same outbox as at the end of the shorter one, and goes on from there at end1 or later.", "quantifier": "all agents with such behaviour, all worlds, all pairs of ends, all shuffles and seeds", "why_tests_cant": "Relates two whole executions of arbitrary agents; a test compares two runs of one model.", "anchors": ["esl/simulation/model.cpp: model::step", "esl/computation/environment.cpp: environment::run", "esl/simulation/model.hpp: model::end", "esl/interaction/communicator.cpp: process_messages"]}
{"id": "C184", "title": "What agents will do later does not influence what happens now", "statement": "Two simulations whose agents start in the same states and behave the same at all times before T visit the same times before T, and at T every agent has the same mail, state and outbox in both, whatever the agents do at T and later. In particular changing act() of agents for times from T on changes nothing before T.", "quantifier": "all pairs of worlds that agree before T, all T, all shuffles and seeds", "why_tests_cant": "Relates two executions with different programs; the number of programs that agree before T is infinite.", "anchors": ["esl/simulation/model.cpp: model::step", "esl/computation/environment.cpp: environment::run", "esl/computation/environment.cpp: environment::send_messages", "esl/interaction/communicator.cpp: process_messages"]}
{"id": "C185", "title": "A distributed simulation runs until its end", "statement": "run() of the distributed environment steps all processes at the same times, which are the earliest times that any process asks for, until the end of the simulation.", "quantifier": "all numbers of processes, all simulations, all sequences of deactivated agents", "why_tests_cant": "A test needs a cluster; what happens depends on what every process has deactivated at every step of a run of any length.", "anchors": ["esl/computation/distributed/mpi_environment.cpp: mpi_environment::run", "esl/computation/distributed/mpi_environment.cpp: mpi_environment::deactivate", "esl/computation/distributed/mpi_environment.cpp: mpi_environment::activate"]}
{"id": "C186", "title": "In a distributed simulation messages wake up their recipients", "statement": "An agent that receives a message from an agent of the same process in a distributed simulation is woken up at the time of delivery at the latest, as in a simulation in a single process.", "quantifier": "all agents, messages, wake-up times and rounds", "why_tests_cant": "Depends on which of the agents sleep when, for arbitrary agents.", "anchors": ["esl/computation/distributed/mpi_environment.cpp: mpi_environment::send_messages", "esl/computation/environment.cpp: environment::send_messages", "esl/simulation/model.cpp: model::step"]}
{"id": "C187", "title": "Comparing a quantity with a number compares the amounts", "statement": "For a quantity q and a double x, q == x, q < x, q > x, q <= x and q >= x hold exactly when the number of items is equal to, less than, ... x.", "quantifier": "all quantities, all doubles including infinities and NaN", "why_tests_cant": "There are 2^64 quantities and 2^64 doubles; the wrong answers are for large odd amounts, which tests do not try.", "anchors": ["esl/quantity.hpp: quantity::operator==(double)", "esl/quantity.hpp: quantity::operator<(double)", "esl/quantity.hpp: quantity::operator>(double)", "esl/quantity.hpp: quantity::operator<=(double)", "esl/quantity.hpp: quantity::operator>=(double)"]}
{"id": "C188", "title": "A printed price or quote tells the price", "statement": "A price is printed as the letters of its currency and, in parentheses, the price in decimal notation with as many digits after the point as the currency has; different prices in a currency, and different quotes, are printed differently.", "quantifier": "all prices and quotes in all currencies", "why_tests_cant": "The text goes through a division in double precision and the rounding of the output; whether these two cancel has to be known for every amount.", "anchors": ["esl/economics/price.hpp: price::operator<<", "esl/economics/price.hpp: price::representation", "esl/economics/markets/quote.hpp: operator<<", "esl/economics/iso_4217.hpp: operator<<"]}
{"id": "C189", "title": "Printing a value leaves the format of the stream as it was", "statement": "After printing a price, quantity, identity, interval or report to a stream, other values printed to this stream look as they did before.", "quantifier": "all values, all streams with any format", "why_tests_cant": "Tests print to a new stream and look at the text printed, not at what is printed later; the statement is about all formats and all later values.", "anchors": ["esl/economics/price.hpp: price::operator<<", "esl/simulation/identity.hpp: operator<<", "esl/quantity.hpp: operator<<", "esl/mathematics/interval.hpp: operator<<"]}
{"id": "C190", "title": "Printed intervals, tickers, positions, reports and orders tell them apart", "statement": "Different time intervals, tickers, position reports, execution reports and orders are printed differently.", "quantifier": "all pairs of values", "why_tests_cant": "Quantifies over all pairs of values; a test compares a few.", "anchors": ["esl/mathematics/interval.hpp: operator<<", "esl/economics/markets/ticker.hpp: operator<<", "esl/economics/markets/centralized_exchange.hpp: position_report::operator<<", "esl/economics/markets/order_book/execution_report.hpp: operator<<", "esl/economics/markets/order_book/order.hpp: operator<<"]}
{"id": "C191", "title": "An archived owner or legal person still owns its property", "statement": "An agent that owns property, or a legal person, that is saved to an archive and loaded again is the same: identity, mail, what it is and where, its property, and it can hand its property over as before.", "quantifier": "all owners, legal persons, property and transfers", "why_tests_cant": "Whether everything is archived has to hold for all members with all values; a test compares the members its author thought of.", "anchors": ["esl/economics/owner.hpp: owner::serialize", "esl/law/legal_person.hpp: legal_person::save", "esl/law/legal_person.hpp: legal_person::load", "esl/law/legal_person.hpp: legal_person::serialize", "esl/law/legal_entity.hpp: iso_17442::serialize"]}
{"id": "C192", "title": "An archived company goes on as before", "statement": "A company that is saved to an archive and loaded again has the same shares, shareholders and dates, does not announce a dividend again that it has announced, and knows its holdings.", "quantifier": "all companies, dividend policies and times", "why_tests_cant": "The consequences of a member that is not archived show only in later actions, for every policy and every set of shareholders.", "anchors": ["esl/economics/company.hpp: company::serialize", "esl/economics/finance/shareholder.hpp: shareholder::serialize", "esl/law/organization.hpp: organization::serialize", "esl/economics/company.cpp: company::act", "esl/economics/finance/shareholder.cpp: shareholder::stock_holdings"]}
{"id": "C193", "title": "A simulation to which agents have been added can be run", "statement": "Running a model in the single-process environment is defined however many agents have been created in it or removed from it, before the run or during its steps.", "quantifier": "all models, numbers of agents, steps in which agents come and go, ways in which vectors grow", "why_tests_cant": "Undefined behaviour need not show in a test; whether memory is read after it was given back depends on the number of agents and on the library.", "anchors": ["esl/computation/environment.cpp: environment::activate", "esl/computation/environment.cpp: environment::deactivate", "esl/computation/environment.cpp: environment::run", "esl/simulation/agent_collection.cpp: agent_collection::activate"]}
{"id": "C194", "title": "Stepping the environment moves the model forward", "statement": "Each call of the step of the single-process environment progresses the model by one time step.", "quantifier": "all models and numbers of calls", "why_tests_cant": "For all agents and schedules; a test with one call cannot tell.", "anchors": ["esl/computation/environment.cpp: environment::step", "esl/simulation/model.hpp: model::time"]}
{"id": "C195", "title": "A simulation goes on without an agent that is removed", "statement": "After an agent has been removed the simulation goes on with the others as if it had never been there, and ends.", "quantifier": "all worlds, agents removed, times and later behaviour of the others", "why_tests_cant": "Whether a run ends cannot be tested; the outcome depends on when the removed agent would have acted.", "anchors": ["esl/simulation/agent_collection.cpp: agent_collection::deactivate", "esl/simulation/model.cpp: model::determine_next_event", "esl/simulation/model.cpp: model::step"]}
{"id": "C196", "title": "An agent created while the model steps takes part from then on", "statement": "An agent that another agent creates while it acts, acts itself at that time or at the next at which the model steps, and before the simulation ends.", "quantifier": "all worlds, rounds, agents created and messages sent to them", "why_tests_cant": "Depends on what all other agents do in the same round and on when they wake up next.", "anchors": ["esl/simulation/agent_collection.hpp: agent_collection::create", "esl/simulation/model.cpp: model::step", "esl/computation/environment.cpp: environment::send_messages"]}
{"id": "C197", "title": "Looking up an agent changes nothing", "statement": "Looking up an identity in the agents of a model leaves them as they are, whether there is such an agent or not.", "quantifier": "all collections of agents and identities", "why_tests_cant": "A statement about all later uses of the collection.", "anchors": ["esl/simulation/agent_collection.cpp: agent_collection::operator[]"]}
{"id": "C198", "title": "An object made with an identity has that identity", "statement": "Constructing an agent or a piece of property of any class with an identity yields an object with that identity, for the classes of the library and for classes that users derive from them by handing the identity on to their base classes.", "quantifier": "for every identity; for every class of the library that takes one; for every hierarchy of user classes built from the library with any initialisers", "why_tests_cant": "The identity is stored in a base class shared by the whole hierarchy. Which initialiser counts depends on the complete class, so testing a base class says nothing about classes derived from it.", "anchors": ["esl/agent.cpp: agent::agent", "esl/economics/owner.hpp: owner<property_t_>::owner", "esl/economics/finance/debtor.hpp: debtor::debtor", "esl/economics/finance/security.hpp: security::security", "esl/economics/company.cpp: company::company", "esl/law/property.cpp: property::property"]}
{"id": "C199", "title": "An agent with several roles keeps a correct view of each kind of property", "statement": "When an agent combines several roles (company, shareholder, bondholder, owner of further kinds of property), each transfer it receives is applied once to its inventory and once to the view of each kind of property it is an owner of. After any sequence of transfers, refused ones included, each view shows exactly the property of its kind in the inventory.", "quantifier": "for every combination of library classes and user classes; every sequence of transfers", "why_tests_cant": "The handlers are registered by constructors of shared base classes; their number and order depend on the whole hierarchy, and users add classes of their own.", "anchors": ["esl/economics/owner.hpp: owner<property>::owner, owner<property_t_>::owner", "esl/economics/company.hpp: company", "esl/economics/finance/shareholder.hpp: shareholder", "esl/economics/finance/bondholder.hpp: bondholder", "esl/interaction/communicator.cpp: communicator::process_message"]}
{"id": "C200", "title": "The two order books are interchangeable", "statement": "Given the same orders and cancellations, the fixed-tick book and the tree book send the same execution reports in the same order, up to the identifiers they give to placed orders, and quote the same bid and ask.", "quantifier": "for every sequence of orders and cancellations, every owner and every faithful tick scheme", "why_tests_cant": "The books share no code: one keeps linked lists in a pool of blocks indexed by price level, the other two multimaps. Their agreement is a relation between two histories of unbounded length.", "anchors": ["esl/economics/markets/order_book/static_order_book.hpp: static_order_book::insert, cancel, bid, ask", "esl/economics/markets/order_book/binary_tree_order_book.hpp: binary_tree_order_book::insert, cancel, bid, ask"]}
{"id": "C201", "title": "A participant that trades several properties in one Walrasian clearing is settled for all of them", "statement": "What a participant receives and gives at a clearing depends on its own trades only. Having processed the transfers in any order, it has gained what it bought, lost what it sold, and paid the sum of the costs, however many properties are cleared at once.", "quantifier": "for every number of properties and participants, all trades, prices and inventories, in exact and in double precision arithmetic, and every order of the transfers", "why_tests_cant": "The settlement accumulates per participant over all properties and is netted afterwards; a test fixes one combination of purchases and sales in one order of the properties.", "anchors": ["esl/economics/markets/walras/price_setter.cpp: price_setter::clear_market", "esl/economics/owner.hpp: owner<law::property>"]}
{"id": "C202", "title": "A Walrasian market in a simulation is cleared once in every time step, with the orders of all its participants", "statement": "If every participant answers quotes at once, participants that trade ask to be activated again at the next time, and the market can be cleared at each time, then a simulation with a market and its participants runs through every time step from 0 until its end. In each of them the market puts out new prices exactly once, computed from the orders of all participants given the prices of the step before, and each participant sees each of these quotes and books each transfer to it exactly once.", "quantifier": "for all numbers of participants, their strategies, order of agents, of messages and seeds, solvers, first quotes and ends of the simulation", "why_tests_cant": "The market, the participants and the scheduler take turns over three kinds of rounds; a test of the price setter alone sees none of them, and a test of a simulation fixes one set of strategies.", "anchors": ["esl/economics/markets/walras/price_setter.cpp: price_setter::act", "esl/simulation/model.cpp: model::step", "esl/computation/environment.cpp: environment::step, environment::run"]}
{"id": "C203", "title": "A participant that trades at one time takes part in the session of the next time", "statement": "After the market has been cleared and the transfers that settle the trades have been booked, every participant, whether it traded or not, is activated when the quotes of the next time are delivered, so that it can order again and the simulation goes on.", "quantifier": "for all markets, participants that leave the time of their next activation to the library, orders and trades", "why_tests_cant": "The transfers arrive in the same time step as the trade, after the quotes for the next step have been sent; only the interplay of booking, scheduling and quoting shows that the participant is not activated for the quotes.", "anchors": ["esl/economics/markets/walras/price_setter.cpp: price_setter::clear_market, price_setter::act", "esl/simulation/model.cpp: model::step", "esl/economics/owner.hpp: owner", "esl/agent.cpp: agent::act"]}
{"id": "C204", "title": "An exchange in a simulation enters orders in the order in which they arrive", "statement": "Every order, cancellation, request, logon and logout that is sent to an exchange is handled exactly once, at its time of delivery; those delivered earlier are handled before those delivered later. So of two equal orders the one that arrives first is matched first.", "quantifier": "for all numbers of traders and their behaviour, latencies, order of agents, seeds, schedules of the messages within a time step and ends of the simulation", "why_tests_cant": "That an order waits for its time of delivery, and which order is handled first, is decided by the scheduler of the simulation together with the inbox of the exchange; tests of the order book enter orders one by one.", "anchors": ["esl/economics/markets/centralized_exchange.hpp: centralized_exchange, centralized_exchange::insert_order", "esl/simulation/model.cpp: model::step", "esl/interaction/communicator.cpp: communicator::process_messages", "esl/agent.cpp: agent::act"]}
{"id": "C205", "title": "What an exchange tells its traders adds up", "statement": "At any end of a simulation, for each trader, symbol and side: the quantity that the trader has ordered (with orders that the exchange has handled) equals the quantity it was sent execution reports of trades for, plus the quantity reported as cancelled or waiting to be reported with the next order, plus what rests on the book. All reports together tell of as much bought as sold, and of as much paid as received.", "quantifier": "for all numbers and behaviours of traders (that send no execution reports themselves), orders, cancellations, symbols, latencies, schedules, seeds and ends of the simulation", "why_tests_cant": "It involves all reports of a whole simulation together, and what is still under way at its end; tests look at the reports of single orders.", "anchors": ["esl/economics/markets/centralized_exchange.hpp: centralized_exchange, insert_order", "esl/economics/markets/order_book/binary_tree_order_book.hpp: insert, cancel", "esl/simulation/model.cpp: model::step", "esl/computation/environment.cpp: environment::send_messages"]}
{"id": "C206", "title": "A simulation in which a company announces a dividend runs to its end", "statement": "Let a simulation contain a company that offers a dividend policy with an announcement date, an ex-dividend date and a payable date, and agents that hold its shares. The simulation runs to its end time, and then every shareholder who was to be told knows the ex-dividend date.", "quantifier": "all policies, all numbers of shareholders, all holdings, all end times, all other agents (first part), all orders in which messages of the same time are handled", "why_tests_cant": "that a run never ends cannot be observed by a test, and which combinations of dates, holdings and end time end it is a question about all of them at once", "anchors": ["esl/economics/company.cpp: company::act", "esl/economics/finance/shareholder.cpp: shareholder::submit_dividend_record", "esl/economics/finance/shareholder.cpp: shareholder constructor callback", "esl/simulation/model.cpp: model::step", "esl/computation/environment.cpp: environment::run"]}
{"id": "C207", "title": "Agents may create agents in a round with several threads", "statement": "When a model is set to use several threads, agents that create other agents while they act cause no data race, and every agent created gets an identity of its own, as with one thread.", "quantifier": "all numbers of threads and of acting agents, all ways in which agents create, all interleavings of the threads", "why_tests_cant": "a data race is not observable as such, and a duplicate identity depends on an interleaving that a test does not control", "anchors": ["esl/simulation/model.cpp: model::step", "esl/simulation/agent_collection.hpp: agent_collection::create", "esl/simulation/agent_collection.cpp: agent_collection::activate", "esl/simulation/identity.hpp: identity::create", "esl/computation/environment.cpp: environment::activate_agent"]}
{"id": "C208", "title": "An error of an agent reaches the caller whatever the number of threads", "statement": "If an agent throws an exception while it handles messages or acts, or asks for a wake-up time in the past, the call of the model's step throws, so that the program can handle the error. This does not depend on the number of threads; and a round that returns with one thread returns the same with several.", "quantifier": "all agents, worlds, numbers of threads and interleavings", "why_tests_cant": "the interleavings of the threads cannot be enumerated by a test, and a test that fails in this way takes the test program with it", "anchors": ["esl/simulation/model.cpp: model::step"]}
{"id": "C209", "title": "A market neither makes nor loses wealth over a whole run", "statement": "In a simulation of a Walrasian market for one property and traders who ask to be activated at every time, never sell units they do not have and never buy units they cannot pay for at the new price, let the run end normally. Then no trader ever fails to process a transfer; at each time everything sold is bought; at the end each trader has the units it had plus those it bought, has paid the prices the market put out for them, up to one cent for each time at which it traded, and has as much of everything else as before; and all traders together have the same units as at the beginning, and the same money up to one cent per trader and time.", "quantifier": "all strategies of traders that meet these conditions, all solutions found by the market, all holdings below 2^53 units and 2^50 cents in total, all numbers of traders and steps, all message schedules", "why_tests_cant": "wealth at the end depends on every message of every time step and on every rounding; a test sees a few runs with a few prices", "anchors": ["esl/economics/markets/walras/price_setter.cpp: price_setter::act, clear_market, compute_transfers", "esl/economics/owner.hpp: owner<law::property>", "esl/simulation/model.cpp: model::step", "esl/computation/environment.cpp: environment::step, run"]}
{"id": "C210", "title": "The number of threads does not influence the outcome of a simulation", "statement": "A simulation whose agents influence each other by messages only ends, when it is run with several threads, exactly as it does with one: the same states, messages and wake-up times of all agents and the same times visited. It ends normally with several threads exactly if it does with one.", "quantifier": "all agents (their callbacks and actions are arbitrary functions), worlds, numbers of threads and, in every round, all interleavings of the threads", "why_tests_cant": "the interleavings of all rounds of a run cannot be enumerated or controlled by a test", "anchors": ["esl/computation/environment.cpp: environment::run", "esl/simulation/model.cpp: model::step"]}
{"id": "C211", "title": "Sessions of an impact market in a simulation", "statement": "When an impact market and its participants run in a simulation, and every participant answers each quote it receives with one order sent and delivered at that time, then from time 1 until the end of the run the market is cleared exactly once at every time, using exactly one order of every participant; the run passes through every time and ends; and every participant has answered the quotes of each of these times exactly once.", "quantifier": "all sets of participants, all answers of participants (functions of their state, the time and the quotes), all schedules and shuffles of messages, all initial quotes, all ends of the run", "why_tests_cant": "Which rounds the market acts in, and how often quotes go out, follows from the interplay of the times agents ask for with the delivery of messages over an unbounded run; a test observes one market with one set of agents for a few steps.", "anchors": ["esl/economics/markets/impact_function/market.cpp: market::act", "esl/economics/markets/impact_function/market.cpp: market::market", "esl/simulation/model.cpp: model::step", "esl/computation/environment.cpp: environment::step"]}
{"id": "C212", "title": "Orders of an impact market need not say when they were sent", "statement": "The times of sending and of delivery are optional when a participant of an impact market creates an order; if participants leave out the time of sending, the market still clears with their orders at the time at which they are delivered, and the run still ends.", "quantifier": "all sets of participants, all answers of participants, all schedules and shuffles of messages, all initial quotes, all ends of the run", "why_tests_cant": "That a run does not end cannot be observed by a test, and the market treats the default as a time like any other; whether such an order is served depends on the step in which it arrives.", "anchors": ["esl/economics/markets/impact_function/market.cpp: market::act", "esl/economics/markets/impact_function/order.hpp: order_message", "esl/simulation/model.cpp: model::step"]}
{"id": "C213", "title": "A closed queue accepts no new elements", "statement": "After close() a blocking_queue no longer accepts elements: push and try_push leave it as it is.", "quantifier": "all queues, threads, elements and schedules", "why_tests_cant": "A test that closes a queue and stops using it never sees what happens to later elements.", "anchors": ["esl/computation/blocking_queue.hpp: push, try_push, close"]}
{"id": "C214", "title": "Tasks may submit tasks, also while the pool is being destroyed", "statement": "For any number of worker threads >= 1 and any schedule, tasks may submit further tasks to the thread_pool that runs them, also after its destructor has been entered: provided that attempting to lock fails only while another thread can be holding the lock, every task is executed exactly once before the destructor returns, and the destructor returns if only finitely many tasks are submitted.", "quantifier": "all task counts, worker counts and schedules, and all submissions by tasks", "why_tests_cant": "Schedules cannot be enumerated, and the decisive ones, a submission after the worker owning the queue has finished, are rare.", "anchors": ["esl/computation/thread_pool.hpp: thread_pool, ~thread_pool, enqueue_work, enqueue_task", "esl/computation/blocking_queue.hpp: try_push, try_pop, pop, close"]}
{"id": "C215", "title": "A pool asked for no threads has as many as the hardware", "statement": "thread_pool(0) makes a pool with as many worker threads as the hardware supports, or one if that is unknown, and tasks submitted to it are executed; thread_pool(n) with n > 0 has n worker threads.", "quantifier": "all numbers of threads asked for and all hardware", "why_tests_cant": "Undefined behaviour in another thread need not show in a test, and the number of hardware threads varies.", "anchors": ["esl/computation/thread_pool.hpp: thread_pool"]}
{"id": "C216", "title": "A pool of one thread executes tasks in order", "statement": "A thread_pool with one worker thread executes tasks in the order in which they were submitted, whoever submitted them, and all of them before its destructor returns, also those that tasks submit during destruction and whatever attempts to lock fail.", "quantifier": "all tasks, submissions and schedules", "why_tests_cant": "Schedules cannot be enumerated; an order that holds in the common schedule need not hold in all.", "anchors": ["esl/computation/thread_pool.hpp: thread_pool, enqueue_work, enqueue_task"]}
{"id": "C217", "title": "No task waits while a worker is idle", "statement": "In a thread_pool with several workers no task waits to be executed while a worker thread sleeps because it has nothing to do.", "quantifier": "all numbers of threads, tasks and schedules", "why_tests_cant": "A test sees that all tasks are executed in the end, not that some of them waited needlessly.", "anchors": ["esl/computation/thread_pool.hpp: thread_pool, enqueue_work, enqueue_task", "esl/computation/blocking_queue.hpp: push, try_push, pop"]}
{"id": "C218", "title": "Market data name each trade once", "statement": "An agent that follows a symbol by a market data stream learns each trade in that symbol exactly once: the trades named in the market_data_messages an order leads to are the trades reported to the sender of the order.", "quantifier": "all histories of requests, orders and cancellations, all orders and subscribers", "why_tests_cant": "A test that follows one trade sees one message if the best prices stay as they are, and a duplicate looks like two trades of the same size.", "anchors": ["esl/economics/markets/centralized_exchange.hpp: insert_order, data_subscription", "esl/economics/markets/market_data_message.hpp: market_data_message"]}
{"id": "C219", "title": "Market data show the best bid and ask with the quantity available", "statement": "Every market_data_message gives as ask and bid the lowest sell limit and the highest buy limit of the orders resting on the book after the order that led to it, with the quantity available at that limit.", "quantifier": "all histories of requests, orders and cancellations, all orders and subscribers", "why_tests_cant": "Needs all states of the book; with orders of size one the quantity is right.", "anchors": ["esl/economics/markets/centralized_exchange.hpp: insert_order", "esl/economics/markets/market_data_message.hpp: market_data_message"]}
{"id": "C220", "title": "The log of orders is complete", "statement": "With output_orders set on an exchange, every placement, trade and cancellation reported for a participant's order in a symbol is logged, once, with the time at which it happened.", "quantifier": "all histories of orders and cancellations", "why_tests_cant": "A test that sends one order finds it in the log; what is missing concerns other participants and later events.", "anchors": ["esl/economics/markets/centralized_exchange.hpp: output_orders, insert_order"]}
{"id": "C221", "title": "Nobody can place or cancel orders in another's name on an exchange", "statement": "An order on an exchange is cancelled only by a cancel_order_message of the participant that owns it, and an order is accepted only from the participant that is stated as its owner.", "quantifier": "all histories of messages, all senders and orders", "why_tests_cant": "Tests send messages of honest participants.", "anchors": ["esl/economics/markets/centralized_exchange.hpp: insert_order, cancel, centralized_exchange", "esl/economics/markets/cancel_order_message.hpp: cancel_order_message"]}
{"id": "C222", "title": "Only participants that are logged on trade on an exchange", "statement": "An order of a participant that has not logged on to the exchange, or has logged out, leads to no trade.", "quantifier": "all histories of messages, all participants", "why_tests_cant": "Tests log on before they trade.", "anchors": ["esl/economics/markets/centralized_exchange.hpp: logon_participant, logout_participant, insert_order", "esl/economics/markets/logon_message.hpp: logon_message"]}
{"id": "C223", "title": "A copy of an agent responds to messages as the agent does", "statement": "An agent and a copy of it, made with its copy constructor, respond in the same way to the messages that are waiting for them and to those delivered later.", "quantifier": "all agents, callbacks and messages", "why_tests_cant": "Tests of copies compare members, not the response to all messages.", "anchors": ["esl/agent.cpp: agent::agent(const agent&)", "esl/interaction/communicator.cpp: communicator::communicator", "esl/economics/markets/centralized_exchange.hpp: centralized_exchange(const centralized_exchange &)"]}
{"id": "C224", "title": "Only the participants of a market interact with it", "statement": "The list of participants of a market decides who interacts with it: quotes are sent to participants only, and orders of other agents have no influence on the prices of a Walrasian market or a market with an impact function.", "quantifier": "all lists of participants, all histories of orders", "why_tests_cant": "Tests have only participants send orders.", "anchors": ["esl/economics/markets/market.hpp: market::participants", "esl/economics/markets/walras/price_setter.cpp: act", "esl/economics/markets/impact_function/market.cpp: act"]}
{"id": "C225", "title": "Market data have the depth that was asked for", "statement": "A market data request with depth zero leads to messages about trades only, and one with depth n to messages with the best n limits of either side of the book.", "quantifier": "all histories of requests, orders and cancellations", "why_tests_cant": "Tests with depth one see what they expect.", "anchors": ["esl/economics/markets/market_data_request_message.hpp: depth", "esl/economics/markets/centralized_exchange.hpp: data_subscription, insert_order"]}
{"id": "C226", "title": "Market data take the time of the connection to the subscriber", "statement": "Market data that an exchange sends on an order arrive after the delay that the communication model gives for the connection to the subscriber, and never before they were sent.", "quantifier": "all histories of requests, orders and cancellations, all delays", "why_tests_cant": "Tests use no delays, or the same for everybody.", "anchors": ["esl/economics/markets/centralized_exchange.hpp: insert_order", "esl/economics/markets/market_data_message.hpp: market_data_message"]}
{"id": "C227", "title": "Market data go only to those who asked for them", "statement": "An agent receives market data about a ticker only if it has asked for data on that ticker before and has not cancelled that since.", "quantifier": "all histories of requests, orders and cancellations, all agents and tickers", "why_tests_cant": "Absence of messages cannot be tested for all histories.", "anchors": ["esl/economics/markets/centralized_exchange.hpp: handle market data request, insert_order", "esl/economics/markets/market_data_request_message.hpp: market_data_request_message"]}
{"id": "C228", "title": "A copy of an agent has its outputs under their names", "statement": "A stream can be attached to an output of a copy of an agent, under the name with which the agent created it.", "quantifier": "all agents and names of outputs", "why_tests_cant": "Tests do not attach streams to copies.", "anchors": ["esl/agent.cpp: agent::agent(const agent&)", "esl/data/producer.hpp: create_output, add_output_stream"]}
{"id": "C229", "title": "Displaying the fixed-tick book shows its best limits", "statement": "Displaying the fixed-tick order book with n levels shows the best n limits of the resting orders to sell and of those to buy, in the order of their prices, each with the quantity that rests there.", "quantifier": "all histories of orders and cancellations, all numbers of levels", "why_tests_cant": "Tests look at a few books, with small quantities.", "anchors": ["esl/economics/markets/order_book/static_order_book.hpp: display", "esl/economics/markets/order_book/basic_book.hpp: display"]}
{"id": "C230", "title": "A legal entity identifier read from a text is the one the text denotes, and other texts are rejected", "statement": "Constructing a legal entity identifier from a text yields the identifier whose printed form, with or without the two check digits, is that text; a text that is no such form, because of its length, its characters, its reserved digits or its check digits, is rejected and never read as some identifier.", "quantifier": "for all texts, with assertions enabled or disabled", "why_tests_cant": "a test tries some identifiers and some misspellings; that exactly the valid texts are accepted, and that no short text is read beyond its end, concerns all texts and both ways of compiling", "anchors": ["esl/law/legal_entity.hpp: iso_17442::iso_17442(const std::string &)", "esl/law/legal_entity.hpp: iso_17442::checksum, operator <<"]}
{"id": "C231", "title": "A copy of a block pool can be used like the pool", "statement": "A copy of a block pool has the elements of the pool under the same handles, and storing, erasing and reading elements in the copy leads to the same results as in the pool, independently of what is done with the pool.", "quantifier": "for all pools, however they were filled, and all sequences of operations on a copy", "why_tests_cant": "a test with a few elements runs on memory that happens to be laid out in some way; whether every operation of the copy stays within the copy concerns all states of the list of free blocks", "anchors": ["esl/computation/block_pool.hpp: static_block_pool (implicit copy constructor), emplace, erase, operator []"]}
{"id": "C232", "title": "A copy of the fixed-tick order book can be used like the book", "statement": "A copy of a fixed-tick order book quotes the same bid and ask, lists the same orders and accepts the same orders as the book, and neither of the two is changed by operations on the other.", "quantifier": "for all books, orders and cancellations", "why_tests_cant": "a test sees plausible results as long as the original is alive and unchanged; that an operation on the copy reaches into the original, or is undefined, depends on all states of both", "anchors": ["esl/economics/markets/order_book/static_order_book.hpp: static_order_book (implicit copy constructor), bid, ask, orders, insert, cancel"]}
