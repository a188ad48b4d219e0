# Formal model of ESL in Coq — design

Subject: the C++ sources under `/repo/esl` (INET-Complexity/ESL). The code is read as text; it
is never built or run. Everything proved here is about the Gallina model in
`rocq/theories`; the tie to the C++ is the per-definition citation of file and lines.

## Conventions

* One topic per group of files: `X.v` (model: definitions only, each citing `/repo` lines),
  `X_spec.v` (what the properties say, independent of the model where possible), `X_proofs*.v` (lemmas) and
  `X_props.v` (the property theorems `Cnn_…`, each followed by `Print Assumptions`, and `Example`s showing
  that hypotheses are met by concrete non-trivial inputs).
* Machine integers are `Z` with the wrap written out (`w64`, `w32`) wherever the property can
  observe it, and an explicit range (`u64`, `i64`) otherwise; signed overflow is undefined behaviour.
* A C++ exception is an explicit outcome (`Throw`), undefined behaviour is a separate outcome
  (`UB`), and an unbounded loop is either structurally bounded or run on fuel with an explicit
  out-of-fuel value that theorems exclude or talk about.
* External behaviour (user callbacks, agent behaviour, random numbers, solver results, hash functions,
  thread schedules) is a universally quantified function, list, relation or permutation argument, never an axiom.
* Floating point: the arithmetic is a parameter (`arith` in `StaticTicks.v`) with the instances `exact` (rationals)
  and `double` (IEEE binary64 of `Coq.Floats.SpecFloat`, round to nearest even). No assumption is made that
  the two agree; `Double_proofs.v` relates the second to real numbers through Flocq.
* When the code violates the property as a user would state it, a theorem `..._refuted`
  proves the violation (a concrete execution of the faithful model, or all executions of a kind), and companion
  theorems prove the property under the exact condition where it does hold, or what the code does instead. Such
  properties are marked `partial` in MANIFEST.json: the property text decides, not the code.
* Theorems that cover part of a property end in `_partial`.

## Trusted base

* The Coq 8.16.1 kernel (including `vm_compute`), the definitions in the model and specification files, and the
  reading of the C++ source that they encode.
* The C++ standard library, Boost containers and compiler are taken at their documented behaviour: sorted maps as
  sorted association lists, hash maps as association lists whose iteration order is arbitrary where observable,
  vectors as lists (with capacity where reallocation is observable), `std::uint64_t` as integers modulo 2^64.
* Assertions: switched off (release build) unless a definition says otherwise; `Prices.v` covers both.
* No axioms are added; nothing is admitted. The build output prints the assumptions of every property theorem.

## Assumptions per theorem

As printed by `Print Assumptions` under every property theorem (725 theorems).

* **Closed under the global context** (no axiom): every theorem in the `*_props.v` files except those listed next (683 theorems).
* Depending on the standard library axioms `ClassicalDedekindReals.sig_forall_dec`, `ClassicalDedekindReals.sig_not_dec`, `Classical_Prop.classic`, `FunctionalExtensionality.functional_extensionality_dep`: `C175_doubles`, `C92_doubles`, `C177_doubles`, `C178_doubles`, `C180_doubles`, `C209_doubles`, `C128_root`, `C128_integers_refuted`, `C129_steps`, `C129_constant_refuted`, `C96_at_most_one_unit`, `C96_power_of_two`, `C96_too_large`, `C97_units`, `C97_amount_refuted`, `C97_scaling`, `C98_divided_by_lot`, `C98_larger_lots_refuted`, `C130_bid_below_ask`, `C130_defined`, `C131_around_middle`, `C131_wider`, `C132_inventory`, `C146_at_most_one_unit`, `C146_power_of_two`, `C146_error`, `C148_reduced`, `C148_parity_refuted`, `C40_doubles`, `C40_highest_price_doubles_refuted`, `C187_exact`, `C187_one_sided`, `C187_refuted`, `C187_special`, `C188_text`, `C188_distinct`, `C188_quotes`, `C190_reports`, `C80_doubles`, `C81_doubles_bound`.
* Depending on the standard library axioms `ClassicalDedekindReals.sig_forall_dec`, `FunctionalExtensionality.functional_extensionality_dep`: `C149_whole`, `C149_double_refuted`.

These axioms are those of the standard library's classical real numbers (`Coq.Reals`). They enter through
the proofs about rounding (`Double_proofs.v`), which relate `SpecFloat` to Flocq's real-valued semantics; the statements
themselves speak of integers and `spec_float` only. Loading `Coq.Reals` and the `ssreflect` plugin of the
standard library also puts parameters and module-sealed axioms of `Coq.Reals.Rdefinitions` and
`Coq.ssr.ssrunder` into the environment; no theorem is listed as depending on others than those above.
No axiom of any other library is used, and none is added.

## Properties: what is modelled, how it is proved, what was found

| id | property | model and proof | outcome |
|----|----|----|----|
| C01 | Splitting a quantity loses and creates nothing | `quantity::operator/`, `divide` as list construction incl. wrapped test `divisor >= 2*remainder`; list algebra, both equal to `repeat (q+1) r ++ repeat q (n-r)` (Quantity_props) | proved |
| C02 | Quantities never go negative | `operator-`, `-=`, `+=` as step function with Throw; induction over operation list, ledger spec (Quantity_props) | proved |
| C03 | Quantity addition and multiplication are exact below 2^64 | `+`, `*` mod 2^64; modular arithmetic (Quantity_props) | proved |
| C04 | Decrementing a quantity lowers it by one, incrementing raises it by one | prefix / postfix decrement; postfix positive; prefix refuted (Quantity_props) | partial: Postfix decrement proved; the prefix operator increments instead (refuted for every amount). |
| C05 | A simulation time interval is exactly the half-open set [lower, upper) | `interval` with boolean endpoint flags at 64-bit unsigned; arithmetic with wrap (Interval_props) | proved |
| C06 | interval::empty() tells whether the interval has elements | same, all four endpoint kinds; exact characterisation; refuted for symmetric kinds (Interval_props) | partial: Membership proved; empty()/singleton() agree with membership exactly for half-open kinds or non-boundary widths (iff theorems); refuted for closed and open kinds. |
| C07 | Identities are totally ordered | lexicographic comparison on digit lists; induction (Identity_props) | proved |
| C08 | Every entity created gets a fresh identity | entity tree: state = list of (identity, children counter); invariant over create histories (Identity_props) | proved |
| C09 | Copying an agent does not lead to duplicate identities | same with copy operation; refuted + positive without copies (Identity_props) | partial: Refuted: agent copies restart the child counter. Without copies see C08. |
| C10 | An identity's printed form determines the identity | printing with `"`,`-` and zero padding as character lists, plus a parser (spec side); round trip (Identity_props) | proved |
| C11 | Callbacks for a message run in priority order and bound the next event | callback multimap as stable sorted list, `process_message` fold; permutation + sortedness + min (Communicator_props) | proved |
| C12 | Exactly the due messages are processed, each once | `process_messages`; permutation (Communicator_props) | proved |
| C13 | In-order schedule processes equal-priority messages in arrival order | same, in_order; refuted (ties are LIFO); exact order proved (Communicator_props) | partial: Refuted: messages of equal priority are handled latest first; the exact order is proved. |
| C14 | Registering a callback after locking is rejected and changes nothing | `register_callback` with lock; frame (Communicator_props) | proved |
| C15 | Messages are delivered exactly once | `send_messages` over a population map; induction over outboxes, refinement to specification by filter (Simulation_props) | proved |
| C16 | A recipient is scheduled no later than its earliest new message | `send_messages` over a population map; induction over outboxes, refinement to specification by filter (Simulation_props) | proved |
| C17 | Exactly the agents that are due act in a round | `model::step` rounds, agent behaviour as arbitrary function; invariants; fuelled loop with explicit exhaustion; refutation by livelock (Simulation_props) | proved |
| C18 | The multi-threaded round is equivalent to the sequential one | `model::step` rounds, agent behaviour as arbitrary function; invariants; fuelled loop with explicit exhaustion; refutation by livelock (Simulation_props) | proved |
| C19 | A model step that returns has advanced time | `model::step` rounds, agent behaviour as arbitrary function; invariants; fuelled loop with explicit exhaustion; refutation by livelock (Simulation_props) | proved |
| C20 | A model step terminates when agents do not send messages into the past | `model::step` rounds, agent behaviour as arbitrary function; invariants; fuelled loop with explicit exhaustion; refutation by livelock (Simulation_props) | partial: Proved under the stated condition (one round) and for any decreasing rank; nothing enforces the condition, and a delivery time in the past makes the step hang (refuted, and exact non-termination condition proved). |
| C21 | Running a simulation visits strictly increasing times up to the end | `environment::run` loop; induction on fuel (Simulation_props) | proved |
| C22 | Model parameters set what their names say | parametrization map; refuted for threads (set from verbosity); others proved (Parametrization_props) | partial: Refuted for the number of threads, which is taken from the verbosity; all other parameters and the error cases proved. |
| C23 | A block pool never hands out a slot twice | `block_pool` arrays, free list, rounds; representation invariant; double erase refuted (BlockPool_props) | proved |
| C24 | Erasing twice from a block pool is harmless | `block_pool` arrays, free list, rounds; representation invariant; double erase refuted (BlockPool_props) | partial: Refuted: erasing twice makes two later elements share a slot; exact effect proved; stale handles (slot re-used, index set) are ignored as proved. |
| C25 | The blocking queue is FIFO and loses nothing under any schedule | `blocking_queue` critical sections as atomic operations, any interleaving; refinement to FIFO history (BlockingQueue_props) | proved |
| C26 | The thread pool runs every submitted task exactly once | `thread_pool` workers as transition system over queues; invariant over schedules (multiset of tasks) (ThreadPool_props) | proved: Tasks are abstract; submissions after closing starts are excluded (the destructor is running). |
| C27 | Integer power is exact modulo the word size | square-and-multiply loop; loop invariant (Algorithms_props) | proved |
| C28 | Array concatenation and slicing are inverse | arrays as lists; list algebra (Algorithms_props) | proved |
| C29 | The order book is never crossed | `binary_tree_order_book` (sorted association lists for the multimaps, id map, reports); representation invariant over histories, refinement to naive book (BinaryBook_props) | proved |
| C30 | Order quantity is conserved | `binary_tree_order_book` (sorted association lists for the multimaps, id map, reports); representation invariant over histories, refinement to naive book (BinaryBook_props) | proved |
| C31 | Trades happen at the resting limit and never beyond the incoming limit | `binary_tree_order_book` (sorted association lists for the multimaps, id map, reports); representation invariant over histories, refinement to naive book (BinaryBook_props) | proved |
| C32 | Price-time priority | `binary_tree_order_book` (sorted association lists for the multimaps, id map, reports); representation invariant over histories, refinement to naive book (BinaryBook_props) | proved |
| C33 | Order identifiers are fresh | `binary_tree_order_book` (sorted association lists for the multimaps, id map, reports); representation invariant over histories, refinement to naive book (BinaryBook_props) | proved |
| C34 | Cancelling removes exactly the order named | `binary_tree_order_book` (sorted association lists for the multimaps, id map, reports); representation invariant over histories, refinement to naive book (BinaryBook_props) | proved |
| C35 | orders() lists exactly the active orders | `binary_tree_order_book` (sorted association lists for the multimaps, id map, reports); representation invariant over histories, refinement to naive book (BinaryBook_props) | partial: Exact characterisation proved: resting plus cancelled ids; refuted after a cancellation. |
| C36 | Order lifetimes are respected | `binary_tree_order_book` (sorted association lists for the multimaps, id map, reports); representation invariant over histories, refinement to naive book (BinaryBook_props) | partial: Refuted for fill-or-kill and immediate-or-cancel: lifetimes are ignored; exact rested quantity proved. |
| C37 | The report stream reconstructs the book | `binary_tree_order_book` (sorted association lists for the multimaps, id map, reports); representation invariant over histories, refinement to naive book (BinaryBook_props) | proved |
| C38 | The book behaves like its simple specification | `binary_tree_order_book` (sorted association lists for the multimaps, id map, reports); representation invariant over histories, refinement to naive book (BinaryBook_props) | proved |
| C39 | Books for different tickers are isolated | `matching_engine` as map ticker → book; frame (MatchingEngine_props) | proved |
| C40 | The fixed-tick book maps every price in its range to a distinct level and back | linear arithmetic over rounding; relative error bounds in double precision (StaticTicks_props) | partial: Proved for prices below the highest with at least two units per tick, in exact arithmetic and, up to one unit when a level is decoded, in double precision; refuted for the highest price (always), for single-unit ticks, small lots and for exact decoding in double precision. |
| C41 | Fill-or-kill on the fixed-tick book is all-or-nothing | `static_order_book` levels, encode/decode, FOK, best pointers; positive under guards, refutations by concrete histories (StaticBook_props, StaticMatch_props) | partial: Refuted: fill-or-kill orders are handled like good-until-cancelled ones when they cross; exact effect of both cases proved; C41_guarded: all or nothing whenever everything or nothing is available, in all histories. |
| C42 | Fixed-tick book quotes reflect resting orders | `static_order_book` levels, encode/decode, FOK, best pointers; positive under guards, refutations by concrete histories (StaticBook_props, StaticMatch_props) | partial: Refuted after a cancellation that empties the best level, for prices at the first and last level; C42_quotes proves it for all histories that avoid these (the guard of C78). |
| C43 | Prices in different currencies are never silently compared | `price`, `quote` comparisons with Throw and 64-bit products; case analysis (Money_props) | proved |
| C44 | Quotes with different lot sizes are never silently compared | `price`, `quote` comparisons with Throw and 64-bit products; case analysis (Money_props) | partial: Proved for all quotes whose scaled value fits 64 bits and for every operator but >=, which lacks the lot check (refuted). |
| C45 | Applying an exchange rate rounds the exact product toward zero | `exchange_rate::operator*` with unsigned conversion; positive for non-negative, refuted for negative (Money_props) | partial: Proved for non-negative prices with p*n < 2^64 and for integral rates; refuted for every negative price with a non-zero exact result and d >= 2, and for large products. |
| C46 | Currency ordering agrees with currency equality | comparison / code functions; total order lemmas, bit arithmetic (Money_props) | partial: Strict weak order on the code; agrees with equality for equal denominators; refuted for one code with two denominators. |
| C47 | Tickers are totally ordered and hash consistently | comparison / code functions; total order lemmas, bit arithmetic (Money_props) | proved |
| C48 | Message type codes of the library never collide with user codes and round-trip | comparison / code functions; total order lemmas, bit arithmetic (Money_props) | partial: Proved for all offsets below 2^63; the compile-time guard also admits 2^63 itself, where the claim is refuted. |
| C49 | Archived values are restored | archives as token lists; round trip or refutation (Money_props, Streams_props) | partial: Currencies and rationals within 32 bits are restored; refuted for larger rationals, for prices and for quotes. |
| C50 | Transfers conserve property | inventories as finite maps, transfer callback; conservation by induction; refutations (Inventory_props) | proved: Conservation holds below 2^64 units per property; the transferee side is exact modulo 2^64. |
| C51 | A rejected transfer leaves the inventory as it was | inventories as finite maps, transfer callback; conservation by induction; refutations (Inventory_props) | partial: Refuted: what precedes the missing property in iteration order is removed; exact effect and the single-property case proved. |
| C52 | The typed view of an owner's property agrees with its inventory | inventories as finite maps, transfer callback; conservation by induction; refutations (Inventory_props) | partial: Refuted by a repeated take, by a transfer to oneself and (undefined behaviour) by a listed quantity of zero; proved for every other history. |
| C53 | Cash-flow statements add up | ledgers as lists of dated mutations; sums (Inventory_props) | proved: For entries recorded in any order. The magnitudes of the entries in the interval are assumed to add up to less than 2^63. An entry of the interval in another currency fails an assertion; the outcome is stated as undefined. |
| C54 | ISIN check digits catch single errors | check digits over character lists; modular arithmetic, finite sweeps lifted by `forallb_forall` (CheckDigits_props) | proved: Both directions for transpositions; Luhn test stated on the expanded digits; letters for letters are outside the claim (an Example shows they can go undetected). |
| C55 | CUSIP check digits validate | check digits over character lists; modular arithmetic, finite sweeps lifted by `forallb_forall` (CheckDigits_props) | proved |
| C56 | SEDOL check digits catch single digit errors | check digits over character lists; modular arithmetic, finite sweeps lifted by `forallb_forall` (CheckDigits_props) | proved |
| C57 | LEI check digits satisfy ISO 7064 MOD 97-10 | check digits over character lists; modular arithmetic, finite sweeps lifted by `forallb_forall` (CheckDigits_props) | partial: Refuted for the substitution of a letter for a digit (or back) and for default-constructed identifiers; congruence, digits, absence of overflow and detection within a symbol class proved. |
| C58 | An ISIN constructed from text has that text's national code | check digits over character lists; modular arithmetic, finite sweeps lifted by `forallb_forall` (CheckDigits_props) | partial: Refuted: the national code stored is the country followed by seven characters; exact result proved. |
| C59 | Different share classes of different companies get different identifiers | `create_isin`, `create_share_identifier`; injectivity of identifiers; ISIN refuted across companies (CheckDigits_props) | partial: Identifiers proved distinct; refuted for ISIN codes of companies of different parents; proved for siblings below the size of the code. |
| C60 | Walrasian allocation clears exactly | `compute_transfers`, netting, `apply_results`; induction on correction loop; netting refuted (Walras_props) | proved |
| C61 | Netting of clearing transfers preserves net positions | `compute_transfers`, netting, `apply_results`; induction on correction loop; netting refuted (Walras_props) | partial: Refuted: amounts no larger than the offsetting ones stay due after netting; exact effect and absence of undefined behaviour proved. |
| C62 | Published prices stay positive | `compute_transfers`, netting, `apply_results`; induction on correction loop; netting refuted (Walras_props) | proved |
| C63 | A snapshot market data request yields a single update | exchange subscription, logon, report routing; refutations and exact positive forms (Exchange_props) | partial: Refuted both ways: at times from 1 on every later move leads to an update; at time 0 there is none. |
| C64 | Logging on to an exchange records the participant's supply | exchange subscription, logon, report routing; refutations and exact positive forms (Exchange_props) | partial: Refuted for every history: no position is ever recorded. |
| C65 | Every execution report reaches the order's owner exactly once | exchange subscription, logon, report routing; refutations and exact positive forms (Exchange_props) | proved: Proved for every history; reports of cancellations wait for the next order (see C84). |
| C66 | Dividend announcements are made once per policy | `company::act` schedule logic; state machine invariant; refuted for past wake-up (Company_props) | partial: Exactly-once proved for positive, non-decreasing dates; refuted for date 0; the next activation is in the past between announcement and payable date (refuted), not otherwise. |
| C67 | Grid sampling enumerates every combination once | samplers, randomness as arbitrary list; mixed radix bijection; permutation invariant (Sampler_props) | partial: Combinations proved for any arithmetic, points in exact arithmetic; refuted for single-point parameters in double precision. |
| C68 | Improved hypercube sampling is a Latin hypercube for every random seed | samplers, randomness as arbitrary list; mixed radix bijection; permutation invariant (Sampler_props) | proved: The scores of candidates, computed in floating point, are an arbitrary function; vector sizes below 2^32. |
| C69 | Escaped text fields can be read back | DSV rendering over character lists plus decoder; round trip; refuted for rows (Format_props) | proved |
| C70 | Rows of delimiter separated values keep their columns | DSV rendering over character lists plus decoder; round trip; refuted for rows (Format_props) | partial: Refuted: nothing is escaped; proved for texts without the delimiter. |
| C71 | Order events read from OpenBook files carry the event time in microseconds | OpenBook time arithmetic in 32 bits; wrap refuted with exact guard (Format_props) | partial: Refuted from 2^32 microseconds after midnight on; proved before. |
| C72 | Country codes are validated and hash without collisions | country codes over characters; injectivity of the hash (CheckDigits_props) | proved |
| C73 | Agents created before a run are activated without corrupting the environment | activation bookkeeping of `environment` with vectors and their capacity; invalidation of references as UB; exact conditions (Environment_props) | partial: Refuted for every number of agents with vectors that at most double; exact condition proved. |
| C74 | Stepping an environment repeatedly reaches the end like a run | `environment::step` and its time; all sequences of steps, refutation (Environment_props) | partial: Refuted: time never advances and the second step does nothing. |
| C75 | An element placed in a block pool can be erased by the handle emplace returned | `block_pool` handles; representation invariant over histories (BlockPool_props) | partial: Refuted: emplace never records the handle in the block, so erase by that handle does nothing; proved for all pools. |
| C76 | The simplex sampler enumerates the grid of the simplex | simplex grid enumeration over an abstract arithmetic; recursion on dimensions, counting by binomials (Algorithms_props) | partial: Refuted: the corners other than the first are always missing, and in double precision further points are lost; the exact set sampled in exact arithmetic is proved. |
| C77 | Cancelling an order that is no longer resting leaves the fixed-tick book unchanged | `static_order_book::cancel` on reused blocks; refuted by histories (StaticBook_props) | partial: Refuted for an order that has been filled; a second cancellation throws. |
| C78 | The fixed-tick book matches by price and time within its valid levels | whole `static_order_book`; refinement: representation invariant of pool, level queues and best pointers against the ledger of reports (StaticMatch_props) | proved: Full refinement: representation invariant of pool, linked level queues and best pointers against the ledger of the reports; specification determines the reports (C78_determined); the levels of the code in exact arithmetic with two levels a unit meet the hypothesis (C78_levels_faithful). |
| C79 | Participants of a Walrasian clearing are sent what they buy | transfers sent by `price_setter`; induction over participants (Walras_props) | partial: Refuted for a participant that buys two properties (only the first is sent); proved for one property. |
| C80 | Participants of a Walrasian clearing pay the price | division with remainder; relative error bounds in double precision (Walras_props) | partial: Proved in exact arithmetic; in double precision proved up to one unit, and refuted to be exact. |
| C81 | A Walrasian clearing neither creates nor destroys money | cash transfers; sums over participants (Walras_props) | partial: Proved in exact arithmetic for one property, unit lots and no short positions; in double precision the difference is bounded by the numbers of buyers and sellers, and refuted to be zero; refuted for closed short positions. |
| C82 | Rounding of a Walrasian allocation never turns a seller into a buyer | correction of rounded demands; induction on the correction loop, refutation (Walras_props) | partial: Refuted; proved for truncated demands that are at least as large as the corrections. |
| C83 | A request for a stream of market data leads to updates | subscription handling of the exchange; histories of requests and orders (Exchange_props) | partial: Refuted when nobody has asked for a snapshot of the ticker; proved otherwise. |
| C84 | Cancelling an order through the exchange is reported to its owner | cancellation messages of the exchange; refutation for all histories (Exchange_props) | partial: Refuted: a cancellation never sends a message. |
| C85 | Execution reports take the time of the connection to their recipient | delivery times of execution reports; case analysis (Exchange_props) | partial: Refuted: the exact delay proved is that of the agent whose order is being handled. |
| C86 | Cancelling a market data subscription stops the updates and is harmless without one | unsubscription and logout; map lemmas, UB refutation (Exchange_props) | partial: Stopping proved; refuted (undefined behaviour) without a subscription. |
| C87 | Every order book update in an OpenBook file is delivered once, in order and unchanged | OpenBook record decoding over bytes; file induction (Format_props) | partial: Refuted for prices with fewer than two (exception) or more than eleven (undefined behaviour) decimals; proved for all other files (times: see C71). |
| C88 | Line breaks in text fields are protected | delimiter separated records; list algebra (Format_props) | partial: Refuted for texts without delimiter, quote and escape character (C88_line_break_refuted): a line break alone is not protected. C88_otherwise: records in which each text with a line break contains a delimiter or an escape character are read back by a reader that keeps quoted line breaks. |
| C89 | The main session of a symbol contains its orders and cancellations while the stock is open | OpenBook messages to orders; case analysis with guards (Format_props) | proved: For times before 2^32 microseconds (C71) and price scales as in C87. |
| C90 | Latin hypercube sampling uses every point of each parameter once | latin hypercube sampler with arbitrary random permutations over any arithmetic; permutation lemmas (Sampler_props) | partial: Proved for any arithmetic; refuted for a single sample in double precision (not-a-number). |
| C91 | Investors submit one dividend record per announced dividend | dividend announcements handled by `shareholder`; induction over messages (Company_props) | partial: Refuted: nothing is sent after an early announcement, records are repeated by every other announcement in the step, and the delivery time is 0; what is sent is proved. |
| C92 | Dividends computed from a profit do not exceed it | dividend per share over class maps; exact arithmetic, doubles refuted (Company_props) | partial: Class amounts proved in exact arithmetic, and up to one unit in double precision (exactness refuted); the total of the policy is refuted (shares multiplied twice). |
| C93 | Stock holdings add up the shares of all companies and classes | `stock_holdings` as a fold with UB for missing keys; sums modulo 2^64 (Company_props) | partial: Proved modulo 2^64 when every share class held has a stock; otherwise undefined behaviour (refuted). |
| C94 | Investors value securities at the latest quote | price records of investors as map folds; last-write lemmas (Company_props) | partial: Refuted for bondholders (first quote) and for the currency of shareholders; exact results proved. |
| C95 | Prices add up exactly in one currency; different currencies are rejected | `price` and `quote` arithmetic with assertions on or off; case analysis (Prices_props) | partial: Exactness proved; mixed currencies abort with assertions and are added up without (refuted). |
| C96 | A price converted to a double and back is unchanged | conversions through `SpecFloat` doubles; error bounds with Flocq (Prices_props) | partial: Refuted: 29 cents becomes 28. Proved: at most one unit is lost, towards zero (values below 2^52), and none when the denominator is a power of two. |
| C97 | Adding an amount to a price adds that amount of currency | mixed arithmetic of prices and doubles; exactness below 2^53 with Flocq (Prices_props) | partial: Refuted for every currency with smaller units: the double is a number of units. What is computed is proved for integers up to 2^53. |
| C98 | A quote converted to a double and back is unchanged | quote conversions; error bounds with Flocq (Prices_props) | partial: Refuted for every lot of two or more: the value is divided by the lot. Proved: exact error bound. |
| C99 | In a distributed simulation every process learns where new agents are | cluster as a list of processes, collective exchange as a function of all of them; last-writer lemma for address books (Distributed_props) | proved: Proved for all clusters, with the example of agents created on one process. |
| C100 | In a distributed simulation every process forgets deactivated agents | length condition of the collective exchange; exact set of agents forgotten, refutations for all clusters (Distributed_props) | partial: Refuted: the exchange is defined exactly when every process has deactivated as many agents as there are processes (so it is undefined in an ordinary step, and always the second time); then the process of rank r is told only about the r-th of each list. What is forgotten is proved. |
| C101 | Migrating agents between processes loses, duplicates and deadlocks nothing | processes as an interleaving transition system with channels; invariant relating every process to the sequential execution, progress and a termination measure (Distributed_props) | partial: Proved for proposals to move agents that are there to other processes, for all interleavings (buffered or not). Refuted: an agent sent to its own process is lost, and a process waits for ever for an agent that is not where the proposal says. |
| C102 | In a distributed simulation messages reach their recipients | induction over agents and outboxes; exact inboxes, refutation for all clusters with a message between processes (Distributed_props) | partial: Refuted: messages to agents on other processes vanish and messages to unknown agents are undefined. Delivery within a process is proved. |
| C103 | At the end of a distributed simulation all agents are gathered on the first process | proposals at the end are sensible, then C101 (Distributed_props) | proved: Proved for the migration itself; run never calls it with an advanced time. |
| C104 | Improved hypercube sampling selects the best-spaced candidate | invariant of the running minimum over scores; exactness of unsigned squared differences (Sampler_props) | partial: Proved for up to 65536 samples and any score function below the largest double. Refuted beyond: coordinates that differ by a multiple of 65536 count as equal. |
| C105 | Participants of the Walrasian market are told every change of the quotes once | induction over acts with the date of the last quotes as invariant (Markets_props) | partial: Proved: one announcement per act, increasing dates, exact condition for sending. Refuted: quotes that change in a second round of a time step are never sent. |
| C106 | A market without orders does not hold up the simulation | per act; invariant that the wake-up time of the agent is never after the present, over rounds of Simulation.v (Markets_props) | partial: Refuted: both markets ask to act again at the same time, and then no step at that time ends (C106_simulation_stops holds for any agent doing so in any model). |
| C107 | A market counts exactly the orders delivered in the time step | induction over the inbox (Markets_props) | partial: Exact characterisation of the orders counted. Refuted: orders behind one of an earlier step are ignored; orders count before they are delivered. |
| C108 | An impact market moves prices by the impact of the net demand | induction over acts and orders; sums of volumes (Markets_props) | partial: Refuted: quotes never move; side and volume are mixed up, so buying has no effect; an order for a property that is not traded has it quoted at zero. Exact volumes and the first quotes proved. |
| C109 | Price changes stay within the circuit breaker | case analysis of the clamps on all doubles; every method traced to the points of its solver (Tatonnement_props) | partial: Proved for root finding; refuted for the default methods: minimization and derivative-free root finding ignore the limits. |
| C110 | Multipliers that are found clear the market | induction over the loops; sums of demands as maps against sums per property (Tatonnement_props) | partial: Refuted for one property (the solver is asked for a single step, whose status is taken for convergence), for minimization with derivatives (any flat point is accepted) and for derivative-free root finding (always answers, if need be with the start); proved for root finding with several properties and for derivative-free minimization. C110_one_clears: for one property and a solver that asks to continue, multipliers are only found when a step has brought the excess demand below 1/1000000. |
| C111 | A property without demand keeps its price | the lookup fails exactly for unmentioned properties (Tatonnement_props) | partial: Refuted: the search is undefined whenever a quoted property is in no order; otherwise defined. |
| C112 | The search for prices leaves the error handling of the program as it was | case analysis per method, induction over the list of methods (Tatonnement_props) | partial: Refuted: with one property the handler stays replaced after every success; restored in all other cases. |
| C113 | When a method makes no progress the next is tried | induction over the loops and the methods (Tatonnement_props) | partial: Refuted: with several properties and the default error handler an error reported by the solver ends the program; with any other handler the search goes on. |
| C114 | The multipliers found are for the quoted properties | maps filled from lists (Tatonnement_props) | proved: Proved for all methods. |
| C115 | Money is valued in the reporting currency | lookups by code; truncating conversion (Accounting_props) | partial: Amount and exceptions proved; refuted that a foreign amount is said to be in the reporting currency, and that amounts of 2^63 and more are positive. |
| C116 | Positions in stocks are valued at market | 64-bit unsigned arithmetic (Accounting_props) | partial: Proved for prices that are not negative, and for lots of one; refuted for other lots (negative positions are worth large positive values) and for the conversion, which is never made. |
| C117 | Short positions are valued opposite to long ones | both valuations computed modulo 2^64 (Accounting_props) | partial: Proved when the quote is in the reporting currency; refuted otherwise: the number is taken over unconverted. |
| C118 | Loans are debts | 64-bit arithmetic (Accounting_props) | partial: Proved up to 2^63 subunits; refuted beyond. |
| C119 | The balance sheet adds up what is owned | direct (Accounting_props) | partial: Refuted: always zero. |
| C120 | Printed collections can be read back | separators as prefix-free codes; induction over the lists (Outputs_props) | partial: Proved for vectors, arrays and maps; refuted for queues, of which about half is printed (exact part proved), and for text with separators. The operators for sets and lists do not compile when used and are not modelled. |
| C121 | Streams of an output receive every value once and in order | invariant relating the state to the history (made outputs, attachments counted, values) (Outputs_props) | proved: Proved for all histories. |
| C122 | A stream added under a name receives what is put into the output with that name | from the invariant of C121 (Outputs_props) | partial: Proved for names used once; refuted for a second output of the same name, which is never written. |
| C123 | Buffered outputs are written at the end of the simulation | from the invariant of C121 (Outputs_props) | partial: Refuted: a buffered output is never written. Outputs made by create_output are not buffered. |
| C124 | Messages below the severity of a log are not shown | computation of the two sinks (Outputs_props) | partial: Proved for releases; refuted for other builds, where messages below the severity are shown without their level. |
| C125 | Ending a line of a log terminates | a mutex as a flag; relocking is undefined (Outputs_props) | partial: Proved for std::endl; refuted for channel::endl, which locks a mutex the thread holds. |
| C126 | The outputs of an agent survive archiving | from the invariant of C121 (Outputs_props) | partial: Refuted: the archive has the names only and nothing that is read is kept. |
| C127 | Fractions are allocated as integers that add up | rational arithmetic; sorted remainders, the excess fits among the positive ones (induction) (Fractions_props) | partial: In exact arithmetic and for numbers that are not negative: adds up to the rounded total and stays close, unless a number is halfway above an even integer. Refuted: undefined whenever the rounded numbers exceed the rounded total (two halves), a half may be raised to two, negative numbers change sign, the requested sum is ignored (doubles). |
| C128 | The geometric mean is the root of the product | logarithms in the standard library of real numbers (Fractions_props) | partial: Proved in real arithmetic; refuted for integer types, where logarithms are truncated. |
| C129 | The growth rate of a series is its growth per step | telescoping sum of logarithms; monotonicity of powers (Fractions_props) | partial: Refuted: the root is taken over the number of points, not of steps; what is computed is proved. Real arithmetic. |
| C130 | The market making rule quotes a bid below the ask | a finite result comes from finite operands and is the rounded real result (Flocq); interval bounds for definedness (Quoting_props) | proved: Proved. The logarithm is an argument of the model. C130_outside: with assertions, arguments out of range end the program. |
| C131 | Without an inventory the quotes surround the middle price, the wider the more volatile the market | monotonicity of rounding, error bound of C96 (Quoting_props) | partial: The middle price is proved to be between the quotes. Refuted that more volatility never brings a quote closer: it does by one unit when the quotes of the calmer market coincided and were moved apart; proved in all other cases. |
| C132 | A market maker that holds more quotes no higher | monotonicity of rounding (Quoting_props) | proved: Proved. |
| C133 | The market making rule works for risk neutrality and little risk aversion | computation with not-a-number (Quoting_props) | partial: Refuted: undefined at zero for all other arguments, and close to zero the spread vanishes instead. |
| C134 | Texts are read as market identifier codes exactly when they are such codes | case analysis by length (Codes_props) | partial: Proved for four characters and for three. Refuted: shorter texts are undefined behaviour, and text after a code is dropped. |
| C135 | Market identifier codes are ordered like their texts | lexicographic order on lists of equal length (Codes_props) | proved: Proved. |
| C136 | Currencies have different names exactly when they have different letters | injectivity of the hash; distinct names by computation over the whole table (Codes_props) | proved: Proved, the table in Codes.v is generated from currencies.hpp. |
| C137 | Countries have different names, and every country of the library has one | as C136 (Codes_props) | partial: Different names proved. Refuted: Andorra is listed without a name; India is commented out. |
| C138 | The constants for currencies, countries and jurisdictions carry the codes of their names and are pairwise different | computation over whole tables, lifted by forallb (Codes_props) | proved: Proved for the tables, which were generated from the headers. |
| C139 | Cash in different currencies is kept apart in an inventory | induction over deposits with a predicate that respects identities (Belongings_props) | partial: Proved for one number of subunits per code and different type codes; refuted for the same letters with other subunits, which merge although they do not compare equal. |
| C140 | Different loans are kept apart in an inventory | as C139 (Belongings_props) | partial: Refuted: all loans, and money that is not cash, have the identity without digits and merge into the first of them. |
| C141 | Different contracts to lend securities are kept apart in an inventory | as C139 (Belongings_props) | partial: Proved for different securities; refuted for different parties or sizes, which merge into the first. |
| C142 | A share never has the identity of other property of the company | lists with a last element; induction over creations (Belongings_props) | partial: Exact condition proved. Refuted: the n-th property that a company creates has the identity of its shares of rank n. |
| C143 | Printing a collection of property shows every item in it | induction over items (Belongings_props) | partial: Proved when the first item is not money; refuted otherwise: nothing is shown. |
| C144 | The shares recorded for a class are those last recorded for exactly that class | sorted maps by rank (Belongings_props) | partial: Proved for classes with different ranks; refuted for classes of the same rank, which share one entry. |
| C145 | Unique items are handed over once or not at all | induction over items (Belongings_props) | partial: Success and its condition proved. Refuted: after a failure the items before the offending one are held; items with a taken identity are dropped silently. |
| C146 | A rate given as a decimal number with as many digits as the precision is that number | Flocq: two roundings around an integer, truncation (Rates_props) | partial: Error bounds proved for all doubles; refuted for the default precision: three basis points become two, and 37 other numbers of basis points up to five percent lose one. |
| C147 | The inflation rate leads from the first price to the second | greatest common divisors (Rates_props) | partial: Proved for equal currencies and a positive first price, and for negative ones without assertions; refuted for different currencies without assertions. |
| C148 | An exchange rate made similar to another has its precision | as C146; divisibility (Rates_props) | partial: Proved for the precision left after reducing; refuted for the precision a rate was made with, and at parity all precision is lost. |
| C149 | An exchange rate has the value of the number or fraction it is made from | greatest common divisors; truncation (Rates_props) | partial: Fractions and copies proved; refuted for decimal numbers, which are truncated to whole numbers (proved exactly), and for copies of a rate of zero. |
| C150 | An archived message is restored | archives as lists of items, readers with a rest; induction over containers (Archives_props) | partial: Plain headers and the contents of transfers and dividend records proved; refuted: every class of message loses sender, recipient and times, and orders lose their demands and volumes. |
| C151 | An archived agent continues where it stopped | as C150, composed (Archives_props) | partial: Identity, number of children, schedule and plain headers in the mail proved; refuted for addressed messages in the mail and for callbacks. |
| C152 | Identities, countries, jurisdictions, persons, share classes, intervals and inventories are restored | as C150 (Archives_props) | proved |
| C153 | Timing measurements are restored | as C150 (Archives_props) | partial: Refuted: nothing is archived. |
| C154 | What is logged from Python is recorded with its severity and place | induction on texts for the last occurrence; cases on levels (Bindings_props) | partial: Trace and notice proved, and the path shown; refuted: warnings and errors are recorded as notices, and a release records nothing that is logged from Python. |
| C155 | The code seen in Python identifies a currency or a country | cases (Bindings_props) | partial: Countries proved; refuted for currencies: the last letter is missing. |
| C156 | Every country, currency and jurisdiction of the library is available in Python under its own name | membership tests over the tables, reflected (Bindings_props) | partial: Names, all currencies and jurisdictions proved; refuted: one country is missing and one name has no constant. |
| C157 | A constant parameter set from Python is read back | map lemmas and cases on values (Bindings_props) | partial: Numbers proved; refuted for prices, which are stored and can not be read. |
| C158 | A model made from parameters set in Python has these settings | as C157 (Bindings_props) | partial: Unsigned integers of numpy proved and the exact condition; refuted for integers of Python, which are accepted and stop the model. |
| C159 | A mapping of the library behaves in Python as a dictionary | lemmas on sorted maps (Bindings_props) | partial: Proved except that deleting a missing key is no error (refuted). |
| C160 | An inbox behaves in Python as a mapping from times | induction on the entries (Bindings_props) | partial: Present times, deletion and reading proved; refuted: assigning an absent time does nothing. |
| C161 | An agent written in Python that asks for no activation acts once | induction over the agents of one step, then the run stops (Bindings_props) | proved |
| C162 | A message that an agent sends from Python is delivered | extensionality of sorted maps (Bindings_props) | partial: Refuted: the copy is changed and the message is not sent. Reading is proved. |
| C163 | The demand of an order written in Python is the demand the market sees | induction on the dictionary with first entries (Bindings_props) | partial: Proved for numbers that convert; refuted for others, which are left out without an error. |
| C164 | Quotes in Python are valid | cases (Bindings_props) | partial: Price proved; refuted: the lot can be set to zero. |
| C165 | The code of an ISIN assigned in Python is read back | lists (Bindings_props) | partial: Nine characters proved; refuted: shorter is undefined, longer is cut. |
| C166 | A company written in Python without a dividend policy acts as one in C++ | cases of the activation (Bindings_props) | partial: Companies with an answer proved; refuted without a method, which is an error. |
| C167 | Each class of messages has a code of its own | cases on classes; filters over registrations (Messages_props) | proved |
| C168 | A created message carries who sent it, when, to whom, and when it arrives | cases (Messages_props) | partial: Proved for classes whose constructors take times; refuted: transfers and announcements of dividends are sent at time zero, and four classes can not be given a sender. |
| C169 | An order made in reply to a quote goes back to the market | cases (Messages_props) | partial: Proved for differentiable orders; orders to the impact market can not be made from a quote (refuted). |
| C170 | A random latency has the shift as its minimum and gets shorter with the rate | floors of rationals (Randomness_props) | partial: Minimum and definedness proved in exact arithmetic; refuted: the latency gets longer with the rate. |
| C171 | A draw from the zero-truncated Poisson distribution has its probabilities | invariant of the loop over partial sums (Randomness_props) | partial: Range and the probability of one proved in exact arithmetic; refuted: the result n has n times its probability. |
| C172 | Currencies are counted in their minor units, and countries have their legal tender | tables checked by reflection (Codes_props) | partial: Proved for all tenders and all currencies but three: TND, UYI and CLF have the wrong unit (refuted). |
| C173 | Every message takes effect exactly once over a whole simulation | invariant over jobs, deliveries, rounds and steps; confluence for threads (Ownership_props) | proved: Proved for any account, with one and with several threads. |
| C174 | Transfers between owners neither create nor destroy property | instance of C173 with the modulus 2^64 (Ownership_props) | proved: Proved for owners whose own code sends balanced transfers only. That agents may send a transfer to one party alone, which creates property, is shown by a counterexample (C174_one_sided); the property excludes it. |
| C175 | A clearing market's settlement gives each participant its trade and takes its payment | case analysis over the trades, sums over the parties (Clearing_props) | partial: Settlement and its effects proved in both arithmetics for one property without short positions; that cash is neither created nor destroyed is proved in exact arithmetic with unit lots, and refuted in double precision (as the code has it), where C175_doubles bounds the difference, for any lot, by a cent for each buyer and each seller. |
| C176 | A message is handled at its time of delivery | invariant over jobs and deliveries: wake-up times are at most the first delivery (Punctual_props) | partial: Refuted: an agent that acts before the delivery overwrites its wake-up time, sleeps through the delivery and may never handle the message. Proved for agents that never ask to sleep past a message they already have, such as agents that wake up at every time. |
| C177 | Participants of a Walrasian clearing trade what their demand affords | fold invariant over the demands; rational inequalities (Demands_props) | partial: Proved in exact arithmetic for prices that stay at one unit of the currency or above, and in double precision up to one unit (C177_doubles: up to 2^48 units and for multipliers from 1/16 to 16; the market allows 1/11 to 11). Refuted for lower prices, which are raised to one unit after the units are computed, and for exact multiples of the price in double precision. |
| C178 | The volume that a Walrasian market puts out is the volume that was traded | sums of truncated rational numbers; error of sums of doubles (Demands_props) | partial: Refuted: both sides are counted, only one property is reported, and a clearing without demands is undefined. Proved, for one property, to be twice the traded volume, up to rounding: exact arithmetic (C178_twice), and double precision up to 2^48 units (C178_doubles). |
| C179 | A demand for something that a Walrasian market does not trade is harmless | fold invariant (Demands_props) | partial: Refuted: such a demand is undefined behaviour. Proved that the demands are taken exactly when all of them are quoted. |
| C180 | Walrasian trades are paid in the currency in which they are quoted | division with remainder; relative error of four roundings (Demands_props) | partial: Refuted: payments are always in US dollars. The amount is characterised exactly, and in double precision up to one cent (C180_doubles). |
| C181 | Agents that do not communicate with a group do not influence it | simulation relation between the run of all agents and the run of the group; induction over rounds and steps (Isolation_props) | proved: The full run must return; an exception or an endless step of another agent ends or hangs the whole simulation. C181_run, C181_others (two simulations), C181_step; C181_callbacks gives a sufficient condition on callbacks and act. Sequential steps; any number of threads gives the same by C18. |
| C182 | Simulations that use no seed are the same for every sample and on every platform | induction over parts of jobs, rounds and steps (Platform_props) | partial: Refuted for the default schedule (communicator.hpp:166): messages of equal priority are shuffled by the seed. C182_in_order and C182_unaffected are the positive results. |
| C183 | Prolonging a simulation does not change its past | instance of C184 with T = end1; agents that ignore the end behave alike by induction over the callbacks (Causality_props) | proved: Model: the simulation of C15-C21 (Simulation.v). ignores_end (Causality_spec.v) says that callbacks and act return the same state for every end and a time that is a fixed time or never, limited by the end. |
| C184 | What agents will do later does not influence what happens now | simulation relation (same mail, state, outbox; wake-up times equal when cut off at T) preserved by the act phase, sending, rounds and steps; then induction over the steps before T (Causality_props) | proved: Model: the simulation of C15-C21 (Simulation.v). C184_past is for any two worlds that are alike until T (Causality_spec.v), C184_reaches says that the second simulation gets to T if the first does, C184_acts gives a simple sufficient condition. |
| C185 | A distributed simulation runs until its end | activate keeps the lists of deactivated agents; deactivate is defined only if all lists are as long as the cluster and doubles them; case analysis of two iterations (DistributedRun_props) | partial: Model: DistributedRun.v, over any step function of the cluster. C185_undefined_refuted: when no agents are deactivated, a run whose first step does not reach the end passes the wrong number of values to MPI (undefined). C185_two_times_refuted: whatever is deactivated, a run that returns has stepped at two different times at most. C185_one_step is the case that works. |
| C186 | In a distributed simulation messages wake up their recipients | specification of sending within a process by induction over agents and messages, compared with send_spec of C15 (DistributedRun_props) | partial: Model: mpi_round in DistributedRun.v with the agents of Simulation.v. C186_not_woken_refuted is for all rounds: the wake-up time of a sleeping agent stays. C186_awake: if all recipients are awake by the time of delivery, the round is that of a single process. |
| C187 | Comparing a quantity with a number compares the amounts | comparison of doubles is comparison of reals (Flocq); rounding to nearest is monotone and exact below 2^53, and even above it (Streams_props) | partial: Model: Streams.v. C187_exact for amounts up to 2^53, C187_one_sided for all amounts (no false answer of less or greater), C187_refuted for every odd amount above 2^53: it equals a double that is a different number. C187_special: infinities and NaN. |
| C188 | A printed price or quote tells the price | relative error of the division below 2^-53, so the scaled double is within a half of the integer; decimal digits read back; uniqueness of the notation (Streams_props) | partial: C188_text and C188_distinct, C188_quotes for less than 2^52 units of a currency counted in powers of ten, which C188_library shows all of the library are. C188_refuted: 2^46 dollars and one cent look like 2^46 dollars and two cents. The logarithm of the C library is taken to be exact for powers of ten. |
| C189 | Printing a value leaves the format of the stream as it was | symbolic execution of the printing on an arbitrary stream; position of the point in fixed notation (Streams_props) | partial: C189_price and C189_identity say exactly when the format is kept. C189_price_refuted: the precision of the currency stays on the stream, so every number printed afterwards looks different. C189_identity_refuted: the fill character stays zero, so every integer printed with a larger width looks different. C189_others: the other values keep the format. |
| C190 | Printed intervals, tickers, positions, reports and orders tell them apart | separators do not occur in the parts; decimal notation is injective (Streams_props) | partial: Intervals, positions and tickers are injective; C190_reports says exactly which execution reports look the same, and C190_reports_refuted is the consequence: side, quantity and identifier are not shown; orders print nothing. C190_no_state: reports without a known state throw. |
| C191 | An archived owner or legal person still owns its property | reading inverts writing for every part, composed; the callback of owner on an empty record (Persons_props) | partial: Model: Persons.v on top of Archives.v. C191_owner and C191_person: what is restored. C191_view_refuted: the record of the property of a type is not archived, so every transfer of such property by a restored owner is rejected. C191_property_refuted: the property of a legal person is not archived at all. |
| C192 | An archived company goes on as before | as for C191, then one action of the company with the model of Company.v (Persons_props) | partial: C192_kept: what is restored. C192_announced_again_refuted, with act of Company.v: every dividend announced is announced to all shareholders again. C192_holdings_refuted, with stock_holdings of Company.v: undefined for a restored company that holds shares. C192_dates_lost_refuted: no way of reading could restore the dates. |
| C193 | A simulation to which agents have been added can be run | induction over the loop, with the number of moves as the state of validity; induction over the agents added for the capacity (Population_props) | partial: Model: Population.v. The lists of new and removed agents are appended to while they are iterated over. C193_standard_exactly, C193_run_refuted, C193_later_refuted: undefined by the standard whenever a list is not empty. C193_memory_exactly, C193_two_agents_refuted, C193_removed_twice_refuted: even if only reading memory that was given back counts. C193_nothing_to_tell: otherwise the run is the one of Simulation.v. The theorems on runs of other claims are about environments in which telling of agents does nothing. |
| C194 | Stepping the environment moves the model forward | after a step all wake-up times are later and all outboxes empty, so the next is the identity (Population_props) | partial: C194_no_progress_refuted: a second call leaves the world as it is, for all worlds. C194_first, C194_over: what the first call and calls after the end do. |
| C195 | A simulation goes on without an agent that is removed | the entry of a removed agent is kept by every round; removing it commutes with every part of a round if it is not before the end (Population_props) | partial: C195_never_ends_refuted: the wake-up time of a removed agent stays, and a run does not end if it is before the end. C195_goes_on: otherwise the run is as if nothing were left of it. C195_others, C195_mail: the others, and messages. |
| C196 | An agent created while the model steps takes part from then on | specification of the work of a round, then of sending (Population_props) | partial: C196_created: how it is left by the round. C196_acts_next: without messages it acts in the next round. C196_never_acts_refuted: which need not exist. C196_waits_refuted: a message for later delays its first action. Creation is modelled for one thread. |
| C197 | Looking up an agent changes nothing | properties of maps (Population_props) | partial: C197_absent_refuted, C197_message_refuted: an identity without agent is given an entry, messages to which are undefined. C197_present, C197_others: the rest. |
| C198 | An object made with an identity has that identity | the C++ rule for the construction of virtual base classes over trees of classes; induction over the hierarchy (Construction_props) | partial: Debtors, owners of one kind of property, contracts, securities, loans and commodities get the identity without digits, whatever is passed (C198_refuted). For other classes of the library and exactly those user classes that themselves name the shared base class it holds (C198_library, C198_users, C198_property, C198_line). |
| C199 | An agent with several roles keeps a correct view of each kind of property | order and number of the handlers by induction over the hierarchy, then reduction to the histories of an owner of one kind (Construction_props) | partial: Handlers exist once per kind and in the right order (C199_handlers), and views agree for transfers between different parties that complete (C199_views). A refused transfer leaves some views changed (C199_rejected_refuted); exactly what it leaves is C199_left. |
| C200 | The two order books are interchangeable | simulation: both books refine price-time priority (C38, C78); the ledgers of the two specifications stay related entry by entry (TwoBooks_props) | partial: Proved for orders good until cancelled with limits strictly inside the range, while there is room, and for withdrawals other than of the last order at the best limit (C200_same_reports). Otherwise the books differ: C200_withdrawal_refuted, C200_lifetime_refuted. |
| C201 | A participant that trades several properties in one Walrasian clearing is settled for all of them | the view of one participant through the accumulation and the netting, by induction over its trades (SeveralTrades_props) | partial: Independence of others' trades is proved (C201_own_trades), and the settlement for participants without short positions that trade one property or only sell (C201_settled); if all are settled so, nothing is created or destroyed (C201_conserved, exact arithmetic, unit lots). Refuted for a sale and a purchase together: the purchase is not delivered (C201_sale_then_purchase_refuted) or paid twice (C201_purchase_then_sale_refuted); C79 has two purchases. |
| C202 | A Walrasian market in a simulation is cleared once in every time step, with the orders of all its participants | four kinds of rounds (opening, answering, clearing, booking) as one lemma about a round in which each agent's turn is known; induction over the time steps (Sessions_props) | proved: C202_sessions: with transfers of any content that settle the trades (their content: C37, C79, C200, C201), booked in any order. Participants answer in the time step in which they get the quotes; if they answer later, or there is no participant, see C106 and C107; if they do not ask to be activated again, C203. |
| C203 | A participant that trades at one time takes part in the session of the next time | the booking round leaves participants with the end of the run as their next activation; the market alone then asks for the same time in every round (Sessions_props) | partial: Refuted by C203_sleep_refuted (all markets in which every participant trades at time 0 and leaves its next activation to the library: the run never ends) and C203_next_session_refuted (one such world). Participants that ask for the next time themselves: C202_sessions. The cause, in isolation: C176. |
| C204 | An exchange in a simulation enters orders in the order in which they arrive | invariant over the rounds for the exchange alone: nothing in its inbox is due before it wakes up; what it has handled and what is in its inbox are what was sent to it (FirstCome_props) | partial: Refuted by C204_late_refuted: an exchange that has handled a message sleeps until the end of the run, past the delivery of an order that is already in its inbox; that order is handled with the next message that wakes the exchange, after it. C204_first_come: it holds if the exchange asks to be activated at every time, or if all messages to it are for the time step in which they are sent. Orders delivered at the same time are handled latest first or shuffled (C13). The cause, in isolation: C176. |
| C205 | What an exchange tells its traders adds up | sums over each operation of the book, for any set of owners and sides; the exchange answers messages as Exchange.operate does; only its outbox holds execution reports, round by round (Fills_props) | proved: C205_fills. The messages that were sent are those of the rounds of the run (rounds_sending); each is delivered once (C15, C173). That a cancellation is reported only with the next order for the symbol is C84. |
| C206 | A simulation in which a company announces a dividend runs to its end | what each agent does in a round determines the round (KnownRound_proofs); the three rounds of an announcement one by one; a wake-up time in the past stays (Dividends_props) | partial: The property is refuted in general (C206_endless_refuted, for any other agents): payable after announcement never ends. C206_exact gives, for a company with its shareholders, the exact set of policies for which the run ends, and what shareholders know then. The dividend itself is not paid in the code (a comment there). |
| C207 | Agents may create agents in a round with several threads | accesses of each thread's jobs, conflict by cases; an invariant on all interleavings of reads and writes of the counters; an interleaving with a duplicate is constructed (Races_props) | partial: Refuted: creation takes no lock, so any two creating agents in the work of different threads are a data race (C207_race_exactly, C207_any_two_refuted), and with the same parent they can get the same identity even if memory were to behave (C207_duplicate_refuted). C207_fresh: every interleaving numbers children correctly if no entity gets children from two threads. |
| C208 | An error of an agent reaches the caller whatever the number of threads | the sequential order is one of the interleavings; C18 for the others (Errors_props) | partial: Refuted for several threads (C208_terminated_refuted): an exception that leaves the function of a thread ends the program. C208_one_thread and C208_returns are the parts that hold; C208_returns rests on C18. |
| C209 | A market neither makes nor loses wealth over a whole run | induction on the sessions of C202; in each the trades of C60 are settled as in C175, with amounts bounded by what all traders have (Economy_props) | proved: Composes C202 (sessions), C60 (trades), C61 and C175 (settlement), C80 (rounding) over a whole run. C209_doubles is for the arithmetic of the code; C209_exact shows that without rounding nothing at all is lost. Prices are for one unit, and traders are eager (otherwise see C203). |
| C210 | The number of threads does not influence the outcome of a simulation | C18 for every step, by induction on the run; fuel is monotone (Threads_props) | proved: C18 for whole runs. Errors of agents with several threads are C208, agents that create agents C207. |
| C211 | Sessions of an impact market in a simulation | invariants of the world between rounds (quotes delivered, orders delivered), one lemma per kind of round from the general description of a round, induction over the times of the run (ImpactSessions_props) | partial: C211_sessions gives the exact course of a run: a session at each time from 1 on, with one order of every participant. The claim that quotes are answered once fails for the opening quotes: the market asks to be activated again at time 0 and then sends the quotes for time 1 a second time, so participants answer twice and the market uses one of the two orders. C211_answers_refuted shows this for every set of participants that count their answers. |
| C212 | Orders of an impact market need not say when they were sent | the same invariants with stale orders, and an invariant for a market that acts alone in every round, by induction over the rounds (ImpactSessions_props) | partial: C212_default_refuted: orders without time of sending carry 0, which the market takes for an order of an earlier step; it stops reading orders and asks to be activated again at the same time. At time 1 it gives up after a round without clearing; at time 2 it never does, so no run beyond time 2 ends. The positive counterpart is C211_sessions (orders that say when they were sent). |
| C213 | A closed queue accepts no new elements | the queue of C25: pushes to a closed queue (BlockingQueue_props) | partial: Refuted for every closed queue: an element pushed after closing is kept and popped later, against the documentation of close(). C213_exact: what closing does instead. |
| C214 | Tasks may submit tasks, also while the pool is being destroyed | the pool of C26 with submissions by running tasks at any time; invariant: whatever waits in the queue of a finished worker will still be looked at by another (PoolTasks_props) | proved: Critical sections are one step each, taken when the lock is released, so that a failing attempt to lock falls before the step of the holder; a running task may be holding any lock (it may be submitting). C214_spurious_failures: std::mutex::try_lock is permitted to fail without reason, and then a task submitted during destruction can be lost; without such submissions (C26) it cannot. |
| C215 | A pool asked for no threads has as many as the hardware | construction by cases; the invariant of C214 for the rest (PoolTasks_props) | partial: Refuted for no threads whatever the hardware: only the parameter is corrected, so workers are started for queues that do not exist. C215_otherwise for any positive number. |
| C216 | A pool of one thread executes tasks in order | invariant: executed, running and waiting tasks in order are the submitted ones (PoolTasks_props) | proved: Spurious failures to lock are allowed here, unlike in C214. |
| C217 | No task waits while a worker is idle | a reachable state by a schedule; the invariant of C214 for the owner of the queue (PoolTasks_props) | partial: C217_refuted: a worker sleeping on its own queue is not woken for tasks in the queue of a busy worker. C217_served: the worker whose queue holds a task can always act (the wake-up itself is C25), so that the task waits no longer than that worker is busy. |
| C218 | Market data name each trade once | exact list of updates to a live subscriber by induction over reports; insertions report matches in pairs; reports held back are of cancellations only (Feed_props) | partial: C218_twice_refuted: when an order moves the best bid or ask, its sender having nothing on the book, each of its trades is named twice, once for the report to either side. C218_once: when neither moves each is named once. |
| C219 | Market data show the best bid and ask with the quantity available | messages are made from the book after the order; C29 for that book (Feed_props) | partial: C219_best: the prices. C219_size_refuted: the quantity given is always 1; in C219_case six are available. |
| C220 | The log of orders is complete | induction over histories; reports held back are of cancellations only (OrderLog_props) | partial: C220_senders_refuted: an entry is made only when its owner sends an order in the symbol at that time, so that trades of resting orders are missing and cancellations appear late or never. C220_order: what happens to an order when it is sent is logged in full. |
| C221 | Nobody can place or cancel orders in another's name on an exchange | from C34 and C65; induction over the calls of a book (Access_props) | partial: C221_cancelled_by_anyone_refuted: the sender of a cancellation is not looked at. C221_placed_by_anyone_refuted: neither is that of an order. C221_requested: what is reported as cancelled was asked for by somebody. |
| C222 | Only participants that are logged on trade on an exchange | simulation between the history and the history without these messages (Access_props) | partial: C222_no_difference_refuted: leaving out all messages to log on and off changes no report, no market data and no book. |
| C223 | A copy of an agent responds to messages as the agent does | induction over the messages delivered and over registrations (Copies_props) | partial: C223_deaf_refuted: callbacks are not copied. C223_waiting_refuted: neither are messages. C223_registered: with the callbacks registered again a copy responds to new messages as the agent. What derived classes add is an abstract state that callbacks change. |
| C224 | Only the participants of a market interact with it | simulation between markets that differ in their participants, over any number of acts (Outsiders_props) | partial: C224_setter_refuted and C224_impact_refuted: the participants make no difference to which orders count. C224_quotes: quotes are sent to them only. |
| C225 | Market data have the depth that was asked for | simulation between the exchange and one whose subscriptions all have depth zero (Depth_props) | partial: C225_depth_refuted: histories that differ only in the depths asked for lead to the same messages; by C219_best these have at most one limit of either side. |
| C226 | Market data take the time of the connection to the subscriber | induction over the reports of an order (Audience_props) | partial: C226_arrival for times of arrival below 2^64. C226_wrapped_refuted: later ones wrap around. |
| C227 | Market data go only to those who asked for them | invariant of the lists of subscribers, over histories (Audience_props) | proved: For all histories; a request for a stream that is ignored (C83) does not matter here. |
| C228 | A copy of an agent has its outputs under their names | induction over the outputs created (Copies_props) | partial: C228_outputs_refuted: a copy has no outputs. C228_created: it has exactly those created on it. |
| C229 | Displaying the fixed-tick book shows its best limits | from the representation invariant of C78; induction over the levels (Display_props) | partial: C229_shown for the histories for which C78 holds: right, but for quantities of asks modulo 2^32 (C229_quantity_refuted). C229_side_refuted: outside these histories, orders can be shown on both sides. Columns and digits are not modelled. The display of the other book is empty in the code. |
| C230 | A legal entity identifier read from a text is the one the text denotes, and other texts are rejected | the text split into its parts; the assertions as an equivalence about the parts (LegalEntity_props) | partial: With assertions on, the texts accepted are exactly the printed forms of valid identifiers (C230_asserted). Without assertions the reserved digits, the check digits and the length are not looked at (C230_mistyped_refuted), and either way a text of fewer than seventeen characters is read beyond its end before anything is checked (C230_short_refuted). |
| C231 | A copy of a block pool can be used like the pool | simulation between copy and pool up to which blocks are pointed to; invariant that free blocks are own (PoolCopies_props) | partial: The copied pointers go on pointing into the original: storing an element in a copy of a pool with room left is undefined (C231_store_refuted). What is defined gives the results of the pool itself (C231_same); elements erased from the copy can be replaced (C231_replaced), and a copy of a full pool has no restriction (C231_full). |
| C232 | A copy of the fixed-tick order book can be used like the book | case analysis of the operations; a history of three orders (BookCopies_props) | partial: A copy cannot be asked for a quote that exists (C232_quotes_refuted) and accepts no order (C232_insert_refuted, C232_inert); cancelling in a copy takes the order out of the original's list (C232_cancel_refuted). If a side is empty the copy says so. The first operation on a copy is modelled. The tree book holds its orders by value and is not concerned. |

## Source lines modelled

By model file; each definition in the file carries the lines it models and what is simplified.

* `Access.v` — `esl/economics/markets/centralized_exchange.hpp` — cancel_order_message.hpp: 33-60; centralized_exchange.hpp: 440-550; same file, further lines: 545
* `Accounting.v` — `esl/economics/accounting/balance_sheet.hpp`, `esl/economics/accounting/standard.hpp` — balance_sheet.hpp: 33-58, 38-53; standard.cpp: 29-34; standard.hpp: 55-140, 57-69, 71-87, 94-106, 108-112, 114-128
* `Algorithms.v` — `esl/algorithms.hpp` — algorithms.hpp: 48-65, 105-119, 130-145, 237-279, 283-307
* `Archives.v` — `esl/agent.hpp`, `esl/computation/timing.hpp`, `esl/interaction/communicator.hpp`, `esl/interaction/header.hpp`, `esl/interaction/message.hpp`, `esl/interaction/transfer.hpp`, `esl/simulation/entity.hpp`, `esl/simulation/identity.hpp` — agent.hpp: 98-106; communicator.hpp: 120-160, 297-305; differentiable_order_message.hpp: 42-51, 60-71; dividend.hpp: 141-149, 171-183; entity.hpp: 76-86, 120-128, 210-217; government.hpp: 43-48; header.hpp: 42-57, 73-107, 154-163; identity.hpp: 347-352; interval.hpp: 189-195; inventory.hpp: 268-273; iso_3166_1_alpha_2.hpp: 95-101; jurisdiction.hpp: 60-68; message.hpp: 42-55, 71-87; natural_person.hpp: 49-54; order.hpp: 37-46, 59-66; order_message.hpp: 68-77; quantity.hpp: 340-345; share_class.hpp: 115-127; timing.hpp: 54-68; transfer.hpp: 52-68, 96-107
* `Belongings.v` — `esl/economics/accounting/inventory.hpp`, `esl/economics/cash.hpp`, `esl/economics/finance/loan.hpp`, `esl/economics/finance/securities_lending_contract.hpp`, `esl/economics/finance/share_class.hpp`, `esl/economics/finance/stock.hpp`, `esl/economics/money.hpp`, `esl/law/contract.hpp`, `esl/law/property.hpp`, `esl/law/property_collection.hpp` — cash.hpp: 46-60, 71-74; company.cpp: 43-51; company.hpp: 70, 76; contract.hpp: 46-53; dividend.hpp: 149; inventory.hpp: 187-195, 281-330, 294-297, 307-310, 320-330; loan.hpp: 56-63; money.hpp: 47-54, 65-68; property_collection.hpp: 42-78, 91-122; securities_lending_contract.hpp: 36-43, 55-66; share_class.hpp: 39-96, 100-108, 110-113; shareholder.hpp: 78; stock.cpp: 88-97
* `BinaryBook.v` — `esl/economics/markets/order_book/binary_tree_order_book.hpp` — basic_book.hpp: 39-119, 51; binary_tree_order_book.hpp: 67-75; execution_report.hpp: 33-118, 38-43; order.hpp: 45-84, 45-113, 50-54, 56-59
* `Bindings.v` — `esl/python_module_esl.cpp` — agent.cpp: 52-57; algorithms.hpp: 77-93; company.cpp: 102-108, 111-183; log.hpp: 64-96, 116-134, 156-161; model.cpp: 38-53; parameter.hpp: 49-72; parametrization.hpp: 49-65, 73-86; python_module_esl.cpp: 113-278, 326-341, 523-550, 564-567, 604-617, 669-678, 692-702, 792-831, 834-861, 1066-1214, 1221-1227, 1469-1513, 1618-1624, 1811-1987, 2083-2097, 2378-2625, 2760-3003
* `BlockPool.v` — `esl/computation/block_pool.hpp` — static_order_book.hpp: 534-545, 543-545; same file, further lines: 40-68, 93-133, 137-150, 209-250, 257-296, 301-304
* `BlockingQueue.v` — `esl/computation/blocking_queue.hpp`
* `BookCopies.v` — `esl/economics/markets/order_book/static_order_book.hpp` — same file, further lines: 280-295, 303-324, 436-582, 590-673
* `CheckDigits.v` — `esl/economics/finance/cusip.hpp`, `esl/economics/finance/isin.hpp`, `esl/economics/finance/sedol.hpp`, `esl/economics/finance/stock.cpp`, `esl/geography/iso_3166_1_alpha_2.hpp`, `esl/law/legal_entity.hpp` — cusip.hpp: 82-89, 108-189, 195-206, 214-224; isin.hpp: 69-77, 111-117, 140-217, 212-216, 223-254, 262-270; iso_3166_1_alpha_2.hpp: 54-69, 112; legal_entity.hpp: 68-73, 114-134, 119-122, 145-168, 192-201; sedol.hpp: 82-156, 162-172; stock.cpp: 33-60, 35-38, 62-72
* `Clearing.v` — `esl/economics/markets/walras/price_setter.cpp` — price_setter.cpp: 526-545; same file, further lines: 527-535
* `Codes.v` — `esl/economics/currencies.hpp`, `esl/economics/iso_4217.hpp`, `esl/economics/markets/iso_10383.hpp`, `esl/geography/countries.hpp`, `esl/geography/iso_3166_1_alpha_2.hpp`, `esl/law/jurisdiction.hpp`, `esl/law/jurisdictions.hpp` — countries.hpp: 39-287, 299-805, 305-800; currencies.hpp: 40-217, 231-597, 236-592; iso_10383.hpp: 37-58, 60-67, 69-75, 77-105, 115-122; iso_4217.hpp: 73-74; jurisdiction.hpp: 44-56, 74-81; jurisdictions.hpp: 35-278
* `Communicator.v` — `esl/interaction/header.hpp` — agent_collection.hpp: 83-85; communicator.cpp: 32-37, 48-79, 60-75, 87-141, 91-113, 104-110, 117-126; communicator.hpp: 72-75, 137-159, 221-265; header.hpp: 73-107; model.cpp: 123-127
* `Company.v` — `esl/economics/company.cpp`, `esl/economics/finance/dividend.cpp` — bondholder.cpp: 42-52; company.cpp: 43-51, 59-80, 89-99, 111-183; company.hpp: 62-94; dividend.cpp: 47-56; dividend.hpp: 41-75; money.hpp: 88-94; price.hpp: 231-239, 241-244; shareholder.cpp: 52-61, 65-80, 85-98, 102-124; shareholder.hpp: 60-97
* `Construction.v` — `esl/agent.cpp`, `esl/economics/asset.hpp`, `esl/economics/commodity.hpp`, `esl/economics/company.cpp`, `esl/economics/finance/bond.hpp`, `esl/economics/finance/debtor.hpp`, `esl/economics/finance/loan.hpp`, `esl/economics/finance/security.hpp`, `esl/economics/finance/stock.hpp`, `esl/economics/money.hpp`, `esl/economics/owner.hpp`, `esl/law/contract.hpp`, `esl/law/legal_person.hpp`, `esl/law/organization.hpp`, `esl/law/property.hpp` — agent.cpp: 38-42; agent.hpp: 40-44; asset.cpp: 31-35; asset.hpp: 55-61; bond.hpp: 60-62, 90-95; bondholder.cpp: 38-39; bondholder.hpp: 53-57; centralized_exchange.hpp: 59-62, 427-432; commodity.hpp: 33-44; communicator.cpp: 60-75; communicator.hpp: 264; company.cpp: 89-99; company.hpp: 58-62; contract.hpp: 39-53; debtor.hpp: 35-44; legal_person.hpp: 50-98; loan.hpp: 43-63; market.cpp: 45-52; market.hpp: 40-42, 44-46, 89-95; money.hpp: 41-54; organization.hpp: 38-50; owner.hpp: 57-66, 68-96, 99-102, 171-192, 194-238, 202-219, 245-248; price_setter.cpp: 72-80; price_setter.hpp: 47-49; property.cpp: 34-38; property.hpp: 38-43; security.hpp: 45-56; shareholder.cpp: 44-48; shareholder.hpp: 53-57; stock.cpp: 88-97; stock.hpp: 37-38
* `Copies.v` — `esl/agent.cpp`, `esl/agent.hpp`, `esl/data/producer.hpp`, `esl/interaction/communicator.hpp` — agent.cpp: 44-50; agent.hpp: 64; communicator.cpp: 87-141; communicator.hpp: 126-159, 221-265; environment.cpp: 149-150; producer.hpp: 40-47, 54-62
* `Demands.v` — `esl/economics/markets/walras/price_setter.cpp` — money.hpp: 76-81; price.hpp: 67-69, 241-244; price_setter.cpp: 226-257, 307-395, 360-391, 362-390, 366, 395, 402, 440, 454, 467, 480; quote.hpp: 81-86, 131-137
* `Display.v` — `esl/economics/markets/order_book/static_order_book.hpp` — static_order_book.hpp: 680-740; same file, further lines: 686-703, 692-695, 717-738
* `Distributed.v` — `esl/computation/distributed/mpi_environment.cpp`, `esl/computation/distributed/protocol.hpp`, `esl/simulation/agent_collection.cpp` — agent_collection.cpp: 40-45, 47-52; agent_collection.hpp: 62-64; environment.hpp: 46-62; mpi_environment.cpp: 96-126, 129-145, 150-320, 326-373, 386-394, 408-413; mpi_environment.hpp: 63-67; protocol.hpp: 65-85; same file, further lines: 80-86, 253-278, 282-322, 335-347, 352-375
* `DistributedRun.v` — `esl/computation/distributed/mpi_environment.cpp`, `esl/simulation/model.cpp` — model.cpp: 90-255, 102-247; mpi_environment.cpp: 326-373; same file, further lines: 333-349, 335-347, 447-520
* `Dividends.v` — `esl/economics/company.cpp`, `esl/economics/finance/shareholder.cpp`, `esl/simulation/model.cpp` — agent.cpp: 52-57; communicator.hpp: 190-202; company.cpp: 111-183, 128-132; dividend.hpp: 111-120; shareholder.cpp: 52-63, 94-95
* `Economy.v` — `esl/economics/markets/walras/price_setter.cpp`, `esl/economics/owner.hpp` — differentiable_order_message.hpp: 51; owner.hpp: 68-102, 76-84; price_setter.cpp: 279-545, 308-398, 414-422
* `Environment.v` — `esl/computation/environment.cpp`, `esl/simulation/agent_collection.cpp` — agent_collection.cpp: 40-45; environment.cpp: 60-69, 74-82, 173-176, 188-198
* `Errors.v` — `esl/simulation/model.cpp` — model.cpp: 211-240, 213-238
* `Exchange.v` — `esl/economics/markets/centralized_exchange.hpp` — market.hpp: 52; same file, further lines: 106-157, 174-190, 221-237, 245-277, 286-422, 310-420, 384-418, 411-416, 427-438, 440-550, 458-523, 578-586
* `FirstCome.v` — `esl/economics/markets/centralized_exchange.hpp`, `esl/simulation/model.cpp` — agent.cpp: 52-57; centralized_exchange.hpp: 427-550, 440-550; communicator.hpp: 221-231
* `Format.v` — `esl/data/format/delimiter_separated_values.hpp`, `esl/data/format/openbook.hpp` — delimiter_separated_values.hpp: 44-73, 76-80, 104-112, 119-128, 135-142; openbook.hpp: 45-58, 65-317, 106-316, 295, 297-299, 323-351; quote.hpp: 100-107
* `Fractions.v` — `esl/algorithms.hpp` — algorithms.hpp: 162-175, 177-192, 200-232, 205-211, 217-223
* `Identity.v` — `esl/agent.cpp`, `esl/simulation/entity.hpp`, `esl/simulation/identity.hpp` — agent.cpp: 44-50; entity.hpp: 78-85, 100-105, 121-128, 144-148; identity.hpp: 100, 202-210, 228-236, 243-248, 255-263, 269-274, 292-310, 332-341
* `ImpactSessions.v` — `esl/computation/environment.cpp`, `esl/economics/markets/impact_function/market.cpp`, `esl/simulation/model.cpp` — agent.cpp: 52-57; market.cpp: 45-151, 56-62, 71-151, 103-121, 145-148; order.hpp: 49-57; quote_message.hpp: 57-70
* `Interval.v` — `esl/mathematics/interval.hpp`, `esl/simulation/time.hpp` — interval.hpp: 97-116, 121-135, 140-143, 149-153; time.hpp: 39-51, 50-51
* `Inventory.v` — `esl/economics/accounting/cash_flow_statement.hpp`, `esl/economics/accounting/inventory.hpp`, `esl/economics/owner.hpp` — cash_flow_statement.hpp: 40-54; communicator.cpp: 60-75; inventory.hpp: 187-195, 204-217, 227-237, 240-259; owner.hpp: 68-96, 194-238, 202-219, 222-233, 252-257; property_collection.hpp: 43-80, 118-137; transfer.hpp: 52-68; same file, further lines: 64-74, 64-81, 75-79, 90-95, 97-102, 110-112
* `LegalEntity.v` — `esl/law/legal_entity.hpp` — legal_entity.hpp: 75-103
* `Markets.v` — `esl/economics/markets/impact_function/market.cpp`, `esl/economics/markets/walras/price_setter.cpp` — communicator.hpp: 103-109; environment.cpp: 150; market.cpp: 45-64, 45-182, 71-151, 90-101, 153-181, 159-172, 174-178; order.hpp: 38-43, 45; price_setter.cpp: 58-163, 72-91, 101-163, 107-117, 279-304, 279-306
* `MatchingEngine.v` — `esl/economics/markets/order_book/matching_engine.hpp` — matching_engine.hpp: 41-85, 67-75, 77-85
* `Messages.v` — `esl/interaction/message.hpp` — cancel_order_message.hpp: 37; communicator.hpp: 189-202; differentiable_order_message.hpp: 45, 56-58; dividend.hpp: 108, 112-120, 152-168; execution_report_message.hpp: 37; header.hpp: 130-143; logon_message.hpp: 39; logout_message.hpp: 37; market_data_message.hpp: 36; market_data_request_message.hpp: 40, 68-85; message.hpp: 42-55; new_order_list_message.hpp: 39; new_order_single_message.hpp: 37; order.hpp: 38, 49-57; order_message.hpp: 44-53, 60-66; order_status_request_message.hpp: 37; order_status_response_message.hpp: 36, 39-51; position_request_message.hpp: 36-42, 38; python_module_esl.cpp: 1029-1046, 1031; python_module_markets.hpp: 33-37, 34; quote.hpp: 35, 37-38; quote_message.hpp: 39, 41-53, 57-70; replace_order_message.hpp: 35-40, 37; transfer.hpp: 53, 76-92
* `Money.v` — `esl/economics/exchange_rate.hpp`, `esl/economics/iso_4217.hpp`, `esl/economics/markets/quote.hpp`, `esl/economics/markets/ticker.hpp`, `esl/economics/price.hpp`, `esl/economics/rate.hpp`, `esl/interaction/header.hpp`, `esl/mathematics/rational.hpp` — exchange_rate.hpp: 142-145; header.hpp: 46-67; identity.hpp: 468-490; iso_4217.hpp: 46-56, 73-85, 98-103, 105-110, 113-125, 139-165, 186-191; price.hpp: 38-44, 65-84, 129-137, 139-159, 161-172, 224-229, 231-239, 329-346; quote.hpp: 50-107, 152-243, 231-243, 345-369; rational.hpp: 40-58; ticker.hpp: 49-94, 110-121
* `OrderLog.v` — `esl/economics/markets/centralized_exchange.hpp` — centralized_exchange.hpp: 201-212, 350-362; same file, further lines: 310-362, 353-361
* `Outputs.v` — `esl/computation/environment.cpp`, `esl/data/representation.hpp` — channel.hpp: 102-114, 122-126, 146-154; environment.cpp: 97-99, 97-128; log.hpp: 116-134, 144-150; null_streambuf.hpp: 48-66; output.hpp: 57-60, 67-74, 81-88; output_base.hpp: 53-70, 62-64, 74-80; producer.hpp: 44, 46-53, 59-67, 69-98; representation.hpp: 53-70, 173-201, 213-226, 233-246; severity.hpp: 33-58
* `Ownership.v` — `esl/computation/environment.cpp`, `esl/economics/owner.hpp`, `esl/simulation/model.cpp` — owner.hpp: 57-62, 68-96, 99-102; transfer.hpp: 52-92
* `Parametrization.v` — `esl/simulation/model.cpp`, `esl/simulation/parameter/parametrization.hpp` — model.cpp: 38-53, 38-55; parametrization.hpp: 49-65; same file, further lines: 75-89
* `Persons.v` — `esl/economics/company.hpp`, `esl/economics/finance/shareholder.hpp`, `esl/economics/owner.hpp`, `esl/law/legal_entity.hpp`, `esl/law/legal_person.hpp`, `esl/law/organization.hpp` — company.cpp: 82-99; company.hpp: 65-103, 70, 75-77, 101, 103, 159-172; legal_entity.hpp: 178-186; legal_person.hpp: 50-162, 54, 61-65, 102-122, 124-143, 145-152; organization.hpp: 54-59; owner.hpp: 107-115, 193, 260-269; shareholder.hpp: 55-106, 65-66, 81, 90-91, 100-106
* `PoolCopies.v` — `esl/computation/block_pool.hpp` — block_pool.hpp: 79-150; static_order_book.hpp: 543-545; same file, further lines: 40-68, 93-133, 209-250, 257-296, 301-304
* `Population.v` — `esl/computation/environment.cpp`, `esl/simulation/agent_collection.cpp`, `esl/simulation/agent_collection.hpp` — agent_collection.cpp: 33-60, 40-45, 47-52, 54-60; agent_collection.hpp: 56-96, 76-88; environment.cpp: 60-69, 60-82, 63-66, 74-82, 144-152, 170-270, 187-198, 195-197, 202-253, 222-224; environment.hpp: 57-64; model.cpp: 45, 90-255, 102-247, 193-208
* `Prices.v` — `esl/algorithms.hpp`, `esl/economics/markets/quote.hpp`, `esl/economics/money.hpp`, `esl/economics/price.hpp` — algorithms.hpp: 149-153; money.hpp: 88-94; price.hpp: 90-96, 90-120, 161-172, 161-267, 174-177, 179-190, 193-204, 206-217, 241-244, 249-267; quote.hpp: 100-137, 109-116, 131-137, 246-296, 246-342
* `Quantity.v` — `esl/quantity.hpp` — quantity.hpp: 89-109, 123-133, 149-153, 169-175, 262-285, 317-321, 323-327, 329-332, 334-337
* `Quoting.v` — `esl/economics/markets/order_book/avellaneda_stoikov.hpp` — avellaneda_stoikov.hpp: 57-82, 68, 69, 70-71, 70-81, 75-78
* `Races.v` — `esl/simulation/agent_collection.cpp`, `esl/simulation/agent_collection.hpp`, `esl/simulation/identity.hpp`, `esl/simulation/model.cpp` — agent_collection.cpp: 40-45, 42-44; agent_collection.hpp: 76-90, 79-87; environment.cpp: 173-176; identity.hpp: 332-342, 337, 337-338; model.cpp: 114-180, 217-238, 226-233
* `Randomness.v` — `esl/interaction/communication.hpp`, `esl/mathematics/zero_truncated_poisson_distribution.hpp` — communication.hpp: 96-106; zero_truncated_poisson_distribution.hpp: 59-64
* `Rates.v` — `esl/economics/exchange_rate.hpp`, `esl/economics/interest_rate.hpp`, `esl/economics/rate.hpp` — exchange_rate.hpp: 42, 42-49, 61-65, 73-77; interest_rate.hpp: 89-92; rate.hpp: 50-54, 69, 69-75
* `Sampler.v` — `esl/simulation/parameter/sampler.hpp` — sampler.hpp: 91-123, 97-99, 103-106, 110-115, 117-120, 132-166, 147-151, 210-244, 217, 226-230, 235, 262-358, 272-307, 311-353, 313-321, 323-329, 334-352
* `Sessions.v` — `esl/computation/environment.cpp`, `esl/economics/markets/walras/price_setter.cpp`, `esl/simulation/model.cpp` — agent.cpp: 52-57; communicator.hpp: 221-231; differentiable_order_message.hpp: 42-58; owner.hpp: 68-102; price_setter.cpp: 58-162, 84-90, 101-162, 133, 153-159, 526-545; quote_message.hpp: 41-52; transfer.hpp: 76-92
* `Simulation.v` — `esl/computation/environment.cpp`, `esl/simulation/agent_collection.hpp`, `esl/simulation/model.cpp` — agent.hpp: 41-75; environment.cpp: 134-168, 202-270; model.cpp: 67-85, 90-255, 102-247, 102-250, 114-190, 193-208, 217-238; model.hpp: 45-120; same file, further lines: 138-141, 172-180
* `StaticBook.v` — `esl/economics/markets/order_book/static_order_book.hpp` — basic_book.hpp: 51; order.hpp: 48-59; static_order_book.hpp: 48-73; same file, further lines: 78-132, 215-250, 280-295, 303-324, 334-429, 405-423, 436-582, 487-492, 516-582, 590-673
* `StaticTicks.v` — `esl/economics/markets/order_book/static_order_book.hpp`, `esl/economics/markets/quote.hpp`, `esl/economics/price.hpp` — price.hpp: 90-96, 241-244; quote.hpp: 109-115, 131-137; static_order_book.hpp: 148-153, 148-203, 169-187, 194-203, 469-482
* `Streams.v` — `esl/economics/iso_4217.hpp`, `esl/economics/markets/centralized_exchange.hpp`, `esl/economics/markets/order_book/execution_report.hpp`, `esl/economics/markets/order_book/order.hpp`, `esl/economics/markets/quote.hpp`, `esl/economics/markets/ticker.hpp`, `esl/economics/price.hpp`, `esl/mathematics/interval.hpp`, `esl/quantity.hpp`, `esl/simulation/identity.hpp` — centralized_exchange.hpp: 159-167; execution_report.hpp: 38-43, 120-128, 147-174; identity.hpp: 292-310; interval.hpp: 175-183; iso_4217.hpp: 173-177; order.hpp: 115-120; price.hpp: 292-305, 292-318, 299, 312-318; quantity.hpp: 198-254, 304-308; quote.hpp: 397-406; ticker.hpp: 100-105
* `Tatonnement.v` — `esl/economics/markets/walras/tatonnement.cpp`, `esl/economics/markets/walras/tatonnement.hpp` — tatonnement.cpp: 44-799, 144-152, 192-198, 223-256, 225-233, 240-246, 265-290, 268-273, 278-281, 299-308, 315-328, 387-799, 396-797, 397-407, 417-475, 445-461, 466-467, 476-524, 499-506, 565-628, 594-614, 706-795, 734-781; tatonnement.hpp: 72-172
* `ThreadPool.v` — `esl/computation/thread_pool.hpp` — thread_pool.hpp: 78-93; same file, further lines: 46-56, 66-98, 87, 105-107, 131-139, 169-178
* `Threads.v` — `esl/computation/environment.cpp`, `esl/simulation/model.cpp` — environment.cpp: 202-270; model.cpp: 90-255
* `Walras.v` — `esl/economics/markets/walras/price_setter.cpp` — money.hpp: 76-81; price.hpp: 241-244; price_setter.cpp: 171-203, 171-548, 213-267, 400-488; securities_lending_contract.hpp: 59; same file, further lines: 233-237, 239-257, 245-247, 254-256, 400-525, 404-488, 411-486, 439, 454, 467, 481, 491-525, 498-521

## Not modelled

* The bodies of the Python bindings beyond the parts in `Bindings.v` and `Messages.v`, console output and timing, file system access (`data/filesystem.hpp`; streams
  in `Outputs.v` are lists of what is written), and Boost.Serialization wire formats beyond the sequence of items each class writes (`Money.v`).
* MPI itself: collective operations, sends and receives have the meaning given in Distributed.v; serialisation of
  agents that migrate is taken to reproduce them. `DistributedRun.v` models the `run` loop of the distributed environment.
* The steps of the numerical solvers of GSL and Adept: the points they visit and the status they return are arguments in
  `Tatonnement.v`, which models everything around them; in `Walras.v` the multipliers are arguments. The variant
  without automatic differentiation does not compile (tatonnement.cpp:630-631 uses variables that are declared only with it). The functions `log`, `exp` and `pow` of the C++ library: an argument in `Quoting.v`, real
  functions in `Fractions.v`.
* Random number generators: drawn numbers are arguments.
* Thread interleavings inside `std::` primitives; critical sections are atomic, and everything outside them is one step per
  line that touches shared state (`BlockingQueue.v`, `ThreadPool.v`, `Simulation.v`).
* Creation and removal of agents while the simulation runs is modelled in `Population.v` for the single-threaded schedule; with several
  threads only the accesses and the numbering of children are (`Races.v`). Agents act as arbitrary deterministic functions of what they are given.
* Infungible inventories: `erase` of a collection passes iterators of another set and `erase_from` is a comment (`Belongings.v`).
* Code that does not compile when instantiated: `rounding::integer_away_from_zero` (algorithms.hpp), the
  `orthogonal` and `uniform_random` samplers (sampler.hpp).
