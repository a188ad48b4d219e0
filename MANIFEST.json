{
 "claims": [
  {
   "property": "C01",
   "status": "proved",
   "theorems": [
    "C01_split_conserves",
    "C01_undefined_exactly_for_zero"
   ],
   "note": "(in Quantity_props.v)"
  },
  {
   "property": "C02",
   "status": "proved",
   "theorems": [
    "C02_subtraction",
    "C02_ledger"
   ],
   "note": "(in Quantity_props.v)"
  },
  {
   "property": "C03",
   "status": "proved",
   "theorems": [
    "C03_add_exact_or_wraps",
    "C03_mul_exact_or_wraps",
    "C03_ring_laws"
   ],
   "note": "(in Quantity_props.v)"
  },
  {
   "property": "C04",
   "status": "partial",
   "theorems": [
    "C04_postfix_decrement",
    "C04_prefix_decrement_refuted",
    "C04_increments"
   ],
   "note": "Postfix decrement proved; the prefix operator increments instead (refuted for every amount). (in Quantity_props.v)"
  },
  {
   "property": "C05",
   "status": "proved",
   "theorems": [
    "C05_time_interval_is_half_open_set",
    "C05_adjacent_intervals_partition"
   ],
   "note": "(in Interval_props.v)"
  },
  {
   "property": "C06",
   "status": "partial",
   "theorems": [
    "C06_contains",
    "C06_empty_exactly_when",
    "C06_singleton_exactly_when",
    "C06_degenerate_exactly_when",
    "C06_empty_refuted"
   ],
   "note": "Membership proved; empty()/singleton() agree with membership exactly for half-open kinds or non-boundary widths (iff theorems); refuted for closed and open kinds. (in Interval_props.v)"
  },
  {
   "property": "C07",
   "status": "proved",
   "theorems": [
    "C07_identity_total_order",
    "C07_families_contiguous"
   ],
   "note": "(in Identity_props.v)"
  },
  {
   "property": "C08",
   "status": "proved",
   "theorems": [
    "C08_fresh_identities",
    "C08_exact_identities"
   ],
   "note": "(in Identity_props.v)"
  },
  {
   "property": "C09",
   "status": "partial",
   "theorems": [
    "C09_copies_refuted",
    "C09_copy_starts_again",
    "C09_every_copy_collides_refuted",
    "C09_entity_copy_refuted"
   ],
   "note": "Refuted: agent copies restart the child counter. Without copies see C08. (in Identity_props.v)"
  },
  {
   "property": "C10",
   "status": "proved",
   "theorems": [
    "C10_print_reads_back",
    "C10_print_injective"
   ],
   "note": "(in Identity_props.v)"
  },
  {
   "property": "C11",
   "status": "proved",
   "theorems": [
    "C11_callbacks_run_by_priority",
    "C11_every_callback_once"
   ],
   "note": "(in Communicator_props.v)"
  },
  {
   "property": "C12",
   "status": "proved",
   "theorems": [
    "C12_due_messages_processed_once"
   ],
   "note": "(in Communicator_props.v)"
  },
  {
   "property": "C13",
   "status": "partial",
   "theorems": [
    "C13_ties_are_handled_latest_first",
    "C13_arrival_order_refuted"
   ],
   "note": "Refuted: messages of equal priority are handled latest first; the exact order is proved. (in Communicator_props.v)"
  },
  {
   "property": "C14",
   "status": "proved",
   "theorems": [
    "C14_locked_registration_rejected",
    "C14_locking_changes_no_handling",
    "C14_registration_affects_its_type_only",
    "C14_unlocked_registration_accepted"
   ],
   "note": "(in Communicator_props.v)"
  },
  {
   "property": "C15",
   "status": "proved",
   "theorems": [
    "C15_exactly_once_delivery",
    "C15_unknown_recipient_reported"
   ],
   "note": "(in Simulation_props.v)"
  },
  {
   "property": "C16",
   "status": "proved",
   "theorems": [
    "C16_recipients_are_scheduled"
   ],
   "note": "(in Simulation_props.v)"
  },
  {
   "property": "C17",
   "status": "proved",
   "theorems": [
    "C17_exactly_the_due_agents_act",
    "C17_messages_then_act",
    "C17_each_once",
    "C17_round_acts"
   ],
   "note": "(in Simulation_props.v)"
  },
  {
   "property": "C18",
   "status": "proved",
   "theorems": [
    "C18_any_interleaving_same_result",
    "C18_chunks",
    "C18_threaded_steps"
   ],
   "note": "(in Simulation_props.v)"
  },
  {
   "property": "C19",
   "status": "proved",
   "theorems": [
    "C19_step_advances_time",
    "C19_empty_interval_rejected"
   ],
   "note": "(in Simulation_props.v)"
  },
  {
   "property": "C20",
   "status": "partial",
   "theorems": [
    "C20_future_steps_terminate",
    "C20_ranked_steps_terminate",
    "C20_stuck_steps_never_return",
    "C20_step_terminates_refuted"
   ],
   "note": "Proved under the stated condition (one round) and for any decreasing rank; nothing enforces the condition, and a delivery time in the past makes the step hang (refuted, and exact non-termination condition proved). (in Simulation_props.v)"
  },
  {
   "property": "C21",
   "status": "proved",
   "theorems": [
    "C21_run_visits_increasing_times",
    "C21_empty_run_rejected"
   ],
   "note": "(in Simulation_props.v)"
  },
  {
   "property": "C22",
   "status": "partial",
   "theorems": [
    "C22_named_parameters",
    "C22_threads_refuted",
    "C22_threads_are_the_verbosity",
    "C22_missing_parameter_reported",
    "C22_assignment",
    "C22_types",
    "C22_model_needs"
   ],
   "note": "Refuted for the number of threads, which is taken from the verbosity; all other parameters and the error cases proved. (in Parametrization_props.v)"
  },
  {
   "property": "C23",
   "status": "proved",
   "theorems": [
    "C23_live_elements",
    "C23_store_and_erase"
   ],
   "note": "(in BlockPool_props.v)"
  },
  {
   "property": "C24",
   "status": "partial",
   "theorems": [
    "C24_double_erase_harmless_refuted",
    "C24_double_erase_corrupts",
    "C24_stale_handle_ignored"
   ],
   "note": "Refuted: erasing twice makes two later elements share a slot; exact effect proved; stale handles (slot re-used, index set) are ignored as proved. (in BlockPool_props.v)"
  },
  {
   "property": "C25",
   "status": "proved",
   "theorems": [
    "C25_fifo_nothing_lost",
    "C25_pop_false_only_when_closed",
    "C25_closed_iff",
    "C25_pop_false_after_close",
    "C25_no_lost_wakeup",
    "C25_woken_threads_proceed"
   ],
   "note": "(in BlockingQueue_props.v)"
  },
  {
   "property": "C26",
   "status": "proved",
   "theorems": [
    "C26_no_task_lost_or_invented",
    "C26_every_task_once",
    "C26_no_deadlock",
    "C26_workers_terminate",
    "C26_submission_accepted",
    "C26_without_threads"
   ],
   "note": "Tasks are abstract; submissions after closing starts are excluded (the destructor is running). (in ThreadPool_props.v)"
  },
  {
   "property": "C27",
   "status": "proved",
   "theorems": [
    "C27_integer_power"
   ],
   "note": "(in Algorithms_props.v)"
  },
  {
   "property": "C28",
   "status": "proved",
   "theorems": [
    "C28_concatenation",
    "C28_slice",
    "C28_seam",
    "C28_enumerate"
   ],
   "note": "(in Algorithms_props.v)"
  },
  {
   "property": "C29",
   "status": "proved",
   "theorems": [
    "C29_book_never_crossed"
   ],
   "note": "(in BinaryBook_props.v)"
  },
  {
   "property": "C30",
   "status": "proved",
   "theorems": [
    "C30_order_accounted_for",
    "C30_reports_come_in_pairs",
    "C30_resting_quantity_changes_by_reports",
    "C30_history_conserves"
   ],
   "note": "(in BinaryBook_props.v)"
  },
  {
   "property": "C31",
   "status": "proved",
   "theorems": [
    "C31_trade_prices"
   ],
   "note": "(in BinaryBook_props.v)"
  },
  {
   "property": "C32",
   "status": "proved",
   "theorems": [
    "C32_price_time_priority"
   ],
   "note": "(in BinaryBook_props.v)"
  },
  {
   "property": "C33",
   "status": "proved",
   "theorems": [
    "C33_identifiers_fresh"
   ],
   "note": "(in BinaryBook_props.v)"
  },
  {
   "property": "C34",
   "status": "proved",
   "theorems": [
    "C34_cancel_exact",
    "C34_cancel_exhausted_is_noop"
   ],
   "note": "(in BinaryBook_props.v)"
  },
  {
   "property": "C35",
   "status": "partial",
   "theorems": [
    "C35_orders_are_resting_plus_cancelled",
    "C35_orders_after_cancel_refuted"
   ],
   "note": "Exact characterisation proved: resting plus cancelled ids; refuted after a cancellation. (in BinaryBook_props.v)"
  },
  {
   "property": "C36",
   "status": "partial",
   "theorems": [
    "C36_lifetime_has_no_effect",
    "C36_rests_exactly_what_is_unavailable",
    "C36_fill_or_kill_refuted",
    "C36_immediate_or_cancel_refuted"
   ],
   "note": "Refuted for fill-or-kill and immediate-or-cancel: lifetimes are ignored; exact rested quantity proved. (in BinaryBook_props.v)"
  },
  {
   "property": "C37",
   "status": "proved",
   "theorems": [
    "C37_reports_reconstruct_book"
   ],
   "note": "(in BinaryBook_props.v)"
  },
  {
   "property": "C38",
   "status": "proved",
   "theorems": [
    "C38_refines_naive_book"
   ],
   "note": "(in BinaryBook_props.v)"
  },
  {
   "property": "C39",
   "status": "proved",
   "theorems": [
    "C39_books_are_isolated",
    "C39_other_books_unchanged",
    "C39_cancel_for_unknown_ticker",
    "C39_one_book_per_ticker"
   ],
   "note": "(in MatchingEngine_props.v)"
  },
  {
   "property": "C40",
   "status": "partial",
   "theorems": [
    "C40_highest_price_refuted",
    "C40_below_highest",
    "C40_single_ticks_refuted",
    "C40_small_lots_refuted",
    "C40_doubles_refuted",
    "C40_doubles",
    "C40_highest_price_doubles_refuted"
   ],
   "note": "Proved for prices below the highest with at least two units per tick, in exact arithmetic and, up to one unit when a level is decoded, in double precision; refuted for the highest price (always), for single-unit ticks, small lots and for exact decoding in double precision. (in StaticTicks_props.v)"
  },
  {
   "property": "C41",
   "status": "partial",
   "theorems": [
    "C41_all_or_nothing_refuted",
    "C41_crossing_is_good_until_cancelled",
    "C41_not_crossing_is_cancelled",
    "C41_guarded"
   ],
   "note": "Refuted: fill-or-kill orders are handled like good-until-cancelled ones when they cross; exact effect of both cases proved; C41_guarded: all or nothing whenever everything or nothing is available, in all histories. (in StaticBook_props.v, StaticMatch_props.v)"
  },
  {
   "property": "C42",
   "status": "partial",
   "theorems": [
    "C42_after_cancel_refuted",
    "C42_crossed_refuted",
    "C42_lowest_ask_refuted",
    "C42_lowest_bid_refuted",
    "C42_quotes"
   ],
   "note": "Refuted after a cancellation that empties the best level, for prices at the first and last level; C42_quotes proves it for all histories that avoid these (the guard of C78). (in StaticBook_props.v, StaticMatch_props.v)"
  },
  {
   "property": "C43",
   "status": "proved",
   "theorems": [
    "C43_prices_never_silently_compared"
   ],
   "note": "(in Money_props.v)"
  },
  {
   "property": "C44",
   "status": "partial",
   "theorems": [
    "C44_quotes_ordered_by_price",
    "C44_lots_checked",
    "C44_lot_is_positive",
    "C44_greater_equal_refuted"
   ],
   "note": "Proved for all quotes whose scaled value fits 64 bits and for every operator but >=, which lacks the lot check (refuted). (in Money_props.v)"
  },
  {
   "property": "C45",
   "status": "partial",
   "theorems": [
    "C45_rate_truncates",
    "C45_integral_rate",
    "C45_negative_prices_always_wrong_refuted",
    "C45_large_product_refuted"
   ],
   "note": "Proved for non-negative prices with p*n < 2^64 and for integral rates; refuted for every negative price with a non-zero exact result and d >= 2, and for large products. (in Money_props.v)"
  },
  {
   "property": "C46",
   "status": "partial",
   "theorems": [
    "C46_currency_strict_order",
    "C46_same_denominator_agrees",
    "C46_equality",
    "C46_hash_separates_codes",
    "C46_denominators_refuted"
   ],
   "note": "Strict weak order on the code; agrees with equality for equal denominators; refuted for one code with two denominators. (in Money_props.v)"
  },
  {
   "property": "C47",
   "status": "proved",
   "theorems": [
    "C47_ticker_strict_total_order",
    "C47_ticker_operators_agree"
   ],
   "note": "(in Money_props.v)"
  },
  {
   "property": "C48",
   "status": "partial",
   "theorems": [
    "C48_library_codes",
    "C48_every_high_code_is_a_library_code",
    "C48_boundary_offset_refuted"
   ],
   "note": "Proved for all offsets below 2^63; the compile-time guard also admits 2^63 itself, where the claim is refuted. (in Money_props.v)"
  },
  {
   "property": "C49",
   "status": "partial",
   "theorems": [
    "C49_currency_restored",
    "C49_rational_restored_in_range",
    "C49_rational_refuted",
    "C49_quote_refuted",
    "C49_price_refuted",
    "C49_price_text"
   ],
   "note": "Currencies and rationals within 32 bits are restored; refuted for larger rationals, for prices and for quotes. (in Money_props.v, Streams_props.v)"
  },
  {
   "property": "C50",
   "status": "proved",
   "theorems": [
    "C50_transferor",
    "C50_transferee",
    "C50_conserved",
    "C50_others_untouched"
   ],
   "note": "Conservation holds below 2^64 units per property; the transferee side is exact modulo 2^64. (in Inventory_props.v)"
  },
  {
   "property": "C51",
   "status": "partial",
   "theorems": [
    "C51_rejected_unchanged_refuted",
    "C51_rejected_removes_a_prefix",
    "C51_single_property"
   ],
   "note": "Refuted: what precedes the missing property in iteration order is removed; exact effect and the single-property case proved. (in Inventory_props.v)"
  },
  {
   "property": "C52",
   "status": "partial",
   "theorems": [
    "C52_repeated_take_refuted",
    "C52_self_transfer_refuted",
    "C52_zero_quantity_refuted",
    "C52_views_agree",
    "C52_covered_transfers_complete"
   ],
   "note": "Refuted by a repeated take, by a transfer to oneself and (undefined behaviour) by a listed quantity of zero; proved for every other history. (in Inventory_props.v)"
  },
  {
   "property": "C53",
   "status": "proved",
   "theorems": [
    "C53_figures",
    "C53_adds_up",
    "C53_other_currency"
   ],
   "note": "For entries recorded in any order. The magnitudes of the entries in the interval are assumed to add up to less than 2^63. An entry of the interval in another currency fails an assertion; the outcome is stated as undefined. (in Inventory_props.v)"
  },
  {
   "property": "C54",
   "status": "proved",
   "theorems": [
    "C54_luhn",
    "C54_single_digit",
    "C54_transposition"
   ],
   "note": "Both directions for transpositions; Luhn test stated on the expanded digits; letters for letters are outside the claim (an Example shows they can go undetected). (in CheckDigits_props.v)"
  },
  {
   "property": "C55",
   "status": "proved",
   "theorems": [
    "C55_accepted_iff",
    "C55_check_digit",
    "C55_single_digit"
   ],
   "note": "(in CheckDigits_props.v)"
  },
  {
   "property": "C56",
   "status": "proved",
   "theorems": [
    "C56_check_digit",
    "C56_single_digit"
   ],
   "note": "(in CheckDigits_props.v)"
  },
  {
   "property": "C57",
   "status": "partial",
   "theorems": [
    "C57_mod_97",
    "C57_substitution",
    "C57_substitution_refuted",
    "C57_default_refuted",
    "C57_created_valid"
   ],
   "note": "Refuted for the substitution of a letter for a digit (or back) and for default-constructed identifiers; congruence, digits, absence of overflow and detection within a symbol class proved. (in CheckDigits_props.v)"
  },
  {
   "property": "C58",
   "status": "partial",
   "theorems": [
    "C58_text_refuted",
    "C58_what_is_stored",
    "C58_right_iff",
    "C58_printed"
   ],
   "note": "Refuted: the national code stored is the country followed by seven characters; exact result proved. (in CheckDigits_props.v)"
  },
  {
   "property": "C59",
   "status": "partial",
   "theorems": [
    "C59_identifiers_differ",
    "C59_isin_refuted",
    "C59_isin_siblings"
   ],
   "note": "Identifiers proved distinct; refuted for ISIN codes of companies of different parents; proved for siblings below the size of the code. (in CheckDigits_props.v)"
  },
  {
   "property": "C60",
   "status": "proved",
   "theorems": [
    "C60_allocation",
    "C60_defined",
    "C60_truncated_exactly",
    "C60_truncated"
   ],
   "note": "(in Walras_props.v)"
  },
  {
   "property": "C61",
   "status": "partial",
   "theorems": [
    "C61_exact",
    "C61_netting_refuted",
    "C61_defined"
   ],
   "note": "Refuted: amounts no larger than the offsetting ones stay due after netting; exact effect and absence of undefined behaviour proved. (in Walras_props.v)"
  },
  {
   "property": "C62",
   "status": "proved",
   "theorems": [
    "C62_prices"
   ],
   "note": "(in Walras_props.v)"
  },
  {
   "property": "C63",
   "status": "partial",
   "theorems": [
    "C63_snapshot_streams_refuted",
    "C63_time_zero_refuted"
   ],
   "note": "Refuted both ways: at times from 1 on every later move leads to an update; at time 0 there is none. (in Exchange_props.v)"
  },
  {
   "property": "C64",
   "status": "partial",
   "theorems": [
    "C64_never_recorded_refuted"
   ],
   "note": "Refuted for every history: no position is ever recorded. (in Exchange_props.v)"
  },
  {
   "property": "C65",
   "status": "proved",
   "theorems": [
    "C65_reports_once",
    "C65_order"
   ],
   "note": "Proved for every history; reports of cancellations wait for the next order (see C84). (in Exchange_props.v)"
  },
  {
   "property": "C66",
   "status": "partial",
   "theorems": [
    "C66_once",
    "C66_date_zero_refuted",
    "C66_next_in_past_refuted",
    "C66_next_exactly",
    "C66_wakes_in_time"
   ],
   "note": "Exactly-once proved for positive, non-decreasing dates; refuted for date 0; the next activation is in the past between announcement and payable date (refuted), not otherwise. (in Company_props.v)"
  },
  {
   "property": "C67",
   "status": "partial",
   "theorems": [
    "C67_every_combination_once",
    "C67_points",
    "C67_number",
    "C67_single_point_refuted"
   ],
   "note": "Combinations proved for any arithmetic, points in exact arithmetic; refuted for single-point parameters in double precision. (in Sampler_props.v)"
  },
  {
   "property": "C68",
   "status": "proved",
   "theorems": [
    "C68_latin"
   ],
   "note": "The scores of candidates, computed in floating point, are an arbitrary function; vector sizes below 2^32. (in Sampler_props.v)"
  },
  {
   "property": "C69",
   "status": "proved",
   "theorems": [
    "C69_row_round_trip",
    "C69_field_round_trip",
    "C69_plain"
   ],
   "note": "(in Format_props.v)"
  },
  {
   "property": "C70",
   "status": "partial",
   "theorems": [
    "C70_refuted",
    "C70_without_delimiters",
    "C70_table"
   ],
   "note": "Refuted: nothing is escaped; proved for texts without the delimiter. (in Format_props.v)"
  },
  {
   "property": "C71",
   "status": "partial",
   "theorems": [
    "C71_refuted",
    "C71_early"
   ],
   "note": "Refuted from 2^32 microseconds after midnight on; proved before. (in Format_props.v)"
  },
  {
   "property": "C72",
   "status": "proved",
   "theorems": [
    "C72_accepted_iff",
    "C72_rejected",
    "C72_kept_and_distinct"
   ],
   "note": "(in CheckDigits_props.v)"
  },
  {
   "property": "C73",
   "status": "partial",
   "theorems": [
    "C73_activation_needs_spare_capacity",
    "C73_run_after_creating_agents_refuted"
   ],
   "note": "Refuted for every number of agents with vectors that at most double; exact condition proved. (in Environment_props.v)"
  },
  {
   "property": "C74",
   "status": "partial",
   "theorems": [
    "C74_time_never_advances",
    "C74_second_step_does_nothing",
    "C74_stepping_reaches_the_end_refuted"
   ],
   "note": "Refuted: time never advances and the second step does nothing. (in Environment_props.v)"
  },
  {
   "property": "C75",
   "status": "partial",
   "theorems": [
    "C75_erase_ignores_handles",
    "C75_erase_by_returned_handle_refuted"
   ],
   "note": "Refuted: emplace never records the handle in the block, so erase by that handle does nothing; proved for all pools. (in BlockPool_props.v)"
  },
  {
   "property": "C76",
   "status": "partial",
   "theorems": [
    "C76_samples_are_grid_points",
    "C76_all_grid_points_refuted",
    "C76_double_precision_refuted"
   ],
   "note": "Refuted: the corners other than the first are always missing, and in double precision further points are lost; the exact set sampled in exact arithmetic is proved. (in Algorithms_props.v)"
  },
  {
   "property": "C77",
   "status": "partial",
   "theorems": [
    "C77_filled_refuted",
    "C77_twice_throws",
    "C77_filled_alone"
   ],
   "note": "Refuted for an order that has been filled; a second cancellation throws. (in StaticBook_props.v)"
  },
  {
   "property": "C78",
   "status": "proved",
   "theorems": [
    "C78_levels_faithful",
    "C78_insert",
    "C78_determined",
    "C78_cancel",
    "C78_orders",
    "C78_not_crossed"
   ],
   "note": "Full refinement: representation invariant of pool, linked level queues and best pointers against the ledger of the reports; specification determines the reports (C78_determined); the levels of the code in exact arithmetic with two levels a unit meet the hypothesis (C78_levels_faithful). (in StaticMatch_props.v)"
  },
  {
   "property": "C79",
   "status": "partial",
   "theorems": [
    "C79_one_property",
    "C79_market_is_flat",
    "C79_second_purchase_refuted"
   ],
   "note": "Refuted for a participant that buys two properties (only the first is sent); proved for one property. (in Walras_props.v)"
  },
  {
   "property": "C80",
   "status": "partial",
   "theorems": [
    "C80_exact",
    "C80_doubles_refuted",
    "C80_doubles"
   ],
   "note": "Proved in exact arithmetic; in double precision proved up to one unit, and refuted to be exact. (in Walras_props.v)"
  },
  {
   "property": "C81",
   "status": "partial",
   "theorems": [
    "C81_cash_balances",
    "C81_doubles_refuted",
    "C81_doubles_bound",
    "C81_shorts_refuted"
   ],
   "note": "Proved in exact arithmetic for one property, unit lots and no short positions; in double precision the difference is bounded by the numbers of buyers and sellers, and refuted to be zero; refuted for closed short positions. (in Walras_props.v)"
  },
  {
   "property": "C82",
   "status": "partial",
   "theorems": [
    "C82_seller_buys_refuted",
    "C82_large_demands"
   ],
   "note": "Refuted; proved for truncated demands that are at least as large as the corrections. (in Walras_props.v)"
  },
  {
   "property": "C83",
   "status": "partial",
   "theorems": [
    "C83_stream_ignored_refuted",
    "C83_stream"
   ],
   "note": "Refuted when nobody has asked for a snapshot of the ticker; proved otherwise. (in Exchange_props.v)"
  },
  {
   "property": "C84",
   "status": "partial",
   "theorems": [
    "C84_cancellation_silent_refuted"
   ],
   "note": "Refuted: a cancellation never sends a message. (in Exchange_props.v)"
  },
  {
   "property": "C85",
   "status": "partial",
   "theorems": [
    "C85_latency_of_sender",
    "C85_refuted"
   ],
   "note": "Refuted: the exact delay proved is that of the agent whose order is being handled. (in Exchange_props.v)"
  },
  {
   "property": "C86",
   "status": "partial",
   "theorems": [
    "C86_cancelled",
    "C86_unsubscribed_refuted"
   ],
   "note": "Stopping proved; refuted (undefined behaviour) without a subscription. (in Exchange_props.v)"
  },
  {
   "property": "C87",
   "status": "partial",
   "theorems": [
    "C87_all_updates",
    "C87_few_decimals_refuted",
    "C87_many_decimals_refuted"
   ],
   "note": "Refuted for prices with fewer than two (exception) or more than eleven (undefined behaviour) decimals; proved for all other files (times: see C71). (in Format_props.v)"
  },
  {
   "property": "C88",
   "status": "partial",
   "theorems": [
    "C88_line_break_refuted",
    "C88_otherwise"
   ],
   "note": "Refuted for texts without delimiter, quote and escape character (C88_line_break_refuted): a line break alone is not protected. C88_otherwise: records in which each text with a line break contains a delimiter or an escape character are read back by a reader that keeps quoted line breaks. (in Format_props.v)"
  },
  {
   "property": "C89",
   "status": "proved",
   "theorems": [
    "C89_main_session"
   ],
   "note": "For times before 2^32 microseconds (C71) and price scales as in C87. (in Format_props.v)"
  },
  {
   "property": "C90",
   "status": "partial",
   "theorems": [
    "C90_latin",
    "C90_single_refuted"
   ],
   "note": "Proved for any arithmetic; refuted for a single sample in double precision (not-a-number). (in Sampler_props.v)"
  },
  {
   "property": "C91",
   "status": "partial",
   "theorems": [
    "C91_told_early_refuted",
    "C91_sent",
    "C91_delivery_refuted"
   ],
   "note": "Refuted: nothing is sent after an early announcement, records are repeated by every other announcement in the step, and the delivery time is 0; what is sent is proved. (in Company_props.v)"
  },
  {
   "property": "C92",
   "status": "partial",
   "theorems": [
    "C92_shares",
    "C92_total_refuted",
    "C92_double_refuted",
    "C92_doubles"
   ],
   "note": "Class amounts proved in exact arithmetic, and up to one unit in double precision (exactness refuted); the total of the policy is refuted (shares multiplied twice). (in Company_props.v)"
  },
  {
   "property": "C93",
   "status": "partial",
   "theorems": [
    "C93_holdings",
    "C93_classes",
    "C93_unknown_refuted"
   ],
   "note": "Proved modulo 2^64 when every share class held has a stock; otherwise undefined behaviour (refuted). (in Company_props.v)"
  },
  {
   "property": "C94",
   "status": "partial",
   "theorems": [
    "C94_bond_refuted",
    "C94_share"
   ],
   "note": "Refuted for bondholders (first quote) and for the currency of shareholders; exact results proved. (in Company_props.v)"
  },
  {
   "property": "C95",
   "status": "partial",
   "theorems": [
    "C95_exact",
    "C95_out_of_range",
    "C95_mixed_aborts",
    "C95_mixed_refuted",
    "C95_quotes",
    "C95_products"
   ],
   "note": "Exactness proved; mixed currencies abort with assertions and are added up without (refuted). (in Prices_props.v)"
  },
  {
   "property": "C96",
   "status": "partial",
   "theorems": [
    "C96_at_most_one_unit",
    "C96_power_of_two",
    "C96_cents_refuted",
    "C96_too_large"
   ],
   "note": "Refuted: 29 cents becomes 28. Proved: at most one unit is lost, towards zero (values below 2^52), and none when the denominator is a power of two. (in Prices_props.v)"
  },
  {
   "property": "C97",
   "status": "partial",
   "theorems": [
    "C97_units",
    "C97_amount_refuted",
    "C97_scaling"
   ],
   "note": "Refuted for every currency with smaller units: the double is a number of units. What is computed is proved for integers up to 2^53. (in Prices_props.v)"
  },
  {
   "property": "C98",
   "status": "partial",
   "theorems": [
    "C98_divided_by_lot",
    "C98_larger_lots_refuted"
   ],
   "note": "Refuted for every lot of two or more: the value is divided by the lot. Proved: exact error bound. (in Prices_props.v)"
  },
  {
   "property": "C99",
   "status": "proved",
   "theorems": [
    "C99_everyone_learns",
    "C99_new_agent_found"
   ],
   "note": "Proved for all clusters, with the example of agents created on one process. (in Distributed_props.v)"
  },
  {
   "property": "C100",
   "status": "partial",
   "theorems": [
    "C100_defined_exactly",
    "C100_nothing_deactivated_refuted",
    "C100_second_time_refuted",
    "C100_forgets_exactly",
    "C100_not_told_refuted",
    "C100_removed"
   ],
   "note": "Refuted: the exchange is defined exactly when every process has deactivated as many agents as there are processes (so it is undefined in an ordinary step, and always the second time); then the process of rank r is told only about the r-th of each list. What is forgotten is proved. (in Distributed_props.v)"
  },
  {
   "property": "C101",
   "status": "partial",
   "theorems": [
    "C101_agents_arrive",
    "C101_address_books",
    "C101_to_itself_refuted",
    "C101_absent_refuted",
    "C101_no_such_process_refuted"
   ],
   "note": "Proved for proposals to move agents that are there to other processes, for all interleavings (buffered or not). Refuted: an agent sent to its own process is lost, and a process waits for ever for an agent that is not where the proposal says. (in Distributed_props.v)"
  },
  {
   "property": "C102",
   "status": "partial",
   "theorems": [
    "C102_same_process",
    "C102_other_process_refuted",
    "C102_unknown_recipient_refuted"
   ],
   "note": "Refuted: messages to agents on other processes vanish and messages to unknown agents are undefined. Delivery within a process is proved. (in Distributed_props.v)"
  },
  {
   "property": "C103",
   "status": "proved",
   "theorems": [
    "C103_home"
   ],
   "note": "Proved for the migration itself; run never calls it with an advanced time. (in Distributed_props.v)"
  },
  {
   "property": "C104",
   "status": "partial",
   "theorems": [
    "C104_best_candidate",
    "C104_many_samples_refuted"
   ],
   "note": "Proved for up to 65536 samples and any score function below the largest double. Refuted beyond: coordinates that differ by a multiple of 65536 count as equal. (in Sampler_props.v)"
  },
  {
   "property": "C105",
   "status": "partial",
   "theorems": [
    "C105_increasing",
    "C105_sends_exactly",
    "C105_first",
    "C105_unsolved",
    "C105_second_round_refuted"
   ],
   "note": "Proved: one announcement per act, increasing dates, exact condition for sending. Refuted: quotes that change in a second round of a time step are never sent. (in Markets_props.v)"
  },
  {
   "property": "C106",
   "status": "partial",
   "theorems": [
    "C106_no_orders_refuted",
    "C106_impact_refuted",
    "C106_stale_refuted",
    "C106_orders_go_on",
    "C106_simulation_stops"
   ],
   "note": "Refuted: both markets ask to act again at the same time, and then no step at that time ends (C106_simulation_stops holds for any agent doing so in any model). (in Markets_props.v)"
  },
  {
   "property": "C107",
   "status": "partial",
   "theorems": [
    "C107_counted_exactly",
    "C107_hidden_refuted",
    "C107_early_refuted"
   ],
   "note": "Exact characterisation of the orders counted. Refuted: orders behind one of an earlier step are ignored; orders count before they are delivered. (in Markets_props.v)"
  },
  {
   "property": "C108",
   "status": "partial",
   "theorems": [
    "C108_prices_never_move_refuted",
    "C108_first",
    "C108_untraded_refuted",
    "C108_volume_exactly",
    "C108_buying_refuted"
   ],
   "note": "Refuted: quotes never move; side and volume are mixed up, so buying has no effect; an order for a property that is not traded has it quoted at zero. Exact volumes and the first quotes proved. (in Markets_props.v)"
  },
  {
   "property": "C109",
   "status": "partial",
   "theorems": [
    "C109_root_within",
    "C109_others_unlimited",
    "C109_default_refuted"
   ],
   "note": "Proved for root finding; refuted for the default methods: minimization and derivative-free root finding ignore the limits. (in Tatonnement_props.v)"
  },
  {
   "property": "C110",
   "status": "partial",
   "theorems": [
    "C110_several_clear",
    "C110_one_step_only",
    "C110_one_property_refuted",
    "C110_one_clears",
    "C110_flat_refuted",
    "C110_always_answers",
    "C110_failure_refuted",
    "C110_free_minimization_clears",
    "C110_free_root_best"
   ],
   "note": "Refuted for one property (the solver is asked for a single step, whose status is taken for convergence), for minimization with derivatives (any flat point is accepted) and for derivative-free root finding (always answers, if need be with the start); proved for root finding with several properties and for derivative-free minimization. C110_one_clears: for one property and a solver that asks to continue, multipliers are only found when a step has brought the excess demand below 1/1000000. (in Tatonnement_props.v)"
  },
  {
   "property": "C111",
   "status": "partial",
   "theorems": [
    "C111_unmentioned_refuted",
    "C111_defined"
   ],
   "note": "Refuted: the search is undefined whenever a quoted property is in no order; otherwise defined. (in Tatonnement_props.v)"
  },
  {
   "property": "C112",
   "status": "partial",
   "theorems": [
    "C112_restored",
    "C112_replaced_refuted"
   ],
   "note": "Refuted: with one property the handler stays replaced after every success; restored in all other cases. (in Tatonnement_props.v)"
  },
  {
   "property": "C113",
   "status": "partial",
   "theorems": [
    "C113_ends_refuted",
    "C113_goes_on"
   ],
   "note": "Refuted: with several properties and the default error handler an error reported by the solver ends the program; with any other handler the search goes on. (in Tatonnement_props.v)"
  },
  {
   "property": "C114",
   "status": "proved",
   "theorems": [
    "C114_covers",
    "C114_no_methods"
   ],
   "note": "Proved for all methods. (in Tatonnement_props.v)"
  },
  {
   "property": "C115",
   "status": "partial",
   "theorems": [
    "C115_reporting",
    "C115_exception",
    "C115_label_refuted",
    "C115_amount",
    "C115_large_refuted",
    "C115_new"
   ],
   "note": "Amount and exceptions proved; refuted that a foreign amount is said to be in the reporting currency, and that amounts of 2^63 and more are positive. (in Accounting_props.v)"
  },
  {
   "property": "C116",
   "status": "partial",
   "theorems": [
    "C116_position",
    "C116_exception",
    "C116_unit_lot",
    "C116_negative_refuted",
    "C116_not_converted_refuted"
   ],
   "note": "Proved for prices that are not negative, and for lots of one; refuted for other lots (negative positions are worth large positive values) and for the conversion, which is never made. (in Accounting_props.v)"
  },
  {
   "property": "C117",
   "status": "partial",
   "theorems": [
    "C117_opposite",
    "C117_currency_refuted",
    "C117_exception"
   ],
   "note": "Proved when the quote is in the reporting currency; refuted otherwise: the number is taken over unconverted. (in Accounting_props.v)"
  },
  {
   "property": "C118",
   "status": "partial",
   "theorems": [
    "C118_loan",
    "C118_large_refuted",
    "C118_least_refuted"
   ],
   "note": "Proved up to 2^63 subunits; refuted beyond. (in Accounting_props.v)"
  },
  {
   "property": "C119",
   "status": "partial",
   "theorems": [
    "C119_assets_refuted"
   ],
   "note": "Refuted: always zero. (in Accounting_props.v)"
  },
  {
   "property": "C120",
   "status": "partial",
   "theorems": [
    "C120_vector",
    "C120_numbers",
    "C120_map",
    "C120_text_refuted",
    "C120_queue",
    "C120_queue_refuted"
   ],
   "note": "Proved for vectors, arrays and maps; refuted for queues, of which about half is printed (exact part proved), and for text with separators. The operators for sets and lists do not compile when used and are not modelled. (in Outputs_props.v)"
  },
  {
   "property": "C121",
   "status": "proved",
   "theorems": [
    "C121_streams",
    "C121_values",
    "C121_readable",
    "C121_series",
    "C121_missing"
   ],
   "note": "Proved for all histories. (in Outputs_props.v)"
  },
  {
   "property": "C122",
   "status": "partial",
   "theorems": [
    "C122_unique",
    "C122_second_refuted"
   ],
   "note": "Proved for names used once; refuted for a second output of the same name, which is never written. (in Outputs_props.v)"
  },
  {
   "property": "C123",
   "status": "partial",
   "theorems": [
    "C123_buffered_refuted",
    "C123_created"
   ],
   "note": "Refuted: a buffered output is never written. Outputs made by create_output are not buffered. (in Outputs_props.v)"
  },
  {
   "property": "C124",
   "status": "partial",
   "theorems": [
    "C124_release",
    "C124_debug_refuted",
    "C124_debug",
    "C124_names",
    "C124_dynamic"
   ],
   "note": "Proved for releases; refuted for other builds, where messages below the severity are shown without their level. (in Outputs_props.v)"
  },
  {
   "property": "C125",
   "status": "partial",
   "theorems": [
    "C125_std_endl",
    "C125_endl_refuted"
   ],
   "note": "Proved for std::endl; refuted for channel::endl, which locks a mutex the thread holds. (in Outputs_props.v)"
  },
  {
   "property": "C126",
   "status": "partial",
   "theorems": [
    "C126_restored_refuted",
    "C126_kept"
   ],
   "note": "Refuted: the archive has the names only and nothing that is read is kept. (in Outputs_props.v)"
  },
  {
   "property": "C127",
   "status": "partial",
   "theorems": [
    "C127_sum",
    "C127_close",
    "C127_excess_refuted",
    "C127_half_refuted",
    "C127_negative_refuted",
    "C127_requested_refuted"
   ],
   "note": "In exact arithmetic and for numbers that are not negative: adds up to the rounded total and stays close, unless a number is halfway above an even integer. Refuted: undefined whenever the rounded numbers exceed the rounded total (two halves), a half may be raised to two, negative numbers change sign, the requested sum is ignored (doubles). (in Fractions_props.v)"
  },
  {
   "property": "C128",
   "status": "partial",
   "theorems": [
    "C128_root",
    "C128_integers_refuted"
   ],
   "note": "Proved in real arithmetic; refuted for integer types, where logarithms are truncated. (in Fractions_props.v)"
  },
  {
   "property": "C129",
   "status": "partial",
   "theorems": [
    "C129_steps",
    "C129_constant_refuted"
   ],
   "note": "Refuted: the root is taken over the number of points, not of steps; what is computed is proved. Real arithmetic. (in Fractions_props.v)"
  },
  {
   "property": "C130",
   "status": "proved",
   "theorems": [
    "C130_bid_below_ask",
    "C130_defined",
    "C130_outside"
   ],
   "note": "Proved. The logarithm is an argument of the model. C130_outside: with assertions, arguments out of range end the program. (in Quoting_props.v)"
  },
  {
   "property": "C131",
   "status": "partial",
   "theorems": [
    "C131_around_middle",
    "C131_wider",
    "C131_closer_refuted"
   ],
   "note": "The middle price is proved to be between the quotes. Refuted that more volatility never brings a quote closer: it does by one unit when the quotes of the calmer market coincided and were moved apart; proved in all other cases. (in Quoting_props.v)"
  },
  {
   "property": "C132",
   "status": "proved",
   "theorems": [
    "C132_inventory"
   ],
   "note": "Proved. (in Quoting_props.v)"
  },
  {
   "property": "C133",
   "status": "partial",
   "theorems": [
    "C133_risk_neutral_refuted",
    "C133_nearly_neutral_refuted"
   ],
   "note": "Refuted: undefined at zero for all other arguments, and close to zero the spread vanishes instead. (in Quoting_props.v)"
  },
  {
   "property": "C134",
   "status": "partial",
   "theorems": [
    "C134_four",
    "C134_three",
    "C134_short_refuted",
    "C134_long_refuted"
   ],
   "note": "Proved for four characters and for three. Refuted: shorter texts are undefined behaviour, and text after a code is dropped. (in Codes_props.v)"
  },
  {
   "property": "C135",
   "status": "proved",
   "theorems": [
    "C135_order",
    "C135_total"
   ],
   "note": "Proved. (in Codes_props.v)"
  },
  {
   "property": "C136",
   "status": "proved",
   "theorems": [
    "C136_names",
    "C136_listed"
   ],
   "note": "Proved, the table in Codes.v is generated from currencies.hpp. (in Codes_props.v)"
  },
  {
   "property": "C137",
   "status": "partial",
   "theorems": [
    "C137_names",
    "C137_listed",
    "C137_andorra_refuted"
   ],
   "note": "Different names proved. Refuted: Andorra is listed without a name; India is commented out. (in Codes_props.v)"
  },
  {
   "property": "C138",
   "status": "proved",
   "theorems": [
    "C138_codes",
    "C138_jurisdictions",
    "C138_jurisdictions_distinct"
   ],
   "note": "Proved for the tables, which were generated from the headers. (in Codes_props.v)"
  },
  {
   "property": "C139",
   "status": "partial",
   "theorems": [
    "C139_apart",
    "C139_subunits_refuted"
   ],
   "note": "Proved for one number of subunits per code and different type codes; refuted for the same letters with other subunits, which merge although they do not compare equal. (in Belongings_props.v)"
  },
  {
   "property": "C140",
   "status": "partial",
   "theorems": [
    "C140_loans_refuted",
    "C140_money_refuted",
    "C140_number"
   ],
   "note": "Refuted: all loans, and money that is not cash, have the identity without digits and merge into the first of them. (in Belongings_props.v)"
  },
  {
   "property": "C141",
   "status": "partial",
   "theorems": [
    "C141_securities",
    "C141_not_the_security",
    "C141_contracts_refuted"
   ],
   "note": "Proved for different securities; refuted for different parties or sizes, which merge into the first. (in Belongings_props.v)"
  },
  {
   "property": "C142",
   "status": "partial",
   "theorems": [
    "C142_exact",
    "C142_collision_refuted"
   ],
   "note": "Exact condition proved. Refuted: the n-th property that a company creates has the identity of its shares of rank n. (in Belongings_props.v)"
  },
  {
   "property": "C143",
   "status": "partial",
   "theorems": [
    "C143_shown",
    "C143_money_refuted"
   ],
   "note": "Proved when the first item is not money; refuted otherwise: nothing is shown. (in Belongings_props.v)"
  },
  {
   "property": "C144",
   "status": "partial",
   "theorems": [
    "C144_recorded",
    "C144_rank_refuted"
   ],
   "note": "Proved for classes with different ranks; refuted for classes of the same rank, which share one entry. (in Belongings_props.v)"
  },
  {
   "property": "C145",
   "status": "partial",
   "theorems": [
    "C145_handed",
    "C145_taken",
    "C145_failed_refuted",
    "C145_dropped_refuted"
   ],
   "note": "Success and its condition proved. Refuted: after a failure the items before the offending one are held; items with a taken identity are dropped silently. (in Belongings_props.v)"
  },
  {
   "property": "C146",
   "status": "partial",
   "theorems": [
    "C146_at_most_one_unit",
    "C146_power_of_two",
    "C146_error",
    "C146_basis_points_refuted"
   ],
   "note": "Error bounds proved for all doubles; refuted for the default precision: three basis points become two, and 37 other numbers of basis points up to five percent lose one. (in Rates_props.v)"
  },
  {
   "property": "C147",
   "status": "partial",
   "theorems": [
    "C147_leads",
    "C147_currencies_refuted",
    "C147_zero",
    "C147_negative"
   ],
   "note": "Proved for equal currencies and a positive first price, and for negative ones without assertions; refuted for different currencies without assertions. (in Rates_props.v)"
  },
  {
   "property": "C148",
   "status": "partial",
   "theorems": [
    "C148_reduced",
    "C148_precision_refuted",
    "C148_parity_refuted"
   ],
   "note": "Proved for the precision left after reducing; refuted for the precision a rate was made with, and at parity all precision is lost. (in Rates_props.v)"
  },
  {
   "property": "C149",
   "status": "partial",
   "theorems": [
    "C149_fractions",
    "C149_whole",
    "C149_double_refuted",
    "C149_zero_copy_refuted"
   ],
   "note": "Fractions and copies proved; refuted for decimal numbers, which are truncated to whole numbers (proved exactly), and for copies of a rate of zero. (in Rates_props.v)"
  },
  {
   "property": "C150",
   "status": "partial",
   "theorems": [
    "C150_header",
    "C150_contents",
    "C150_codes",
    "C150_header_refuted",
    "C150_recipient_refuted",
    "C150_orders_refuted"
   ],
   "note": "Plain headers and the contents of transfers and dividend records proved; refuted: every class of message loses sender, recipient and times, and orders lose their demands and volumes. (in Archives_props.v)"
  },
  {
   "property": "C151",
   "status": "partial",
   "theorems": [
    "C151_restored",
    "C151_children",
    "C151_mail_refuted",
    "C151_callbacks_refuted"
   ],
   "note": "Identity, number of children, schedule and plain headers in the mail proved; refuted for addressed messages in the mail and for callbacks. (in Archives_props.v)"
  },
  {
   "property": "C152",
   "status": "proved",
   "theorems": [
    "C152_restored"
   ],
   "note": "(in Archives_props.v)"
  },
  {
   "property": "C153",
   "status": "partial",
   "theorems": [
    "C153_timing_refuted"
   ],
   "note": "Refuted: nothing is archived. (in Archives_props.v)"
  },
  {
   "property": "C154",
   "status": "partial",
   "theorems": [
    "C154_low",
    "C154_refuted",
    "C154_release_refuted",
    "C154_path"
   ],
   "note": "Trace and notice proved, and the path shown; refuted: warnings and errors are recorded as notices, and a release records nothing that is logged from Python. (in Bindings_props.v)"
  },
  {
   "property": "C155",
   "status": "partial",
   "theorems": [
    "C155_country",
    "C155_currency_refuted",
    "C155_confused_refuted"
   ],
   "note": "Countries proved; refuted for currencies: the last letter is missing. (in Bindings_props.v)"
  },
  {
   "property": "C156",
   "status": "partial",
   "theorems": [
    "C156_names",
    "C156_complete",
    "C156_refuted"
   ],
   "note": "Names, all currencies and jurisdictions proved; refuted: one country is missing and one name has no constant. (in Bindings_props.v)"
  },
  {
   "property": "C157",
   "status": "partial",
   "theorems": [
    "C157_numbers",
    "C157_accepted",
    "C157_price_refuted",
    "C157_missing"
   ],
   "note": "Numbers proved; refuted for prices, which are stored and can not be read. (in Bindings_props.v)"
  },
  {
   "property": "C158",
   "status": "partial",
   "theorems": [
    "C158_unsigned",
    "C158_integer_refuted",
    "C158_exact",
    "C158_experiment"
   ],
   "note": "Unsigned integers of numpy proved and the exact condition; refuted for integers of Python, which are accepted and stop the model. (in Bindings_props.v)"
  },
  {
   "property": "C159",
   "status": "partial",
   "theorems": [
    "C159_mapping",
    "C159_delete",
    "C159_delete_refuted"
   ],
   "note": "Proved except that deleting a missing key is no error (refuted). (in Bindings_props.v)"
  },
  {
   "property": "C160",
   "status": "partial",
   "theorems": [
    "C160_present",
    "C160_absent_refuted",
    "C160_first",
    "C160_delete"
   ],
   "note": "Present times, deletion and reading proved; refuted: assigning an absent time does nothing. (in Bindings_props.v)"
  },
  {
   "property": "C161",
   "status": "proved",
   "theorems": [
    "C161_once",
    "C161_returned"
   ],
   "note": "(in Bindings_props.v)"
  },
  {
   "property": "C162",
   "status": "partial",
   "theorems": [
    "C162_append_refuted",
    "C162_send_refuted",
    "C162_read"
   ],
   "note": "Refuted: the copy is changed and the message is not sent. Reading is proved. (in Bindings_props.v)"
  },
  {
   "property": "C163",
   "status": "partial",
   "theorems": [
    "C163_demand",
    "C163_fails",
    "C163_dropped_refuted",
    "C163_supply"
   ],
   "note": "Proved for numbers that convert; refuted for others, which are left out without an error. (in Bindings_props.v)"
  },
  {
   "property": "C164",
   "status": "partial",
   "theorems": [
    "C164_price",
    "C164_lot_refuted",
    "C164_lot"
   ],
   "note": "Price proved; refuted: the lot can be set to zero. (in Bindings_props.v)"
  },
  {
   "property": "C165",
   "status": "partial",
   "theorems": [
    "C165_nine",
    "C165_refuted",
    "C165_longer"
   ],
   "note": "Nine characters proved; refuted: shorter is undefined, longer is cut. (in Bindings_props.v)"
  },
  {
   "property": "C166",
   "status": "partial",
   "theorems": [
    "C166_silent_refuted",
    "C166_answer"
   ],
   "note": "Companies with an answer proved; refuted without a method, which is an error. (in Bindings_props.v)"
  },
  {
   "property": "C167",
   "status": "proved",
   "theorems": [
    "C167_codes",
    "C167_all",
    "C167_dispatch"
   ],
   "note": "(in Messages_props.v)"
  },
  {
   "property": "C168",
   "status": "partial",
   "theorems": [
    "C168_addressed",
    "C168_time_refuted",
    "C168_sender_refuted",
    "C168_default",
    "C168_contents",
    "C168_nobody"
   ],
   "note": "Proved for classes whose constructors take times; refuted: transfers and announcements of dividends are sent at time zero, and four classes can not be given a sender. (in Messages_props.v)"
  },
  {
   "property": "C169",
   "status": "partial",
   "theorems": [
    "C169_reply",
    "C169_walras",
    "C169_impact_refuted"
   ],
   "note": "Proved for differentiable orders; orders to the impact market can not be made from a quote (refuted). (in Messages_props.v)"
  },
  {
   "property": "C170",
   "status": "partial",
   "theorems": [
    "C170_shift",
    "C170_defined",
    "C170_rate_refuted",
    "C170_scale",
    "C170_one"
   ],
   "note": "Minimum and definedness proved in exact arithmetic; refuted: the latency gets longer with the rate. (in Randomness_props.v)"
  },
  {
   "property": "C171",
   "status": "partial",
   "theorems": [
    "C171_range",
    "C171_one",
    "C171_exact",
    "C171_refuted"
   ],
   "note": "Range and the probability of one proved in exact arithmetic; refuted: the result n has n times its probability. (in Randomness_props.v)"
  },
  {
   "property": "C172",
   "status": "partial",
   "theorems": [
    "C172_minor_units",
    "C172_minor_units_refuted",
    "C172_tender"
   ],
   "note": "Proved for all tenders and all currencies but three: TND, UYI and CLF have the wrong unit (refuted). (in Codes_props.v)"
  },
  {
   "property": "C173",
   "status": "proved",
   "theorems": [
    "C173_run",
    "C173_step",
    "C173_threads"
   ],
   "note": "Proved for any account, with one and with several threads. (in Ownership_props.v)"
  },
  {
   "property": "C174",
   "status": "proved",
   "theorems": [
    "C174_conserved",
    "C174_settled",
    "C174_both_parties",
    "C174_no_wakeup",
    "C174_one_sided"
   ],
   "note": "Proved for owners whose own code sends balanced transfers only. That agents may send a transfer to one party alone, which creates property, is shown by a counterexample (C174_one_sided); the property excludes it. (in Ownership_props.v)"
  },
  {
   "property": "C175",
   "status": "partial",
   "theorems": [
    "C175_settled",
    "C175_others",
    "C175_effects",
    "C175_balanced",
    "C175_doubles_refuted",
    "C175_doubles"
   ],
   "note": "Settlement and its effects proved in both arithmetics for one property without short positions; that cash is neither created nor destroyed is proved in exact arithmetic with unit lots, and refuted in double precision (as the code has it), where C175_doubles bounds the difference, for any lot, by a cent for each buyer and each seller. (in Clearing_props.v)"
  },
  {
   "property": "C176",
   "status": "partial",
   "theorems": [
    "C176_forgotten_refuted",
    "C176_step",
    "C176_run",
    "C176_every_time"
   ],
   "note": "Refuted: an agent that acts before the delivery overwrites its wake-up time, sleeps through the delivery and may never handle the message. Proved for agents that never ask to sleep past a message they already have, such as agents that wake up at every time. (in Punctual_props.v)"
  },
  {
   "property": "C177",
   "status": "partial",
   "theorems": [
    "C177_gathered",
    "C177_within",
    "C177_pays",
    "C177_cleared",
    "C177_doubles",
    "C177_penny_refuted",
    "C177_doubles_refuted"
   ],
   "note": "Proved in exact arithmetic for prices that stay at one unit of the currency or above, and in double precision up to one unit (C177_doubles: up to 2^48 units and for multipliers from 1/16 to 16; the market allows 1/11 to 11). Refuted for lower prices, which are raised to one unit after the units are computed, and for exact multiples of the price in double precision. (in Demands_props.v)"
  },
  {
   "property": "C178",
   "status": "partial",
   "theorems": [
    "C178_twice",
    "C178_doubles",
    "C178_twice_refuted",
    "C178_first_refuted",
    "C178_none_refuted"
   ],
   "note": "Refuted: both sides are counted, only one property is reported, and a clearing without demands is undefined. Proved, for one property, to be twice the traded volume, up to rounding: exact arithmetic (C178_twice), and double precision up to 2^48 units (C178_doubles). (in Demands_props.v)"
  },
  {
   "property": "C179",
   "status": "partial",
   "theorems": [
    "C179_exactly",
    "C179_untraded_refuted"
   ],
   "note": "Refuted: such a demand is undefined behaviour. Proved that the demands are taken exactly when all of them are quoted. (in Demands_props.v)"
  },
  {
   "property": "C180",
   "status": "partial",
   "theorems": [
    "C180_exactly",
    "C180_cents",
    "C180_doubles",
    "C180_yen_refuted"
   ],
   "note": "Refuted: payments are always in US dollars. The amount is characterised exactly, and in double precision up to one cent (C180_doubles). (in Demands_props.v)"
  },
  {
   "property": "C181",
   "status": "proved",
   "theorems": [
    "C181_run",
    "C181_others",
    "C181_step",
    "C181_callbacks"
   ],
   "note": "The full run must return; an exception or an endless step of another agent ends or hangs the whole simulation. C181_run, C181_others (two simulations), C181_step; C181_callbacks gives a sufficient condition on callbacks and act. Sequential steps; any number of threads gives the same by C18. (in Isolation_props.v)"
  },
  {
   "property": "C182",
   "status": "partial",
   "theorems": [
    "C182_shuffled_refuted",
    "C182_in_order",
    "C182_unaffected"
   ],
   "note": "Refuted for the default schedule (communicator.hpp:166): messages of equal priority are shuffled by the seed. C182_in_order and C182_unaffected are the positive results. (in Platform_props.v)"
  },
  {
   "property": "C183",
   "status": "proved",
   "theorems": [
    "C183_prolong"
   ],
   "note": "Model: the simulation of C15-C21 (Simulation.v). ignores_end (Causality_spec.v) says that callbacks and act return the same state for every end and a time that is a fixed time or never, limited by the end. (in Causality_props.v)"
  },
  {
   "property": "C184",
   "status": "proved",
   "theorems": [
    "C184_past",
    "C184_reaches",
    "C184_acts"
   ],
   "note": "Model: the simulation of C15-C21 (Simulation.v). C184_past is for any two worlds that are alike until T (Causality_spec.v), C184_reaches says that the second simulation gets to T if the first does, C184_acts gives a simple sufficient condition. (in Causality_props.v)"
  },
  {
   "property": "C185",
   "status": "partial",
   "theorems": [
    "C185_undefined_refuted",
    "C185_two_times_refuted",
    "C185_one_step"
   ],
   "note": "Model: DistributedRun.v, over any step function of the cluster. C185_undefined_refuted: when no agents are deactivated, a run whose first step does not reach the end passes the wrong number of values to MPI (undefined). C185_two_times_refuted: whatever is deactivated, a run that returns has stepped at two different times at most. C185_one_step is the case that works. (in DistributedRun_props.v)"
  },
  {
   "property": "C186",
   "status": "partial",
   "theorems": [
    "C186_not_woken_refuted",
    "C186_awake"
   ],
   "note": "Model: mpi_round in DistributedRun.v with the agents of Simulation.v. C186_not_woken_refuted is for all rounds: the wake-up time of a sleeping agent stays. C186_awake: if all recipients are awake by the time of delivery, the round is that of a single process. (in DistributedRun_props.v)"
  },
  {
   "property": "C187",
   "status": "partial",
   "theorems": [
    "C187_exact",
    "C187_one_sided",
    "C187_refuted",
    "C187_special"
   ],
   "note": "Model: Streams.v. C187_exact for amounts up to 2^53, C187_one_sided for all amounts (no false answer of less or greater), C187_refuted for every odd amount above 2^53: it equals a double that is a different number. C187_special: infinities and NaN. (in Streams_props.v)"
  },
  {
   "property": "C188",
   "status": "partial",
   "theorems": [
    "C188_text",
    "C188_distinct",
    "C188_quotes",
    "C188_library",
    "C188_refuted"
   ],
   "note": "C188_text and C188_distinct, C188_quotes for less than 2^52 units of a currency counted in powers of ten, which C188_library shows all of the library are. C188_refuted: 2^46 dollars and one cent look like 2^46 dollars and two cents. The logarithm of the C library is taken to be exact for powers of ten. (in Streams_props.v)"
  },
  {
   "property": "C189",
   "status": "partial",
   "theorems": [
    "C189_price",
    "C189_price_refuted",
    "C189_identity",
    "C189_identity_refuted",
    "C189_others"
   ],
   "note": "C189_price and C189_identity say exactly when the format is kept. C189_price_refuted: the precision of the currency stays on the stream, so every number printed afterwards looks different. C189_identity_refuted: the fill character stays zero, so every integer printed with a larger width looks different. C189_others: the other values keep the format. (in Streams_props.v)"
  },
  {
   "property": "C190",
   "status": "partial",
   "theorems": [
    "C190_intervals",
    "C190_positions",
    "C190_tickers",
    "C190_reports",
    "C190_no_state",
    "C190_reports_refuted"
   ],
   "note": "Intervals, positions and tickers are injective; C190_reports says exactly which execution reports look the same, and C190_reports_refuted is the consequence: side, quantity and identifier are not shown; orders print nothing. C190_no_state: reports without a known state throw. (in Streams_props.v)"
  },
  {
   "property": "C191",
   "status": "partial",
   "theorems": [
    "C191_owner",
    "C191_view_refuted",
    "C191_person",
    "C191_property_refuted"
   ],
   "note": "Model: Persons.v on top of Archives.v. C191_owner and C191_person: what is restored. C191_view_refuted: the record of the property of a type is not archived, so every transfer of such property by a restored owner is rejected. C191_property_refuted: the property of a legal person is not archived at all. (in Persons_props.v)"
  },
  {
   "property": "C192",
   "status": "partial",
   "theorems": [
    "C192_kept",
    "C192_announced_again_refuted",
    "C192_holdings_refuted",
    "C192_dates_lost_refuted"
   ],
   "note": "C192_kept: what is restored. C192_announced_again_refuted, with act of Company.v: every dividend announced is announced to all shareholders again. C192_holdings_refuted, with stock_holdings of Company.v: undefined for a restored company that holds shares. C192_dates_lost_refuted: no way of reading could restore the dates. (in Persons_props.v)"
  },
  {
   "property": "C193",
   "status": "partial",
   "theorems": [
    "C193_standard_exactly",
    "C193_run_refuted",
    "C193_later_refuted",
    "C193_memory_exactly",
    "C193_two_agents_refuted",
    "C193_removed_twice_refuted",
    "C193_removed_refuted",
    "C193_nothing_to_tell"
   ],
   "note": "Model: Population.v. The lists of new and removed agents are appended to while they are iterated over. C193_standard_exactly, C193_run_refuted, C193_later_refuted: undefined by the standard whenever a list is not empty. C193_memory_exactly, C193_two_agents_refuted, C193_removed_twice_refuted: even if only reading memory that was given back counts. C193_nothing_to_tell: otherwise the run is the one of Simulation.v. The theorems on runs of other claims are about environments in which telling of agents does nothing. (in Population_props.v)"
  },
  {
   "property": "C194",
   "status": "partial",
   "theorems": [
    "C194_no_progress_refuted",
    "C194_first",
    "C194_over"
   ],
   "note": "C194_no_progress_refuted: a second call leaves the world as it is, for all worlds. C194_first, C194_over: what the first call and calls after the end do. (in Population_props.v)"
  },
  {
   "property": "C195",
   "status": "partial",
   "theorems": [
    "C195_never_ends_refuted",
    "C195_goes_on",
    "C195_others",
    "C195_mail"
   ],
   "note": "C195_never_ends_refuted: the wake-up time of a removed agent stays, and a run does not end if it is before the end. C195_goes_on: otherwise the run is as if nothing were left of it. C195_others, C195_mail: the others, and messages. (in Population_props.v)"
  },
  {
   "property": "C196",
   "status": "partial",
   "theorems": [
    "C196_created",
    "C196_acts_next",
    "C196_never_acts_refuted",
    "C196_waits_refuted"
   ],
   "note": "C196_created: how it is left by the round. C196_acts_next: without messages it acts in the next round. C196_never_acts_refuted: which need not exist. C196_waits_refuted: a message for later delays its first action. Creation is modelled for one thread. (in Population_props.v)"
  },
  {
   "property": "C197",
   "status": "partial",
   "theorems": [
    "C197_present",
    "C197_absent_refuted",
    "C197_message_refuted",
    "C197_others"
   ],
   "note": "C197_absent_refuted, C197_message_refuted: an identity without agent is given an entry, messages to which are undefined. C197_present, C197_others: the rest. (in Population_props.v)"
  },
  {
   "property": "C198",
   "status": "partial",
   "theorems": [
    "C198_library",
    "C198_refuted",
    "C198_users",
    "C198_property",
    "C198_line"
   ],
   "note": "Debtors, owners of one kind of property, contracts, securities, loans and commodities get the identity without digits, whatever is passed (C198_refuted). For other classes of the library and exactly those user classes that themselves name the shared base class it holds (C198_library, C198_users, C198_property, C198_line). (in Construction_props.v)"
  },
  {
   "property": "C199",
   "status": "partial",
   "theorems": [
    "C199_handlers",
    "C199_views",
    "C199_left",
    "C199_rejected_refuted"
   ],
   "note": "Handlers exist once per kind and in the right order (C199_handlers), and views agree for transfers between different parties that complete (C199_views). A refused transfer leaves some views changed (C199_rejected_refuted); exactly what it leaves is C199_left. (in Construction_props.v)"
  },
  {
   "property": "C200",
   "status": "partial",
   "theorems": [
    "C200_same_reports",
    "C200_withdrawal_refuted",
    "C200_lifetime_refuted"
   ],
   "note": "Proved for orders good until cancelled with limits strictly inside the range, while there is room, and for withdrawals other than of the last order at the best limit (C200_same_reports). Otherwise the books differ: C200_withdrawal_refuted, C200_lifetime_refuted. (in TwoBooks_props.v)"
  },
  {
   "property": "C201",
   "status": "partial",
   "theorems": [
    "C201_own_trades",
    "C201_settled",
    "C201_conserved",
    "C201_sale_then_purchase_refuted",
    "C201_purchase_then_sale_refuted"
   ],
   "note": "Independence of others' trades is proved (C201_own_trades), and the settlement for participants without short positions that trade one property or only sell (C201_settled); if all are settled so, nothing is created or destroyed (C201_conserved, exact arithmetic, unit lots). Refuted for a sale and a purchase together: the purchase is not delivered (C201_sale_then_purchase_refuted) or paid twice (C201_purchase_then_sale_refuted); C79 has two purchases. (in SeveralTrades_props.v)"
  },
  {
   "property": "C202",
   "status": "proved",
   "theorems": [
    "C202_sessions"
   ],
   "note": "C202_sessions: with transfers of any content that settle the trades (their content: C37, C79, C200, C201), booked in any order. Participants answer in the time step in which they get the quotes; if they answer later, or there is no participant, see C106 and C107; if they do not ask to be activated again, C203. (in Sessions_props.v)"
  },
  {
   "property": "C203",
   "status": "partial",
   "theorems": [
    "C203_sleep_refuted",
    "C203_next_session_refuted"
   ],
   "note": "Refuted by C203_sleep_refuted (all markets in which every participant trades at time 0 and leaves its next activation to the library: the run never ends) and C203_next_session_refuted (one such world). Participants that ask for the next time themselves: C202_sessions. The cause, in isolation: C176. (in Sessions_props.v)"
  },
  {
   "property": "C204",
   "status": "partial",
   "theorems": [
    "C204_first_come",
    "C204_late_refuted"
   ],
   "note": "Refuted by C204_late_refuted: an exchange that has handled a message sleeps until the end of the run, past the delivery of an order that is already in its inbox; that order is handled with the next message that wakes the exchange, after it. C204_first_come: it holds if the exchange asks to be activated at every time, or if all messages to it are for the time step in which they are sent. Orders delivered at the same time are handled latest first or shuffled (C13). The cause, in isolation: C176. (in FirstCome_props.v)"
  },
  {
   "property": "C205",
   "status": "proved",
   "theorems": [
    "C205_fills"
   ],
   "note": "C205_fills. The messages that were sent are those of the rounds of the run (rounds_sending); each is delivered once (C15, C173). That a cancellation is reported only with the next order for the symbol is C84. (in Fills_props.v)"
  },
  {
   "property": "C206",
   "status": "partial",
   "theorems": [
    "C206_endless_refuted",
    "C206_exact"
   ],
   "note": "The property is refuted in general (C206_endless_refuted, for any other agents): payable after announcement never ends. C206_exact gives, for a company with its shareholders, the exact set of policies for which the run ends, and what shareholders know then. The dividend itself is not paid in the code (a comment there). (in Dividends_props.v)"
  },
  {
   "property": "C207",
   "status": "partial",
   "theorems": [
    "C207_race_exactly",
    "C207_any_two_refuted",
    "C207_duplicate_refuted",
    "C207_fresh"
   ],
   "note": "Refuted: creation takes no lock, so any two creating agents in the work of different threads are a data race (C207_race_exactly, C207_any_two_refuted), and with the same parent they can get the same identity even if memory were to behave (C207_duplicate_refuted). C207_fresh: every interleaving numbers children correctly if no entity gets children from two threads. (in Races_props.v)"
  },
  {
   "property": "C208",
   "status": "partial",
   "theorems": [
    "C208_one_thread",
    "C208_terminated_refuted",
    "C208_returns"
   ],
   "note": "Refuted for several threads (C208_terminated_refuted): an exception that leaves the function of a thread ends the program. C208_one_thread and C208_returns are the parts that hold; C208_returns rests on C18. (in Errors_props.v)"
  },
  {
   "property": "C209",
   "status": "proved",
   "theorems": [
    "C209_doubles",
    "C209_exact"
   ],
   "note": "Composes C202 (sessions), C60 (trades), C61 and C175 (settlement), C80 (rounding) over a whole run. C209_doubles is for the arithmetic of the code; C209_exact shows that without rounding nothing at all is lost. Prices are for one unit, and traders are eager (otherwise see C203). (in Economy_props.v)"
  },
  {
   "property": "C210",
   "status": "proved",
   "theorems": [
    "C210_run",
    "C210_same"
   ],
   "note": "C18 for whole runs. Errors of agents with several threads are C208, agents that create agents C207. (in Threads_props.v)"
  },
  {
   "property": "C211",
   "status": "partial",
   "theorems": [
    "C211_sessions",
    "C211_answers_refuted"
   ],
   "note": "C211_sessions gives the exact course of a run: a session at each time from 1 on, with one order of every participant. The claim that quotes are answered once fails for the opening quotes: the market asks to be activated again at time 0 and then sends the quotes for time 1 a second time, so participants answer twice and the market uses one of the two orders. C211_answers_refuted shows this for every set of participants that count their answers. (in ImpactSessions_props.v)"
  },
  {
   "property": "C212",
   "status": "partial",
   "theorems": [
    "C212_default_refuted"
   ],
   "note": "C212_default_refuted: orders without time of sending carry 0, which the market takes for an order of an earlier step; it stops reading orders and asks to be activated again at the same time. At time 1 it gives up after a round without clearing; at time 2 it never does, so no run beyond time 2 ends. The positive counterpart is C211_sessions (orders that say when they were sent). (in ImpactSessions_props.v)"
  },
  {
   "property": "C213",
   "status": "partial",
   "theorems": [
    "C213_refuted",
    "C213_exact"
   ],
   "note": "Refuted for every closed queue: an element pushed after closing is kept and popped later, against the documentation of close(). C213_exact: what closing does instead. (in BlockingQueue_props.v)"
  },
  {
   "property": "C214",
   "status": "proved",
   "theorems": [
    "C214_every_task_once",
    "C214_no_task_lost_or_invented",
    "C214_no_deadlock",
    "C214_workers_terminate",
    "C214_submission_accepted",
    "C214_spurious_failures"
   ],
   "note": "Critical sections are one step each, taken when the lock is released, so that a failing attempt to lock falls before the step of the holder; a running task may be holding any lock (it may be submitting). C214_spurious_failures: std::mutex::try_lock is permitted to fail without reason, and then a task submitted during destruction can be lost; without such submissions (C26) it cannot. (in PoolTasks_props.v)"
  },
  {
   "property": "C215",
   "status": "partial",
   "theorems": [
    "C215_refuted",
    "C215_otherwise"
   ],
   "note": "Refuted for no threads whatever the hardware: only the parameter is corrected, so workers are started for queues that do not exist. C215_otherwise for any positive number. (in PoolTasks_props.v)"
  },
  {
   "property": "C216",
   "status": "proved",
   "theorems": [
    "C216_in_order",
    "C216_all"
   ],
   "note": "Spurious failures to lock are allowed here, unlike in C214. (in PoolTasks_props.v)"
  },
  {
   "property": "C217",
   "status": "partial",
   "theorems": [
    "C217_refuted",
    "C217_served"
   ],
   "note": "C217_refuted: a worker sleeping on its own queue is not woken for tasks in the queue of a busy worker. C217_served: the worker whose queue holds a task can always act (the wake-up itself is C25), so that the task waits no longer than that worker is busy. (in PoolTasks_props.v)"
  },
  {
   "property": "C218",
   "status": "partial",
   "theorems": [
    "C218_twice_refuted",
    "C218_once"
   ],
   "note": "C218_twice_refuted: when an order moves the best bid or ask, its sender having nothing on the book, each of its trades is named twice, once for the report to either side. C218_once: when neither moves each is named once. (in Feed_props.v)"
  },
  {
   "property": "C219",
   "status": "partial",
   "theorems": [
    "C219_best",
    "C219_size_refuted"
   ],
   "note": "C219_best: the prices. C219_size_refuted: the quantity given is always 1; in C219_case six are available. (in Feed_props.v)"
  },
  {
   "property": "C220",
   "status": "partial",
   "theorems": [
    "C220_senders_refuted",
    "C220_order"
   ],
   "note": "C220_senders_refuted: an entry is made only when its owner sends an order in the symbol at that time, so that trades of resting orders are missing and cancellations appear late or never. C220_order: what happens to an order when it is sent is logged in full. (in OrderLog_props.v)"
  },
  {
   "property": "C221",
   "status": "partial",
   "theorems": [
    "C221_cancelled_by_anyone_refuted",
    "C221_placed_by_anyone_refuted",
    "C221_requested"
   ],
   "note": "C221_cancelled_by_anyone_refuted: the sender of a cancellation is not looked at. C221_placed_by_anyone_refuted: neither is that of an order. C221_requested: what is reported as cancelled was asked for by somebody. (in Access_props.v)"
  },
  {
   "property": "C222",
   "status": "partial",
   "theorems": [
    "C222_no_difference_refuted"
   ],
   "note": "C222_no_difference_refuted: leaving out all messages to log on and off changes no report, no market data and no book. (in Access_props.v)"
  },
  {
   "property": "C223",
   "status": "partial",
   "theorems": [
    "C223_deaf_refuted",
    "C223_waiting_refuted",
    "C223_registered",
    "C223_received"
   ],
   "note": "C223_deaf_refuted: callbacks are not copied. C223_waiting_refuted: neither are messages. C223_registered: with the callbacks registered again a copy responds to new messages as the agent. What derived classes add is an abstract state that callbacks change. (in Copies_props.v)"
  },
  {
   "property": "C224",
   "status": "partial",
   "theorems": [
    "C224_setter_refuted",
    "C224_impact_refuted",
    "C224_quotes"
   ],
   "note": "C224_setter_refuted and C224_impact_refuted: the participants make no difference to which orders count. C224_quotes: quotes are sent to them only. (in Outsiders_props.v)"
  },
  {
   "property": "C225",
   "status": "partial",
   "theorems": [
    "C225_depth_refuted"
   ],
   "note": "C225_depth_refuted: histories that differ only in the depths asked for lead to the same messages; by C219_best these have at most one limit of either side. (in Depth_props.v)"
  },
  {
   "property": "C226",
   "status": "partial",
   "theorems": [
    "C226_arrival",
    "C226_wrapped_refuted"
   ],
   "note": "C226_arrival for times of arrival below 2^64. C226_wrapped_refuted: later ones wrap around. (in Audience_props.v)"
  },
  {
   "property": "C227",
   "status": "proved",
   "theorems": [
    "C227_asked"
   ],
   "note": "For all histories; a request for a stream that is ignored (C83) does not matter here. (in Audience_props.v)"
  },
  {
   "property": "C228",
   "status": "partial",
   "theorems": [
    "C228_outputs_refuted",
    "C228_created"
   ],
   "note": "C228_outputs_refuted: a copy has no outputs. C228_created: it has exactly those created on it. (in Copies_props.v)"
  },
  {
   "property": "C229",
   "status": "partial",
   "theorems": [
    "C229_shown",
    "C229_quantity_refuted",
    "C229_side_refuted"
   ],
   "note": "C229_shown for the histories for which C78 holds: right, but for quantities of asks modulo 2^32 (C229_quantity_refuted). C229_side_refuted: outside these histories, orders can be shown on both sides. Columns and digits are not modelled. The display of the other book is empty in the code. (in Display_props.v)"
  },
  {
   "property": "C230",
   "status": "partial",
   "theorems": [
    "C230_asserted",
    "C230_unasserted",
    "C230_mistyped_refuted",
    "C230_short_refuted"
   ],
   "note": "With assertions on, the texts accepted are exactly the printed forms of valid identifiers (C230_asserted). Without assertions the reserved digits, the check digits and the length are not looked at (C230_mistyped_refuted), and either way a text of fewer than seventeen characters is read beyond its end before anything is checked (C230_short_refuted). (in LegalEntity_props.v)"
  },
  {
   "property": "C231",
   "status": "partial",
   "theorems": [
    "C231_store_refuted",
    "C231_same",
    "C231_replaced",
    "C231_full"
   ],
   "note": "The copied pointers go on pointing into the original: storing an element in a copy of a pool with room left is undefined (C231_store_refuted). What is defined gives the results of the pool itself (C231_same); elements erased from the copy can be replaced (C231_replaced), and a copy of a full pool has no restriction (C231_full). (in PoolCopies_props.v)"
  },
  {
   "property": "C232",
   "status": "partial",
   "theorems": [
    "C232_quotes_refuted",
    "C232_insert_refuted",
    "C232_inert",
    "C232_cancel_refuted"
   ],
   "note": "A copy cannot be asked for a quote that exists (C232_quotes_refuted) and accepts no order (C232_insert_refuted, C232_inert); cancelling in a copy takes the order out of the original's list (C232_cancel_refuted). If a side is empty the copy says so. The first operation on a copy is modelled. The tree book holds its orders by value and is not concerned. (in BookCopies_props.v)"
  }
 ]
}