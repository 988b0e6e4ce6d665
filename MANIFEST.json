{
 "claims": [
  {
   "property": "C01",
   "status": "proved",
   "theorems": [
    "C01_minted_at_most_once"
   ],
   "note": "Any environment. mints_for counts the executed transfers whose memo names the deposit."
  },
  {
   "property": "C02",
   "status": "proved",
   "theorems": [
    "C02_pays_the_depositor",
    "C02_fee_transfer"
   ],
   "note": "Any environment; deposit fees are covered by C02_fee_transfer."
  },
  {
   "property": "C03",
   "status": "proved",
   "theorems": [
    "C03_one_fate",
    "C03_final"
   ],
   "note": "Any environment."
  },
  {
   "property": "C04",
   "status": "proved",
   "theorems": [
    "C04_never_lost",
    "C04_stays_accepted",
    "C04_only_accepted"
   ],
   "note": "Any environment."
  },
  {
   "property": "C05",
   "status": "proved",
   "theorems": [
    "C05_parses_exactly",
    "C05_unambiguous",
    "C05_errors",
    "C05_batch",
    "C05_other_contract_refuted",
    "C05_reason_true",
    "C05_reasons_differ",
    "C05_refused_in_answer",
    "C05_accepted_in_answer"
   ],
   "note": "parse_log succeeds exactly on mined, well-formed, non-removed helper logs with the encoded deposit; total; batches lose nothing; with the finding C05_other_contract_refuted: the emitting contract is not checked"
  },
  {
   "property": "C06",
   "status": "proved",
   "theorems": [
    "C06_exact",
    "C06_never_panics",
    "C06_unambiguous"
   ],
   "note": "principal words decode exactly and totally"
  },
  {
   "property": "C07",
   "status": "proved",
   "theorems": [
    "C07_covers_exactly_once",
    "C07_in_order_exact",
    "C07_within_the_target"
   ],
   "note": "Histories in which providers report blocks below 2^256-1; continuations in which the operator does not set the position."
  },
  {
   "property": "C08",
   "status": "proved",
   "theorems": [
    "C08_terminates",
    "C08_target_attempts",
    "C08_plain_bisection_bound_refuted"
   ],
   "note": "The bound is n(1+log2 min(n,1000)); the bound 2n-1 of plain bisection is refuted by a witness (4 blocks, 9 queries)."
  },
  {
   "property": "C09",
   "status": "proved",
   "theorems": [
    "C09_chunks",
    "C09_chunks_disjoint_cover",
    "C09_chunks_edge",
    "C09_halves",
    "C09_join"
   ],
   "note": ""
  },
  {
   "property": "C10",
   "status": "proved",
   "theorems": [
    "C10_never_moves_back",
    "C10_never_moves_back_over_a_run"
   ],
   "note": ""
  },
  {
   "property": "C11",
   "status": "proved",
   "theorems": [
    "C11_target",
    "C11_no_underflow",
    "C11_queries_keep_the_distance"
   ],
   "note": ""
  },
  {
   "property": "C12",
   "status": "partial",
   "theorems": [
    "C12_accepted_iff",
    "C12_quiet_minute_partial",
    "C12_a_minute_apart_refuted"
   ],
   "note": "Iff characterisation and the quiet minute after each observation are proved. That two accepted requests are a minute apart is refuted: accepting does not update the time, only the start of a scrape does (C12_a_minute_apart_refuted)."
  },
  {
   "property": "C13",
   "status": "proved",
   "theorems": [
    "C13_exactly_one_stage",
    "C13_never_lost_never_back"
   ],
   "note": ""
  },
  {
   "property": "C14",
   "status": "proved",
   "theorems": [
    "C14_next_nonce",
    "C14_consecutive_from_initial",
    "C14_nonce_identifies_withdrawal"
   ],
   "note": "uniqueness assumes that the operator never lowers the nonce; see C55"
  },
  {
   "property": "C15",
   "status": "proved",
   "theorems": [
    "C15_transactions_pay_the_request",
    "C15_sent_and_finalized_pay_the_request"
   ],
   "note": ""
  },
  {
   "property": "C16",
   "status": "proved",
   "theorems": [
    "C16_fees_never_exceed_charge",
    "C16_tokens_offer_the_charge"
   ],
   "note": "for charges below 2^256-1, where the code's saturating product is exact"
  },
  {
   "property": "C17",
   "status": "proved",
   "theorems": [
    "C17_finalized_once_by_own_transaction",
    "C17_nonce_finalized_once",
    "C17_nothing_after_finalization"
   ],
   "note": ""
  },
  {
   "property": "C18",
   "status": "proved",
   "theorems": [
    "C18_once",
    "C18_only_failures",
    "C18_never_otherwise",
    "C18_fate",
    "C18_repaid_is_paid"
   ],
   "note": "Under upgrades that keep the nonce. A trap in a reimbursement callback quarantines the reimbursement even if the ledger refused it: it then stays unpaid (C18_fate allows it)."
  },
  {
   "property": "C19",
   "status": "proved",
   "theorems": [
    "C19_account",
    "C19_amount"
   ],
   "note": "The penalty on a failed token burn is existential here; its exact value is in C25."
  },
  {
   "property": "C20",
   "status": "proved",
   "theorems": [
    "C20_replacement_only_bumps_fees",
    "C20_only_when_estimate_not_covered",
    "C20_stops_at_first_unaffordable",
    "C20_unaffordable_iff"
   ],
   "note": ""
  },
  {
   "property": "C21",
   "status": "proved",
   "theorems": [
    "C21_queue",
    "C21_in_flight",
    "C21_no_overtaking"
   ],
   "note": ""
  },
  {
   "property": "C22",
   "status": "proved",
   "theorems": [
    "C22_each_signature_recorded",
    "C22_recorded_iff_waiting_for_signature",
    "C22_filed_under_its_withdrawal",
    "C22_moved_and_appended"
   ],
   "note": ""
  },
  {
   "property": "C23",
   "status": "proved",
   "theorems": [
    "C23_status",
    "C23_search",
    "C23_unanswered"
   ],
   "note": "C23_status (status of any burn index), C23_search (search entries are exactly the matching accepted withdrawals with their stage), C23_unanswered (only a search for a text that is not an address is refused). The transaction shown is the one whose hash the receipt names."
  },
  {
   "property": "C24",
   "status": "proved",
   "theorems": [
    "C24_result",
    "C24_rejected",
    "C24_recorded",
    "C24_one_answer"
   ],
   "note": "Every answer of a native withdrawal call is one of the listed results, with the ledger operations and events of each; the trap case includes traps injected by the environment."
  },
  {
   "property": "C25",
   "status": "proved",
   "theorems": [
    "C25_result",
    "C25_rejected",
    "C25_recorded",
    "C25_token_burn_failed"
   ],
   "note": "Every answer of an ERC20 withdrawal call is one of the listed results, with the ledger operations, fee histories and events of each; the failed token burn records the exact reimbursement."
  },
  {
   "property": "C26",
   "status": "proved",
   "theorems": [
    "C26_recorded",
    "C26_goes_on"
   ],
   "note": "for every reachable state without nonce rollback: once the ledger has answered the burn, delivering the answer records the withdrawal of exactly what was burned and answers with it; block numbers fit in u64; traps injected from outside are C58"
  },
  {
   "property": "C27",
   "status": "proved",
   "theorems": [
    "C27_one_call_per_user",
    "C27_at_most_100",
    "C27_refused",
    "C27_guards_released",
    "C27_not_locked_out"
   ],
   "note": "Any environment. in_flight is stated through the call history and outcomes."
  },
  {
   "property": "C28",
   "status": "proved",
   "theorems": [
    "C28_never_two",
    "C28_second_start_does_nothing",
    "C28_can_start_again"
   ],
   "note": "Any environment; includes the fee refresh made inside other functions."
  },
  {
   "property": "C29",
   "status": "proved",
   "theorems": [
    "C29_settled",
    "C29_native",
    "C29_fees"
   ],
   "note": "The books as sums over the recorded deposits and settlements; histories in which upgrades do not lower the nonce."
  },
  {
   "property": "C30",
   "status": "proved",
   "theorems": [
    "C30_erc20"
   ],
   "note": "Per contract, over the recorded deposits and successful settlements; histories in which upgrades do not lower the nonce."
  },
  {
   "property": "C31",
   "status": "partial",
   "theorems": [
    "C31_finalizes",
    "C31_batch",
    "C31_zero_refuted",
    "C31_missing_refuted"
   ],
   "note": "Proved for single events (C31_finalizes) and for a whole delivery of receipts (C31_batch), assuming no token is registered on the native ledger, native deposits below 2^256-1, withdrawals of more than zero tokens, and a receipt for each withdrawal asked about. C31_zero_refuted and C31_missing_refuted show that the last two conditions are needed: the full claim is false of the code."
  },
  {
   "property": "C32",
   "status": "proved",
   "theorems": [
    "C32_native",
    "C32_token",
    "C32_shared_ledger_refuted"
   ],
   "note": "C32_native, C32_token: all reachable states when no token is registered on the native ledger (C32_shared_ledger_refuted: false otherwise)."
  },
  {
   "property": "C33",
   "status": "proved",
   "theorems": [
    "C33_upgrade_restores_state",
    "C33_replay_restores_state"
   ],
   "note": "For every reachable configuration of the system model under histories in which no upgrade lowers the transaction nonce (see C55)."
  },
  {
   "property": "C34",
   "status": "proved",
   "theorems": [
    "C34_log_is_append_only",
    "C34_single_init_first",
    "C34_replay_rejects_bad_logs",
    "C34_recorded_iff_applied"
   ],
   "note": "No assumption on the operator."
  },
  {
   "property": "C35",
   "status": "partial",
   "theorems": [
    "C35_paging_returns_the_log",
    "C35_page",
    "C35_start_wraps_refuted"
   ],
   "note": "Exact for logs below 2^32 events. Refuted for a start index of 2^32 or more: the code truncates it to 32 bits (C35_start_wraps_refuted)."
  },
  {
   "property": "C36",
   "status": "proved",
   "theorems": [
    "C36_always_valid",
    "C36_upgrade_changes_what_it_names",
    "C36_upgrade_accepted_iff",
    "C36_upgrade_of_the_canister",
    "C36_rejected_upgrade_changes_nothing"
   ],
   "note": "State-level theorems hold for all states and arguments; the canister-level ones for histories in which no upgrade lowers the nonce."
  },
  {
   "property": "C37",
   "status": "proved",
   "theorems": [
    "C37_init_gives_valid_empty_minter",
    "C37_init_accepted_iff"
   ],
   "note": "Iff characterisation of acceptance plus the full initial state."
  },
  {
   "property": "C38",
   "status": "proved",
   "theorems": [
    "C38_unique",
    "C38_only_manager",
    "C38_accepted",
    "C38_refused",
    "C38_forever"
   ],
   "note": "tokens unique, registered only by the manager, never changed or removed"
  },
  {
   "property": "C39",
   "status": "proved",
   "theorems": [
    "C39_multi_key_map_is_a_table",
    "C39_dedup_multi_key_map_is_a_table",
    "C39_table_keys_unique"
   ],
   "note": "FromIterator (map.rs 206-216), used only in tests, is not modelled."
  },
  {
   "property": "C40",
   "status": "proved",
   "theorems": [
    "C40_checked_operations",
    "C40_conversions"
   ],
   "note": ""
  },
  {
   "property": "C41",
   "status": "partial",
   "theorems": [
    "C41_calldata_round_trip",
    "C41_only_transfers_decode",
    "C41_calldata_layout",
    "C41_decoder_panics_refuted",
    "C41_decoder_panics_iff"
   ],
   "note": "Round trip and uniqueness proved. One shape is not rejected but panics: an address word with non-zero padding (C41_decoder_panics_refuted, characterised by C41_decoder_panics_iff)."
  },
  {
   "property": "C42",
   "status": "proved",
   "theorems": [
    "C42_payload_determines_transaction",
    "C42_raw_bytes_determine_transaction",
    "C42_payload_is_not_raw",
    "C42_network_reads_back",
    "C42_no_other_bytes"
   ],
   "note": "For field values within their Rust types and payloads below 2^64 bytes."
  },
  {
   "property": "C43",
   "status": "proved",
   "theorems": [
    "C43_mint_memo_decodes",
    "C43_burn_memo_decodes",
    "C43_deposits_differ",
    "C43_reimbursements_differ",
    "C43_not_confused",
    "C43_erc20_burns_differ",
    "C43_memos_unique",
    "C43_native_burns_refuted",
    "C43_history_unique",
    "C43_history_mints_decode",
    "C43_history_burns_decode"
   ],
   "note": "CBOR bytes of memos modelled (Cbor.v); for whole histories C43_history_* need only that inputs fit their types; C43_native_burns_refuted shows that burns of native tokens to one address share a memo."
  },
  {
   "property": "C44",
   "status": "proved",
   "theorems": [
    "C44_amounts",
    "C44_naturals",
    "C44_principals",
    "C44_identifiers",
    "C44_sources",
    "C44_amounts_prefix_free"
   ],
   "note": "encoders and decoders of cbor/ modelled, with the conventions of minicbor taken from its documentation"
  },
  {
   "property": "C45",
   "status": "proved",
   "theorems": [
    "C45_text_round_trip",
    "C45_text_accepted_iff",
    "C45_words",
    "C45_destination"
   ],
   "note": "Keccak is an arbitrary function returning 32 bytes."
  },
  {
   "property": "C46",
   "status": "proved",
   "theorems": [
    "C46_logs",
    "C46_logs_too_large",
    "C46_block",
    "C46_block_panics",
    "C46_receipt",
    "C46_no_receipt",
    "C46_receipt_total",
    "C46_finalized_count",
    "C46_latest_count",
    "C46_counts_total",
    "C46_send",
    "C46_fee_history"
   ],
   "note": "Exact characterisation of what is made of the providers' answers, for every answer: logs, blocks, receipts, counts, fee histories, sending. A block without base fee from any provider makes the call panic (C46_block_panics). The blocks, counts and fee histories are in practice asked of a single provider, whose answer is then used as such."
  },
  {
   "property": "C47",
   "status": "partial",
   "theorems": [
    "C47_majority_refuted",
    "C47_majority_partial"
   ],
   "note": "Refuted: 2 of 5 agreeing providers are enough (C47_majority_refuted); holds with at most three answers from different providers (C47_majority_partial)."
  },
  {
   "property": "C48",
   "status": "proved",
   "theorems": [
    "C48_median",
    "C48_estimate",
    "C48_errors",
    "C48_max_price",
    "C48_cache",
    "C48_estimates_in_use"
   ],
   "note": ""
  },
  {
   "property": "C49",
   "status": "proved",
   "theorems": [
    "C49_retries"
   ],
   "note": "For every oracle of answers and prices"
  },
  {
   "property": "C50",
   "status": "proved",
   "theorems": [
    "C50_chain_ids_one_to_one",
    "C50_two_providers",
    "C50_published_ids"
   ],
   "note": ""
  },
  {
   "property": "C51",
   "status": "partial",
   "theorems": [
    "C51_blocked_refuted",
    "C51_corrupted_refuted",
    "C51_mint_starts_partial",
    "C51_mint_moves_on_partial"
   ],
   "note": "False of the code: C51_blocked_refuted and C51_corrupted_refuted give histories. The _partial theorems prove progress when every waiting native deposit covers the fee."
  },
  {
   "property": "C52",
   "status": "partial",
   "theorems": [
    "C52_native_missed_refuted",
    "C52_filter_partial"
   ],
   "note": "full statement refuted: native deposits are filtered out once any token is registered; proved exactly which deposits the filter matches"
  },
  {
   "property": "C53",
   "status": "partial",
   "theorems": [
    "C53_refused_partial",
    "C53_burn_refused_partial",
    "C53_refuted",
    "C53_never_refunded",
    "C53_fee_lost_refuted"
   ],
   "note": "The full claim is false of the code (C53_refuted: the fee is taken, then the code panics because the amount is below the fee; C53_fee_lost_refuted: the burn is refused and the fee is lost). Proved: errors other than a refused burn take nothing; after a refused native burn only the fee was taken; with ledgers that follow the standards no fee is ever refunded (C53_never_refunded)."
  },
  {
   "property": "C54",
   "status": "partial",
   "theorems": [
    "C54_recorded_partial",
    "C54_signed",
    "C54_zero_fee_refuted"
   ],
   "note": "Proved when the configured minimum tip is positive; refuted for a zero minimum tip with zero base fee and rewards (C54_zero_fee_refuted). Signing never panics (C54_signed)."
  },
  {
   "property": "C55",
   "status": "partial",
   "theorems": [
    "C55_override_reuses_nonce_refuted",
    "C55_override_upwards_partial"
   ],
   "note": "refuted in general (finding 2): an upgrade may set the nonce back; proved for overrides that do not go below the next nonce"
  },
  {
   "property": "C56",
   "status": "proved",
   "theorems": [
    "C56_minted_is_real"
   ],
   "note": "Any environment."
  },
  {
   "property": "C57",
   "status": "partial",
   "theorems": [
    "C57_owed_partial",
    "C57_refuted"
   ],
   "note": "proved for every error that the minter expects; false for BadFee, TooOld, CreatedInFuture and Duplicate, which the code treats as bugs and panics on after the gas fee was burned (C57_refuted)"
  },
  {
   "property": "C58",
   "status": "partial",
   "theorems": [
    "C58_matched_partial",
    "C58_refuted"
   ],
   "note": "proved for histories in which no callback traps for an outside reason and blocks fit in u64; false with such traps (C58_refuted): there is no scope guard around the callback of the burn"
  },
  {
   "property": "C59",
   "status": "partial",
   "theorems": [
    "C59_forward_partial",
    "C59_back_refuted"
   ],
   "note": "C59_forward_partial: the status never goes back over the stages not found, pending, created or sent, failed, ended. C59_back_refuted: within the third stage it goes back from sent to created; the full claim is false of the code."
  },
  {
   "property": "C60",
   "status": "partial",
   "theorems": [
    "C60_waiting_partial",
    "C60_quarantined_refuted"
   ],
   "note": "C60_waiting_partial: it is owed or quarantined. C60_quarantined_refuted: a quarantined reimbursement stays reported as waiting; the full claim is false of the code."
  },
  {
   "property": "C61",
   "status": "proved",
   "theorems": [
    "C61_quote",
    "C61_charged"
   ],
   "note": "C61_quote (what is quoted, and when), C61_charged (a token withdrawal that read no new fee history is charged the quote)."
  },
  {
   "property": "C62",
   "status": "proved",
   "theorems": [
    "C62_event_survives",
    "C62_log_survives",
    "C62_events_differ",
    "C62_history_survives"
   ],
   "note": "all 21 kinds of events; C62_history_survives: the log of every history whose inputs fit their types"
  },
  {
   "property": "C63",
   "status": "proved",
   "theorems": [
    "C63_mint_memo_size",
    "C63_burn_memo_size",
    "C63_large_log_index_refuted",
    "C63_history_burn_memos"
   ],
   "note": "C63_history_burn_memos for every burn of every history; with the counterexample C63_large_log_index_refuted for log indices that do not fit in 64 bits (93 bytes)"
  },
  {
   "property": "C64",
   "status": "proved",
   "theorems": [
    "C64_deposits_can_be_minted"
   ],
   "note": "progress from every reachable state (existence of a finishing schedule), whether or not a round is under way"
  },
  {
   "property": "C65",
   "status": "proved",
   "theorems": [
    "C65_debts_can_be_repaid"
   ],
   "note": "progress from every reachable state (existence of a finishing schedule), whether or not a round is under way"
  },
  {
   "property": "C66",
   "status": "proved",
   "theorems": [
    "C66_told",
    "C66_one_meaning",
    "C66_page",
    "C66_nothing_lost",
    "C66_no_hash"
   ],
   "note": "page by page for histories (C66_page), injective (C66_one_meaning, C66_nothing_lost)"
  },
  {
   "property": "C67",
   "status": "proved",
   "theorems": [
    "C67_answered",
    "C67_settings",
    "C67_tokens",
    "C67_balances",
    "C67_estimate",
    "C67_position",
    "C67_only_swap_canister",
    "C67_swap_canister_refuted"
   ],
   "note": "with the finding C67_swap_canister_refuted: nothing ever sets the swap canister"
  },
  {
   "property": "C68",
   "status": "proved",
   "theorems": [
    "C68_withdrawals_can_be_finalized"
   ],
   "note": "progress from every reachable state (existence of a finishing schedule), whether or not a round is under way; assumes that withdrawals without a transaction can pay the price, no token on the native ledger and no ERC-20 withdrawal of zero tokens"
  },
  {
   "property": "C69",
   "status": "partial",
   "theorems": [
    "C69_answer",
    "C69_fails_iff",
    "C69_stays_answered_partial",
    "C69_after_upgrade_refuted",
    "C69_low_block_refuted"
   ],
   "note": "the answer is characterised in full (C69_answer, C69_fails_iff); it is missing (the call fails) until a block has been observed after installation or upgrade, and after a provider reported a low block: C69_after_upgrade_refuted, C69_low_block_refuted"
  },
  {
   "property": "C70",
   "status": "partial",
   "theorems": [
    "C70_all_or_nothing",
    "C70_recorded_partial",
    "C70_one_spoils_all",
    "C70_looked_at_again_refuted",
    "C70_unregistered_token_stops"
   ],
   "note": "all-or-nothing in full (C70_all_or_nothing); everything is recorded with truthful providers, registered tokens and an untouched position (C70_recorded_partial); false when blocks are looked at again: C70_looked_at_again_refuted; and a deposit of an unregistered token, while no token is registered, stops recording for good (C70_unregistered_token_stops)"
  },
  {
   "property": "C71",
   "status": "partial",
   "theorems": [
    "C71_owed_is_shown_partial",
    "C71_fee_is_hidden",
    "C71_fee_refuted"
   ],
   "note": "proved for failed transactions; false for gas fees whose token burn failed, which are never shown: C71_fee_is_hidden, C71_fee_refuted"
  },
  {
   "property": "C72",
   "status": "proved",
   "theorems": [
    "C72_calls_end",
    "C72_rounds_end",
    "C72_running_ends",
    "C72_can_end"
   ],
   "note": "A function waits until its answer arrives; that answers do arrive is up to the ledgers and providers. For the number of queries of a scrape see C08."
  },
  {
   "property": "C73",
   "status": "proved",
   "theorems": [
    "C73_topic",
    "C73_understood",
    "C73_refused",
    "C73_arrives",
    "C73_not_for_nothing",
    "C73_funds_kept_refuted"
   ],
   "note": "A call that names no principal leaves its funds with the minter without credit: C73_funds_kept_refuted shows it for a witness."
  },
  {
   "property": "C74",
   "status": "proved",
   "theorems": [
    "C74_was_made",
    "C74_accepted_arrived",
    "C74_native",
    "C74_token",
    "C74_fee_on_transfer_refuted"
   ],
   "note": "For tokens that move what they are asked to; false for a token that takes a fee: C74_fee_on_transfer_refuted. On the chain's side the bound counts what came in through the contract only."
  },
  {
   "property": "C75",
   "status": "proved",
   "theorems": [
    "C75_native",
    "C75_token",
    "C75_transactions_native",
    "C75_transactions_token"
   ],
   "note": "C75_native, C75_token: what is still owed; C75_transactions_native, C75_transactions_token: the signed transactions that may follow. For native arrivals below 2^256-1, no token on the native ledger, and upgrades that keep the nonce."
  },
  {
   "property": "C76",
   "status": "proved",
   "theorems": [
    "C76_is_modelled",
    "C76_rules",
    "C76_own_request",
    "C76_native_cost",
    "C76_erc20_cost"
   ],
   "note": "C76_own_request; the costs of whole calls (C76_native_cost, C76_erc20_cost) if the ledger fee known to the minter is right and at most the withdrawal fee; C76_is_modelled and C76_rules discharge the assumptions about ledgers."
  },
  {
   "property": "C77",
   "status": "proved",
   "theorems": [
    "C77_supply",
    "C77_native",
    "C77_token",
    "C77_on_chain_native",
    "C77_on_chain_token"
   ],
   "note": "C77_supply, C77_native, C77_token; C77_on_chain_native and C77_on_chain_token under the assumptions of C75. No token on the native ledger; upgrades keep the nonce."
  },
  {
   "property": "C78",
   "status": "proved",
   "theorems": [
    "C78_in_full",
    "C78_deposit_arrives",
    "C78_never_refused",
    "C78_own_account",
    "C78_own_account_refuted"
   ],
   "note": "C78_in_full, C78_deposit_arrives, C78_never_refused; the exception is proved as C78_own_account and C78_own_account_refuted."
  },
  {
   "property": "C79",
   "status": "proved",
   "theorems": [
    "C79_fee_history_refuted",
    "C79_fee_history_token_refuted",
    "C79_logs",
    "C79_receipt",
    "C79_no_receipt",
    "C79_one_fails",
    "C79_one_fails_refuted",
    "C79_was_made",
    "C79_was_mined",
    "C79_native",
    "C79_token",
    "C79_latest_block_refuted"
   ],
   "note": "C79_logs, C79_receipt, C79_no_receipt, C79_was_made, C79_was_mined, C79_native, C79_token, C79_one_fails; the limits are proved as C79_one_fails_refuted (two providers) and C79_latest_block_refuted (a question put to one provider). Signed transactions are assumed to have different hashes; upgrades keep the nonce."
  },
  {
   "property": "C80",
   "status": "proved",
   "theorems": [
    "C80_one_upgrade",
    "C80_as_if_stopped",
    "C80_tolerant",
    "C80_minted_at_most_once",
    "C80_minted_twice_refuted",
    "C80_burn_lost_refuted"
   ],
   "note": "C80_one_upgrade, C80_as_if_stopped, C80_minted_at_most_once; the limits are proved as C80_minted_twice_refuted and C80_burn_lost_refuted."
  },
  {
   "property": "C81",
   "status": "proved",
   "theorems": [
    "C81_reason",
    "C81_too_small_refuted",
    "C81_never_too_small",
    "C81_large_enough",
    "C81_low_fee"
   ],
   "note": "C81_reason, C81_low_fee; the exception is proved as C81_too_small_refuted and C81_never_too_small."
  },
  {
   "property": "C82",
   "status": "proved",
   "theorems": [
    "C82_signature_is_the_minters",
    "C82_accepted_as_the_minters",
    "C82_one_sender"
   ],
   "note": "The elliptic-curve library is a hypothesis: an id it finds recovers the key. The network's other rules (balance, fee market) are not part of it."
  },
  {
   "property": "C83",
   "status": "partial",
   "theorems": [
    "C83_registration_partial",
    "C83_code_hashes_refuted"
   ],
   "note": "Everything but the hashes of the code is proved. The code itself violates the rest: the two compiled files are exchanged (C83_code_hashes_refuted)."
  },
  {
   "property": "C84",
   "status": "partial",
   "theorems": [
    "C84_longest_fitting_partial",
    "C84_limit_refuted",
    "C84_sorted",
    "C84_all_buffers"
   ],
   "note": "Proved for every limit of at least 14 bytes, the size of an empty log. Below it the code itself gives out the whole log (C84_limit_refuted)."
  },
  {
   "property": "C85",
   "status": "proved",
   "theorems": [
    "C85_asked_of_own_providers",
    "C85_endpoints_told_apart",
    "C85_own_questions",
    "C85_all_tokens_asked_for",
    "C85_same_filter"
   ],
   "note": "Questions to providers with the minter's address and the API keys as parameters; what the RPC canister does with them is outside."
  },
  {
   "property": "C86",
   "status": "proved",
   "theorems": [
    "C86_address_is_the_account",
    "C86_key_that_signs",
    "C86_address_never_traps",
    "C86_told_forever",
    "C86_one_key",
    "C86_sender_is_the_account_told",
    "C86_counts_of_the_sender"
   ],
   "note": "The decoding and encoding of keys are arbitrary functions. The functions that need the key are not tied to those of Sys.v: anyone may ask at any moment. That the management canister keeps its keys is a hypothesis."
  },
  {
   "property": "C87",
   "status": "proved",
   "theorems": [
    "C87_dated",
    "C87_oldest"
   ],
   "note": ""
  },
  {
   "property": "C88",
   "status": "proved",
   "theorems": [
    "C88_chronological",
    "C88_time_of_the_step",
    "C88_accepted_after_its_date"
   ],
   "note": ""
  }
 ]
}