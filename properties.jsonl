{"id": "C01", "title": "A deposit is minted at most once", "statement": "For every deposit log (transaction hash, log index) the ledgers receive at most one successful user mint, whatever the interleaving of the mint timer with other messages, ledger replies and rejections, traps in the reply callback, and upgrades of a stopped canister.", "quantifier": "all schedules of timer firings, ledger outcomes, callback traps and (stopped) upgrades; all sets of deposits", "why_tests_cant": "double mints need a particular interleaving of two timers, a reply and a trap; a test fixes one schedule", "anchors": ["minter/src/deposit.rs::mint", "minter/src/guard/mod.rs::TimerGuard", "minter/src/state.rs::State::record_successful_mint", "minter/src/state.rs::State::record_quarantined_deposit"]}
{"id": "C02", "title": "A mint pays the depositor the deposited amount on the right ledger", "statement": "Every ledger transfer made for a deposit goes to the principal and subaccount named in the log, on the native ledger for a native deposit and on the ledger registered for the contract for an ERC20 deposit, for exactly the deposited value (minus the configured native deposit fee for native deposits), with a memo naming sender, transaction hash and log index.", "quantifier": "all reachable states, deposits and fee settings", "why_tests_cant": "must hold for every deposit and every token table, not sampled ones", "anchors": ["minter/src/deposit.rs::mint", "minter/src/deposit.rs::calculate_deposit_amount", "minter/src/memo.rs::MintMemo"]}
{"id": "C03", "title": "A deposit has exactly one fate and fates are final", "statement": "At every point of every history a deposit source is in at most one of the sets accepted-waiting, minted, invalid/quarantined; once minted or invalid it stays there for ever, unchanged.", "quantifier": "all event histories", "why_tests_cant": "needs an invariant over all histories", "anchors": ["minter/src/state.rs::State::record_event_to_mint", "minter/src/state.rs::State::record_invalid_deposit", "minter/src/state.rs::State::record_successful_mint", "minter/src/state.rs::State::record_quarantined_deposit"]}
{"id": "C04", "title": "An accepted deposit is never lost", "statement": "Once a deposit has been accepted, in every later state it is waiting to be minted with unchanged content, minted with unchanged content, or quarantined.", "quantifier": "all event histories after acceptance", "why_tests_cant": "absence of loss is a statement about all later histories", "anchors": ["minter/src/state.rs::State", "minter/src/state/audit.rs::apply_state_transition"]}
{"id": "C05", "title": "Deposit log parsing accepts exactly the well-formed confirmed logs and decodes them faithfully", "statement": "A log entry is parsed into a deposit iff it is mined (all block fields present), not removed, has four topics with the deposit event topic first, 64 data bytes, left-zero-padded addresses and a valid principal; the deposit carries exactly the sender, token, amount, principal and subaccount emitted by the helper contract. Pending entries are ignored; all other failures carry the entry's source. Every deposit on record as accepted or as refused was in an answer of the providers, and a refused one has the defect that is recorded as the reason.", "quantifier": "all log entries (arbitrary topics and data)", "why_tests_cant": "input space is all byte strings", "anchors": ["minter/src/deposit_logs/parser.rs::parse_log", "minter/src/eth_types/mod.rs::Address", "evm_helper_contract/src/Deposit.sol"]}
{"id": "C06", "title": "Principal decoding from a 32-byte word is exact", "statement": "Decoding the word [len, bytes.., 0..] returns exactly the principal for every principal of 1..29 bytes other than the anonymous one, and every accepted word is of that shape; the management and anonymous principals are always rejected; decoding never panics.", "quantifier": "all byte strings of any length", "why_tests_cant": "all byte strings", "anchors": ["minter/src/deposit_logs/mod.rs::parse_principal_from_slice"]}
{"id": "C07", "title": "Log scraping covers every block exactly once and records what it skipped", "statement": "While scraping a range, every block from the first to the reported last-scraped block was either covered by exactly one successful log query or recorded as skipped; no block beyond the range is queried; on success the last-scraped block is the end of the range.", "quantifier": "all block ranges and all sequences of RPC answers (logs, too-large errors, other errors)", "why_tests_cant": "the bisection explores an unbounded tree of answers", "anchors": ["minter/src/deposit.rs::scrape_until_block", "minter/src/deposit.rs::scrape_block_range", "minter/src/numeric/range.rs::BlockRangeInclusive"]}
{"id": "C08", "title": "Log scraping always terminates", "statement": "For every range and every behaviour of the RPC providers the bisection issues finitely many queries, at most n(1 + log2 of min(n,1000)) for n blocks, and then stops; the target block is asked for at most three times per run.", "quantifier": "all ranges and all answer sequences", "why_tests_cant": "termination", "anchors": ["minter/src/deposit.rs::scrape_block_range"]}
{"id": "C09", "title": "Block range splitting is an exact partition", "statement": "Splitting a range into chunks gives consecutive non-overlapping ranges of at most the chunk size whose concatenation is the range; halves are a partition with both halves non-empty when there are at least two blocks; joining adjacent ranges gives their union.", "quantifier": "all u256 ranges and chunk sizes", "why_tests_cant": "all sizes, including the u256 boundary", "anchors": ["minter/src/numeric/range.rs"]}
{"id": "C10", "title": "The last scraped block never moves backwards", "statement": "Absent an operator upgrade that sets it, the last scraped block number never decreases, across all timers, retries and RPC answers.", "quantifier": "all histories of scrape runs", "why_tests_cant": "history property", "anchors": ["minter/src/deposit.rs::scrape_logs", "minter/src/deposit.rs::scrape_until_block"]}
{"id": "C11", "title": "Scraping keeps the configured distance to the chain head", "statement": "The target block of a scrape is the provider's block minus the per-network safety margin (20 for BSC, 12 for Arbitrum, Base, Optimism, Avalanche and Fantom, 0 otherwise), never above it, and no log above it is ever requested.", "quantifier": "all networks, block numbers and stored observations", "why_tests_cant": "all block numbers including underflow", "anchors": ["minter/src/deposit.rs::update_last_observed_block_number"]}
{"id": "C12", "title": "Scraping on request is rate limited", "statement": "A request to scrape is accepted iff the asked block is newer than the last observed one and at least one minute elapsed since the last observation; none is accepted within a minute after a scrape started; two accepted requests are at least a minute apart.", "quantifier": "all times (u64) and block numbers", "why_tests_cant": "all timestamps incl. saturation", "anchors": ["minter/src/deposit.rs::validate_log_scraping_request", "minter/src/main.rs::request_scraping_logs"]}
{"id": "C13", "title": "An accepted withdrawal is in exactly one lifecycle stage and is never lost", "statement": "In every reachable state every accepted withdrawal is in exactly one stage: waiting, transaction created, sent (possibly with a replacement being prepared under the same nonce), or finalized; it never leaves the tables.", "quantifier": "all histories of the withdrawal pipeline (without an operator lowering the nonce)", "why_tests_cant": "history invariant over seven tables", "anchors": ["minter/src/state/transactions/mod.rs::WithdrawalTransactions"]}
{"id": "C14", "title": "Nonces are consecutive and never reused", "statement": "Absent an operator override the k-th transaction created gets nonce initial+k; two different withdrawals never share a nonce; a withdrawal keeps one nonce for ever. An override that does not go below the next nonce keeps uniqueness.", "quantifier": "all histories (for uniqueness: without an operator lowering the nonce, see C55)", "why_tests_cant": "history property", "anchors": ["minter/src/state/transactions/mod.rs::record_created_transaction", "minter/src/withdraw.rs::create_transactions_batch"]}
{"id": "C15", "title": "Every transaction pays what the withdrawal asked for", "statement": "Every transaction ever created, replaced, signed, sent or finalized for a withdrawal has the minter's chain id, the requested recipient (or token contract with transfer(recipient, amount) calldata for ERC20, carrying no native value), and data fixed by the request.", "quantifier": "all histories, including all fee-bump sequences (without an operator lowering the nonce)", "why_tests_cant": "history property", "anchors": ["minter/src/state/transactions/mod.rs::create_transaction", "minter/src/tx.rs::Eip1559TransactionRequest"]}
{"id": "C16", "title": "Fees never exceed what the user was charged", "statement": "For every transaction of a native withdrawal amount + gas_limit*max_fee_per_gas never exceeds the withdrawn amount; for ERC20, gas_limit*max_fee_per_gas never exceeds the fee burned by the user; this survives every resubmission. Nothing of the fee burned for a token withdrawal is held back: every transaction for it offers that fee divided by its gas limit.", "quantifier": "all requests of less than 2^256-1 wei, gas estimates and resubmission sequences (without an operator lowering the nonce)", "why_tests_cant": "all numbers up to 2^256 and all sequences", "anchors": ["minter/src/state/transactions/mod.rs::create_transaction", "minter/src/tx.rs::resubmit"]}
{"id": "C17", "title": "A withdrawal is finalized at most once, by a transaction that was sent for it", "statement": "Each withdrawal and each nonce is finalized at most once, with a transaction whose hash equals the receipt's and that had been signed for that withdrawal; afterwards no competing transaction for it remains.", "quantifier": "all histories and receipts (without an operator lowering the nonce)", "why_tests_cant": "history property", "anchors": ["minter/src/state/transactions/mod.rs::record_finalized_transaction"]}
{"id": "C18", "title": "A withdrawal is reimbursed at most once and only if it failed", "statement": "A reimbursement is requested only for a withdrawal whose transaction was finalized with failure or for a burned ERC20 fee whose token burn failed; it is paid at most once on the ledger in every schedule, and never for a successful or in-flight withdrawal.", "quantifier": "all histories, schedules and traps", "why_tests_cant": "schedules with traps and retries", "anchors": ["minter/src/withdraw.rs::process_reimbursement", "minter/src/state/transactions/mod.rs::record_reimbursement_request"]}
{"id": "C19", "title": "A reimbursement pays the right person the right amount", "statement": "The reimbursement of a failed withdrawal goes to the account that burned the tokens: the unsent native amount for native, the full token amount for ERC20 on the token's ledger, or the burned fee minus ledger fee penalty for a failed token burn.", "quantifier": "all failed withdrawals", "why_tests_cant": "all amounts and accounts", "anchors": ["minter/src/state/transactions/mod.rs::record_finalized_transaction", "minter/src/withdraw.rs::process_reimbursement", "minter/src/main.rs::withdraw_erc20"]}
{"id": "C20", "title": "Resubmission raises the fee enough and changes nothing else", "statement": "A replacement transaction keeps nonce, recipient, data, gas limit and chain, raises the priority fee by at least 10% (or to the largest 256-bit number) and never lowers the max fee; it is only made when the old one no longer covers the current fee estimate; replacement stops at the first withdrawal that cannot afford it.", "quantifier": "all transactions and fee estimates", "why_tests_cant": "all u256 values", "anchors": ["minter/src/tx.rs::resubmit_transaction_price", "minter/src/tx.rs::resubmit", "minter/src/state/transactions/mod.rs::create_resubmit_transactions"]}
{"id": "C21", "title": "Withdrawals are processed first-come first-served with bounded batches", "statement": "Requests are handled in arrival order (a request that cannot afford the fee moves to the back, nothing is dropped); at most 5 per batch, and at most 1000 nonces are ever in flight.", "quantifier": "all histories and batch sizes", "why_tests_cant": "history property", "anchors": ["minter/src/state/transactions/mod.rs::withdrawal_requests_batch", "minter/src/withdraw.rs"]}
{"id": "C22", "title": "Only created transactions get signed, and a signature is filed under the transaction it signs", "statement": "A signed transaction is recorded iff exactly that unsigned transaction is the current created one for its nonce; it is then moved, not copied, and appended after earlier attempts.", "quantifier": "all histories (without an operator lowering the nonce)", "why_tests_cant": "history property", "anchors": ["minter/src/state/transactions/mod.rs::record_signed_transaction"]}
{"id": "C23", "title": "Withdrawal status is always answerable and truthful", "statement": "For every reachable state the status query for any burn index and the status search never panic, and the status reported equals the stage the withdrawal is in (not found only if it was never accepted).", "quantifier": "all reachable states and queries", "why_tests_cant": "the code has panics guarded only by invariants", "anchors": ["minter/src/state/transactions/mod.rs::transaction_status", "minter/src/state/transactions/mod.rs::withdrawal_status"]}
{"id": "C24", "title": "A native withdrawal request records exactly what was burned", "statement": "A successful native withdrawal call rejects anonymous callers, the zero address and amounts below the minimum without touching any ledger; otherwise the amount recorded for payout is exactly the amount burned from the caller, i.e. the asked amount minus the configured withdrawal fee, and the fee moved is the configured fee.", "quantifier": "all callers, amounts, fee settings and ledger outcomes", "why_tests_cant": "all amounts", "anchors": ["minter/src/main.rs::withdraw_native_token"]}
{"id": "C25", "title": "An ERC20 withdrawal request records exactly what was burned", "statement": "A successful ERC20 withdrawal call records exactly the burned token amount and the burned native fee, bound to their burn indices; if the token burn fails after the fee burn, a reimbursement of the fee (minus penalty) is recorded unless it is zero.", "quantifier": "all callers, amounts and ledger outcomes", "why_tests_cant": "all outcomes of four nested calls", "anchors": ["minter/src/main.rs::withdraw_erc20"]}
{"id": "C26", "title": "A burn is never lost to a code panic", "statement": "After a successful burn, recording the withdrawal can never panic in any reachable state (so the burned amount is always matched by a recorded request), provided ledgers return fresh block indices.", "quantifier": "all reachable states", "why_tests_cant": "absence of panics in all states", "anchors": ["minter/src/main.rs", "minter/src/state/transactions/mod.rs::record_withdrawal_request"]}
{"id": "C27", "title": "A user has at most one withdrawal call in flight and the system at most 100, and guards are always released", "statement": "In every schedule no two concurrent withdrawal calls of one principal run, at most 100 run overall, none starts when 100 requests are pending; when no call is in flight no guard is held, even after traps.", "quantifier": "all interleavings of calls, completions and traps", "why_tests_cant": "interleavings", "anchors": ["minter/src/guard/mod.rs::Guard", "minter/src/guard/mod.rs::retrieve_withdraw_guard"]}
{"id": "C28", "title": "Timer tasks of one kind never overlap", "statement": "At any time at most one instance of each of minting, scraping, reimbursement, retrieval and fee refresh runs, and after it ends or traps a new one can start.", "quantifier": "all interleavings", "why_tests_cant": "interleavings", "anchors": ["minter/src/guard/mod.rs::TimerGuard"]}
{"id": "C29", "title": "The native balance equals deposits minus on-chain spending", "statement": "In every reachable state the tracked native balance equals the sum of all accepted native deposits minus, over all finalized transactions, value plus fee if successful and fee if failed; total effective fees plus total unspent fees equals what users were charged.", "quantifier": "all histories", "why_tests_cant": "accounting identity over all histories", "anchors": ["minter/src/state.rs::NativeBalance", "minter/src/state.rs::update_balance_upon_withdrawal"]}
{"id": "C30", "title": "ERC20 balances equal deposits minus successful transfers, per contract", "statement": "For each token contract the tracked balance equals accepted deposits minus successfully finalized transfers of that contract; other contracts are unaffected.", "quantifier": "all histories and contracts", "why_tests_cant": "accounting identity", "anchors": ["minter/src/state.rs::Erc20Balances"]}
{"id": "C31", "title": "Finalization never panics on an honest receipt", "statement": "If the receipt respects EIP-1559 (effective price at most the max fee, gas used at most the limit), finalizing never panics in a reachable state: the charged fee covers the effective fee and the tracked balances cover the debit.", "quantifier": "all reachable states, all open withdrawals, all honest receipts and batches of them", "why_tests_cant": "panic absence in all states", "anchors": ["minter/src/state.rs::update_balance_upon_withdrawal", "minter/src/state.rs::NativeBalance::eth_balance_sub", "minter/src/state.rs::Erc20Balances::erc20_sub"]}
{"id": "C32", "title": "The minter is solvent", "statement": "In every reachable state of minter plus twin ledgers, the tracked native balance covers the whole supply of the native twin token plus native deposits still to be minted, withdrawals not yet finalized, reimbursements not yet paid, what a running call has burned without having recorded it, and the fees users paid that the network did not take, provided no token is registered on the native ledger; the same holds for each registered token. If a token is registered on the native ledger the claim is false.", "quantifier": "all schedules of deposits, mints, withdrawals, failures, reimbursements, traps and upgrades that do not lower the nonce, all ledger answers", "why_tests_cant": "global conservation law", "anchors": ["minter/src/state.rs", "minter/src/deposit.rs", "minter/src/withdraw.rs", "minter/src/main.rs"]}
{"id": "C33", "title": "An upgrade restores the state exactly", "statement": "Replaying the event log after any history (with the pre-upgrade sync event) succeeds and yields a state equivalent to the live one, including balances; only the order of waiting withdrawals may differ.", "quantifier": "all histories (calls, timers, answers, traps and upgrades) in which no upgrade argument lowers the transaction nonce (cf. C55)", "why_tests_cant": "all histories", "anchors": ["minter/src/state/audit.rs::replay_events", "minter/src/main.rs::emit_preupgrade_events", "minter/src/state.rs::State::is_equivalent_to"]}
{"id": "C34", "title": "The event log is append-only, starts with Init and has only one Init", "statement": "In every history the log only grows, its first event is the only Init, and replay rejects any log violating this; an event is recorded iff its state change was applied.", "quantifier": "all histories and logs", "why_tests_cant": "history", "anchors": ["minter/src/storage.rs", "minter/src/state/audit.rs"]}
{"id": "C35", "title": "Paging through the events returns the log exactly", "statement": "Fetching pages of any positive size one after another returns exactly the log in order; each page has at most 100 events; total count is the log length.", "quantifier": "all logs, starts and lengths", "why_tests_cant": "all logs", "anchors": ["minter/src/main.rs::get_events"]}
{"id": "C36", "title": "Upgrade arguments change exactly what they name or nothing", "statement": "An accepted upgrade changes exactly the settings supplied (a zero fee clears the fee) and leaves tables and balances alone; an argument giving an invalid configuration is rejected with the state unchanged. The settings in force are valid in every state the minter can be in: a key name that is not blank, a ledger that is not anonymous, a helper contract that is not the zero address, a positive minimum withdrawal that covers the ledger's transfer fee.", "quantifier": "all states and arguments", "why_tests_cant": "all combinations of ten optional fields", "anchors": ["minter/src/state.rs::State::upgrade", "minter/src/state.rs::State::validate_config"]}
{"id": "C37", "title": "Initialisation yields a valid, empty minter or fails", "statement": "From any init argument either an error is returned or the state has the given settings, passes validation, has empty tables and starts scraping right after the given block.", "quantifier": "all init arguments", "why_tests_cant": "all inputs", "anchors": ["minter/src/lifecycle.rs::TryFrom<InitArg> for State", "minter/src/state.rs::State::validate_config"]}
{"id": "C38", "title": "Tokens are registered only by the manager and never clash", "statement": "A token is added only when called by the ledger suite manager and only for the minter's chain; ledger id, contract address and symbol are pairwise unique; a registered token never changes or disappears.", "quantifier": "all histories of add calls", "why_tests_cant": "history", "anchors": ["minter/src/main.rs::add_erc20_token", "minter/src/state.rs::record_add_erc20_token", "minter/src/erc20.rs"]}
{"id": "C39", "title": "The two-key map behaves like an abstract map with two unique keys", "statement": "Any sequence of operations on MultiKeyMap/DedupMultiKeyMap behaves like a finite set of (key, alternative key, value) triples with both keys unique; failed inserts change nothing; lookups by either key agree.", "quantifier": "all operation sequences", "why_tests_cant": "unbounded sequences", "anchors": ["minter/src/map.rs::MultiKeyMap", "minter/src/map.rs::DedupMultiKeyMap"]}
{"id": "C40", "title": "Checked arithmetic is exact", "statement": "Each checked operation returns the mathematical result when it fits in 256 bits (and is defined) and nothing otherwise; conversions to and from byte arrays and naturals are lossless and reject only values over 256 bits.", "quantifier": "all u256 operands", "why_tests_cant": "2^512 operand pairs", "anchors": ["minter/src/checked_amount/mod.rs"]}
{"id": "C41", "title": "ERC20 transfer calldata round-trips and nothing else decodes", "statement": "Decoding the encoded call returns recipient and amount for all addresses and amounts; data of any other shape is rejected.", "quantifier": "all addresses, amounts and byte strings", "why_tests_cant": "all byte strings", "anchors": ["minter/src/state/transactions/mod.rs::TransactionCallData"]}
{"id": "C42", "title": "Signing payloads determine the transaction", "statement": "Two different transactions never have the same RLP signing payload nor the same raw signed bytes, so a signature or hash commits to chain id, nonce, fees, gas, recipient, amount and data. The format is that of the network (EIP-1559): a strict reader reads from the raw bytes the transaction and the signature they were made of, and reads no other bytes as that transaction.", "quantifier": "all pairs of transactions, all signatures, all byte strings", "why_tests_cant": "all pairs", "anchors": ["minter/src/tx.rs::rlp_inner", "minter/src/tx.rs::raw_bytes"]}
{"id": "C43", "title": "Ledger memos identify the operation", "statement": "Every memo decodes back to the operation it was made for. Different deposits get different memos, so do different reimbursements, the memo of a deposit is never that of a reimbursement, and no ledger ever holds two transfers of the minter with the same memo. The burns of different ERC20 withdrawals have different memos on the ledger of the token. (Burns of native tokens name only the destination address.)", "quantifier": "all memos, all trailing bytes, all histories", "why_tests_cant": "all values", "anchors": ["minter/src/memo.rs"]}
{"id": "C44", "title": "Stored amounts and identifiers survive serialization", "statement": "CBOR encoding of amounts (u256), naturals, principals, identifiers and event sources decodes to the same value, followed by exactly the remaining bytes.", "quantifier": "all values and all trailing bytes", "why_tests_cant": "all values", "anchors": ["minter/src/cbor/"]}
{"id": "C45", "title": "Addresses survive text and padded encodings", "statement": "Formatting then parsing an address is the identity, padded 32-byte words decode iff the 12 leading bytes are zero, a destination is accepted iff it is valid and non-zero.", "quantifier": "all addresses and strings", "why_tests_cant": "all strings", "anchors": ["minter/src/eth_types/mod.rs", "minter/src/address.rs"]}
{"id": "C46", "title": "RPC answers are only trusted when providers agree", "statement": "Logs, blocks and receipts are used only if all providers that answered agree and at least two answered; transaction counts likewise (finalized) or the minimum of at least two (latest); fee history needs a plurality winner; no result is invented.", "quantifier": "all multisets of provider answers", "why_tests_cant": "all answer combinations", "anchors": ["minter/src/rpc_client/mod.rs"]}
{"id": "C47", "title": "Fee history is accepted only with a strict majority", "statement": "As documented, a fee history is used only if more than half of the providers that answered agree on it.", "quantifier": "all provider answers", "why_tests_cant": "all answer combinations", "anchors": ["minter/src/rpc_client/mod.rs::reduce_with_strict_majority_by_key"]}
{"id": "C48", "title": "Gas fee estimates are sound", "statement": "The estimate is the last base fee and the median of the rewards raised to the configured minimum; the max fee is 2*base+priority, saturating; the cached estimate returned is at most 30 s old; overflow is reported, not wrapped.", "quantifier": "all fee histories", "why_tests_cant": "all lists", "anchors": ["minter/src/tx.rs::estimate_transaction_fee", "minter/src/tx.rs::lazy_refresh_gas_fee_estimate"]}
{"id": "C49", "title": "RPC calls are retried boundedly with growing payment", "statement": "A call to the RPC canister is attempted at most 1+max_retries times, only retried for too few cycles, each retry at least doubling the attached cycles (saturating) and covering the reported price; the last answer is returned.", "quantifier": "all answer sequences", "why_tests_cant": "all sequences", "anchors": ["evm_rpc_client/src/lib.rs::call_internal"]}
{"id": "C50", "title": "Network and chain identifiers correspond one to one", "statement": "Every supported network maps to its chain id and back; the ids are the ones the networks have in the public list of EIP-155 chain ids; no two networks share an id; any other number is rejected; every network has at least two different RPC providers.", "quantifier": "all networks and all u64", "why_tests_cant": "all u64", "anchors": ["minter/src/evm_config.rs", "minter/src/rpc_client/providers.rs"]}
{"id": "C51", "title": "One unaffordable deposit does not block or corrupt others", "statement": "Minting other deposits proceeds even if some native deposit is smaller than the deposit fee.", "quantifier": "all sets of waiting deposits", "why_tests_cant": "needs a specific order of deposits in the table", "anchors": ["minter/src/deposit.rs::mint", "minter/src/deposit.rs::calculate_deposit_amount"]}
{"id": "C52", "title": "Native deposits are always found by scraping", "statement": "The log filter used for scraping matches native deposits and all registered ERC20 tokens, for every token table.", "quantifier": "all token tables and logs", "why_tests_cant": "all tables", "anchors": ["minter/src/deposit_logs/scraping.rs::next_scrape"]}
{"id": "C53", "title": "A withdrawal call that fails takes nothing from the caller", "statement": "If a withdrawal call ends in an error or trap the caller's tokens are unchanged up to ledger fees.", "quantifier": "all amounts, fee settings and outcomes", "why_tests_cant": "all outcomes", "anchors": ["minter/src/main.rs::withdraw_native_token", "minter/src/ledger_client.rs::refund_withdrawal_fee"]}
{"id": "C54", "title": "A transaction can always be recorded once created", "statement": "While the minter processes withdrawals, replacing, creating and recording transactions and recording their signatures never panics: every transaction it builds is accepted by its own bookkeeping.", "quantifier": "all histories without nonce rollback, all requests, fee estimates, nonce counts and signing answers", "why_tests_cant": "all numbers", "anchors": ["minter/src/state/transactions/mod.rs::create_transaction", "minter/src/state/transactions/mod.rs::record_created_transaction"]}
{"id": "C55", "title": "An operator nonce override cannot cause nonce reuse", "statement": "After any accepted upgrade no two different withdrawals share a nonce.", "quantifier": "all upgrade arguments", "why_tests_cant": "all arguments and states", "anchors": ["minter/src/state.rs::State::upgrade", "minter/src/state/transactions/mod.rs::update_next_transaction_nonce"]}
{"id": "C56", "title": "A deposit recorded as minted was really minted", "statement": "Whenever the minter's records say that a deposit was minted in ledger block b, the ledger has executed in its block b a transfer for that deposit, to the account and on the ledger the deposit names, of its whole value for ERC20 and at most its value for native tokens.", "quantifier": "all histories, ledger answers, callback traps and upgrades", "why_tests_cant": "links the records with the ledger over all interleavings", "anchors": ["minter/src/deposit.rs::mint", "minter/src/state.rs::State::record_successful_mint"]}
{"id": "C57", "title": "A burned gas fee is owed when the tokens could not be burned", "statement": "If the gas fee of an ERC20 withdrawal has been burned and the token ledger then refuses the burn of the tokens, the gas fee less the transfer fee (the whole fee if the ledger was unavailable) is recorded as owed to the caller.", "quantifier": "all reachable states and all answers of the token ledger", "why_tests_cant": "all states and answers", "anchors": ["minter/src/main.rs::withdraw_erc20", "minter/src/ledger_client.rs::burn_from"]}
{"id": "C58", "title": "Every burn for a withdrawal is recorded", "statement": "Every burn that a ledger executed to pay for a withdrawal is recorded as a withdrawal of the same account, amount, destination and block, or its answer is still on its way to the call that asked for it.", "quantifier": "all histories, including traps in callbacks", "why_tests_cant": "relates the ledgers with the log over all interleavings and crash points", "anchors": ["minter/src/main.rs::withdraw_native_token", "minter/src/main.rs::withdraw_erc20"]}
{"id": "C59", "title": "The reported status only moves forward", "statement": "The status reported for a withdrawal never goes back to an earlier one: not found, pending, created, sent, finalized; once it is finalized as successful or reimbursed it never changes.", "quantifier": "all histories without nonce rollback, all steps and burn indices", "why_tests_cant": "all interleavings of resubmission, finalization and upgrades", "anchors": ["minter/src/state/transactions/mod.rs::transaction_status"]}
{"id": "C60", "title": "A withdrawal reported as waiting for reimbursement is going to be reimbursed", "statement": "Whenever the status of a withdrawal is that its reimbursement is pending, the reimbursement is still owed in the minter's records.", "quantifier": "all histories without nonce rollback, including traps in callbacks, and all burn indices", "why_tests_cant": "depends on crash points of reimbursement", "anchors": ["minter/src/state/transactions/mod.rs::processed_transaction_status", "minter/src/state/transactions/mod.rs::record_quarantined_reimbursement"]}
{"id": "C61", "title": "The quoted price is the price charged", "statement": "The price query answers iff an estimate has been made and the token is supported; it quotes the gas limit of the transfer, the maximum price per gas and their product, and a token withdrawal that uses the same estimate is charged exactly the quoted fee.", "quantifier": "all reachable states, tokens and withdrawal calls", "why_tests_cant": "all estimates and histories", "anchors": ["minter/src/main.rs::eip_1559_transaction_price", "minter/src/main.rs::withdraw_erc20"]}
{"id": "C62", "title": "Recorded events survive storage", "statement": "An event written to stable memory is read back as the same event, so the log that is replayed after an upgrade is the log that was recorded; different events are written differently.", "quantifier": "all events of every kind with values the types can hold, logs of any length, all histories whose inputs fit their types", "why_tests_cant": "21 kinds of events with nested optional fields, variable length numbers, texts and lists; the encoding drops absent fields at the end", "anchors": ["minter/src/storage.rs to_bytes, from_bytes", "minter/src/state/event.rs", "minter/src/cbor/", "minter/src/tx.rs SignedEip1559TransactionRequest"]}
{"id": "C63", "title": "Memos fit the ledgers' limit", "statement": "The memo of every mint and reimbursement has at most 67 bytes (for log indices below 2^64) and the memo of every burn at most 80 bytes, for every symbol that can be registered as a token.", "quantifier": "all addresses, hashes, amounts and indices, all registrable symbols, all histories", "why_tests_cant": "the largest memo is reached only for the largest amounts and symbols", "anchors": ["minter/src/memo.rs", "minter/src/erc20.rs ERC20TokenSymbol::from_str", "minter/src/tests/pocket_ic_helpers.rs MAX_MEMO_LENGTH"]}
{"id": "C64", "title": "Waiting deposits can always still be minted", "statement": "Whatever has happened (refused transfers, traps, upgrades, half-finished rounds), from every reachable state all waiting deposits can be minted by timers firing and ledgers accepting: each is then recorded as minted and none waits. Native deposits must be worth the deposit fee.", "quantifier": "all reachable states under any environment", "why_tests_cant": "every crash point and history, including rounds interrupted at any await; a stuck guard or inconsistent table would block minting for ever", "anchors": ["minter/src/deposit.rs::mint", "minter/src/guard.rs TimerGuard", "minter/src/state.rs record_successful_mint"]}
{"id": "C65", "title": "Debts can always still be repaid", "statement": "Whatever has happened, from every reachable state all amounts owed for failed withdrawals can be paid back by timers firing and ledgers accepting: each debt is then recorded as repaid with its amount and none is left.", "quantifier": "all reachable states in which upgrades do not lower the nonce", "why_tests_cant": "every crash point and history", "anchors": ["minter/src/withdraw.rs::process_reimbursement", "minter/src/state/transactions/mod.rs record_finalized_reimbursement"]}
{"id": "C66", "title": "The public event list says exactly what was recorded", "statement": "Each entry of the public event list, read back by a client (hexadecimal hashes, addresses and signed transactions, 32-byte words, numbers), says what the recorded event at that position says; an entry fits only one event, so two histories with the same public list have the same log.", "quantifier": "all recorded events of all 21 kinds, all pages of all histories whose inputs fit their types", "why_tests_cant": "all field values of all events, all positions", "anchors": ["minter/src/main.rs::get_events", "minter/src/endpoints.rs mod events", "minter/src/tx.rs raw_transaction_hex"]}
{"id": "C67", "title": "The minter describes itself truthfully", "statement": "The query for the minter's description is always answered. The settings in it (helper contract, minimum withdrawal, fees, block height, native ledger, ledger manager) are those of the installation as changed by later upgrades; the tokens are exactly the registered ones; the balances are what was deposited less what finalized withdrawals took; the gas fees are those quoted for withdrawals.", "quantifier": "all reachable states", "why_tests_cant": "every history of upgrades, registrations, deposits and withdrawals", "anchors": ["minter/src/main.rs::get_minter_info", "minter/src/main.rs::smart_contract_address", "minter/src/main.rs::check_new_deposits", "minter/src/endpoints.rs MinterInfo"]}
{"id": "C68", "title": "An accepted withdrawal can always still be completed", "statement": "Whatever has happened, from every reachable state (also in the middle of a round of processing withdrawals, with answers under way) every accepted withdrawal can be finalized: whatever is under way may fail; then timers that fire, nodes that answer and a signer that signs are enough. No accepted withdrawal disappears, and each finalization added carries the network's receipt for a transaction signed for that withdrawal.", "quantifier": "all reachable states in which upgrades do not lower the nonce, all fees that the waiting withdrawals can pay, all signatures, all receipts the network can return", "why_tests_cant": "every crash point and history, and an unbounded number of withdrawals and rounds", "anchors": ["minter/src/withdraw.rs::process_retrieve_tokens_requests", "minter/src/withdraw.rs::create_transactions_batch", "minter/src/withdraw.rs::sign_transactions_batch", "minter/src/withdraw.rs::send_transactions_batch", "minter/src/withdraw.rs::finalize_transactions_batch", "minter/src/state/transactions/mod.rs sent_transactions_to_finalize"]}
{"id": "C69", "title": "A request for an early look for deposits is answered", "statement": "Whoever asks for an early look for deposits gets an answer that says whether it is accepted and, if not, why: the block number is invalid, the block was observed already, or the last look was less than a minute ago. Once requests are answered they stay answered.", "quantifier": "all reachable states, block numbers (any natural number) and times", "why_tests_cant": "every history of scrapes, provider answers and upgrades", "anchors": ["minter/src/main.rs::request_scraping_logs", "minter/src/deposit.rs::validate_log_scraping_request", "minter/src/deposit.rs::update_last_observed_block_number"]}
{"id": "C70", "title": "Deposits that a provider reports are recorded", "statement": "When a provider's answer to a query for logs is read, every deposit in it that the minter does not know yet is recorded as waiting to be minted, every malformed one as rejected, and the position moves to the end of the blocks asked for; also when blocks are looked at again.", "quantifier": "all reachable states, all answers of providers", "why_tests_cant": "every history and every list of logs", "anchors": ["minter/src/deposit.rs::scrape_block_range", "minter/src/deposit.rs::register_deposit_events", "minter/src/state.rs::record_event_to_mint", "minter/src/state/audit.rs::process_event"]}
{"id": "C71", "title": "What the minter owes a user is shown to them", "statement": "Whenever a reimbursement is owed to a user, the status of the withdrawal says that its reimbursement is pending, and a search by burn index, recipient or account that the withdrawal matches lists it with this status.", "quantifier": "all histories without nonce rollback, all reimbursements owed, all searches", "why_tests_cant": "every history of failures and reimbursements", "anchors": ["minter/src/main.rs::retrieve_withdrawal_status", "minter/src/main.rs::withdrawal_status", "minter/src/state/transactions/mod.rs::transaction_status", "minter/src/state/audit.rs::apply_state_transition FailedErc20WithdrawalRequest"]}
{"id": "C72", "title": "Every call and every round of work comes to an end", "statement": "A withdrawal call of the native currency ends, with exactly one result, after at most three answers from ledgers or providers, one of tokens after at most five, and the other update calls at once; a round of minting after at most two answers for each deposit waiting at its start, a round of reimbursing after at most one for each reimbursement owed at its start, a round of processing withdrawals after at most six. Nothing, scraping included, can reach a state in which no answers would end it.", "quantifier": "all reachable states, all calls and rounds, all interleavings with other work, all answers and traps", "why_tests_cant": "every interleaving and every sequence of answers", "anchors": ["minter/src/main.rs::withdraw_native_token", "minter/src/main.rs::withdraw_erc20", "minter/src/deposit.rs::mint", "minter/src/deposit.rs::scrape_logs", "minter/src/withdraw.rs::process_reimbursement", "minter/src/withdraw.rs::process_retrieve_tokens_requests", "minter/src/tx.rs::lazy_refresh_gas_fee_estimate"]}
{"id": "C73", "title": "The minter understands what the helper contract emits", "statement": "Whenever a call of the helper contract's deposit function goes through, what its event says has reached the minter's address, and any faithful report of the event is read by the minter as exactly that deposit: sender, token or native currency, amount, principal and subaccount; if the call names no principal that can own tokens the deposit is recorded as invalid. The function cannot be made to announce native currency that was not paid. The topic that the minter looks for is the Keccak-256 hash of the event's signature and its token transactions call transfer(address,uint256).", "quantifier": "all calls of the contract, all states of the chain, all tokens, all reports of the events", "why_tests_cant": "every combination of arguments, value sent and token behaviour; the contract and the minter are in different languages and share no test", "anchors": ["evm_helper_contract/src/Deposit.sol::deposit", "minter/src/deposit_logs/parser.rs::parse_log", "minter/src/deposit_logs/mod.rs::RECEIVED_DEPOSITED_TOKEN_EVENT_TOPIC", "minter/src/eth_types/mod.rs::Address"]}
{"id": "C74", "title": "What is minted is backed by what came in through the helper contract", "statement": "If providers report only events that the helper contract emitted, then every deposit the minter accepts was made by a call of the contract for that principal, and for the native currency and for every registered token whose transfers move what they are asked to, the tokens in circulation, everything else owed to users, the fees kept and everything paid out by finalized withdrawals together never exceed what calls of the contract brought to the minter's address.", "quantifier": "all histories of the chain, all reachable states, all interleavings, answers and traps, all registered tokens", "why_tests_cant": "an invariant over every history of the chain and of the minter together", "anchors": ["evm_helper_contract/src/Deposit.sol::deposit", "minter/src/deposit.rs::scrape_logs", "minter/src/deposit.rs::mint", "minter/src/state/transactions/mod.rs", "minter/src/state.rs::update_balance_upon_withdrawal"]}
{"id": "C75", "title": "The minter's address can always pay the withdrawals that are still to be paid", "statement": "If providers report only events of the helper contract and true receipts, and only the minter's own transactions take funds from its address, then at any moment, whichever of its transactions have been mined and whether or not the minter has learned of it, the address holds at least the tokens in circulation, the deposits still to be minted, all accepted withdrawals without a mined transaction, the reimbursements due and the fees kept. In particular it can pay for all the signed transactions that may be mined next, together and at their maximal cost, so that none is held up for lack of funds and no token transfer fails for lack of tokens.", "quantifier": "all histories of the chain and of the minter, all sets of mined transactions, all registered tokens that move what they are asked to", "why_tests_cant": "an invariant that relates every history of the chain to every history of the minter, including what it does not know yet", "anchors": ["minter/src/withdraw.rs::process_retrieve_tokens_requests", "minter/src/state/transactions/mod.rs::create_transaction", "minter/src/state.rs::update_balance_upon_withdrawal", "evm_helper_contract/src/Deposit.sol::deposit"]}
{"id": "C76", "title": "Only an account's own withdrawal requests take tokens from it, within its approvals", "statement": "When a ledger following the ICRC-1 and ICRC-2 standards executes a call of the minter and this lowers the balance of an account, the account is the default account of a caller whose withdrawal call is still running, and the amount is deducted from the allowance its owner gave to the minter. A native withdrawal takes at most the amount asked for (or the fee if that is larger), all ledger fees included, and exactly that amount if it is accepted; a token withdrawal takes at most the fee, the quoted gas fee and the asked tokens, and exactly these if accepted. Such ledgers also satisfy everything the other properties assume of ledgers.", "quantifier": "all runs of the minter together with its ledgers and with arbitrary transfers, approvals, spending and fee changes by everybody else", "why_tests_cant": "all interleavings of users' ledger activity with the minter's calls", "anchors": ["minter/src/main.rs::withdraw_native_token", "minter/src/main.rs::withdraw_erc20", "minter/src/ledger_client.rs::burn_from", "minter/src/ledger_client.rs::trasnfer_withdrawal_fee", "did/ledger.did"]}
{"id": "C77", "title": "Every token that anybody holds is covered", "statement": "The balances of any accounts on a ledger together never exceed what the minter holds of that asset according to its books, minus everything else it owes (deposits to mint, open withdrawals, reimbursements, fees kept). If providers tell the truth and only the minter's transactions take from its address, they never exceed what the address holds on the chain.", "quantifier": "all sets of accounts, all runs of minter, ledgers and chain, all registered tokens", "why_tests_cant": "an invariant over every history of three systems and every set of accounts", "anchors": ["minter/src/state.rs::update_balance_upon_withdrawal", "minter/src/deposit.rs::mint", "minter/src/ledger_client.rs", "did/ledger.did"]}
{"id": "C78", "title": "What the minter pays out arrives in full", "statement": "When a ledger executes a mint or a reimbursement, the balance of the account named rises by exactly that amount and no other balance changes; for a deposit this is its whole value, less the deposit fee for the native currency. A ledger refuses no such payment for lack of anything, unless it is for the minter's own default account: a deposit for that account is accepted but never minted.", "quantifier": "all runs of the minter together with its ledgers, all deposits", "why_tests_cant": "all accounts, amounts and states of the ledgers", "anchors": ["minter/src/deposit.rs::mint", "minter/src/withdraw.rs::process_reimbursement", "did/ledger.did"]}
{"id": "C79", "title": "One lying provider cannot make the minter believe in a deposit or a receipt", "statement": "If at most one of the network's RPC providers lies in each answer, then every deposit that is accepted was made, every withdrawal recorded as finalized was mined with that outcome and fee, and the minter's address holds at least the tokens in circulation and everything still to be minted, paid and reimbursed. Where a network has three providers, one that fails does not stop this. The latest block and the fee history are asked of one provider only: it can make the minter pass over a deposit, and offer nearly all of a native withdrawal, or a gas fee many times too high for a token withdrawal, to the producer of a block.", "quantifier": "all networks, all answers of the providers, all runs of the minter together with its ledgers, the helper contract and the chain", "why_tests_cant": "it is about all combinations of answers and all histories", "anchors": ["minter/src/rpc_client/providers.rs::get_providers", "minter/src/rpc_client/mod.rs::reduce_with_equality", "minter/src/deposit.rs::scrape_block_range", "minter/src/deposit.rs::update_last_observed_block_number", "minter/src/withdraw.rs::finalize_transactions_batch", "minter/src/tx.rs::get_fee_history"]}
{"id": "C80", "title": "An upgrade without stopping loses nothing while no ledger call is outstanding", "statement": "If the minter is upgraded without being stopped first while it waits for no answer of a ledger, then its state, its log and the ledgers are what they would be had all outstanding questions failed and had it been stopped; so for example no deposit is minted twice. While a ledger call is outstanding this does not hold: a deposit can be minted twice and burned tokens can be lost.", "quantifier": "all runs with any number of upgrades, at any point", "why_tests_cant": "all points at which an upgrade can happen, in all histories", "anchors": ["minter/src/main.rs::pre_upgrade", "minter/src/main.rs::post_upgrade", "minter/src/deposit.rs::mint", "minter/src/main.rs::withdraw_native_token"]}
{"id": "C81", "title": "The reason given for a failed withdrawal is the ledger's", "statement": "Whenever a withdrawal call returns an error that blames a ledger for the withdrawal fee, the burn, the gas or the burn of the token, that ledger had refused this very transfer of the caller's tokens, for the reason given. A native withdrawal whose burn the ledger refuses as too small is not told so: the call traps. Without a withdrawal fee this cannot happen at a ledger that refuses only burns below its transfer fee. If the withdrawal fee is set below the ledger's transfer fee, every valid native withdrawal traps, and nothing is taken.", "quantifier": "all runs, all answers of the ledgers, all withdrawal calls", "why_tests_cant": "all interleavings of calls and all answers", "anchors": ["minter/src/endpoints.rs::WithdrawalError", "minter/src/ledger_client.rs::LedgerBurnError", "minter/src/ledger_client.rs::FeeTransferError", "minter/src/main.rs::withdraw_native_token", "minter/src/main.rs::withdraw_erc20"]}
{"id": "C82", "title": "The network accepts the minter's transactions as the minter's own", "statement": "Every transaction that the minter records as signed or hands to the providers is read by the network (EIP-1559, strict RLP) as exactly that transaction for the minter's network, its signature recovers to the minter's public key, and its hash is the one the minter keeps. Whatever bytes the management canister answers, no other signature is taken.", "quantifier": "all histories, all answers of the management canister, all transactions", "why_tests_cant": "all histories, transactions and signatures", "anchors": ["minter/src/tx.rs::sign", "minter/src/tx.rs::compute_recovery_id", "minter/src/tx.rs::split_in_two", "minter/src/management.rs::sign_with_ecdsa", "minter/src/state.rs::lazy_call_ecdsa_public_key", "minter/src/withdraw.rs::sign_transactions_batch", "minter/src/withdraw.rs::send_transactions_batch"]}
{"id": "C83", "title": "The minter registers its native twin token truthfully", "statement": "Whenever it is made, and whatever happened before, the call that registers the native twin token goes to the ledger suite manager given at installation and names the symbol, ledger, index and chain id of the installation, and for ledger and index the hash of the code each of them runs.", "quantifier": "all histories before the call, all contents of the compiled files", "why_tests_cant": "every history; the project's test compares the constants with themselves", "anchors": ["minter/src/lsm_client.rs::new_native_ls", "minter/src/lsm_client.rs::call_lsm_to_add_twin_native", "minter/src/lsm_client.rs::lazy_add_native_ls_to_lsm_canister", "minter/src/lsm_client.rs LEDGER_BYTECODE"]}
{"id": "C84", "title": "The log fits the limit and loses nothing that fits", "statement": "The JSON of the log given out for a size limit is never longer than the limit and contains the longest beginning of the log that fits. Sorting keeps every line, orders by time, and keeps the order of lines of the same time; the lines of all buffers are there, each with its priority.", "quantifier": "all logs, all limits, both orders", "why_tests_cant": "all sizes, contents and limits", "anchors": ["minter/src/logs.rs::serialize_logs", "minter/src/logs.rs::sort_logs", "minter/src/logs.rs::push_all", "minter/src/logs.rs Priority"]}
{"id": "C85", "title": "The minter asks only its own providers, only about its own matters", "statement": "Every request about the chain goes to the EVM RPC canister named last, for the chain id of the configured network, over https, to distinct providers each at its own host and given no API key but its own; two minters that use the same endpoint serve the same network. Logs, receipts and sent transactions go to at least two providers. What is asked is the height of the configured kind, logs of the configured contract for the next at most 1000 unscraped blocks and for registered tokens, the fee history, the minter's own transaction count, receipts of transactions the minter has signed; what is sent is a transaction it has signed.", "quantifier": "all histories and schedules, all networks, all API keys, every function waiting for an answer", "why_tests_cant": "every network, every history of upgrades, registrations and withdrawals, every interleaving of the functions that ask", "anchors": ["minter/src/rpc_client/providers.rs::get_providers", "minter/src/rpc_client/providers.rs::get_one_provider_ankr", "minter/src/rpc_client/providers.rs::get_one_provider_public_node", "minter/src/rpc_client/providers.rs::get_url_with_api_key", "minter/src/rpc_client/mod.rs::from_state_all_providers", "minter/src/deposit.rs::scrape_block_range", "minter/src/withdraw.rs::send_transactions_batch", "minter/src/withdraw.rs::finalize_transactions_batch"]}
{"id": "C86", "title": "The minter has one account, and it is the one it tells", "statement": "The address that minter_address and get_minter_info give is the account the network derives from the minter's public key. The key is asked for, and signatures are asked for, under the key name of the installation and the same derivation path, whatever upgrades happen. Whatever the management canister answers, get_minter_info does not trap because of the key. If the management canister keeps its keys, everybody who ever asks, before or after upgrades and however the questions overlap, is told the same address, and it is the sender, to the network, of every transaction the minter records as signed. The transaction counts by which the minter judges what is final are asked for about that same account.", "quantifier": "all histories, upgrades and schedules of overlapping requests for the key, all answers of the management canister, all curve libraries", "why_tests_cant": "every overlap of requests for the key with each other, with failures and with upgrades that empty the cache", "anchors": ["minter/src/address.rs::ecdsa_public_key_to_address", "minter/src/state.rs::lazy_call_ecdsa_public_key", "minter/src/state.rs::minter_address", "minter/src/state.rs::State::minter_address", "minter/src/tx.rs::sign", "minter/src/management.rs::sign_with_ecdsa"]}
{"id": "C87", "title": "The oldest unfinished withdrawal is known", "statement": "Every accepted withdrawal bears a time. The time that the minter computes as that of the oldest incomplete withdrawal is the time of an accepted withdrawal for which no receipt has been recorded, and no such withdrawal is older. No time is given exactly when every accepted withdrawal has been finalized.", "quantifier": "all reachable states", "why_tests_cant": "every interleaving of acceptances, postponements, creations, replacements and finalizations, and upgrades in between", "anchors": ["minter/src/state/transactions/mod.rs::oldest_incomplete_withdrawal_timestamp", "minter/src/state/transactions/mod.rs::maybe_reimburse_requests_iter", "minter/src/main.rs::withdraw_native_token", "minter/src/main.rs::withdraw_erc20"]}
{"id": "C88", "title": "The event log is in order of time", "statement": "The recorded events are in order of time and none is dated later than the present. What one message adds to the log bears the time of that message, and leaves what was recorded before in place. A withdrawal is not dated after the event that accepts it.", "quantifier": "all reachable states, all steps, including traps and upgrades", "why_tests_cant": "every overlap of calls whose times were noted before an await with messages executed meanwhile, and upgrades in between", "anchors": ["minter/src/storage.rs::record_event", "minter/src/state/audit.rs::process_event", "minter/src/main.rs::withdraw_native_token", "minter/src/main.rs::withdraw_erc20"]}
