# Formal model of Appic-Solutions/evm_minter

The model is written in Rocq (Coq 8.16.1, standard library only) in
`rocq/theories`. The code in `/repo` is read as text; nothing is extracted from
it or run. Every model definition carries a comment with the file and lines it
models and names its simplifications.

## 1. How the code is modelled

| Code construct | Model |
|---|---|
| `u256` amounts (`CheckedAmountOf`) | `N`, with every overflow check written out (`<= 2^256-1`) |
| `u64` ids, nonces, times | `N`; bounds written out where the code checks them |
| 20/32 byte arrays, principals, strings | `N` below `2^160`/`2^256` (big endian value) or byte lists |
| `BTreeMap` | association list kept strictly sorted by key, so iteration order is visible |
| `VecDeque`, `Vec` | list |
| `panic!`, `expect`, `assert!`, slice out of range | value `Panic` of the result type `res` |
| `Result<T,E>` | `sum`-like types inside `res` |
| message segment between two `await`s | one atomic step |
| trap | step has no effect; if it is a reply callback, the live scope guards and timer guards of the suspended task are then dropped (cleanup callback) |
| ledgers, EVM RPC canister, ECDSA, clock | inputs of the step (labels chosen by an arbitrary environment) or section variables (keccak) |

Layers (files are listed in dependency order in `_CoqProject`):

1. **Base**: result type, bounded arithmetic, sorted maps.
2. **Pure code**: `checked_amount`, `map`, `numeric/range`, codecs (CBOR, RLP,
   calldata, hex, principal), log parsing, fee arithmetic, RPC reductions.
3. **State**: `state.rs`, `state/transactions`, `state/audit.rs`: the function
   `apply_state_transition` on the full set of events, replay.
4. **Drivers**: `deposit.rs`, `withdraw.rs`, `main.rs` endpoints as message
   segments over the state plus in-flight tasks, guards and (ghost) ledgers.
5. **Spec**: small independent definitions used in theorem statements.
6. **Properties**: theorem statements only, each closed by `exact`, followed by
   `Print Assumptions`, with a non-vacuity `Example` beside it.

## 2. Plan per property

See `properties.jsonl` for the English statements.

* C01, C02, C18 (ledger part): driver layer with tasks; invariant relating the
  ghost ledger log, the tables and the in-flight task; induction over labels.
* C03, C04, C10, C34, C38: invariants by induction over event histories.
* C05, C06, C41, C44, C45: round trip plus characterisation of accepted inputs. For C05 also the defect that
  each reason names (RefuseSpec), and an invariant that ties recorded fates to answers (RefuseFacts).
* C07, C08, C09, C11: induction over the answer list with explicit coverage
  specification (list of blocks).
* C12, C36, C37, C50: direct characterisation ("iff") theorems.
* C13-C17, C19-C23, C54: invariant `wt_inv` on the withdrawal tables preserved
  by every pipeline operation; side conditions on events are discharged from the
  driver (`create_transaction`, `resubmit`).
* C24-C26: endpoint segments; outcome characterisation over all runs of one call (CallSpec, CallStages);
  C26, C57, C58: the burns the ledgers executed against the recorded requests (RecordSpec, RecordFacts).
* C23, C59, C60: the status functions against a specification computed from the recorded
  events (StatusSpec, StatusFacts). C61: the price query (Queries, QuoteFacts).
* C27, C28: guard transition system.
* C29-C32: accounting invariants; C32 adds ghost ledgers with total supply.
* C33: simulation between live state and replay of its log.
* C35: list lemma. C39: refinement to a relation with two unique keys.
* C40, C48: arithmetic. C42: RLP is injective; and a strict reader written from the Yellow Paper and EIP-1559
  (NetSpec) reads back exactly what the minter encodes (NetFacts).
* C43, C44, C62, C63: the CBOR bytes of memos and events, each with its decoder (Cbor, CborSpec,
  CborFacts, MemoFacts); one round trip lemma per type, a struct being read field by field.
  For whole histories (TypedSpec, TypedFacts, PropTyped): an invariant says that everything recorded
  or sent fits its type when everything that comes from outside does.
* C64, C65: from every reachable state a schedule is constructed (finish the running round, start a new
  one, answer every call) by induction over the list being worked on (LiveSpec, LiveFacts, LiveRepay).
* C68: likewise for withdrawals. A round under way is ended by failing answers (DriveFacts); then each
  further round finalizes the withdrawal with the lowest nonce in flight, one lemma per segment of the
  round (DriveRound), by induction on the number of withdrawals that are not finalized.
* C66: `tells` (PublicSpec) reads a public event back as a client does, field by field; it holds of every
  recorded event and determines it (PublicEvents, PublicFacts), for histories through C62's invariant.
* C67: the settings in force are a fold over installation and upgrade events (InfoSpec); an invariant
  relates it, and the registered tokens, to the state (Info, InfoFacts); balances by C29 and C30.
* C69: the answer by cases; an invariant (an observed block has a time, FoundFacts) excludes the
  impossible case. C70: reading an answer is an all-or-nothing fold; for truthful providers an
  invariant says that every log known to the minter lies at or below the position (FoundSpec, FoundFacts).
  While no token is registered the filter matches every deposit (StuckFacts): an unregistered one is met at every attempt.
* C71: from C18 (what is owed answers a recorded failure) and C23 (the status follows the record).
* C72: a measure on suspended functions that every delivered answer decreases (EndFacts).
* C73: Deposit.sol is modelled (Contract) over an arbitrary chain: what tokens do is a parameter; the
  emitted log is shown to satisfy C05's specification of logs. Keccak-256 is computable (Keccak) and
  checked against the project's own test vectors. C74: an invariant says that every accepted deposit was
  parsed from a reported log; sources are distinct (C01), so sums compare; then C29, C30 and C32.
* C75: the chain's rules for the minter's address (only its own transactions take from it, one for each
  nonce, gas within limit times price, receipts true) are stated in FundsSpec; the mined transactions are
  matched with settlements and open withdrawals through their nonces (C14), whose costs are bounded by
  C15, C16 and C29 (FundsFacts); then C74.
* C76 to C78: a model of an ICRC-1/2 ledger (Ledger) and its joint runs with the minter and everybody
  else (LedgerSpec); an invariant on supply, block numbers and allowances (LedgerFacts) shows that such
  ledgers do only what `ledger_allows` permits; then C24, C25, C32 and C75.
* C46, C47: characterisation of the reductions of several providers' answers (Rpc, RpcSpec,
  RpcFacts); C49: the retry loop of the RPC client.
* C79: how the EVM RPC canister puts answers together is stated in ProviderSpec; each network has at
  least two different providers, so a value that is agreed on was given by one that does not lie
  (ProviderFacts). The environments of C74 and C77 follow, and that recorded receipts are true.
* C80: an upgrade of a running canister (OpenSpec) is simulated by failing answers to everything that is
  outstanding, then an upgrade of the stopped canister (OpenFacts); so every theorem about the state, the
  log and the ledgers carries over.
* C81: an invariant on runs as lists of labels (ReasonFacts): every answer of a ledger that is on its way,
  every error kept during a refund and every error returned goes back to an answer in the run.
* Suspected violations in the unchanged code (C47, C51, C52, C53, C54, C55):
  the faithful model is expected to refute the plain statement; a `_refuted`
  theorem gives the witness and a second theorem the strongest restricted
  version that holds.
* C82: the signing function is modelled (Sign), with the management canister's answer as an argument and the
  elliptic-curve library as a function; the network is NetSpec and an arbitrary key recovery. Hypothesis: ids
  found by the library recover the key. An invariant (SignFacts) carries it to every signed transaction of the
  log and every one being sent.
* C83: the call to the ledger suite manager is a function of the state (Lsm), with the hash function and the
  compiled files as parameters; an invariant says which fields of the installation never change.
* C84: the log (Logs) with its JSON spelled out; the binary search is correct because the length grows with
  the number of entries.
* C85: the requests that a waiting function has made are a function of the state and the function's variables
  (Ask), with the tables of providers as they are. The tables are compared pair by pair; what is asked follows
  from an invariant over the waiting functions (AskFacts).
* C86: a second layer over the system: the cached public key and the functions waiting for it, which ask at
  any moment (Key). One invariant says that all that is waited for, cached and told is the key of the
  installation's key name; with C82 this gives the sender of the signed transactions.
* C87: the waiting withdrawals and those that may yet be reimbursed are exactly the accepted ones without a
  recorded receipt (the log invariant of C13), every accepted one bears a time (induction over the log), and
  the fold takes the minimum.
* C88: an invariant over the log and the waiting functions: recorded times ascend, none is later than the
  clock, and the time noted by a waiting withdrawal is not later than the clock (TimeFacts). The model's clock
  never runs backwards, as the platform guarantees.

## 3. Not modelled

tECDSA and secp256k1 themselves (parameters in C82 and C86), HTTP, candid
(de)serialisation, the buffers of the log, stable-memory layout below the event list, cycles
accounting of the IC, the EVM itself (of the helper contract its effects on balances and its log
are modelled; what token contracts do is a parameter), the `minicbor` crate (its format is taken from its
documentation), the ledger canisters' internals (only
their contract: an answer `Ok` means the transfer happened once, an error means
it did not; block indices are fresh).

Simplifications that matter for the theorems:

* Each ledger's minting account is the minter's default account; supply starts at
  0; a ledger burns no more than its supply (`ledger_allows` in `Sys.v`).
* Upgrades happen only while no call is outstanding (the canister is stopped).
  Without this the code itself could mint twice (finding 20).
* Text is a list of Unicode code points, a principal is a byte list ordered
  lexicographically, an address or hash is a number.

## 4. Trusted base

* Coq 8.16.1's kernel (`coqc`, `vm_compute`), and the reading of the Rust code
  expressed by the model files.
* `Print Assumptions` follows every theorem in the `Prop*.v` files and prints
  "Closed under the global context" for each: no axiom is used. The checker
  `coqchk -o` also lists `Coq.ssr.ssrunder.Under_rel.*`: these belong to a module
  of Coq's own prelude that is loaded with every file; no theorem depends on them.
* In theorems about the minter `keccak` is a universally quantified function, as is the minter's own
  principal; in C73 it is the computable Keccak-256 of `Keccak.v`.
* The environment is arbitrary (`any_env`) unless the theorem says otherwise
  (`nonce_kept`: the operator does not lower the next nonce by an upgrade; C55
  shows what happens without it; `real_blocks`: reported block numbers are below
  2^256-1; `position_kept`: the operator does not set the scraping position;
  `typed_env`, `typed_nonce_kept` with `typed_start`: answers, arguments and times are
  values that the declared types can hold; `truthful_env`: providers report only logs
  that the helper contract emitted).
* C73 to C75 rest on the reading of `Deposit.sol` and of the EVM's rules in `Contract.v`,
  `ContractSpec.v` (`lawful`, `proper`, `standard`) and `FundsSpec.v` (`executed`, `took`).
* C82 rests on the reading of the network's format in `NetSpec.v` (checked on a transaction of Sepolia,
  C42_network_witness) and on `ids_recover`; `signing_env` says that signatures come from `sign_tx`.
* C79 rests on the reading of the EVM RPC canister in `ProviderSpec.v` (`gathered`): it reports one value
  only if all providers asked gave it.
* Upgrades (`LUpgrade`) happen to a stopped canister, that is, with nothing outstanding. C80 says what
  holds when it was not stopped; `upgrade_running` in `OpenSpec.v` is the reading of the platform there.
* C76 to C78 rest on the reading of the ICRC-1 and ICRC-2 standards in `Ledger.v`: the ledgers are not
  part of the repository. They start empty, and the minter makes no withdrawal calls to itself.

## 5. Files

| File | Content |
|---|---|
| Base, BMap, Bytes, Types | result type, sorted maps, bytes, data types |
| MultiKeyMap | `map.rs` |
| Amount, Ranges | `checked_amount.rs`, `numeric`, block ranges |
| Network, Tx, CallData, Rlp, Hex, Parser, Memo | `evm_config`, `tx.rs`, `eth_types`, RLP payload, log parsing |
| Transactions, State, Audit | `state/transactions`, `state.rs`, `state/audit.rs` |
| Queries, Rpc | status and price queries; RPC answers and retries |
| PublicEvents, Info | the public event list and the minter's description of itself (`main.rs`, `endpoints.rs`) |
| Cbor | the bytes of memos and of stored events (`cbor/`, `memo.rs`, `storage.rs`, `minicbor` attributes) |
| Driver, Sys | the asynchronous functions as segments; the transition system |
| Sign | how a transaction is signed (`tx.rs`, `management.rs`) |
| Lsm, Logs | the registration with the ledger suite manager (`lsm_client.rs`); the log as JSON (`logs.rs`) |
| Ask | the requests to the EVM RPC canister and the tables of providers (`rpc_client/providers.rs`, `rpc_client/mod.rs`) |
| Key | the public key, its cache and the minter's address (`address.rs`, `state.rs` 751-791, requests of `tx.rs::sign`) |
| Keccak, Contract | Keccak-256 and `address.rs`; the helper contract (`Deposit.sol`) |
| Ledger, LedgerRun | an ICRC-1/2 ledger; concrete runs of the minter with its ledgers |
| *Facts, *Inv, LiveRepay, Segments, Tasks, CoreInv, Lifting, WeakSteps, Deposits, Guards, Views | proofs |
| *Spec, SysSpec | small specifications used in statements |
| Scenario | a concrete history used in the examples |
| Prop* | the theorems |

## 6. Findings about the code

Found while modelling; "proved" means a theorem of the model shows it.

1. A created native transaction must have an amount strictly below the withdrawal
   amount: with a zero fee `record_created_transaction` panics (C54).
2. An upgrade can set the next nonce below one already used; two withdrawals then
   share a nonce (C55, proved).
3. `record_quarantined_reimbursement` overwrites a finished reimbursement record.
4. A native deposit below the deposit fee makes the minting task panic: it blocks
   all minting if it is first, and makes the deposit before it be quarantined
   although it was minted (C51, both proved).
5. `withdraw_native_token` takes the fee and then panics if the amount is smaller
   than the fee (C53, proved); the amount after the fee may be below the minimum.
6. The scraping filter lists only ERC20 addresses, so native deposits are filtered
   out as soon as one token is registered (C52); with no token, a log of an
   unsupported token makes the scraping task panic, again at every attempt, so one
   such deposit, which anyone can make, stops all deposits until a token is
   registered (C70, proved: C70_unregistered_token_stops).
7. Lowering the last scraped block by an upgrade makes the next scraping panic on
   deposits seen before (C70, proved: C70_one_spoils_all, C70_looked_at_again_refuted).
8. The "strict majority" of RPC answers is only a plurality (C47, proved:
   C47_majority_refuted).
9. The status of a withdrawal can go back from sent to created on resubmission
   (C59, proved: C59_back_refuted).
10. `update_last_observed_block_number` can store `None`; then
    `request_scraping_logs` traps (C69, proved: C69_low_block_refuted; the same until the first
    scrape after an upgrade, C69_after_upgrade_refuted).
11. A quarantined reimbursement is reported as pending for ever (C60, proved:
    C60_quarantined_refuted).
12. `lsm_client` has the ledger and index bytecode constants swapped, so that the manager is told the hash of
    the index's code for the ledger and the other way round (C83, proved: C83_code_hashes_refuted). The call is
    made once only; if it fails, nothing makes it again.
13. The refund of a withdrawal fee needs an allowance that is never given, so the fee of a
    withdrawal whose burn is refused is always lost (C53, proved: C53_never_refunded,
    C53_fee_lost_refuted).
14. A failed ERC20 request has status "not found" while its gas fee is being reimbursed, and
    no search lists it (C71, proved: C71_fee_is_hidden, C71_fee_refuted).
15. `wei_from_milli_ether` multiplies by 10^18.
16. `check_new_deposits` always traps.
17. One missing receipt blocks finalization of the whole batch (C31, proved:
    C31_missing_refuted).
18. The state comparison after replay ignores balances, fees and skipped blocks.
19. A trap in the callback after a burn loses the burn: no scope guard (proved: C58_refuted).
20. Upgrading without stopping while a mint is outstanding can mint twice, and while a burn is
    outstanding can lose it (C80, proved: C80_minted_twice_refuted, C80_burn_lost_refuted).
21. `get_events` truncates its start to 32 bits (C35, proved).
22. Token registration accepts the native ledger as the token's ledger; the native twin
    token is then not covered (C32, proved: C32_shared_ledger_refuted).
23. The calldata decoder panics on address words with non-zero padding (C41, proved).
24. The log parser does not check which contract emitted the log (C05, proved:
    C05_other_contract_refuted).
25. A native withdrawal of 2^256-1 can have a fee above its amount (C16).
26. Withdrawals trap if the withdrawal fee is below the ledger's transfer fee (C81, proved:
    C81_low_fee).
27. Splitting a range joins the right half with the following range, so the number of
    log queries is n log n instead of 2n-1 (C08, proved: 4 blocks, 9 queries).
28. Accepting a scrape request does not note the time: while a scrape runs, or before
    the next one starts, any number of requests is accepted (C12, proved).
29. A token ledger that answers BadFee, TooOld, CreatedInFuture or Duplicate makes
    `withdraw_erc20` panic after the gas fee was burned; the fee is lost (C57, proved).
30. Withdrawing zero tokens of a contract without deposits is accepted if the token
    ledger burns zero tokens; finalizing its successful transaction panics each time and
    blocks the batch (C31, proved: C31_zero_refuted).
31. Only logs, receipts and sends are asked of all providers; the finalized and latest
    blocks, the transaction counts and the fee history are asked of a single provider
    (deposit.rs 252, withdraw.rs 185 and 445, tx.rs 785), whose word is then taken (a
    consistent answer, C46). A latest block that is too high makes the minter pass over the
    blocks up to it before they exist (C79, proved: C79_latest_block_refuted).
32. One provider answering with a block without base fee makes the task panic, even if all
    others answer properly (C46, proved: C46_block_panics).
33. The memo of a native burn names only the destination, so the memos of two withdrawals to
    one address are equal (C43, proved); a log index of 2^152 or more makes the memo of a
    deposit longer than 80 bytes (C63, proved for the largest index).
34. No installation or upgrade argument sets the swap canister, so the endpoint with which it
    could ask for an early look for deposits refuses everyone (main.rs 713-725; C67, proved:
    C67_swap_canister_refuted).
35. The helper contract does not check the principal. A deposit whose principal bytes do not
    denote a principal that can own tokens reaches the minter's address and is recorded as
    invalid, without a way to get it back (Deposit.sol 45-72; C73, proved:
    C73_funds_kept_refuted).
36. The helper contract logs the amount it asked a token to move, not what arrived. For a
    token that takes a fee out of transfers the minter mints more than it holds (Deposit.sol
    67-69; C74, proved: C74_fee_on_transfer_refuted).
37. A deposit that names the minter itself, without a subaccount, is accepted, but no ledger can
    mint to its minting account: it is tried again in every round for ever (deposit.rs 83-146;
    C78, proved: C78_own_account_refuted).
38. Four networks (Sepolia, Avalanche, Fantom, BSC testnet) have two providers only, and logs and
    receipts need two equal answers: when one provider fails, deposits and finalizations stop
    (providers.rs 206-219, 310-352; C79, proved: C79_one_fails_refuted).
39. When the ledger refuses the burn of a native withdrawal as too small, the conversion of the error
    panics: the call traps, after the fee was taken and partly refunded, instead of returning an error
    (endpoints.rs 218-240; C81, proved: C81_too_small_refuted, C81_never_too_small; it needs a withdrawal fee: C81_large_enough).
40. `serialize_logs` gives out the whole log, however large, when the limit is below the 14 bytes of the empty
    log (logs.rs 105-129; C84, proved: C84_limit_refuted).
41. API keys of providers are stored at installation only (main.rs 108-111): an upgrade to a minter compiled
    with new keys goes on with the old ones. By reading.
42. The fee history is asked of one provider, and there is no bound on the tip that is computed from it but the
    amount of the withdrawal. A provider that reports tips that nobody pays makes the minter offer nearly all of
    a native withdrawal to the producer of the block (tx.rs 784-792, transactions/mod.rs 1115-1128; C79, proved:
    C79_fee_history_refuted). The gas fee that a token withdrawal burns from its owner's native twin tokens depends on
    the same word (C79_fee_history_token_refuted).
