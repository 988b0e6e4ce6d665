(** * Parser: deposit logs.

    Model of /repo/minter/src/deposit_logs/mod.rs, parser.rs and scraping.rs. *)

From Verif Require Import Base BMap MultiKeyMap Bytes Types Amount CallData Hex Transactions State.

(** rpc_declrations.rs 279-307 [LogEntry]; a topic ([FixedSizeData]) is a list of 32 bytes *)
Record LogEntry := {
  le_address : Address;
  le_topics : list (list N);
  le_data : list N;
  le_block_number : option N;
  le_transaction_hash : option Hash;
  le_transaction_index : option N;
  le_block_hash : option Hash;
  le_log_index : option N;
  le_removed : bool
}.

(** deposit_logs/mod.rs 22-23 [RECEIVED_DEPOSITED_TOKEN_EVENT_TOPIC] *)
Definition DEPOSIT_TOPIC : list N :=
  [222; 173; 223; 135; 8; 182; 42; 225; 191; 142; 196; 105; 59; 82; 50; 84;
   170; 150; 27; 45; 166; 188; 91; 229; 127; 49; 136; 238; 120; 77; 98; 117].

(** deposit_logs/mod.rs 214-221 [EventSourceError]; the message of [InvalidEvent] is
    represented by its cause *)
Inductive InvalidCause := CauseRemoved | CauseTopics | CauseData | CauseAddress.
Inductive EventSourceError :=
| InvalidPrincipal (word : list N)
| InvalidEvent (cause : InvalidCause).

(** deposit_logs/mod.rs 205-212 [ReceivedDepsitEventError] *)
Inductive DepositError :=
| PendingLogEntry
| InvalidEventSource (source : EventSource) (error : EventSourceError).

(** [error.to_string()] (deposit_logs/mod.rs 214-221, parser.rs); the variable parts
    (lengths, offending bytes) of the messages are left out. *)
Definition error_text (e : EventSourceError) : text :=
  text_of match e with
          | InvalidPrincipal _ => "failed to decode principal from bytes"
          | InvalidEvent CauseRemoved =>
              "invalid ReceivedDepositEvent: this event has been removed from the chain"
          | InvalidEvent CauseTopics => "invalid ReceivedDepositEvent: Invalid topics"
          | InvalidEvent CauseData => "invalid ReceivedDepositEvent: Expected 64 bytes"
          | InvalidEvent CauseAddress => "invalid ReceivedDepositEvent: Invalid address in log entry"
          end.

(** deposit_logs/mod.rs 250-256 [LedgerSubaccount::from_bytes] *)
Definition subaccount_from_bytes (w : list N) : option LedgerSubaccount :=
  if bytes_eqb w (repeat 0 32) then None else Some (of_be w).

(** deposit_logs/mod.rs 276-308 [parse_principal_from_slice]; [None] is [Err].
    [slice[0]] and [split_at] cannot fail after the length checks; the failing
    branches of the corresponding list functions are panics here. The last call,
    [Principal::try_from_slice], fails only above 29 bytes. *)
Definition parse_principal_from_slice (slice : list N) : res (option Principal) :=
  match slice with
  | [] => Done None
  | n :: tail =>
      if 32 <? N.of_nat (List.length slice) then Done None
      else if n =? 0 then Done None
      else if 29 <? n then Done None
      else if N.of_nat (List.length slice) <? 1 + n then Done None
      else
        _ <- rassert (N.to_nat n <=? List.length tail)%nat "mid > len" ;;
        let principal_bytes := firstn (N.to_nat n) tail in
        let trailing := skipn (N.to_nat n) tail in
        if negb (forallb (fun b => b =? 0) trailing) then Done None
        else if bytes_eqb principal_bytes ANONYMOUS then Done None
        else if 29 <? N.of_nat (List.length principal_bytes) then Done None
        else Done (Some principal_bytes)
  end.

Definition perr {A} (e : DepositError) : res (result A DepositError) := Done (RErr e).

(** parser.rs 107-132 [ensure_not_pending] *)
Definition ensure_not_pending (e : LogEntry) : result (N * EventSource) DepositError :=
  match le_block_hash e, le_block_number e, le_transaction_hash e, le_transaction_index e,
        le_log_index e with
  | Some _, Some b, Some h, Some _, Some i => ROk (b, (h, i))
  | _, _, _, _, _ => RErr PendingLogEntry
  end.

(** parser.rs 37-104 [parse_log] with the checks of 134-218 inlined. Indexing
    [entry.topics[i]] panics when out of range. *)
Definition parse_log (e : LogEntry) : res (result ReceivedDepositEvent DepositError) :=
  match ensure_not_pending e with
  | RErr x => perr x
  | ROk (block_number, src) =>
  if le_removed e then perr (InvalidEventSource src (InvalidEvent CauseRemoved)) else
  if negb (Nat.eqb (List.length (le_topics e)) 4
           && match le_topics e with t :: _ => bytes_eqb t DEPOSIT_TOPIC | [] => false end)
  then perr (InvalidEventSource src (InvalidEvent CauseTopics)) else
  if negb (Nat.eqb (List.length (le_data e)) 64)
  then perr (InvalidEventSource src (InvalidEvent CauseData)) else
  let from_word := firstn 32 (le_data e) in
  let sub_word := skipn 32 (le_data e) in
  match address_of_word from_word with
  | None => perr (InvalidEventSource src (InvalidEvent CauseAddress))
  | Some from_address =>
  let subaccount := subaccount_from_bytes sub_word in
  token_word <- expect (nth_error (le_topics e) 1) "index out of bounds" ;;
  match address_of_word token_word with
  | None => perr (InvalidEventSource src (InvalidEvent CauseAddress))
  | Some token =>
  principal_word <- expect (nth_error (le_topics e) 3) "index out of bounds" ;;
  p <- parse_principal_from_slice principal_word ;;
  match p with
  | None => perr (InvalidEventSource src (InvalidPrincipal principal_word))
  | Some principal =>
  value <- expect (nth_error (le_topics e) 2) "index out of bounds" ;;
  Done (ROk
    (if is_native_token token
     then DepNative {| ne_transaction_hash := fst src; ne_block_number := block_number;
                       ne_log_index := snd src; ne_from_address := from_address;
                       ne_value := of_be value; ne_principal := principal;
                       ne_subaccount := subaccount |}
     else DepErc20 {| ee_transaction_hash := fst src; ee_block_number := block_number;
                      ee_log_index := snd src; ee_from_address := from_address;
                      ee_value := of_be value; ee_principal := principal;
                      ee_erc20_contract_address := token; ee_subaccount := subaccount |}))
  end end end end.

(** parser.rs 19-31 [parse_all_logs]: the deposits and the errors, each in order *)
Fixpoint parse_all_logs (l : list LogEntry)
  : res (list ReceivedDepositEvent * list DepositError) :=
  match l with
  | [] => Done ([], [])
  | e :: l' =>
      r <- parse_log e ;;
      '(ok, errs) <- parse_all_logs l' ;;
      match r with
      | ROk d => Done (d :: ok, errs)
      | RErr x => Done (ok, x :: errs)
      end
  end.

(** rpc_declrations.rs 223-229 [Topic] *)
Inductive Topic :=
| TopicSingle (w : list N)
| TopicMultiple (ws : list (list N)).

(** deposit_logs/scraping.rs 9-13 [Scrape] *)
Record Scrape := {
  sc_contract_address : Address;
  sc_last_scraped_block_number : N;
  sc_topics : list Topic
}.

(** deposit_logs/scraping.rs 29-52 [next_scrape] (always [Some] or a panic) *)
Definition next_scrape (s : State) : res Scrape :=
  contract <- expect (helper_contract_address s) "scraping.rs:30 unwrap" ;;
  Done {| sc_contract_address := contract;
          sc_last_scraped_block_number := last_scraped_block_number s;
          sc_topics := [ TopicSingle DEPOSIT_TOPIC;
                         TopicMultiple (map address_to_word (dmkm_alt_keys (erc20_tokens s))) ] |}.
