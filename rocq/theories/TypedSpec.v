(** * Histories whose inputs are values of the Rust types (specification of C43, C62 and C63
    for whole histories).

    Numbers, addresses, hashes and texts are modelled by unbounded numbers and lists. Here:
    what the canister is given from outside (answers of ledgers and providers, arguments of
    calls and upgrades, the time) fits the type that the code declares for it. Nothing is
    said about what the canister computes or stores. *)

From Verif Require Import Base BMap MultiKeyMap Bytes Types Amount Tx CallData Network Hex
  Transactions State Audit Ranges Rlp Parser Memo Driver Sys SysSpec CborSpec.

(** rpc_declrations.rs 279-307 [LogEntry] *)
Definition ok_log (e : LogEntry) : Prop :=
  Forall (bytes_of 32) (le_topics e) /\ Forall (fun x => x < 256) (le_data e) /\
  optional u256 (le_block_number e) /\ optional hash (le_transaction_hash e) /\ optional u256 (le_log_index e).

(** What ledgers, providers and the signing service answer. The block index of a ledger is
    a candid [Nat], so nothing is assumed of it. *)
Definition ok_reply (r : Reply) : Prop :=
  match r with
  | ReLedger _ => True
  | ReBlock n => optional u256 n
  | ReLogs (LogsOk l) => Forall ok_log l
  | ReLogs _ => True
  | ReFees (Some h) => Forall u256 (fh_base_fee_per_gas h) /\ Forall (Forall u256) (fh_reward h)
  | ReFees None => True
  | ReCount n => True
  | ReSigs l => Forall (optional (fun g => u256 (sg_r g) /\ u256 (sg_s g))) l
  | ReSent => True
  | ReReceipts l => Forall (fun x => match x with ReceiptOk r => ok_receipt r | _ => True end) l
  end.
(** Arguments of calls: amounts are candid [Nat]s and texts are checked by the code *)
Definition ok_call (u : UserCall) : Prop :=
  match u with
  | CallWithdrawNative p _ _ => principal p
  | CallWithdrawErc20 p _ l _ => principal p /\ principal l
  | CallAddToken p a => principal p /\ principal (at_ledger_id a)
  | CallRequestScraping _ => True
  end.
Definition ok_label (l : Label) : Prop :=
  match l with
  | LTimer _ now => u64 now
  | LCall u now => ok_call u /\ u64 now
  | LAnswer _ r => ok_reply r
  | LDeliver _ _ now => u64 now
  | LUpgrade a now => optional ok_upgrade a /\ u64 now
  end.
Definition typed_env (s : Sys) (l : Label) : Prop := ok_label l.
Definition typed_nonce_kept (s : Sys) (l : Label) : Prop := ok_label l /\ nonce_kept s l.

(** The installation too: the first recorded event *)
Definition typed_start (keccak : list N -> Hash) (s : Sys) : Prop :=
  match sys_log s with e :: _ => ok_event keccak e | [] => True end.
