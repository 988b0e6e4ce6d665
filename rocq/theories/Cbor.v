(** * Cbor: the bytes of ledger memos and of the events kept in stable memory.

    Model of /repo/minter/src/cbor, memo.rs, storage.rs 22-36 and of the [minicbor]
    attributes on the types of the events.

    The conventions of [minicbor] 0.19 are taken from its documentation: integers are written
    in the shortest form; a structure is an array of its fields, where absent optional fields
    at the end are left out and others are [null]; a variant is an array of its index and the
    array of its fields; a variant of an [index_only] type is its index. Simplification: arrays
    of unknown length and with more elements than fields, which the encoder never writes, are
    errors here. *)

From Verif Require Import Base BMap MultiKeyMap Bytes Types Amount Tx CallData Network Hex
  Transactions State Audit Ranges Rlp Parser Memo.

(** ** Encoding *)

(** The initial byte and the number that follows it *)
Definition head (major n : N) : list N :=
  if n <? 24 then [major * 32 + n]
  else if n <? 2 ^ 8 then [major * 32 + 24; n]
  else if n <? 2 ^ 16 then (major * 32 + 25) :: be_bytes 2 n
  else if n <? 2 ^ 32 then (major * 32 + 26) :: be_bytes 4 n
  else (major * 32 + 27) :: be_bytes 8 n.

Definition enc_uint (n : N) : list N := head 0 n.
Definition enc_bytes (b : list N) : list N := head 2 (N.of_nat (List.length b)) ++ b.
Definition enc_bool (b : bool) : list N := [if b then 245 else 244].
Definition NULL : N := 246.

(** UTF-8 *)
Definition utf8_char (c : N) : list N :=
  if c <? 128 then [c]
  else if c <? 2048 then [192 + c / 64; 128 + c mod 64]
  else if c <? 65536 then [224 + c / 4096; 128 + (c / 64) mod 64; 128 + c mod 64]
  else [240 + c / 262144; 128 + (c / 4096) mod 64; 128 + (c / 64) mod 64; 128 + c mod 64].
Definition utf8 (t : text) : list N := flat_map utf8_char t.
Definition enc_text (t : text) : list N :=
  let b := utf8 t in head 3 (N.of_nat (List.length b)) ++ b.

(** cbor/u256.rs 38-56 ([e.u32] and [e.u64] both write the shortest form) *)
Definition enc_u256 (v : N) : list N :=
  if v <=? 2 ^ 32 - 1 then enc_uint v
  else if v <=? 2 ^ 64 - 1 then enc_uint v
  else head 6 2 ++ enc_bytes (be_min v).

(** [BigUint::to_bytes_be] *)
Definition be_nat (n : N) : list N := be_bytes (N.to_nat ((N.size n + 7) / 8)) n.
(** cbor/nat.rs 29-41 *)
Definition enc_nat (v : N) : list N :=
  if v <=? 2 ^ 32 - 1 then enc_uint v
  else if v <=? 2 ^ 64 - 1 then enc_uint v
  else head 6 2 ++ enc_bytes (be_nat v).

(** cbor/principal.rs 12-19 *)
Definition enc_principal (p : Principal) : list N := enc_bytes p.
(** cbor/id.rs 18-28, for [Id<_, u64>] *)
Definition enc_id (n : N) : list N := enc_uint n.

(** A structure: [None] is an absent optional field *)
Fixpoint strip_none {A} (l : list (option A)) : list (option A) :=
  match l with
  | [] => []
  | f :: l' => match f, strip_none l' with None, [] => [] | _, r => f :: r end
  end.
Definition item (f : option (list N)) : list N := match f with Some b => b | None => [NULL] end.
Definition enc_struct (fields : list (option (list N))) : list N :=
  let fs := strip_none fields in
  head 4 (N.of_nat (List.length fs)) ++ flat_map item fs.
Definition enc_variant (index : N) (fields : list (option (list N))) : list N :=
  head 4 2 ++ enc_uint index ++ enc_struct fields.
Definition enc_list {A} (e : A -> list N) (l : list A) : list N :=
  head 4 (N.of_nat (List.length l)) ++ flat_map e l.

(** eth_types/mod.rs 12-21 [Address], rpc_declrations.rs 87-96 [Hash],
    state/transactions/mod.rs 28-30 [Subaccount], tx.rs 60-62 [StorageKey]: byte strings *)
Definition enc_address (a : Address) : list N := enc_bytes (be_bytes 20 a).
Definition enc_hash (h : Hash) : list N := enc_bytes (be_bytes 32 h).
Definition enc_subaccount (s : Subaccount) : list N := enc_bytes s.

(** deposit_logs/mod.rs 111-117 [EventSource] *)
Definition enc_source (s : EventSource) : list N := enc_struct [Some (enc_hash (fst s)); Some (enc_u256 (snd s))].
(** deposit_logs/mod.rs 246-247 [LedgerSubaccount]: a structure of one field *)
Definition enc_ledger_subaccount (s : LedgerSubaccount) : list N := enc_struct [Some (enc_u256 s)].
(** deposit_logs/mod.rs 25-41 *)
Definition enc_native_event (e : ReceivedNativeEvent) : list N :=
  enc_struct [Some (enc_hash (ne_transaction_hash e)); Some (enc_u256 (ne_block_number e)); Some (enc_u256 (ne_log_index e));
              Some (enc_address (ne_from_address e)); Some (enc_u256 (ne_value e)); Some (enc_principal (ne_principal e));
              option_map enc_ledger_subaccount (ne_subaccount e)].
(** deposit_logs/mod.rs 42-60 *)
Definition enc_erc20_event (e : ReceivedErc20Event) : list N :=
  enc_struct [Some (enc_hash (ee_transaction_hash e)); Some (enc_u256 (ee_block_number e)); Some (enc_u256 (ee_log_index e));
              Some (enc_address (ee_from_address e)); Some (enc_u256 (ee_value e)); Some (enc_principal (ee_principal e));
              Some (enc_address (ee_erc20_contract_address e)); option_map enc_ledger_subaccount (ee_subaccount e)].
(** evm_config.rs 22-45 [EvmNetwork] (index only; the indices are the chain ids) *)
Definition network_index (n : EvmNetwork) : N :=
  match n with
  | Ethereum => 1 | Sepolia => 11155111 | ArbitrumOne => 42161 | BSC => 56 | BSCTestnet => 97
  | Polygon => 137 | Optimism => 10 | Base_ => 8453 | Avalanche => 43114 | Fantom => 250
  end.
Definition enc_network (n : EvmNetwork) : list N := enc_uint (network_index n).
(** endpoints.rs 123-142 [CandidBlockTag] (index only) *)
Definition tag_index (t : BlockTag) : N := match t with TagLatest => 0 | TagSafe => 1 | TagFinalized => 2 end.
Definition enc_tag (t : BlockTag) : list N := enc_uint (tag_index t).
(** erc20.rs 13-27 [ERC20Token] *)
Definition enc_token (t : ERC20Token) : list N :=
  enc_struct [Some (enc_network (et_chain_id t)); Some (enc_address (et_contract_address t)); Some (enc_text (et_symbol t));
              Some (enc_principal (et_ledger_id t))].
(** tx.rs 64-74 [AccessListItem], 28-30 [AccessList] *)
Definition enc_access_item (x : Address * list N) : list N :=
  enc_struct [Some (enc_address (fst x)); Some (enc_list enc_hash (snd x))].
(** tx.rs 97-117 [Eip1559TransactionRequest] *)
Definition enc_tx (t : Tx) : list N :=
  enc_struct [Some (enc_uint (tx_chain_id t)); Some (enc_u256 (tx_nonce t)); Some (enc_u256 (tx_max_priority_fee_per_gas t));
              Some (enc_u256 (tx_max_fee_per_gas t)); Some (enc_u256 (tx_gas_limit t)); Some (enc_address (tx_destination t));
              Some (enc_u256 (tx_amount t)); Some (enc_bytes (tx_data t)); Some (enc_list enc_access_item (tx_access_list t))].
(** tx.rs 246-259 [Eip1559Signature] *)
Definition enc_signature (s : Signature) : list N :=
  enc_struct [Some (enc_bool (sg_y_parity s)); Some (enc_u256 (sg_r s)); Some (enc_u256 (sg_s s))].
(** tx.rs 289-297, 321-331 [SignedEip1559TransactionRequest]: the hash is not written *)
Definition enc_signed (t : SignedTx) : list N :=
  enc_struct [Some (enc_tx (st_tx t)); Some (enc_signature (st_sig t))].
(** rpc_declrations.rs 355-368 [TransactionStatus]: a variant without fields *)
Definition enc_status (s : TransactionStatus) : list N :=
  enc_variant (match s with TxSuccess => 0 | TxFailure => 1 end) [].
(** rpc_declrations.rs 318-343 [TransactionReceipt] *)
Definition enc_receipt (r : Receipt) : list N :=
  enc_struct [Some (enc_hash (rc_block_hash r)); Some (enc_u256 (rc_block_number r)); Some (enc_u256 (rc_effective_gas_price r));
              Some (enc_u256 (rc_gas_used r)); Some (enc_status (rc_status r)); Some (enc_hash (rc_transaction_hash r))].
(** state/transactions/mod.rs 39-59 *)
Definition enc_native_request (r : NativeWithdrawalRequest) : list N :=
  enc_struct [Some (enc_u256 (nw_withdrawal_amount r)); Some (enc_address (nw_destination r)); Some (enc_id (nw_ledger_burn_index r));
              Some (enc_principal (nw_from r)); option_map enc_subaccount (nw_from_subaccount r); option_map enc_uint (nw_created_at r)].
(** state/transactions/mod.rs 62-94 *)
Definition enc_erc20_request (r : Erc20WithdrawalRequest) : list N :=
  enc_struct [Some (enc_u256 (ew_max_transaction_fee r)); Some (enc_u256 (ew_withdrawal_amount r)); Some (enc_address (ew_destination r));
              Some (enc_id (ew_native_ledger_burn_index r)); Some (enc_address (ew_erc20_contract_address r));
              Some (enc_principal (ew_erc20_ledger_id r)); Some (enc_id (ew_erc20_ledger_burn_index r)); Some (enc_principal (ew_from r));
              option_map enc_subaccount (ew_from_subaccount r); Some (enc_uint (ew_created_at r))].
(** state/transactions/mod.rs 246-264 *)
Definition enc_index (i : ReimbursementIndex) : list N :=
  match i with
  | RINative b => enc_variant 0 [Some (enc_id b)]
  | RIErc20 b l e => enc_variant 1 [Some (enc_id b); Some (enc_principal l); Some (enc_id e)]
  end.
(** state/transactions/mod.rs 303-320 *)
Definition enc_reimbursement (r : ReimbursementRequest) : list N :=
  enc_struct [Some (enc_id (rr_ledger_burn_index r)); Some (enc_u256 (rr_reimbursed_amount r)); Some (enc_principal (rr_to r));
              option_map enc_subaccount (rr_to_subaccount r); option_map enc_hash (rr_transaction_hash r)].
(** state/transactions/mod.rs 322-333 *)
Definition enc_reimbursed (r : Reimbursed) : list N :=
  enc_struct [Some (enc_id (rd_reimbursed_in_block r)); Some (enc_id (rd_burn_in_block r)); Some (enc_u256 (rd_reimbursed_amount r));
              option_map enc_hash (rd_transaction_hash r)].
(** lifecycle.rs 19-51 [InitArg] *)
Definition enc_init (a : InitArg) : list N :=
  enc_struct [Some (enc_network (ia_evm_network a)); Some (enc_text (ia_ecdsa_key_name a));
              option_map enc_text (ia_helper_contract_address a); Some (enc_principal (ia_native_ledger_id a));
              Some (enc_principal (ia_native_index_id a)); Some (enc_text (ia_native_symbol a)); Some (enc_tag (ia_block_height a));
              Some (enc_nat (ia_native_minimum_withdrawal_amount a)); Some (enc_nat (ia_native_ledger_transfer_fee a));
              Some (enc_nat (ia_next_transaction_nonce a)); Some (enc_nat (ia_last_scraped_block_number a));
              Some (enc_nat (ia_min_max_priority_fee_per_gas a)); Some (enc_principal (ia_ledger_suite_manager_id a));
              Some (enc_nat (ia_deposit_native_fee a)); Some (enc_nat (ia_withdrawal_native_fee a))].
(** lifecycle.rs 169-192 [UpgradeArg], cbor/nat.rs 43-61, cbor/principal.rs 21-39 *)
Definition enc_upgrade (a : UpgradeArg) : list N :=
  enc_struct [option_map enc_nat (ua_next_transaction_nonce a); option_map enc_nat (ua_native_minimum_withdrawal_amount a);
              option_map enc_text (ua_helper_contract_address a); option_map enc_tag (ua_block_height a);
              option_map enc_nat (ua_last_scraped_block_number a); option_map enc_principal (ua_evm_rpc_id a);
              option_map enc_nat (ua_native_ledger_transfer_fee a); option_map enc_nat (ua_min_max_priority_fee_per_gas a);
              option_map enc_nat (ua_deposit_native_fee a); option_map enc_nat (ua_withdrawal_native_fee a)].

(** state/event.rs 19-163 [EventType] *)
Definition enc_payload (e : EventType) : list N :=
  match e with
  | EvInit a => enc_variant 0 [Some (enc_init a)]
  | EvUpgrade a => enc_variant 1 [Some (enc_upgrade a)]
  | EvAcceptedDeposit e => enc_variant 2 [Some (enc_native_event e)]
  | EvInvalidDeposit s t => enc_variant 4 [Some (enc_source s); Some (enc_text t)]
  | EvMintedNative s b => enc_variant 5 [Some (enc_source s); Some (enc_id b)]
  | EvSyncedToBlock b => enc_variant 6 [Some (enc_u256 b)]
  | EvAcceptedNativeWithdrawalRequest r => enc_variant 7 [Some (enc_native_request r)]
  | EvCreatedTransaction i t => enc_variant 8 [Some (enc_id i); Some (enc_tx t)]
  | EvSignedTransaction i t => enc_variant 9 [Some (enc_id i); Some (enc_signed t)]
  | EvReplacedTransaction i t => enc_variant 10 [Some (enc_id i); Some (enc_tx t)]
  | EvFinalizedTransaction i r => enc_variant 11 [Some (enc_id i); Some (enc_receipt r)]
  | EvReimbursedNativeWithdrawal r => enc_variant 12 [Some (enc_reimbursed r)]
  | EvAddedErc20Token t => enc_variant 14 [Some (enc_token t)]
  | EvAcceptedErc20Deposit e => enc_variant 15 [Some (enc_erc20_event e)]
  | EvAcceptedErc20WithdrawalRequest r => enc_variant 16 [Some (enc_erc20_request r)]
  | EvMintedErc20 s b t a => enc_variant 17 [Some (enc_source s); Some (enc_id b); Some (enc_text t); Some (enc_address a)]
  | EvReimbursedErc20Withdrawal b l r => enc_variant 19 [Some (enc_id b); Some (enc_principal l); Some (enc_reimbursed r)]
  | EvFailedErc20WithdrawalRequest r => enc_variant 20 [Some (enc_reimbursement r)]
  | EvQuarantinedDeposit s => enc_variant 21 [Some (enc_source s)]
  | EvQuarantinedReimbursement i => enc_variant 22 [Some (enc_index i)]
  | EvSkippedBlock b => enc_variant 23 [Some (enc_u256 b)]
  end.
(** state/event.rs 174-182 [Event], storage.rs 23-27 [to_bytes] *)
Definition store_event (e : Event) : list N := enc_struct [Some (enc_uint (ev_timestamp e)); Some (enc_payload (ev_payload e))].

(** memo.rs 14-18, 20-51, 59-95: the bytes of a memo *)
Definition mint_memo_bytes (m : MintMemo) : list N :=
  match m with
  | MintConvert a h i => enc_variant 0 [Some (enc_address a); Some (enc_hash h); Some (enc_u256 i)]
  | ReimburseTransaction i h => enc_variant 1 [Some (enc_uint i); Some (enc_hash h)]
  | ReimburseWithdrawal i => enc_variant 2 [Some (enc_uint i)]
  end.
Definition burn_memo_bytes (m : BurnMemo) : list N :=
  match m with
  | BurnConvert a => enc_variant 0 [Some (enc_address a)]
  | BurnErc20GasFee t v a => enc_variant 1 [Some (enc_text t); Some (enc_u256 v); Some (enc_address a)]
  | BurnErc20Convert i a => enc_variant 2 [Some (enc_uint i); Some (enc_address a)]
  end.

(** ** Decoding *)

(** A value and the bytes that follow it; an error, possibly "type mismatch" *)
Inductive dres (A : Type) := DOk (v : A) (rest : list N) | DErr (mismatch : bool).
Arguments DOk {A} v rest.
Arguments DErr {A} mismatch.
Definition Dec (A : Type) := list N -> dres A.
Definition dret {A} (v : A) : Dec A := fun l => DOk v l.
Definition dfail {A} : Dec A := fun _ => DErr false.
Definition dbind {A B} (d : Dec A) (f : A -> Dec B) : Dec B :=
  fun l => match d l with DOk v l' => f v l' | DErr m => DErr m end.
Definition dmap {A B} (f : A -> B) (d : Dec A) : Dec B := dbind d (fun v => dret (f v)).

(** [n] bytes *)
Definition take (n : N) : Dec (list N) :=
  fun l => if n <=? N.of_nat (List.length l) then DOk (firstn (N.to_nat n) l) (skipn (N.to_nat n) l) else DErr false.
(** the number after an initial byte with additional information [info] *)
Definition number (info : N) : Dec N :=
  if info <? 24 then dret info
  else if info =? 24 then dmap of_be (take 1)
  else if info =? 25 then dmap of_be (take 2)
  else if info =? 26 then dmap of_be (take 4)
  else if info =? 27 then dmap of_be (take 8)
  else fun _ => DErr false.
(** an initial byte of the given major type *)
Definition dec_head (major : N) : Dec N :=
  fun l => match l with
           | [] => DErr false
           | b :: l' => if b / 32 =? major then (if b mod 32 =? 31 then DErr true else number (b mod 32) l') else DErr true
           end.
(** [Decoder::u64]: additional information above 27 is a mismatch *)
Definition dec_uint : Dec N :=
  fun l => match l with
           | [] => DErr false
           | b :: l' => if b <? 28 then number b l' else DErr true
           end.
(** [Decoder::u32] *)
Definition dec_u32 : Dec N := dbind dec_uint (fun n => if n <? 2 ^ 32 then dret n else dfail).
Definition dec_bytes : Dec (list N) := dbind (dec_head 2) take.
Definition dec_bool : Dec bool :=
  fun l => match l with
           | 244 :: l' => DOk false l'
           | 245 :: l' => DOk true l'
           | [] => DErr false
           | _ => DErr true
           end.

(** [core::str::from_utf8] *)
Definition cont (b : N) : bool := (128 <=? b) && (b <? 192).
Fixpoint of_utf8 (l : list N) : option text :=
  match l with
  | [] => Some []
  | a :: l1 =>
      if a <? 128 then option_map (cons a) (of_utf8 l1)
      else match l1 with
      | [] => None
      | b :: l2 =>
          if (194 <=? a) && (a <? 224) && cont b
          then option_map (cons ((a - 192) * 64 + (b - 128))) (of_utf8 l2)
          else match l2 with
          | [] => None
          | c :: l3 =>
              if (224 <=? a) && (a <? 240) && cont b && cont c
                 && (if a =? 224 then 160 <=? b else true) && (if a =? 237 then b <? 160 else true)
              then option_map (cons ((a - 224) * 4096 + (b - 128) * 64 + (c - 128))) (of_utf8 l3)
              else match l3 with
              | [] => None
              | d :: l4 =>
                  if (240 <=? a) && (a <? 245) && cont b && cont c && cont d
                     && (if a =? 240 then 144 <=? b else true) && (if a =? 244 then b <? 144 else true)
                  then option_map (cons ((a - 240) * 262144 + (b - 128) * 4096 + (c - 128) * 64 + (d - 128))) (of_utf8 l4)
                  else None
              end
          end
      end
  end.
Definition dec_text : Dec text :=
  dbind (dbind (dec_head 3) take) (fun b => match of_utf8 b with Some t => dret t | None => dfail end).

(** cbor/u256.rs 10-36, cbor/nat.rs 9-27: [limit] is the largest number of bytes *)
Definition dec_big (limit : option N) : Dec N :=
  fun l => match dec_uint l with
           | DOk n l' => DOk n l'
           | DErr false => DErr false
           | DErr true =>
               dbind (dec_head 6) (fun tag =>
                 if negb (tag =? 2) then dfail
                 else dbind dec_bytes (fun b =>
                   if match limit with Some m => m <? N.of_nat (List.length b) | None => false end then dfail
                   else dret (of_be b))) l
           end.
Definition dec_u256 : Dec N := dec_big (Some 32).
Definition dec_nat : Dec N := dec_big None.

(** cbor/principal.rs 7-10 ([Principal::try_from_slice]) *)
Definition dec_principal : Dec Principal :=
  dbind dec_bytes (fun b => if N.of_nat (List.length b) <=? 29 then dret b else dfail).
(** cbor/id.rs 8-16 *)
Definition dec_id : Dec N := dec_uint.
(** [minicbor::bytes] for arrays *)
Definition dec_array (n : N) : Dec (list N) :=
  dbind dec_bytes (fun b => if N.of_nat (List.length b) =? n then dret b else dfail).
Definition dec_address : Dec Address := dmap of_be (dec_array 20).
Definition dec_hash : Dec Hash := dmap of_be (dec_array 32).
Definition dec_subaccount : Dec Subaccount := dec_array 32.

(** *** Structures: [n] elements are left *)
Definition FDec (A : Type) := N -> list N -> dres (A * N).
Definition fret {A} (v : A) : FDec A := fun n l => DOk (v, n) l.
Definition fbind {A B} (d : FDec A) (f : A -> FDec B) : FDec B :=
  fun n l => match d n l with DOk (v, n') l' => f v n' l' | DErr m => DErr m end.
(** a required field: missing values are errors *)
Definition req {A} (d : Dec A) : FDec A :=
  fun n l => if n =? 0 then DErr false else match d l with DOk v l' => DOk (v, n - 1) l' | DErr m => DErr m end.
(** an optional field: absent or [null] is [None] *)
Definition opt {A} (d : Dec A) : FDec (option A) :=
  fun n l => if n =? 0 then DOk (None, 0) l
             else match l with
                  | [] => DErr false
                  | b :: l' => if b =? NULL then DOk (None, n - 1) l'
                               else match d l with DOk v l'' => DOk (Some v, n - 1) l'' | DErr m => DErr m end
                  end.
Definition dec_struct {A} (d : FDec A) : Dec A :=
  fun l => match dec_head 4 l with
           | DOk n l' => match d n l' with DOk (v, 0) l'' => DOk v l'' | DOk _ _ => DErr false | DErr m => DErr m end
           | DErr m => DErr m
           end.
Definition dec_variant {A} (d : N -> FDec A) : Dec A :=
  dbind (dec_head 4) (fun n => if n =? 2 then dbind dec_u32 (fun i => dec_struct (d i)) else dfail).
Definition ffail {A} : FDec A := fun _ _ => DErr false.
Fixpoint dec_many {A} (d : Dec A) (fuel : nat) (n : N) : Dec (list A) :=
  if n =? 0 then dret []
  else match fuel with
       | O => dfail
       | S fuel' => dbind d (fun v => dbind (dec_many d fuel' (n - 1)) (fun vs => dret (v :: vs)))
       end.
(** [Vec<T>]: an element has at least one byte, so there are at most as many elements as bytes *)
Definition dec_list {A} (d : Dec A) : Dec (list A) :=
  dbind (dec_head 4) (fun n l => dec_many d (List.length l) n l).

Declare Scope fdec_scope.
Delimit Scope fdec_scope with fdec.
Notation "x <== d ;; e" := (fbind d (fun x => e)) (at level 61, d at next level, right associativity) : fdec_scope.
Local Open Scope fdec_scope.

Definition dec_source : Dec EventSource :=
  dec_struct (h <== req dec_hash ;; i <== req dec_u256 ;; fret (h, i)).
Definition dec_ledger_subaccount : Dec LedgerSubaccount := dec_struct (req dec_u256).
Definition dec_native_event : Dec ReceivedNativeEvent :=
  dec_struct (h <== req dec_hash ;; b <== req dec_u256 ;; i <== req dec_u256 ;; a <== req dec_address ;; v <== req dec_u256 ;;
    p <== req dec_principal ;; s <== opt dec_ledger_subaccount ;;
    fret {| ne_transaction_hash := h; ne_block_number := b; ne_log_index := i; ne_from_address := a; ne_value := v;
            ne_principal := p; ne_subaccount := s |}).
Definition dec_erc20_event : Dec ReceivedErc20Event :=
  dec_struct (h <== req dec_hash ;; b <== req dec_u256 ;; i <== req dec_u256 ;; a <== req dec_address ;; v <== req dec_u256 ;;
    p <== req dec_principal ;; c <== req dec_address ;; s <== opt dec_ledger_subaccount ;;
    fret {| ee_transaction_hash := h; ee_block_number := b; ee_log_index := i; ee_from_address := a; ee_value := v;
            ee_principal := p; ee_erc20_contract_address := c; ee_subaccount := s |}).
Definition dec_network : Dec EvmNetwork :=
  dbind dec_u32 (fun i =>
    if i =? 1 then dret Ethereum else if i =? 11155111 then dret Sepolia else if i =? 42161 then dret ArbitrumOne
    else if i =? 56 then dret BSC else if i =? 97 then dret BSCTestnet else if i =? 137 then dret Polygon
    else if i =? 10 then dret Optimism else if i =? 8453 then dret Base_ else if i =? 43114 then dret Avalanche
    else if i =? 250 then dret Fantom else dfail).
Definition dec_tag : Dec BlockTag :=
  dbind dec_u32 (fun i => if i =? 0 then dret TagLatest else if i =? 1 then dret TagSafe else if i =? 2 then dret TagFinalized else dfail).
Definition dec_token : Dec ERC20Token :=
  dec_struct (n <== req dec_network ;; a <== req dec_address ;; s <== req dec_text ;; l <== req dec_principal ;;
    fret {| et_chain_id := n; et_contract_address := a; et_symbol := s; et_ledger_id := l |}).
Definition dec_access_item : Dec (Address * list N) :=
  dec_struct (a <== req dec_address ;; k <== req (dec_list dec_hash) ;; fret (a, k)).
Definition dec_tx : Dec Tx :=
  dec_struct (c <== req dec_uint ;; n <== req dec_u256 ;; p <== req dec_u256 ;; f <== req dec_u256 ;; g <== req dec_u256 ;;
    a <== req dec_address ;; v <== req dec_u256 ;; d <== req dec_bytes ;; l <== req (dec_list dec_access_item) ;;
    fret {| tx_chain_id := c; tx_nonce := n; tx_max_priority_fee_per_gas := p; tx_max_fee_per_gas := f; tx_gas_limit := g;
            tx_destination := a; tx_amount := v; tx_data := d; tx_access_list := l |}).
Definition dec_signature : Dec Signature :=
  dec_struct (y <== req dec_bool ;; r <== req dec_u256 ;; s <== req dec_u256 ;; fret {| sg_y_parity := y; sg_r := r; sg_s := s |}).
(** tx.rs 333-343: the hash is computed anew *)
Definition dec_signed (keccak : list N -> Hash) : Dec SignedTx :=
  dec_struct (t <== req dec_tx ;; s <== req dec_signature ;; fret (signed_tx keccak t s)).
Definition dec_status : Dec TransactionStatus :=
  dec_variant (fun i => if i =? 0 then fret TxSuccess else if i =? 1 then fret TxFailure else ffail).
Definition dec_receipt : Dec Receipt :=
  dec_struct (h <== req dec_hash ;; b <== req dec_u256 ;; p <== req dec_u256 ;; g <== req dec_u256 ;; s <== req dec_status ;;
    t <== req dec_hash ;;
    fret {| rc_block_hash := h; rc_block_number := b; rc_effective_gas_price := p; rc_gas_used := g; rc_status := s;
            rc_transaction_hash := t |}).
Definition dec_native_request : Dec NativeWithdrawalRequest :=
  dec_struct (v <== req dec_u256 ;; d <== req dec_address ;; i <== req dec_id ;; p <== req dec_principal ;;
    s <== opt dec_subaccount ;; t <== opt dec_uint ;;
    fret {| nw_withdrawal_amount := v; nw_destination := d; nw_ledger_burn_index := i; nw_from := p; nw_from_subaccount := s;
            nw_created_at := t |}).
Definition dec_erc20_request : Dec Erc20WithdrawalRequest :=
  dec_struct (f <== req dec_u256 ;; v <== req dec_u256 ;; d <== req dec_address ;; i <== req dec_id ;; c <== req dec_address ;;
    l <== req dec_principal ;; j <== req dec_id ;; p <== req dec_principal ;; s <== opt dec_subaccount ;; t <== req dec_uint ;;
    fret {| ew_max_transaction_fee := f; ew_withdrawal_amount := v; ew_destination := d; ew_native_ledger_burn_index := i;
            ew_erc20_contract_address := c; ew_erc20_ledger_id := l; ew_erc20_ledger_burn_index := j; ew_from := p;
            ew_from_subaccount := s; ew_created_at := t |}).
Definition dec_index : Dec ReimbursementIndex :=
  dec_variant (fun k =>
    if k =? 0 then i <== req dec_id ;; fret (RINative i)
    else if k =? 1 then i <== req dec_id ;; l <== req dec_principal ;; j <== req dec_id ;; fret (RIErc20 i l j)
    else ffail).
Definition dec_reimbursement : Dec ReimbursementRequest :=
  dec_struct (i <== req dec_id ;; v <== req dec_u256 ;; p <== req dec_principal ;; s <== opt dec_subaccount ;; h <== opt dec_hash ;;
    fret {| rr_ledger_burn_index := i; rr_reimbursed_amount := v; rr_to := p; rr_to_subaccount := s; rr_transaction_hash := h |}).
Definition dec_reimbursed : Dec Reimbursed :=
  dec_struct (i <== req dec_id ;; j <== req dec_id ;; v <== req dec_u256 ;; h <== opt dec_hash ;;
    fret {| rd_reimbursed_in_block := i; rd_burn_in_block := j; rd_reimbursed_amount := v; rd_transaction_hash := h |}).
Definition dec_init : Dec InitArg :=
  dec_struct (n <== req dec_network ;; k <== req dec_text ;; h <== opt dec_text ;; l <== req dec_principal ;; x <== req dec_principal ;;
    s <== req dec_text ;; b <== req dec_tag ;; m <== req dec_nat ;; f <== req dec_nat ;; o <== req dec_nat ;; c <== req dec_nat ;;
    p <== req dec_nat ;; q <== req dec_principal ;; d <== req dec_nat ;; w <== req dec_nat ;;
    fret {| ia_evm_network := n; ia_ecdsa_key_name := k; ia_helper_contract_address := h; ia_native_ledger_id := l;
            ia_native_index_id := x; ia_native_symbol := s; ia_block_height := b; ia_native_minimum_withdrawal_amount := m;
            ia_native_ledger_transfer_fee := f; ia_next_transaction_nonce := o; ia_last_scraped_block_number := c;
            ia_min_max_priority_fee_per_gas := p; ia_ledger_suite_manager_id := q; ia_deposit_native_fee := d;
            ia_withdrawal_native_fee := w |}).
Definition dec_upgrade : Dec UpgradeArg :=
  dec_struct (o <== opt dec_nat ;; m <== opt dec_nat ;; h <== opt dec_text ;; b <== opt dec_tag ;; c <== opt dec_nat ;;
    r <== opt dec_principal ;; f <== opt dec_nat ;; p <== opt dec_nat ;; d <== opt dec_nat ;; w <== opt dec_nat ;;
    fret {| ua_next_transaction_nonce := o; ua_native_minimum_withdrawal_amount := m; ua_helper_contract_address := h;
            ua_block_height := b; ua_last_scraped_block_number := c; ua_evm_rpc_id := r; ua_native_ledger_transfer_fee := f;
            ua_min_max_priority_fee_per_gas := p; ua_deposit_native_fee := d; ua_withdrawal_native_fee := w |}).

Definition dec_payload (keccak : list N -> Hash) : Dec EventType :=
  dec_variant (fun k =>
    match k with
    | 0 => a <== req dec_init ;; fret (EvInit a)
    | 1 => a <== req dec_upgrade ;; fret (EvUpgrade a)
    | 2 => e <== req dec_native_event ;; fret (EvAcceptedDeposit e)
    | 4 => s <== req dec_source ;; t <== req dec_text ;; fret (EvInvalidDeposit s t)
    | 5 => s <== req dec_source ;; b <== req dec_id ;; fret (EvMintedNative s b)
    | 6 => b <== req dec_u256 ;; fret (EvSyncedToBlock b)
    | 7 => r <== req dec_native_request ;; fret (EvAcceptedNativeWithdrawalRequest r)
    | 8 => i <== req dec_id ;; t <== req dec_tx ;; fret (EvCreatedTransaction i t)
    | 9 => i <== req dec_id ;; t <== req (dec_signed keccak) ;; fret (EvSignedTransaction i t)
    | 10 => i <== req dec_id ;; t <== req dec_tx ;; fret (EvReplacedTransaction i t)
    | 11 => i <== req dec_id ;; r <== req dec_receipt ;; fret (EvFinalizedTransaction i r)
    | 12 => r <== req dec_reimbursed ;; fret (EvReimbursedNativeWithdrawal r)
    | 14 => t <== req dec_token ;; fret (EvAddedErc20Token t)
    | 15 => e <== req dec_erc20_event ;; fret (EvAcceptedErc20Deposit e)
    | 16 => r <== req dec_erc20_request ;; fret (EvAcceptedErc20WithdrawalRequest r)
    | 17 => s <== req dec_source ;; b <== req dec_id ;; t <== req dec_text ;; a <== req dec_address ;; fret (EvMintedErc20 s b t a)
    | 19 => b <== req dec_id ;; l <== req dec_principal ;; r <== req dec_reimbursed ;; fret (EvReimbursedErc20Withdrawal b l r)
    | 20 => r <== req dec_reimbursement ;; fret (EvFailedErc20WithdrawalRequest r)
    | 21 => s <== req dec_source ;; fret (EvQuarantinedDeposit s)
    | 22 => i <== req dec_index ;; fret (EvQuarantinedReimbursement i)
    | 23 => b <== req dec_u256 ;; fret (EvSkippedBlock b)
    | _ => ffail
    end).
Definition dec_event (keccak : list N -> Hash) : Dec Event :=
  dec_struct (t <== req dec_uint ;; p <== req (dec_payload keccak) ;; fret {| ev_timestamp := t; ev_payload := p |}).
(** storage.rs 29-33 [from_bytes]: bytes after the event are not looked at *)
Definition load_event (keccak : list N -> Hash) (b : list N) : res Event :=
  match dec_event keccak b with DOk e _ => Done e | DErr _ => Panic "failed to decode event bytes" end.

Definition dec_mint_memo : Dec MintMemo :=
  dec_variant (fun k =>
    if k =? 0 then a <== req dec_address ;; h <== req dec_hash ;; i <== req dec_u256 ;; fret (MintConvert a h i)
    else if k =? 1 then i <== req dec_uint ;; h <== req dec_hash ;; fret (ReimburseTransaction i h)
    else if k =? 2 then i <== req dec_uint ;; fret (ReimburseWithdrawal i)
    else ffail).
Definition dec_burn_memo : Dec BurnMemo :=
  dec_variant (fun k =>
    if k =? 0 then a <== req dec_address ;; fret (BurnConvert a)
    else if k =? 1 then t <== req dec_text ;; v <== req dec_u256 ;; a <== req dec_address ;; fret (BurnErc20GasFee t v a)
    else if k =? 2 then i <== req dec_uint ;; a <== req dec_address ;; fret (BurnErc20Convert i a)
    else ffail).
