(** * Specification of C66: what a public event says.

    A client reads the texts back: hexadecimal digits after "0x", 32 bytes for a hash,
    20 bytes for an address, the bytes of a signed transaction. Every field is compared
    with the field of the recorded event of the same meaning. *)

From Verif Require Import Base Bytes Types Network Hex Rlp RlpSpec Audit PublicEvents.

Definition hex_text (t : text) : option (list N) :=
  match t with 48 :: 120 :: t' => hex_decode t' | _ => None end.
Definition is_hash (t : text) (h : Hash) : Prop :=
  exists b, hex_text t = Some b /\ List.length b = 32%nat /\ of_be b = h.
Definition is_addr (t : text) (a : Address) : Prop :=
  exists b, hex_text t = Some b /\ List.length b = 20%nat /\ of_be b = a.
Definition is_bytes32 (b : list N) (n : N) : Prop := List.length b = 32%nat /\ of_be b = n.
Definition same_opt {A B} (P : A -> B -> Prop) (x : option A) (y : option B) : Prop :=
  match x, y with Some a, Some b => P a b | None, None => True | _, _ => False end.

Definition says_source (p : PubSource) (s : EventSource) : Prop :=
  is_hash (ps_transaction_hash p) (fst s) /\ ps_log_index p = snd s.
Definition says_index (p : PubIndex) (i : ReimbursementIndex) : Prop :=
  match p, i with
  | PINative b, RINative b' => b = b'
  | PIErc20 b l e, RIErc20 b' l' e' => b = b' /\ l = l' /\ e = e'
  | _, _ => False
  end.
Definition says_access (p : PubAccess) (i : Address * list N) : Prop :=
  is_addr (pa_address p) (fst i) /\ Forall2 is_bytes32 (pa_storage_keys p) (snd i).
Definition says_tx (p : PubTx) (t : Tx) : Prop :=
  px_chain_id p = tx_chain_id t /\ px_nonce p = tx_nonce t /\
  px_max_priority_fee_per_gas p = tx_max_priority_fee_per_gas t /\ px_max_fee_per_gas p = tx_max_fee_per_gas t /\
  px_gas_limit p = tx_gas_limit t /\ is_addr (px_destination p) (tx_destination t) /\ px_value p = tx_amount t /\
  px_data p = tx_data t /\ Forall2 says_access (px_access_list p) (tx_access_list t).
Definition says_receipt (p : PubReceipt) (r : Receipt) : Prop :=
  is_hash (pr_block_hash p) (rc_block_hash r) /\ pr_block_number p = rc_block_number r /\
  pr_effective_gas_price p = rc_effective_gas_price r /\ pr_gas_used p = rc_gas_used r /\ pr_status p = rc_status r /\
  is_hash (pr_transaction_hash p) (rc_transaction_hash r).

Definition says (p : PubPayload) (e : EventType) : Prop :=
  match p, e with
  | PInit a, EvInit b => a = b
  | PUpgrade a, EvUpgrade b => a = b
  | PAcceptedDeposit h n i f v q s, EvAcceptedDeposit e =>
      is_hash h (ne_transaction_hash e) /\ n = ne_block_number e /\ i = ne_log_index e /\ is_addr f (ne_from_address e) /\
      v = ne_value e /\ q = ne_principal e /\ same_opt is_bytes32 s (ne_subaccount e)
  | PAcceptedErc20Deposit h n i f v q c s, EvAcceptedErc20Deposit e =>
      is_hash h (ee_transaction_hash e) /\ n = ee_block_number e /\ i = ee_log_index e /\ is_addr f (ee_from_address e) /\
      v = ee_value e /\ q = ee_principal e /\ is_addr c (ee_erc20_contract_address e) /\
      same_opt is_bytes32 s (ee_subaccount e)
  | PInvalidDeposit s t, EvInvalidDeposit s' t' => says_source s s' /\ t = t'
  | PMintedNative s b, EvMintedNative s' b' => says_source s s' /\ b = b'
  | PSyncedToBlock b, EvSyncedToBlock b' => b = b'
  | PAcceptedNativeWithdrawalRequest v d b f s t, EvAcceptedNativeWithdrawalRequest r =>
      v = nw_withdrawal_amount r /\ is_addr d (nw_destination r) /\ b = nw_ledger_burn_index r /\ f = nw_from r /\
      s = nw_from_subaccount r /\ t = nw_created_at r
  | PCreatedTransaction i t, EvCreatedTransaction i' t' => i = i' /\ says_tx t t'
  | PSignedTransaction i x, EvSignedTransaction i' t => i = i' /\ hex_text x = Some (raw_bytes (st_tx t) (st_sig t))
  | PReplacedTransaction i t, EvReplacedTransaction i' t' => i = i' /\ says_tx t t'
  | PFinalizedTransaction i r, EvFinalizedTransaction i' r' => i = i' /\ says_receipt r r'
  | PReimbursedNativeWithdrawal n i v h, EvReimbursedNativeWithdrawal r =>
      n = rd_reimbursed_in_block r /\ i = rd_burn_in_block r /\ v = rd_reimbursed_amount r /\
      same_opt is_hash h (rd_transaction_hash r)
  | PReimbursedErc20Withdrawal i b n l v h, EvReimbursedErc20Withdrawal i' l' r =>
      i = i' /\ b = rd_burn_in_block r /\ n = rd_reimbursed_in_block r /\ l = l' /\ v = rd_reimbursed_amount r /\
      same_opt is_hash h (rd_transaction_hash r)
  | PSkippedBlock b, EvSkippedBlock b' => b = b'
  | PAddedErc20Token n a s l, EvAddedErc20Token t =>
      network_of_chain_id n = Some (et_chain_id t) /\ is_addr a (et_contract_address t) /\ s = et_symbol t /\ l = et_ledger_id t
  | PAcceptedErc20WithdrawalRequest m v c d i l b f s t, EvAcceptedErc20WithdrawalRequest r =>
      m = ew_max_transaction_fee r /\ v = ew_withdrawal_amount r /\ is_addr c (ew_erc20_contract_address r) /\
      is_addr d (ew_destination r) /\ i = ew_native_ledger_burn_index r /\ l = ew_erc20_ledger_id r /\
      b = ew_erc20_ledger_burn_index r /\ f = ew_from r /\ s = ew_from_subaccount r /\ t = ew_created_at r
  | PMintedErc20 s b t a, EvMintedErc20 s' b' t' a' => says_source s s' /\ b = b' /\ t = t' /\ is_addr a a'
  | PFailedErc20WithdrawalRequest i v to s, EvFailedErc20WithdrawalRequest r =>
      i = rr_ledger_burn_index r /\ v = rr_reimbursed_amount r /\ to = rr_to r /\ s = rr_to_subaccount r
  | PQuarantinedDeposit s, EvQuarantinedDeposit s' => says_source s s'
  | PQuarantinedReimbursement i, EvQuarantinedReimbursement i' => says_index i i'
  | _, _ => False
  end.
Definition tells (p : PubEvent) (e : Event) : Prop :=
  pe_timestamp p = ev_timestamp e /\ says (pe_payload p) (ev_payload e).

(** What the public form leaves out is nothing: no hash in a failed gas fee, and a signed
    transaction that fits into memory. *)
Definition whole (e : EventType) : Prop :=
  match e with
  | EvSignedTransaction _ t => fits_memory (raw_bytes (st_tx t) (st_sig t))
  | EvFailedErc20WithdrawalRequest r => rr_transaction_hash r = None
  | _ => True
  end.
