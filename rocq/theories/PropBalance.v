(** * C29 and C30: the books agree with the history *)

From Verif Require Import Base BMap MultiKeyMap Bytes Types Amount Tx CallData Network Hex
  Transactions State Audit Ranges Rlp Parser Memo Driver Sys SysSpec SysFacts Scenario PropWithdraw
  WithdrawSpec BalanceSpec BalanceFacts.

(** ** Settlements *)

(** Every finalization is settled against exactly one accepted withdrawal and one of its
    signed transactions, the one named by the receipt. The gas fee is covered by what the
    user was charged for gas; for a native withdrawal the amount sent and the charge make
    up the amount withdrawn; an ERC20 withdrawal sends no native tokens. *)
Theorem C29_settled :
  forall self keccak s, reach self keccak nonce_kept s ->
    let h := history (sys_log s) in
    map (fun x => (wr_burn_index (se_request x), se_receipt x)) (settlements h) = finalizations h /\
    forall x, In x (settlements h) ->
      In (se_request x) (accepted h) /\
      In (se_signed x) (attempts h (wr_burn_index (se_request x))) /\
      st_hash (se_signed x) = rc_transaction_hash (se_receipt x) /\
      gas_fee x <= charged x /\
      match se_request x with
      | WNative r => tx_amount (st_tx (se_signed x)) + charged x = nw_withdrawal_amount r
      | WErc20 _ => tx_amount (st_tx (se_signed x)) = 0
      end.
Proof. intros self keccak. exact (settled_all self keccak nonce_kept (fun _ _ H => H)). Qed.
Print Assumptions C29_settled.

(** ** C29 *)

(** The tracked native balance is what was deposited less what left the minter's address. *)
Theorem C29_native :
  forall self keccak s, reach self keccak nonce_kept s ->
    let h := history (sys_log s) in
    nb_balance (native_balance (sys_state s)) + sum_of spent (settlements h) = native_deposits h.
Proof. intros self keccak s H. exact (bk_native _ (books_of self keccak nonce_kept (fun _ _ H => H) s H)). Qed.
Print Assumptions C29_native.

(** The effective fees are what the network took; with the unspent fees they make up what
    the users were charged. *)
Theorem C29_fees :
  forall self keccak s, reach self keccak nonce_kept s ->
    let h := history (sys_log s) in
    let b := native_balance (sys_state s) in
    nb_total_effective_tx_fees b = sum_of gas_fee (settlements h) /\
    nb_total_effective_tx_fees b + nb_total_unspent_tx_fees b = sum_of charged (settlements h).
Proof.
  intros self keccak s H.
  exact (conj (bk_eff _ (books_of self keccak nonce_kept (fun _ _ H => H) s H))
              (bk_charged _ (books_of self keccak nonce_kept (fun _ _ H => H) s H))).
Qed.
Print Assumptions C29_fees.

(** ** C30 *)

(** Per contract, the tracked balance is what was deposited less what successful
    transactions sent. *)
Theorem C30_erc20 :
  forall self keccak s contract, reach self keccak nonce_kept s ->
    let h := history (sys_log s) in
    erc20_balance_of contract (erc20_balances (sys_state s)) + sum_of (spent_erc20 contract) (settlements h) =
      erc20_deposits contract h.
Proof. intros self keccak s c H. exact (bk_erc20 _ (books_of self keccak nonce_kept (fun _ _ H => H) s H) c). Qed.
Print Assumptions C30_erc20.

(** ** The hypotheses are met *)

(** Deposits of native tokens and of tokens; a native withdrawal succeeds, the transaction
    of an ERC20 withdrawal is mined and fails. *)
Example C29_witness :
  exists s, reach self0 keccak0 nonce_kept s /\
    let h := history (sys_log s) in
    let b := native_balance (sys_state s) in
    native_deposits h = 100000000 /\ map spent (settlements h) = [49768500; 720000] /\
    map gas_fee (settlements h) = [252000; 720000] /\ map charged (settlements h) = [483000; 1495000] /\
    (nb_balance b, nb_total_effective_tx_fees b, nb_total_unspent_tx_fees b) = (49511500, 972000, 1006000).
Proof.
  destruct (run0 all0) as [s|] eqn:E; [|vm_compute in E; discriminate].
  assert (Hr : reach self0 keccak0 nonce_kept s) by (eapply scenario_reach; [exact E|vm_compute; reflexivity]).
  vm_compute in E. injection E as <-. eexists. split; [exact Hr|]. cbn zeta.
  split; [vm_compute; reflexivity|]. split; [vm_compute; reflexivity|]. split; [vm_compute; reflexivity|].
  split; [vm_compute; reflexivity|]. vm_compute; reflexivity.
Qed.

(** The ERC20 withdrawal succeeds instead: 3000 of the 5000 deposited tokens are gone. *)
Definition token_sent : list Label :=
  up_to_sent ++ finalize0 ++
  LTimer TimerRetrieve 70 :: ans 6 (ReCount (Some 8)) 71 ++ ans 6 ReSent 72 ++ ans 6 (ReCount (Some 9)) 73 ++
  ans 6 (ReReceipts [ReceiptOk (receipt0 8 60000 TxSuccess)]) 74.
Example C30_witness :
  exists s, reach self0 keccak0 nonce_kept s /\
    let h := history (sys_log s) in
    erc20_deposits 187 h = 5000 /\ map (spent_erc20 187) (settlements h) = [0; 3000] /\
    erc20_balance_of 187 (erc20_balances (sys_state s)) = 2000 /\
    erc20_balance_of 188 (erc20_balances (sys_state s)) = 0.
Proof.
  destruct (run0 token_sent) as [s|] eqn:E; [|vm_compute in E; discriminate].
  assert (Hr : reach self0 keccak0 nonce_kept s) by (eapply scenario_reach; [exact E|vm_compute; reflexivity]).
  vm_compute in E. injection E as <-. eexists. split; [exact Hr|]. cbn zeta.
  split; [vm_compute; reflexivity|]. split; [vm_compute; reflexivity|]. split; vm_compute; reflexivity.
Qed.
