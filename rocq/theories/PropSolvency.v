(** * C32: what the minter holds covers what it owes *)

From Verif Require Import Base BMap MultiKeyMap Bytes Types Amount Tx CallData Network Hex
  Transactions State Audit Ranges Rlp Parser Memo Driver Sys SysSpec SysFacts Scenario PropWithdraw
  WithdrawSpec DepositSpec TokenSpec ReimburseSpec BurnSpec BalanceSpec SolvencySpec SolvencyFacts.

(** The native tokens held cover the whole supply of their twin, the deposits to be
    minted, the withdrawals that are not finalized, the reimbursements to be paid, what a
    running call has burned without having recorded it, and the fees that users paid and
    the network did not take. *)
Theorem C32_native :
  forall self keccak s, reach self keccak nonce_kept s -> native_apart (sys_state s) ->
    solvent self Native s.
Proof. intros self keccak. exact (solvent_native self keccak nonce_kept (fun _ _ H => H)). Qed.
Print Assumptions C32_native.

(** The same for every registered token *)
Theorem C32_token :
  forall self keccak s contract ledger symbol, reach self keccak nonce_kept s ->
    listed (sys_state s) ledger contract symbol -> ledger <> native_ledger_id (sys_state s) ->
    solvent self (Token contract ledger) s.
Proof. intros self keccak. exact (solvent_token self keccak nonce_kept (fun _ _ H => H)). Qed.
Print Assumptions C32_token.

(** ** Witnesses *)

(** held, supply, to mint, outstanding, to repay, in flight, unspent *)
Definition sheet (a : Asset) (s : Sys) : list N :=
  [held a (sys_state s); supply self0 (asset_ledger (native_ledger_id (sys_state s)) a) (sys_ops s);
   to_mint a s; outstanding a (history (sys_log s)); to_repay a s; in_flight a s; unspent a (sys_state s)].
Definition sheets (ls : list Label) : res (list N * list N) :=
  s <- run0 ls ;; Done (sheet Native s, sheet (Token 187 token_ledger0) s).

Definition after_scrape : list Label := register0 ++ scrape0.
Definition before_recording : list Label :=
  register0 ++ scrape0 ++ mint0 ++ withdraw_native0 ++
  LCall (CallWithdrawErc20 user0 3000 token_ledger0 payee0) 50 ::
  ans 4 (ReFees (Some history0)) 51 ++ ledger_ok 4 4 52 ++ ledger_ok 4 5 53 ++ [LAnswer 4 (ReLedger (LedgerOk 1))].
Definition after_failure : list Label := up_to_sent ++ finalize0 ++ fail0.
Definition after_all : list Label := all0.

(** deposits found, nothing minted *)
Example C32_deposits_wait :
  exists s, reach self0 keccak0 nonce_kept s /\
    sheet Native s = [100000000; 0; 100000000; 0; 0; 0; 0] /\
    sheet (Token 187 token_ledger0) s = [5000; 0; 5000; 0; 0; 0; 0].
Proof.
  destruct (run0 after_scrape) as [s|] eqn:E; [|vm_compute in E; discriminate].
  assert (Hr : reach self0 keccak0 nonce_kept s) by (eapply scenario_reach; [exact E|vm_compute; reflexivity]).
  vm_compute in E. injection E as <-. eexists. split; [exact Hr|]. split; vm_compute; reflexivity.
Qed.
(** one withdrawal recorded, another about to be recorded *)
Example C32_in_flight :
  exists s, reach self0 keccak0 nonce_kept s /\
    sheet Native s = [100000000; 48505500; 0; 49999500; 0; 1495000; 0] /\
    sheet (Token 187 token_ledger0) s = [5000; 2000; 0; 0; 0; 3000; 0].
Proof.
  destruct (run0 before_recording) as [s|] eqn:E; [|vm_compute in E; discriminate].
  assert (Hr : reach self0 keccak0 nonce_kept s) by (eapply scenario_reach; [exact E|vm_compute; reflexivity]).
  vm_compute in E. injection E as <-. eexists. split; [exact Hr|]. split; vm_compute; reflexivity.
Qed.
(** one withdrawal finalized, another failed and to be repaid; the token has its own ledger *)
Example C32_failed :
  exists s, reach self0 keccak0 nonce_kept s /\ native_apart (sys_state s) /\
    listed (sys_state s) token_ledger0 187 (text_of "icUSDC") /\
    sheet Native s = [49511500; 48505500; 0; 0; 0; 0; 1006000] /\
    sheet (Token 187 token_ledger0) s = [5000; 2000; 0; 0; 3000; 0; 0].
Proof.
  destruct (run0 after_failure) as [s|] eqn:E; [|vm_compute in E; discriminate].
  assert (Hr : reach self0 keccak0 nonce_kept s) by (eapply scenario_reach; [exact E|vm_compute; reflexivity]).
  vm_compute in E. injection E as <-. eexists. split; [exact Hr|]. split; [|split; [|split]].
  - intros l c sy (x & Hx & Hin). vm_compute in Hx. injection Hx as <-. destruct Hin as [Hin|[]].
    injection Hin as _ _ <-. vm_compute. discriminate.
  - eexists. split; [vm_compute; reflexivity|]. left. vm_compute. reflexivity.
  - vm_compute. reflexivity.
  - vm_compute. reflexivity.
Qed.

(** ** Without the separation of the ledgers *)

(** A registration is not compared with the native ledger. Deposits of a token registered on
    the native ledger mint native twin tokens that no native token covers. *)
Definition register_native : list Label :=
  [LCall (CallAddToken manager0 {| at_chain_id := 11155111; at_address := token0;
                                   at_symbol := text_of "icUSDC"; at_ledger_id := native_ledger0 |}) 10].
Definition mint_native : list Label :=
  LTimer TimerMint 30 :: ledger_ok 2 0 31 ++ ledger_ok 2 1 32 ++ ledger_ok 2 2 33.
Theorem C32_shared_ledger_refuted :
  exists self keccak s, reach self keccak nonce_kept s /\ ~ solvent self Native s.
Proof.
  destruct (run0 (register_native ++ scrape0 ++ mint_native)) as [s|] eqn:E; [|vm_compute in E; discriminate].
  assert (Hr : reach self0 keccak0 nonce_kept s) by (eapply scenario_reach; [exact E|vm_compute; reflexivity]).
  vm_compute in E. injection E as <-. do 3 eexists. split; [exact Hr|]. intros [_ H]. vm_compute in H. apply H. reflexivity.
Qed.
Print Assumptions C32_shared_ledger_refuted.
