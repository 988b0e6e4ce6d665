(** * A concrete history, used to show that the hypotheses of the theorems are met.

    A minter on Sepolia with a deposit fee and a withdrawal fee registers a token,
    finds one native and one ERC-20 deposit, mints both, accepts a native and an
    ERC-20 withdrawal, creates, signs and sends their transactions, sees the first
    succeed and the second fail, and reimburses the second. *)

From Verif Require Import Base BMap MultiKeyMap Bytes Types Amount Tx CallData Network Hex
  Transactions State Audit Ranges Rlp Parser Memo Driver Sys SysSpec.

Definition self0 : Principal := [1; 1].
Definition manager0 : Principal := [2; 2].
Definition native_ledger0 : Principal := [3; 3].
Definition token_ledger0 : Principal := [4; 4].
Definition user0 : Principal := [9; 9].
(** Some function on byte strings in the place of Keccak-256 *)
Definition keccak0 (l : list N) : Hash := fold_left (fun a b => (a * 257 + b) mod 2 ^ 256) l 7.

Definition hex_address (d : string) : text := text_of ("0x" ++ d).
Definition helper0 : text := hex_address "00000000000000000000000000000000000000aa".
Definition token0 : text := hex_address "00000000000000000000000000000000000000bb".
Definition payee0 : text := hex_address "00000000000000000000000000000000000000cc".

Definition init0 : InitArg :=
  {| ia_evm_network := Sepolia; ia_ecdsa_key_name := text_of "key";
     ia_helper_contract_address := Some helper0;
     ia_native_ledger_id := native_ledger0; ia_native_index_id := [5];
     ia_native_symbol := text_of "icETH"; ia_block_height := TagFinalized;
     ia_native_minimum_withdrawal_amount := 10000; ia_native_ledger_transfer_fee := 10;
     ia_next_transaction_nonce := 7; ia_last_scraped_block_number := 100;
     ia_min_max_priority_fee_per_gas := 2; ia_ledger_suite_manager_id := manager0;
     ia_deposit_native_fee := 1000; ia_withdrawal_native_fee := 500 |}.

Definition word (n : N) : list N := be_bytes 32 n.
Definition principal_word (p : Principal) : list N :=
  N.of_nat (List.length p) :: p ++ repeat 0 (31 - List.length p).
Definition deposit_log (hash index block token amount sender : N) (p : Principal) : LogEntry :=
  {| le_address := 170;
     le_topics := [DEPOSIT_TOPIC; word token; word amount; principal_word p];
     le_data := word sender ++ word 0;
     le_block_number := Some block; le_transaction_hash := Some hash;
     le_transaction_index := Some 0; le_block_hash := Some 1; le_log_index := Some index;
     le_removed := false |}.
Definition logs0 : list LogEntry :=
  [deposit_log 11 1 103 0 100000000 221 user0; deposit_log 22 2 104 187 5000 221 user0].

Definition history0 : FeeHistory :=
  {| fh_oldest_block := 1; fh_base_fee_per_gas := [5; 10]; fh_reward := [[1; 3; 4]] |}.
Definition sig0 : Signature := {| sg_y_parity := false; sg_r := 5; sg_s := 6 |}.

(** One answer and its delivery *)
Definition ans (id : N) (r : Reply) (now : N) : list Label := [LAnswer id r; LDeliver id false now].
Definition ledger_ok (id b now : N) : list Label := ans id (ReLedger (LedgerOk b)) now.

Definition register0 : list Label :=
  [LCall (CallAddToken manager0 {| at_chain_id := 11155111; at_address := token0;
                                   at_symbol := text_of "icUSDC"; at_ledger_id := token_ledger0 |}) 10].
Definition scrape0 : list Label :=
  LTimer TimerScrape 20 :: ans 1 (ReBlock (Some 105)) 21 ++ ans 1 (ReLogs (LogsOk logs0)) 22.
Definition mint0 : list Label :=
  LTimer TimerMint 30 :: ledger_ok 2 0 31 ++ ledger_ok 2 1 32 ++ ledger_ok 2 0 33.
Definition withdraw_native0 : list Label :=
  LCall (CallWithdrawNative user0 50000000 payee0) 40 :: ledger_ok 3 2 41 ++ ledger_ok 3 3 42.
Definition withdraw_erc200 : list Label :=
  LCall (CallWithdrawErc20 user0 3000 token_ledger0 payee0) 50 ::
  ans 4 (ReFees (Some history0)) 51 ++ ledger_ok 4 4 52 ++ ledger_ok 4 5 53 ++ ledger_ok 4 1 54.
Definition create0 : list Label :=
  LTimer TimerRetrieve 60 :: ans 5 (ReCount (Some 7)) 61.
Definition sign0 : list Label := ans 5 (ReSigs [Some sig0; Some sig0]) 62.
Definition send0 : list Label := ans 5 ReSent 63.

Definition start0 : res Sys := sys_init 1 init0.
Definition run0 (ls : list Label) : res Sys := s <- start0 ;; Done (run self0 keccak0 s ls).

Definition hash_of (r : res Sys) (nonce : N) : Hash :=
  match r with
  | Done s => match mkm_get nonce (sent (withdrawals (sys_state s))) with
              | Some (t :: _) => st_hash (rs_tx t)
              | _ => 0
              end
  | _ => 0
  end.
Definition up_to_sent : list Label :=
  register0 ++ scrape0 ++ mint0 ++ withdraw_native0 ++ withdraw_erc200 ++ create0 ++ sign0 ++ send0.
Definition receipt0 (nonce gas : N) (st : TransactionStatus) : Receipt :=
  {| rc_block_hash := 1; rc_block_number := 110; rc_effective_gas_price := 12; rc_gas_used := gas;
     rc_status := st; rc_transaction_hash := hash_of (run0 up_to_sent) nonce |}.
Definition finalize0 : list Label :=
  ans 5 (ReCount (Some 8)) 64 ++ ans 5 (ReReceipts [ReceiptOk (receipt0 7 21000 TxSuccess)]) 65.
Definition fail0 : list Label :=
  LTimer TimerRetrieve 70 :: ans 6 (ReCount (Some 8)) 71 ++ ans 6 ReSent 72 ++ ans 6 (ReCount (Some 9)) 73 ++
  ans 6 (ReReceipts [ReceiptOk (receipt0 8 60000 TxFailure)]) 74.
Definition reimburse0 : list Label := LTimer TimerReimburse 80 :: ledger_ok 7 2 81.

Definition all0 : list Label := up_to_sent ++ finalize0 ++ fail0 ++ reimburse0.

Lemma reach_run self keccak (env : Sys -> Label -> Prop) s ls :
  reach self keccak env s -> (forall x l, In l ls -> env x l) -> reach self keccak env (run self keccak s ls).
Proof.
  revert s. induction ls as [|l ls IH]; cbn; auto.
  intros s Hs H. apply IH; [|intros; apply H; auto]. apply reach_step; auto.
Qed.

Lemma reach_run0 (env : Sys -> Label -> Prop) ls s :
  run0 ls = Done s -> (forall x l, In l ls -> env x l) -> reach self0 keccak0 env s.
Proof.
  unfold run0. intros H He. apply rbind_done in H as (s0 & Hs & H). injection H as <-.
  apply reach_run; auto. eapply reach_init. exact Hs.
Qed.
(** The same with a boolean test of the labels *)
Definition no_upgrade (l : Label) : bool := match l with LUpgrade _ _ => false | _ => true end.
Lemma reach_run0_quiet (env : Sys -> Label -> Prop) ls s :
  run0 ls = Done s -> forallb no_upgrade ls = true ->
  (forall x l, no_upgrade l = true -> env x l) -> reach self0 keccak0 env s.
Proof.
  intros H Hb He. eapply reach_run0; eauto. rewrite forallb_forall in Hb. auto.
Qed.

(** ** Another ending: both transactions stay unmined, fees rise, replacements are made *)
Definition history1 : FeeHistory :=
  {| fh_oldest_block := 9; fh_base_fee_per_gas := [25; 30]; fh_reward := [[5; 5; 6]] |}.
Definition bump0 : list Label :=
  ans 5 (ReCount (Some 7)) 64 ++ LTimer TimerRetrieve 40000000000 ::
  ans 6 (ReFees (Some history1)) 40000000001 ++ ans 6 (ReCount (Some 7)) 40000000002.
Definition sign1 : list Label := ans 6 (ReSigs [Some sig0]) 40000000003.
Definition all1 : list Label := up_to_sent ++ bump0 ++ sign1.

(** ** The operator sets the nonce back, then another withdrawal is made *)
Definition nonce_back : UpgradeArg :=
  {| ua_next_transaction_nonce := Some 7; ua_native_minimum_withdrawal_amount := None;
     ua_helper_contract_address := None; ua_block_height := None; ua_last_scraped_block_number := None;
     ua_evm_rpc_id := None; ua_native_ledger_transfer_fee := None; ua_min_max_priority_fee_per_gas := None;
     ua_deposit_native_fee := None; ua_withdrawal_native_fee := None |}.
Definition all2 : list Label :=
  all0 ++ LUpgrade (Some nonce_back) 90 ::
  LCall (CallWithdrawNative user0 20000000 payee0) 91 :: ledger_ok 8 6 92 ++ ledger_ok 8 7 93 ++
  LTimer TimerRetrieve 94 :: ans 9 (ReFees (Some history0)) 95 ++ ans 9 (ReCount (Some 9)) 96.

(** ** The same environment with another installation *)
Definition run_from (a : InitArg) (ls : list Label) : res Sys :=
  s <- sys_init 1 a ;; Done (run self0 keccak0 s ls).
Lemma reach_run_from (env : Sys -> Label -> Prop) a ls s :
  run_from a ls = Done s -> forallb no_upgrade ls = true ->
  (forall x l, no_upgrade l = true -> env x l) -> reach self0 keccak0 env s.
Proof.
  unfold run_from. intros H Hb He. apply rbind_done in H as (s0 & Hs & H). injection H as <-.
  apply reach_run; [eapply reach_init; exact Hs|]. rewrite forallb_forall in Hb. auto.
Qed.
