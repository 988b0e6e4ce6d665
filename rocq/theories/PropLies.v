(** * C79: what one provider's word about fees can do *)

From Verif Require Import Base BMap MultiKeyMap Bytes Types Amount Tx CallData Network Hex
  Transactions State Audit Ranges Rlp Parser Memo Driver Rpc Sys SysSpec SysFacts GuardSpec WithdrawSpec DepositSpec
  ScrapeSpec CallSpec ParserSpec Contract ContractSpec FundsSpec
  RpcSpec RpcFacts ProviderSpec ProviderFacts Scenario PropRpc PropScrape PropContract PropFunds PropProviders.

(** Up to the question for the fee history, and after its answer *)
Definition before_fees : list Label := register0 ++ scrape0 ++ mint0 ++ withdraw_native0 ++ [LTimer TimerRetrieve 60].
Definition after_fees : list Label := LDeliver 4 false 61 :: ans 4 (ReCount (Some 7)) 62.
Definition told_fees (h : FeeHistory) : list Label := before_fees ++ LAnswer 4 (ReFees (Some h)) :: after_fees.
Definition low_fees : FeeHistory := {| fh_oldest_block := 1; fh_base_fee_per_gas := [9; 9]; fh_reward := [[4]] |}.
Definition high_fees : FeeHistory := {| fh_oldest_block := 1; fh_base_fee_per_gas := [9; 9]; fh_reward := [[2362]] |}.

(** The fee history is asked of one provider only. Two histories with the same deposits and
    the same withdrawal differ in nothing but the fee history that this provider reports, and
    there only in the tips; all logs are confirmed. In one the withdrawer is to get 99% of
    the amount. In the other they are to get less than a thousandth, and the rest is offered to
    the block's producer. *)
Theorem C79_fee_history_refuted :
  exists self keccak v w hs s0 ls id h h' ls' r t t', lawful v /\ all_proper v hs /\
    let env := one_liar_env (emitted v w hs) [] in
    let s := run self keccak s0 (ls ++ LAnswer id (ReFees (Some h)) :: ls') in
    let s' := run self keccak s0 (ls ++ LAnswer id (ReFees (Some h')) :: ls') in
    fh_base_fee_per_gas h = fh_base_fee_per_gas h' /\
    reach self keccak env s0 /\ reach self keccak env s /\ reach self keccak env s' /\
    accepted (history (sys_log s)) = [WNative r] /\ accepted (history (sys_log s')) = [WNative r] /\
    creations (history (sys_log s)) = [(nw_ledger_burn_index r, t)] /\
    creations (history (sys_log s')) = [(nw_ledger_burn_index r, t')] /\
    99 * nw_withdrawal_amount r < 100 * tx_amount t /\
    1000 * tx_amount t' < nw_withdrawal_amount r /\
    99 * nw_withdrawal_amount r < 100 * (tx_gas_limit t' * tx_max_priority_fee_per_gas t').
Proof.
  destruct start0 as [s0|] eqn:E0; [|vm_compute in E0; discriminate E0].
  assert (Hc : forall h l, In l (told_fees h) -> l = LAnswer 1 (ReLogs (LogsOk logs0)) \/ quiet_label l = true).
  { intros h l Hin. unfold told_fees, before_fees, after_fees, register0, scrape0, mint0, withdraw_native0, ans, ledger_ok in Hin. cbn [app] in Hin.
    repeat (destruct Hin as [<-|Hin]; [first [right; reflexivity|left; reflexivity]|]). destruct Hin. }
  assert (Hr : forall h, reach self0 keccak0 (one_liar_env (emitted v0 w2 hs0) []) (run self0 keccak0 s0 (told_fees h))).
  { intros h. apply reach_run; [exact (reach_init _ _ _ 1 init0 s0 E0)|]. intros x l Hin. destruct (Hc h l Hin) as [->|Hl].
    - split; [exact Logic.I|]. cbn. exists (Consistent (ROk logs0)). split; [|reflexivity]. apply all_say. exact (reported0 v0 w2 hs0 eq_refl).
    - destruct l as [| |id []| |]; try discriminate Hl; split; exact Logic.I. }
  assert (Hi : reach self0 keccak0 (one_liar_env (emitted v0 w2 hs0) []) s0) by exact (reach_init _ _ _ 1 init0 s0 E0).
  pose proof (Hr low_fees) as H1. pose proof (Hr high_fees) as H2. clear Hr Hc.
  exists self0, keccak0, v0, w2, hs0, s0, before_fees, 4, low_fees, high_fees, after_fees. do 3 eexists.
  split; [exact lawful0|]. split; [exact all_proper0|]. cbv zeta. split; [reflexivity|]. split; [exact Hi|]. split; [exact H1|]. split; [exact H2|].
  clear H1 H2 Hi. vm_compute in E0. injection E0 as <-.
  split; [vm_compute; reflexivity|]. split; [vm_compute; reflexivity|]. split; [vm_compute; reflexivity|]. split; [vm_compute; reflexivity|].
  split; [vm_compute; reflexivity|]. split; vm_compute; reflexivity.
Qed.
Print Assumptions C79_fee_history_refuted.

(** The same for tokens: the gas fee of a token withdrawal, taken from the withdrawer's native
    twin tokens, is what that one provider's tips make of it. With the same request and the
    same answers of the ledgers, it is more than a hundred times as high, and it is burned. *)
Definition told_erc20_fees (h : FeeHistory) : list Label :=
  (register0 ++ scrape0 ++ mint0 ++ [LCall (CallWithdrawErc20 user0 3000 token_ledger0 payee0) 50]) ++
  LAnswer 3 (ReFees (Some h)) :: LDeliver 3 false 51 :: ledger_ok 3 4 52 ++ ledger_ok 3 5 53 ++ ledger_ok 3 1 54.

Definition low_tips : FeeHistory := {| fh_oldest_block := 1; fh_base_fee_per_gas := [1; 1]; fh_reward := [[2]] |}.
Definition high_tips : FeeHistory := {| fh_oldest_block := 1; fh_base_fee_per_gas := [1; 1]; fh_reward := [[600]] |}.

Theorem C79_fee_history_token_refuted :
  exists self keccak v w hs s0 ls id h h' ls' q q', lawful v /\ all_proper v hs /\
    let env := one_liar_env (emitted v w hs) [] in
    let s := run self keccak s0 (ls ++ LAnswer id (ReFees (Some h)) :: ls') in
    let s' := run self keccak s0 (ls ++ LAnswer id (ReFees (Some h')) :: ls') in
    fh_base_fee_per_gas h = fh_base_fee_per_gas h' /\
    reach self keccak env s0 /\ reach self keccak env s /\ reach self keccak env s' /\
    accepted (history (sys_log s)) = [WErc20 q] /\ accepted (history (sys_log s')) = [WErc20 q'] /\
    ew_withdrawal_amount q = ew_withdrawal_amount q' /\ ew_destination q = ew_destination q' /\
    ew_from q = ew_from q' /\ ew_erc20_ledger_id q = ew_erc20_ledger_id q' /\
    0 < ew_max_transaction_fee q /\ 100 * ew_max_transaction_fee q < ew_max_transaction_fee q'.
Proof.
  destruct start0 as [s0|] eqn:E0; [|vm_compute in E0; discriminate E0].
  assert (Hc : forall h l, In l (told_erc20_fees h) -> l = LAnswer 1 (ReLogs (LogsOk logs0)) \/ quiet_label l = true).
  { intros h l Hin. unfold told_erc20_fees, register0, scrape0, mint0, ans, ledger_ok in Hin. cbn [app] in Hin.
    repeat (destruct Hin as [<-|Hin]; [first [right; reflexivity|left; reflexivity]|]). destruct Hin. }
  assert (Hr : forall h, reach self0 keccak0 (one_liar_env (emitted v0 w2 hs0) []) (run self0 keccak0 s0 (told_erc20_fees h))).
  { intros h. apply reach_run; [exact (reach_init _ _ _ 1 init0 s0 E0)|]. intros x l Hin. destruct (Hc h l Hin) as [->|Hl].
    - split; [exact Logic.I|]. cbn. exists (Consistent (ROk logs0)). split; [|reflexivity]. apply all_say. exact (reported0 v0 w2 hs0 eq_refl).
    - destruct l as [| |id []| |]; try discriminate Hl; split; exact Logic.I. }
  assert (Hi : reach self0 keccak0 (one_liar_env (emitted v0 w2 hs0) []) s0) by exact (reach_init _ _ _ 1 init0 s0 E0).
  pose proof (Hr low_tips) as H1. pose proof (Hr high_tips) as H2. clear Hr Hc.
  exists self0, keccak0, v0, w2, hs0, s0. do 2 eexists. exists low_tips, high_tips. do 3 eexists.
  split; [exact lawful0|]. split; [exact all_proper0|]. cbv zeta. split; [reflexivity|]. split; [exact Hi|]. split; [exact H1|]. split; [exact H2|].
  clear H1 H2 Hi. vm_compute in E0. injection E0 as <-.
  split; [vm_compute; reflexivity|]. split; [vm_compute; reflexivity|].
  repeat (split; [vm_compute; reflexivity|]). vm_compute; reflexivity.
Qed.
Print Assumptions C79_fee_history_token_refuted.
