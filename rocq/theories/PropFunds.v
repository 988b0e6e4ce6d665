(** * C75: the minter's address can pay what is still to be paid *)

From Verif Require Import Base BMap MultiKeyMap Bytes Types Amount Tx CallData Network Hex
  Transactions State Audit Ranges Rlp Parser Memo Driver Sys SysSpec WithdrawSpec DepositSpec
  TokenSpec ReimburseSpec BurnSpec BalanceSpec SolvencySpec ParserSpec Contract ContractSpec FundsSpec
  FundsFacts Scenario PropWithdraw PropFinalize PropContract.

(** The minter's address holds at least the native tokens in circulation, the deposits to
    mint, the withdrawals that were not mined, the reimbursements to pay and the fees kept.
    The minter need not know which of its transactions were mined. *)
Theorem C75_native :
  forall self keccak v w hs s xs now, lawful v -> all_proper v hs ->
    reach self keccak (truthful_env (emitted v w hs)) s -> executed (history (sys_log s)) xs ->
    native_apart (sys_state s) -> took v Native w hs xs now -> arrived v Native w hs < 2 ^ 256 - 1 ->
    still_owed self Native xs s <= holds v Native now.
Proof. intros self keccak v w hs s xs now Hl Hp Hr Hx. exact (funds_native self keccak v w hs s Hl Hp Hr xs Hx now). Qed.
Print Assumptions C75_native.

Theorem C75_token :
  forall self keccak v w hs s xs now contract ledger symbol, lawful v -> all_proper v hs ->
    reach self keccak (truthful_env (emitted v w hs)) s -> executed (history (sys_log s)) xs ->
    listed (sys_state s) ledger contract symbol -> ledger <> native_ledger_id (sys_state s) ->
    standard v (Token contract ledger) -> took v (Token contract ledger) w hs xs now ->
    still_owed self (Token contract ledger) xs s <= holds v (Token contract ledger) now.
Proof.
  intros self keccak v w hs s xs now c l sy Hl Hp Hr Hx.
  exact (funds_token self keccak v w hs s Hl Hp Hr xs Hx now c l sy).
Qed.
Print Assumptions C75_token.

(** So the address can pay for all transactions that may be mined next, together and at their
    maximal cost: the network does not drop one for lack of funds, and no transfer of tokens
    fails for lack of tokens. *)
Theorem C75_transactions_native :
  forall self keccak v w hs s xs now ts, lawful v -> all_proper v hs ->
    reach self keccak (truthful_env (emitted v w hs)) s -> executed (history (sys_log s)) xs ->
    native_apart (sys_state s) -> took v Native w hs xs now -> arrived v Native w hs < 2 ^ 256 - 1 ->
    can_follow (history (sys_log s)) xs ts ->
    sum_of (fun t => tx_amount (st_tx t) + tx_gas_limit (st_tx t) * tx_max_fee_per_gas (st_tx t)) ts <= holds v Native now.
Proof. intros self keccak v w hs s xs now ts Hl Hp Hr Hx. exact (next_native self keccak v w hs s Hl Hp Hr xs Hx now ts). Qed.
Print Assumptions C75_transactions_native.

Theorem C75_transactions_token :
  forall self keccak v w hs s xs now ts contract ledger symbol, lawful v -> all_proper v hs ->
    reach self keccak (truthful_env (emitted v w hs)) s -> executed (history (sys_log s)) xs ->
    listed (sys_state s) ledger contract symbol -> ledger <> native_ledger_id (sys_state s) ->
    standard v (Token contract ledger) -> took v (Token contract ledger) w hs xs now ->
    can_follow (history (sys_log s)) xs ts ->
    sum_of (fun t => cost (Token contract ledger) (in_full t)) ts <= holds v (Token contract ledger) now.
Proof.
  intros self keccak v w hs s xs now ts c l sy Hl Hp Hr Hx.
  exact (next_token self keccak v w hs s Hl Hp Hr xs Hx now ts c l sy).
Qed.
Print Assumptions C75_transactions_token.

(** ** Witness: two transactions were signed and the first was mined, which the minter does
    not know yet. The second may follow. *)

(** the minter's address is empty at first *)
Definition w2 : World :=
  {| w_native := fun x => if x =? 221 then 10 ^ 18 else 0; w_tokens := fun _ x => if x =? 221 then 8000 else 0 |}.
Definition w3 : World :=
  {| w_native := fun x => if x =? 300 then 50231500 else 0; w_tokens := fun _ x => if x =? 300 then 5000 else 0 |}.
Definition hs2 : list Happening := hs0 ++ [Elsewhere w3].
Definition sent0 (b : N) : list SignedTx :=
  match run0 up_to_sent with Done s => attempts (history (sys_log s)) b | _ => [] end.
Definition xs2 : list Execution := map (fun t => {| xn_tx := t; xn_ok := true; xn_gas := 252000 |}) (sent0 3).
Definition ts2 : list SignedTx := sent0 5.

Lemma emitted2 : emitted v0 w2 hs2 =
    [{| mi_source := (11, 1); mi_block := 103; mi_log := log_of v0 0 100000000 native_call |};
     {| mi_source := (22, 2); mi_block := 104; mi_log := log_of v0 187 5000 token_call |}].
Proof. reflexivity. Qed.
Lemma all_proper2 : all_proper v0 hs2.
Proof. intros p b c H. apply in_app_or in H as [H|[H|[]]]; [exact (all_proper0 p b c H)|discriminate]. Qed.
Lemma took2 a x : (a = Native \/ a = Token 187 token_ledger0) -> cost a x = match a with Native => 49768500 | _ => 0 end ->
  took v0 a w2 hs2 [x] w3.
Proof.
  intros Ha Hc. unfold hs2, hs0. cbn [app].
  eapply took_call; [reflexivity| |]. { destruct Ha as [->| ->]; vm_compute; discriminate. }
  apply took_failed; [reflexivity|].
  eapply took_call; [reflexivity| |]. { destruct Ha as [->| ->]; vm_compute; discriminate. }
  apply took_own; [|apply took_end]. rewrite Hc. destruct Ha as [->| ->]; vm_compute; discriminate.
Qed.

Example C75_witness :
  exists s x t, reach self0 keccak0 (truthful_env (emitted v0 w2 hs2)) s /\ lawful v0 /\ all_proper v0 hs2 /\
    standard v0 (Token 187 token_ledger0) /\ listed (sys_state s) token_ledger0 187 (text_of "icUSDC") /\
    token_ledger0 <> native_ledger_id (sys_state s) /\ native_apart (sys_state s) /\
    arrived v0 Native w2 hs2 < 2 ^ 256 - 1 /\ executed (history (sys_log s)) [x] /\
    took v0 Native w2 hs2 [x] w3 /\ took v0 (Token 187 token_ledger0) w2 hs2 [x] w3 /\
    can_follow (history (sys_log s)) [x] [t] /\
    (holds v0 Native w3, still_owed self0 Native [x] s) = (50231500, 50000500) /\
    (holds v0 (Token 187 token_ledger0) w3, still_owed self0 (Token 187 token_ledger0) [x] s) = (5000, 5000) /\
    (cost Native (in_full t), cost (Token 187 token_ledger0) (in_full t)) = (1495000, 3000).
Proof.
  destruct (run0 up_to_sent) as [s|] eqn:E; [|vm_compute in E; discriminate].
  assert (Hr : reach self0 keccak0 (truthful_env (emitted v0 w2 hs2)) s).
  { eapply truthful_reach; [exact emitted2|exact E|reflexivity|vm_compute; reflexivity]. }
  destruct xs2 as [|x [|? ?]] eqn:Ex; [vm_compute in Ex; discriminate| |vm_compute in Ex; discriminate].
  destruct ts2 as [|t [|? ?]] eqn:Et; [vm_compute in Et; discriminate| |vm_compute in Et; discriminate].
  vm_compute in Ex, Et. injection Ex as Ex. injection Et as Et.
  vm_compute in E. injection E as <-. eexists. exists x, t. subst x t. split; [exact Hr|]. split; [exact lawful0|]. split; [exact all_proper2|].
  split; [apply standard0|]. split; [listed_now|]. split; [discriminate|]. split; [apart_now|].
  split; [vm_compute; reflexivity|].
  split.
  { constructor.
    - intros x [<-|[]]. exists 3. vm_compute. left. reflexivity.
    - repeat constructor. intros [].
    - intros x [<-|[]]. vm_compute. discriminate.
    - intros x Hx. vm_compute in Hx. contradiction. }
  split; [apply took2; [left; reflexivity|vm_compute; reflexivity]|].
  split; [apply took2; [right; reflexivity|vm_compute; reflexivity]|].
  split.
  { split; [repeat constructor; intros []|]. intros t [<-|[]]. eexists. split; [apply nth_error_In with (n := 0%nat); vm_compute; reflexivity|].
    apply nth_error_In with (n := 0%nat). vm_compute. reflexivity. }
  split; [vm_compute; reflexivity|]. split; vm_compute; reflexivity.
Qed.
