(** * C61: the quoted price is the price charged *)

From Verif Require Import Base BMap MultiKeyMap Bytes Types Amount Tx CallData Network Hex
  Transactions State Audit Ranges Rlp Parser Memo Driver Sys SysSpec WithdrawSpec TokenSpec FeeSpec BurnSpec
  CallSpec Queries QuoteFacts PropCalls Scenario.

(** A quote is given iff an estimate has been made and the token is none, the native token or
    a registered one: 21000 gas for a native and 65000 for a token transfer, at twice the
    base fee plus the tip, saturating only in the total. *)
Theorem C61_quote :
  forall self keccak s token p, reach self keccak any_env s ->
    (quoted_price token (sys_state s) = Done p <->
     exists t g limit, last_transaction_price_estimate (sys_state s) = Some (t, g) /\
       gas_for (sys_state s) token limit /\ p = quote g limit t).
Proof. intros self keccak. exact (quote_iff self keccak any_env). Qed.
Print Assumptions C61_quote.

(** The gas fee burned for and recorded in a token withdrawal that needed no new fee history
    is the quoted one; the quote is then less than half a minute old. *)
Theorem C61_charged :
  forall self keccak s who a l r now ops evs q, reach self keccak any_env s -> sys_clock s <= now ->
    answered self keccak s (CallWithdrawErc20 who a l r) now [] ops evs (OutErc20 (ROk q)) ->
    exists p t, quoted_price (Some l) (sys_state s) = Done p /\ qp_timestamp p = Some t /\ now < half_minute_after t /\
      ew_max_transaction_fee q = qp_max_transaction_fee p /\
      exists symbol, In (burn_of self (native_ledger_id (sys_state s)) (default_account who)
        (qp_max_transaction_fee p) (BurnErc20GasFee symbol a (ew_destination q)), ew_native_ledger_burn_index q) ops.
Proof.
  intros self keccak s who a l r now ops evs q Hr Hc Ha.
  destruct (C25_recorded self keccak s who a l r now [] ops evs q Hr Hc Ha)
    as (_ & _ & _ & _ & _ & _ & (e & Eg & Hq) & symbol & paid & Hlist & _ & ->).
  destruct Hq as [(_ & t & He & Ht)|(h & Eh & _)]; [|discriminate].
  exists (quote e 65000 t), t. split; [|split; [reflexivity|split; [exact Ht|split; [exact Eg|]]]].
  - apply (C61_quote self keccak s (Some l) _ Hr). exists t, e, 65000. split; auto. split; [econstructor; eauto|reflexivity].
  - exists symbol. apply in_or_app. right. left. rewrite Eg. reflexivity.
Qed.
Print Assumptions C61_charged.

(** A second withdrawal twenty nanoseconds after the first *)
Definition after_first : list Label := register0 ++ scrape0 ++ mint0 ++ withdraw_native0 ++ withdraw_erc200.
Example C61_witness :
  exists s ops evs q p, reach self0 keccak0 any_env s /\ sys_clock s <= 70 /\
    answered self0 keccak0 s (CallWithdrawErc20 user0 1000 token_ledger0 payee0) 70 [] ops evs (OutErc20 (ROk q)) /\
    quoted_price (Some token_ledger0) (sys_state s) = Done p /\ qp_max_transaction_fee p = 1495000 /\
    qp_timestamp p = Some 51 /\
    is_done (quoted_price (Some [7]) (sys_state s)) = false /\
    (exists p', quoted_price None (sys_state s) = Done p' /\ qp_max_transaction_fee p' = 483000).
Proof.
  destruct (run0 after_first) as [s|] eqn:E; [|vm_compute in E; discriminate].
  assert (Hr : reach self0 keccak0 any_env s).
  { eapply reach_run0_quiet; [exact E|vm_compute; reflexivity|]. intros; exact Logic.I. }
  vm_compute in E. injection E as <-. do 5 eexists. split; [exact Hr|]. split; [vm_compute; discriminate|]. split.
  - exists (ledger_ok 5 6 71 ++ ledger_ok 5 7 72 ++ ledger_ok 5 2 73). cbn zeta.
    split; [eapply nth_error_In with (n := 5%nat); vm_compute; reflexivity|].
    split; [vm_compute; reflexivity|]. split; vm_compute; reflexivity.
  - do 4 (split; [vm_compute; reflexivity|]). eexists. split; vm_compute; reflexivity.
Qed.
