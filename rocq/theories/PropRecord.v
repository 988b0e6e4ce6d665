(** * C26, C57, C58: after a burn, the withdrawal is recorded *)

From Verif Require Import Base BMap MultiKeyMap Bytes Types Amount Tx CallData Network Hex
  Transactions State Audit Ranges Rlp Parser Memo Driver Sys SysSpec SysFacts BurnSpec WithdrawSpec
  Segments RecordSpec RecordFacts CallFacts PropWithdraw Scenario.

Section Record.
Variable self : Principal.
Variable keccak : list N -> Hash.

(** ** C26 *)

(** The ledger has executed the burn that pays for a withdrawal, in block [b]. When the
    answer is delivered the call does not panic: the withdrawal of exactly what was burned
    is recorded, and the call answers with it. *)
Theorem C26_recorded s id c b now :
  reach self keccak nonce_kept s -> sys_clock s <= now -> b <= U64_MAX ->
  got self s id c (LedgerOk b) -> is_conversion c = true ->
  let s' := step self keccak s (LDeliver id false now) in
  exists e o, history (sys_log s') = history (sys_log s) ++ [e] /\
    records self (native_ledger_id (sys_state s)) c b e /\
    sys_outcomes s' = sys_outcomes s ++ [(id, o)] /\
    match e with
    | EvAcceptedNativeWithdrawalRequest q => o = OutNative (ROk q)
    | EvAcceptedErc20WithdrawalRequest q => o = OutErc20 (ROk q)
    | _ => False
    end.
Proof.
  intros Hr Hnow Hb Hg Hc s'. unfold s'. clear s'.
  apply (got_conversion self) in Hg as (t & Hw & Ht & [(j & ->)|(j & i & ->)]); auto.
  - destruct (native_recorded self keccak nonce_kept (fun _ _ H => H) s id j b now Hr Hnow Hw Hb) as [Hh Ho].
    do 2 eexists. split; [exact Hh|]. split; [|split; [exact Ho|reflexivity]].
    pose proof (job_native self keccak nonce_kept (fun _ _ H => H) _ _ _ _ Hr Hw) as Hj. cbn in Hj.
    constructor; [|reflexivity]. cbn in Ht. injection Ht as <-. rewrite Hj. reflexivity.
  - destruct (erc20_recorded self keccak nonce_kept (fun _ _ H => H) s id j i b now Hr Hnow Hw Hb) as [Hh Ho].
    do 2 eexists. split; [exact Hh|]. split; [|split; [exact Ho|reflexivity]].
    constructor; [|reflexivity]. cbn in Ht. injection Ht as <-. reflexivity.
Qed.
Print Assumptions C26_recorded.

(** The gas fee of an ERC20 withdrawal has been burned in block [b]: the call goes on and asks
    for the burn of the tokens, naming that block. *)
Theorem C26_goes_on s id native from fee symbol amount destination b now :
  reach self keccak nonce_kept s -> sys_clock s <= now -> b <= U64_MAX ->
  got self s id (burn_of self native from fee (BurnErc20GasFee symbol amount destination)) (LedgerOk b) ->
  exists ledger, asks self (step self keccak s (LDeliver id false now)) id
    (burn_of self ledger from amount (BurnErc20Convert b destination)).
Proof.
  intros Hr Hnow Hb (t & Hw & Ht). destruct t; cbn in Ht; try discriminate.
  pose proof (gas_burned self keccak nonce_kept (fun _ _ H => H) s id j b now Hr Hnow Hw Hb) as Hg. unfold burn_of in Ht. injection Ht as _ <- _ _ <- <-.
  exists (et_ledger_id (ej_token j)). eexists. split; [exact Hg|]. reflexivity.
Qed.
Print Assumptions C26_goes_on.

(** ** C57: the token burn did not happen *)

(** Partial: when the token ledger refuses with an error that the minter expects, what is owed
    of the gas fee burned in block [i] is recorded (nothing if the fee is at most the penalty),
    and no panic occurs. The penalty is the transfer fee, or nothing when the ledger was
    unavailable. *)
Theorem C57_owed_partial s id ledger from amount i destination a e now :
  reach self keccak nonce_kept s -> sys_clock s <= now ->
  got self s id (burn_of self ledger from amount (BurnErc20Convert i destination)) a ->
  burn_result a = Done (RErr e) ->
  let penalty := match e with LeTemporarilyUnavailable => 0 | _ => native_ledger_transfer_fee (sys_state s) end in
  exists evs fee symbol,
    history (sys_log (step self keccak s (LDeliver id false now))) = history (sys_log s) ++ evs /\
    In (burn_of self (native_ledger_id (sys_state s)) from fee (BurnErc20GasFee symbol amount destination), i) (sys_ops s) /\
    ((fee <= penalty /\ evs = []) \/
     (penalty < fee /\
      evs = [EvFailedErc20WithdrawalRequest
               {| rr_ledger_burn_index := i; rr_reimbursed_amount := fee - penalty; rr_to := ac_owner from;
                  rr_to_subaccount := ac_subaccount from; rr_transaction_hash := None |}])).
Proof.
  intros Hr Hnow (t & Hw & Ht) Ha. destruct t; cbn in Ht; try discriminate.
  unfold burn_of in Ht. injection Ht as <- <- <- <- <-.
  destruct (failure_recorded self keccak nonce_kept (fun _ _ H => H) s id j native_index a e now Hr Hnow Hw Ha) as [Hh _].
  pose proof (gas_op self keccak nonce_kept (fun _ _ H => H) s id j native_index _ Hr Hw) as Hop.
  pose proof (fees_known_reach self keccak nonce_kept s Hr id _ _ Hw j eq_refl) as Hfee.
  set (penalty := match e with LeTemporarilyUnavailable => 0 | _ => _ end).
  assert (Hx : failed_burn_reimbursement j e = ej_tx_fee j - penalty).
  { unfold failed_burn_reimbursement, penalty. rewrite <- Hfee. destruct e; [lia|..];
      unfold checked_sub; destruct (N.leb_spec (ej_transfer_fee j) (ej_tx_fee j)); lia. }
  do 3 eexists. split; [exact Hh|]. split; [exact Hop|].
  rewrite Hx. destruct (N.ltb_spec 0 (ej_tx_fee j - penalty)); [right|left]; split; try lia; auto.
Qed.
Print Assumptions C57_owed_partial.

(** ** C58: no burn is lost *)

(** Partial: if no callback traps for an outside reason and block numbers fit in 64 bits,
    then every burn that the ledgers executed to pay for a withdrawal is recorded, or its
    answer is still on its way to the call that asked for it. *)
Theorem C58_matched_partial s c b :
  reach self keccak smooth s -> In (c, b) (sys_ops s) -> is_conversion c = true ->
  (exists e, In e (history (sys_log s)) /\ records self (native_ledger_id (sys_state s)) c b e) \/
  (exists id, got self s id c (LedgerOk b)).
Proof. intros Hr. exact (proj2 (matched_reach self keccak s Hr) c b). Qed.
Print Assumptions C58_matched_partial.
End Record.

(** ** The full C57 is false of the code: the token ledger answers [BadFee], which the minter
    takes for a bug. The call panics; the gas fee burned in block 5 is recorded nowhere, and
    no function is left that could record it. No trap is injected. *)
Definition is_smooth (l : Label) : bool :=
  match l with
  | LDeliver _ trap _ => negb trap
  | LAnswer _ (ReLedger (LedgerOk b)) => b <=? U64_MAX
  | LUpgrade _ _ => false
  | _ => true
  end.
Lemma smooth_reach ls s : run0 ls = Done s -> forallb is_smooth ls = true -> reach self0 keccak0 smooth s.
Proof.
  intros H Hb. eapply reach_run0; [exact H|]. intros x l Hl. rewrite forallb_forall in Hb. apply Hb in Hl.
  split; destruct l as [| |? [[]| | | | | | |]|? [] ?|]; try discriminate Hl; try exact Logic.I; try reflexivity.
  apply N.leb_le. exact Hl.
Qed.

Definition withdraw_bad_fee : list Label :=
  LCall (CallWithdrawErc20 user0 3000 token_ledger0 payee0) 50 ::
  ans 4 (ReFees (Some history0)) 51 ++ ledger_ok 4 4 52 ++ ledger_ok 4 5 53 ++
  ans 4 (ReLedger (LedgerErr BadFee)) 54.
Theorem C57_refuted :
  exists s symbol amount destination, reach self0 keccak0 smooth s /\ sys_tasks s = [] /\
    In (burn_of self0 native_ledger0 (default_account user0) 1495000
          (BurnErc20GasFee symbol amount destination), 5) (sys_ops s) /\
    native_ledger_id (sys_state s) = native_ledger0 /\
    ~ In (native_ledger0, 5) (claims native_ledger0 (history (sys_log s))).
Proof.
  destruct (run0 (register0 ++ scrape0 ++ mint0 ++ withdraw_native0 ++ withdraw_bad_fee)) as [s|] eqn:E; [|vm_compute in E; discriminate].
  assert (Hr : reach self0 keccak0 smooth s) by (eapply smooth_reach; [exact E|vm_compute; reflexivity]).
  vm_compute in E. injection E as <-. do 4 eexists. split; [exact Hr|]. split; [reflexivity|].
  split; [eapply nth_error_In with (n := 6%nat); vm_compute; reflexivity|]. split; [reflexivity|].
  vm_compute. intros [H|[]]. discriminate H.
Qed.
Print Assumptions C57_refuted.

(** ** The full C58 is false of the code: the callback of the burn of 49999500 native tokens
    traps (for instance for lack of instructions). The burn, in block 3, is recorded nowhere
    and no function is left that could record it. *)
Definition withdraw_trapped : list Label :=
  LCall (CallWithdrawNative user0 50000000 payee0) 40 :: ledger_ok 3 2 41 ++
  [LAnswer 3 (ReLedger (LedgerOk 3)); LDeliver 3 true 42].
Theorem C58_refuted :
  exists s destination, reach self0 keccak0 nonce_kept s /\ sys_tasks s = [] /\
    In (burn_of self0 native_ledger0 (default_account user0) 49999500 (BurnConvert destination), 3) (sys_ops s) /\
    native_ledger_id (sys_state s) = native_ledger0 /\
    ~ In (native_ledger0, 3) (claims native_ledger0 (history (sys_log s))).
Proof.
  destruct (run0 (register0 ++ scrape0 ++ mint0 ++ withdraw_trapped)) as [s|] eqn:E; [|vm_compute in E; discriminate].
  assert (Hr : reach self0 keccak0 nonce_kept s) by (eapply scenario_reach; [exact E|vm_compute; reflexivity]).
  vm_compute in E. injection E as <-. do 2 eexists. split; [exact Hr|]. split; [reflexivity|].
  split; [eapply nth_error_In with (n := 4%nat); vm_compute; reflexivity|]. split; [reflexivity|].
  vm_compute. intros [].
Qed.
Print Assumptions C58_refuted.

(** ** The hypotheses are met *)

Definition got_of (s : Sys) (id : N) : option (LedgerCall * LedgerReply) :=
  match bget id (sys_tasks s) with
  | Some {| fl_task := t; fl_reply := Some (ReLedger a) |} => option_map (fun c => (c, a)) (task_call self0 t)
  | _ => None
  end.
Lemma got_by s id c a : got_of s id = Some (c, a) -> got self0 s id c a.
Proof.
  unfold got_of. destruct (bget id (sys_tasks s)) as [[t [[x| | | | | | |]|]]|] eqn:E; try discriminate.
  destruct (task_call self0 t) eqn:Et; [|discriminate]. intros H. injection H as <- <-. exists t. auto.
Qed.

Example C26_witness :
  (exists s c, reach self0 keccak0 nonce_kept s /\ sys_clock s <= 42 /\ got self0 s 3 c (LedgerOk 3) /\ is_conversion c = true) /\
  (exists s c, reach self0 keccak0 nonce_kept s /\ sys_clock s <= 54 /\ got self0 s 4 c (LedgerOk 1) /\ is_conversion c = true).
Proof.
  split.
  - destruct (run0 (register0 ++ scrape0 ++ mint0 ++ removelast withdraw_native0)) as [s|] eqn:E; [|vm_compute in E; discriminate].
    assert (Hr : reach self0 keccak0 nonce_kept s) by (eapply scenario_reach; [exact E|vm_compute; reflexivity]).
    vm_compute in E. injection E as <-. do 2 eexists. split; [exact Hr|]. split; [vm_compute; discriminate|].
    split; [apply got_by; vm_compute; reflexivity|reflexivity].
  - destruct (run0 (register0 ++ scrape0 ++ mint0 ++ withdraw_native0 ++ removelast withdraw_erc200)) as [s|] eqn:E; [|vm_compute in E; discriminate].
    assert (Hr : reach self0 keccak0 nonce_kept s) by (eapply scenario_reach; [exact E|vm_compute; reflexivity]).
    vm_compute in E. injection E as <-. do 2 eexists. split; [exact Hr|]. split; [vm_compute; discriminate|].
    split; [apply got_by; vm_compute; reflexivity|reflexivity].
Qed.

(** The gas fee of 1495000 was burned in block 5 *)
Definition withdraw_gas_only : list Label :=
  LCall (CallWithdrawErc20 user0 3000 token_ledger0 payee0) 50 ::
  ans 4 (ReFees (Some history0)) 51 ++ ledger_ok 4 4 52 ++ [LAnswer 4 (ReLedger (LedgerOk 5))].
Example C26_goes_on_witness :
  exists s symbol destination, reach self0 keccak0 nonce_kept s /\ sys_clock s <= 53 /\
    got self0 s 4 (burn_of self0 native_ledger0 (default_account user0) 1495000
                     (BurnErc20GasFee symbol 3000 destination)) (LedgerOk 5).
Proof.
  destruct (run0 (register0 ++ scrape0 ++ mint0 ++ withdraw_native0 ++ withdraw_gas_only)) as [s|] eqn:E; [|vm_compute in E; discriminate].
  assert (Hr : reach self0 keccak0 nonce_kept s) by (eapply scenario_reach; [exact E|vm_compute; reflexivity]).
  vm_compute in E. injection E as <-. do 3 eexists. split; [exact Hr|]. split; [vm_compute; discriminate|].
  apply got_by; vm_compute; reflexivity.
Qed.
Definition withdraw_refused : list Label :=
  LCall (CallWithdrawErc20 user0 3000 token_ledger0 payee0) 50 ::
  ans 4 (ReFees (Some history0)) 51 ++ ledger_ok 4 4 52 ++ ledger_ok 4 5 53 ++
  [LAnswer 4 (ReLedger (LedgerErr InsufficientFunds))].
Example C57_witness :
  exists s destination, reach self0 keccak0 nonce_kept s /\ sys_clock s <= 54 /\
    got self0 s 4 (burn_of self0 token_ledger0 (default_account user0) 3000 (BurnErc20Convert 5 destination))
      (LedgerErr InsufficientFunds) /\
    burn_result (LedgerErr InsufficientFunds) = Done (RErr LeInsufficientFunds) /\
    skipn (List.length (sys_log s)) (map ev_payload (sys_log (step self0 keccak0 s (LDeliver 4 false 54)))) =
      [EvFailedErc20WithdrawalRequest
         {| rr_ledger_burn_index := 5; rr_reimbursed_amount := 1494990; rr_to := user0;
            rr_to_subaccount := None; rr_transaction_hash := None |}].
Proof.
  destruct (run0 (register0 ++ scrape0 ++ mint0 ++ withdraw_native0 ++ withdraw_refused)) as [s|] eqn:E; [|vm_compute in E; discriminate].
  assert (Hr : reach self0 keccak0 nonce_kept s) by (eapply scenario_reach; [exact E|vm_compute; reflexivity]).
  vm_compute in E. injection E as <-. do 2 eexists. split; [exact Hr|]. split; [vm_compute; discriminate|].
  split; [apply got_by; vm_compute; reflexivity|]. split; [reflexivity|]. vm_compute; reflexivity.
Qed.
(** All three conversions of the long history are there *)
Example C58_witness :
  exists s, reach self0 keccak0 smooth s /\
    map snd (filter (fun o => is_conversion (fst o)) (sys_ops s)) = [3; 1].
Proof.
  destruct (run0 up_to_sent) as [s|] eqn:E; [|vm_compute in E; discriminate].
  assert (Hr : reach self0 keccak0 smooth s) by (eapply smooth_reach; [exact E|vm_compute; reflexivity]).
  vm_compute in E. injection E as <-. eexists. split; [exact Hr|]. vm_compute. reflexivity.
Qed.
