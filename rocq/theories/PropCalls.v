(** * C24, C25, C53: what a withdrawal call does

    A call is made in a reachable state [s0] at time [now] and gets the number
    [sys_next s0]; then anything may happen ([ls]). *)

From Verif Require Import Base BMap MultiKeyMap Bytes Types Amount Tx CallData Network Hex
  Transactions State Audit Ranges Rlp Parser Memo Driver Sys SysSpec TxSpec FeeSpec TokenSpec BurnSpec WithdrawSpec
  CallSpec CallFacts CallStages Scenario.

Section Calls.
Variable self : Principal.
Variable keccak : list N -> Hash.

(** [o] is the answer of the call [u] made in [s0] at [now], and [ops], [evs] and [fees] are
    the ledger operations made for it, the events it recorded and the fee histories it read *)
Definition answered (s0 : Sys) (u : UserCall) (now : N) (fees : list FeeHistory) (ops : list Op)
  (evs : list EventType) (o : Outcome) : Prop :=
  exists ls, let id := sys_next s0 in let ls' := LCall u now :: ls in
    In (id, o) (sys_outcomes (run self keccak s0 ls')) /\
    fees = gather self keccak (fees_by self id) s0 ls' /\
    ops = gather self keccak (ops_by self keccak id) s0 ls' /\
    evs = gather self keccak (events_by self keccak id) s0 ls'.

Theorem C24_result s0 p a r now fees ops evs o :
  reach self keccak any_env s0 -> sys_clock s0 <= now ->
  answered s0 (CallWithdrawNative p a r) now fees ops evs o ->
  native_result self (sys_state s0) p a r ops evs o.
Proof.
  intros Hr Hc (ls & Ho & -> & -> & ->).
  destruct (native_call self keccak any_env s0 p a r now ls Hr Hc) as [H|(o' & H1 & H2)]; [destruct (H _ Ho)|].
  apply H1 in Ho as ->. exact H2.
Qed.
Print Assumptions C24_result.

(** An anonymous caller, an invalid destination (such as the zero address) or an amount below
    the minimum: no ledger operation and no event *)
Theorem C24_rejected s0 p a r now fees ops evs o :
  reach self keccak any_env s0 -> sys_clock s0 <= now ->
  answered s0 (CallWithdrawNative p a r) now fees ops evs o ->
  p = ANONYMOUS \/ (exists e, validate_address_as_destination r = RErr e) \/
    a < native_minimum_withdrawal_amount (sys_state s0) ->
  ops = [] /\ evs = [] /\ forall q, o <> OutNative (ROk q).
Proof.
  intros Hr Hc Ha Hbad. eapply C24_result in Ha; eauto.
  destruct Ha as [| | d ? Hv|d ? ? ? Hv|d ? ? ? Hv| |d ? Hv]; repeat split; try discriminate;
    exfalso; destruct Hv as (V1 & V2 & V3 & _); destruct Hbad as [->|[(e' & E)|E]]; try congruence; lia.
Qed.
Print Assumptions C24_rejected.

(** An accepted call: what was burned is what is recorded, the asked amount less the fee *)
Theorem C24_recorded s0 p a r now fees ops evs q :
  reach self keccak any_env s0 -> sys_clock s0 <= now ->
  answered s0 (CallWithdrawNative p a r) now fees ops evs (OutNative (ROk q)) ->
  evs = [EvAcceptedNativeWithdrawalRequest q] /\
  nw_from q = p /\ nw_from_subaccount q = None /\ validate_address_as_destination r = ROk (nw_destination q) /\
  nw_withdrawal_amount q + fee (sys_state s0) = a /\
  exists paid, map fst paid = fee_calls self (sys_state s0) p /\
    ops = paid ++ [(burn_of self (native_ledger_id (sys_state s0)) (default_account p)
                      (nw_withdrawal_amount q) (BurnConvert (nw_destination q)), nw_ledger_burn_index q)].
Proof.
  intros Hr Hc Ha. eapply C24_result in Ha; eauto. inversion Ha; subst.
  match goal with H : native_valid _ _ _ _ _ |- _ => destruct H as (V1 & V2 & V3 & _) end.
  cbn. split; auto. split; auto. split; auto. split; auto. split; [lia|]. exists paid. auto.
Qed.
Print Assumptions C24_recorded.

Theorem C25_result s0 p a l r now fees ops evs o :
  reach self keccak any_env s0 -> sys_clock s0 <= now ->
  answered s0 (CallWithdrawErc20 p a l r) now fees ops evs o ->
  erc20_result self (sys_state s0) now p a l r fees ops evs o.
Proof.
  intros Hr Hc (ls & Ho & -> & -> & ->).
  destruct (erc20_call self keccak any_env s0 p a l r now ls Hr Hc) as [H|(o' & H1 & H2)]; [destruct (H _ Ho)|].
  apply H1 in Ho as ->. exact H2.
Qed.
Print Assumptions C25_result.

Theorem C25_rejected s0 p a l r now fees ops evs o :
  reach self keccak any_env s0 -> sys_clock s0 <= now ->
  answered s0 (CallWithdrawErc20 p a l r) now fees ops evs o ->
  p = ANONYMOUS \/ (exists e, validate_address_as_destination r = RErr e) \/
    (forall c y, ~ listed (sys_state s0) l c y) ->
  ops = [] /\ evs = [] /\ forall q, o <> OutErc20 (ROk q).
Proof.
  intros Hr Hc Ha Hbad. eapply C25_result in Ha; eauto.
  assert (Hno : forall d tk, ~ erc20_valid (sys_state s0) p a l r d tk).
  { intros d tk (V1 & V2 & (_ & V3) & _). destruct Hbad as [->|[(e' & E)|E]]; try congruence. eapply E; eauto. }
  destruct Ha as [| |d tk Hv|d tk ? ? Hv|d tk ? ? ? ? ? Hv|d tk ? ? ? ? Hv|d tk ? ? ? ? ? ? Hv| |d tk ? ? Hv|d tk ? ? ? ? Hv];
    repeat split; try discriminate; exfalso; eapply Hno; eauto.
Qed.
Print Assumptions C25_rejected.

(** An accepted call: the tokens and the gas fee that were burned are recorded with the
    blocks of their burns; the gas fee is the quoted one *)
Theorem C25_recorded s0 p a l r now fees ops evs q :
  reach self keccak any_env s0 -> sys_clock s0 <= now ->
  answered s0 (CallWithdrawErc20 p a l r) now fees ops evs (OutErc20 (ROk q)) ->
  evs = [EvAcceptedErc20WithdrawalRequest q] /\
  ew_from q = p /\ ew_from_subaccount q = None /\ validate_address_as_destination r = ROk (ew_destination q) /\
  ew_withdrawal_amount q = a /\ ew_erc20_ledger_id q = l /\
  quoted (sys_state s0) now fees (ew_max_transaction_fee q) /\
  exists symbol paid, listed (sys_state s0) l (ew_erc20_contract_address q) symbol /\
    map fst paid = fee_calls self (sys_state s0) p /\
    ops = paid ++ [(burn_of self (native_ledger_id (sys_state s0)) (default_account p)
                      (ew_max_transaction_fee q) (BurnErc20GasFee symbol a (ew_destination q)),
                    ew_native_ledger_burn_index q);
                   (burn_of self l (default_account p) a
                      (BurnErc20Convert (ew_native_ledger_burn_index q) (ew_destination q)),
                    ew_erc20_ledger_burn_index q)].
Proof.
  intros Hr Hc Ha. eapply C25_result in Ha; eauto. inversion Ha; subst;
    [|match goal with H : _ \/ _ |- _ => destruct H; discriminate end].
  match goal with H : erc20_valid _ _ _ _ _ _ _ |- _ => destruct H as (V1 & V2 & (V3 & V4) & _) end.
  repeat (split; [auto; fail|]). exists (et_symbol tk), paid.
  split; auto. split; auto. rewrite <- V3. reflexivity.
Qed.
Print Assumptions C25_recorded.

(** The burn of the tokens failed after the burn of the gas fee [g] in block [i]: a
    reimbursement of [g], less the transfer fee unless the ledger was unavailable, is
    recorded, unless that is zero; nothing else is *)
Theorem C25_token_burn_failed s0 p a l r now fees ops evs i e :
  reach self keccak any_env s0 -> sys_clock s0 <= now ->
  answered s0 (CallWithdrawErc20 p a l r) now fees ops evs (OutErc20 (RErr (EeErc20Ledger i e))) ->
  exists g symbol d paid back,
    quoted (sys_state s0) now fees g /\
    ops = paid ++ (burn_of self (native_ledger_id (sys_state s0)) (default_account p) g
                     (BurnErc20GasFee symbol a d), i) :: back /\
    map fst paid = fee_calls self (sys_state s0) p /\
    prefix (map fst back) (refund_calls self (sys_state s0) p) /\
    let owed := match e with
                | LeTemporarilyUnavailable => g
                | _ => g - native_ledger_transfer_fee (sys_state s0)
                end in
    (owed = 0 -> evs = []) /\
    (owed <> 0 -> evs = [EvFailedErc20WithdrawalRequest
       {| rr_ledger_burn_index := i; rr_reimbursed_amount := owed; rr_to := p;
          rr_to_subaccount := None; rr_transaction_hash := None |}]).
Proof.
  intros Hr Hc Ha. eapply C25_result in Ha; eauto. inversion Ha; subst.
  match goal with H : _ \/ _ |- _ => destruct H as [[= <- <-]|]; [|discriminate] end.
  exists g, (et_symbol tk), d, paid, back. repeat (split; [auto; fail|]). cbn zeta. unfold fee_owed.
  set (owed := match e with LeTemporarilyUnavailable => g | _ => _ end).
  split; intros Ho; destruct (N.eqb_spec owed 0); auto; congruence.
Qed.
Print Assumptions C25_token_burn_failed.

(** A call is answered at most once *)
Theorem C24_one_answer s0 u now ls o o' :
  reach self keccak any_env s0 -> sys_clock s0 <= now ->
  (exists p a r, u = CallWithdrawNative p a r) \/ (exists p a l r, u = CallWithdrawErc20 p a l r) ->
  let s := run self keccak s0 (LCall u now :: ls) in
  In (sys_next s0, o) (sys_outcomes s) -> In (sys_next s0, o') (sys_outcomes s) -> o = o'.
Proof.
  intros Hr Hc [(p & a & r & ->)|(p & a & l & r & ->)] s H1 H2.
  - destruct (native_call self keccak any_env s0 p a r now ls Hr Hc) as [H|(x & H & _)]; [destruct (H _ H1)|].
    apply H in H1. apply H in H2. congruence.
  - destruct (erc20_call self keccak any_env s0 p a l r now ls Hr Hc) as [H|(x & H & _)]; [destruct (H _ H1)|].
    apply H in H1. apply H in H2. congruence.
Qed.
Print Assumptions C24_one_answer.

(** ** C53 *)

(** An error that is not a refused burn: nothing was taken *)
Theorem C53_refused_partial s0 u now fees ops evs o :
  reach self keccak any_env s0 -> sys_clock s0 <= now -> answered s0 u now fees ops evs o ->
  (exists p a r e, u = CallWithdrawNative p a r /\ o = OutNative (RErr e) /\ forall x, e <> WeBurn x) \/
  (exists p a l r e, u = CallWithdrawErc20 p a l r /\ o = OutErc20 (RErr e) /\
     (forall x, e <> EeNativeLedger x) /\ forall i x, e <> EeErc20Ledger i x) ->
  ops = [] /\ evs = [].
Proof.
  intros Hr Hc Ha [(p & a & r & e & -> & -> & He)|(p & a & l & r & e & -> & -> & He & He')].
  - eapply C24_result in Ha; eauto. inversion Ha; subst; auto. edestruct He; reflexivity.
  - eapply C25_result in Ha; eauto. inversion Ha; subst; auto.
    + edestruct He; reflexivity.
    + match goal with H : _ \/ _ |- _ => destruct H as [[= ->]|]; [|discriminate] end. edestruct He'; reflexivity.
Qed.
Print Assumptions C53_refused_partial.

(** A refused burn of native tokens: the fee [f] was taken, [f - tf] of it as a transfer;
    if the transfer of the refund was executed, [f - 2 * tf] came back *)
Theorem C53_burn_refused_partial s0 u p now fees ops evs o :
  reach self keccak any_env s0 -> sys_clock s0 <= now -> answered s0 u now fees ops evs o ->
  (exists a r e, u = CallWithdrawNative p a r /\ o = OutNative (RErr (WeBurn e))) \/
  (exists a l r e, u = CallWithdrawErc20 p a l r /\ o = OutErc20 (RErr (EeNativeLedger e))) ->
  let st := sys_state s0 in
  let tf := native_ledger_transfer_fee st in
  evs = [] /\
  match withdrawal_native_fee st with
  | None => ops = []
  | Some f => exists b,
      let taken := (TransferFrom (native_ledger_id st) (default_account p) (fees_account self) (f - tf) None, b) in
      ops = [taken] \/ exists b',
      ops = [taken; (TransferFrom (native_ledger_id st) (fees_account self) (default_account p) (f - 2 * tf) None, b')]
  end.
Proof.
  intros Hr Hc Ha Hu.
  assert (H : evs = [] /\ exists paid back, ops = paid ++ back /\ map fst paid = fee_calls self (sys_state s0) p /\
    prefix (map fst back) (refund_calls self (sys_state s0) p)).
  { destruct Hu as [(a & r & e & -> & ->)|(a & l & r & e & -> & ->)].
    - eapply C24_result in Ha; eauto. inversion Ha; subst. split; auto. eauto.
    - eapply C25_result in Ha; eauto. inversion Ha; subst; [|match goal with H : _ \/ _ |- _ => destruct H; discriminate end].
      split; auto. eauto. }
  destruct H as (-> & paid & back & -> & Hp & Hb). split; auto. unfold fee_calls, refund_calls in *.
  destruct (withdrawal_native_fee (sys_state s0)) as [f|].
  - destruct paid as [|[c b] [|]]; try discriminate. cbn in Hp. injection Hp as ->. exists b.
    apply (snoc_prefix _ _) in Hb as [E|E].
    + destruct back; [|discriminate]. left. reflexivity.
    + destruct back as [|[c' b'] [|]]; try discriminate. injection E as ->. right. exists b'. reflexivity.
  - destruct paid; [|discriminate]. destruct Hb as (x & Hb). destruct back; [reflexivity|discriminate].
Qed.
Print Assumptions C53_burn_refused_partial.

End Calls.

(** ** The full C53 is false of the code

    The withdrawal fee is 20000, more than the minimum amount of 10000. The caller asks for
    15000: the fee is taken, then the code panics because the amount is less than the fee.
    Nothing is recorded and nothing is refunded. No trap is injected by the environment. *)
Definition init_fee : InitArg :=
  {| ia_evm_network := ia_evm_network init0; ia_ecdsa_key_name := ia_ecdsa_key_name init0;
     ia_helper_contract_address := ia_helper_contract_address init0;
     ia_native_ledger_id := ia_native_ledger_id init0; ia_native_index_id := ia_native_index_id init0;
     ia_native_symbol := ia_native_symbol init0; ia_block_height := ia_block_height init0;
     ia_native_minimum_withdrawal_amount := 10000; ia_native_ledger_transfer_fee := 10;
     ia_next_transaction_nonce := 7; ia_last_scraped_block_number := 100;
     ia_min_max_priority_fee_per_gas := 2; ia_ledger_suite_manager_id := manager0;
     ia_deposit_native_fee := 1000; ia_withdrawal_native_fee := 20000 |}.
Definition no_injected_trap (l : Label) : bool := match l with LDeliver _ trap _ => negb trap | _ => true end.

Theorem C53_refuted :
  exists s0 ls, reach self0 keccak0 any_env s0 /\ sys_clock s0 <= 40 /\
    let id := sys_next s0 in
    let ls' := LCall (CallWithdrawNative user0 15000 payee0) 40 :: ls in
    forallb no_injected_trap ls = true /\
    In (id, OutTrap) (sys_outcomes (run self0 keccak0 s0 ls')) /\
    gather self0 keccak0 (ops_by self0 keccak0 id) s0 ls' =
      [(TransferFrom native_ledger0 (default_account user0) (fees_account self0) 19990 None, 2)] /\
    gather self0 keccak0 (events_by self0 keccak0 id) s0 ls' = [].
Proof.
  destruct (run_from init_fee (register0 ++ scrape0 ++ mint0)) as [s|] eqn:E; [|vm_compute in E; discriminate].
  assert (Hr : reach self0 keccak0 any_env s).
  { eapply reach_run_from; [exact E|vm_compute; reflexivity|]. intros; exact Logic.I. }
  vm_compute in E. injection E as <-. eexists _, (ledger_ok 3 2 41). split; [exact Hr|].
  split; [vm_compute; discriminate|]. cbn zeta. split; [reflexivity|].
  split; [eapply nth_error_In with (n := 3%nat); vm_compute; reflexivity|].
  split; vm_compute; reflexivity.
Qed.
Print Assumptions C53_refuted.

(** ** The hypotheses are met *)

Definition before0 : list Label := register0 ++ scrape0 ++ mint0.
Example C24_witness :
  exists s0 ops evs q, reach self0 keccak0 any_env s0 /\ sys_clock s0 <= 40 /\
    answered self0 keccak0 s0 (CallWithdrawNative user0 50000000 payee0) 40 [] ops evs (OutNative (ROk q)) /\
    nw_withdrawal_amount q = 49999500 /\ map snd ops = [2; 3].
Proof.
  destruct (run0 before0) as [s|] eqn:E; [|vm_compute in E; discriminate].
  assert (Hr : reach self0 keccak0 any_env s).
  { eapply reach_run0_quiet; [exact E|vm_compute; reflexivity|]. intros; exact Logic.I. }
  vm_compute in E. injection E as <-. do 4 eexists. split; [exact Hr|]. split; [vm_compute; discriminate|]. split.
  - exists (ledger_ok 3 2 41 ++ ledger_ok 3 3 42). cbn zeta.
    split; [eapply nth_error_In with (n := 3%nat); vm_compute; reflexivity|].
    split; [vm_compute; reflexivity|]. split; vm_compute; reflexivity.
  - split; vm_compute; reflexivity.
Qed.
Example C25_witness :
  exists s0 ops evs q, reach self0 keccak0 any_env s0 /\ sys_clock s0 <= 50 /\
    answered self0 keccak0 s0 (CallWithdrawErc20 user0 3000 token_ledger0 payee0) 50 [history0] ops evs (OutErc20 (ROk q)) /\
    ew_max_transaction_fee q = 1495000 /\ map snd ops = [2; 3; 1].
Proof.
  destruct (run0 before0) as [s|] eqn:E; [|vm_compute in E; discriminate].
  assert (Hr : reach self0 keccak0 any_env s).
  { eapply reach_run0_quiet; [exact E|vm_compute; reflexivity|]. intros; exact Logic.I. }
  vm_compute in E. injection E as <-. do 4 eexists. split; [exact Hr|]. split; [vm_compute; discriminate|]. split.
  - exists (ans 3 (ReFees (Some history0)) 51 ++ ledger_ok 3 2 52 ++ ledger_ok 3 3 53 ++ ledger_ok 3 1 54). cbn zeta.
    split; [eapply nth_error_In with (n := 3%nat); vm_compute; reflexivity|].
    split; [vm_compute; reflexivity|]. split; vm_compute; reflexivity.
  - split; vm_compute; reflexivity.
Qed.
(** The burn of the tokens fails; the refund of the withdrawal fee succeeds *)
Example C25_witness_failed :
  exists s0 ops evs, reach self0 keccak0 any_env s0 /\ sys_clock s0 <= 50 /\
    answered self0 keccak0 s0 (CallWithdrawErc20 user0 3000 token_ledger0 payee0) 50 [history0] ops evs
      (OutErc20 (RErr (EeErc20Ledger 3 LeInsufficientFunds))) /\
    map snd ops = [2; 3; 4] /\
    evs = [EvFailedErc20WithdrawalRequest
       {| rr_ledger_burn_index := 3; rr_reimbursed_amount := 1494990; rr_to := user0;
          rr_to_subaccount := None; rr_transaction_hash := None |}].
Proof.
  destruct (run0 before0) as [s|] eqn:E; [|vm_compute in E; discriminate].
  assert (Hr : reach self0 keccak0 any_env s).
  { eapply reach_run0_quiet; [exact E|vm_compute; reflexivity|]. intros; exact Logic.I. }
  vm_compute in E. injection E as <-. do 3 eexists. split; [exact Hr|]. split; [vm_compute; discriminate|]. split.
  - exists (ans 3 (ReFees (Some history0)) 51 ++ ledger_ok 3 2 52 ++ ledger_ok 3 3 53 ++
      ans 3 (ReLedger (LedgerErr InsufficientFunds)) 54 ++ ledger_ok 3 4 55). cbn zeta.
    split; [eapply nth_error_In with (n := 3%nat); vm_compute; reflexivity|].
    split; [vm_compute; reflexivity|]. split; vm_compute; reflexivity.
  - split; vm_compute; reflexivity.
Qed.
(** The burn of native tokens is refused; the fee of 500 is refunded less two transfer fees *)
Example C53_witness :
  exists s0 ops, reach self0 keccak0 any_env s0 /\ sys_clock s0 <= 40 /\
    answered self0 keccak0 s0 (CallWithdrawNative user0 50000000 payee0) 40 [] ops []
      (OutNative (RErr (WeBurn LeInsufficientAllowance))) /\
    ops = [(TransferFrom native_ledger0 (default_account user0) (fees_account self0) 490 None, 2);
           (TransferFrom native_ledger0 (fees_account self0) (default_account user0) 480 None, 3)].
Proof.
  destruct (run0 before0) as [s|] eqn:E; [|vm_compute in E; discriminate].
  assert (Hr : reach self0 keccak0 any_env s).
  { eapply reach_run0_quiet; [exact E|vm_compute; reflexivity|]. intros; exact Logic.I. }
  vm_compute in E. injection E as <-. do 2 eexists. split; [exact Hr|]. split; [vm_compute; discriminate|]. split.
  - exists (ledger_ok 3 2 41 ++ ans 3 (ReLedger (LedgerErr InsufficientAllowance)) 42 ++ ledger_ok 3 3 43). cbn zeta.
    split; [eapply nth_error_In with (n := 3%nat); vm_compute; reflexivity|].
    split; [vm_compute; reflexivity|]. split; vm_compute; reflexivity.
  - vm_compute; reflexivity.
Qed.
