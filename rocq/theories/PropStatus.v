(** * C23, C59, C60: what the status queries answer *)

From Verif Require Import Base BMap MultiKeyMap Bytes Types Amount Tx CallData Network Hex
  Transactions State Audit Ranges Rlp Parser Memo Driver Sys SysSpec WithdrawSpec TokenSpec ReimburseSpec
  Queries StatusSpec StatusFacts PropWithdraw Scenario.

(** ** C23 *)

(** The status of any burn index is answered, and it is the stage that the recorded events
    put the withdrawal in. *)
Theorem C23_status :
  forall self keccak s b, reach self keccak nonce_kept s ->
    let h := history (sys_log s) in
    (exists st, retrieve_withdrawal_status b (sys_state s) = Done st) /\
    (forall st, retrieve_withdrawal_status b (sys_state s) = Done st <-> exists t, stage_is h b st t) /\
    (retrieve_withdrawal_status b (sys_state s) = Done StNotFound <-> ~ was_accepted h b).
Proof.
  intros self keccak s b Hr h. pose proof (status_reach self keccak nonce_kept (fun _ _ H => H) s Hr) as K.
  split; [|split].
  - destruct (status_total _ _ K b) as (st & _ & H & _). exists st. exact H.
  - exact (status_iff _ _ K b).
  - split.
    + intros H. apply (status_iff _ _ K b) in H as (t & H). inversion H. assumption.
    + intros H. apply (status_iff _ _ K b). exists None. apply IsUnknown. exact H.
Qed.
Print Assumptions C23_status.

(** A search by burn index, by the text of an address or by account is answered with one
    entry for each accepted withdrawal that is looked for, and with no other entry. Each entry has
    the content of the withdrawal and the stage it is in. *)
Theorem C23_search :
  forall self keccak s p, reach self keccak nonce_kept s -> askable p ->
    let h := history (sys_log s) in
    exists ds, withdrawal_details p (sys_state s) = Done ds /\ NoDup (map wd_withdrawal_id ds) /\
      (forall d, In d ds -> exists r st t, In r (accepted h) /\ sought p r /\
         stage_is h (wr_burn_index r) st t /\ detail_is (sys_state s) r st t d) /\
      (forall r, In r (accepted h) -> sought p r ->
         exists d st t, In d ds /\ stage_is h (wr_burn_index r) st t /\ detail_is (sys_state s) r st t d).
Proof.
  intros self keccak s p Hr Hp h. apply search_askable in Hp as (q & Hq).
  destruct (details_total _ _ (status_reach self keccak nonce_kept (fun _ _ H => H) s Hr) p q Hq) as (ds & H1 & H2 & H3 & H4).
  exists ds. split; [exact H1|]. split; [exact H2|]. split.
  - intros d Hd. destruct (H3 d Hd) as (r & st & t & Ha & Hm & H). exists r, st, t.
    split; [exact Ha|]. split; [exact (proj1 (search_sought p q r Hq) Hm)|exact H].
  - intros r Ha Hm. exact (H4 r Ha (proj2 (search_sought p q r Hq) Hm)).
Qed.
Print Assumptions C23_search.

(** The only searches not answered are those for a text that is not an address. *)
Theorem C23_unanswered :
  forall self keccak s p, reach self keccak nonce_kept s ->
    ((exists ds, withdrawal_details p (sys_state s) = Done ds) <-> ~ exists a, p = SearchRecipient a /\ address_of_text a = None).
Proof.
  intros self keccak s p Hr. split.
  - intros (ds & H) (a & -> & Ha). unfold withdrawal_details, search_of in H. rewrite Ha in H. discriminate.
  - intros H. assert (Hq : askable p).
    { destruct p as [b|a|o sub]; cbn; auto. destruct (address_of_text a) eqn:E; cbn; eauto. exfalso. eauto. }
    destruct (C23_search self keccak s p Hr Hq) as (ds & Hds & _). eauto.
Qed.
Print Assumptions C23_unanswered.

(** Five stages: a success, a repaid failure, an unknown burn index; and before that a
    pending one and one whose transaction has been sent. *)
Definition status_now (ls : list Label) (b : N) : res WithdrawalStatus :=
  s <- run0 ls ;; retrieve_withdrawal_status b (sys_state s).
Definition up_to_accepted : list Label := register0 ++ scrape0 ++ mint0 ++ withdraw_native0 ++ withdraw_erc200.

Example C23_witness_status :
  status_now all0 3 = Done (StTxFinalized (FinSuccess (hash_of (run0 up_to_sent) 7) 252000)) /\
  status_now all0 5 = Done (StTxFinalized (FinReimbursed (hash_of (run0 up_to_sent) 8) 3000 2)) /\
  status_now all0 4 = Done StNotFound /\
  status_now up_to_accepted 3 = Done StPending /\
  status_now (up_to_accepted ++ create0) 3 = Done StTxCreated /\
  status_now up_to_sent 3 = Done (StTxSent (hash_of (run0 up_to_sent) 7)) /\
  status_now (up_to_sent ++ finalize0 ++ fail0) 5 =
    Done (StTxFinalized (FinPendingReimbursement (hash_of (run0 up_to_sent) 8))).
Proof. split; [vm_compute; reflexivity|]. do 5 (split; [vm_compute; reflexivity|]). vm_compute; reflexivity. Qed.

Example C23_witness :
  exists s ds, reach self0 keccak0 nonce_kept s /\
    withdrawal_details (SearchAccount user0 None) (sys_state s) = Done ds /\
    map (fun d => (wd_withdrawal_id d, wd_withdrawal_amount d, wd_token_symbol d)) ds =
      [(3, 49999500, text_of "icETH"); (5, 3000, text_of "icUSDC")] /\
    withdrawal_details (SearchRecipient payee0) (sys_state s) = Done ds /\
    withdrawal_details (SearchId 4) (sys_state s) = Done [] /\
    is_done (withdrawal_details (SearchRecipient (text_of "0x")) (sys_state s)) = false.
Proof.
  destruct (run0 all0) as [s|] eqn:E; [|vm_compute in E; discriminate].
  assert (Hr : reach self0 keccak0 nonce_kept s) by (eapply scenario_reach; [exact E|vm_compute; reflexivity]).
  vm_compute in E. injection E as <-. do 2 eexists. split; [exact Hr|].
  do 4 (split; [vm_compute; reflexivity|]). vm_compute; reflexivity.
Qed.

(** ** C59 *)

(** From one state to the next the status does not go back to an earlier one of: not found,
    pending, transaction created or sent, failed, ended; and an end is never changed. *)
Theorem C59_forward_partial :
  forall self keccak s l b st st', reach self keccak nonce_kept s -> nonce_kept s l ->
    retrieve_withdrawal_status b (sys_state s) = Done st ->
    retrieve_withdrawal_status b (sys_state (step self keccak s l)) = Done st' ->
    progress st <= progress st' /\ (progress st = 4 -> st' = st).
Proof. intros self keccak. exact (status_forward self keccak nonce_kept (fun _ _ H => H)). Qed.
Print Assumptions C59_forward_partial.

Example C59_witness :
  exists s l, reach self0 keccak0 nonce_kept s /\ nonce_kept s l /\
    retrieve_withdrawal_status 3 (sys_state s) = Done StPending /\
    retrieve_withdrawal_status 3 (sys_state (step self0 keccak0 s l)) = Done StTxCreated.
Proof.
  destruct (run0 (up_to_accepted ++ [LTimer TimerRetrieve 60; LAnswer 5 (ReCount (Some 7))])) as [s|] eqn:E; [|vm_compute in E; discriminate].
  assert (Hr : reach self0 keccak0 nonce_kept s) by (eapply scenario_reach; [exact E|vm_compute; reflexivity]).
  vm_compute in E. injection E as <-. eexists. exists (LDeliver 5 false 61). split; [exact Hr|]. split; [exact Logic.I|].
  split; vm_compute; reflexivity.
Qed.

(** But it goes back from sent, with the hash of a transaction that may still be mined, to
    created, when the fee is raised. *)
Theorem C59_back_refuted :
  exists self keccak s l b x, reach self keccak nonce_kept s /\ nonce_kept s l /\
    retrieve_withdrawal_status b (sys_state s) = Done (StTxSent x) /\
    retrieve_withdrawal_status b (sys_state (step self keccak s l)) = Done StTxCreated.
Proof.
  destruct (run0 (up_to_sent ++ ans 5 (ReCount (Some 7)) 64 ++ LTimer TimerRetrieve 40000000000 ::
    ans 6 (ReFees (Some history1)) 40000000001 ++ [LAnswer 6 (ReCount (Some 7))])) as [s|] eqn:E; [|vm_compute in E; discriminate].
  assert (Hr : reach self0 keccak0 nonce_kept s) by (eapply scenario_reach; [exact E|vm_compute; reflexivity]).
  vm_compute in E. injection E as <-. exists self0, keccak0. eexists. exists (LDeliver 6 false 40000000002), 3. eexists.
  split; [exact Hr|]. split; [exact Logic.I|]. split; vm_compute; reflexivity.
Qed.
Print Assumptions C59_back_refuted.

(** ** C60 *)

(** A withdrawal reported as waiting for its reimbursement is owed, or its reimbursement has
    been quarantined. *)
Theorem C60_waiting_partial :
  forall self keccak s b x, reach self keccak nonce_kept s ->
    retrieve_withdrawal_status b (sys_state s) = Done (StTxFinalized (FinPendingReimbursement x)) ->
    exists r, In r (accepted (history (sys_log s))) /\ wr_burn_index r = b /\
      ((exists q, owing (sys_state s) (ri_of_request r) q) \/ quarantined (sys_state s) (ri_of_request r)).
Proof. intros self keccak. exact (waiting_owed self keccak nonce_kept (fun _ _ H => H)). Qed.
Print Assumptions C60_waiting_partial.

Example C60_witness :
  exists s x q, reach self0 keccak0 nonce_kept s /\
    retrieve_withdrawal_status 5 (sys_state s) = Done (StTxFinalized (FinPendingReimbursement x)) /\
    owing (sys_state s) (RIErc20 5 token_ledger0 1) q.
Proof.
  destruct (run0 (up_to_sent ++ finalize0 ++ fail0)) as [s|] eqn:E; [|vm_compute in E; discriminate].
  assert (Hr : reach self0 keccak0 nonce_kept s) by (eapply scenario_reach; [exact E|vm_compute; reflexivity]).
  vm_compute in E. injection E as <-. do 3 eexists. split; [exact Hr|]. split; vm_compute; reflexivity.
Qed.

(** A reimbursement paid by the ledger whose callback trapped: nothing is owed any more, but
    the status is still "waiting for its reimbursement". *)
Theorem C60_quarantined_refuted :
  exists self keccak s b x r, reach self keccak nonce_kept s /\
    retrieve_withdrawal_status b (sys_state s) = Done (StTxFinalized (FinPendingReimbursement x)) /\
    In r (accepted (history (sys_log s))) /\ wr_burn_index r = b /\
    quarantined (sys_state s) (ri_of_request r) /\ reimb_requests (withdrawals (sys_state s)) = [].
Proof.
  destruct (run0 (up_to_sent ++ finalize0 ++ fail0 ++
    [LTimer TimerReimburse 80; LAnswer 7 (ReLedger (LedgerOk 2)); LDeliver 7 true 81])) as [s|] eqn:E; [|vm_compute in E; discriminate].
  assert (Hr : reach self0 keccak0 nonce_kept s) by (eapply scenario_reach; [exact E|vm_compute; reflexivity]).
  vm_compute in E. injection E as <-. exists self0, keccak0. eexists. exists 5. do 2 eexists.
  split; [exact Hr|]. split; [vm_compute; reflexivity|].
  split; [eapply nth_error_In with (n := 1%nat); vm_compute; reflexivity|].
  split; [vm_compute; reflexivity|]. split; vm_compute; reflexivity.
Qed.
Print Assumptions C60_quarantined_refuted.

(** ** C71 *)

(** What is owed for a failed transaction is shown: the status of the withdrawal says that
    its reimbursement is pending, and so does every search that looks for the withdrawal.
    Everything else that is owed is a gas fee whose token burn failed. *)
Theorem C71_owed_is_shown_partial :
  forall self keccak s i q, reach self keccak nonce_kept s -> owing (sys_state s) i q ->
    (exists r x, In r (accepted (history (sys_log s))) /\ ri_of_request r = i /\
       retrieve_withdrawal_status (wr_burn_index r) (sys_state s) =
         Done (StTxFinalized (FinPendingReimbursement x)) /\
       forall p, sought p r ->
         exists ds d, withdrawal_details p (sys_state s) = Done ds /\ In d ds /\
           wd_withdrawal_id d = wr_burn_index r /\
           wd_status d = StTxFinalized (FinPendingReimbursement x)) \/
    (exists f, In (EvFailedErc20WithdrawalRequest f) (history (sys_log s)) /\
       i = RINative (rr_ledger_burn_index f)).
Proof.
  intros self keccak s i q Hr H. pose proof (status_reach self keccak nonce_kept (fun _ _ H => H) s Hr) as K.
  destruct (owed_shown self keccak nonce_kept (fun _ _ H => H) s i q Hr H) as [(r & x & Ha & Ei & Hs)|(p & Hp & Ei & _)]; [|right; eauto].
  left. exists r, x. split; [exact Ha|]. split; [exact Ei|]. split; [exact Hs|]. intros p Hx.
  assert (Hm : exists m, search_of p = Some m).
  { destruct p as [b|a|o sub]; cbn in Hx |- *; eauto. rewrite Hx. cbn. eauto. }
  destruct Hm as (m & Hm). apply (search_sought p m r Hm) in Hx.
  destruct (details_total _ _ K p m Hm) as (ds & Hds & _ & _ & Hall).
  destruct (Hall r Ha Hx) as (d & st & t & Hd & G & (D1 & _ & _ & _ & D2 & _)). exists ds, d.
  split; [exact Hds|]. split; [exact Hd|]. split; [exact D1|]. rewrite D2.
  assert (E : retrieve_withdrawal_status (wr_burn_index r) (sys_state s) = Done st) by (apply (status_iff _ _ K); eauto).
  congruence.
Qed.
Print Assumptions C71_owed_is_shown_partial.
(** A gas fee that is owed is never shown: the status of its burn index is "not found" and no
    search lists it, while it is owed and also after it was repaid. *)
Theorem C71_fee_is_hidden :
  forall self keccak s f, reach self keccak nonce_kept s ->
    In (EvFailedErc20WithdrawalRequest f) (history (sys_log s)) ->
    retrieve_withdrawal_status (rr_ledger_burn_index f) (sys_state s) = Done StNotFound /\
    forall p ds d, withdrawal_details p (sys_state s) = Done ds -> In d ds ->
      wd_withdrawal_id d <> rr_ledger_burn_index f.
Proof. intros self keccak. exact (fee_hidden self keccak nonce_kept (fun _ _ H => H)). Qed.
Print Assumptions C71_fee_is_hidden.
(** So something can be owed to a user although the status is "not found" and a search for
    all their withdrawals lists nothing. *)
Definition fee_owed : list Label :=
  register0 ++ scrape0 ++ mint0 ++ LCall (CallWithdrawErc20 user0 3000 token_ledger0 payee0) 40 ::
  ans 3 (ReFees (Some history0)) 41 ++ ledger_ok 3 2 42 ++ ledger_ok 3 3 43 ++
  ans 3 (ReLedger (LedgerErr InsufficientFunds)) 44 ++ ledger_ok 3 4 45.
Theorem C71_fee_refuted :
  exists self keccak s b q, reach self keccak nonce_kept s /\ owing (sys_state s) (RINative b) q /\
    rr_to q = user0 /\ rr_to_subaccount q = None /\ rr_reimbursed_amount q = 1494990 /\
    retrieve_withdrawal_status b (sys_state s) = Done StNotFound /\
    withdrawal_details (SearchAccount user0 None) (sys_state s) = Done [].
Proof.
  destruct (run0 fee_owed) as [s|] eqn:E; [|vm_compute in E; discriminate].
  assert (Hr : reach self0 keccak0 nonce_kept s) by (eapply scenario_reach; [exact E|vm_compute; reflexivity]).
  vm_compute in E. injection E as <-. exists self0, keccak0. eexists. exists 3. eexists.
  split; [exact Hr|]. do 5 (split; [vm_compute; reflexivity|]). vm_compute. reflexivity.
Qed.
Print Assumptions C71_fee_refuted.
(** Shown by a search: the failed ERC20 withdrawal of the scenario *)
Example C71_witness :
  exists s x ds q, reach self0 keccak0 nonce_kept s /\ owing (sys_state s) (RIErc20 5 token_ledger0 1) q /\
    withdrawal_details (SearchAccount user0 None) (sys_state s) = Done ds /\
    map (fun d => (wd_withdrawal_id d, wd_status d)) (tl ds) = [(5, StTxFinalized (FinPendingReimbursement x))].
Proof.
  destruct (run0 (up_to_sent ++ finalize0 ++ fail0)) as [s|] eqn:E; [|vm_compute in E; discriminate].
  assert (Hr : reach self0 keccak0 nonce_kept s) by (eapply scenario_reach; [exact E|vm_compute; reflexivity]).
  vm_compute in E. injection E as <-. do 4 eexists. split; [exact Hr|]. split; [vm_compute; reflexivity|].
  split; vm_compute; reflexivity.
Qed.
