(** * Which suspended function follows which.

    For every callback and every first segment: what is known about the function that
    is suspended next, and about the outcome when the function ends. *)

From Verif Require Import Base BMap MultiKeyMap MultiKeyMapFacts Bytes Types Amount ArithFacts Tx CallData
  Network Hex Transactions State Audit Ranges Rlp Parser Memo Driver Sys WtInv StateEquiv Segments.

Definition is_retrieve (t : Task) : bool :=
  match t with
  | TRetrieveFee | TRetrieveCount _ | TRetrieveSign _ _ | TRetrieveSend _ | TRetrieveFinalizedCount
  | TRetrieveReceipts _ => true
  | _ => false
  end.
Definition mint_job (t : Task) (j : MintJob) : Prop := t = TMint j \/ exists b, t = TMintFee j b.

(** the ledger of a reimbursement *)
Definition reimburse_ledger (s : State) (i : ReimbursementIndex) : Principal :=
  match i with RINative _ => native_ledger_id s | RIErc20 _ l _ => l end.

Definition native_burn_job (now : N) (ledger : Principal) (j : NativeJob) (amount : N) : NativeJob :=
  {| nj_caller := nj_caller j; nj_destination := nj_destination j; nj_amount := amount;
     nj_fee := nj_fee j; nj_transfer_fee := nj_transfer_fee j; nj_ledger := ledger; nj_now := now |}.
Definition erc20_fee_job (now : N) (fee : option N) (g : GasFeeEstimate) (j : Erc20Job) : Erc20Job :=
  {| ej_caller := ej_caller j; ej_destination := ej_destination j; ej_amount := ej_amount j;
     ej_token := ej_token j; ej_transfer_fee := ej_transfer_fee j;
     ej_native_ledger := ej_native_ledger j;
     ej_tx_fee := max_transaction_fee (to_price g ERC20_GAS_LIMIT); ej_fee := fee; ej_now := now |}.
Definition erc20_gas_job (now : N) (j : Erc20Job) : Erc20Job :=
  {| ej_caller := ej_caller j; ej_destination := ej_destination j; ej_amount := ej_amount j;
     ej_token := ej_token j; ej_transfer_fee := ej_transfer_fee j;
     ej_native_ledger := ej_native_ledger j; ej_tx_fee := ej_tx_fee j; ej_fee := ej_fee j;
     ej_now := now |}.
Definition estimated_next (now : N) (j : Erc20Job) (g : GasFeeEstimate) (s : State) (t' : Task) : Prop :=
  match withdrawal_native_fee s with
  | Some f => ej_transfer_fee j <= f /\ t' = TErc20Fee (erc20_fee_job now (Some f) g j)
  | None => t' = TErc20GasBurn (erc20_fee_job now None g j)
  end.

Section Next.
Variable keccak : list N -> Hash.

(** What is known when the callback of [t] with answer [r] ends in core [c'] by
    suspending [t'] *)
Definition next_spec (now : N) (t : Task) (r : Reply) (c c' : Core) (t' : Task) : Prop :=
  match t' with
  | TMint j' =>
      exists j, mint_job t j /\
        mint_next (mj_fee j) (mj_native_ledger j) (mj_rest j) c' = Done (c', Await t')
  | TMintFee j b =>
      t = TMint j /\ r = ReLedger (LedgerOk b) /\ c' = c /\ b <= U64_MAX /\
      is_native (mj_event j) = true /\ is_some (mj_fee j) = true
  | TReimburse l i q rest =>
      exists l0 i0 q0, t = TReimburse l0 i0 q0 ((i, q) :: rest) /\ l = reimburse_ledger (fst c') i
  | TScrapeBlock n =>
      exists m o, t = TScrapeBlock m /\ r = ReBlock o /\ n = m + 1 /\ m + 1 < MAX_ATTEMPTS
  | TScrapeLogs j' =>
      (exists n o last, t = TScrapeBlock n /\ r = ReBlock o /\
         last_observed_block_number (fst c') = Some last /\
         (c' = c \/ exists number, o = Some number /\
            observed_block (evm_network (fst c)) number = Some last /\
            c' = (set_last_observed_block_number (Some last) (fst c), snd c)) /\
         scrape_until_block last c' = Done (c', Await t')) \/
      (exists j a, t = TScrapeLogs j /\ r = ReLogs a /\
         ((exists q, a = LogsTooLarge /\ c' = c /\ fst (sj_current j) <> snd (sj_current j) /\
             split_queue (sj_current j) (sj_subranges j) = Done q /\
             scrape_next j q c' = Done (c', Await t')) \/
          ((exists logs, a = LogsOk logs) \/ (a = LogsTooLarge /\ fst (sj_current j) = snd (sj_current j))) /\
          last_scraped_block_number (fst c') = snd (sj_current j) /\
          scrape_next j (sj_subranges j) c' = Done (c', Await t')))
  | TRetrieveCount g => t = TRetrieveFee
  | TRetrieveSign count batch =>
      transactions_to_sign_batch SIGN_BATCH (withdrawals (fst c')) = Done batch /\
      exists g, t = TRetrieveCount g /\ r = ReCount count
  | TRetrieveSend txs =>
      is_retrieve t = true /\
      exists n, transactions_to_send_batch n SEND_BATCH (withdrawals (fst c')) = Done txs
  | TRetrieveFinalizedCount => is_retrieve t = true
  | TRetrieveReceipts h =>
      t = TRetrieveFinalizedCount /\ c' = c /\ exists n, r = ReCount (Some n) /\
      sent_transactions_to_finalize n (withdrawals (fst c)) = Done h
  | TNativeBurn j' =>
      exists j b fee, t = TNativeFee j /\ r = ReLedger (LedgerOk b) /\ c' = c /\
        nj_fee j = Some fee /\ fee <= nj_amount j /\
        j' = native_burn_job now (native_ledger_id (fst c)) j (nj_amount j - fee)
  | TNativeRefund p l a e =>
      exists j x fee, t = TNativeBurn j /\ r = ReLedger x /\ c' = c /\
        burn_result x = Done (RErr e) /\ nj_fee j = Some fee /\ p = nj_caller j /\ l = nj_ledger j /\
        a = refund_amount fee (nj_transfer_fee j)
  | TErc20Fee _ =>
      exists j h g, t = TErc20Estimate j /\ r = ReFees h /\ estimated_next now j g (fst c') t'
  | TErc20GasBurn j' =>
      (exists j h g, t = TErc20Estimate j /\ r = ReFees h /\ estimated_next now j g (fst c') t') \/
      (exists j b, t = TErc20Fee j /\ r = ReLedger (LedgerOk b) /\ c' = c /\ j' = erc20_gas_job now j)
  | TErc20Burn j i => t = TErc20GasBurn j /\ r = ReLedger (LedgerOk i) /\ c' = c /\ i <= U64_MAX
  | TErc20Refund p l a o e =>
      exists j x fee, r = ReLedger x /\ burn_result x = Done (RErr e) /\ ej_fee j = Some fee /\
        p = ej_caller j /\ l = ej_native_ledger j /\ a = refund_amount fee (ej_transfer_fee j) /\
        ((t = TErc20GasBurn j /\ o = None /\ c' = c) \/
         (exists i, t = TErc20Burn j i /\ o = Some i /\
            (failed_burn_reimbursement j e = 0 -> c' = c) /\
            (0 < failed_burn_reimbursement j e ->
               process_event now (EvFailedErc20WithdrawalRequest
                 (failed_request j i (failed_burn_reimbursement j e))) c = Done c')))
  | TRetrieveFee | TNativeFee _ | TErc20Estimate _ | TRefresh => False
  end.

(** What is known about the result of a withdrawal call *)
Definition finish_spec (now : N) (t : Task) (r : Reply) (c c' : Core) (o : Outcome) : Prop :=
  match o with
  | OutNative (ROk q) =>
      exists j b c1, t = TNativeBurn j /\ r = ReLedger (LedgerOk b) /\ b <= U64_MAX /\ q = native_request j b /\
        process_event now (EvAcceptedNativeWithdrawalRequest q) c = Done c1 /\
        c' = on_state (guard_drop (nj_caller j)) c1
  | OutErc20 (ROk q) =>
      exists j i b c1, t = TErc20Burn j i /\ r = ReLedger (LedgerOk b) /\ b <= U64_MAX /\
        q = erc20_request j i b /\
        process_event now (EvAcceptedErc20WithdrawalRequest q) c = Done c1 /\
        c' = on_state (guard_drop (ej_caller j)) c1
  | OutNative (RErr e) =>
      (exists j x y, t = TNativeFee j /\ r = ReLedger x /\ fee_transfer_result x = Done (RErr y) /\
         e = WeFeeTransfer y /\ c' = on_state (guard_drop (nj_caller j)) c) \/
      (exists j x y, t = TNativeBurn j /\ r = ReLedger x /\ burn_result x = Done (RErr y) /\
         nj_fee j = None /\ e = WeBurn y /\ y <> LeAmountTooLow /\ c' = on_state (guard_drop (nj_caller j)) c) \/
      (exists p l a y, t = TNativeRefund p l a y /\ e = WeBurn y /\ y <> LeAmountTooLow /\ c' = on_state (guard_drop p) c)
  | OutErc20 (RErr e) =>
      (exists j s, t = TErc20Estimate j /\ e = EeTemporarilyUnavailable /\
         c' = on_state (guard_drop (ej_caller j)) (s, snd c) /\ vstep (fst c) s) \/
      (exists j x y, t = TErc20Fee j /\ r = ReLedger x /\ fee_transfer_result x = Done (RErr y) /\
         e = EeFeeTransfer y /\ c' = on_state (guard_drop (ej_caller j)) c) \/
      (exists j x y, t = TErc20GasBurn j /\ r = ReLedger x /\ burn_result x = Done (RErr y) /\
         ej_fee j = None /\ e = EeNativeLedger y /\ c' = on_state (guard_drop (ej_caller j)) c) \/
      (exists j i x y c1, t = TErc20Burn j i /\ r = ReLedger x /\ burn_result x = Done (RErr y) /\
         ej_fee j = None /\ e = EeErc20Ledger i y /\ c' = on_state (guard_drop (ej_caller j)) c1 /\
         (failed_burn_reimbursement j y = 0 -> c1 = c) /\
         (0 < failed_burn_reimbursement j y ->
            process_event now (EvFailedErc20WithdrawalRequest
              (failed_request j i (failed_burn_reimbursement j y))) c = Done c1)) \/
      (exists p l a i y, t = TErc20Refund p l a i y /\
         e = match i with Some i => EeErc20Ledger i y | None => EeNativeLedger y end /\
         c' = on_state (guard_drop p) c)
  | OutTimer => task_principal t = None
  | _ => False
  end.

Definition after (now : N) (t : Task) (r : Reply) (c c' : Core) (nx : Next) : Prop :=
  match nx with Await t' => next_spec now t r c c' t' | Finish o => finish_spec now t r c c' o end.

Lemma mint_next_inv fee l es c c' nx : mint_next fee l es c = Done (c', nx) ->
  (es = [] /\ c' = on_state (timer_guard_drop TaskMint) c /\ nx = Finish OutTimer) \/
  (c' = c /\ exists j, nx = Await (TMint j) /\ mj_fee j = fee /\ mj_native_ledger j = l /\
     es = mj_event j :: mj_rest j).
Proof.
  unfold mint_next, end_timer. destruct es as [|e es]; intros H; inv_res; [auto|].
  destruct x as [sy le]. inv_res. right. eauto 10.
Qed.

Lemma after_mint now t r c c1 c' nx j :
  mint_job t j -> mint_next (mj_fee j) (mj_native_ledger j) (mj_rest j) c1 = Done (c', nx) ->
  after now t r c c' nx.
Proof.
  intros Ht H. pose proof H as H'. apply mint_next_inv in H' as [(_ & -> & ->)|(-> & j' & -> & _)]; cbn.
  - destruct Ht as [->|[b ->]]; reflexivity.
  - eauto.
Qed.

Lemma scrape_next_chunk_inv a tp ck c c' nx : scrape_next_chunk a tp ck c = Done (c', nx) ->
  (c' = on_state (timer_guard_drop TaskScrapLogs) c /\ nx = Finish OutTimer) \/
  (c' = c /\ exists j, nx = Await (TScrapeLogs j)).
Proof.
  unfold scrape_next_chunk, end_timer. intros H. inv_res. destruct x as [[r|] ck']; inv_res; eauto 10.
Qed.
Lemma scrape_next_inv j l c c' nx : scrape_next j l c = Done (c', nx) ->
  (c' = on_state (timer_guard_drop TaskScrapLogs) c /\ nx = Finish OutTimer) \/
  (c' = c /\ exists j', nx = Await (TScrapeLogs j')).
Proof.
  unfold scrape_next. destruct l; [apply scrape_next_chunk_inv|]. intros H. inv_res. eauto 10.
Qed.

Lemma after_finalize now t r c c1 c' nx :
  is_retrieve t = true -> finalize_start c1 = Done (c', nx) -> after now t r c c' nx.
Proof.
  intros Ht H. unfold finalize_start, end_timer in H. destruct (mkm_is_empty _); inv_res; cbn; auto.
  destruct t; try discriminate; reflexivity.
Qed.
Lemma after_send now t r c c1 c' nx n :
  is_retrieve t = true -> send_start n c1 = Done (c', nx) -> after now t r c c' nx.
Proof.
  intros Ht H. unfold send_start in H. destruct n as [n|]; [|eapply after_finalize; eauto].
  inv_res. destruct x as [|y l] eqn:E; [eapply after_finalize; eauto|]. inv_res. cbn. eauto.
Qed.

Lemma estimated_inv now j g c c' nx : erc20_estimated now j g c = Done (c', nx) ->
  c' = c /\ exists t', nx = Await t' /\ estimated_next now j g (fst c) t'.
Proof.
  unfold erc20_estimated, erc20_gas_burn_start, estimated_next.
  destruct (withdrawal_native_fee (fst c)) as [f|]; intros H.
  - inv_res. apply checked_sub_some in H0 as [H0 _]. split; auto. eauto.
  - inv_res. split; auto. eexists. split; [reflexivity|]. reflexivity.
Qed.

Lemma fee_result_ok r i : fee_transfer_result r = Done (ROk i) -> r = LedgerOk i /\ i <= U64_MAX.
Proof. destruct r as [b|[]|]; intros H; try (apply burn_result_ok; exact H); discriminate. Qed.

Lemma resume_after now t r c c' nx :
  resume keccak now t r c = Done (c', nx) -> after now t r c c' nx.
Proof.
  intros H. destruct t, r; cbn in H; try discriminate.
  - unfold mint_reply in H. destruct r as [b|e|].
    + inv_res. apply block_u64_done in H0 as [-> Hb].
      destruct (is_native (mj_event j) && is_some (mj_fee j)) eqn:E.
      * inv_res. apply andb_true_iff in E as [? ?]. cbn. repeat split; auto.
      * unfold mint_record in H. inv_res. eapply after_mint; eauto. left; auto.
    + eapply after_mint; eauto. left; auto.
    + eapply after_mint; eauto. left; auto.
  - unfold mint_record in H. inv_res. eapply after_mint; eauto. right; eauto.
  - unfold reimburse_reply in H.
    assert (Hn : forall c1, reimburse_next rest c1 = Done (c', nx) ->
      after now (TReimburse ledger i r0 rest) (ReLedger r) c c' nx).
    { intros c1 Hx. unfold reimburse_next, end_timer in Hx. destruct rest as [|[i1 q1] rest]; inv_res; cbn; auto.
      do 3 eexists. split; [reflexivity|]. destruct i1; reflexivity. }
    destruct r; [|eauto|eauto]. inv_res. eauto.
  - unfold scrape_block_reply in H.
    set (c1 := match r with
               | Some number => (set_last_observed_block_number
                   (observed_block (evm_network (fst c)) number) (fst c), snd c)
               | None => c end) in H.
    destruct (last_observed_block_number (fst c1)) as [last|] eqn:El.
    + pose proof H as H'. unfold scrape_until_block in H'. inv_res.
      assert (Hc1 : c1 = c \/ exists number, r = Some number /\
        observed_block (evm_network (fst c)) number = Some last /\
        c1 = (set_last_observed_block_number (Some last) (fst c), snd c)).
      { subst c1. destruct r as [n|]; auto. right. cbn in El. exists n. rewrite El. auto. }
      apply scrape_next_chunk_inv in H' as [(-> & ->)|(-> & j & ->)]; cbn; auto.
      left. exists attempts, r, last. repeat split; auto.
    + destruct (N.leb_spec MAX_ATTEMPTS (attempts + 1)).
      * unfold end_timer in H. inv_res. reflexivity.
      * inv_res. cbn. eauto 10.
  - unfold scrape_logs_reply in H. destruct (sj_current j) as [f to] eqn:Ej. destruct r as [logs| |].
    + inv_res. destruct x as [ds es]. inv_res. pose proof H as H'.
      apply scrape_next_inv in H' as [(-> & ->)|(-> & j' & ->)]; cbn; auto.
      right. exists j, (LogsOk logs). repeat split; auto. right. rewrite Ej. cbn. repeat split; eauto.
    + destruct (N.eqb_spec f to) as [->|Hf].
      * inv_res. pose proof H as H'. apply scrape_next_inv in H' as [(-> & ->)|(-> & j' & ->)]; cbn; auto.
        right. exists j, LogsTooLarge. repeat split; auto. right. rewrite Ej. cbn. repeat split; eauto.
      * inv_res. pose proof H as H'. apply scrape_next_inv in H' as [(-> & ->)|(-> & j' & ->)]; cbn; auto.
        right. exists j, LogsTooLarge. repeat split; auto. left. rewrite Ej. cbn. exists x. repeat split; auto.
    + unfold end_timer in H. inv_res. reflexivity.
  - unfold retrieve_fee_reply in H. destruct (refresh_reply now r (fst c)) as [s o].
    destruct o; unfold end_timer in H; inv_res; reflexivity.
  - unfold retrieve_count_reply in H. inv_res. unfold sign_start in H. inv_res.
    destruct x1; [eapply after_send; eauto; reflexivity|]. inv_res. cbn. eauto.
  - unfold retrieve_sign_reply in H. inv_res. eapply after_send; eauto; reflexivity.
  - eapply after_finalize; eauto; reflexivity.
  - unfold retrieve_finalized_count_reply, end_timer in H. destruct r as [n|]; [|inv_res; reflexivity].
    inv_res. destruct x; inv_res; [reflexivity|]. cbn. eauto.
  - unfold retrieve_receipts_reply, end_timer in H. destruct (collect_receipts hashes l []) as [rs|];
      [|inv_res; reflexivity]. inv_res. reflexivity.
  - unfold native_fee_reply, end_call in H. inv_res. destruct x as [i|e].
    + apply fee_result_ok in H0 as [-> Hi]. inv_res. unfold native_burn_start in H. inv_res. cbn.
      apply checked_sub_some in H1 as [H1 ->]. do 3 eexists. repeat split; eauto.
    + inv_res. cbn. left. eauto 10.
  - unfold native_burn_reply, end_call in H. inv_res. destruct x as [i|e].
    + inv_res. apply burn_result_ok in H0 as [-> Hi]. cbn. do 3 eexists. repeat split; eauto.
    + destruct (nj_fee j) eqn:Ef; inv_res; cbn; [eauto 15|].
      match goal with B : burn_error _ = Done _ |- _ => apply burn_error_done in B as [-> B] end. eauto 15.
  - unfold native_refund_reply, end_call in H. inv_res. cbn. right. right.
    match goal with B : burn_error _ = Done _ |- _ => apply burn_error_done in B as [-> B] end. eauto 10.
  - unfold erc20_estimate_reply, end_call in H. destruct (refresh_reply now r (fst c)) as [s o] eqn:E.
    destruct o as [g|].
    + apply estimated_inv in H as (-> & t' & -> & Hn). pose proof Hn as Hx. unfold estimated_next in Hx.
      destruct (withdrawal_native_fee (fst (s, snd c))); [destruct Hx as [_ ->]|subst t']; cbn; eauto 10.
    + inv_res. cbn. left. exists j, s. repeat split; auto. eapply vstep_refresh_reply; eauto.
  - unfold erc20_fee_reply, end_call in H. inv_res. destruct x as [i|e].
    + apply fee_result_ok in H0 as [-> Hi]. unfold erc20_gas_burn_start in H. inv_res. cbn. right. eauto 10.
    + inv_res. cbn. right. left. eauto 10.
  - unfold erc20_gas_burn_reply, erc20_refund_start, end_call in H. inv_res. destruct x as [i|e].
    + inv_res. apply burn_result_ok in H0 as [-> Hi]. cbn. auto.
    + destruct (ej_fee j) eqn:Ef; inv_res; cbn.
      * do 3 eexists. repeat split; eauto.
      * right. right. left. eauto 10.
  - unfold erc20_burn_reply, erc20_refund_start, end_call in H. inv_res. destruct x as [i|e].
    + inv_res. apply burn_result_ok in H0 as [-> Hi]. cbn. do 4 eexists. repeat split; eauto.
    + inv_res.
      assert (Hc : (failed_burn_reimbursement j e = 0 -> x = c) /\
        (0 < failed_burn_reimbursement j e ->
            process_event now (EvFailedErc20WithdrawalRequest
              (failed_request j native_index (failed_burn_reimbursement j e))) c = Done x)).
      { destruct (N.ltb_spec 0 (failed_burn_reimbursement j e)); split; intros; try lia.
        - exact H1.
        - inv_res. auto. }
      destruct Hc as [Hc1 Hc2]. destruct (ej_fee j) eqn:Ef; inv_res; cbn.
      * do 3 eexists. repeat split; eauto. right. eexists. repeat split; eauto.
      * right. right. right. left. do 5 eexists. repeat split; eauto.
  - unfold erc20_refund_reply, end_call in H. inv_res. cbn. destruct native_index; do 4 right; eauto 10.
  - inv_res. reflexivity.
Qed.

(** First segments of timers *)
Definition timer_next (now : N) (k : Timer) (c c' : Core) (nx : Next) : Prop :=
  match nx with
  | Finish o => o = OutTimer
  | Await t' =>
      match t' with
      | TMint _ => k = TimerMint /\
          timer_guard_new TaskMint (fst c) = Some (fst c') /\ snd c' = snd c /\
          mint_next (deposit_native_fee (fst c')) (native_ledger_id (fst c'))
            (events_to_mint_list (fst c')) c' = Done (c', nx)
      | TScrapeBlock n => k = TimerScrape /\ n = 0
      | TRetrieveFee | TRetrieveCount _ => k = TimerRetrieve
      | TReimburse l i q rest => k = TimerReimburse /\
          timer_guard_new TaskReimbursement (fst c) = Some (fst c') /\ snd c' = snd c /\
          reimb_requests (withdrawals (fst c')) = (i, q) :: rest /\ l = reimburse_ledger (fst c') i
      | TRefresh => k = TimerRefresh
      | _ => False
      end
  end.

Lemma timer_after now k c c' nx : timer_start now k c = Done (c', nx) -> timer_next now k c c' nx.
Proof.
  destruct c as [s log]. destruct k; cbn.
  - unfold mint_start; cbn. destruct (timer_guard_new _ s) as [s1|] eqn:E; intros H; [|inv_res; reflexivity].
    pose proof H as H'. apply mint_next_inv in H' as [(_ & -> & ->)|(-> & j' & -> & _)]; cbn; auto.
  - unfold scrape_start; cbn. destruct (timer_guard_new _ s); intros H; inv_res; cbn; auto.
  - unfold retrieve_start, end_timer; cbn. destruct (timer_guard_new _ s); intros H; [|inv_res; reflexivity].
    destruct (negb _); [inv_res; reflexivity|]. destruct (refresh_start now s0); inv_res; reflexivity.
  - unfold reimburse_start; cbn. destruct (timer_guard_new _ s) as [s1|] eqn:E; intros H; [|inv_res; reflexivity].
    unfold reimburse_next, end_timer in H. destruct (reimb_requests (withdrawals s1)) as [|[i q] l] eqn:El;
      inv_res; cbn; auto.
  - unfold refresh_task_start; cbn. destruct (refresh_start now s); intros H; inv_res; reflexivity.
Qed.

(** First segments of update calls *)
Definition call_next (now : N) (u : UserCall) (c c' : Core) (nx : Next) : Prop :=
  match u with
  | CallWithdrawNative p amount recipient =>
      p <> ANONYMOUS /\ exists s, guard_new p (fst c) = ROk s /\
      ((nx = Finish (OutNative (RErr WeInvalidDestination)) /\ c' = on_state (guard_drop p) (s, snd c) /\
        exists e, validate_address_as_destination recipient = RErr e) \/
       exists d, validate_address_as_destination recipient = ROk d /\ amount <= U256_MAX /\
        ((nx = Finish (OutNative (RErr (WeAmountTooLow (native_minimum_withdrawal_amount s)))) /\
          amount < native_minimum_withdrawal_amount s /\ c' = on_state (guard_drop p) (s, snd c)) \/
         (native_minimum_withdrawal_amount s <= amount /\ c' = (s, snd c) /\
          let j := {| nj_caller := p; nj_destination := d; nj_amount := amount;
                      nj_fee := withdrawal_native_fee s;
                      nj_transfer_fee := native_ledger_transfer_fee s;
                      nj_ledger := native_ledger_id s; nj_now := now |} in
          match withdrawal_native_fee s with
          | Some fee => native_ledger_transfer_fee s <= fee /\ nx = Await (TNativeFee j)
          | None => nx = Await (TNativeBurn j)
          end)))
  | CallWithdrawErc20 p amount ledger recipient =>
      p <> ANONYMOUS /\ exists s, guard_new p (fst c) = ROk s /\
      ((exists e, nx = Finish (OutErc20 (RErr e)) /\ c' = on_state (guard_drop p) (s, snd c)) \/
       exists d token, validate_address_as_destination recipient = ROk d /\ amount <= U256_MAX /\
        find_erc20_token_by_ledger_id ledger s = Some token /\
        let j := {| ej_caller := p; ej_destination := d; ej_amount := amount;
                    ej_token := token; ej_transfer_fee := native_ledger_transfer_fee s;
                    ej_native_ledger := native_ledger_id s;
                    ej_tx_fee := 0; ej_fee := None; ej_now := now |} in
        ((exists g t', c' = (s, snd c) /\ nx = Await t' /\ estimated_next now j g s t') \/
         (exists s', refresh_start now s = RefreshWait s' /\ c' = (s', snd c) /\
            nx = Await (TErc20Estimate j))))
  | CallAddToken p a =>
      nx = Finish OutAdded /\ ledger_suite_manager_id (fst c) = Some p /\
      exists t, erc20_token_of a = Some t /\ process_event now (EvAddedErc20Token t) c = Done c'
  | CallRequestScraping b =>
      c' = c /\ exists number time, last_observed_block_number (fst c) = Some number /\
        last_observed_block_time (fst c) = Some time /\
        nx = Finish (OutScraping (if b <=? U256_MAX
                                  then validate_log_scraping_request number time b now
                                  else RErr InvalidBlockNumber))
  end.

Lemma call_after now u c c' nx : call_start now u c = Done (c', nx) -> call_next now u c c' nx.
Proof.
  destruct c as [s log]. destruct u; cbn.
  - unfold withdraw_native_start, end_call; cbn. intros H. inv_res.
    split. { intros ->. rewrite (proj2 (bytes_eqb_eq _ _) eq_refl) in H0. discriminate. }
    destruct (guard_new caller s) as [s1|]; [|discriminate]. exists s1. split; auto.
    destruct (validate_address_as_destination recipient) as [d|e]; [|inv_res; left; eauto].
    right. exists d. split; auto. inv_res. rewrite amount_of_nat_spec in H1.
    destruct (N.leb_spec amount U256_MAX); [|discriminate]. injection H1 as <-. split; auto.
    destruct (N.ltb_spec amount (native_minimum_withdrawal_amount s1)).
    + inv_res. left. auto.
    + right. split; auto. destruct (withdrawal_native_fee s1) as [f|] eqn:Ef.
      * inv_res. split; auto. split; auto. apply checked_sub_some in H3. lia.
      * unfold native_burn_start in H. cbn in H. inv_res. auto.
  - unfold withdraw_erc20_start, end_call; cbn. intros H. inv_res.
    split. { intros ->. rewrite (proj2 (bytes_eqb_eq _ _) eq_refl) in H0. discriminate. }
    destruct (guard_new caller s) as [s1|]; [|discriminate]. exists s1. split; auto.
    destruct (validate_address_as_destination recipient) as [d|e]; [|inv_res; left; eauto].
    inv_res. rewrite amount_of_nat_spec in H1.
    destruct (N.leb_spec amount U256_MAX); [|discriminate]. injection H1 as <-.
    destruct (find_erc20_token_by_ledger_id ledger s1) as [tk|]; [|inv_res; left; eauto].
    destruct (refresh_start now s1) eqn:Er.
    + apply estimated_inv in H as (-> & t' & -> & Hn). right. exists d, tk. repeat split; auto.
      left. exists g, t'. auto.
    + inv_res. left. eauto.
    + inv_res. right. exists d, tk. repeat split; auto. right. eauto.
  - unfold add_erc20_token; cbn. intros H. inv_res. apply bytes_eqb_eq in H1. subst.
    repeat split; eauto.
  - unfold request_scraping_logs; cbn. intros H. inv_res. rewrite amount_of_nat_spec in H.
    destruct (N.leb_spec block U256_MAX); inv_res; split; auto; do 2 eexists; repeat split; eauto.
Qed.

End Next.
