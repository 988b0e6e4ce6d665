(** * Every message segment is a sequence of small changes of the state.

    A segment changes the state by volatile updates, by putting a waiting request at
    the end of the queue, and by processing events. [emits] says which events a callback
    may process; all later invariant proofs work with these small steps only. *)

From Verif Require Import Base BMap MultiKeyMap MultiKeyMapFacts Bytes Types Amount Tx CallData
  Network Hex Transactions State Audit Ranges Rlp Parser Memo Driver Sys WtInv StateEquiv.

(** ** Volatile changes *)

Definition vstep (s s' : State) : Prop :=
  exists v, s' = vol v (pending (withdrawals s)) s.

Lemma set_pending_id w : set_pending (pending w) w = w.
Proof. destruct w; reflexivity. Qed.

Lemma vstep_refl s : vstep s s.
Proof. exists (vol_of s). rewrite vol_id. auto. Qed.
Lemma vstep_trans s1 s2 s3 : vstep s1 s2 -> vstep s2 s3 -> vstep s1 s3.
Proof. intros (v & ->) (v' & ->). exists v'. rewrite vol_vol. reflexivity. Qed.
Lemma vstep_sim s s' : vstep s s' -> sim s s'.
Proof. intros (v & ->). exists v, (pending (withdrawals s)). auto. Qed.

Ltac vstep_tac s :=
  destruct s as [? ? ? ? ? ? ? ? ? ? ? ? ? ? ? ? ? [] ? ? ? ? ? ? ? ? ? ? ? ?];
  cbn; eexists (Build_Vol _ _ _ _ _ _); reflexivity.

Lemma vstep_active x s : vstep s (set_active_tasks x s).
Proof. vstep_tac s. Qed.
Lemma vstep_principals x s : vstep s (set_pending_withdrawal_principals x s).
Proof. vstep_tac s. Qed.
Lemma vstep_scraped x s : vstep s (set_last_scraped_block_number x s).
Proof. vstep_tac s. Qed.
Lemma vstep_obs_number x s : vstep s (set_last_observed_block_number x s).
Proof. vstep_tac s. Qed.
Lemma vstep_obs_time x s : vstep s (set_last_observed_block_time x s).
Proof. vstep_tac s. Qed.
Lemma vstep_price x s : vstep s (set_last_transaction_price_estimate x s).
Proof. vstep_tac s. Qed.

Lemma vstep_timer_new t s s' : timer_guard_new t s = Some s' -> vstep s s'.
Proof.
  unfold timer_guard_new. destruct (bmem t (active_tasks s)); [discriminate|].
  injection 1 as <-. apply vstep_active.
Qed.
Lemma vstep_timer_drop t s : vstep s (timer_guard_drop t s).
Proof. apply vstep_active. Qed.
Lemma vstep_guard_new p s s' : guard_new p s = ROk s' -> vstep s s'.
Proof.
  unfold guard_new. destruct (_ <=? _); [discriminate|]. destruct (bmem _ _); [discriminate|].
  destruct (_ <=? _); [discriminate|]. injection 1 as <-. apply vstep_principals.
Qed.
Lemma vstep_guard_drop t s : vstep s (guard_drop t s).
Proof. apply vstep_principals. Qed.
Lemma vstep_refresh_start now s s' : refresh_start now s = RefreshWait s' -> vstep s s'.
Proof.
  unfold refresh_start. destruct (last_transaction_price_estimate s) as [[ts g]|];
    [destruct (now <? _); [discriminate|]|];
    destruct (timer_guard_new _ s) eqn:E; try discriminate; injection 1 as <-;
    eapply vstep_timer_new; eauto.
Qed.
Lemma vstep_refresh_reply now r s s' o : refresh_reply now r s = (s', o) -> vstep s s'.
Proof.
  unfold refresh_reply. destruct r as [h|].
  - destruct (estimate_transaction_fee _ h); injection 1 as <- <-.
    + eapply vstep_trans; [apply vstep_price|apply vstep_timer_drop].
    + apply vstep_timer_drop.
  - injection 1 as <- <-. apply vstep_timer_drop.
Qed.
Lemma vstep_release l p s : vstep s (release l p s).
Proof.
  unfold release. assert (H : forall s, vstep s (fold_left (fun s t => timer_guard_drop t s) l s)).
  { induction l as [|t l IH]; intros s0; cbn; [apply vstep_refl|].
    eapply vstep_trans; [apply vstep_timer_drop|apply IH]. }
  destruct p; auto. eapply vstep_trans; [apply H|apply vstep_guard_drop].
Qed.

(** ** Small steps *)

Inductive micro (J : State -> EventType -> Prop) (now : N) : Core -> Core -> Prop :=
| MVol s s' log : vstep s s' -> micro J now (s, log) (s', log)
| MEvent s s' log e : J s e -> apply_state_transition s e = Done s' ->
    micro J now (s, log) (s', record_event now e log)
| MQueue s log r w' : In r (pending (withdrawals s)) ->
    reschedule_withdrawal_request r (withdrawals s) = Done w' ->
    micro J now (s, log) (set_withdrawals w' s, log).

Inductive micros (J : State -> EventType -> Prop) (now : N) : Core -> Core -> Prop :=
| MNil c : micros J now c c
| MCons c1 c2 c3 : micro J now c1 c2 -> micros J now c2 c3 -> micros J now c1 c3.

Lemma micros_one (J : State -> EventType -> Prop) now c1 c2 : micro J now c1 c2 -> micros J now c1 c2.
Proof. intros; eapply MCons; eauto. apply MNil. Qed.
Lemma micros_trans (J : State -> EventType -> Prop) now c1 c2 c3 :
  micros J now c1 c2 -> micros J now c2 c3 -> micros J now c1 c3.
Proof. induction 1; auto. intros. eapply MCons; eauto. Qed.
Lemma micros_snoc (J : State -> EventType -> Prop) now c1 c2 c3 :
  micros J now c1 c2 -> micro J now c2 c3 -> micros J now c1 c3.
Proof. intros. eapply micros_trans; eauto. apply micros_one; auto. Qed.
Lemma micros_mono (J J' : State -> EventType -> Prop) now c1 c2 :
  (forall s e, J s e -> J' s e) -> micros J now c1 c2 -> micros J' now c1 c2.
Proof.
  intros HJ. induction 1; [apply MNil|]. eapply MCons; eauto. inversion H; subst; [eapply MVol|eapply MEvent|eapply MQueue]; eauto.
Qed.

Lemma micros_vol (J : State -> EventType -> Prop) now (c : Core) s' log :
  vstep (fst c) s' -> log = snd c -> micros J now c (s', log).
Proof. destruct c; cbn. intros ? ->. apply micros_one, MVol; auto. Qed.
Lemma micros_on_state (J : State -> EventType -> Prop) now (c : Core) f :
  (forall s, vstep s (f s)) -> micros J now c (on_state f c).
Proof. intros. unfold on_state. apply micros_vol; auto. Qed.

Lemma micros_event (J : State -> EventType -> Prop) now e c c' :
  J (fst c) e -> process_event now e c = Done c' -> micros J now c c'.
Proof.
  destruct c as [s log]. unfold process_event. cbn. intros HJ H. inv_res.
  apply micros_one. eapply MEvent; eauto.
Qed.

Lemma process_event_inv now e c c' :
  process_event now e c = Done c' ->
  exists s', apply_state_transition (fst c) e = Done s' /\ c' = (s', record_event now e (snd c)).
Proof. unfold process_event. intros H. inv_res. eauto. Qed.
Lemma on_withdrawals_inv f s s' :
  on_withdrawals f s = Done s' -> exists w', f (withdrawals s) = Done w' /\ s' = set_withdrawals w' s.
Proof. unfold on_withdrawals. intros H. inv_res. eauto. Qed.

(** An invariant argument for small steps *)
Lemma micros_inv (J : State -> EventType -> Prop) now (I : Core -> Prop) :
  (forall c c', I c -> micro J now c c' -> I c') ->
  forall c c', micros J now c c' -> I c -> I c'.
Proof. intros H. induction 1; eauto. Qed.

(** ** Which events a callback may process *)

Definition native_request (j : NativeJob) (b : N) : NativeWithdrawalRequest :=
  {| nw_withdrawal_amount := nj_amount j; nw_destination := nj_destination j;
     nw_ledger_burn_index := b; nw_from := nj_caller j;
     nw_from_subaccount := None; nw_created_at := Some (nj_now j) |}.
Definition erc20_request (j : Erc20Job) (i b : N) : Erc20WithdrawalRequest :=
  {| ew_max_transaction_fee := ej_tx_fee j;
     ew_withdrawal_amount := ej_amount j;
     ew_destination := ej_destination j;
     ew_native_ledger_burn_index := i;
     ew_erc20_contract_address := et_contract_address (ej_token j);
     ew_erc20_ledger_id := et_ledger_id (ej_token j);
     ew_erc20_ledger_burn_index := b;
     ew_from := ej_caller j;
     ew_from_subaccount := None;
     ew_created_at := ej_now j |}.
Definition failed_request (j : Erc20Job) (i : N) (amount : N) : ReimbursementRequest :=
  {| rr_ledger_burn_index := i; rr_reimbursed_amount := amount;
     rr_to := ej_caller j; rr_to_subaccount := None; rr_transaction_hash := None |}.

Section Emits.
Variable keccak : list N -> Hash.

Definition emits (t : Task) (r : Reply) (s : State) (e : EventType) : Prop :=
  match t, r with
  | TMint j, ReLedger (LedgerOk b) =>
      e = minted_event j b /\ is_native (mj_event j) && is_some (mj_fee j) = false
  | TMintFee j b, ReLedger _ => e = minted_event j b
  | TReimburse _ i q _, ReLedger (LedgerOk b) => e = reimbursed_event i q b
  | TScrapeLogs j, ReLogs (LogsOk logs) =>
      exists ds es, parse_all_logs logs = Done (ds, es) /\ In e (register_events ds es)
  | TScrapeLogs j, ReLogs LogsTooLarge =>
      e = EvSkippedBlock (snd (sj_current j)) /\ fst (sj_current j) = snd (sj_current j)
  | TRetrieveCount g, ReCount _ =>
      (exists k b l last t', row_sent (withdrawals s) k b l /\ last_opt l = Some last /\
         resubmit (st_tx (rs_tx last)) (rs_strategy last) g = Done (ROk (Some t')) /\
         e = EvReplacedTransaction b t') \/
      (exists q t', In q (pending (withdrawals s)) /\
         create_transaction q (next_nonce (withdrawals s)) g (estimate_gas_limit q) (evm_network s)
           = Done (ROk t') /\
         e = EvCreatedTransaction (wr_burn_index q) t')
  | TRetrieveSign _ batch, ReSigs _ =>
      exists id t' sg, In (id, t') batch /\ e = EvSignedTransaction id (signed_tx keccak t' sg)
  | TRetrieveReceipts h, ReReceipts l =>
      exists id x, In id (bvals h) /\ In (ReceiptOk x) l /\ e = EvFinalizedTransaction id x
  | TNativeBurn j, ReLedger (LedgerOk b) =>
      e = EvAcceptedNativeWithdrawalRequest (native_request j b)
  | TErc20Burn j i, ReLedger (LedgerOk b) =>
      e = EvAcceptedErc20WithdrawalRequest (erc20_request j i b)
  | TErc20Burn j i, ReLedger _ =>
      exists amount, 0 < amount /\ amount <= ej_tx_fee j /\
        e = EvFailedErc20WithdrawalRequest (failed_request j i amount)
  | _, _ => False
  end.

Lemma block_u64_done b i : block_u64 b = Done i -> i = b /\ b <= U64_MAX.
Proof. unfold block_u64. intros H. inv_res. split; auto. lia. Qed.

Lemma burn_error_done e w : burn_error e = Done w -> w = WeBurn e /\ e <> LeAmountTooLow.
Proof. destruct e; cbn; intros H; inversion H; split; congruence. Qed.

Lemma burn_result_ok r i : burn_result r = Done (ROk i) -> r = LedgerOk i /\ i <= U64_MAX.
Proof.
  destruct r as [b|[]|]; cbn; intros H; try discriminate.
  apply rbind_done in H as (x & H & Hx). injection Hx as <-.
  apply block_u64_done in H as [-> H]. auto.
Qed.
Lemma burn_result_err r e b : burn_result r = Done (RErr e) -> r <> LedgerOk b.
Proof. intros H ->. cbn in H. inv_res. discriminate. Qed.

Lemma mint_next_core fee l es c c' nx : mint_next fee l es c = Done (c', nx) ->
  c' = c \/ c' = on_state (timer_guard_drop TaskMint) c.
Proof.
  unfold mint_next, end_timer. destruct es as [|e es]; intros H; inv_res; [auto|].
  destruct x as [sy le]. inv_res. auto.
Qed.
Lemma micros_mint_next (J : State -> EventType -> Prop) now fee l es c c' nx :
  mint_next fee l es c = Done (c', nx) -> micros J now c c'.
Proof.
  intros H. apply mint_next_core in H as [->| ->]; [apply MNil|].
  apply micros_on_state, vstep_timer_drop.
Qed.

Lemma micros_mint_record (J : State -> EventType -> Prop) now j b c c' nx :
  (forall s, J s (minted_event j b)) -> mint_record now j b c = Done (c', nx) -> micros J now c c'.
Proof.
  unfold mint_record. intros HJ H. inv_res. eapply micros_trans.
  - eapply micros_event; eauto.
  - eapply micros_mint_next; eauto.
Qed.

Lemma micros_end_timer (J : State -> EventType -> Prop) now t c c' nx :
  end_timer t c = Done (c', nx) -> micros J now c c'.
Proof. unfold end_timer. injection 1 as <- <-. apply micros_on_state, vstep_timer_drop. Qed.
Lemma micros_end_call (J : State -> EventType -> Prop) now t o c c' nx :
  end_call t o c = Done (c', nx) -> micros J now c c'.
Proof. unfold end_call. injection 1 as <- <-. apply micros_on_state, vstep_guard_drop. Qed.

Lemma micros_next_chunk (J : State -> EventType -> Prop) now a tp ck c c' nx :
  scrape_next_chunk a tp ck c = Done (c', nx) -> micros J now c c'.
Proof.
  unfold scrape_next_chunk. intros H. inv_res. destruct x as [[r|] ck'].
  - inv_res. apply MNil.
  - eapply micros_end_timer; eauto.
Qed.
Lemma micros_scrape_next (J : State -> EventType -> Prop) now j l c c' nx :
  scrape_next j l c = Done (c', nx) -> micros J now c c'.
Proof.
  unfold scrape_next. destruct l; [apply micros_next_chunk|]. injection 1 as <- <-. apply MNil.
Qed.
Lemma micros_scrape_until (J : State -> EventType -> Prop) now l c c' nx :
  scrape_until_block l c = Done (c', nx) -> micros J now c c'.
Proof. unfold scrape_until_block. intros H. inv_res. eapply micros_next_chunk; eauto. Qed.

Lemma micros_events (J : State -> EventType -> Prop) now es c c' :
  (forall e s, In e es -> J s e) -> process_events now es c = Done c' -> micros J now c c'.
Proof.
  unfold process_events. revert c. induction es as [|e es IH]; cbn; intros c HJ H.
  - inv_res. apply MNil.
  - inv_res. eapply micros_trans.
    + eapply micros_event; eauto.
    + apply IH; auto.
Qed.

Lemma micros_finalize_start (J : State -> EventType -> Prop) now c c' nx :
  finalize_start c = Done (c', nx) -> micros J now c c'.
Proof.
  unfold finalize_start. destruct (mkm_is_empty _); [apply micros_end_timer|].
  injection 1 as <- <-. apply MNil.
Qed.
Lemma micros_send_start (J : State -> EventType -> Prop) now n c c' nx :
  send_start n c = Done (c', nx) -> micros J now c c'.
Proof.
  unfold send_start. destruct n as [n|]; [|apply micros_finalize_start].
  intros H. inv_res. destruct x; [eapply micros_finalize_start; eauto|].
  inv_res. apply MNil.
Qed.
Lemma micros_sign_start (J : State -> EventType -> Prop) now n c c' nx :
  sign_start n c = Done (c', nx) -> micros J now c c'.
Proof.
  unfold sign_start. intros H. inv_res. destruct x; [eapply micros_send_start; eauto|].
  inv_res. apply MNil.
Qed.
Lemma micros_reimburse_next (J : State -> EventType -> Prop) now l c c' nx :
  reimburse_next l c = Done (c', nx) -> micros J now c c'.
Proof.
  unfold reimburse_next. destruct l as [|[i r] l]; [apply micros_end_timer|].
  injection 1 as <- <-. apply MNil.
Qed.
Lemma micros_refund_start (J : State -> EventType -> Prop) now j i e c c' nx :
  erc20_refund_start j i e c = Done (c', nx) -> micros J now c c'.
Proof.
  unfold erc20_refund_start. destruct (ej_fee j); [|apply micros_end_call].
  injection 1 as <- <-. apply MNil.
Qed.
Lemma micros_estimated (J : State -> EventType -> Prop) now j g c c' nx :
  erc20_estimated now j g c = Done (c', nx) -> micros J now c c'.
Proof.
  unfold erc20_estimated, erc20_gas_burn_start.
  destruct (withdrawal_native_fee (fst c)); intros H; inv_res; inv_res; apply MNil.
Qed.

(** *** Resubmissions *)

Lemma mkm_iter_rows {K A V} `{Ord K} `{Ord A} (m : mkm K A V) l k a v :
  mkm_wf m -> mkm_iter m = Done l -> In (k, a, v) l -> row m k a v.
Proof.
  intros Hwf Hl Hin. destruct Hwf as [Hs1 Hs2 _ _ _]. unfold mkm_iter in Hl.
  assert (Hsub : forall ks l, mkm_iter_from ks (by_alt m) = Done l -> In (k, a, v) l ->
    In (k, a) ks /\ bget a (by_alt m) = Some v).
  { induction ks as [|[k0 a0] ks IH]; cbn; intros l0 Hx Hi.
    - inv_res. destruct Hi.
    - inv_res. destruct Hi as [Hi|Hi].
      + injection Hi as <- <- <-. auto.
      + apply IH in Hi as [? ?]; auto. }
  destruct (Hsub _ _ Hl Hin) as [Hk Hv]. split; auto. apply bget_iff_In; auto.
Qed.

Lemma resubmit_loop_events g l out id t :
  resubmit_loop g l = Done out -> In (ROk (id, t)) out ->
  exists k txs last, In (k, id, txs) l /\ last_opt txs = Some last /\
    resubmit (st_tx (rs_tx last)) (rs_strategy last) g = Done (ROk (Some t)).
Proof.
  revert out. induction l as [|[[k b] txs] l IH]; cbn; intros out H Hin.
  - inv_res. destruct Hin.
  - inv_res. destruct x0 as [[t'|]|e].
    + inv_res. destruct Hin as [Hin|Hin].
      * injection Hin as <- <-. eauto 10.
      * destruct (IH _ H2 Hin) as (k' & txs' & last & ? & ? & ?). eauto 10.
    + destruct (IH _ H Hin) as (k' & txs' & last & ? & ? & ?). eauto 10.
    + inv_res. destruct Hin as [Hin|[]]. discriminate.
Qed.

Lemma sent_record_resubmit t w w' : record_resubmit_transaction t w = Done w' -> sent w' = sent w.
Proof.
  unfold record_resubmit_transaction. intros H. inv_res. destruct x. inv_res. reflexivity.
Qed.

Lemma micros_resubmit (J : State -> EventType -> Prop) now g es c c' :
  (forall s k b l last t, row_sent (withdrawals s) k b l -> last_opt l = Some last ->
     resubmit (st_tx (rs_tx last)) (rs_strategy last) g = Done (ROk (Some t)) ->
     J s (EvReplacedTransaction b t)) ->
  (forall e, In e es -> exists k b l last t, row_sent (withdrawals (fst c)) k b l /\
     last_opt l = Some last /\
     resubmit (st_tx (rs_tx last)) (rs_strategy last) g = Done (ROk (Some t)) /\
     e = EvReplacedTransaction b t) ->
  process_events now es c = Done c' -> micros J now c c'.
Proof.
  intros HJ. unfold process_events. revert c. induction es as [|e es IH]; cbn; intros c He H.
  - inv_res. apply MNil.
  - inv_res. destruct (He e (or_introl eq_refl)) as (k & b & l & last & t & Hr & Hl & Hs & ->).
    pose proof H0 as Hp. unfold process_event in Hp. cbn in Hp. unfold on_withdrawals in Hp. inv_res.
    apply sent_record_resubmit in H2.
    eapply micros_trans.
    + eapply micros_event; eauto.
    + apply IH; auto. intros e He'. destruct (He e) as (k' & b' & l' & last' & t' & ? & ? & ? & ?); auto.
      cbn. rewrite H2. eauto 10.
Qed.

Lemma micros_resubmit_batch (J : State -> EventType -> Prop) now n g c c' :
  wt_inv (withdrawals (fst c)) ->
  (forall s k b l last t, row_sent (withdrawals s) k b l -> last_opt l = Some last ->
     resubmit (st_tx (rs_tx last)) (rs_strategy last) g = Done (ROk (Some t)) ->
     J s (EvReplacedTransaction b t)) ->
  resubmit_batch now n g c = Done c' -> micros J now c c'.
Proof.
  intros Hi HJ. unfold resubmit_batch. destruct (mkm_is_empty _); [intros H; inv_res; apply MNil|].
  destruct n as [n|]; [|intros H; inv_res; apply MNil].
  intros H. inv_res. eapply micros_resubmit; eauto.
  intros e He. apply in_flat_map in He as ([[id t]|?] & Hin & He); cbn in He; [|destruct He].
  destruct He as [<-|[]]. unfold create_resubmit_transactions in H0. inv_res.
  destruct (resubmit_loop_events _ _ _ _ _ H0 Hin) as (k & txs & last & Hin' & Hl & Hr).
  apply filter_In in Hin' as [Hin' _].
  exists k, id, txs, last, t. split; auto. eapply mkm_iter_rows; eauto using i_sent.
Qed.

Lemma replaced_events_wt_inv now l c c' :
  wt_inv (withdrawals (fst c)) ->
  (forall e, In e l -> exists id t, e = EvReplacedTransaction id t) ->
  process_events now l c = Done c' -> wt_inv (withdrawals (fst c')).
Proof.
  unfold process_events. revert c. induction l as [|e l IH]; cbn; intros c0 Hc He H.
  - inv_res. auto.
  - inv_res. destruct (He e (or_introl eq_refl)) as (id & t & ->).
    unfold process_event in H0. cbn in H0. unfold on_withdrawals in H0. inv_res.
    eapply IH; [| |exact H]; auto. cbn. eapply inv_record_resubmit; eauto.
Qed.
Lemma resubmit_batch_wt_inv now n g c c' :
  wt_inv (withdrawals (fst c)) -> resubmit_batch now n g c = Done c' ->
  wt_inv (withdrawals (fst c')).
Proof.
  intros Hi H. unfold resubmit_batch in H. destruct (mkm_is_empty _); [inv_res; auto|].
  destruct n as [n|]; [|inv_res; auto]. inv_res. eapply replaced_events_wt_inv; eauto.
  intros e He. apply in_flat_map in He as ([[id t]|?] & _ & He); cbn in He; [|destruct He].
  destruct He as [<-|[]]. eauto.
Qed.

(** *** Creations *)

Lemma create_one_micro (J : State -> EventType -> Prop) now g c r c' :
  (forall s q t, In q (pending (withdrawals s)) ->
     create_transaction q (next_nonce (withdrawals s)) g (estimate_gas_limit q) (evm_network s)
       = Done (ROk t) -> J s (EvCreatedTransaction (wr_burn_index q) t)) ->
  In r (pending (withdrawals (fst c))) -> create_one now g c r = Done c' -> micros J now c c'.
Proof.
  intros HJ Hin H. destruct c as [s log]. unfold create_one in H. cbn in *. inv_res.
  destruct x as [t|e].
  - eapply micros_event; eauto.
  - inv_res. apply micros_one. eapply MQueue; eauto.
Qed.

Lemma create_one_pending now g c r c' q :
  wt_inv (withdrawals (fst c)) -> In r (pending (withdrawals (fst c))) ->
  create_one now g c r = Done c' -> In q (pending (withdrawals (fst c))) -> q <> r ->
  In q (pending (withdrawals (fst c'))).
Proof.
  intros Hi Hin H Hq Hne. destruct c as [s log]. unfold create_one in H. cbn in *. inv_res.
  destruct x as [t|e].
  - apply process_event_inv in H as (s' & H & ->). apply on_withdrawals_inv in H as (w' & H & ->).
    apply record_created_spec in H.
    destruct H as (req & c' & _ & Hr & Hb & _ & _ & _ & _ & _ & _ & _ & Hw). rewrite Hw. cbn.
    assert (req = r).
    { eapply nodup_burn_unique; eauto using i_pend_nodup. }
    subst. apply filter_In. split; auto. apply negb_true_iff.
    destruct (wr_eqb q r) eqn:E; auto. apply wr_eqb_eq in E. congruence.
  - inv_res. cbn. unfold reschedule_withdrawal_request in H1. inv_res.
    apply record_withdrawal_request_spec in H1 as (_ & _ & _ & _ & ->). cbn.
    apply in_app_iff. left. apply filter_In. split; auto. apply negb_true_iff.
    destruct (wr_eqb q r) eqn:E; auto. apply wr_eqb_eq in E. congruence.
Qed.

Lemma create_one_wt_inv now g c r c' :
  wt_inv (withdrawals (fst c)) -> In r (pending (withdrawals (fst c))) ->
  create_one now g c r = Done c' -> wt_inv (withdrawals (fst c')).
Proof.
  intros Hi Hin H. destruct c as [s log]. unfold create_one in H. cbn in *. inv_res.
  destruct x as [t|e].
  - apply process_event_inv in H as (s' & H & ->). apply on_withdrawals_inv in H as (w' & H & ->).
    cbn. eapply inv_record_created; eauto.
  - inv_res. cbn. eapply inv_reschedule; eauto.
Qed.

Lemma micros_create_list (J : State -> EventType -> Prop) now g l c c' :
  (forall s q t, In q (pending (withdrawals s)) ->
     create_transaction q (next_nonce (withdrawals s)) g (estimate_gas_limit q) (evm_network s)
       = Done (ROk t) -> J s (EvCreatedTransaction (wr_burn_index q) t)) ->
  wt_inv (withdrawals (fst c)) -> NoDup l ->
  (forall r, In r l -> In r (pending (withdrawals (fst c)))) ->
  rfold (create_one now g) c l = Done c' ->
  micros J now c c' /\ wt_inv (withdrawals (fst c')).
Proof.
  intros HJ. revert c. induction l as [|r l IH]; cbn; intros c Hi Hnd Hin H.
  - inv_res. split; auto. apply MNil.
  - apply rbind_done in H as (c1 & H1 & H). apply NoDup_cons_iff in Hnd as [Hr Hnd].
    assert (Hi1 : wt_inv (withdrawals (fst c1))) by eauto using create_one_wt_inv.
    destruct (IH c1 Hi1 Hnd) as [Hm Hi']; auto.
    + intros q Hq. apply (create_one_pending now g c r c1 q); auto. congruence.
    + split; auto. eapply micros_trans; eauto. eapply create_one_micro; eauto.
Qed.

Lemma batch_incl n w r : In r (withdrawal_requests_batch n w) -> In r (pending w).
Proof.
  unfold withdrawal_requests_batch. generalize (N.to_nat (N.min (MAX_NUM_PENDING_TRANSACTION_NONCES - N.of_nat (List.length (pending_nonces w))) n)).
  intros k Hin. rewrite <- (firstn_skipn k (pending w)). apply in_app_iff. auto.
Qed.
Lemma nodup_firstn {A} n (l : list A) : NoDup l -> NoDup (firstn n l).
Proof.
  revert n. induction l as [|a l IH]; intros [|n] H; cbn; try constructor;
    apply NoDup_cons_iff in H as [H1 H2]; auto.
  intros Hc. apply H1. rewrite <- (firstn_skipn n l). apply in_app_iff. auto.
Qed.

Lemma micros_create_batch (J : State -> EventType -> Prop) now g c c' :
  (forall s q t, In q (pending (withdrawals s)) ->
     create_transaction q (next_nonce (withdrawals s)) g (estimate_gas_limit q) (evm_network s)
       = Done (ROk t) -> J s (EvCreatedTransaction (wr_burn_index q) t)) ->
  wt_inv (withdrawals (fst c)) -> create_batch now g c = Done c' ->
  micros J now c c' /\ wt_inv (withdrawals (fst c')).
Proof.
  intros HJ Hi H. eapply micros_create_list in H; eauto.
  - apply nodup_firstn. eapply NoDup_map_inv. apply i_pend_nodup; auto.
  - intros r. apply batch_incl.
Qed.

(** *** Signatures and receipts *)

Lemma signed_events_in batch sigs e :
  In e (signed_events keccak batch sigs) ->
  exists id t sg, In (id, t) batch /\ e = EvSignedTransaction id (signed_tx keccak t sg).
Proof.
  revert sigs. induction batch as [|[id t] batch IH]; cbn; intros sigs Hin; [destruct Hin|].
  destruct sigs as [|[sg|] sigs]; [destruct Hin| |].
  - destruct Hin as [<-|Hin]; [eauto 10|]. destruct (IH _ Hin) as (id' & t' & sg' & ? & ?). eauto 10.
  - destruct (IH _ Hin) as (id' & t' & sg' & ? & ?). eauto 10.
Qed.

Lemma in_binsert {K V} `{Ord K} (k k' : K) (v v' : V) m :
  In (k', v') (binsert k v m) -> (k' = k /\ v' = v) \/ In (k', v') m.
Proof.
  induction m as [|[k0 v0] m IH]; cbn.
  - intros [Hi|[]]. injection Hi as <- <-. auto.
  - destruct (cmp k k0); cbn; intros [Hi|Hi]; auto;
      try (injection Hi as <- <-; auto).
    destruct (IH Hi) as [?|?]; auto.
Qed.

Lemma collect_receipts_in hs rs acc out id x :
  collect_receipts hs rs acc = Some out -> In (id, x) out ->
  In (id, x) acc \/ (In id (map snd hs) /\ In (ReceiptOk x) rs).
Proof.
  revert rs acc. induction hs as [|[h i] hs IH]; cbn; intros rs acc H Hin.
  - injection H as <-. auto.
  - destruct rs as [|r rs]; [injection H as <-; auto|]. destruct r as [y| |].
    + destruct (bmem i acc); [discriminate|]. apply IH in H as [H|[H1 H2]]; auto.
      * apply in_binsert in H as [[-> ->]|H]; auto. right. split; [left|left]; auto.
      * right. split; right; auto.
    + apply IH in H as [H|[H1 H2]]; auto. right. split; right; auto.
    + discriminate.
Qed.

(** ** The decomposition *)

(** [wt_inv] is needed for the function that creates transactions only. *)
Lemma resume_micros_gen now t r c c' nx :
  ((exists g, t = TRetrieveCount g) -> wt_inv (withdrawals (fst c))) ->
  resume keccak now t r c = Done (c', nx) -> micros (emits t r) now c c'.
Proof.
  intros Hi H. destruct t, r; cbn in H; try discriminate.
  - (* TMint *)
    unfold mint_reply in H. destruct r as [b|e|].
    + inv_res. apply block_u64_done in H0 as [-> _].
      destruct (is_native (mj_event j) && is_some (mj_fee j)) eqn:E.
      * inv_res. apply MNil.
      * eapply micros_mint_record; eauto. cbn. auto.
    + eapply micros_mint_next; eauto.
    + eapply micros_mint_next; eauto.
  - eapply micros_mint_record; eauto. cbn. auto.
  - (* TReimburse *)
    unfold reimburse_reply in H. destruct r as [b|e|].
    + inv_res. apply block_u64_done in H0 as [-> _]. eapply micros_trans.
      * eapply micros_event; eauto. cbn. auto.
      * eapply micros_reimburse_next; eauto.
    + eapply micros_reimburse_next; eauto.
    + eapply micros_reimburse_next; eauto.
  - (* TScrapeBlock *)
    unfold scrape_block_reply in H.
    set (c1 := match r with Some n => _ | None => c end) in H.
    assert (Hm : micros (emits (TScrapeBlock attempts) (ReBlock r)) now c c1).
    { destruct r; [|apply MNil]. apply micros_vol; auto. apply vstep_obs_number. }
    eapply micros_trans; [exact Hm|].
    destruct (last_observed_block_number (fst c1)).
    + eapply micros_scrape_until; eauto.
    + destruct (MAX_ATTEMPTS <=? attempts + 1).
      * eapply micros_end_timer; eauto.
      * inv_res. apply MNil.
  - (* TScrapeLogs *)
    unfold scrape_logs_reply in H. destruct (sj_current j) as [f to] eqn:Ej. destruct r as [logs| |].
    + inv_res. destruct x as [ds es]. inv_res. eapply micros_trans; [|eapply micros_trans].
      * eapply micros_events; eauto. cbn. eauto.
      * apply micros_on_state. intros. apply vstep_scraped with (x := to).
      * eapply micros_scrape_next; eauto.
    + destruct (N.eqb_spec f to) as [->|Hf].
      * inv_res. eapply micros_trans; [|eapply micros_trans].
        -- eapply micros_event; eauto. cbn. rewrite Ej. auto.
        -- apply micros_on_state. intros. apply vstep_scraped with (x := to).
        -- eapply micros_scrape_next; eauto.
      * inv_res. eapply micros_scrape_next; eauto.
    + eapply micros_end_timer; eauto.
  - (* TRetrieveFee *)
    unfold retrieve_fee_reply in H. destruct (refresh_reply now r (fst c)) as [s o] eqn:E.
    apply vstep_refresh_reply in E. destruct o.
    + inv_res. apply micros_vol; auto.
    + eapply micros_trans; [|eapply micros_end_timer; eauto]. apply micros_vol; auto.
  - (* TRetrieveCount *)
    unfold retrieve_count_reply in H. specialize (Hi (ex_intro _ g eq_refl)). inv_res.
    assert (Hm1 : micros (emits (TRetrieveCount g) (ReCount r)) now c x).
    { eapply micros_resubmit_batch; eauto. cbn. intros. left. eauto 10. }
    assert (Hi1 : wt_inv (withdrawals (fst x))).
    { eapply resubmit_batch_wt_inv; eauto. }
    destruct (micros_create_batch (emits (TRetrieveCount g) (ReCount r)) now g x x0) as [Hm2 _]; auto.
    { cbn. intros. right. eauto 10. }
    eapply micros_trans; [exact Hm1|]. eapply micros_trans; [exact Hm2|].
    eapply micros_sign_start; eauto.
  - (* TRetrieveSign *)
    unfold retrieve_sign_reply in H. inv_res. eapply micros_trans.
    + eapply micros_events; eauto. intros e s He. cbn. apply signed_events_in in He. auto.
    + eapply micros_send_start; eauto.
  - eapply micros_finalize_start; eauto.
  - (* TRetrieveFinalizedCount *)
    unfold retrieve_finalized_count_reply in H. destruct r; [|eapply micros_end_timer; eauto].
    inv_res. destruct x; [eapply micros_end_timer; eauto|]. inv_res. apply MNil.
  - (* TRetrieveReceipts *)
    unfold retrieve_receipts_reply in H. destruct (collect_receipts hashes l []) as [rs|] eqn:E;
      [|eapply micros_end_timer; eauto].
    inv_res. eapply micros_trans; [|eapply micros_end_timer; eauto].
    eapply micros_events; eauto. intros e s He. apply in_map_iff in He as ([id y] & <- & Hin).
    apply collect_receipts_in with (1 := E) in Hin as [[]|[Hin1 Hin2]]. cbn. exists id, y. auto.
  - (* TNativeFee *)
    unfold native_fee_reply in H. inv_res. destruct x.
    + inv_res. unfold native_burn_start in H. inv_res. apply MNil.
    + eapply micros_end_call; eauto.
  - (* TNativeBurn *)
    unfold native_burn_reply in H. inv_res. destruct x as [i|e].
    + inv_res. eapply micros_trans; [|eapply micros_end_call; eauto].
      eapply micros_event; eauto. apply burn_result_ok in H0 as [-> _]. cbn. reflexivity.
    + destruct (nj_fee j); [|inv_res; eapply micros_end_call; eauto]. inv_res. apply MNil.
  - (* TNativeRefund *)
    unfold native_refund_reply in H. inv_res. eapply micros_end_call; eauto.
  - (* TErc20Estimate *)
    unfold erc20_estimate_reply in H. destruct (refresh_reply now r (fst c)) as [s o] eqn:E.
    apply vstep_refresh_reply in E. eapply micros_trans; [apply micros_vol; [exact E|reflexivity]|].
    destruct o; [eapply micros_estimated|eapply micros_end_call]; eauto.
  - (* TErc20Fee *)
    unfold erc20_fee_reply in H. inv_res. destruct x; [|eapply micros_end_call; eauto].
    unfold erc20_gas_burn_start in H. inv_res. apply MNil.
  - (* TErc20GasBurn *)
    unfold erc20_gas_burn_reply in H. inv_res. destruct x; [|eapply micros_refund_start; eauto].
    inv_res. apply MNil.
  - (* TErc20Burn *)
    unfold erc20_burn_reply in H. inv_res. destruct x as [i|e].
    + inv_res. eapply micros_trans; [|eapply micros_end_call; eauto].
      eapply micros_event; eauto. apply burn_result_ok in H0 as [-> _]. cbn. reflexivity.
    + inv_res. eapply micros_trans; [|eapply micros_refund_start; eauto].
      destruct (0 <? failed_burn_reimbursement j e) eqn:E.
      * eapply micros_event; eauto.
        assert (Hr : forall b, r <> LedgerOk b).
        { intros b. eapply burn_result_err; eauto. }
        assert (Hle : failed_burn_reimbursement j e <= ej_tx_fee j).
        { unfold failed_burn_reimbursement. destruct e; try lia;
            destruct (checked_sub _ _) eqn:Es; try lia; apply checked_sub_some in Es; lia. }
        destruct r as [b|[]|]; [exfalso; eapply Hr; eauto|..]; cbn; eexists; (split; [|split]);
          [ | |reflexivity| | |reflexivity| | |reflexivity| | |reflexivity| | |reflexivity
          | | |reflexivity| | |reflexivity| | |reflexivity| | |reflexivity| | |reflexivity]; lia.
      * inv_res. apply MNil.
  - (* TErc20Refund *)
    unfold erc20_refund_reply in H. inv_res. eapply micros_end_call; eauto.
  - (* TRefresh *)
    inv_res. destruct (refresh_reply now r (fst c)) as [s o] eqn:E.
    apply vstep_refresh_reply in E. cbn. apply micros_vol; auto.
Qed.

Lemma resume_micros now t r c c' nx :
  wt_inv (withdrawals (fst c)) ->
  resume keccak now t r c = Done (c', nx) -> micros (emits t r) now c c'.
Proof. intros Hi. apply resume_micros_gen. auto. Qed.

(** Timers change only volatile fields in their first segment *)
Lemma timer_micros now k c c' nx :
  timer_start now k c = Done (c', nx) -> vstep (fst c) (fst c') /\ snd c' = snd c.
Proof.
  destruct c as [s log]. destruct k; cbn.
  - unfold mint_start; cbn. destruct (timer_guard_new _ s) eqn:E.
    + intros H. apply mint_next_core in H. apply vstep_timer_new in E.
      destruct H as [->| ->]; cbn; split; auto. eapply vstep_trans; eauto. apply vstep_timer_drop.
    + intros H. inv_res. split; auto. apply vstep_refl.
  - unfold scrape_start; cbn. destruct (timer_guard_new _ s) eqn:E; intros H; inv_res;
      split; auto; [|apply vstep_refl]. apply vstep_timer_new in E.
    eapply vstep_trans; eauto. apply vstep_obs_time.
  - unfold retrieve_start, end_timer; cbn. destruct (timer_guard_new _ s) eqn:E.
    + apply vstep_timer_new in E. destruct (negb _).
      * intros H; inv_res. split; auto. eapply vstep_trans; eauto. apply vstep_timer_drop.
      * destruct (refresh_start now s0) eqn:Er; intros H; inv_res; cbn; split; auto.
        -- eapply vstep_trans; eauto. apply vstep_timer_drop.
        -- eapply vstep_trans; eauto. eapply vstep_refresh_start; eauto.
    + intros H; inv_res. split; auto. apply vstep_refl.
  - unfold reimburse_start; cbn. destruct (timer_guard_new _ s) eqn:E.
    + apply vstep_timer_new in E. unfold reimburse_next, end_timer.
      destruct (reimb_requests (withdrawals s0)) as [|[i q] l]; intros H; inv_res;
        cbn; split; auto. eapply vstep_trans; eauto. apply vstep_timer_drop.
    + intros H; inv_res. split; auto. apply vstep_refl.
  - unfold refresh_task_start; cbn. destruct (refresh_start now s) eqn:E; intros H;
      inv_res; split; auto; try apply vstep_refl. eapply vstep_refresh_start; eauto.
Qed.

(** The first segment of an update call changes volatile fields only, except that
    [add_erc20_token] processes one event *)
Definition call_emits (u : UserCall) (s : State) (e : EventType) : Prop :=
  match u with
  | CallAddToken p a =>
      ledger_suite_manager_id s = Some p /\
      exists t, erc20_token_of a = Some t /\ e = EvAddedErc20Token t
  | _ => False
  end.

Lemma call_micros now u c c' nx :
  call_start now u c = Done (c', nx) -> micros (call_emits u) now c c'.
Proof.
  destruct c as [s log]. destruct u; cbn.
  - unfold withdraw_native_start; cbn. intros H. inv_res.
    destruct (guard_new caller s) as [s1|] eqn:E; [|discriminate]. apply vstep_guard_new in E.
    eapply micros_trans; [apply micros_vol; [exact E|reflexivity]|]. cbn.
    destruct (validate_address_as_destination recipient); [|eapply micros_end_call; eauto].
    inv_res. destruct (x0 <? _); [eapply micros_end_call; eauto|].
    destruct (withdrawal_native_fee s1); inv_res; [inv_res; apply MNil|].
    unfold native_burn_start in H. inv_res; apply MNil.
  - unfold withdraw_erc20_start; cbn. intros H. inv_res.
    destruct (guard_new caller s) as [s1|] eqn:E; [|discriminate]. apply vstep_guard_new in E.
    eapply micros_trans; [apply micros_vol; [exact E|reflexivity]|]. cbn.
    destruct (validate_address_as_destination recipient); [|eapply micros_end_call; eauto].
    inv_res. destruct (find_erc20_token_by_ledger_id ledger s1).
    + destruct (refresh_start now s1) eqn:Er.
      * eapply micros_estimated; eauto.
      * eapply micros_end_call; eauto.
      * inv_res. apply micros_vol; auto. eapply vstep_refresh_start; eauto.
    + inv_res. eapply micros_end_call; eauto.
  - unfold add_erc20_token; cbn. intros H. inv_res. inv_res.
    eapply micros_event; eauto. cbn. rewrite H0. split; eauto.
    apply bytes_eqb_eq in H1. congruence.
  - unfold request_scraping_logs; cbn. intros H. inv_res.
    destruct (amount_of_nat block); inv_res; apply MNil.
Qed.

(** Dropping a suspended function *)
Lemma cleanup_micros now t c :
  exists c', cleanup now t c = Done c' /\
    micros (fun _ e => In e (task_quarantine t)) now c c'.
Proof.
  unfold cleanup.
  assert (H : exists c1, process_events now (task_quarantine t) c = Done c1).
  { destruct t; cbn; eauto; destruct c; cbn; eauto. }
  destruct H as [c1 H]. rewrite H. cbn. eexists. split; [reflexivity|].
  eapply micros_trans.
  - eapply micros_events; [|exact H]. auto.
  - apply micros_on_state. intros. apply vstep_release.
Qed.

End Emits.
