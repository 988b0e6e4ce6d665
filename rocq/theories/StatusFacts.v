(** * Proofs about the status of withdrawals (C23). *)

From Verif Require Import Base BMap MultiKeyMap MultiKeyMapFacts Bytes Types Amount ArithFacts Tx CallData
  Network Hex Transactions State Audit Ranges Rlp Parser Memo Driver Sys SysSpec WtInv StateEquiv
  TxSpec WtContent Segments Tasks SysFacts CoreInv Lifting WithdrawSpec WithdrawFacts StageFacts
  GuardSpec Guards GuardFacts WeakSteps LogFacts UpgradeFacts DepositSpec Deposits MintFacts TokenSpec TokenFacts
  ReimburseSpec ReimburseFacts BurnSpec BurnFacts RecordSpec RecordFacts BalanceSpec BalanceFacts SolvencySpec
  SolvencyFacts FinalizeSpec FinalizeFacts Queries StatusSpec.

(** ** Repayments and quarantines are recorded *)

Definition repay_event (i : ReimbursementIndex) (d : Reimbursed) : EventType :=
  match i with
  | RINative _ => EvReimbursedNativeWithdrawal d
  | RIErc20 b l _ => EvReimbursedErc20Withdrawal b l d
  end.
Definition recorded (h : list EventType) (i : ReimbursementIndex) (d : Reimbursed) : Prop :=
  In (repay_event i d) h /\ rd_burn_in_block d = ri_burn_in_block i.
Record paid_log (s : State) (h : list EventType) : Prop := {
  pl_repaid : forall i d, repaid s i d <-> recorded h i d;
  pl_quarantined : forall i, quarantined s i <-> In (EvQuarantinedReimbursement i) h
}.

Lemma repay_not e i d : no_repay e = true -> e <> repay_event i d.
Proof. intros H ->. destruct i; discriminate. Qed.

Lemma paid_frame s s' h es : paid_log s h -> (forall i, rdf s' i = rdf s i) ->
  (forall e, In e es -> no_repay e = true) -> paid_log s' (h ++ es).
Proof.
  intros [A B] Hr He. constructor.
  - intros i d. unfold repaid. change (bget i (reimbursed (withdrawals s'))) with (rdf s' i). rewrite Hr.
    change (rdf s i = Some (ReimbursedOk d)) with (repaid s i d). rewrite A. unfold recorded. split; intros [H1 H2]; split; auto.
    + apply in_or_app; auto.
    + apply in_app_or in H1 as [H1|H1]; auto. apply He in H1. destruct i; discriminate.
  - intros i. unfold quarantined. change (bget i (reimbursed (withdrawals s'))) with (rdf s' i). rewrite Hr.
    change (rdf s i = Some ReimbursedQuarantined) with (quarantined s i). rewrite B. split; intros H.
    + apply in_or_app; auto.
    + apply in_app_or in H as [H|H]; auto. apply He in H. discriminate.
Qed.

Section Paid.
Variable self : Principal.
Variable keccak : list N -> Hash.

Lemma repay_index i d i' d' : repay_event i d = repay_event i' d' -> rd_burn_in_block d = ri_burn_in_block i ->
  rd_burn_in_block d' = ri_burn_in_block i' -> i = i' /\ d = d'.
Proof.
  destruct i, i'; cbn; intros H H1 H2; try discriminate.
  - injection H as ->. split; auto. congruence.
  - injection H as -> -> ->. split; auto. congruence.
Qed.

Lemma paid_trans s l s' : rknown keccak s -> pays_ok s -> paid_log (sys_state s) (history (sys_log s)) ->
  Trans self keccak s l s' -> paid_log (sys_state s') (history (sys_log s')).
Proof.
  intros (Hi & Hg & Hcore & Hh) Hm HP H.
  pose proof Hcore as [Hwt _ Hrep]. change (fst (sys_core s)) with (sys_state s) in Hwt.
  destruct H as [|k now c nx Hc H|u now c nx Hc H|k now Hc|u now Hc|id t c b Hget Hcall Hallow
    |id t r Hget Hfit Hno|id now t r c nx Hc Hget H|id trap now t r c Hc Hget Hp H|a now c Hc Ht H]; auto.
  - (* a timer *)
    apply timer_micros in H as [Hv Hl]. unfold sys_state, sys_log. cbn. rewrite install_core. cbn.
    rewrite Hl. rewrite <- (app_nil_r (history _)). eapply paid_frame; [exact HP| |intros e []].
    destruct (rkeep_sim _ _ (vstep_sim _ _ Hv)) as (_ & K & _). exact K.
  - (* a call *)
    assert (Hk : wmicros (fun e => exists st, call_emits u st e) now (sys_core s) c).
    { eapply micros_weak; [|eapply call_micros; eauto]. eauto. }
    assert (Hj : forall e, (exists st, call_emits u st e) -> no_repay e = true).
    { intros e (st & He). destruct u, e; cbn in *; auto; try contradiction; decompose [ex and] He; discriminate. }
    unfold sys_state, sys_log. cbn. rewrite install_core. cbn.
    pose proof (rkeep_micros _ _ _ _ Hj Hk) as (_ & K & _). apply wmicros_logs in Hk as [(es & Hes & Hes') _].
    rewrite Hes. eapply paid_frame; [exact HP|exact K|auto].
  - (* a callback *)
    destruct (reimbursing_dec t) as [(l & i & q & rest & ->)|Hn].
    + assert (Hj : rjob_ok (sys_state s) l i q rest).
      { apply (po_job _ Hm). exists id. eexists. split; [exact Hget|reflexivity]. }
      assert (Ho : owing (sys_state s) i q) by (apply Hj; left; auto).
      assert (Hb : rr_ledger_burn_index q = ri_burn_in_block i).
      { eapply owed_burn. apply (rh_owed _ Hh). exact Ho. }
      destruct r; cbn in H; try discriminate. unfold reimburse_reply in H.
      unfold sys_state, sys_log. rewrite install_core. cbn.
      assert (Hskip : reimburse_next rest (sys_core s) = Done (c, nx) -> paid_log (fst c) (history (snd c))).
      { intros Hx. destruct (reimburse_next_keep _ _ _ _ Hx) as [(K1 & K2 & K3) Hlog]. rewrite Hlog.
        rewrite <- (app_nil_r (history _)). eapply paid_frame; [exact HP|exact K2|intros e []]. }
      destruct r as [b|e|]; [|exact (Hskip H)|exact (Hskip H)].
      clear Hskip. apply rbind_done in H as (b' & Hbb & H). apply block_u64_done in Hbb as [-> Hbb].
      apply rbind_done in H as (c1 & H1 & H2). pose proof (process_history _ _ _ _ H1) as [Hl _].
      apply process_event_inv in H1 as (st1 & H1 & ->).
      apply reimbursed_event_apply in H1 as (Hrd & (d & D1 & D2 & D3 & D4 & D5) & R1 & R2 & R3); auto.
      change (fst (sys_core s)) with (sys_state s) in *.
      destruct (reimburse_next_keep _ _ _ _ H2) as [(K1 & K2 & K3) Hlog]. cbn [fst snd] in *.
      rewrite Hlog. cbn [snd] in Hl. rewrite Hl. change (snd (sys_core s)) with (sys_log s).
      assert (He : reimbursed_event i q b = repay_event i d).
      { unfold reimbursed_event, repay_event. destruct d; cbn in *; subst. destruct i; reflexivity. }
      rewrite He. destruct HP as [A B]. constructor.
      * intros k v. unfold repaid. change (bget k (reimbursed (withdrawals (fst c)))) with (rdf (fst c) k). rewrite K2.
        destruct (key_dec k i) as [->|Hk].
        -- rewrite D1. split.
           ++ intros E. injection E as <-. split; [apply in_or_app; right; left; auto|congruence].
           ++ intros [E1 E2]. apply in_app_or in E1 as [E1|[E1|[]]].
              ** assert (Hx : repaid (sys_state s) i v) by (apply A; split; auto). unfold repaid in Hx. unfold rdf in Hrd. congruence.
              ** apply repay_index in E1 as [_ ->]; auto. congruence.
        -- rewrite R1 by auto. change (rdf (sys_state s) k = Some (ReimbursedOk v)) with (repaid (sys_state s) k v). rewrite A.
           split; intros [E1 E2]; split; auto; [apply in_or_app; auto|].
           apply in_app_or in E1 as [E1|[E1|[]]]; auto. apply repay_index in E1 as [E _]; [|congruence|auto]. congruence.
      * intros k. unfold quarantined. change (bget k (reimbursed (withdrawals (fst c)))) with (rdf (fst c) k). rewrite K2.
        destruct (key_dec k i) as [->|Hk].
        -- rewrite D1. split; [discriminate|]. intros E. apply in_app_or in E as [E|[E|[]]]; [|destruct i; discriminate].
           apply B in E. unfold quarantined in E. unfold rdf in Hrd. congruence.
        -- rewrite R1 by auto. change (rdf (sys_state s) k = Some ReimbursedQuarantined) with (quarantined (sys_state s) k). rewrite B.
           split; intros E; [apply in_or_app; auto|]. apply in_app_or in E as [E|[E|[]]]; auto. destruct i; discriminate.
    + unfold sys_state, sys_log. rewrite install_core. cbn. apply resume_wmicros in H.
      assert (Hj : forall e, wemits keccak t r e -> no_repay e = true) by (intros e; apply emits_no_repay; auto).
      pose proof (rkeep_micros _ _ _ _ Hj H) as (_ & K & _). apply wmicros_logs in H as [(es & Hes & Hes') _].
      rewrite Hes. eapply paid_frame; [exact HP|exact K|auto].
  - (* a trap *)
    unfold sys_state, sys_log. rewrite install_core. cbn.
    destruct (reimbursing_dec t) as [(l & i & q & rest & ->)|Hn].
    + assert (Hj : rjob_ok (sys_state s) l i q rest).
      { apply (po_job _ Hm). exists id. eexists. split; [exact Hget|reflexivity]. }
      assert (Ho : owing (sys_state s) i q) by (apply Hj; left; auto).
      assert (Hrd : rdf (sys_state s) i = None).
      { apply (i_rq_rd _ Hwt). unfold dom. unfold owing in Ho. rewrite Ho. discriminate. }
      unfold cleanup in H. cbn [task_quarantine process_events fold_left] in H.
      assert (Hx : exists s1, apply_state_transition (sys_state s) (EvQuarantinedReimbursement i) = Done s1 /\
        rkeep s1 (fst c) /\ history (snd c) = history (sys_log s) ++ [EvQuarantinedReimbursement i]).
      { cbn in H. unfold process_event in H. cbn in H. inv_res. eexists. split; [reflexivity|]. split.
        - cbn. split; [|split]; auto.
        - cbn. apply history_snoc. }
      destruct Hx as (s1 & H1 & (_ & K2 & K3) & Hl). apply quarantine_apply in H1 as (R1 & R2 & R3).
      rewrite Hl. destruct HP as [A B]. constructor.
      * intros k v. unfold repaid. change (bget k (reimbursed (withdrawals (fst c)))) with (rdf (fst c) k). rewrite K2.
        destruct (key_dec k i) as [->|Hk].
        -- rewrite R1. split; [discriminate|]. intros [E1 E2]. apply in_app_or in E1 as [E1|[E1|[]]]; [|destruct i; discriminate].
           assert (Hx : repaid (sys_state s) i v) by (apply A; split; auto). unfold repaid in Hx. unfold rdf in Hrd. congruence.
        -- rewrite R2 by auto. change (rdf (sys_state s) k = Some (ReimbursedOk v)) with (repaid (sys_state s) k v). rewrite A.
           split; intros [E1 E2]; split; auto; [apply in_or_app; auto|].
           apply in_app_or in E1 as [E1|[E1|[]]]; auto. destruct k; discriminate.
      * intros k. unfold quarantined. change (bget k (reimbursed (withdrawals (fst c)))) with (rdf (fst c) k). rewrite K2.
        destruct (key_dec k i) as [->|Hk].
        -- rewrite R1. split; auto. intros _. apply in_or_app. right. left. auto.
        -- rewrite R2 by auto. change (rdf (sys_state s) k = Some ReimbursedQuarantined) with (quarantined (sys_state s) k). rewrite B.
           split; intros E; [apply in_or_app; auto|]. apply in_app_or in E as [E|[E|[]]]; auto. congruence.
    + destruct (cleanup_micros now t (sys_core s)) as (c' & Hc' & Hmm). assert (c' = c) by congruence. subst c'.
      assert (Hw : wmicros (fun e => In e (task_quarantine t)) now (sys_core s) c).
      { eapply micros_weak; [|exact Hmm]; intros s0 e He; exact He. }
      assert (Hj : forall e, In e (task_quarantine t) -> no_repay e = true).
      { intros e He. destruct t; cbn in He; try contradiction; destruct He as [<-|[]]; auto.
        destruct Hn. unfold reimbursing; eauto 6. }
      pose proof (rkeep_micros _ _ _ _ Hj Hw) as (_ & K & _). apply wmicros_logs in Hw as [(es & Hes & Hes') _].
      rewrite Hes. eapply paid_frame; [exact HP|exact K|auto].
  - (* an upgrade *)
    assert (Hx : exists es, history (snd c) = history (sys_log s) ++ es /\ rkeep (sys_state s) (fst c) /\
      forall e, In e es -> no_repay e = true).
    { destruct (canister_upgrade_inv _ _ _ _ Hrep H) as (st & _ & Hs & _ & Ha). change (fst (sys_core s)) with (sys_state s) in Hs.
      apply sim_sym, rkeep_sim in Hs. destruct a as [x|].
      - destruct Ha as (st' & Ha & ->). cbn. unfold record_event, pre_upgrade, history. unfold record_event. rewrite !map_app. cbn.
        eexists. rewrite <- app_assoc. split; [reflexivity|]. split.
        + eapply rkeep_trans; [exact Hs|]. eapply rkeep_event; [|exact Ha]. reflexivity.
        + intros e [<-|[<-|[]]]; reflexivity.
      - rewrite Ha. cbn. unfold pre_upgrade, record_event, history. rewrite map_app. cbn. eexists. split; [reflexivity|].
        split; auto. intros e [<-|[]]; reflexivity. }
    destruct Hx as (es & Hes & (_ & K & _) & He). unfold sys_state, sys_log. cbn. rewrite Hes.
    eapply paid_frame; [exact HP|exact K|exact He].
Qed.

Variable env : Sys -> Label -> Prop.
Hypothesis Henv : forall s l, env s l -> nonce_kept s l.

Lemma paid_reach s : reach self keccak env s -> paid_log (sys_state s) (history (sys_log s)).
Proof.
  apply (reach_inv2 self keccak env (fun s => rknown keccak s /\ pays_ok s) (fun s => paid_log (sys_state s) (history (sys_log s)))).
  - intros s0 Hr. split; [eapply rknown_reach; eauto|eapply pays_reach; eauto].
  - intros now a s0 H. apply sys_init_inv in H as (st & Hst & Hc & _). unfold sys_state, sys_log. rewrite Hc. cbn.
    assert (Hw : withdrawals st = wt_new (ia_next_transaction_nonce a)).
    { apply state_of_init_spec in Hst as (_ & h & _ & -> & _). reflexivity. }
    constructor; unfold repaid, quarantined, recorded; rewrite Hw; cbn; intros.
    + split; [discriminate|]. intros [[E|[]] _]. destruct i; discriminate.
    + split; [discriminate|]. intros [E|[]]. discriminate.
  - intros s0 l s' [K1 K2] _ HI _ HT. eapply paid_trans; eauto.
Qed.
End Paid.

(** ** The status function *)

Lemma repayment_recorded h r d : repayment_of h r d <-> recorded h (ri_of_request r) d.
Proof. destruct r; reflexivity. Qed.

Record status_ok (s : State) (h : list EventType) : Prop := {
  to_wt : wt_inv (withdrawals s);
  to_repr : repr (withdrawals s) h;
  to_known : forall i, known_index s i <-> failed h i;
  to_claims : NoDup (claims (native_ledger_id s) h);
  to_paid : paid_log s h;
  to_fees : forall b rc, In (b, rc) (finalizations h) -> rc_effective_gas_price rc * rc_gas_used rc <= U256_MAX;
  to_serve : all_serve s h;
  to_tokens : tok_ok (erc20_tokens s);
  to_listed : forall q, In (WErc20 q) (accepted h) ->
    exists sy, dmkm_get_entry_alt (ew_erc20_contract_address q) (erc20_tokens s) = Some (ew_erc20_ledger_id q, sy)
}.

Section Status.
Variable s : State.
Variable h : list EventType.
Hypothesis K : status_ok s h.
Notation w := (withdrawals s).
Let Hi := to_wt _ _ K.
Let Hp := to_repr _ _ K.

Lemma accepted_same r r' : In r (accepted h) -> In r' (accepted h) -> wr_burn_index r = wr_burn_index r' -> r = r'.
Proof. intros. eapply (nodup_burn_unique (accepted h)); eauto. apply (p_acc_nodup _ _ Hp). Qed.

Lemma known_of i r : known_index s i -> In r (accepted h) -> ri_withdrawal_id i = wr_burn_index r ->
  i = ri_of_request r /\ exists rc, In (wr_burn_index r, rc) (finalizations h) /\ rc_status rc = TxFailure.
Proof.
  intros Hk Hr E. apply (to_known _ _ K) in Hk. destruct Hk as [q rc H1 H2 H3|q rc H1 H2 H3|p Hin]; cbn in E.
  - assert (r = WNative q) as -> by (apply accepted_same; auto). cbn. eauto.
  - assert (r = WErc20 q) as -> by (apply accepted_same; auto). cbn. eauto.
  - exfalso. unfold accepted in Hr. apply in_flat_map in Hr as (e & He & Hr).
    assert (e = EvFailedErc20WithdrawalRequest p).
    { apply (nodup_flat_apart (claims_of (native_ledger_id s)) h e _ (native_ledger_id s, wr_burn_index r) (to_claims _ _ K)); auto.
      - destruct e; cbn in Hr; try tauto; destruct Hr as [<-|[]]; cbn; auto.
      - cbn. rewrite E. auto. }
    subst e. destruct Hr.
Qed.

Lemma find_reimbursed_spec r : In r (accepted h) ->
  find_reimbursed (wr_burn_index r) w = bget (ri_of_request r) (reimbursed w).
Proof.
  intros Hr. unfold find_reimbursed. pose proof (i_rd_sorted w Hi) as Hs.
  destruct (find (fun x => ri_withdrawal_id (fst x) =? wr_burn_index r) (reimbursed w)) as [[i x]|] eqn:E; cbn.
  - apply find_some in E as [Hin E]. cbn in E. apply N.eqb_eq in E. apply bget_iff_In in Hin; auto.
    assert (Hk : known_index s i) by (right; unfold dom; rewrite Hin; discriminate).
    destruct (known_of _ _ Hk Hr E) as [-> _]. auto.
  - destruct (bget (ri_of_request r) (reimbursed w)) as [x|] eqn:Ex; auto. apply bget_iff_In in Ex; auto.
    apply find_none with (x := (ri_of_request r, x)) in E; auto. cbn in E. rewrite withdrawal_id_of, N.eqb_refl in E. discriminate.
Qed.

Lemma processed_of b : dom b (processed w) -> exists r, In r (accepted h) /\ wr_burn_index r = b /\ was_created h b.
Proof.
  unfold dom. destruct (bget b (processed w)) as [r|] eqn:E; [|congruence]. intros _.
  apply (p_processed _ _ Hp) in E as (H1 & H2 & H3). exists r. auto.
Qed.
Lemma unsigned_created b t : unsigned h b = Some t -> dom b (by_alt (created w)).
Proof.
  rewrite <- (p_created _ _ Hp). unfold dom. destruct (bget b (by_alt (created w))); discriminate.
Qed.
Lemma fin_dom b : was_finalized h b -> dom b (by_alt (finalized w)).
Proof.
  intros H. apply in_map_fst in H as (rc & H). apply (p_fin_all _ _ Hp) in H as (f & Hf & _). unfold dom. rewrite Hf. discriminate.
Qed.
Lemma fin_alone b : was_finalized h b -> bget b (by_alt (created w)) = None /\ bget b (by_alt (sent w)) = None.
Proof.
  intros H. apply fin_dom in H. unfold dom in H. destruct (bget b (by_alt (finalized w))) as [f|] eqn:E; [|congruence].
  destruct (get_alt_row _ _ _ (i_fin w Hi) E) as (k & Hrow). apply (i_fin_excl w Hi) in Hrow. tauto.
Qed.
Lemma created_is b t : unsigned h b = Some t -> was_created h b.
Proof.
  intros H. destruct (processed_of b) as (_ & _ & _ & Hc); auto. apply (i_proc_dom w Hi). left. eapply unsigned_created; eauto.
Qed.
Lemma fin_is b : was_finalized h b -> was_created h b.
Proof. intros H. destruct (processed_of b) as (_ & _ & _ & Hc); auto. apply (i_proc_dom w Hi). right. right. apply fin_dom; auto. Qed.
Lemma attempt_is b x : last_opt (attempts h b) = Some x -> was_created h b.
Proof.
  intros H. assert (Hin : In x (attempts h b)).
  { unfold last_opt in H. destruct (rev (attempts h b)) as [|y l] eqn:E; [discriminate|]. injection H as ->.
    apply in_rev. rewrite E. left. auto. }
  apply attempts_made in Hin. apply (p_made _ _ Hp) in Hin. apply (owned_processed _ _ _ Hi) in Hin as (r & Hr).
  apply (p_processed _ _ Hp) in Hr. tauto.
Qed.
Lemma fin_same b rc rc' : In (b, rc) (finalizations h) -> In (b, rc') (finalizations h) -> rc = rc'.
Proof.
  intros H1 H2. apply (p_fin_all _ _ Hp) in H1 as (f & F1 & <-). apply (p_fin_all _ _ Hp) in H2 as (f' & F2 & <-). congruence.
Qed.
Lemma repayment_same r d d' : repayment_of h r d -> repayment_of h r d' -> d = d'.
Proof.
  rewrite !repayment_recorded, <- !(pl_repaid _ _ (to_paid _ _ K)). unfold repaid. intros H1 H2. congruence.
Qed.

(** At most one status is right *)
Lemma stage_unique b st st' t t' : stage_is h b st t -> stage_is h b st' t' -> st = st'.
Proof.
  assert (Hfin : forall rc, In (b, rc) (finalizations h) -> was_finalized h b) by (intros; apply in_map_fst; eauto).
  assert (Hacc : forall r, In r (accepted h) -> wr_burn_index r = b -> was_accepted h b).
  { intros r H1 H2. unfold was_accepted. rewrite <- H2. apply in_map. auto. }
  intros H H'.
  destruct H as [A1|A1 A2|t1 A1 A2 A3|x1 A1 A2 A3 A4|rc1 x1 A1 A2 A3 A4 A5|rc1 x1 r1 A1 A2 A3 A4 A5 A6 A7|rc1 x1 r1 d1 A1 A2 A3 A4 A5 A6 A7];
  destruct H' as [B1|B1 B2|t2 B1 B2 B3|x2 B1 B2 B3 B4|rc2 x2 B1 B2 B3 B4 B5|rc2 x2 r2 B1 B2 B3 B4 B5 B6 B7|rc2 x2 r2 d2 B1 B2 B3 B4 B5 B6 B7];
  try reflexivity;
  repeat match goal with
  | H : In (b, ?x) (finalizations h), H' : In (b, ?y) (finalizations h) |- _ =>
      lazymatch x with y => fail | _ => pose proof (fin_same _ _ _ H H'); subst end
  end;
  try congruence;
  try (exfalso; eauto using created_is, attempt_is, fin_is; fail).
  - exfalso. apply A5 with d2. replace r1 with r2; auto. apply accepted_same; auto.
  - exfalso. apply B5 with d1. replace r2 with r1; auto. apply accepted_same; auto.
  - assert (r1 = r2) as -> by (apply accepted_same; auto; congruence). assert (d1 = d2) as -> by (eapply repayment_same; eauto). reflexivity.
Qed.

Lemma pending_iff b : existsb (has_burn_index b) (pending w) = true <-> was_accepted h b /\ ~ was_created h b.
Proof.
  rewrite existsb_exists. unfold has_burn_index, was_accepted. split.
  - intros (r & Hr & E). apply N.eqb_eq in E. subst b. apply (p_pending _ _ Hp) in Hr as [H1 H2]. split; auto. apply in_map; auto.
  - intros [H1 H2]. apply in_map_iff in H1 as (r & <- & Hr). exists r. rewrite N.eqb_refl. split; auto. apply (p_pending _ _ Hp). auto.
Qed.

Lemma processed_status b : was_created h b ->
  exists st t, processed_transaction_status b w = Done (st, Some t) /\ stage_is h b st (Some t) /\
    In (b, t) (transactions_made h) /\ st <> StNotFound /\ st <> StPending.
Proof.
  intros Hc.
  assert (Hd : dom b (processed w)).
  { apply in_map_fst in Hc as (t & Ht). apply creations_made in Ht. apply (p_made _ _ Hp) in Ht.
    apply (owned_processed _ _ _ Hi) in Ht as (r & Hr). unfold dom. rewrite Hr. discriminate. }
  destruct (processed_of _ Hd) as (r & Hr & Eb & _).
  assert (Ha : was_accepted h b) by (unfold was_accepted; rewrite <- Eb; apply in_map; auto).
  apply (i_proc_dom w Hi) in Hd. unfold processed_transaction_status, mkm_get_alt.
  destruct (bget b (by_alt (created w))) as [x|] eqn:Ec.
  { exists StTxCreated, (rs_tx x). split; [reflexivity|].
    assert (Hu : unsigned h b = Some (rs_tx x)) by (rewrite <- (p_created _ _ Hp), Ec; reflexivity).
    split; [|split; [|split; discriminate]].
    - apply IsCreated; auto. intros Hf. apply fin_alone in Hf as [Hf _]. congruence.
    - apply unsigned_made. exact Hu. }
  assert (Hu : unsigned h b = None) by (rewrite <- (p_created _ _ Hp), Ec; reflexivity).
  destruct (bget b (by_alt (sent w))) as [l|] eqn:Es.
  { destruct (get_alt_row _ _ _ (i_sent w Hi) Es) as (k & Hrow). destruct (i_sent_tx w Hi _ _ _ Hrow) as (Hl & _).
    cbn [obind]. destruct (last_opt l) as [y|] eqn:El.
    2:{ exfalso. apply Hl. unfold last_opt in El. destruct (rev l) eqn:E; [|discriminate].
        rewrite <- (rev_involutive l), E. reflexivity. }
    assert (Hf : ~ was_finalized h b) by (intros Hf; apply fin_alone in Hf as [_ Hf]; congruence).
    pose proof (p_sent _ _ Hp b Hf) as Hs. rewrite Es in Hs. cbn in Hs. symmetry in Hs. apply nonempty_some in Hs as [Hs _].
    assert (Hy : last_opt (attempts h b) = Some (rs_tx y)) by (rewrite <- Hs; apply last_opt_map; exact El).
    exists (StTxSent (st_hash (rs_tx y))), (st_tx (rs_tx y)). split; [reflexivity|].
    split; [|split; [|split; discriminate]].
    - apply IsSent; auto.
    - apply attempts_made. unfold last_opt in Hy. destruct (rev (attempts h b)) as [|z q] eqn:E; [discriminate|].
      injection Hy as ->. apply in_rev. rewrite E. left. auto. }
  cbn [obind].
  assert (Hfd : dom b (by_alt (finalized w))) by (unfold dom in *; intuition congruence).
  unfold dom in Hfd. destruct (bget b (by_alt (finalized w))) as [f|] eqn:Ef; [|congruence].
  destruct (p_fin _ _ Hp _ _ Ef) as [Hfin Hatt].
  destruct (get_alt_row _ _ _ (i_fin w Hi) Ef) as (k & Hrow). destruct (i_fin_tx w Hi _ _ _ Hrow) as (_ & Hh).
  pose proof (find_reimbursed_spec _ Hr) as Hfr. rewrite Eb in Hfr. rewrite Hfr.
  pose proof (attempts_made _ _ _ Hatt) as Hmade. cbv zeta.
  assert (Hok : forall d, bget (ri_of_request r) (reimbursed w) = Some (ReimbursedOk d) <-> repayment_of h r d).
  { intros d. rewrite repayment_recorded, <- (pl_repaid _ _ (to_paid _ _ K)). reflexivity. }
  assert (Hkf : bget (ri_of_request r) (reimbursed w) <> None -> rc_status (ft_receipt f) = TxFailure).
  { intros H. assert (Hk : known_index s (ri_of_request r)) by (right; exact H).
    apply known_of with (r := r) in Hk as (_ & rc & H1 & H2); auto; [|apply withdrawal_id_of].
    rewrite Eb in H1. rewrite (fin_same _ _ _ Hfin H1). exact H2. }
  destruct (bget (ri_of_request r) (reimbursed w)) as [[d|]|] eqn:Er.
  - exists (StTxFinalized (FinReimbursed (rc_transaction_hash (ft_receipt f)) (rd_reimbursed_amount d) (rd_reimbursed_in_block d))), (st_tx (ft_tx f)).
    split; [reflexivity|]. split; [|split; [exact Hmade|split; discriminate]].
    eapply IsRepaid with (r := r); eauto. apply Hkf. discriminate. apply Hok. reflexivity.
  - rewrite Hkf by discriminate. cbn [is_failure].
    exists (StTxFinalized (FinPendingReimbursement (rc_transaction_hash (ft_receipt f)))), (st_tx (ft_tx f)).
    split; [reflexivity|]. split; [|split; [exact Hmade|split; discriminate]].
    eapply IsFailed with (r := r); eauto. apply Hkf. discriminate. intros d Hd'. apply Hok in Hd'. discriminate.
  - destruct (rc_status (ft_receipt f)) eqn:Est; cbn [is_failure].
    + unfold effective_transaction_fee, transaction_cost, checked_mul. rewrite (proj2 (N.leb_le _ _) (to_fees _ _ K _ _ Hfin)).
      cbn [expect rbind].
      eexists _, (st_tx (ft_tx f)). split; [reflexivity|]. split; [|split; [exact Hmade|split; discriminate]].
      apply IsSuccess; auto.
    + exists (StTxFinalized (FinPendingReimbursement (rc_transaction_hash (ft_receipt f)))), (st_tx (ft_tx f)).
      split; [reflexivity|]. split; [|split; [exact Hmade|split; discriminate]].
      eapply IsFailed with (r := r); eauto. intros d Hd'. apply Hok in Hd'. discriminate.
Qed.

Lemma status_total b : exists st t, transaction_status b w = Done st /\ stage_is h b st t.
Proof.
  unfold transaction_status. destruct (existsb (has_burn_index b) (pending w)) eqn:E.
  - apply pending_iff in E as [H1 H2]. exists StPending, None. split; auto. apply IsPending; auto.
  - destruct (in_dec N.eq_dec b (map fst (creations h))) as [Hc|Hc].
    + destruct (processed_status _ Hc) as (st & t & -> & H & _). exists st, (Some t). split; auto.
    + assert (Ha : ~ was_accepted h b).
      { intros Ha. assert (Hx : existsb (has_burn_index b) (pending w) = true) by (apply pending_iff; auto). congruence. }
      exists StNotFound, None. split; [|apply IsUnknown; auto].
      assert (Hn : ~ dom b (processed w)).
      { intros Hd. apply processed_of in Hd as (_ & _ & _ & Hd). auto. }
      rewrite (i_proc_dom w Hi) in Hn. unfold dom in Hn. unfold processed_transaction_status, mkm_get_alt.
      destruct (bget b (by_alt (created w))); [exfalso; apply Hn; left; discriminate|].
      destruct (bget b (by_alt (sent w))); [exfalso; apply Hn; right; left; discriminate|].
      destruct (bget b (by_alt (finalized w))); [exfalso; apply Hn; right; right; discriminate|]. reflexivity.
Qed.
Lemma status_iff b st : transaction_status b w = Done st <-> exists t, stage_is h b st t.
Proof.
  destruct (status_total b) as (st0 & t0 & E & H). rewrite E. split.
  - intros E'. injection E' as <-. eauto.
  - intros (t & H'). f_equal. eapply stage_unique; eauto.
Qed.

(** ** Searching *)
Lemma match_iff p r : match_parameter p r = true <-> matches p r.
Proof.
  destruct p; cbn.
  - apply N.eqb_eq.
  - apply N.eqb_eq.
  - rewrite andb_true_iff, bytes_eqb_eq. destruct (opt_dec Types.bytes_dec (wr_from_subaccount r) subaccount); intuition congruence.
Qed.

Definition row_burn (x : WithdrawalRequest * WithdrawalStatus * option Tx) : N := wr_burn_index (fst (fst x)).
Definition row_ok (p : SearchParameter) (x : WithdrawalRequest * WithdrawalStatus * option Tx) : Prop :=
  let '(r, st, t) := x in
  In r (accepted h) /\ matches p r /\ stage_is h (wr_burn_index r) st t /\
  forall y, t = Some y -> In (wr_burn_index r, y) (transactions_made h).

Lemma row_total r : was_created h (wr_burn_index r) ->
  exists st t, status_row w r = Done (r, st, Some t) /\ stage_is h (wr_burn_index r) st (Some t) /\
    In (wr_burn_index r, t) (transactions_made h).
Proof.
  intros H. destruct (processed_status _ H) as (st & t & E & Hs & Hm & N1 & N2). exists st, t.
  unfold status_row. rewrite E. cbn [rbind]. split; auto. destruct st; congruence.
Qed.

Lemma rows_total l : (forall r, In r l -> was_created h (wr_burn_index r)) ->
  exists rows, rmap (status_row w) l = Done rows /\ map (fun x => fst (fst x)) rows = l /\
    forall r st t, In (r, st, t) rows -> stage_is h (wr_burn_index r) st t /\
      forall y, t = Some y -> In (wr_burn_index r, y) (transactions_made h).
Proof.
  induction l as [|r l IH]; intros H; cbn.
  - exists []. split; auto. split; auto. intros ? ? ? [].
  - destruct (row_total r) as (st & t & E & H1 & H2); [apply H; left; auto|].
    destruct IH as (rows & E' & Em & Hr); [intros; apply H; right; auto|].
    rewrite E, E'. cbn. eexists. split; [reflexivity|]. cbn. rewrite Em. split; auto.
    intros r0 st0 t0 [Hx|Hx]; [|auto]. injection Hx as <- <- <-. split; auto. intros y Hy. injection Hy as <-. auto.
Qed.

Lemma processed_keys : map wr_burn_index (bvals (processed w)) = bkeys (processed w).
Proof.
  unfold bvals, bkeys. rewrite map_map. apply map_ext_in. intros [b r] Hin. cbn.
  apply bget_iff_In in Hin; [|apply (i_proc_sorted w Hi)]. apply (p_processed _ _ Hp) in Hin. tauto.
Qed.
Lemma processed_vals r : In r (bvals (processed w)) <-> In r (accepted h) /\ was_created h (wr_burn_index r).
Proof.
  unfold bvals. rewrite in_map_iff. split.
  - intros ([b r'] & <- & Hin). cbn. apply bget_iff_In in Hin; [|apply (i_proc_sorted w Hi)].
    apply (p_processed _ _ Hp) in Hin as (H1 & <- & H2). auto.
  - intros [H1 H2]. exists (wr_burn_index r, r). split; auto. apply bget_iff_In; [apply (i_proc_sorted w Hi)|].
    apply (p_processed _ _ Hp). auto.
Qed.

Lemma nodup_filter_burn (p : SearchParameter) l : NoDup (map wr_burn_index l) -> NoDup (map wr_burn_index (filter (match_parameter p) l)).
Proof.
  induction l as [|r l IH]; cbn; auto. intros H. inversion H as [|? ? H1 H2]; subst. destruct (match_parameter p r); cbn; auto.
  constructor; auto. intros Hin. apply H1. apply in_map_iff in Hin as (x & <- & Hx). apply filter_In in Hx as [Hx _]. apply in_map; auto.
Qed.

Lemma nodup_join (a b : list N) : NoDup a -> NoDup b -> (forall x, In x a -> ~ In x b) -> NoDup (a ++ b).
Proof.
  induction a as [|x a IH]; cbn; auto. intros Ha Hb H. inversion Ha; subst. constructor.
  - intros Hin. apply in_app_or in Hin as [Hin|Hin]; [auto|]. exact (H x (or_introl eq_refl) Hin).
  - apply IH; auto.
Qed.

Lemma search_total p : exists rows, withdrawal_status p w = Done rows /\ NoDup (map row_burn rows) /\
  (forall x, In x rows -> row_ok p x) /\
  (forall r, In r (accepted h) -> matches p r -> exists st t, In (r, st, t) rows).
Proof.
  unfold withdrawal_status.
  destruct (rows_total (filter (match_parameter p) (bvals (processed w)))) as (rows & E & Em & Hrows).
  { intros r Hr. apply filter_In in Hr as [Hr _]. apply processed_vals in Hr. tauto. }
  rewrite E. cbn [rbind]. eexists. split; [reflexivity|].
  set (pend := map (fun r => (r, StPending, @None Tx)) (filter (match_parameter p) (pending w))).
  assert (Ep : map row_burn pend = map wr_burn_index (filter (match_parameter p) (pending w))).
  { unfold pend. rewrite map_map. reflexivity. }
  assert (Er : map row_burn rows = map wr_burn_index (filter (match_parameter p) (bvals (processed w)))).
  { rewrite <- Em, map_map. reflexivity. }
  split; [|split].
  - rewrite map_app, Ep, Er. apply nodup_join.
    + apply nodup_filter_burn. apply (i_pend_nodup w Hi).
    + apply nodup_filter_burn. rewrite processed_keys. apply bsorted_NoDup, (i_proc_sorted w Hi).
    + intros b H1 H2. apply in_map_iff in H1 as (r1 & <- & H1). apply in_map_iff in H2 as (r2 & E2 & H2).
      apply filter_In in H1 as [H1 _]. apply filter_In in H2 as [H2 _].
      apply (p_pending _ _ Hp) in H1 as [_ H1]. apply processed_vals in H2 as [_ H2]. rewrite E2 in H2. contradiction.
  - intros x Hx. apply in_app_or in Hx as [Hx|Hx].
    + unfold pend in Hx. apply in_map_iff in Hx as (r & <- & Hr). apply filter_In in Hr as [Hr Hm].
      apply match_iff in Hm. apply (p_pending _ _ Hp) in Hr as [H1 H2]. cbn. split; auto. split; auto.
      split; [|discriminate]. apply IsPending; auto. apply in_map; auto.
    + destruct x as [[r st] t]. pose proof (Hrows _ _ _ Hx) as [H1 H2].
      assert (Hr : In r (filter (match_parameter p) (bvals (processed w)))).
      { rewrite <- Em. apply in_map_iff. eexists. split; [|exact Hx]. reflexivity. }
      apply filter_In in Hr as [Hr Hm]. apply match_iff in Hm. apply processed_vals in Hr as [Hr _]. cbn. auto.
  - intros r Hr Hm. apply match_iff in Hm. destruct (in_dec N.eq_dec (wr_burn_index r) (map fst (creations h))) as [Hc|Hc].
    + assert (Hin : In r (map (fun x => fst (fst x)) rows)).
      { rewrite Em. apply filter_In. split; auto. apply processed_vals. auto. }
      apply in_map_iff in Hin as ([[r' st] t] & E' & Hin). cbn in E'. subst r'. exists st, t. apply in_or_app; auto.
    + exists StPending, None. apply in_or_app. left. unfold pend. apply in_map_iff. exists r. split; auto.
      apply filter_In. split; auto. apply (p_pending _ _ Hp). auto.
Qed.

Lemma detail_total p x : row_ok p x -> exists d, detail_of s x = Done d /\
  detail_is s (fst (fst x)) (snd (fst x)) (snd x) d.
Proof.
  destruct x as [[r st] t]. intros (Hr & _ & _ & Hm). unfold detail_of. cbn [fst snd].
  destruct r as [q|q].
  - cbn [rbind]. eexists. split; [reflexivity|]. unfold detail_is. cbn. do 5 (split; auto).
    split; auto. split; auto. destruct t as [y|]; auto.
    destruct (to_serve _ _ K _ _ (Hm y eq_refl)) as (r & H1 & H2 & H3).
    assert (r = WNative q) as -> by (apply accepted_same; auto). destruct H3 as (_ & _ & _ & _ & _ & H3).
    exists (nw_withdrawal_amount q - tx_amount y). split; [|lia].
    apply checked_sub_some. split; auto. lia.
  - destruct (to_listed _ _ K _ Hr) as (sy & Hl). unfold dmkm_get_alt. unfold dmkm_get_entry_alt in Hl. rewrite Hl.
    cbn [option_map snd expect rbind]. eexists. split; [reflexivity|]. unfold detail_is. cbn. do 5 (split; auto).
    split; [|split; auto]. apply (listed_iff _ (to_tokens _ _ K)). exact Hl.
Qed.

Lemma search_askable p : askable p <-> exists q, search_of p = Some q.
Proof.
  destruct p as [b|a|o sub]; cbn; [split; eauto| |split; eauto]. split.
  - intros (x & ->). cbn. eauto.
  - intros (q & H). destruct (address_of_text a) as [x|]; [eauto|discriminate].
Qed.
Lemma search_sought p q r : search_of p = Some q -> (matches q r <-> sought p r).
Proof.
  destruct p as [b|a|o sub]; cbn; [intros [= <-]; reflexivity| |intros [= <-]; reflexivity].
  destruct (address_of_text a) as [x|] eqn:E; cbn; [|discriminate]. intros [= <-]. cbn. split; congruence.
Qed.

Lemma details_total p q : search_of p = Some q -> exists ds, withdrawal_details p s = Done ds /\
  NoDup (map wd_withdrawal_id ds) /\
  (forall d, In d ds -> exists r st t, In r (accepted h) /\ matches q r /\ stage_is h (wr_burn_index r) st t /\ detail_is s r st t d) /\
  (forall r, In r (accepted h) -> matches q r -> exists d st t, In d ds /\ stage_is h (wr_burn_index r) st t /\ detail_is s r st t d).
Proof.
  intros Hq. unfold withdrawal_details. rewrite Hq. cbn [expect rbind].
  destruct (search_total q) as (rows & -> & Hnd & Hok & Hall). cbn [rbind].
  assert (Hd : exists ds, rmap (detail_of s) rows = Done ds /\
    Forall2 (fun x d => detail_is s (fst (fst x)) (snd (fst x)) (snd x) d) rows ds).
  { clear Hnd Hall. induction rows as [|x rows IH]; cbn.
    - exists []. split; auto.
    - destruct (detail_total q x) as (d & E & Hd); [apply Hok; left; auto|].
      destruct IH as (ds & E' & Hds); [intros; apply Hok; right; auto|]. rewrite E, E'. cbn. eexists. split; [reflexivity|].
      constructor; auto. }
  destruct Hd as (ds & E & HF). exists ds. split; auto. split; [|split].
  - replace (map wd_withdrawal_id ds) with (map row_burn rows); auto. clear - HF.
    induction HF as [|x d rows ds H HF IH]; cbn; auto. destruct H as (H & _). rewrite IH, H. reflexivity.
  - intros d Hd. clear - HF Hok Hd. induction HF as [|x d0 rows ds H HF IH]; [destruct Hd|].
    destruct Hd as [->|Hd]; [|apply IH; auto; intros; apply Hok; right; auto].
    destruct x as [[r st] t]. destruct (Hok (r, st, t)) as (H1 & H2 & H3 & _); [left; auto|]. exists r, st, t. auto.
  - intros r H1 H2. destruct (Hall r H1 H2) as (st & t & Hin). clear - HF Hok Hin.
    induction HF as [|x d0 rows ds H HF IH]; [destruct Hin|]. destruct Hin as [->|Hin].
    + destruct (Hok (r, st, t)) as (_ & _ & H3 & _); [left; auto|]. exists d0, st, t. split; [left; auto|]. auto.
    + destruct IH as (d & st' & t' & Hx & Hy); auto; [intros; apply Hok; right; auto|]. exists d, st', t'. split; [right; auto|auto].
Qed.
End Status.

Section Reach.
Variable self : Principal.
Variable keccak : list N -> Hash.
Variable env : Sys -> Label -> Prop.
Hypothesis Henv : forall s l, env s l -> nonce_kept s l.

Lemma status_reach s : reach self keccak env s -> status_ok (sys_state s) (history (sys_log s)).
Proof.
  intros Hr. pose proof (solv_known_reach self keccak env Henv s Hr) as [Ki Kk Kt Kj Km Kf Kp Kh Kb Kr].
  pose proof (settled_all self keccak env Henv s Hr) as [HS1 HS2]. pose proof (books_of self keccak env Henv s Hr) as HB.
  destruct (reach_wlog self keccak env Henv s Hr) as (Hcore & Hrep & _ & Hserve & _).
  change (fst (sys_core s)) with (sys_state s) in *. change (snd (sys_core s)) with (sys_log s) in *.
  constructor; auto.
  - apply (core_wt _ _ (core_reach _ _ _ _ Henv Hr)).
  - apply (rh_known _ Kh).
  - apply (fr_log _ _ _ (bo_fresh _ _ Kb)).
  - apply (paid_reach self keccak env Henv s Hr).
  - intros b rc Hin. rewrite <- HS1 in Hin. apply in_map_iff in Hin as (x & Hx & Hin). injection Hx as <- <-.
    destruct (HS2 _ Hin) as (H1 & _ & _ & H2 & H3). change (gas_fee x <= U256_MAX).
    pose proof (bk_typed _ HB _ H1) as Ht. unfold charged in *. destruct (se_request x); cbn in Ht; lia.
Qed.
End Reach.

(** ** The status moves forward *)

Lemma was_accepted_app h es b : was_accepted h b -> was_accepted (h ++ es) b.
Proof. unfold was_accepted, accepted. rewrite flat_map_app, map_app. intros; apply in_or_app; auto. Qed.
Lemma was_created_app h es b : was_created h b -> was_created (h ++ es) b.
Proof. unfold was_created, creations. rewrite flat_map_app, map_app. intros; apply in_or_app; auto. Qed.
Lemma finalizations_app h es x : In x (finalizations h) -> In x (finalizations (h ++ es)).
Proof. unfold finalizations. rewrite flat_map_app. intros; apply in_or_app; auto. Qed.
Lemma accepted_app h es x : In x (accepted h) -> In x (accepted (h ++ es)).
Proof. unfold accepted. rewrite flat_map_app. intros; apply in_or_app; auto. Qed.
Lemma repayment_app h es r d : repayment_of h r d -> repayment_of (h ++ es) r d.
Proof. destruct r; cbn; intros [H1 H2]; split; auto; apply in_or_app; auto. Qed.

Lemma attempts_app h es b x : In x (attempts h b) -> In x (attempts (h ++ es) b).
Proof. unfold attempts. rewrite flat_map_app. intros; apply in_or_app; auto. Qed.

Lemma stage_forward s s' h es b st t st' t' : status_ok s h -> status_ok s' (h ++ es) ->
  stage_is h b st t -> stage_is (h ++ es) b st' t' ->
  progress st <= progress st' /\ (progress st = 4 -> st' = st).
Proof.
  intros K K' H H'.
  assert (Hfin : forall g rc, In (b, rc) (finalizations g) -> was_finalized g b) by (intros; apply in_map_fst; eauto).
  assert (Hacc : forall g r, In r (accepted g) -> wr_burn_index r = b -> was_accepted g b)
    by (intros g r Hr <-; apply in_map; auto).
  assert (Hcf : forall rc, In (b, rc) (finalizations (h ++ es)) -> was_created (h ++ es) b) by
    (intros rc Hrc; apply (fin_is _ _ K'); eauto).
  inversion H as [A|A1 A2|x A1 A2 A3|x A1 A2 A3 A4|rc x A1 A2 A3 A4 A5|rc x r A1 A2 A3 A4 A5 A6 A7|rc x r d A1 A2 A3 A4 A5 A6 A7]; subst st t.
  - split; [cbn; lia|cbn; lia].
  - apply was_accepted_app with (es := es) in A1. split; [|cbn; lia]. inversion H'; subst; cbn; try lia. contradiction.
  - apply was_accepted_app with (es := es) in A1. apply (created_is _ _ K) in A3. apply was_created_app with (es := es) in A3.
    split; [|cbn; lia]. inversion H'; subst; cbn; try lia; contradiction.
  - apply was_accepted_app with (es := es) in A1. apply (attempt_is _ _ K) in A4. apply was_created_app with (es := es) in A4.
    split; [|cbn; lia]. inversion H'; subst; cbn; try lia; contradiction.
  - assert (st' = StTxFinalized (FinSuccess (rc_transaction_hash rc) (rc_effective_gas_price rc * rc_gas_used rc))) as ->.
    { eapply stage_unique; [exact K'|exact H'|]. eapply IsSuccess; eauto using was_accepted_app, finalizations_app, attempts_app. }
    split; [lia|auto].
  - split; [|cbn; lia]. apply Hacc in A1; auto. apply was_accepted_app with (es := es) in A1.
    apply finalizations_app with (es := es) in A3. pose proof (Hcf _ A3). pose proof (Hfin _ _ A3).
    inversion H'; subst; cbn; try lia; contradiction.
  - assert (st' = StTxFinalized (FinReimbursed (rc_transaction_hash rc) (rd_reimbursed_amount d) (rd_reimbursed_in_block d))) as ->.
    { eapply stage_unique; [exact K'|exact H'|].
      eapply IsRepaid; eauto using accepted_app, finalizations_app, attempts_app, repayment_app. }
    split; [lia|auto].
Qed.

Section Forward.
Variable self : Principal.
Variable keccak : list N -> Hash.
Variable env : Sys -> Label -> Prop.
Hypothesis Henv : forall s l, env s l -> nonce_kept s l.

Lemma status_forward s l b st st' : reach self keccak env s -> env s l ->
  retrieve_withdrawal_status b (sys_state s) = Done st ->
  retrieve_withdrawal_status b (sys_state (step self keccak s l)) = Done st' ->
  progress st <= progress st' /\ (progress st = 4 -> st' = st).
Proof.
  intros Hr Hl H H'. pose proof (status_reach self keccak env Henv s Hr) as K.
  pose proof (status_reach self keccak env Henv _ (reach_step _ _ _ _ _ Hr Hl)) as K'.
  unfold retrieve_withdrawal_status in *.
  apply (status_iff _ _ K) in H as (t & H). apply (status_iff _ _ K') in H' as (t' & H').
  destruct (step_grows keccak self s l) as (es & E & _). unfold history in *. rewrite E, map_app in K', H'.
  exact (stage_forward _ _ _ _ _ _ _ _ _ K K' H H').
Qed.

Lemma waiting_owed s b x : reach self keccak env s ->
  retrieve_withdrawal_status b (sys_state s) = Done (StTxFinalized (FinPendingReimbursement x)) ->
  exists r, In r (accepted (history (sys_log s))) /\ wr_burn_index r = b /\
    ((exists q, owing (sys_state s) (ri_of_request r) q) \/ quarantined (sys_state s) (ri_of_request r)).
Proof.
  intros Hr H. pose proof (status_reach self keccak env Henv s Hr) as K. unfold retrieve_withdrawal_status in H.
  apply (status_iff _ _ K) in H as (t & H).
  inversion H as [ | | | | |rc y r A1 A2 A3 A4 A5 A6 A7| ]; subst. exists r. split; auto. split; auto.
  destruct (reimbursement_fate self keccak env Henv s (ri_of_request r) Hr) as ((HF & _) & _).
  destruct HF as [HF|[(d & HF)|HF]]; auto.
  - destruct r; cbn in *; [eapply FailedNative|eapply FailedErc20]; eauto.
  - exfalso. apply (A5 d). apply repayment_recorded. apply (pl_repaid _ _ (to_paid _ _ K)). exact HF.
Qed.
Lemma fee_unaccepted s f : reach self keccak env s -> In (EvFailedErc20WithdrawalRequest f) (history (sys_log s)) ->
  ~ was_accepted (history (sys_log s)) (rr_ledger_burn_index f).
Proof.
  intros Hr A Hacc. pose proof (status_reach self keccak env Henv s Hr) as K. apply in_map_iff in Hacc as (r & Er & Ha).
  unfold accepted in Ha. apply in_flat_map in Ha as (e & He & Hre).
  assert (e = EvFailedErc20WithdrawalRequest f).
  { apply (nodup_flat_apart (claims_of (native_ledger_id (sys_state s))) (history (sys_log s)) e _
      (native_ledger_id (sys_state s), wr_burn_index r) (to_claims _ _ K)); auto.
    - destruct e; cbn in Hre; try tauto; destruct Hre as [<-|[]]; cbn; auto.
    - cbn. left. f_equal. auto. }
  subst e. destruct Hre.
Qed.
Lemma owed_shown s i q : reach self keccak env s -> owing (sys_state s) i q ->
  (exists r x, In r (accepted (history (sys_log s))) /\ ri_of_request r = i /\
     retrieve_withdrawal_status (wr_burn_index r) (sys_state s) = Done (StTxFinalized (FinPendingReimbursement x))) \/
  (exists p, In (EvFailedErc20WithdrawalRequest p) (history (sys_log s)) /\ i = RINative (rr_ledger_burn_index p) /\
     ~ was_accepted (history (sys_log s)) (rr_ledger_burn_index p)).
Proof.
  intros Hr H. pose proof (status_reach self keccak env Henv s Hr) as K.
  destruct (reimbursement_fate self keccak env Henv s i Hr) as (_ & HF & _).
  assert (Hk : known_index (sys_state s) i) by (left; unfold dom; unfold owing in H; rewrite H; discriminate).
  pose proof (proj1 (to_known _ _ K i) Hk) as Hf.
  assert (Hshow : forall r rc, In r (accepted (history (sys_log s))) -> ri_of_request r = i ->
    In (wr_burn_index r, rc) (finalizations (history (sys_log s))) -> rc_status rc = TxFailure ->
    exists x, retrieve_withdrawal_status (wr_burn_index r) (sys_state s) = Done (StTxFinalized (FinPendingReimbursement x))).
  { intros r rc Ha Ei Hfin Hst. destruct (status_total _ _ K (wr_burn_index r)) as (st & t & Hs & G).
    assert (Hacc : was_accepted (history (sys_log s)) (wr_burn_index r)) by (apply in_map; exact Ha).
    assert (Hwf : was_finalized (history (sys_log s)) (wr_burn_index r)) by (apply in_map_iff; exists (wr_burn_index r, rc); auto).
    unfold retrieve_withdrawal_status. rewrite Hs. clear Hs.
    destruct G as [A|A B|t A B C|y A B C D|rc' y A B C D E|rc' y r' A B C D E F G|rc' y r' d A B C D E F G].
    - contradiction.
    - exfalso. apply B. exact (fin_is _ _ K _ Hwf).
    - contradiction.
    - contradiction.
    - exfalso. pose proof (fin_same _ _ K _ _ _ Hfin B) as ->. congruence.
    - eexists; reflexivity.
    - exfalso. pose proof (accepted_same _ _ K _ _ A Ha B) as ->. apply repayment_recorded in E. rewrite Ei in E.
      apply (pl_repaid _ _ (to_paid _ _ K)) in E. destruct (HF _ d H) as (N1 & _). exact (N1 E). }
  destruct Hf as [r rc A B C|r rc A B C|p A].
  - left. exists (WNative r). destruct (Hshow (WNative r) rc A eq_refl B C) as (x & Hx). exists x. auto.
  - left. exists (WErc20 r). destruct (Hshow (WErc20 r) rc A eq_refl B C) as (x & Hx). exists x. auto.
  - right. exists p. split; [exact A|]. split; [reflexivity|]. exact (fee_unaccepted s p Hr A).
Qed.
Lemma fee_hidden s f : reach self keccak env s -> In (EvFailedErc20WithdrawalRequest f) (history (sys_log s)) ->
  retrieve_withdrawal_status (rr_ledger_burn_index f) (sys_state s) = Done StNotFound /\
  forall p ds d, withdrawal_details p (sys_state s) = Done ds -> In d ds -> wd_withdrawal_id d <> rr_ledger_burn_index f.
Proof.
  intros Hr A. pose proof (status_reach self keccak env Henv s Hr) as K. pose proof (fee_unaccepted s f Hr A) as Hn. split.
  - apply (status_iff _ _ K). exists None. apply IsUnknown. exact Hn.
  - intros p ds d Hds Hd Ed. apply Hn. rewrite <- Ed.
    assert (Hq : exists q, search_of p = Some q).
    { unfold withdrawal_details in Hds. destruct (search_of p); [eauto|discriminate]. }
    destruct Hq as (q & Hq). destruct (details_total _ _ K p q Hq) as (ds' & Hds' & _ & Hall & _).
    rewrite Hds in Hds'. injection Hds' as <-. destruct (Hall _ Hd) as (r & st & t & Ha & _ & _ & (D & _)).
    rewrite D. apply in_map. exact Ha.
Qed.
End Forward.
