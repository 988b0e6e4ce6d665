(** * Proofs about reimbursements (C18, C19). *)

From Verif Require Import Base BMap MultiKeyMap MultiKeyMapFacts Bytes Types Amount ArithFacts Tx CallData
  Network Hex Transactions State Audit Ranges Rlp Parser Memo Driver Sys SysSpec WtInv StateEquiv
  TxSpec WtContent Segments Tasks SysFacts CoreInv Lifting WithdrawSpec WithdrawFacts
  GuardSpec Guards GuardFacts WeakSteps LogFacts UpgradeFacts ReimburseSpec.

(** ** The tables and the log *)

Lemma owed_mono h e i q : owed h i q -> owed (h ++ [e]) i q.
Proof.
  intros [r rc x H1 H2 H3 H4 H5|r rc x H1 H2 H3 H4 H5|q' H];
    [eapply OwedNative|eapply OwedErc20|apply OwedFee]; eauto; rewrite ?accepted_snoc, ?finalizations_snoc,
    ?attempts_snoc; apply in_or_app; auto.
Qed.
Lemma failed_mono h e i : failed h i -> failed (h ++ [e]) i.
Proof.
  intros [r rc H1 H2 H3|r rc H1 H2 H3|q' H];
    [eapply FailedNative|eapply FailedErc20|apply FailedFee]; eauto; rewrite ?accepted_snoc, ?finalizations_snoc;
    apply in_or_app; auto.
Qed.
Lemma owed_failed h i q : owed h i q -> failed h i.
Proof.
  intros [r rc x H1 H2 H3 H4 H5|r rc x H1 H2 H3 H4 H5|q' H];
    [eapply FailedNative|eapply FailedErc20|apply FailedFee]; eauto.
Qed.
Lemma failed_by h i : failed h i <->
  (exists r rc, In r (accepted h) /\ In (wr_burn_index r, rc) (finalizations h) /\ rc_status rc = TxFailure /\
     i = ri_of_request r) \/
  (exists q, In (EvFailedErc20WithdrawalRequest q) h /\ i = RINative (rr_ledger_burn_index q)).
Proof.
  split.
  - intros [r rc H1 H2 H3|r rc H1 H2 H3|q' H]; [left; exists (WNative r), rc|left; exists (WErc20 r), rc|right]; eauto 6.
  - intros [([r|r] & rc & H1 & H2 & H3 & ->)|(q & H & ->)];
      [eapply FailedNative|eapply FailedErc20|apply FailedFee]; eauto.
Qed.
Lemma owed_burn h i q : owed h i q -> rr_ledger_burn_index q = ri_burn_in_block i.
Proof. intros [ | | ]; reflexivity. Qed.

Definition known_index (s : State) (i : ReimbursementIndex) : Prop :=
  dom i (reimb_requests (withdrawals s)) \/ dom i (reimbursed (withdrawals s)).

Record rhist (c : Core) : Prop := {
  rh_owed : forall i q, owing (fst c) i q -> owed (history (snd c)) i q;
  rh_repaid : forall i d, repaid (fst c) i d -> exists q, owed (history (snd c)) i q /\
    rd_burn_in_block d = rr_ledger_burn_index q /\ rd_reimbursed_amount d = rr_reimbursed_amount q /\
    rd_transaction_hash d = rr_transaction_hash q;
  rh_known : forall i, known_index (fst c) i <-> failed (history (snd c)) i
}.

(** Events that do not change the tables of reimbursements *)
Definition no_failure (e : EventType) : bool :=
  match e with
  | EvFinalizedTransaction _ _ | EvReimbursedNativeWithdrawal _ | EvReimbursedErc20Withdrawal _ _ _
  | EvFailedErc20WithdrawalRequest _ | EvQuarantinedReimbursement _ => false
  | _ => true
  end.
Lemma no_failure_tables e w w' : no_failure e = true -> wt_event e w = Done w' ->
  reimb_requests w' = reimb_requests w /\ reimbursed w' = reimbursed w.
Proof.
  intros He H. destruct e; try discriminate; cbn in H; try (injection H as <-; split; reflexivity).
  - apply record_withdrawal_request_spec in H as (_ & _ & _ & _ & ->). split; reflexivity.
  - unfold record_created_transaction in H. inv_res. split; reflexivity.
  - unfold record_signed_transaction in H. inv_res. destruct x1 as [c' o].
    apply rbind_done in H as ([[n b] q] & H3 & H). inv_res. split; reflexivity.
  - unfold record_resubmit_transaction in H. inv_res. destruct x as [b last]. inv_res. split; reflexivity.
  - apply record_withdrawal_request_spec in H as (_ & _ & _ & _ & ->). split; reflexivity.
Qed.

Section Hist.
Variable self : Principal.
Variable keccak : list N -> Hash.

(** What is known about suspended functions *)
Definition pay_ok (s : State) (t : Task) : Prop :=
  sign_ok keccak s t /\
  match t with
  | TReimburse _ i _ rest => known_index s i /\ forall k v, In (k, v) rest -> known_index s k
  | _ => True
  end.

Lemma evt_mono (F F' : State -> Task -> Prop) s e : (forall t, F s t -> F' s t) -> evt keccak F s e -> evt keccak F' s e.
Proof.
  intros HF [(t & r & Hf & H)|[H|[(t & Hf & H)|H]]]; unfold evt; eauto 10.
Qed.
Lemma pay_evt s e : evt keccak pay_ok s e -> evt keccak (sign_ok keccak) s e.
Proof. apply evt_mono. intros t [H _]. exact H. Qed.

Definition whist (c : Core) : Prop := wlog c /\ rhist c.

Lemma rhist_same s s' log : reimb_requests (withdrawals s') = reimb_requests (withdrawals s) ->
  reimbursed (withdrawals s') = reimbursed (withdrawals s) -> rhist (s, log) -> rhist (s', log).
Proof.
  intros H1 H2 [A B C]. constructor; cbn in *; unfold owing, repaid, known_index in *; rewrite ?H1, ?H2; auto.
Qed.
Lemma sim_reimb s s' : sim s s' ->
  reimb_requests (withdrawals s') = reimb_requests (withdrawals s) /\
  reimbursed (withdrawals s') = reimbursed (withdrawals s).
Proof. intros H. apply sim_tables in H as (_ & p & -> & _). split; reflexivity. Qed.

Lemma known_evt s s' e i : wt_inv (withdrawals s) -> apply_state_transition s e = Done s' ->
  known_index s i -> known_index s' i.
Proof.
  intros Hi Ha. apply apply_wt in Ha. unfold known_index, dom. destruct (no_failure e) eqn:E.
  - destruct (no_failure_tables _ _ _ E Ha) as [-> ->]. auto.
  - destruct e; try discriminate; cbn in Ha.
    + apply record_finalized_spec in Ha as (k & l & s0 & req & _ & _ & _ & _ & _ & _ & Ha); auto.
      cbn zeta in Ha. destruct (is_failure _).
      * unfold record_reimbursement_request in Ha. inv_res. rewrite <- Ha. cbn. rewrite bget_insert.
        destruct (keqb_spec i (ri_of_request req)) as [Hk|Hk]; [left; discriminate|auto].
      * rewrite Ha. auto.
    + unfold record_finalized_reimbursement in Ha. inv_res. rewrite <- Ha. cbn. rewrite bget_insert, bget_remove.
      match goal with |- context [keqb i ?k] => destruct (keqb_spec i k) as [Hk|Hk]; [right; discriminate|auto] end.
    + unfold record_finalized_reimbursement in Ha. inv_res. rewrite <- Ha. cbn. rewrite bget_insert, bget_remove.
      match goal with |- context [keqb i ?k] => destruct (keqb_spec i k) as [Hk|Hk]; [right; discriminate|auto] end.
    + unfold record_reimbursement_request in Ha. inv_res. rewrite <- Ha. cbn. rewrite bget_insert.
      match goal with |- context [keqb i ?k] => destruct (keqb_spec i k) as [Hk|Hk]; [left; discriminate|auto] end.
    + injection Ha as Ha. rewrite <- Ha. cbn. rewrite bget_insert, bget_remove.
      match goal with |- context [keqb i ?k] => destruct (keqb_spec i k) as [Hk|Hk]; [right; discriminate|auto] end.
Qed.

Lemma finalized_accepted w h b rc : wt_inv w -> repr w h -> In (b, rc) (finalizations h) ->
  In b (map wr_burn_index (accepted h)).
Proof.
  intros Hi Hr H. apply (p_fin_all _ _ Hr) in H as (f & Hf & _).
  assert (Hd : dom b (processed w)).
  { apply (i_proc_dom w Hi). right. right. unfold dom. rewrite Hf. discriminate. }
  unfold dom in Hd. destruct (bget b (processed w)) as [r|] eqn:E; [|congruence].
  apply (p_processed _ _ Hr) in E as (H1 & <- & _). apply in_map; auto.
Qed.

Lemma failed_snoc_none h e i : accepted_by e = [] -> finalized_by e = [] ->
  (forall q, e <> EvFailedErc20WithdrawalRequest q) -> failed (h ++ [e]) i -> failed h i.
Proof.
  intros H1 H2 H3. rewrite !failed_by, accepted_snoc, finalizations_snoc, H1, H2, !app_nil_r.
  intros [H|(q & Hq & ->)]; auto. right. apply in_app_or in Hq as [Hq|[Hq|[]]]; eauto. destruct (H3 _ Hq).
Qed.

Lemma rhist_evt now s s' e log :
  core_ok keccak (s, log) -> whist (s, log) -> evt keccak pay_ok s e ->
  apply_state_transition s e = Done s' -> whist (s', record_event now e log).
Proof.
  intros Hc (Hw & Hr) He Ha.
  assert (Hw' : wlog (s', record_event now e log)) by (eapply wlog_evt; eauto using pay_evt).
  split; auto. pose proof (core_wt _ _ Hc) as Hi. cbn in Hi.
  assert (Hm : may_follow (history log) e).
  { destruct Hw' as (_ & Hf & _). cbn in Hf. rewrite history_snoc in Hf. apply (Hf _ _ []). reflexivity. }
  destruct Hw as (Hrep & _ & _). cbn [fst snd] in Hrep.
  pose proof (evt_not_init _ _ _ (pay_evt _ _ He)) as Hni.
  assert (Hq : forall i, e = EvQuarantinedReimbursement i -> known_index s i).
  { intros i ->. destruct He as [(t & r & Hf & H)|[(u & H)|[(t & [_ Hf] & H)|[(n & H)|(a & H & _)]]]]; try discriminate.
    - apply emits_inv in H. destruct H.
    - destruct u; try (destruct H; fail). destruct H as (_ & t & _ & H). discriminate.
    - destruct t; cbn in H; try (destruct H; fail); destruct H as [H|[]]; try discriminate. injection H as ->. apply Hf. }
  pose proof (fun i => known_evt _ _ _ i Hi Ha) as Hkn.
  destruct Hr as [A B C]. cbn [fst snd] in A, B, C.
  pose proof (apply_wt _ _ _ Ha) as Ht.
  destruct (no_failure e) eqn:E.
  { destruct (no_failure_tables _ _ _ E Ht) as [E1 E2]. constructor; cbn; rewrite ?history_snoc; unfold owing, repaid, known_index.
    - rewrite E1. intros i q H. apply owed_mono. auto.
    - rewrite E2. intros i d H. destruct (B i d H) as (q & H1 & H2). exists q. split; auto. apply owed_mono; auto.
    - intros i. rewrite E1, E2. fold (known_index s i). rewrite C. split; [apply failed_mono|].
      destruct (accepted_by e) as [|r l] eqn:Ea.
      + apply failed_snoc_none; auto; destruct e; try discriminate; auto; intros; discriminate.
      + assert (Hl : l = [] /\ finalized_by e = [] /\ ~ In (wr_burn_index r) (map wr_burn_index (accepted (history log)))).
        { destruct e; try discriminate Ea; cbn in Ea; injection Ea as <- <-; split; auto; split; auto; cbn in Hm; apply Hm; auto. }
        destruct Hl as (-> & Hfn & Hfr).
        rewrite !failed_by, accepted_snoc, finalizations_snoc, Ea, Hfn, app_nil_r.
        intros [(r0 & rc & H1 & H2 & H3 & ->)|(q & H1 & ->)].
        * apply in_app_or in H1 as [H1|[<-|[]]]; [left; eauto 6|].
          exfalso. apply Hfr. eapply finalized_accepted; eauto.
        * apply in_app_or in H1 as [H1|[H1|[]]]; [right; eauto|]. subst e. discriminate. }
  destruct e; try discriminate; cbn in Ht.
  - (* finalized *)
    rename withdrawal_id into b. 
    apply record_finalized_spec in Ht as (k & l & x & req & Hrow & Hin & Hfind & Hreq & Htry & Hk & Ht); auto.
    cbn zeta in Ht. pose proof (sent_attempts _ _ Hi Hrep _ _ _ Hrow) as Hatt.
    assert (Hx : In (rs_tx x) (attempts (history log) b)) by (rewrite <- Hatt; apply in_map; auto).
    apply try_finalize_spec in Htry as (Hh & _).
    apply (p_processed _ _ Hrep) in Hreq as (Hacc & Hburn & _).
    assert (Hnew : is_failure (rc_status receipt) = true ->
      owed (history log ++ [EvFinalizedTransaction b receipt]) (ri_of_request req)
        (reimbursement_of req b {| ft_tx := rs_tx x; ft_receipt := receipt |} receipt)).
    { intros Hfail. assert (Hs : rc_status receipt = TxFailure) by (destruct (rc_status receipt); auto; discriminate).
      subst b. destruct req as [r|r]; cbn.
      - eapply OwedNative with (r := r) (rc := receipt) (x := rs_tx x);
          rewrite ?accepted_snoc, ?finalizations_snoc, ?attempts_snoc; cbn; auto; apply in_or_app; cbn; auto.
      - eapply OwedErc20 with (r := r) (rc := receipt) (x := rs_tx x);
          rewrite ?accepted_snoc, ?finalizations_snoc, ?attempts_snoc; cbn; auto; apply in_or_app; cbn; auto. }
    assert (Hold : forall i, failed (history log ++ [EvFinalizedTransaction b receipt]) i ->
      failed (history log) i \/ (is_failure (rc_status receipt) = true /\ i = ri_of_request req)).
    { intros i. rewrite !failed_by, accepted_snoc, finalizations_snoc. cbn [accepted_by finalized_by]. rewrite app_nil_r.
      intros [(r & rc & H1 & H2 & H3 & ->)|(q & H1 & ->)].
      - apply in_app_or in H2 as [H2|[H2|[]]]; [eauto 8|]. injection H2 as H2 <-. right. rewrite H3. split; auto. f_equal.
        eapply (nodup_burn_unique (accepted (history log))); eauto; [apply (p_acc_nodup _ _ Hrep)|congruence].
      - apply in_app_or in H1 as [H1|[H1|[]]]; [eauto 6|discriminate]. }
    clear Hburn Hk. destruct (is_failure (rc_status receipt)) eqn:Ef.
    + unfold record_reimbursement_request in Ht. inv_res.
      assert (E1 : reimb_requests (withdrawals s') = binsert (ri_of_request req)
        (reimbursement_of req b {| ft_tx := rs_tx x; ft_receipt := receipt |} receipt) (reimb_requests (withdrawals s)))
        by (rewrite <- Ht; reflexivity).
      assert (E2 : reimbursed (withdrawals s') = reimbursed (withdrawals s)) by (rewrite <- Ht; reflexivity).
      clear Ht H H0 H1. constructor; cbn [fst snd]; rewrite ?history_snoc; unfold owing, repaid.
      * rewrite E1. intros i q. rewrite bget_insert. destruct (keqb_spec i (ri_of_request req)) as [Hj|Hj].
        -- injection 1 as <-. subst i. auto.
        -- intros H. apply owed_mono. apply A. exact H.
      * rewrite E2. intros i d H2. destruct (B i d H2) as (q & H3 & H4). exists q. split; auto. apply owed_mono; auto.
      * intros i. split.
        -- unfold known_index, dom. rewrite E1, E2, bget_insert. destruct (keqb_spec i (ri_of_request req)) as [Hj|Hj].
           ++ intros _. subst i. eapply owed_failed. apply Hnew; auto.
           ++ intros H. apply failed_mono. apply C. exact H.
        -- intros H. apply Hold in H as [H|[_ ->]]; [apply Hkn, C; auto|].
           left. unfold dom. rewrite E1, bget_insert_eq. discriminate.
    + assert (E1 : reimb_requests (withdrawals s') = reimb_requests (withdrawals s)) by (rewrite Ht; reflexivity).
      assert (E2 : reimbursed (withdrawals s') = reimbursed (withdrawals s)) by (rewrite Ht; reflexivity).
      clear Ht. constructor; cbn [fst snd]; rewrite ?history_snoc; unfold owing, repaid.
      * rewrite E1. intros i q H. apply owed_mono. apply A. exact H.
      * rewrite E2. intros i d H2. destruct (B i d H2) as (q & H3 & H4). exists q. split; auto. apply owed_mono; auto.
      * intros i. split.
        -- unfold known_index. rewrite E1, E2. intros H. apply failed_mono. apply C. exact H.
        -- intros H. apply Hold in H as [H|[? _]]; [apply Hkn, C; auto|discriminate].
  - (* repaid, native *)
    unfold record_finalized_reimbursement in Ht. inv_res. rename x into q0.
    assert (E1 : reimb_requests (withdrawals s') = bremove (RINative (rd_burn_in_block r)) (reimb_requests (withdrawals s)))
      by (rewrite <- Ht; reflexivity).
    assert (E2 : reimbursed (withdrawals s') = binsert (RINative (rd_burn_in_block r)) (ReimbursedOk
       {| rd_reimbursed_in_block := rd_reimbursed_in_block r; rd_burn_in_block := rd_burn_in_block r;
          rd_reimbursed_amount := rr_reimbursed_amount q0; rd_transaction_hash := rr_transaction_hash q0 |})
       (reimbursed (withdrawals s))) by (rewrite <- Ht; reflexivity).
    clear Ht. pose proof (A _ _ H) as Ho.
    constructor; cbn [fst snd]; rewrite ?history_snoc; unfold owing, repaid.
    + rewrite E1. intros i q. rewrite bget_remove. match goal with |- context [keqb i ?k] => destruct (keqb_spec i k) as [Hj|Hj]; [discriminate|] end.
      intros Hq'. apply owed_mono. auto.
    + rewrite E2. intros i d. rewrite bget_insert. match goal with |- context [keqb i ?k] => destruct (keqb_spec i k) as [Hj|Hj] end.
      * injection 1 as <-. subst i. exists q0. split; [apply owed_mono; auto|]. cbn. pose proof (owed_burn _ _ _ Ho) as Hb. cbn in Hb. auto.
      * intros H2. destruct (B i d H2) as (q & H3 & H4). exists q. split; auto. apply owed_mono; auto.
    + intros i. split.
      * unfold known_index, dom. rewrite E1, E2, bget_insert, bget_remove.
        match goal with |- context [keqb i ?k] => destruct (keqb_spec i k) as [Hj|Hj] end.
        -- intros _. subst i. apply failed_mono. eapply owed_failed; eauto.
        -- intros H'. apply failed_mono, C. exact H'.
      * intros H'. apply Hkn, C. revert H'. apply failed_snoc_none; auto. intros; discriminate.
  - (* repaid, ERC20 *)
    match type of Ha with context [EvReimbursedErc20Withdrawal _ _ ?x] => rename x into reimbursed0 end.
    unfold record_finalized_reimbursement in Ht. inv_res. rename x into q0.
    set (i0 := RIErc20 native_ledger_burn_index erc20_ledger_id (rd_burn_in_block reimbursed0)) in *.
    assert (E1 : reimb_requests (withdrawals s') = bremove i0 (reimb_requests (withdrawals s)))
      by (rewrite <- Ht; reflexivity).
    assert (E2 : reimbursed (withdrawals s') = binsert i0 (ReimbursedOk
       {| rd_reimbursed_in_block := rd_reimbursed_in_block reimbursed0; rd_burn_in_block := rd_burn_in_block reimbursed0;
          rd_reimbursed_amount := rr_reimbursed_amount q0; rd_transaction_hash := rr_transaction_hash q0 |})
       (reimbursed (withdrawals s))) by (rewrite <- Ht; reflexivity).
    clear Ht. pose proof (A _ _ H) as Ho.
    constructor; cbn [fst snd]; rewrite ?history_snoc; unfold owing, repaid.
    + rewrite E1. intros i q. rewrite bget_remove. match goal with |- context [keqb i ?k] => destruct (keqb_spec i k) as [Hj|Hj]; [discriminate|] end.
      intros Hq'. apply owed_mono. auto.
    + rewrite E2. intros i d. rewrite bget_insert. match goal with |- context [keqb i ?k] => destruct (keqb_spec i k) as [Hj|Hj] end.
      * injection 1 as <-. subst i. exists q0. split; [apply owed_mono; auto|]. cbn. pose proof (owed_burn _ _ _ Ho) as Hb. cbn in Hb. auto.
      * intros H2. destruct (B i d H2) as (q & H3 & H4). exists q. split; auto. apply owed_mono; auto.
    + intros i. split.
      * unfold known_index, dom. rewrite E1, E2, bget_insert, bget_remove.
        match goal with |- context [keqb i ?k] => destruct (keqb_spec i k) as [Hj|Hj] end.
        -- intros _. subst i. apply failed_mono. eapply owed_failed; eauto.
        -- intros H'. apply failed_mono, C. exact H'.
      * intros H'. apply Hkn, C. revert H'. apply failed_snoc_none; auto. intros; discriminate.
  - (* a failed token burn *)
    unfold record_reimbursement_request in Ht. inv_res.
    assert (E1 : reimb_requests (withdrawals s') = binsert (RINative (rr_ledger_burn_index r)) r (reimb_requests (withdrawals s)))
      by (rewrite <- Ht; reflexivity).
    assert (E2 : reimbursed (withdrawals s') = reimbursed (withdrawals s)) by (rewrite <- Ht; reflexivity).
    clear Ht. assert (Hnew : owed (history log ++ [EvFailedErc20WithdrawalRequest r]) (RINative (rr_ledger_burn_index r)) r).
    { apply OwedFee. apply in_or_app. right. left; auto. }
    constructor; cbn [fst snd]; rewrite ?history_snoc; unfold owing, repaid.
    + rewrite E1. intros i q. rewrite bget_insert. match goal with |- context [keqb i ?k] => destruct (keqb_spec i k) as [Hj|Hj] end.
      * injection 1 as <-. subst i. auto.
      * intros Hq'. apply owed_mono. auto.
    + rewrite E2. intros i d H2. destruct (B i d H2) as (q & H3 & H4). exists q. split; auto. apply owed_mono; auto.
    + intros i. split.
      * unfold known_index, dom. rewrite E1, E2, bget_insert.
        match goal with |- context [keqb i ?k] => destruct (keqb_spec i k) as [Hj|Hj] end.
        -- intros _. subst i. eapply owed_failed; eauto.
        -- intros H'. apply failed_mono, C. exact H'.
      * rewrite failed_by, accepted_snoc, finalizations_snoc, !app_nil_r.
        intros [H'|(q & H' & ->)]; [apply Hkn, C, failed_by; auto|].
        apply in_app_or in H' as [H'|[H'|[]]]; [apply Hkn, C, failed_by; eauto|]. injection H' as <-.
        left. unfold dom. rewrite E1, bget_insert_eq. discriminate.
  - (* quarantined *)
    injection Ht as Ht. match type of Ht with record_quarantined_reimbursement ?x _ = _ => set (i0 := x) in * end.
    assert (E1 : reimb_requests (withdrawals s') = bremove i0 (reimb_requests (withdrawals s)))
      by (rewrite <- Ht; reflexivity).
    assert (E2 : reimbursed (withdrawals s') = binsert i0 ReimbursedQuarantined (reimbursed (withdrawals s)))
      by (rewrite <- Ht; reflexivity).
    clear Ht. specialize (Hq i0 eq_refl).
    constructor; cbn [fst snd]; rewrite ?history_snoc; unfold owing, repaid.
    + rewrite E1. intros i q. rewrite bget_remove. match goal with |- context [keqb i ?k] => destruct (keqb_spec i k) as [Hj|Hj]; [discriminate|] end.
      intros Hq'. apply owed_mono. auto.
    + rewrite E2. intros i d. rewrite bget_insert. match goal with |- context [keqb i ?k] => destruct (keqb_spec i k) as [Hj|Hj]; [discriminate|] end.
      intros H2. destruct (B i d H2) as (q & H3 & H4). exists q. split; auto. apply owed_mono; auto.
    + intros i. split.
      * unfold known_index, dom. rewrite E1, E2, bget_insert, bget_remove.
        match goal with |- context [keqb i ?k] => destruct (keqb_spec i k) as [Hj|Hj] end.
        -- intros _. subst i. apply failed_mono, C. exact Hq.
        -- intros H'. apply failed_mono, C. exact H'.
      * intros H'. apply Hkn, C. revert H'. apply failed_snoc_none; auto. intros; discriminate.
Qed.

Lemma whist_init now a s : state_of_init a = ROk s -> whist (s, record_event now (EvInit a) []).
Proof.
  intros H. split; [apply wlog_init; auto|].
  assert (Hw : withdrawals s = wt_new (ia_next_transaction_nonce a)).
  { apply state_of_init_spec in H as (_ & h & _ & -> & _). reflexivity. }
  constructor; cbn [fst snd]; unfold owing, repaid, known_index, dom; rewrite ?Hw; cbn; try discriminate.
  intros i. split; [tauto|]. intros [r rc H1 H2 _|r rc H1 H2 _|q [Hq|[]]]; cbn in *; tauto || discriminate.
Qed.
Lemma whist_sim s s' log : sim s s' -> whist (s, log) -> whist (s', log).
Proof.
  intros Hs [H1 H2]. split; [eapply wlog_sim; eauto|].
  apply sim_reimb in Hs as [E1 E2]. eapply rhist_same; eauto.
Qed.
Lemma known_sim s s' i : sim s s' -> known_index s i -> known_index s' i.
Proof. intros Hs. apply sim_reimb in Hs as [E1 E2]. unfold known_index. rewrite E1, E2. auto. Qed.

Lemma pay_next now t r c c' t' :
  core_ok keccak c' -> pay_ok (fst c') t -> next_spec now t r c c' t' -> pay_ok (fst c') t'.
Proof.
  intros Hc [_ Hp] H. split; [eapply sign_ok_next; eauto|]. destruct t'; auto.
  destruct H as (l0 & i0 & q0 & -> & ->). destruct Hp as [_ Hp]. split; [|intros k v Hk]; eapply Hp; cbn; eauto.
Qed.
Lemma pay_timer now k c c' t' :
  core_ok keccak c' -> timer_next now k c c' (Await t') -> pay_ok (fst c') t'.
Proof.
  intros Hc H. split; [eapply sign_ok_timer; eauto|]. destruct t'; auto. cbn in H. 
  assert (Hk : forall k v, In (k, v) (reimb_requests (withdrawals (fst c'))) -> known_index (fst c') k).
  { intros k0 v Hin. left. unfold dom. apply bget_iff_In in Hin; [rewrite Hin; discriminate|].
    apply (i_rq_sorted _ (core_wt _ _ Hc)). }
  destruct H as (-> & _ & _ & Hq & _). rewrite Hq in Hk. split; [eapply Hk; left; auto|].
  intros k v Hin. eapply Hk. right; eauto.
Qed.
Lemma pay_call now u c c' t' : call_next now u c c' (Await t') -> pay_ok (fst c') t'.
Proof. intros H. split; [eapply sign_ok_call; eauto|]. apply call_next_task in H. destruct t'; cbn in *; tauto. Qed.

Lemma whist_reach (env : Sys -> Label -> Prop) s :
  (forall s l, env s l -> nonce_kept s l) -> reach self keccak env s -> all_kept keccak pay_ok whist s.
Proof.
  intros He Hr. eapply (kept_reach self keccak pay_ok whist) with (env := env); eauto.
  - apply whist_init.
  - intros ? ? ? _ Hw Hs. eapply whist_sim; eauto.
  - apply rhist_evt.
  - intros s0 s1 t [H1 H2] Hs. split; [eapply sign_ok_sim; eauto|]. destruct t; auto.
    destruct H2 as [H2 H3]. split; [eapply known_sim; eauto|intros; eapply known_sim; eauto].
  - intros s0 s1 e log t Hc _ _ Ha [H1 H2]. split; [eapply sign_ok_evt; eauto|]. destruct t; auto.
    pose proof (core_wt _ _ Hc) as Hi. destruct H2 as [H2 H3].
    split; [eapply known_evt; eauto|intros; eapply known_evt; eauto].
  - intros. eapply pay_next; eauto.
  - intros. eapply pay_timer; eauto.
  - intros. eapply pay_call; eauto.
Qed.
Lemma rhist_reach (env : Sys -> Label -> Prop) s :
  (forall s l, env s l -> nonce_kept s l) -> reach self keccak env s -> rhist (sys_core s).
Proof. intros He Hr. destruct (whist_reach _ _ He Hr) as (_ & [_ H] & _). exact H. Qed.

End Hist.

(** ** The ledgers *)

Definition PaidOp : Type := ReimbursementIndex * ReimbursementRequest * N.
Definition paid_index (x : PaidOp) : ReimbursementIndex := fst (fst x).
Definition paid_op (native : Principal) (x : PaidOp) : Op := (payment native (fst (fst x)) (snd (fst x)), snd x).

Definition settled (rd : ReimbursementIndex -> option ReimbursedResult) (i : ReimbursementIndex)
  (q : ReimbursementRequest) (b : N) : Prop :=
  (exists d, rd i = Some (ReimbursedOk d) /\ rd_reimbursed_in_block d = b /\
     rd_burn_in_block d = rr_ledger_burn_index q /\ rd_reimbursed_amount d = rr_reimbursed_amount q /\
     rd_transaction_hash d = rr_transaction_hash q) \/
  rd i = Some ReimbursedQuarantined.
Definition inflight (get : N -> option Flight) (i : ReimbursementIndex) (q : ReimbursementRequest) (b : N) : Prop :=
  exists id l rest, get id = Some {| fl_task := TReimburse l i q rest; fl_reply := Some (ReLedger (LedgerOk b)) |}.

Record ledgered (native : Principal) (h : list EventType) (rd : ReimbursementIndex -> option ReimbursedResult)
  (get : N -> option Flight) (ops : list Op) (L : list PaidOp) : Prop := {
  lg_ops : reimbursements ops = map (paid_op native) L;
  lg_nodup : NoDup (map paid_index L);
  lg_in : forall i q b, In (i, q, b) L -> owed h i q /\ (settled rd i q b \/ inflight get i q b);
  lg_done : forall i d, rd i = Some (ReimbursedOk d) -> exists q, In (i, q, rd_reimbursed_in_block d) L;
  lg_fly : forall i q b, inflight get i q b -> In (i, q, b) L
}.

Definition job_at (get : N -> option Flight) (l : Principal) (i : ReimbursementIndex) (q : ReimbursementRequest)
  (rest : list (ReimbursementIndex * ReimbursementRequest)) : Prop :=
  exists id fl, get id = Some fl /\ fl_task fl = TReimburse l i q rest.
Definition entries_ok (s : State) (es : list (ReimbursementIndex * ReimbursementRequest)) : Prop :=
  NoDup (map fst es) /\ forall k v, In (k, v) es -> owing s k v.
Definition rjob_ok (s : State) (l : Principal) (i : ReimbursementIndex) (q : ReimbursementRequest)
  (rest : list (ReimbursementIndex * ReimbursementRequest)) : Prop :=
  l = reimburse_ledger s i /\ entries_ok s ((i, q) :: rest).

Definition sget (s : Sys) (id : N) : option Flight := bget id (sys_tasks s).
Definition rdf (s : State) (i : ReimbursementIndex) : option ReimbursedResult := bget i (reimbursed (withdrawals s)).

Record pays_ok (s : Sys) : Prop := {
  po_job : forall l i q rest, job_at (sget s) l i q rest -> rjob_ok (sys_state s) l i q rest;
  po_list : exists L, ledgered (native_ledger_id (sys_state s)) (history (sys_log s)) (rdf (sys_state s))
    (sget s) (sys_ops s) L
}.

(** the functions before and after one of them changed *)
Definition reimbursing (t : Task) : Prop := exists l i q rest, t = TReimburse l i q rest.
Lemma reimbursing_dec t : reimbursing t \/ ~ reimbursing t.
Proof. destruct t; try (right; intros (? & ? & ? & ? & ?); discriminate). left. unfold reimbursing. eauto. Qed.

Lemma owed_grows log log' i q : grows log log' -> owed (history log) i q -> owed (history log') i q.
Proof.
  intros (es & -> & _) H. unfold history. rewrite map_app. induction (map ev_payload es) as [|e l IH] using rev_ind.
  - rewrite app_nil_r. exact H.
  - rewrite app_assoc. apply owed_mono. exact IH.
Qed.

Lemma inflight_put id o get get' i q b : put id o get get' ->
  (forall fl, get id = Some fl -> ~ reimbursing (fl_task fl)) ->
  (forall fl, o = Some fl -> reimbursing (fl_task fl) -> fl_reply fl = None) ->
  (inflight get' i q b <-> inflight get i q b).
Proof.
  intros Hp H1 H2. unfold inflight. split; intros (id' & l & rest & H); exists id', l, rest.
  - rewrite Hp in H. destruct (keqb_spec id' id) as [Hk|Hk]; auto.
    apply H2 in H; [|cbn; unfold reimbursing; eauto]. discriminate.
  - rewrite Hp. destruct (keqb_spec id' id) as [Hk|Hk]; auto. subst. apply H1 in H. destruct H. cbn. unfold reimbursing. eauto.
Qed.

Lemma ledgered_frame native h h' rd rd' get get' ops ops' L :
  (forall i q, owed h i q -> owed h' i q) -> (forall i, rd' i = rd i) ->
  (forall i q b, inflight get' i q b <-> inflight get i q b) -> reimbursements ops' = reimbursements ops ->
  ledgered native h rd get ops L -> ledgered native h' rd' get' ops' L.
Proof.
  intros Ho Hrd Hf Hops [A B C D E]. constructor; auto.
  - congruence.
  - intros i q b H. destruct (C _ _ _ H) as [H1 H2]. split; auto. unfold settled in *. rewrite !Hrd, Hf. exact H2.
  - intros i d. rewrite Hrd. apply D.
  - intros i q b. rewrite Hf. apply E.
Qed.

(** the function paying [i] learned the outcome *)
Lemma ledgered_settle native h h' rd rd' get get' ops L i q :
  (forall k v, owed h k v -> owed h' k v) ->
  (forall k, k <> i -> rd' k = rd k) -> rd i = None ->
  (forall k v b, ~ inflight get' k v b) ->
  (forall k v b, inflight get k v b -> k = i /\ v = q /\ settled rd' i q b) ->
  (forall d, rd' i = Some (ReimbursedOk d) -> inflight get i q (rd_reimbursed_in_block d)) ->
  ledgered native h rd get ops L -> ledgered native h' rd' get' ops L.
Proof.
  intros Ho Hrd Hn Hf' Hf Hd [A B C D E]. constructor; auto.
  - intros k v b H. destruct (C _ _ _ H) as [H1 [H2|H2]]; split; auto; left.
    + destruct (key_dec k i) as [Hk|Hk].
      * subst. destruct H2 as [(d & H2 & _)|H2]; congruence.
      * unfold settled in *. rewrite (Hrd _ Hk). exact H2.
    + destruct (Hf _ _ _ H2) as (-> & -> & H3). exact H3.
  - intros k d H. destruct (key_dec k i) as [Hk|Hk].
    + subst. exists q. apply E. apply Hd. exact H.
    + rewrite (Hrd _ Hk) in H. eauto.
  - intros k v b H. destruct (Hf' _ _ _ H).
Qed.

(** the ledger pays *)
Lemma ledgered_pay native h rd get get' ops L i q b :
  owed h i q -> rd i = None -> (forall k v b', ~ inflight get k v b') ->
  (forall k v b', inflight get' k v b' <-> k = i /\ v = q /\ b' = b) ->
  ledgered native h rd get ops L ->
  ledgered native h rd get' (ops ++ [(payment native i q, b)]) (L ++ [(i, q, b)]).
Proof.
  intros Ho Hn Hf Hf' [A B C D E]. constructor.
  - unfold reimbursements in *. rewrite map_app, <- A. rewrite filter_app. f_equal. cbn.
    destruct (rr_transaction_hash q); reflexivity.
  - rewrite map_app. cbn. apply nodup_snoc; auto. intros Hin. apply in_map_iff in Hin as ([[k v] b'] & Hk & Hin).
    cbn in Hk. unfold paid_index in Hk. cbn in Hk. subst k. destruct (C _ _ _ Hin) as [_ [H|H]].
    + destruct H as [(d & H & _)|H]; congruence.
    + destruct (Hf _ _ _ H).
  - intros k v b' H. apply in_app_or in H as [H|[H|[]]].
    + destruct (C _ _ _ H) as [H1 [H2|H2]]; auto. destruct (Hf _ _ _ H2).
    + injection H as <- <- <-. split; auto. right. apply Hf'. auto.
  - intros k d H. destruct (D _ _ H) as (v & Hv). exists v. apply in_or_app; auto.
  - intros k v b' H. apply Hf' in H as (-> & -> & ->). apply in_or_app. right. left. reflexivity.
Qed.

(** the tables, while nothing is repaid *)
Definition rkeep (s s' : State) : Prop :=
  (forall i q, owing s i q -> owing s' i q) /\ (forall i, rdf s' i = rdf s i) /\
  native_ledger_id s' = native_ledger_id s.
Lemma rkeep_refl s : rkeep s s.
Proof. split; auto. Qed.
Lemma rkeep_trans a b c : rkeep a b -> rkeep b c -> rkeep a c.
Proof. intros (A1 & A2 & A3) (B1 & B2 & B3). split; [auto|split; [intros; rewrite B2; auto|congruence]]. Qed.
Lemma rkeep_sim s s' : sim s s' -> rkeep s s'.
Proof.
  intros H. pose proof (sim_reimb _ _ H) as [E1 E2]. unfold rkeep, owing, rdf. rewrite E1, E2. split; auto. split; auto.
  destruct H as (v & p & _ & ->). reflexivity.
Qed.

Definition no_repay (e : EventType) : bool :=
  match e with
  | EvReimbursedNativeWithdrawal _ | EvReimbursedErc20Withdrawal _ _ _ | EvQuarantinedReimbursement _ => false
  | _ => true
  end.
Lemma owing_insert i q0 w w' : record_reimbursement_request i q0 w = Done w' ->
  reimbursed w' = reimbursed w /\
  (forall k v, bget k (reimb_requests w) = Some v -> bget k (reimb_requests w') = Some v).
Proof.
  unfold record_reimbursement_request. intros H. inv_res. cbn. split; auto. intros k v Hk. rewrite bget_insert.
  destruct (keqb_spec k i) as [He|He]; auto. subst. apply negb_true_iff, bmem_false in H2. congruence.
Qed.
Lemma rkeep_event e s s' : no_repay e = true -> apply_state_transition s e = Done s' -> rkeep s s'.
Proof.
  intros He Ha. destruct (apply_same _ _ _ Ha) as ((_ & Hn & _) & _). apply apply_wt in Ha.
  assert (H : reimbursed (withdrawals s') = reimbursed (withdrawals s) /\
    forall k v, bget k (reimb_requests (withdrawals s)) = Some v -> bget k (reimb_requests (withdrawals s')) = Some v).
  { destruct (no_failure e) eqn:E.
    - destruct (no_failure_tables _ _ _ E Ha) as [-> ->]. auto.
    - destruct e; try discriminate; cbn in Ha.
      + unfold record_finalized_transaction in Ha. inv_res. destruct x2. inv_res.
        destruct (is_failure _); [apply owing_insert in Ha as [H7 H8]; rewrite H7; split; auto|].
        injection Ha as <-. auto.
      + apply owing_insert in Ha. auto. }
  destruct H as [H1 H2]. split; [exact H2|]. split; auto. intros i. unfold rdf. rewrite H1. reflexivity.
Qed.
Lemma rkeep_micros (J : EventType -> Prop) now c c' : (forall e, J e -> no_repay e = true) ->
  wmicros J now c c' -> rkeep (fst c) (fst c').
Proof.
  intros HJ. apply (wmicros_rel J now (fun c c' => rkeep (fst c) (fst c'))).
  - intros. apply rkeep_refl.
  - intros. eapply rkeep_trans; eauto.
  - intros c0 c1 H. inversion H; subst; cbn.
    + apply rkeep_sim, vstep_sim. auto.
    + eapply rkeep_event; eauto.
    + unfold reschedule_withdrawal_request in H0. inv_res. apply record_withdrawal_request_spec in H0.
      decompose [and] H0. subst w'. split; [|split]; auto.
Qed.

Lemma rjob_keep s s' l i q rest : rkeep s s' -> rjob_ok s l i q rest -> rjob_ok s' l i q rest.
Proof.
  intros (A & _ & B) (H1 & H2 & H3). split; [|split]; auto.
  rewrite H1. unfold reimburse_ledger. destruct i; auto.
Qed.

Section Ledgers.
Variable self : Principal.
Variable keccak : list N -> Hash.

Definition rknown (s : Sys) : Prop :=
  ids_ok s /\ guards_ok s /\ core_ok keccak (sys_core s) /\ rhist (sys_core s).
Lemma rknown_reach (env : Sys -> Label -> Prop) s :
  (forall s l, env s l -> nonce_kept s l) -> reach self keccak env s -> rknown s.
Proof.
  intros He H. split; [eapply ids_reach; eauto|]. split; [eapply guards_reach; eauto|].
  split; [eapply core_reach; eauto|]. eapply rhist_reach; eauto.
Qed.

Lemma reimbursing_unique s i1 i2 f1 f2 : guards_ok s ->
  sget s i1 = Some f1 -> reimbursing (fl_task f1) -> sget s i2 = Some f2 -> reimbursing (fl_task f2) -> i1 = i2.
Proof.
  intros Hg H1 (l & i & q & r & J1) H2 (l' & i' & q' & r' & J2). apply (gd_uniq _ _ _ (go_timer _ Hg) TaskReimbursement).
  - exists f1. split; auto. unfold by_timer. rewrite J1. cbn; auto.
  - exists f2. split; auto. unfold by_timer. rewrite J2. cbn; auto.
Qed.

(** A step that concerns no reimbursement, except perhaps for starting one *)
Lemma pays_frame s s' id o :
  pays_ok s -> reimbursements (sys_ops s') = reimbursements (sys_ops s) -> rkeep (sys_state s) (sys_state s') ->
  grows (sys_log s) (sys_log s') -> put id o (sget s) (sget s') ->
  (forall fl, sget s id = Some fl -> ~ reimbursing (fl_task fl)) ->
  (forall fl l i q rest, o = Some fl -> fl_task fl = TReimburse l i q rest ->
     fl_reply fl = None /\ rjob_ok (sys_state s') l i q rest) ->
  pays_ok s'.
Proof.
  intros [P1 (L & P2)] Hops Hk Hg Hp Hold Hnew. constructor.
  - intros l i q rest (id' & fl & H1 & H2). rewrite Hp in H1. destruct (keqb_spec id' id) as [He|He].
    + eapply Hnew; eauto.
    + eapply rjob_keep; eauto. apply P1. exists id', fl. auto.
  - exists L. destruct Hk as (_ & K2 & K3). rewrite K3. eapply ledgered_frame; [| | | |exact P2]; auto.
    + intros i q. apply owed_grows. auto.
    + intros i q b. eapply inflight_put; eauto. intros fl H (l & i' & q' & r & Ht). eapply Hnew; eauto.
Qed.

Lemma entries_start s i q rest : bsorted (reimb_requests (withdrawals s)) ->
  reimb_requests (withdrawals s) = (i, q) :: rest -> entries_ok s ((i, q) :: rest).
Proof.
  intros Hs <-. split.
  - apply bsorted_NoDup in Hs. exact Hs.
  - intros k v H. apply bget_iff_In in H; auto.
Qed.

Lemma emits_no_repay t r e : ~ reimbursing t -> wemits keccak t r e -> no_repay e = true.
Proof.
  intros Hn [(s & H)|H].
  - apply emits_inv in H. destruct e; cbn; auto; cbn in H; try tauto;
      destruct H as (l & i & q & rest & b & -> & _); destruct Hn; unfold reimbursing; eauto.
  - destruct H as (g & id & x & _ & [-> | ->]); reflexivity.
Qed.

(** ** A callback of the reimbursing function *)
Lemma reimbursed_event_apply s i q b s' :
  wt_inv (withdrawals s) -> owing s i q -> rr_ledger_burn_index q = ri_burn_in_block i ->
  apply_state_transition s (reimbursed_event i q b) = Done s' ->
  rdf s i = None /\
  (exists d, rdf s' i = Some (ReimbursedOk d) /\ rd_reimbursed_in_block d = b /\
     rd_burn_in_block d = rr_ledger_burn_index q /\ rd_reimbursed_amount d = rr_reimbursed_amount q /\
     rd_transaction_hash d = rr_transaction_hash q) /\
  (forall k, k <> i -> rdf s' k = rdf s k) /\
  (forall k v, k <> i -> owing s k v -> owing s' k v) /\
  native_ledger_id s' = native_ledger_id s.
Proof.
  intros Hi Ho Hb Ha. destruct (apply_same _ _ _ Ha) as ((_ & Hn & _) & _). apply apply_wt in Ha.
  assert (H : record_finalized_reimbursement i b (withdrawals s) = Done (withdrawals s')).
  { destruct i; cbn in *; rewrite Hb in Ha; exact Ha. }
  clear Ha. unfold record_finalized_reimbursement, owing in *. rewrite Ho in H. inv_res. injection H0 as <-.
  assert (Hrd : bget i (reimbursed (withdrawals s)) = None).
  { apply (i_rq_rd _ Hi). unfold dom. rewrite Ho. discriminate. }
  unfold rdf. rewrite <- H. cbn. rewrite bget_insert_eq. split; auto. split.
  { eexists. split; [reflexivity|]. cbn. auto. }
  split; [intros; rewrite bget_insert_ne; auto|]. split; auto. intros k v Hk. rewrite bget_remove_ne; auto.
Qed.

Lemma quarantine_apply s i s' : apply_state_transition s (EvQuarantinedReimbursement i) = Done s' ->
  rdf s' i = Some ReimbursedQuarantined /\ (forall k, k <> i -> rdf s' k = rdf s k) /\
  native_ledger_id s' = native_ledger_id s.
Proof.
  intros Ha. destruct (apply_same _ _ _ Ha) as ((_ & Hn & _) & _). apply apply_wt in Ha. cbn in Ha. injection Ha as Ha.
  unfold rdf. rewrite <- Ha. cbn. rewrite bget_insert_eq. split; auto. split; auto. intros k Hk. rewrite bget_insert_ne; auto.
Qed.

(** the function that repays goes on with the rest of the list *)
Lemma pays_move s s' id fl l i q rest o :
  guards_ok s -> pays_ok s -> sys_ops s' = sys_ops s -> grows (sys_log s) (sys_log s') ->
  sget s id = Some fl -> fl_task fl = TReimburse l i q rest -> put id o (sget s) (sget s') ->
  native_ledger_id (sys_state s') = native_ledger_id (sys_state s) ->
  (forall k, k <> i -> rdf (sys_state s') k = rdf (sys_state s) k) ->
  rdf (sys_state s) i = None ->
  (forall b, fl_reply fl = Some (ReLedger (LedgerOk b)) -> settled (rdf (sys_state s')) i q b) ->
  (forall d, rdf (sys_state s') i = Some (ReimbursedOk d) ->
     fl_reply fl = Some (ReLedger (LedgerOk (rd_reimbursed_in_block d)))) ->
  (forall fl' l' i' q' rest', o = Some fl' -> fl_task fl' = TReimburse l' i' q' rest' ->
     fl_reply fl' = None /\ rjob_ok (sys_state s') l' i' q' rest') ->
  pays_ok s'.
Proof.
  intros Hg [P1 (L & P2)] Hops Hgr Hget Ht Hp Hn Hrd Hi Hset Hdone Hnew.
  assert (Hre : reimbursing (fl_task fl)) by (rewrite Ht; unfold reimbursing; eauto 6).
  constructor.
  - intros l' i' q' rest' (id' & fl' & H1 & H2). rewrite Hp in H1. destruct (keqb_spec id' id) as [He|He].
    + eapply Hnew; eauto.
    + destruct He. eapply reimbursing_unique; eauto. rewrite H2. unfold reimbursing; eauto 6.
  - exists L. rewrite Hn, Hops. eapply ledgered_settle with (i := i) (q := q); [| | | | | |exact P2]; auto.
    + intros k v. apply owed_grows. auto.
    + intros k v b (id' & l' & r' & H). rewrite Hp in H. destruct (keqb_spec id' id) as [He|He].
      * eapply Hnew in H; [|reflexivity]. destruct H as [H _]. discriminate.
      * destruct He. eapply reimbursing_unique; eauto. cbn. unfold reimbursing; eauto 6.
    + intros k v b (id' & l' & r' & H).
      assert (id' = id) by (eapply reimbursing_unique; eauto; cbn; unfold reimbursing; eauto 6). subst id'.
      rewrite Hget in H. injection H as ->. cbn in *. injection Ht as -> -> -> ->. auto.
    + intros d H. apply Hdone in H. exists id, l, rest. rewrite Hget. f_equal. destruct fl; cbn in *. congruence.
Qed.

Lemma rjob_rest s l i q rest l' i' q' rest' nx c' :
  rjob_ok s l i q rest -> reimburse_next rest c' = Done (c', Await nx) -> nx = TReimburse l' i' q' rest' ->
  native_ledger_id (fst c') = native_ledger_id s ->
  (forall k v, k <> i -> owing s k v -> owing (fst c') k v) ->
  rjob_ok (fst c') l' i' q' rest'.
Proof.
  intros (H1 & H2 & H3) H -> Hn Ho. destruct rest as [|[k v] rest]; cbn in H; [discriminate|].
  cbn in H2. inversion H2 as [|? ? Hni Hnd]; subst.
  injection H as H4 H5 H6 H7. subst. split; [destruct i'; auto|]. split; [exact Hnd|].
  intros k w Hin. apply Ho; [|apply H3; right; exact Hin]. intros ->. apply Hni. apply (in_map fst) in Hin. exact Hin.
Qed.
Lemma reimburse_next_await rest c c' t : reimburse_next rest c = Done (c', Await t) -> c' = c.
Proof. destruct rest as [|[k v] rest]; cbn; [unfold end_timer; intros H; inv_res; discriminate|]. injection 1; auto. Qed.
Lemma reimburse_next_keep rest c c' nx : reimburse_next rest c = Done (c', nx) ->
  rkeep (fst c) (fst c') /\ snd c' = snd c.
Proof.
  destruct rest as [|[k v] rest]; cbn.
  - unfold end_timer. intros H. inv_res. cbn. split; [|auto].
    split; [|split]; auto.
  - intros H. injection H as <- <-. split; auto. apply rkeep_refl.
Qed.

Lemma pays_trans s l s' : rknown s -> rknown s' -> pays_ok s -> Trans self keccak s l s' -> pays_ok s'.
Proof.
  intros (Hi & Hg & Hcore & Hh) _ Hm H. pose proof (trans_grows _ _ _ _ _ H) as Hgr.
  pose proof Hcore as [Hwt _ Hrep]. change (fst (sys_core s)) with (sys_state s) in Hwt.
  destruct H as [|k now c nx Hc H|u now c nx Hc H|k now Hc|u now Hc|id t c b Hget Hcall Hallow
    |id t r Hget Hfit Hno|id now t r c nx Hc Hget H|id trap now t r c Hc Hget Hp H|a now c Hc Ht H].
  - auto.
  - (* a timer *)
    eapply pays_frame with (id := sys_next s); [exact Hm| | |exact Hgr| | |].
    + cbn. rewrite install_ops. reflexivity.
    + cbn. unfold sys_state. cbn. rewrite install_core. cbn. apply timer_micros in H as [Hv _].
      apply rkeep_sim, vstep_sim. auto.
    + intros i. unfold sget. cbn. rewrite install_tasks. reflexivity.
    + intros fl Hx. unfold sget in Hx. rewrite (fresh_id self keccak _ Hi) in Hx. discriminate.
    + intros fl l i q rest Ho Hj. destruct nx as [t'|]; [|discriminate]. injection Ho as <-. cbn in *.
      split; auto. pose proof H as H1. apply timer_after in H1. cbn in H1. rewrite Hj in H1.
      destruct H1 as (-> & Hn & Hl & Hq). unfold sys_state. cbn.
      assert (Hs : sim (sys_state s) (fst c)) by (apply vstep_sim; eapply vstep_timer_new; eauto).
      destruct Hq as [Hq ->]. split; auto. apply entries_start.
      * pose proof (sim_reimb _ _ Hs) as [-> _]. apply (i_rq_sorted _ Hwt).
      * exact Hq.
  - (* a call *)
    eapply pays_frame with (id := sys_next s); [exact Hm| | |exact Hgr| | |].
    + cbn. rewrite install_ops. reflexivity.
    + cbn. unfold sys_state. cbn. rewrite install_core. cbn.
      assert (Hk : wmicros (fun e => exists st, call_emits u st e) now (sys_core s) c).
      { eapply micros_weak; [|eapply call_micros; eauto]. eauto. }
      eapply rkeep_micros; [|exact Hk]. intros e (st & He). destruct u, e; cbn in *; auto; try contradiction; decompose [ex and] He; discriminate.
    + intros i. unfold sget. cbn. rewrite install_tasks. reflexivity.
    + intros fl Hx. unfold sget in Hx. rewrite (fresh_id self keccak _ Hi) in Hx. discriminate.
    + intros fl l i q rest Ho Hj. destruct nx as [t'|]; [|discriminate]. injection Ho as <-. cbn in *.
      apply (call_after keccak) in H. apply call_next_task in H. rewrite Hj in H. destruct H.
  - destruct Hm as [P1 P2]. constructor; [exact P1|exact P2].
  - destruct Hm as [P1 P2]. constructor; [exact P1|exact P2].
  - (* a ledger executes an operation *)
    set (s1 := with_op (c, b) (answered id t (ReLedger (LedgerOk b)) s)).
    destruct (reimbursing_dec t) as [(l & i & q & rest & ->)|Hn].
    + destruct Hm as [P1 (L & P2)].
      assert (Hj : rjob_ok (sys_state s) l i q rest).
      { apply P1. exists id. eexists. split; [exact Hget|reflexivity]. }
      destruct Hj as (-> & Hnd & Hin). assert (Ho : owing (sys_state s) i q) by (apply Hin; left; auto).
      assert (Hc : c = payment (native_ledger_id (sys_state s)) i q).
      { cbn in Hcall. injection Hcall as <-. reflexivity. }
      assert (Hsame : forall i' fl', sget s1 i' = Some fl' -> reimbursing (fl_task fl') ->
        i' = id /\ fl' = {| fl_task := TReimburse (reimburse_ledger (sys_state s) i) i q rest; fl_reply := Some (ReLedger (LedgerOk b)) |}).
      { intros i' fl'. unfold s1, sget. cbn. rewrite bget_insert. destruct (keqb_spec i' id) as [Hk|Hk].
        - intros Hx _. split; congruence.
        - intros Hx Hy. destruct Hk. eapply reimbursing_unique; eauto. cbn. unfold reimbursing; eauto 6. }
      constructor.
      * intros l' i' q' rest' (id' & fl & H1 & H2). change (sys_state s1) with (sys_state s).
        apply Hsame in H1 as [_ ->]; [|rewrite H2; unfold reimbursing; eauto 6].
        cbn in H2. injection H2 as <- <- <- <-. split; auto. split; auto.
      * exists (L ++ [(i, q, b)]). change (sys_state s1) with (sys_state s). change (sys_log s1) with (sys_log s).
        change (sys_ops s1) with (sys_ops s ++ [(c, b)]). rewrite Hc.
        eapply ledgered_pay; [| | | |exact P2].
        -- apply (rh_owed _ Hh). exact Ho.
        -- apply (i_rq_rd _ Hwt). unfold dom. unfold owing in Ho. rewrite Ho. discriminate.
        -- intros k v b' (id' & l' & r' & Hx).
           assert (id' = id) by (eapply reimbursing_unique; eauto; cbn; unfold reimbursing; eauto 6). subst id'.
           unfold sget in Hx. rewrite Hget in Hx. discriminate.
        -- intros k v b'. split.
           ++ intros (id' & l' & r' & Hx). apply Hsame in Hx as [_ Hx]; [|cbn; unfold reimbursing; eauto 6].
              injection Hx as -> -> -> -> ->. auto.
           ++ intros (-> & -> & ->). exists id, (reimburse_ledger (sys_state s) i), rest. unfold s1, sget. cbn.
              apply bget_insert_eq.
    + eapply pays_frame with (id := id) (o := Some {| fl_task := t; fl_reply := Some (ReLedger (LedgerOk b)) |});
        [exact Hm| |apply rkeep_refl|exact Hgr| | |].
      * cbn. unfold reimbursements. rewrite filter_app. cbn.
        destruct (is_reimbursement c) eqn:E; [|rewrite app_nil_r; auto].
        destruct Hn. destruct t; cbn in Hcall; try discriminate; injection Hcall as <-; try discriminate E; unfold reimbursing; eauto 6.
      * intros i. unfold sget. cbn. rewrite bget_insert. reflexivity.
      * intros fl Hx. unfold sget in Hx. rewrite Hget in Hx. injection Hx as <-. exact Hn.
      * intros fl l i q rest Ho Hj. injection Ho as <-. cbn in Hj. destruct Hn. rewrite Hj. unfold reimbursing; eauto 6.
  - (* another answer *)
    set (s1 := answered id t r s).
    destruct Hm as [P1 (L & P2)]. constructor.
    + intros l i q rest (id' & fl & H1 & H2). change (sys_state s1) with (sys_state s). unfold s1, sget in H1. cbn in H1.
      rewrite bget_insert in H1. destruct (keqb_spec id' id) as [Hk|Hk].
      * injection H1 as <-. cbn in H2. apply P1. exists id. eexists. split; [exact Hget|exact H2].
      * apply P1. exists id', fl. auto.
    + exists L. change (sys_state s1) with (sys_state s). change (sys_log s1) with (sys_log s). change (sys_ops s1) with (sys_ops s).
      eapply ledgered_frame; [| | | |exact P2]; auto. intros i q b. unfold inflight. split; intros (id' & l & rest & Hx); exists id', l, rest.
      * unfold s1, sget in Hx. cbn in Hx. rewrite bget_insert in Hx. destruct (keqb_spec id' id) as [Hk|Hk]; auto.
        injection Hx as _ ->. destruct (Hno b). reflexivity.
      * unfold s1, sget. cbn. rewrite bget_insert. destruct (keqb_spec id' id) as [Hk|Hk]; auto.
        subst. unfold sget in Hx. rewrite Hget in Hx. discriminate.
  - (* a callback *)
    destruct (reimbursing_dec t) as [(l & i & q & rest & ->)|Hn].
    + assert (Hj : rjob_ok (sys_state s) l i q rest).
      { apply (po_job _ Hm). exists id. eexists. split; [exact Hget|reflexivity]. }
      assert (Ho : owing (sys_state s) i q) by (apply Hj; left; auto).
      assert (Hrd : rdf (sys_state s) i = None).
      { apply (i_rq_rd _ Hwt). unfold dom. unfold owing in Ho. rewrite Ho. discriminate. }
      assert (Hb : rr_ledger_burn_index q = ri_burn_in_block i).
      { eapply owed_burn. apply (rh_owed _ Hh). exact Ho. }
      destruct r; cbn in H; try discriminate. unfold reimburse_reply in H.
      assert (Hskip : (forall b, r <> LedgerOk b) -> reimburse_next rest (sys_core s) = Done (c, nx) ->
        pays_ok (install id nx (with_queries (task_query (TReimburse l i q rest) (ReLedger r)) (with_core c now s)))).
      { intros Hnb Hx. destruct (reimburse_next_keep _ _ _ _ Hx) as [(K1 & K2 & K3) Hlog].
        change (fst (sys_core s)) with (sys_state s) in *.
        eapply pays_move with (id := id) (i := i) (q := q); [exact Hg|exact Hm| |exact Hgr|exact Hget|reflexivity| | | |exact Hrd| | |].
        - rewrite install_ops. reflexivity.
        - intros i'. unfold sget. rewrite install_tasks. reflexivity.
        - unfold sys_state at 1. rewrite install_core. exact K3.
        - intros k _. unfold sys_state at 1. rewrite install_core. apply K2.
        - cbn. intros b Hbb. injection Hbb as Hbb. destruct (Hnb _ Hbb).
        - intros d. unfold sys_state at 1. rewrite install_core. cbn. rewrite K2, Hrd. discriminate.
        - intros fl' l' i' q' rest' Hfl Ht'. destruct nx as [t'|]; [|discriminate]. injection Hfl as <-. cbn in *. split; auto.
          unfold sys_state. cbn.
          pose proof (reimburse_next_await _ _ _ _ Hx) as ->. eapply rjob_rest; [exact Hj|exact Hx|exact Ht'|reflexivity|auto]. }
      destruct r as [b|e|]; [|apply Hskip; [discriminate|exact H]|apply Hskip; [discriminate|exact H]].
      clear Hskip. apply rbind_done in H as (b' & Hbb & H). apply block_u64_done in Hbb as [-> Hbb].
      apply rbind_done in H as (c1 & H1 & H2). apply process_event_inv in H1 as (st1 & H1 & ->).
      apply reimbursed_event_apply in H1 as (_ & (d & D1 & D2 & D3 & D4 & D5) & R1 & R2 & R3); auto.
      destruct (reimburse_next_keep _ _ _ _ H2) as [(K1 & K2 & K3) Hlog]. cbn [fst] in *.
      eapply pays_move with (id := id) (i := i) (q := q); [exact Hg|exact Hm| |exact Hgr|exact Hget|reflexivity| | | |exact Hrd| | |].
      * rewrite install_ops. reflexivity.
      * intros i'. unfold sget. rewrite install_tasks. reflexivity.
      * unfold sys_state at 1. rewrite install_core. cbn. rewrite K3. exact R3.
      * intros k Hk. unfold sys_state at 1. rewrite install_core. cbn. rewrite K2. auto.
      * cbn. intros b0 E. injection E as <-. unfold sys_state at 1. rewrite install_core. cbn. left. exists d. rewrite K2. auto.
      * intros d'. unfold sys_state at 1. rewrite install_core. cbn. rewrite K2, D1. intros E. injection E as <-. rewrite D2. reflexivity.
      * intros fl' l' i' q' rest' Hfl Ht'. destruct nx as [t'|]; [|discriminate]. injection Hfl as <-. cbn in *. split; auto.
        unfold sys_state. cbn.
        pose proof (reimburse_next_await _ _ _ _ H2) as ->. eapply rjob_rest; [exact Hj|exact H2|exact Ht'|exact R3|exact R2].
    + eapply pays_frame with (id := id); [exact Hm| | |exact Hgr| | |].
      * rewrite install_ops. reflexivity.
      * unfold sys_state. rewrite install_core. cbn. apply resume_wmicros in H.
        eapply rkeep_micros; [|exact H]. intros e. apply emits_no_repay. auto.
      * intros i. unfold sget. rewrite install_tasks. reflexivity.
      * intros fl Hx. unfold sget in Hx. rewrite Hget in Hx. injection Hx as <-. apply Hn.
      * intros fl l i q rest Ho Hj. destruct nx as [t'|]; [|discriminate]. injection Ho as <-. cbn in *.
        apply resume_after in H. cbn in H. rewrite Hj in H. cbn in H.
        destruct H as (l0 & i0 & q0 & -> & _). destruct Hn. unfold reimbursing; eauto 6.
  - (* a trap *)
    destruct (reimbursing_dec t) as [(l & i & q & rest & ->)|Hn].
    + assert (Hj : rjob_ok (sys_state s) l i q rest).
      { apply (po_job _ Hm). exists id. eexists. split; [exact Hget|reflexivity]. }
      assert (Ho : owing (sys_state s) i q) by (apply Hj; left; auto).
      assert (Hrd : rdf (sys_state s) i = None).
      { apply (i_rq_rd _ Hwt). unfold dom. unfold owing in Ho. rewrite Ho. discriminate. }
      unfold cleanup in H. cbn [task_quarantine process_events fold_left] in H.
      assert (Hx : exists s1, apply_state_transition (sys_state s) (EvQuarantinedReimbursement i) = Done s1 /\
        rkeep s1 (fst c)).
      { cbn in H. unfold process_event in H. cbn in H. inv_res. eexists. split; [reflexivity|]. cbn.
        split; [|split]; auto. }
      destruct Hx as (s1 & H1 & (_ & K2 & K3)). apply quarantine_apply in H1 as (R1 & R2 & R3).
      eapply pays_move with (id := id) (i := i) (q := q) (o := None); [exact Hg|exact Hm| |exact Hgr|exact Hget|reflexivity| | | |exact Hrd| | |].
      * rewrite install_ops. reflexivity.
      * intros i'. unfold sget. rewrite install_tasks. reflexivity.
      * unfold sys_state at 1. rewrite install_core. cbn. rewrite K3. exact R3.
      * intros k Hk. unfold sys_state at 1. rewrite install_core. cbn. rewrite K2. auto.
      * intros b _. unfold sys_state at 1. rewrite install_core. cbn. right. rewrite K2. exact R1.
      * intros d. unfold sys_state at 1. rewrite install_core. cbn. rewrite K2, R1. discriminate.
      * discriminate.
    + eapply pays_frame with (id := id) (o := None); [exact Hm| | |exact Hgr| | |].
      * rewrite install_ops. reflexivity.
      * unfold sys_state. rewrite install_core. cbn.
        destruct (cleanup_micros now t (sys_core s)) as (c' & Hc' & Hmm). assert (c' = c) by congruence. subst c'.
        eapply rkeep_micros; [|eapply micros_weak; [|exact Hmm]; intros s0 e He; exact He].
        intros e He. destruct t; cbn in He; try contradiction; destruct He as [<-|[]]; auto.
        destruct Hn. unfold reimbursing; eauto 6.
      * intros i. unfold sget. rewrite install_tasks. reflexivity.
      * intros fl Hx. unfold sget in Hx. rewrite Hget in Hx. injection Hx as <-. apply Hn.
      * discriminate.
  - (* an upgrade *)
    destruct Hm as [P1 (L & P2)].
    assert (Hk : rkeep (sys_state s) (fst c)).
    { destruct (canister_upgrade_inv _ _ _ _ Hrep H) as (st & _ & Hs & _ & Ha). change (fst (sys_core s)) with (sys_state s) in Hs.
      apply sim_sym, rkeep_sim in Hs. destruct a as [x|].
      - destruct Ha as (st' & Ha & ->). eapply rkeep_trans; [exact Hs|]. eapply rkeep_event; [|exact Ha]. reflexivity.
      - rewrite Ha. exact Hs. }
    constructor.
    + intros l i q rest (id' & fl & H1 & H2). unfold sget in H1. cbn in H1. rewrite Ht in H1. discriminate.
    + exists L. unfold sys_state at 1 2. cbn. destruct Hk as (_ & K2 & K3). rewrite K3.
      eapply ledgered_frame; [| | | |exact P2]; auto.
      * intros i q. apply owed_grows. exact Hgr.
      * intros i q b. reflexivity.
Qed.

Lemma pays_reach (env : Sys -> Label -> Prop) s :
  (forall s l, env s l -> nonce_kept s l) -> reach self keccak env s -> pays_ok s.
Proof.
  intros He. apply (reach_inv2 self keccak env rknown pays_ok); [intros; eapply rknown_reach; eauto| |].
  - intros now a s0 H. apply sys_init_inv in H as (st & H1 & H2 & H3 & H4 & H5 & H6 & _).
    assert (Hd : reimbursed (withdrawals st) = []).
    { apply state_of_init_spec in H1 as (_ & h & _ & -> & _). reflexivity. }
    constructor.
    + intros l i q rest (id & fl & Hx & _). unfold sget in Hx. rewrite H3 in Hx. discriminate.
    + exists []. constructor; unfold sys_state; rewrite ?H2, ?H6; cbn; auto using NoDup_nil; try tauto.
      * intros i d. unfold rdf. rewrite Hd. discriminate.
      * intros i q b (id & l & rest & Hx). unfold sget in Hx. rewrite H3 in Hx. discriminate.
  - intros s0 l s' K K' Hm _ H. exact (pays_trans s0 l s' K K' Hm H).
Qed.
End Ledgers.
