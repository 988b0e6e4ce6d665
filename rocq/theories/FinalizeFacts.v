(** * Proofs about finalization (C31). *)

From Coq Require Import Permutation ZArith.
From Verif Require Import Base BMap MultiKeyMap MultiKeyMapFacts Bytes Types Amount ArithFacts Tx CallData
  CodecFacts Network Hex Transactions State Audit Ranges Rlp Parser Memo Driver Sys SysSpec WtInv StateEquiv
  TxSpec WtContent Segments Tasks SysFacts CoreInv Lifting WithdrawSpec WithdrawFacts StageFacts
  GuardSpec Guards GuardFacts WeakSteps LogFacts UpgradeFacts DepositSpec Deposits MintFacts TokenSpec TokenFacts
  QueueSpec QueueFacts ReadyFacts
  ReimburseSpec ReimburseFacts BurnSpec BurnFacts RecordSpec RecordFacts BalanceSpec BalanceFacts
  SolvencySpec SolvencyFacts FinalizeSpec.

Lemma nodup_flat_apart {A B} (f : A -> list B) l x y z : NoDup (flat_map f l) -> In x l -> In y l ->
  In z (f x) -> In z (f y) -> x = y.
Proof.
  induction l as [|a l IH]; [intros _ []|]. cbn [flat_map]. intros Hn Hx Hy Hzx Hzy.
  pose proof (nodup_app_l _ _ Hn) as _.
  assert (Hd : forall z, In z (f a) -> ~ In z (flat_map f l)).
  { clear -Hn. induction (f a) as [|b m IHm]; [intros ? []|]. cbn in Hn. inversion Hn as [|? ? H1 H2]; subst.
    intros z [<-|Hz]; [intros H; apply H1; apply in_or_app; auto|]. apply IHm; auto. }
  assert (Hn' : NoDup (flat_map f l)).
  { clear -Hn. induction (f a) as [|b m IHm]; auto. cbn in Hn. inversion Hn; subst; auto. }
  assert (Hin : forall w, In w l -> In z (f w) -> In z (flat_map f l)) by (intros; apply in_flat_map; eauto).
  destruct Hx as [<-|Hx]; destruct Hy as [<-|Hy]; auto.
  - exfalso. eapply Hd; eauto.
  - exfalso. eapply Hd; eauto.
Qed.

Lemma not_failed native h r : NoDup (claims native h) -> In r (accepted h) -> not_finalized h (wr_burn_index r) ->
  ~ failed h (ri_of_request r).
Proof.
  intros Hn Hr Hf H. destruct r as [q|q]; cbn in H, Hf.
  - inversion H as [r rc Ha Hi _ E| |p Hp E]; subst.
    + rewrite E in Hi. apply Hf. apply in_map_iff. exists (nw_ledger_burn_index q, rc). auto.
    + unfold accepted in Hr. apply in_flat_map in Hr as (e & He & Hr).
      assert (e = EvFailedErc20WithdrawalRequest p).
      { apply (nodup_flat_apart (claims_of native) h e _ (native, nw_ledger_burn_index q) Hn); auto.
        - destruct e; cbn in Hr; try tauto; destruct Hr as [Hr|[]]; try discriminate. injection Hr as ->. cbn. auto.
        - cbn. rewrite E. auto. }
      subst e. destruct Hr.
  - inversion H as [|r rc Ha Hi _ E|]; subst. rewrite E in Hi.
    apply Hf. apply in_map_iff. exists (ew_native_ledger_burn_index q, rc). auto.
Qed.

Lemma withdrawal_id_of r : ri_withdrawal_id (ri_of_request r) = wr_burn_index r.
Proof. destruct r; reflexivity. Qed.

Section Finalize.
Variable self : Principal.
Variable keccak : list N -> Hash.

Lemma record_finalized_total native c r rc :
  wt_inv (withdrawals (fst c)) -> repr (withdrawals (fst c)) (history (snd c)) -> rhist c ->
  NoDup (claims native (history (snd c))) ->
  In r (accepted (history (snd c))) -> not_finalized (history (snd c)) (wr_burn_index r) ->
  honest (history (snd c)) (wr_burn_index r) rc ->
  exists w, record_finalized_transaction (wr_burn_index r) rc (withdrawals (fst c)) = Done w.
Proof.
  destruct c as [s log]. cbn [fst snd]. set (h := history log). set (w := withdrawals s). set (b := wr_burn_index r).
  intros Hi Hp Hrh Hn Hr Hf [(x & Hx & Hxh) Hall].
  pose proof (p_sent _ _ Hp b Hf) as Hs. fold h in Hs.
  destruct (bget b (by_alt (sent w))) as [l|] eqn:El; cbn in Hs.
  2:{ symmetry in Hs. apply nonempty_none in Hs. rewrite Hs in Hx. destruct Hx. }
  symmetry in Hs. apply nonempty_some in Hs as [Hs _].
  destruct (get_alt_row _ _ _ (i_sent w Hi) El) as (k & Hrow).
  destruct (i_sent_tx w Hi _ _ _ Hrow) as (_ & req & Hreq & Hl).
  assert (req = r) as ->.
  { apply (p_processed _ _ Hp) in Hreq as (H1 & H2 & _). eapply (nodup_burn_unique (accepted h)); eauto. apply (p_acc_nodup _ _ Hp). }
  unfold record_finalized_transaction, mkm_get_alt. rewrite El. cbn [expect rbind].
  destruct (find (fun t => st_hash (rs_tx t) =? rc_transaction_hash rc) l) as [y|] eqn:Ey.
  2:{ exfalso. rewrite <- Hs in Hx. apply in_map_iff in Hx as (y & <- & Hy). apply find_none with (x := y) in Ey; auto.
      apply N.eqb_neq in Ey. contradiction. }
  apply find_some in Ey as [Hy Hyh]. apply N.eqb_eq in Hyh. cbn [expect rbind].
  assert (Hya : In (rs_tx y) (attempts h b)) by (rewrite <- Hs; apply in_map; auto).
  destruct (Hall _ Hya Hyh) as [Hpr Hga].
  assert (Htry : try_finalize (rs_tx y) rc = Some {| ft_tx := rs_tx y; ft_receipt := rc |}).
  { apply try_finalize_spec. auto. }
  rewrite Htry. cbn [expect rbind]. destruct (Hl _ Hy) as [Hk _]. rewrite Hk.
  rewrite (mkm_remove_present _ _ _ _ Hrow). cbn [rbind].
  assert (Hcl : exists c', cleanup_created k (created w) = Done c').
  { unfold cleanup_created. destruct (bget k (by_key (created w))) as [a|] eqn:E.
    - destruct (get_key_row _ _ _ (i_created w Hi) E) as (v & Hv). rewrite (mkm_remove_present _ _ _ _ Hv). cbn. eauto.
    - rewrite mkm_remove_absent by auto. cbn. eauto. }
  destruct Hcl as (c' & ->). cbn [rbind].
  rewrite mkm_try_insert_fresh; cbn [expect_inserted rbind].
  2:{ destruct (bget b (by_alt (finalized w))) as [f|] eqn:E; auto.
      destruct (get_alt_row _ _ _ (i_fin w Hi) E) as (k' & Hv). destruct (i_fin_excl w Hi _ _ _ Hv) as (_ & _ & _ & H).
      destruct Hrow; congruence. }
  2:{ destruct (bget k (by_key (finalized w))) as [f|] eqn:E; auto.
      destruct (get_key_row _ _ _ (i_fin w Hi) E) as (v & Hv). destruct (i_fin_excl w Hi _ _ _ Hv) as (_ & H & _).
      destruct Hrow; congruence. }
  assert (Hm : bmem b (maybe_reimburse w) = true).
  { apply bmem_true. assert (Hd : dom b (maybe_reimburse w)).
    { apply (i_mr_dom w Hi). right. unfold dom. rewrite El. discriminate. }
    unfold dom in Hd. destruct (bget b (maybe_reimburse w)); [eauto|contradiction]. }
  rewrite Hm. cbn [rassert rbind]. cbn [processed set_maybe_reimburse set_finalized set_created set_sent].
  rewrite Hreq. cbn [expect rbind]. destruct (is_failure (rc_status rc)); [|eauto].
  unfold record_reimbursement_request. rewrite withdrawal_id_of. fold b.
  cbn [maybe_reimburse set_maybe_reimburse reimbursed reimb_requests set_finalized set_created set_sent].
  assert (Hk' : ~ known_index s (ri_of_request r)).
  { rewrite (rh_known _ Hrh). eapply not_failed; eauto. }
  unfold known_index, dom in Hk'.
  assert (E1 : bmem b (bremove b (maybe_reimburse w)) = false).
  { apply bmem_false. rewrite bget_remove_eq. reflexivity. }
  assert (E2 : bmem (ri_of_request r) (reimb_requests w) = false).
  { apply bmem_false. destruct (bget (ri_of_request r) (reimb_requests w)) eqn:E; auto. exfalso. apply Hk'. left. unfold w in E. rewrite E. discriminate. }
  assert (E3 : bmem (ri_of_request r) (reimbursed w) = false).
  { apply bmem_false. destruct (bget (ri_of_request r) (reimbursed w)) eqn:E; auto. exfalso. apply Hk'. right. unfold w in E. rewrite E. discriminate. }
  rewrite E1, E2, E3. cbn. eauto.
Qed.

(** Enough is held for every open withdrawal *)
Definition room (a : Asset) (c : Core) : Prop :=
  outstanding a (history (snd c)) + unspent a (fst c) <= held a (fst c).

Lemma request_outstanding a h r : In r (accepted h) -> not_finalized h (wr_burn_index r) ->
  request_part a r <= outstanding a h.
Proof.
  intros Hr Hf. unfold outstanding. assert (Hin : In r (filter (open_request h) (accepted h))).
  { apply filter_open_in; auto. apply open_true. exact Hf. }
  clear Hr Hf. induction (filter _ _) as [|x l IH]; [destruct Hin|]. rewrite sum_of_cons. destruct Hin as [<-|Hin]; [lia|].
  specialize (IH Hin). lia.
Qed.

Lemma balance_total s log w r x rc :
  books (s, log) -> room Native (s, log) -> native_deposits (history log) < U256_MAX ->
  In r (accepted (history log)) -> not_finalized (history log) (wr_burn_index r) ->
  (forall q, r = WErc20 q -> room (Token (ew_erc20_contract_address q) (ew_erc20_ledger_id q)) (s, log)) -> positive r ->
  tx_serves (evm_network s) r (st_tx x) ->
  rc_effective_gas_price rc <= tx_max_fee_per_gas (st_tx x) -> rc_gas_used rc <= tx_gas_limit (st_tx x) ->
  mkm_get_alt (wr_burn_index r) (finalized w) = Some {| ft_tx := x; ft_receipt := rc |} ->
  bget (wr_burn_index r) (processed w) = Some r ->
  exists s', update_balance_upon_withdrawal (wr_burn_index r) rc (set_withdrawals w s) = Done s'.
Proof.
  intros B Hroom Hsmall Hr Hf Htok Hpos Hsv Hpr Hga Hfin Hproc.
  pose proof (bk_typed _ B r Hr) as Hty.
  pose proof (request_outstanding Native _ r Hr Hf) as Hout.
  unfold room in Hroom. cbn [fst snd held unspent] in Hroom.
  pose proof (bk_native _ B) as B1. pose proof (bk_eff _ B) as B2. pose proof (bk_charged _ B) as B3. cbn [fst snd] in *.
  assert (Hspent : sum_of gas_fee (settlements (history log)) <= sum_of spent (settlements (history log))).
  { generalize (settlements (history log)) as l. induction l as [|z l IH]; [cbn; lia|]. rewrite !sum_of_cons. unfold spent at 1. lia. }
  set (fee := rc_effective_gas_price rc * rc_gas_used rc).
  set (nb := native_balance s) in *.
  assert (Hbal : nb_balance nb < U256_MAX) by lia.
  (* the charge covers the fee *)
  set (charge := match r with WNative q => nw_withdrawal_amount q - tx_amount (st_tx x) | WErc20 q => ew_max_transaction_fee q end).
  assert (Hcap : tx_amount (st_tx x) + tx_fee_cap (st_tx x) <= request_part Native r /\
    tx_amount (st_tx x) + charge = request_part Native r /\ tx_fee_cap (st_tx x) <= charge).
  { unfold charge. destruct r as [q|q]; cbn [request_part]; destruct Hsv as (_ & _ & Hsv).
    - destruct Hsv as (_ & _ & _ & Hsv). lia.
    - destruct Hsv as (_ & Ha & _ & _ & Hsv). lia. }
  assert (Hfee : fee <= tx_fee_cap (st_tx x) /\ fee <= U256_MAX).
  { assert (Hle : fee <= tx_gas_limit (st_tx x) * tx_max_fee_per_gas (st_tx x)).
    { unfold fee. rewrite (N.mul_comm (tx_gas_limit _)). apply N.mul_le_mono; auto. }
    unfold tx_fee_cap in *. lia. }
  destruct Hcap as (C1 & C2 & C3). destruct Hfee as (F1 & F2).
  unfold update_balance_upon_withdrawal. cbn [withdrawals set_withdrawals]. rewrite Hfin, Hproc.
  unfold effective_transaction_fee, transaction_cost, checked_mul. fold fee.
  rewrite (proj2 (N.leb_le _ _) F2). cbn [expect rbind ft_tx].
  assert (Hch : charged_tx_fee r (st_tx x) = Done charge).
  { unfold charged_tx_fee, charge. destruct r as [q|q]; [|reflexivity].
    rewrite (proj2 (checked_sub_some _ _ _) (conj (ltac:(cbn [request_part] in *; lia) : tx_amount (st_tx x) <= nw_withdrawal_amount q) eq_refl)).
    reflexivity. }
  rewrite Hch. cbn [rbind].
  rewrite (proj2 (checked_sub_some charge fee _) (conj (N.le_trans _ _ _ F1 C3) eq_refl)). cbn [expect rbind].
  assert (Hdeb : exists d, d <= tx_amount (st_tx x) + fee /\ fee <= d /\
    match rc_status rc with TxSuccess => expect (checked_add (tx_amount (st_tx x)) fee) "BUG: debited amount always fits into U256" | TxFailure => Done fee end = Done d).
  { destruct (rc_status rc).
    - exists (tx_amount (st_tx x) + fee). split; [lia|]. split; [lia|].
      rewrite (proj2 (checked_add_some _ _ _) (conj eq_refl (ltac:(lia) : tx_amount (st_tx x) + fee <= U256_MAX))). reflexivity.
    - exists fee. split; [lia|]. split; [lia|]. reflexivity. }
  destruct Hdeb as (d & D1 & D2 & ->). cbn [rbind].
  cbn [native_balance set_withdrawals]. fold nb.
  unfold eth_balance_sub. rewrite (proj2 (checked_sub_some (nb_balance nb) d _) (conj (ltac:(lia) : d <= nb_balance nb) eq_refl)).
  cbn [expect rbind].
  unfold total_effective_tx_fees_add. cbn [nb_balance nb_total_effective_tx_fees nb_total_unspent_tx_fees].
  rewrite (proj2 (checked_add_some _ fee _) (conj eq_refl (ltac:(lia) : nb_total_effective_tx_fees nb + fee <= U256_MAX))).
  cbn [expect rbind]. unfold total_unspent_tx_fees_add. cbn [nb_balance nb_total_effective_tx_fees nb_total_unspent_tx_fees].
  rewrite (proj2 (checked_add_some _ (charge - fee) _) (conj eq_refl (ltac:(lia) : nb_total_unspent_tx_fees nb + (charge - fee) <= U256_MAX))).
  cbn [expect rbind].
  destruct (rc_status rc); [|eauto].
  destruct r as [q|q]; cbn in Hty; destruct Hsv as (_ & _ & Hsv).
  { destruct Hsv as (_ & -> & _). eauto. }
  destruct Hsv as (Hd & _ & Hdata & _).
  destruct (tx_data (st_tx x)) as [|d0 l0] eqn:Ed; [eauto|]. rewrite Hdata, calldata_round_trip by tauto. cbn [rbind].
  rewrite Hd. unfold erc20_sub. cbn [erc20_balances set_native_balance set_withdrawals].
  specialize (Htok q eq_refl). unfold room in Htok. cbn [fst snd held unspent] in Htok.
  pose proof (request_outstanding (Token (ew_erc20_contract_address q) (ew_erc20_ledger_id q)) _ _ Hr Hf) as Hout2.
  cbn [request_part] in Hout2. rewrite N.eqb_refl in Hout2. cbn in Hpos. unfold erc20_balance_of in Htok.
  destruct (bget (ew_erc20_contract_address q) (erc20_balances s)) as [v|]; [|lia]. cbn [expect rbind].
  rewrite (proj2 (checked_sub_some v _ _) (conj (ltac:(lia) : ew_withdrawal_amount q <= v) eq_refl)). cbn. eauto.
Qed.

(** What finalizing relies on *)
Record settle_ok (c : Core) : Prop := {
  so_core : core_ok keccak c;
  so_known : known_core c;
  so_rhist : rhist c;
  so_claims : NoDup (claims (native_ledger_id (fst c)) (history (snd c)));
  so_apart : forall q, In (WErc20 q) (accepted (history (snd c))) -> ew_erc20_ledger_id q <> native_ledger_id (fst c);
  so_same : forall q q', In (WErc20 q) (accepted (history (snd c))) -> In (WErc20 q') (accepted (history (snd c))) ->
    (ew_erc20_contract_address q' = ew_erc20_contract_address q <-> ew_erc20_ledger_id q' = ew_erc20_ledger_id q);
  so_native : room Native c;
  so_token : forall q, In (WErc20 q) (accepted (history (snd c))) ->
    room (Token (ew_erc20_contract_address q) (ew_erc20_ledger_id q)) c;
  so_small : native_deposits (history (snd c)) < U256_MAX
}.

Lemma finalized_evt (F : State -> Task -> Prop) s b rc : F s (TRetrieveReceipts [(0, b)]) ->
  evt keccak F s (EvFinalizedTransaction b rc).
Proof.
  intros H. left. exists (TRetrieveReceipts [(0, b)]), (ReReceipts [ReceiptOk rc]). split; auto.
  cbn. exists b, rc. auto.
Qed.

Lemma finalized_more_repay a s s' b rc : wt_inv (withdrawals s) ->
  apply_state_transition s (EvFinalizedTransaction b rc) = Done s' ->
  repay_sum a s <= repay_sum a s'.
Proof.
  intros Hi Ha. pose proof (apply_same _ _ _ Ha) as ((_ & Hn & _) & _). apply apply_wt in Ha. cbn [wt_event] in Ha.
  apply record_finalized_spec in Ha as (k & l & x & req & _ & _ & _ & _ & _ & _ & Ha); auto. cbn zeta in Ha.
  destruct (is_failure (rc_status rc)).
  - erewrite (repay_insert self keccak a s s'); [|exact Hn|eexists; split; [|exact Ha]; reflexivity]. lia.
  - rewrite (repay_same a s s'); [lia|exact Hn|]. rewrite Ha. reflexivity.
Qed.

Lemma room_kept now a s s' b rc log : settle_ok (s, log) ->
  known_core (s', record_event now (EvFinalizedTransaction b rc) log) ->
  apart (native_ledger_id s) a -> (forall r, In r (accepted (history log)) -> consistent (native_ledger_id s) a r) ->
  apply_state_transition s (EvFinalizedTransaction b rc) = Done s' ->
  room a (s, log) -> room a (s', record_event now (EvFinalizedTransaction b rc) log).
Proof.
  intros [Hc [Hb Hd] _ _ _ _ _ _ _] [Hb' _] Hap Hcon Ha Hroom.
  pose proof (net_event self keccak now a s s' _ log Hc Hb Hb' Hd Hap Hcon Ha) as Hn.
  pose proof (hist_good _ _ Hd) as Hh. pose proof (ho_wait_sorted _ _ Hh) as Hws. cbn in Hws.
  pose proof (wait_event a s _ s' Hws Ha) as Hw. cbn [wait_out into_part] in Hw.
  pose proof (finalized_more_repay a s s' b rc (core_wt _ _ Hc) Ha) as Hr.
  cbn [uses frees] in Hn. unfold net in Hn. unfold room in *. cbn [fst snd] in *. rewrite history_snoc. lia.
Qed.

Lemma finalize_total now c r rc : settle_ok c -> In r (accepted (history (snd c))) ->
  not_finalized (history (snd c)) (wr_burn_index r) -> honest (history (snd c)) (wr_burn_index r) rc -> positive r ->
  exists c', process_event now (EvFinalizedTransaction (wr_burn_index r) rc) c = Done c' /\ settle_ok c' /\
    history (snd c') = history (snd c) ++ [EvFinalizedTransaction (wr_burn_index r) rc].
Proof.
  destruct c as [s log]. intros So Hr Hf Hh Hpos. pose proof So as [Hc [Hb Hd] Hrh Hcl Hap Hsame Hna Hto Hsm].
  cbn [fst snd] in *. pose proof (core_wt _ _ Hc) as Hi. cbn in Hi.
  pose proof Hb as [(Hrep & _ & Hserve) B]. cbn [fst snd] in Hrep, Hserve.
  set (b := wr_burn_index r) in *.
  destruct (record_finalized_total (native_ledger_id s) (s, log) r rc Hi Hrep Hrh Hcl Hr Hf Hh) as (w & Hw). cbn [fst] in Hw. fold b in Hw.
  pose proof Hw as Ht.
  apply record_finalized_spec in Ht as (k & l & x & req & Hrow & Hin & Hfind & Hreq & Htry & Hk & Ht); auto.
  pose proof (sent_attempts _ _ Hi Hrep _ _ _ Hrow) as Hatt.
  assert (Hx : In (rs_tx x) (attempts (history log) b)) by (rewrite <- Hatt; apply in_map; auto).
  assert (req = r) as ->.
  { apply (p_processed _ _ Hrep) in Hreq as (H1 & H2 & _). eapply (nodup_burn_unique (accepted (history log))); eauto. apply (p_acc_nodup _ _ Hrep). }
  apply try_finalize_spec in Htry as (_ & Hp & Hg & _).
  assert (Hs : tx_serves (evm_network s) r (st_tx (rs_tx x))).
  { apply attempts_made in Hx. destruct (Hserve _ _ Hx) as (r' & H1 & H2 & H3).
    replace r with r'; auto. eapply (nodup_burn_unique (accepted (history log))); eauto. apply (p_acc_nodup _ _ Hrep). }
  cbn zeta in Ht. set (f := {| ft_tx := rs_tx x; ft_receipt := rc |}) in *.
  assert (E : finalized w = finalized (finalized_tables k b f (withdrawals s)) /\ processed w = processed (withdrawals s)).
  { destruct (is_failure (rc_status rc)).
    - unfold record_reimbursement_request in Ht. inv_res. split; reflexivity.
    - rewrite Ht. split; reflexivity. }
  destruct E as [E1 E2].
  destruct (balance_total s log w r (rs_tx x) rc) as (s' & Hs'); auto.
  { intros q ->. apply Hto. auto. }
  { rewrite E1. unfold mkm_get_alt, finalized_tables. cbn. apply bget_insert_eq. }
  { rewrite E2. exact Hreq. }
  fold b in Hs'.
  assert (Ha : apply_state_transition s (EvFinalizedTransaction b rc) = Done s').
  { cbn [apply_state_transition]. unfold state_record_finalized_transaction. rewrite Hw. exact Hs'. }
  exists (s', record_event now (EvFinalizedTransaction b rc) log).
  split; [unfold process_event; cbn [fst snd]; rewrite Ha; reflexivity|].
  assert (Hn : native_ledger_id s' = native_ledger_id s) by (pose proof (apply_same _ _ _ Ha) as ((_ & Hn & _) & _); exact Hn).
  assert (Hev : evt keccak (book_ok keccak) s (EvFinalizedTransaction b rc)).
  { apply finalized_evt. split; exact Logic.I. }
  assert (Hk' : known_core (s', record_event now (EvFinalizedTransaction b rc) log)).
  { apply (known_core_evt self keccak now s s' _ log Hc (conj Hb Hd) Hev Ha). }
  split; [|cbn [snd]; apply history_snoc].
  constructor; cbn [fst snd].
  - eapply core_event; eauto. eapply good_evt; eauto.
  - exact Hk'.
  - refine (proj2 (rhist_evt self keccak now s s' _ log Hc (conj (proj1 Hb) Hrh) _ Ha)). apply finalized_evt. split; exact Logic.I.
  - rewrite history_snoc, Hn. unfold claims. rewrite flat_map_app. cbn. rewrite app_nil_r. exact Hcl.
  - intros q. rewrite history_snoc, WithdrawFacts.accepted_snoc, Hn. cbn [accepted_by]. rewrite app_nil_r. apply Hap.
  - intros q q'. rewrite history_snoc, WithdrawFacts.accepted_snoc. cbn [accepted_by]. rewrite app_nil_r. apply Hsame.
  - eapply room_kept; eauto; [exact Logic.I|]. intros [q|q] Hq; cbn; auto.
  - intros q. rewrite history_snoc, WithdrawFacts.accepted_snoc. cbn [accepted_by]. rewrite app_nil_r. intros Hq.
    eapply room_kept; eauto; [apply Hap; auto|]. intros [q'|q'] Hq'; cbn; auto.
  - rewrite history_snoc, deposits_snoc. cbn [native_deposit]. lia.
Qed.

(** ** A batch of receipts *)
Lemma finalize_batch now l : forall c, settle_ok c -> NoDup (map fst l) ->
  (forall b rc, In (b, rc) l -> exists r, In r (accepted (history (snd c))) /\ wr_burn_index r = b /\
     not_finalized (history (snd c)) b /\ honest (history (snd c)) b rc /\ positive r) ->
  exists c', process_events now (map (fun x => EvFinalizedTransaction (fst x) (snd x)) l) c = Done c' /\
    history (snd c') = history (snd c) ++ map (fun x => EvFinalizedTransaction (fst x) (snd x)) l.
Proof.
  induction l as [|[b rc] l IH]; intros c So Hn Hl.
  - exists c. split; [reflexivity|]. cbn [map]. rewrite app_nil_r. reflexivity.
  - destruct (Hl b rc (or_introl eq_refl)) as (r & H1 & <- & H3 & H4 & H5).
    destruct (finalize_total now c r rc So H1 H3 H4 H5) as (c1 & Hc1 & So1 & Hh).
    cbn [map fst] in Hn. inversion Hn as [|? ? Hni Hn']; subst.
    destruct (IH c1 So1 Hn') as (c' & Hc' & Hh').
    + intros b2 rc2 Hin. destruct (Hl b2 rc2 (or_intror Hin)) as (r2 & G1 & G2 & G3 & G4 & G5).
      assert (Hne : b2 <> wr_burn_index r) by (intros ->; apply Hni; apply (in_map fst _ _ Hin)).
      exists r2. rewrite Hh. rewrite WithdrawFacts.accepted_snoc. cbn [accepted_by]. rewrite app_nil_r.
      assert (Hatt : attempts (history (snd c) ++ [EvFinalizedTransaction (wr_burn_index r) rc]) b2 = attempts (history (snd c)) b2).
      { unfold attempts. rewrite flat_map_app. cbn. rewrite app_nil_r. reflexivity. }
      split; auto. split; auto. split; [|split; auto].
      * unfold not_finalized in *. rewrite finalizations_snoc, map_app. cbn. intros H. apply in_app_or in H as [H|[H|[]]]; auto.
      * unfold honest in *. rewrite Hatt. exact G4.
    + exists c'. split.
      * unfold process_events in *. cbn [map rfold fst snd]. rewrite Hc1. cbn [rbind]. exact Hc'.
      * rewrite Hh', Hh, <- app_assoc. reflexivity.
Qed.

(** The receipts that are collected *)
Lemma collect_got hashes : forall rs acc m, collect_receipts hashes rs acc = Some m -> bsorted acc ->
  bsorted m /\
  (forall b rc, bget b m = Some rc -> bget b acc = Some rc \/ answered hashes rs b rc) /\
  (forall b rc, bget b acc = Some rc \/ answered hashes rs b rc -> bget b m = Some rc).
Proof.
  unfold answered. induction hashes as [|[k id] hashes IH]; intros [|r rs] acc m H Hs; cbn in H;
    try (injection H as <-; cbn; split; auto; split; [auto|intros ? ? [?|[]]; auto]; fail).
  destruct r as [x| |]; [| |discriminate].
  - destruct (bmem id acc) eqn:E; [discriminate|]. apply bmem_false in E.
    destruct (IH rs _ _ H (bsorted_insert id x acc Hs)) as (H1 & H2 & H3). split; auto. split.
    + intros b rc Hb. apply H2 in Hb. rewrite bget_insert in Hb. cbn. destruct (keqb_spec b id) as [->|Hne]; [|tauto].
      destruct Hb as [Hb|Hb]; [injection Hb as ->|]; auto.
    + intros b rc Hb. apply H3. rewrite bget_insert. cbn in Hb.
      destruct (keqb_spec b id) as [->|Hne].
      * destruct Hb as [Hb|[Hb|Hb]]; [congruence| |auto]. injection Hb as ->. auto.
      * destruct Hb as [Hb|[Hb|Hb]]; auto. injection Hb as -> _. contradiction.
  - destruct (IH rs _ _ H Hs) as (H1 & H2 & H3). split; auto. cbn. split.
    + intros b rc Hb. apply H2 in Hb. tauto.
    + intros b rc Hb. apply H3. destruct Hb as [Hb|[Hb|Hb]]; auto. discriminate.
Qed.
Lemma collect_total hashes : forall rs acc, ~ In ReceiptErr rs ->
  (forall i j b rc rc', nth_error (combine (map snd hashes) rs) i = Some (b, ReceiptOk rc) ->
    nth_error (combine (map snd hashes) rs) j = Some (b, ReceiptOk rc') -> i = j) ->
  (forall b rc, answered hashes rs b rc -> bget b acc = None) ->
  exists m, collect_receipts hashes rs acc = Some m.
Proof.
  unfold answered. induction hashes as [|[k id] hashes IH]; intros [|r rs] acc He Hu Ha; cbn; eauto.
  assert (Hu' : forall i j b rc rc', nth_error (combine (map snd hashes) rs) i = Some (b, ReceiptOk rc) ->
    nth_error (combine (map snd hashes) rs) j = Some (b, ReceiptOk rc') -> i = j).
  { intros i j b rc rc' H1 H2. assert (S i = S j); [|congruence]. eapply (Hu (S i) (S j)); cbn; eauto. }
  destruct r as [x| |].
  - rewrite (proj2 (bmem_false _ _) (Ha id x (or_introl eq_refl))). apply IH; auto.
    + intros H. apply He. right; auto.
    + intros b rc H. rewrite bget_insert. destruct (keqb_spec b id) as [->|Hne].
      * exfalso. apply In_nth_error in H as (n & H). assert (0 = S n)%nat; [|discriminate].
        eapply (Hu 0%nat (S n)); cbn; eauto.
      * apply (Ha b rc). right. exact H.
  - apply IH; auto; [intros H; apply He; right; auto|]. intros b rc H. apply (Ha b rc). right. exact H.
  - destruct He. left; auto.
Qed.

(** Sorted maps with the same keys *)
Definition forget {V} (m : bmap N V) : bmap N unit := map (fun x => (fst x, tt)) m.
Lemma forget_sorted {V} (m : bmap N V) : bsorted m -> bsorted (forget m).
Proof.
  unfold bsorted, forget. induction 1 as [|[k v] m Hs IH Hf]; cbn; constructor; auto.
  clear -Hf. induction Hf; cbn; constructor; auto.
Qed.
Lemma forget_get {V} k (m : bmap N V) : bget k (forget m) = option_map (fun _ => tt) (bget k m).
Proof. induction m as [|[k1 v1] m IH]; cbn; auto. destruct (keqb k k1); auto. Qed.
Lemma same_keys {V W} (m : bmap N V) (m' : bmap N W) : bsorted m -> bsorted m' ->
  (forall k, In k (bkeys m) <-> In k (bkeys m')) -> bkeys m = bkeys m'.
Proof.
  intros Hs Hs' Hk. assert (E : forget m = forget m').
  { apply bmap_ext; auto using forget_sorted. intros k. rewrite !forget_get. specialize (Hk k).
    rewrite <- !bget_In_keys in Hk. destruct (bget k m), (bget k m'); cbn; auto.
    - destruct (proj1 Hk); congruence.
    - destruct (proj2 Hk); congruence. }
  apply (f_equal (map fst)) in E. unfold forget in E. rewrite !map_map in E. cbn in E. exact E.
Qed.
Lemma expected_keys hashes : bsorted (expected_ids hashes) /\
  forall b, In b (bkeys (expected_ids hashes)) <-> In b (map snd hashes).
Proof.
  unfold expected_ids. assert (G : forall l (acc : bset N), bsorted acc ->
    bsorted (fold_left (fun acc x => binsert (snd x) tt acc) (l : list (Hash * N)) acc) /\
    forall b, In b (bkeys (fold_left (fun acc x => binsert (snd x) tt acc) l acc)) <-> In b (bkeys acc) \/ In b (map snd l)).
  { induction l as [|[k id] l IH]; intros acc Hs; cbn; [split; [auto|tauto]|].
    destruct (IH (binsert id tt acc) (bsorted_insert _ _ _ Hs)) as [H1 H2]. split; auto. intros b. rewrite H2.
    rewrite <- !bget_In_keys, bget_insert. destruct (keqb_spec b id) as [->|Hne]; [|intuition congruence].
    split; auto. intros _. left. discriminate. }
  destruct (G hashes [] bsorted_nil) as [H1 H2]. split; auto. intros b. rewrite H2. cbn. tauto.
Qed.

(** The transactions asked about are those of open withdrawals *)
Lemma hashes_sent w n m : wt_inv w -> sent_transactions_to_finalize n w = Done m ->
  forall b, In b (map snd m) -> exists k l, row_sent w k b l.
Proof.
  intros Hi H. unfold sent_transactions_to_finalize in H. apply rbind_done in H as (rows & Hr & H).
  assert (Hrow : forall k b l, In (k, b, l) rows -> row_sent w k b l).
  { intros k b l Hin. eapply mkm_iter_rows in Hin; eauto using i_sent. }
  set (f := flat_map _ _) in H.
  assert (Hf : forall x, In x f -> exists k l, row_sent w k (snd x) l).
  { intros x Hx. unfold f in Hx. apply in_flat_map in Hx as ([[k b] l] & Hin & Hx). apply filter_In in Hin as [Hin _].
    apply in_map_iff in Hx as (t & <- & _). cbn. eauto. }
  clearbody f. clear Hr Hrow.
  assert (G : forall acc, (forall b, In b (map snd acc) -> exists k l, row_sent w k b l) ->
    rfold add_hash_index acc f = Done m -> forall b, In b (map snd m) -> exists k l, row_sent w k b l).
  { clear H. induction f as [|[hh id] f IH]; intros acc Hacc H; cbn in H.
    - injection H as <-. auto.
    - apply rbind_done in H as (acc' & H1 & H). unfold add_hash_index in H1. apply rbind_done in H1 as (_ & _ & H1). injection H1 as <-.
      eapply IH; [intros; apply Hf; right; auto| |exact H]. intros b Hb.
      apply in_map_iff in Hb as ([k v] & <- & Hin). cbn.
      assert (Hc : v = id \/ In (k, v) acc).
      { clear -Hin. induction acc as [|[k1 v1] acc IH]; cbn in Hin.
        - destruct Hin as [Hin|[]]. injection Hin as _ <-. auto.
        - destruct (N.compare hh k1); cbn in Hin.
          + destruct Hin as [Hin|Hin]; [injection Hin as _ <-; auto|right; right; auto].
          + destruct Hin as [Hin|Hin]; [injection Hin as _ <-; auto|right; auto].
          + destruct Hin as [Hin|Hin]; [right; left; auto|]. destruct (IH Hin); auto. right; right; auto. }
      destruct Hc as [->|Hc]; [apply (Hf (hh, id)); left; auto|]. apply Hacc. apply (in_map snd _ _ Hc). }
  apply (G [] (fun b (H : In b []) => match H with end) H).
Qed.

Lemma deliver_any s id t r now c nx : sys_clock s <= now ->
  bget id (sys_tasks s) = Some {| fl_task := t; fl_reply := Some r |} ->
  resume keccak now t r (sys_core s) = Done (c, nx) ->
  step self keccak s (LDeliver id false now) = install id nx (with_queries (task_query t r) (with_core c now s)).
Proof.
  intros Hn Hw H. cbn [step]. destruct (N.ltb_spec now (sys_clock s)); [lia|]. rewrite Hw.
  unfold deliver. rewrite H. reflexivity.
Qed.

Section Reach.
Variable env : Sys -> Label -> Prop.
Hypothesis Henv : forall s l, env s l -> nonce_kept s l.

Lemma settle_reach s : reach self keccak env s -> native_apart (sys_state s) ->
  native_deposits (history (sys_log s)) < U256_MAX -> settle_ok (sys_core s).
Proof.
  intros Hr Ha Hsm. pose proof (solv_known_reach self keccak env Henv s Hr) as K.
  pose proof (sk_kept _ _ _ K) as (Hcore & Hk & _).
  pose proof (tokens_reach self keccak env s Hr) as Htok.
  assert (Hreq : forall q, In (WErc20 q) (accepted (history (snd (sys_core s)))) ->
    exists sy, listed (sys_state s) (ew_erc20_ledger_id q) (ew_erc20_contract_address q) sy).
  { intros q Hq. destruct (sk_requests _ _ _ K q Hq) as (sy & Hsy). exists sy. apply (proj2 (listed_iff _ Htok _ _ _)). exact Hsy. }
  assert (Hsv : forall a, solvent self a s -> room a (sys_core s)).
  { intros a [_ H]. unfold room. change (fst (sys_core s)) with (sys_state s). change (snd (sys_core s)) with (sys_log s). lia. }
  constructor; auto.
  - apply (sk_rhist _ _ _ K).
  - apply (fr_log _ _ _ (bo_fresh _ _ (sk_burns _ _ _ K))).
  - intros q Hq. destruct (Hreq q Hq) as (sy & H). eapply Ha; eauto.
  - intros q q' Hq Hq'. destruct (Hreq q Hq) as (sy & H). destruct (Hreq q' Hq') as (sy' & H').
    split; intros E; apply (listed_unique self keccak env s _ _ _ _ _ _ Hr H' H); auto.
  - apply Hsv. eapply solvent_native; eauto.
  - intros q Hq. destruct (Hreq q Hq) as (sy & H). apply Hsv. eapply solvent_token; eauto.
Qed.

Theorem finalize_reach now s r rc : reach self keccak env s -> native_apart (sys_state s) ->
  native_deposits (history (sys_log s)) < U256_MAX ->
  In r (accepted (history (sys_log s))) -> positive r -> not_finalized (history (sys_log s)) (wr_burn_index r) ->
  honest (history (sys_log s)) (wr_burn_index r) rc ->
  exists c', process_event now (EvFinalizedTransaction (wr_burn_index r) rc) (sys_core s) = Done c'.
Proof.
  intros Hr Ha Hsm Hin Hp Hf Hh. pose proof (settle_reach s Hr Ha Hsm) as So.
  destruct (finalize_total now _ r rc So Hin Hf Hh Hp) as (c' & Hc & _). eauto.
Qed.

Theorem batch_reach now s id hashes r0 rs : reach self keccak env s -> native_apart (sys_state s) ->
  native_deposits (history (sys_log s)) < U256_MAX ->
  (forall r, In r (accepted (history (sys_log s))) -> positive r) ->
  bget id (sys_tasks s) = Some {| fl_task := TRetrieveReceipts hashes; fl_reply := r0 |} ->
  fair (history (sys_log s)) hashes rs ->
  exists c', resume keccak now (TRetrieveReceipts hashes) (ReReceipts rs) (sys_core s) = Done (c', Finish OutTimer) /\
    (complete hashes rs -> forall b rc, answered hashes rs b rc -> In (b, rc) (finalizations (history (snd c')))).
Proof.
  intros Hr Ha Hsm Hp Ht [Hh Hall]. pose proof (settle_reach s Hr Ha Hsm) as So.
  destruct (ready_reach self keccak env s Henv Hr _ _ _ Ht) as (n & Hn). cbn in Hn.
  pose proof (so_core _ So) as Hcore. pose proof (core_wt _ _ Hcore) as Hi.
  pose proof (so_known _ So) as [[(Hrep & _ & _) _] _].
  cbn [resume]. unfold retrieve_receipts_reply. destruct (collect_receipts hashes rs []) as [m|] eqn:E.
  2:{ unfold end_timer. eexists. split; [reflexivity|]. intros [C1 C2].
      destruct (collect_total hashes rs [] C1 C2) as (m & Hm); [reflexivity|congruence]. }
  destruct (collect_got hashes rs [] m E bsorted_nil) as (M1 & M2 & M3).
  destruct (expected_keys hashes) as [X1 X2].
  assert (Hin : forall b rc, In (b, rc) m -> answered hashes rs b rc).
  { intros b rc H. apply bget_iff_In in H; auto. apply M2 in H as [H|H]; [discriminate|auto]. }
  assert (Hans : forall b rc, answered hashes rs b rc -> In b (map snd hashes)).
  { intros b rc H. unfold answered in H. apply in_combine_l in H. exact H. }
  assert (Hkeys : bkeys (expected_ids hashes) = bkeys m).
  { apply same_keys; auto. intros k. rewrite X2. split.
    - intros H. destruct (Hall _ H) as (rc & Hrc). apply bget_In_keys. rewrite (M3 k rc); auto. discriminate.
    - intros H. apply in_map_iff in H as ([b rc] & <- & H). cbn. eauto. }
  rewrite Hkeys, bytes_eqb_refl. cbn [rassert rbind].
  destruct (finalize_batch now m (sys_core s) So) as (c' & Hc' & Hhist).
  - apply bsorted_NoDup; auto.
  - intros b rc H. pose proof (Hin _ _ H) as Hb. pose proof (Hans _ _ Hb) as Hb2.
    destruct (hashes_sent _ _ _ Hi Hn b Hb2) as (k & l & Hrow).
    pose proof (sent_not_final _ _ Hi Hrep _ _ _ Hrow) as Hnf.
    destruct (i_sent_tx _ Hi _ _ _ Hrow) as (_ & req & Hreq & _).
    apply (p_processed _ _ Hrep) in Hreq as (R1 & R2 & _).
    exists req. do 4 (split; auto).
  - rewrite Hc'. cbn [rbind]. unfold end_timer. eexists. split; [reflexivity|].
    intros _ b rc Hb. cbn [snd on_state]. rewrite Hhist.
    assert (Hg := M3 b rc (or_intror Hb)). unfold finalizations. apply in_flat_map. exists (EvFinalizedTransaction b rc). split; [|left; auto].
    apply in_or_app. right. apply in_map_iff. exists (b, rc). split; auto. apply bget_iff_In; auto.
Qed.
End Reach.
End Finalize.
