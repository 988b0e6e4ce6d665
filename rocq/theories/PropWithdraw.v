(** * C13-C17, C20, C22, C55: the life of a withdrawal. *)

From Verif Require Import Base BMap MultiKeyMap Bytes Types Amount Tx CallData Network Hex
  Transactions State Audit Ranges Rlp Parser Memo Driver Sys SysSpec MultiKeyMapFacts ArithFacts WtInv TxSpec CoreInv
  WtContent Lifting LogFacts WithdrawSpec WithdrawFacts StageFacts Scenario.

(** The concrete histories are reachable. *)
Lemma scenario_reach ls s :
  run0 ls = Done s -> forallb no_upgrade ls = true -> reach self0 keccak0 nonce_kept s.
Proof.
  intros H Hb. eapply reach_run0_quiet; [exact H|exact Hb|]. intros x [] Hl; try exact Logic.I. discriminate.
Qed.

(** ** C13 *)

(** Every accepted withdrawal is in exactly one stage; only accepted withdrawals are in
    the tables; no two accepted withdrawals have the same burn index. *)
Theorem C13_exactly_one_stage :
  forall self keccak s, reach self keccak nonce_kept s ->
    let h := history (sys_log s) in
    (forall r, In r (accepted h) <-> exists st, at_stage (withdrawals (sys_state s)) r st) /\
    (forall r st st', at_stage (withdrawals (sys_state s)) r st ->
       at_stage (withdrawals (sys_state s)) r st' -> st = st') /\
    NoDup (map wr_burn_index (accepted h)).
Proof.
  intros self keccak s Hr. destruct (reach_wlog self keccak nonce_kept (fun _ _ H => H) s Hr) as (Hc & Hp & _).
  pose proof (core_wt _ _ Hc) as Hi. split; [|split].
  - intros r. split; [apply stage_exists; auto|]. intros (st & H). eapply stage_accepted; eauto.
  - intros r st st'. apply stage_unique; auto.
  - apply (p_acc_nodup _ _ Hp).
Qed.
Print Assumptions C13_exactly_one_stage.

(** No step takes a withdrawal out of the tables or back to an earlier stage. *)
Theorem C13_never_lost_never_back :
  forall self keccak s l r st, reach self keccak nonce_kept s -> nonce_kept s l ->
    at_stage (withdrawals (sys_state s)) r st ->
    exists st', at_stage (withdrawals (sys_state (step self keccak s l))) r st' /\ rank st <= rank st'.
Proof. intros. eapply stage_step; eauto. Qed.
Print Assumptions C13_never_lost_never_back.

(** The four stages occur: waiting before the batch, prepared after it, sent after the
    signatures, finalized at the end. *)
Example C13_witness :
  let stages ls := match run0 ls with
                   | Done s => map (fun r => let b := wr_burn_index r in let w := withdrawals (sys_state s) in
                       (b, existsb (has_burn_index b) (pending w), bmem b (by_alt (created w)),
                        bmem b (by_alt (sent w)), bmem b (by_alt (finalized w))))
                       (accepted (history (sys_log s)))
                   | _ => []
                   end in
  stages (register0 ++ scrape0 ++ mint0 ++ withdraw_native0) = [(3, true, false, false, false)] /\
  stages (register0 ++ scrape0 ++ mint0 ++ withdraw_native0 ++ withdraw_erc200 ++ create0) =
    [(3, false, true, false, false); (5, false, true, false, false)] /\
  stages up_to_sent = [(3, false, false, true, false); (5, false, false, true, false)] /\
  stages (up_to_sent ++ finalize0) = [(3, false, false, false, true); (5, false, false, true, false)] /\
  stages (up_to_sent ++ bump0) = [(3, false, true, true, false); (5, false, false, true, false)].
Proof. vm_compute. repeat split. Qed.

(** ** C14 *)

(** Every new transaction has the nonce that the installation (or the last override)
    and the number of transactions created since then determine. *)
Theorem C14_next_nonce :
  forall self keccak s, reach self keccak nonce_kept s ->
    forall h1 b t h2, history (sys_log s) = h1 ++ EvCreatedTransaction b t :: h2 ->
      tx_nonce t = expected_nonce h1.
Proof.
  intros self keccak s Hr h1 b t h2 H.
  destruct (reach_wlog self keccak nonce_kept (fun _ _ H => H) s Hr) as (_ & _ & Hf & _).
  apply (Hf _ _ _ H).
Qed.
Print Assumptions C14_next_nonce.

(** Without overrides the nonces of the created transactions, in order, are initial,
    initial+1, initial+2, ... *)
Theorem C14_consecutive_from_initial :
  forall self keccak s, reach self keccak nonce_kept s ->
    existsb overrides_nonce (history (sys_log s)) = false ->
    exists a h, history (sys_log s) = EvInit a :: h /\
      map (fun x => tx_nonce (snd x)) (creations (history (sys_log s))) =
      consecutive (ia_next_transaction_nonce a) (List.length (creations (history (sys_log s)))).
Proof.
  intros self keccak s Hr Ho.
  destruct (reach_wlog self keccak nonce_kept (fun _ _ H => H) s Hr) as (_ & _ & Hf & _).
  assert (Hr' : reach self keccak any_env s)
    by (clear - Hr; induction Hr; [eapply reach_init; eauto|apply reach_step; auto; exact Logic.I]).
  apply log_init_first in Hr' as (now & a & es & Hl & Hn).
  exists a, (history es). rewrite Hl in *. split; auto. unfold history in *. cbn [map ev_payload] in *.
  destruct (nonces_consecutive a (map ev_payload es) Hf) as (_ & H); auto.
  intros x Hx. apply in_map_iff in Hx as (e & He & Hin). eapply Hn; eauto.
Qed.
Print Assumptions C14_consecutive_from_initial.

(** Of all transactions ever made, two belong to the same withdrawal exactly if they
    have the same nonce. *)
Theorem C14_nonce_identifies_withdrawal :
  forall self keccak s, reach self keccak nonce_kept s ->
    forall b1 t1 b2 t2,
      In (b1, t1) (transactions_made (history (sys_log s))) ->
      In (b2, t2) (transactions_made (history (sys_log s))) ->
      (b1 = b2 <-> tx_nonce t1 = tx_nonce t2).
Proof.
  intros self keccak s Hr b1 t1 b2 t2 H1 H2.
  destruct (reach_wlog self keccak nonce_kept (fun _ _ H => H) s Hr) as (Hc & Hp & _).
  apply (p_made _ _ Hp) in H1. apply (p_made _ _ Hp) in H2. pose proof (core_wt _ _ Hc) as Hi. split.
  - intros ->. eapply owned_alt; eauto.
  - intros E. rewrite E in H1. eapply owned_key; eauto.
Qed.
Print Assumptions C14_nonce_identifies_withdrawal.

Example C14_witness :
  exists s, reach self0 keccak0 nonce_kept s /\
    existsb overrides_nonce (history (sys_log s)) = false /\
    map (fun x => (fst x, tx_nonce (snd x))) (transactions_made (history (sys_log s))) =
      [(3, 7); (5, 8); (3, 7); (5, 8); (3, 7); (3, 7)].
Proof.
  destruct (run0 all1) as [s|] eqn:E; [|vm_compute in E; discriminate].
  exists s. split; [eapply scenario_reach; [exact E|vm_compute; reflexivity]|].
  vm_compute in E. injection E as <-. vm_compute. auto.
Qed.

(** ** C55 *)

(** False in general: the operator may set the nonce back, and then two different
    withdrawals get transactions with the same nonce (here nonce 7). *)
Theorem C55_override_reuses_nonce_refuted :
  exists self keccak s, reach self keccak any_env s /\
    exists b1 t1 b2 t2,
      In (b1, t1) (transactions_made (history (sys_log s))) /\
      In (b2, t2) (transactions_made (history (sys_log s))) /\
      b1 <> b2 /\ tx_nonce t1 = tx_nonce t2.
Proof.
  destruct (run0 all2) as [s|] eqn:E; [|vm_compute in E; discriminate].
  exists self0, keccak0, s. split.
  - eapply reach_run0; [exact E|]. intros; exact Logic.I.
  - vm_compute in E. injection E as <-. exists 3, (nth 0 (map snd (transactions_made (history
      (match run0 all2 with Done s => sys_log s | _ => [] end)))) (Build_Tx 0 0 0 0 0 0 0 [] [])), 7,
      (nth 4 (map snd (transactions_made (history
      (match run0 all2 with Done s => sys_log s | _ => [] end)))) (Build_Tx 0 0 0 0 0 0 0 [] [])).
    vm_compute. intuition congruence.
Qed.
Print Assumptions C55_override_reuses_nonce_refuted.

(** What does hold: overrides that do not go below the next nonce cannot cause reuse
    (this is [C14_nonce_identifies_withdrawal]), also when they skip nonces. *)
Theorem C55_override_upwards_partial :
  forall self keccak s, reach self keccak nonce_kept s ->
    forall b1 t1 b2 t2,
      In (b1, t1) (transactions_made (history (sys_log s))) ->
      In (b2, t2) (transactions_made (history (sys_log s))) ->
      b1 <> b2 -> tx_nonce t1 <> tx_nonce t2.
Proof.
  intros self keccak s Hr b1 t1 b2 t2 H1 H2 Hn E. apply Hn.
  eapply C14_nonce_identifies_withdrawal; eauto.
Qed.
Print Assumptions C55_override_upwards_partial.

(** ** C15 *)

(** Every transaction ever created, replaced or signed is for an accepted withdrawal and
    has the minter's chain, the requested recipient (or the token contract with transfer
    call data and no value) and the data fixed by the request. *)
Definition pays (net : EvmNetwork) (r : WithdrawalRequest) (t : Tx) : Prop :=
  tx_chain_id t = chain_id net /\ tx_access_list t = [] /\
  match r with
  | WNative n => tx_destination t = nw_destination n /\ tx_data t = []
  | WErc20 e =>
      tx_destination t = ew_erc20_contract_address e /\ tx_amount t = 0 /\
      tx_data t = [169; 5; 156; 187] ++ repeat 0 12 ++ be_bytes 20 (ew_destination e) ++ be_bytes 32 (ew_withdrawal_amount e)
  end.

Lemma serves_pays net r t : tx_serves net r t -> pays net r t.
Proof.
  intros (H1 & H2 & H3). split; [|split]; auto. destruct r; [tauto|].
  destruct H3 as (-> & -> & -> & _). split; [|split]; auto.
Qed.

Theorem C15_transactions_pay_the_request :
  forall self keccak s, reach self keccak nonce_kept s ->
    forall b t, In (b, t) (transactions_made (history (sys_log s))) ->
      exists r, In r (accepted (history (sys_log s))) /\ wr_burn_index r = b /\
        pays (evm_network (sys_state s)) r t.
Proof.
  intros self keccak s Hr b t H.
  destruct (reach_wlog self keccak nonce_kept (fun _ _ H => H) s Hr) as (_ & _ & _ & Ha & _).
  destruct (Ha b t H) as (r & H1 & H2 & H3). exists r. auto using serves_pays.
Qed.
Print Assumptions C15_transactions_pay_the_request.

(** The same for every transaction handed to the provider and every finalized one. *)
Theorem C15_sent_and_finalized_pay_the_request :
  forall self keccak s, reach self keccak nonce_kept s ->
    (forall txs x, running s (TRetrieveSend txs) -> In x txs ->
      exists r, In r (accepted (history (sys_log s))) /\ pays (evm_network (sys_state s)) r (st_tx x)) /\
    (forall b f, mkm_get_alt b (finalized (withdrawals (sys_state s))) = Some f ->
      exists r, In r (accepted (history (sys_log s))) /\ wr_burn_index r = b /\
        pays (evm_network (sys_state s)) r (st_tx (ft_tx f))).
Proof.
  intros self keccak s Hr.
  destruct (reach_wlog self keccak nonce_kept (fun _ _ H => H) s Hr) as (_ & Hp & _ & Ha & Hs). split.
  - intros txs x Hx Hin. destruct (Hs _ Hx x Hin) as (b & r & Hb & Hv & _).
    apply (p_processed _ _ Hp) in Hb as (Hb & _). exists r. auto using serves_pays.
  - intros b f Hf. apply (p_fin _ _ Hp) in Hf as (_ & Hf). apply attempts_made in Hf.
    destruct (Ha b _ Hf) as (r & H1 & H2 & H3). exists r. auto using serves_pays.
Qed.
Print Assumptions C15_sent_and_finalized_pay_the_request.

Example C15_witness :
  exists s, reach self0 keccak0 nonce_kept s /\
    List.length (transactions_made (history (sys_log s))) = 6%nat /\
    (exists txs, running s (TRetrieveSend txs) /\ List.length txs = 2%nat) /\
    map (fun x => tx_destination (snd x)) (creations (history (sys_log s))) = [204; 187].
Proof.
  destruct (run0 all1) as [s|] eqn:E; [|vm_compute in E; discriminate].
  exists s. split; [eapply scenario_reach; [exact E|vm_compute; reflexivity]|].
  vm_compute in E. injection E as <-. split; [vm_compute; reflexivity|]. split; [|vm_compute; reflexivity].
  eexists. split; [exists 6, None; vm_compute; reflexivity|reflexivity].
Qed.

(** ** C16 *)

(** For every transaction ever made, the value plus the largest possible fee never
    exceeds what was withdrawn, resp. the largest possible fee never exceeds the fee
    burned. (For the single amount 2^256-1 the saturating arithmetic of the code makes
    no such promise.) *)
Theorem C16_fees_never_exceed_charge :
  forall self keccak s, reach self keccak nonce_kept s ->
    forall b t, In (b, t) (transactions_made (history (sys_log s))) ->
      exists r, In r (accepted (history (sys_log s))) /\ wr_burn_index r = b /\
        match r with
        | WNative n => nw_withdrawal_amount n < 2 ^ 256 - 1 ->
            tx_amount t + tx_gas_limit t * tx_max_fee_per_gas t = nw_withdrawal_amount n
        | WErc20 e => ew_max_transaction_fee e < 2 ^ 256 - 1 ->
            tx_gas_limit t * tx_max_fee_per_gas t <= ew_max_transaction_fee e
        end.
Proof.
  intros self keccak s Hr b t H.
  destruct (reach_wlog self keccak nonce_kept (fun _ _ H => H) s Hr) as (_ & _ & _ & Ha & _).
  destruct (Ha b t H) as (r & H1 & H2 & H3). exists r. split; [|split]; auto.
  destruct H3 as (_ & _ & H3). unfold tx_fee_cap in H3.
  pose proof U256_MAX_val as HM. destruct r; rewrite <- HM; intros Hlt.
  - destruct H3 as (_ & _ & _ & H3). lia.
  - destruct H3 as (_ & _ & _ & _ & H3). lia.
Qed.
Print Assumptions C16_fees_never_exceed_charge.

(** And all that was charged is offered: the price of gas in every transaction for tokens is the
    fee burned divided by the limit of gas, rounded down. So replacements of these
    transactions only raise the tip. *)
Theorem C16_tokens_offer_the_charge :
  forall self keccak s, reach self keccak nonce_kept s ->
    forall b t, In (b, t) (transactions_made (history (sys_log s))) ->
      exists r, In r (accepted (history (sys_log s))) /\ wr_burn_index r = b /\
        match r with
        | WNative _ => True
        | WErc20 e => ew_max_transaction_fee e < 2 ^ 256 - 1 ->
            tx_gas_limit t = 65000 /\ tx_max_fee_per_gas t = ew_max_transaction_fee e / tx_gas_limit t
        end.
Proof.
  intros self keccak s Hr b t H.
  destruct (reach_wlog self keccak nonce_kept (fun _ _ H => H) s Hr) as (_ & _ & _ & Ha & _).
  destruct (Ha b t H) as (r & H1 & H2 & H3). exists r. split; [|split]; auto.
  destruct H3 as (_ & _ & H3). unfold tx_fee_cap in H3.
  pose proof U256_MAX_val as HM. destruct r; rewrite <- ?HM; [exact Logic.I|intros Hlt].
  destruct H3 as (_ & _ & _ & H3 & H4 & H5). split; [exact H3|]. rewrite H3 in *.
  apply (N.div_unique _ _ _ (ew_max_transaction_fee r - 65000 * tx_max_fee_per_gas t)); lia.
Qed.
Print Assumptions C16_tokens_offer_the_charge.

Example C16_witness :
  exists s, reach self0 keccak0 nonce_kept s /\
    map (fun x => (fst x, tx_amount (snd x), tx_gas_limit (snd x) * tx_max_fee_per_gas (snd x)))
      (transactions_made (history (sys_log s))) =
    [(3, 49516500, 483000); (5, 0, 1495000); (3, 49516500, 483000); (5, 0, 1495000);
     (3, 49264500, 735000); (3, 49264500, 735000)].
Proof.
  destruct (run0 all1) as [s|] eqn:E; [|vm_compute in E; discriminate].
  exists s. split; [eapply scenario_reach; [exact E|vm_compute; reflexivity]|].
  vm_compute in E. injection E as <-. vm_compute. reflexivity.
Qed.

(** ** C17 *)

(** Every withdrawal is finalized at most once, with the receipt of a transaction that
    had been signed for it. *)
Theorem C17_finalized_once_by_own_transaction :
  forall self keccak s, reach self keccak nonce_kept s ->
    NoDup (map fst (finalizations (history (sys_log s)))) /\
    forall h1 b rc h2, history (sys_log s) = h1 ++ EvFinalizedTransaction b rc :: h2 ->
      exists x, In x (attempts h1 b) /\ st_hash x = rc_transaction_hash rc.
Proof.
  intros self keccak s Hr.
  destruct (reach_wlog self keccak nonce_kept (fun _ _ H => H) s Hr) as (_ & Hp & Hf & _). split.
  - apply (p_fin_nodup _ _ Hp).
  - intros h1 b rc h2 H. apply (Hf _ _ _ H).
Qed.
Print Assumptions C17_finalized_once_by_own_transaction.

(** No nonce is finalized twice. *)
Theorem C17_nonce_finalized_once :
  forall self keccak s, reach self keccak nonce_kept s ->
    forall b1 rc1 x1 b2 rc2 x2,
      In (b1, rc1) (finalizations (history (sys_log s))) -> In x1 (attempts (history (sys_log s)) b1) ->
      In (b2, rc2) (finalizations (history (sys_log s))) -> In x2 (attempts (history (sys_log s)) b2) ->
      tx_nonce (st_tx x1) = tx_nonce (st_tx x2) -> b1 = b2 /\ rc1 = rc2.
Proof.
  intros self keccak s Hr b1 rc1 x1 b2 rc2 x2 F1 A1 F2 A2 Hn.
  destruct (reach_wlog self keccak nonce_kept (fun _ _ H => H) s Hr) as (_ & Hp & _).
  apply attempts_made in A1. apply attempts_made in A2.
  assert (b1 = b2) as -> by (eapply C14_nonce_identifies_withdrawal; eauto). split; auto.
  apply (p_fin_all _ _ Hp) in F1 as (f1 & F1 & <-). apply (p_fin_all _ _ Hp) in F2 as (f2 & F2 & <-). congruence.
Qed.
Print Assumptions C17_nonce_finalized_once.

(** After finalization nothing more is created, replaced, signed or finalized for the
    withdrawal, and the tables keep no competing transaction. *)
Theorem C17_nothing_after_finalization :
  forall self keccak s, reach self keccak nonce_kept s ->
    forall h1 b rc h2, history (sys_log s) = h1 ++ EvFinalizedTransaction b rc :: h2 ->
      ~ In b (map fst (transactions_made h2)) /\ ~ In b (map fst (finalizations h2)) /\
      mkm_get_alt b (created (withdrawals (sys_state s))) = None /\
      mkm_get_alt b (sent (withdrawals (sys_state s))) = None /\
      forall x, In x (attempts h1 b) ->
        mkm_get (tx_nonce (st_tx x)) (created (withdrawals (sys_state s))) = None /\
        mkm_get (tx_nonce (st_tx x)) (sent (withdrawals (sys_state s))) = None.
Proof.
  intros self keccak s Hr h1 b rc h2 H.
  destruct (reach_wlog self keccak nonce_kept (fun _ _ H => H) s Hr) as (Hc & Hp & Hf & _).
  pose proof (core_wt _ _ Hc) as Hi. change (fst (sys_core s)) with (sys_state s) in Hi.
  rewrite H in Hf. destruct (final_no_more _ _ _ _ Hf) as (H1 & H2).
  assert (Hin : In (b, rc) (finalizations (history (sys_log s)))).
  { rewrite H. unfold finalizations. rewrite flat_map_app. apply in_app_iff. right. left. reflexivity. }
  apply (p_fin_all _ _ Hp) in Hin as (f & Hb & _).
  apply (get_alt_row _ _ _ (i_fin _ Hi)) in Hb as (k & Hrow).
  pose proof (i_fin_excl _ Hi _ _ _ Hrow) as (E1 & E2 & E3 & E4).
  split; [|split; [|split; [|split]]]; auto. intros x Hx.
  assert (Ho : owned (withdrawals (sys_state s)) (tx_nonce (st_tx x)) b).
  { apply (p_made _ _ Hp). apply attempts_made. rewrite H. unfold attempts. rewrite flat_map_app. apply in_app_iff. auto. }
  assert (k = tx_nonce (st_tx x)) as <-.
  { eapply owned_alt; [exact Hi| |exact Ho]. right. right. destruct Hrow; auto. }
  unfold mkm_get. rewrite E1, E2. auto.
Qed.
Print Assumptions C17_nothing_after_finalization.

Example C17_witness :
  exists s, reach self0 keccak0 nonce_kept s /\
    map fst (finalizations (history (sys_log s))) = [3; 5] /\
    exists h1 rc h2, history (sys_log s) = h1 ++ EvFinalizedTransaction 3 rc :: h2 /\
      List.length (attempts h1 3) = 1%nat /\ List.length h2 = 2%nat.
Proof.
  destruct (run0 all0) as [s|] eqn:E; [|vm_compute in E; discriminate].
  exists s. split; [eapply scenario_reach; [exact E|vm_compute; reflexivity]|].
  vm_compute in E. injection E as <-. split; [vm_compute; reflexivity|].
  eexists (firstn 12 (history (match run0 all0 with Done s => sys_log s | _ => [] end))), _, _.
  vm_compute. split; [reflexivity|]. split; reflexivity.
Qed.

(** ** C20 *)

(** Every replacement recorded in the log replaces the last signed transaction of a
    withdrawal that is not finalized, and only raises fees (see [fee_bump]). *)
Theorem C20_replacement_only_bumps_fees :
  forall self keccak s, reach self keccak nonce_kept s ->
    forall h1 b t h2, history (sys_log s) = h1 ++ EvReplacedTransaction b t :: h2 ->
      ~ In b (map fst (finalizations h1)) /\
      exists x, last_opt (attempts h1 b) = Some x /\ fee_bump (st_tx x) t.
Proof.
  intros self keccak s Hr h1 b t h2 H.
  destruct (reach_wlog self keccak nonce_kept (fun _ _ H => H) s Hr) as (_ & _ & Hf & _).
  apply (Hf _ _ _ H).
Qed.
Print Assumptions C20_replacement_only_bumps_fees.

(** A transaction is replaced only if it no longer covers the estimate (base fee plus
    priority fee, and the priority fee), and one that covers it never is. *)
Theorem C20_only_when_estimate_not_covered :
  forall t st g,
    (min_max_fee_per_gas g <= tx_max_fee_per_gas t /\
     gf_max_priority_fee_per_gas g <= tx_max_priority_fee_per_gas t -> resubmit t st g = Done (ROk None)) /\
    (forall t', resubmit t st g = Done (ROk (Some t')) ->
       (tx_max_fee_per_gas t < min_max_fee_per_gas g \/
        tx_max_priority_fee_per_gas t < gf_max_priority_fee_per_gas g) /\
       min_max_fee_per_gas g <= tx_max_fee_per_gas t' /\
       gf_max_priority_fee_per_gas g <= tx_max_priority_fee_per_gas t').
Proof.
  intros t st g. split; [intros (H1 & H2); apply resubmit_covered; auto|].
  intros t' H. split.
  - destruct (N.le_gt_cases (min_max_fee_per_gas g) (tx_max_fee_per_gas t)) as [H1|H1]; auto.
    destruct (N.le_gt_cases (gf_max_priority_fee_per_gas g) (tx_max_priority_fee_per_gas t)) as [H2|H2]; auto.
    rewrite (resubmit_covered _ _ _ H1 H2) in H. discriminate.
  - apply resubmit_covers with (1 := H).
Qed.
Print Assumptions C20_only_when_estimate_not_covered.

(** One round of replacements goes through the sent transactions in nonce order and
    stops at the first withdrawal whose new fee is not affordable. *)
Theorem C20_stops_at_first_unaffordable :
  forall count g w out, create_resubmit_transactions count g w = Done out ->
    exists rows before rest,
      mkm_iter (sent w) = Done rows /\
      filter (fun x => count <=? fst (fst x)) rows = before ++ rest /\
      flat_map (fun r => match r with ROk x => [x] | RErr _ => [] end) out = flat_map (replacement g) before /\
      (rest = [] \/ exists x rest', rest = x :: rest' /\ unaffordable g x).
Proof.
  intros count g w out H. unfold create_resubmit_transactions in H.
  apply rbind_done in H as (rows & Hr & H). apply resubmit_loop_shape in H as (d & rs & Hd & Ho & Ht).
  exists rows, d, rs. auto.
Qed.
Print Assumptions C20_stops_at_first_unaffordable.

(** A replacement is unaffordable exactly if the largest fee at the new price exceeds
    what may be spent. *)
Theorem C20_unaffordable_iff :
  forall t st g, (exists e, resubmit t st g = Done (RErr e)) <->
    exists p, resubmit_transaction_price (tx_price t) g = Done p /\ p <> tx_price t /\
      allowed_max_transaction_fee st < max_transaction_fee p.
Proof. intros. apply resubmit_err_iff. Qed.
Print Assumptions C20_unaffordable_iff.

(** In the concrete history the native withdrawal is replaced (priority fee 3 to 5, max
    fee 23 to 35) and the ERC-20 withdrawal, which cannot afford it, is not. *)
Example C20_witness :
  exists s, reach self0 keccak0 nonce_kept s /\
    exists h1 t h2, history (sys_log s) = h1 ++ EvReplacedTransaction 3 t :: h2 /\
      tx_max_fee_per_gas t = 35 /\ tx_max_priority_fee_per_gas t = 5 /\ List.length h2 = 1%nat.
Proof.
  destruct (run0 all1) as [s|] eqn:E; [|vm_compute in E; discriminate].
  exists s. split; [eapply scenario_reach; [exact E|vm_compute; reflexivity]|].
  vm_compute in E. injection E as <-.
  eexists (firstn 12 (history (match run0 all1 with Done s => sys_log s | _ => [] end))), _, _.
  vm_compute. repeat split; reflexivity.
Qed.
Example C20_witness_unaffordable :
  match run0 up_to_sent with
  | Done s => create_resubmit_transactions 7 {| gf_base_fee_per_gas := 30; gf_max_priority_fee_per_gas := 5 |}
                (withdrawals (sys_state s))
  | Panic m => Panic m
  end = Done [ROk (3, {| tx_chain_id := 11155111; tx_nonce := 7; tx_max_priority_fee_per_gas := 5;
                         tx_max_fee_per_gas := 35; tx_gas_limit := 21000; tx_destination := 204;
                         tx_amount := 49264500; tx_data := []; tx_access_list := [] |});
              RErr {| rte_ledger_burn_index := 5; rte_transaction_nonce := 8;
                      rte_allowed_max_transaction_fee := 1495000; rte_max_transaction_fee := 2275000 |}].
Proof. vm_compute. reflexivity. Qed.

(** ** C22 *)

(** A signed transaction can be recorded exactly if it is the transaction of some
    withdrawal that waits for a signature. *)
Theorem C22_recorded_iff_waiting_for_signature :
  forall self keccak s b x, reach self keccak nonce_kept s ->
    ((exists s', apply_state_transition (sys_state s) (EvSignedTransaction b x) = Done s') <->
     exists b', unsigned (history (sys_log s)) b' = Some (st_tx x)).
Proof. intros self keccak s b x Hr. eapply signed_iff; eauto. Qed.
Print Assumptions C22_recorded_iff_waiting_for_signature.

(** Every signature in the log is filed under the withdrawal whose transaction it signs. *)
Theorem C22_filed_under_its_withdrawal :
  forall self keccak s, reach self keccak nonce_kept s ->
    forall h1 b x h2, history (sys_log s) = h1 ++ EvSignedTransaction b x :: h2 ->
      unsigned h1 b = Some (st_tx x).
Proof.
  intros self keccak s Hr h1 b t h2 H.
  destruct (reach_wlog self keccak nonce_kept (fun _ _ H => H) s Hr) as (_ & _ & Hf & _).
  apply (Hf _ _ _ H).
Qed.
Print Assumptions C22_filed_under_its_withdrawal.

(** The tables follow the log: the created table holds exactly the transaction waiting
    for a signature (signing removes it), the sent table all signed transactions, oldest
    first, until finalization. *)
Theorem C22_moved_and_appended :
  forall self keccak s, reach self keccak nonce_kept s ->
    forall b,
      option_map rs_tx (mkm_get_alt b (created (withdrawals (sys_state s)))) =
        unsigned (history (sys_log s)) b /\
      (~ In b (map fst (finalizations (history (sys_log s)))) ->
       match mkm_get_alt b (sent (withdrawals (sys_state s))) with
       | Some l => map rs_tx l
       | None => []
       end = attempts (history (sys_log s)) b).
Proof.
  intros self keccak s Hr b.
  destruct (reach_wlog self keccak nonce_kept (fun _ _ H => H) s Hr) as (_ & Hp & _). split.
  - apply (p_created _ _ Hp).
  - intros Hn. pose proof (p_sent _ _ Hp b Hn) as H. unfold mkm_get_alt.
    destruct (bget b (by_alt (sent _))) as [l|]; cbn in H.
    + symmetry in H. apply nonempty_some in H as (-> & _). reflexivity.
    + symmetry in H. apply nonempty_none in H as ->. reflexivity.
Qed.
Print Assumptions C22_moved_and_appended.

Example C22_witness :
  exists s, reach self0 keccak0 nonce_kept s /\
    List.length (attempts (history (sys_log s)) 3) = 1%nat /\
    is_some (unsigned (history (sys_log s)) 3) = true /\
    is_some (unsigned (history (sys_log s)) 5) = false.
Proof.
  destruct (run0 (up_to_sent ++ bump0)) as [s|] eqn:E; [|vm_compute in E; discriminate].
  exists s. split; [eapply scenario_reach; [exact E|vm_compute; reflexivity]|].
  vm_compute in E. injection E as <-. vm_compute. auto.
Qed.
