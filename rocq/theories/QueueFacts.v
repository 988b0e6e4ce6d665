(** * Facts about the queue of waiting withdrawals (C21, C54) *)

From Verif Require Import Base BMap MultiKeyMap MultiKeyMapFacts Bytes Types Amount Tx CallData
  Network Hex Transactions State Audit Ranges Rlp Parser Memo Driver Sys SysSpec WtInv StateEquiv
  TxSpec WtContent Segments Tasks SysFacts CoreInv Lifting ArithFacts WithdrawSpec WithdrawFacts StageFacts
  Guards FeeSpec FeeFacts QueueSpec.

(** ** Making one transaction *)

Lemma native_fee g : max_transaction_fee (to_price g 21000) = N.min (21000 * max_price g) U256_MAX.
Proof.
  unfold max_transaction_fee, to_price. cbn [tp_max_fee_per_gas tp_gas_limit]. rewrite or_max_cost, max_fee_saturates.
  pose proof U256_MAX_pos. lia.
Qed.

Lemma create_cases r nonce g net :
  if affordable g r
  then exists t, create_transaction r nonce g (estimate_gas_limit r) net = Done (ROk t)
  else exists e, create_transaction r nonce g (estimate_gas_limit r) net = Done (RErr e).
Proof.
  unfold create_transaction, affordable, estimate_gas_limit. destruct r as [n|e].
  - change NATIVE_GAS_LIMIT with 21000. change (0 <? 21000) with true. cbn [rassert rbind]. rewrite native_fee. unfold checked_sub.
    destruct (_ <=? _); eauto.
  - change ERC20_GAS_LIMIT with 65000. change (0 <? 65000) with true. cbn [rassert rbind]. unfold into_wei_per_gas, checked_div_floor.
    change (65000 =? 0) with false. cbn [expect rbind]. unfold min_max_fee_per_gas. rewrite or_max_add.
    rewrite N.leb_antisym. destruct (_ <? N.min _ _); cbn [negb]; eauto.
Qed.

Lemma remove_head r l : NoDup (map wr_burn_index (r :: l)) -> filter (fun x => negb (wr_eqb x r)) (r :: l) = l.
Proof.
  intros H. apply NoDup_cons_iff in H as [H _]. cbn [filter].
  replace (wr_eqb r r) with true by (symmetry; apply wr_eqb_eq; auto). cbn [negb].
  assert (Hn : ~ In r l) by (intros Hin; apply H; apply in_map; auto). clear H.
  induction l as [|x l IH]; auto. cbn [filter]. destruct (wr_eqb x r) eqn:E.
  - apply wr_eqb_eq in E. subst. exfalso. apply Hn. left. auto.
  - cbn [negb]. f_equal. apply IH. intros Hin. apply Hn. right. auto.
Qed.

(** The effect of one round of the loop on the head of the queue *)
Record one_shape (now : N) (g : GasFeeEstimate) (r : WithdrawalRequest) (l : list WithdrawalRequest) (c c' : Core) : Prop := {
  os_inv : wt_inv (withdrawals (fst c'));
  os_sent : sent (withdrawals (fst c')) = sent (withdrawals (fst c));
  os_net : evm_network (fst c') = evm_network (fst c);
  os_case : if affordable g r
    then exists t, pending (withdrawals (fst c')) = l /\ tx_nonce t = next_nonce (withdrawals (fst c)) /\
      next_nonce (withdrawals (fst c')) = next_nonce (withdrawals (fst c)) + 1 /\
      snd c' = record_event now (EvCreatedTransaction (wr_burn_index r) t) (snd c) /\
      (forall k, dom k (by_key (created (withdrawals (fst c')))) <->
         k = next_nonce (withdrawals (fst c)) \/ dom k (by_key (created (withdrawals (fst c)))))
    else pending (withdrawals (fst c')) = l ++ [r] /\
      next_nonce (withdrawals (fst c')) = next_nonce (withdrawals (fst c)) /\
      snd c' = snd c /\ created (withdrawals (fst c')) = created (withdrawals (fst c))
}.

Lemma create_one_shape now g c r c' l : wt_inv (withdrawals (fst c)) -> pending (withdrawals (fst c)) = r :: l ->
  create_one now g c r = Done c' -> one_shape now g r l c c'.
Proof.
  intros Hi Hp H. assert (Hin : In r (pending (withdrawals (fst c)))) by (rewrite Hp; left; auto).
  pose proof (create_one_wt_inv _ _ _ _ _ Hi Hin H) as Hi'.
  pose proof (i_pend_nodup _ Hi) as Hnd. rewrite Hp in Hnd. pose proof (remove_head _ _ Hnd) as Hrm.
  destruct c as [s log]. unfold create_one in H. cbn [fst snd] in *.
  pose proof (create_cases r (next_nonce (withdrawals s)) g (evm_network s)) as Hc.
  constructor; [exact Hi'|..]; destruct (affordable g r).
  all: destruct Hc as (x & Hx); rewrite Hx in H; cbn [rbind] in H.
  1,3,5: apply process_event_inv in H as (s' & H & ->); apply on_withdrawals_inv in H as (w' & H & ->); cbn;
    apply record_created_spec in H;
    destruct H as (req & cr & _ & Hr & Hb & _ & _ & Hn & Hinc & Hins & _ & _ & Hw);
    assert (req = r) by (apply (nodup_burn_unique (pending (withdrawals s))); auto using i_pend_nodup); subst req.
  4,5,6: rewrite (reschedule_present r (withdrawals s) Hi Hin) in H; cbn [rbind] in H; injection H as <-; cbn.
  - rewrite Hw. reflexivity.
  - reflexivity.
  - exists x. split; [rewrite Hw; cbn [pending fst]; rewrite Hp; exact Hrm|]. split; [exact Hn|]. split; [apply checked_increment_val; exact Hinc|].
    split; [reflexivity|]. rewrite Hw. cbn. apply mkm_try_insert_ok in Hins as (_ & _ & ->). cbn.
    intros k. apply dom_insert.
  - reflexivity.
  - reflexivity.
  - rewrite Hp, Hrm. auto.
Qed.

(** The whole batch *)
Record batch_shape (g : GasFeeEstimate) (batch rest : list WithdrawalRequest) (c c' : Core) : Prop := {
  bs_inv : wt_inv (withdrawals (fst c'));
  bs_sent : sent (withdrawals (fst c')) = sent (withdrawals (fst c));
  bs_pending : pending (withdrawals (fst c')) = rest ++ filter (fun r => negb (affordable g r)) batch;
  bs_log : exists cs, creations (history (snd c')) = creations (history (snd c)) ++ cs /\
    accepted (history (snd c')) = accepted (history (snd c)) /\
    map fst cs = map wr_burn_index (filter (affordable g) batch) /\
    map (fun x => tx_nonce (snd x)) cs =
      consecutive (next_nonce (withdrawals (fst c))) (List.length (filter (affordable g) batch));
  bs_nonce : next_nonce (withdrawals (fst c')) =
    next_nonce (withdrawals (fst c)) + N.of_nat (List.length (filter (affordable g) batch));
  bs_keys : forall k, dom k (by_key (created (withdrawals (fst c')))) <->
    dom k (by_key (created (withdrawals (fst c)))) \/
    next_nonce (withdrawals (fst c)) <= k /\ k < next_nonce (withdrawals (fst c'))
}.

Lemma create_list_shape now g batch : forall rest c c', wt_inv (withdrawals (fst c)) ->
  pending (withdrawals (fst c)) = batch ++ rest -> rfold (create_one now g) c batch = Done c' ->
  batch_shape g batch rest c c'.
Proof.
  induction batch as [|r batch IH]; cbn [rfold]; intros rest c c' Hi Hp H.
  - injection H as <-. constructor; auto.
    + rewrite app_nil_r. exact Hp.
    + exists []. rewrite app_nil_r. auto.
    + cbn. lia.
    + intros k. split; [tauto|]. intros [?|?]; [auto|lia].
  - apply rbind_done in H as (c1 & H1 & H). cbn [app] in Hp.
    destruct (create_one_shape now g c r c1 (batch ++ rest) Hi Hp H1) as [S1 S2 S3 S4].
    destruct (affordable g r) eqn:Ea.
    + destruct S4 as (t & P1 & P2 & P3 & P4 & P5). destruct (IH rest c1 c' S1 P1 H) as [B1 B2 B3 B4 B5 B6].
      rewrite P4 in B4. rewrite history_snoc, creations_snoc, accepted_snoc in B4. cbn [created_by accepted_by app] in B4.
      rewrite app_nil_r in B4.
      destruct B4 as (cs & C1 & C2 & C3 & C4). constructor; cbn [filter]; rewrite ?Ea; cbn [negb]; auto.
      * congruence.
      * exists ((wr_burn_index r, t) :: cs). split; [rewrite C1, <- app_assoc; reflexivity|]. split; [exact C2|].
        cbn [map fst snd List.length consecutive]. split; [f_equal; exact C3|]. rewrite P3 in C4. f_equal; auto.
      * cbn [List.length]. lia.
      * intros k. rewrite B6, P5. rewrite B5, P3 in *. split.
        -- intros [[->|?]|?]; auto; right; lia.
        -- intros [?|Hk]; auto. destruct (N.eq_dec k (next_nonce (withdrawals (fst c)))); auto. right. lia.
    + destruct S4 as (P1 & P2 & P3 & P4). rewrite <- app_assoc in P1. destruct (IH (rest ++ [r]) c1 c' S1 P1 H) as [B1 B2 B3 B4 B5 B6].
      rewrite P3 in B4. rewrite P2 in *. rewrite P4 in B6. constructor; cbn [filter]; rewrite ?Ea; cbn [negb]; auto.
      * congruence.
      * rewrite B3, <- app_assoc. reflexivity.
Qed.

(** ** No panic *)

Definition positive_fee (g : GasFeeEstimate) : Prop := 0 < max_price g.
Lemma native_fee_pos g : positive_fee g -> 0 < max_transaction_fee (to_price g 21000).
Proof. unfold positive_fee. intros H. rewrite native_fee. pose proof U256_MAX_pos. lia. Qed.

Lemma record_created_total w r t g net : wt_inv w -> In r (pending w) -> positive_fee g ->
  next_nonce w < U256_MAX ->
  create_transaction r (next_nonce w) g (estimate_gas_limit r) net = Done (ROk t) ->
  exists w', record_created_transaction (wr_burn_index r) t w = Done w'.
Proof.
  intros Hi Hin Hg Hn H. pose proof H as Hs. unfold estimate_gas_limit in Hs.
  change NATIVE_GAS_LIMIT with 21000 in Hs. change ERC20_GAS_LIMIT with 65000 in Hs.
  apply create_transaction_serves in Hs as (Hs & Ht).
  unfold record_created_transaction. rewrite (find_burn_index_in _ _ (i_pend_nodup _ Hi) Hin). cbn [expect rbind].
  replace (existsb (wr_eqb r) (pending w)) with true
    by (symmetry; apply existsb_exists; exists r; split; [auto|apply wr_eqb_eq; auto]). cbn [rassert rbind].
  assert (Hd : wr_destination r = tx_destination t).
  { destruct r; cbn in *; destruct Hs as (_ & _ & Hs & _); auto. }
  rewrite Hd, N.eqb_refl. cbn [rassert rbind].
  match goal with |- context [rbind (match r with WNative _ => _ | WErc20 _ => _ end) _] =>
    assert (Ha : forall m1 m2, match r with WNative n => rassert (tx_amount t <? nw_withdrawal_amount n) m1
                                | WErc20 _ => rassert (tx_amount t =? 0) m2 end = Done tt) end.
  { intros m1 m2. destruct r as [n|e]; cbn in Hs.
    - destruct Hs as (_ & _ & _ & _ & _ & Hs). unfold create_transaction, estimate_gas_limit in H.
      change NATIVE_GAS_LIMIT with 21000 in H. change (0 <? 21000) with true in H. cbn [rassert rbind] in H.
      destruct (checked_sub _ _) as [a|] eqn:E in H; [|discriminate]. apply (f_equal (fun x => match x with Done (ROk t) => tx_amount t | _ => 0 end)) in H.
      cbn in H. subst a. apply checked_sub_some in E as [E1 E2]. pose proof (native_fee_pos g Hg).
      replace (tx_amount t <? nw_withdrawal_amount n) with true by (symmetry; apply N.ltb_lt; lia). reflexivity.
    - destruct Hs as (_ & _ & _ & Hs & _). rewrite Hs. reflexivity. }
  rewrite Ha. cbn [rbind]. rewrite Ht, N.eqb_refl. cbn [rassert rbind].
  replace (checked_increment (next_nonce w)) with (Some (next_nonce w + 1)).
  2: { unfold checked_increment, checked_add. destruct (N.leb_spec (next_nonce w + 1) U256_MAX); [auto|lia]. }
  cbn [expect rbind remove_withdrawal_request set_pending created set_next_nonce].
  pose proof (i_pend_fresh _ Hi _ Hin) as Hp. assert (Hnd : ~ dom (wr_burn_index r) (processed w)) by (apply not_dom; auto).
  rewrite (i_proc_dom _ Hi) in Hnd.
  assert (Hk : bget (next_nonce w) (by_key (created w)) = None).
  { apply not_dom. intros Hk. pose proof (i_lt _ Hi (next_nonce w) (or_introl Hk)). lia. }
  assert (Hc : bget (wr_burn_index r) (by_alt (created w)) = None) by (apply not_dom; tauto).
  assert (Hm : bget (wr_burn_index r) (maybe_reimburse w) = None).
  { apply not_dom. rewrite (i_mr_dom _ Hi). tauto. }
  rewrite mkm_try_insert_fresh by assumption. cbn [expect_inserted rbind processed maybe_reimburse].
  unfold bmem. change (processed (remove_withdrawal_request r (set_next_nonce (next_nonce w + 1) w))) with (processed w).
  change (maybe_reimburse (remove_withdrawal_request r (set_next_nonce (next_nonce w + 1) w))) with (maybe_reimburse w).
  rewrite Hp, Hm. cbn [is_some negb rassert rbind]. eauto.
Qed.

Lemma create_one_total now g c r l : wt_inv (withdrawals (fst c)) -> pending (withdrawals (fst c)) = r :: l ->
  positive_fee g -> next_nonce (withdrawals (fst c)) < U256_MAX -> exists c', create_one now g c r = Done c'.
Proof.
  intros Hi Hp Hg Hn. assert (Hin : In r (pending (withdrawals (fst c)))) by (rewrite Hp; left; auto).
  unfold create_one. pose proof (create_cases r (next_nonce (withdrawals (fst c))) g (evm_network (fst c))) as Hc.
  destruct (affordable g r); destruct Hc as (x & Hx); rewrite Hx; cbn [rbind].
  - destruct (record_created_total _ _ _ _ _ Hi Hin Hg Hn Hx) as (w' & Hw).
    unfold process_event. cbn [apply_state_transition]. unfold on_withdrawals. rewrite Hw. cbn [rbind]. eauto.
  - rewrite (reschedule_present _ _ Hi Hin). cbn [rbind]. eauto.
Qed.

Lemma create_list_total now g batch : forall rest c, wt_inv (withdrawals (fst c)) ->
  pending (withdrawals (fst c)) = batch ++ rest -> positive_fee g ->
  next_nonce (withdrawals (fst c)) + N.of_nat (List.length batch) <= U256_MAX ->
  exists c', rfold (create_one now g) c batch = Done c'.
Proof.
  induction batch as [|r batch IH]; cbn [rfold List.length]; intros rest c Hi Hp Hg Hn; [eauto|]. cbn [app] in Hp.
  destruct (create_one_total now g c r (batch ++ rest) Hi Hp Hg) as (c1 & H1); [lia|]. rewrite H1. cbn [rbind].
  destruct (create_one_shape now g c r c1 (batch ++ rest) Hi Hp H1) as [S1 _ _ S4].
  destruct (affordable g r).
  - destruct S4 as (t & P1 & _ & P3 & _). apply (IH rest); auto. lia.
  - destruct S4 as (P1 & P2 & _). rewrite <- app_assoc in P1. apply (IH (rest ++ [r])); auto. lia.
Qed.

(** *** Resubmission *)

(** Tips are 256-bit numbers *)
Definition tip_fits (t : Tx) : Prop := tx_max_priority_fee_per_gas t <= U256_MAX.
Definition tips (w : WT) : Prop := wt_content (fun _ t => tip_fits t) (fun _ => True) w.

Lemma resubmit_total t st g : tip_fits t -> exists r, resubmit t st g = Done r.
Proof.
  intros Ht. unfold resubmit. assert (Hp : exists p, resubmit_transaction_price (tx_price t) g = Done p).
  { unfold resubmit_transaction_price. destruct (_ && _); [eauto|]. unfold plus_10_percent, checked_div_ceil.
    change (10 =? 0) with false. cbn [tx_price tp_max_priority_fee_per_gas].
    assert (Hd : exists d, (if tx_max_priority_fee_per_gas t mod 10 =? 0 then Some (tx_max_priority_fee_per_gas t / 10)
       else checked_increment (tx_max_priority_fee_per_gas t / 10)) = Some d).
    { destruct (_ =? 0); [eauto|]. unfold checked_increment, checked_add.
      unfold tip_fits in Ht. assert (100 < U256_MAX) by (pose proof U256_MAX_val; lia).
      assert (tx_max_priority_fee_per_gas t / 10 <= U256_MAX / 10) by (apply N.div_le_mono; lia).
      assert (10 * (U256_MAX / 10) <= U256_MAX) by (apply N.mul_div_le; lia).
      destruct (N.leb_spec (tx_max_priority_fee_per_gas t / 10 + 1) U256_MAX); [eauto|lia]. }
    destruct Hd as (d & ->). cbn [expect rbind]. eauto. }
  destruct Hp as (p & ->). cbn [rbind]. destruct (price_eqb _ _); [eauto|].
  destruct (N.ltb_spec (allowed_max_transaction_fee st) (max_transaction_fee p)) as [?|Hle]; [eauto|].
  destruct st as [w|f]; cbn in *; [|eauto]. unfold checked_sub.
  destruct (N.leb_spec (max_transaction_fee p) w); [|lia]. cbn. eauto.
Qed.

Lemma resubmit_loop_total g l :
  (forall k b txs, In (k, b, txs) l -> txs <> [] /\ forall x, In x txs -> tip_fits (st_tx (rs_tx x))) -> exists out, resubmit_loop g l = Done out.
Proof.
  induction l as [|[[k b] txs] l IH]; intros H; cbn [resubmit_loop]; [eauto|].
  destruct (H k b txs (or_introl eq_refl)) as [Hne Hfit].
  destruct (WtInv.last_opt_some txs Hne) as (x & Hx). unfold SignedTxRequest in *. rewrite Hx. cbn [expect rbind].
  destruct (resubmit_total (st_tx (rs_tx x)) (rs_strategy x) g) as (r & ->); [eauto using last_opt_in|]. cbn [rbind].
  destruct IH as (out & Ho); [intros; eapply H; right; eauto|].
  destruct r as [[t|]|e]; rewrite ?Ho; cbn [rbind]; eauto.
Qed.

Lemma resubmit_same t st g t' : resubmit t st g = Done (ROk (Some t')) -> equal_ignoring_fee_and_amount t t' = true /\ tx_nonce t' = tx_nonce t.
Proof.
  unfold resubmit. intros H. apply rbind_done in H as (p & Hp & H).
  destruct (price_eqb _ _); [discriminate|]. destruct (_ <? _); [discriminate|].
  apply rbind_done in H as (a & _ & H). injection H as <-.
  assert (Hg : tp_gas_limit p = tx_gas_limit t).
  { unfold resubmit_transaction_price in Hp. destruct (_ && _); [injection Hp as <-; reflexivity|].
    apply rbind_done in Hp as (x & _ & Hp). injection Hp as <-. reflexivity. }
  split; [|reflexivity]. unfold equal_ignoring_fee_and_amount. cbn. apply tx_eqb_eq. rewrite Hg. destruct t. reflexivity.
Qed.

Lemma record_resubmit_total w k b l last t : wt_inv w -> row_sent w k b l -> last_opt l = Some last ->
  equal_ignoring_fee_and_amount (st_tx (rs_tx last)) t = true -> tx_nonce t = tx_nonce (st_tx (rs_tx last)) ->
  exists w', record_resubmit_transaction t w = Done w'.
Proof.
  intros Hi Hs Hl He Hn. destruct (i_sent_tx w Hi _ _ _ Hs) as (_ & r & _ & Hall).
  destruct (Hall last (last_opt_in _ _ Hl)) as (Hk & _). rewrite Hk in Hn.
  unfold record_resubmit_transaction, expect_last_sent_tx_entry. rewrite Hn.
  replace (mkm_get_entry k (sent w)) with (Some (b, l)) by (symmetry; apply mkm_get_entry_row; exact Hs).
  cbn [expect rbind]. rewrite Hl. cbn [expect rbind]. rewrite He. cbn [rassert rbind]. unfold cleanup_created.
  destruct (bget k (by_key (created w))) as [b'|] eqn:E.
  - destruct (get_key_row _ _ _ (i_created w Hi) E) as (c & Hc).
    rewrite (mkm_remove_present _ _ _ _ Hc). cbn [rbind].
    assert (b' = b) as -> by (eapply agree_key; eauto).
    rewrite mkm_try_insert_fresh; [cbn; eauto|cbn; apply bget_remove_eq|cbn; apply bget_remove_eq].
  - rewrite (mkm_remove_absent _ _ E). cbn [rbind].
    rewrite mkm_try_insert_fresh; [cbn; eauto| |exact E].
    destruct (bget b (by_alt (created w))) as [c|] eqn:Eb; [exfalso|exact Eb].
    apply (get_alt_row _ _ _ (i_created w Hi)) in Eb as (k' & Hc).
    pose proof (agree_alt w _ _ _ _ _ Hi Hc Hs) as ->. destruct Hc as [Hc _]. congruence.
Qed.

Definition replaces (g : GasFeeEstimate) (w : WT) (e : EventType) : Prop :=
  exists k b l last t, row_sent w k b l /\ last_opt l = Some last /\
    resubmit (st_tx (rs_tx last)) (rs_strategy last) g = Done (ROk (Some t)) /\ e = EvReplacedTransaction b t.

Record same_queue (c c' : Core) : Prop := {
  sq_inv : wt_inv (withdrawals (fst c'));
  sq_sent : sent (withdrawals (fst c')) = sent (withdrawals (fst c));
  sq_pending : pending (withdrawals (fst c')) = pending (withdrawals (fst c));
  sq_nonce : next_nonce (withdrawals (fst c')) = next_nonce (withdrawals (fst c));
  sq_created : creations (history (snd c')) = creations (history (snd c));
  sq_accepted : accepted (history (snd c')) = accepted (history (snd c));
  sq_flying : forall k, flying (withdrawals (fst c')) k <-> flying (withdrawals (fst c)) k
}.

Lemma same_queue_refl c : wt_inv (withdrawals (fst c)) -> same_queue c c.
Proof. intros. constructor; auto. tauto. Qed.

Lemma replaced_list now g es : forall c, wt_inv (withdrawals (fst c)) ->
  (forall e, In e es -> replaces g (withdrawals (fst c)) e) ->
  exists c', process_events now es c = Done c' /\ same_queue c c'.
Proof.
  unfold process_events. induction es as [|e es IH]; cbn [rfold]; intros c Hi He.
  - exists c. split; auto. apply same_queue_refl; auto.
  - destruct (He e (or_introl eq_refl)) as (k & b & l & last & t & Hr & Hl & Hs & ->).
    destruct (resubmit_same _ _ _ _ Hs) as (S1 & S2).
    destruct (record_resubmit_total _ _ _ _ _ _ Hi Hr Hl S1 S2) as (w' & Hw).
    pose proof (inv_record_resubmit _ _ _ Hi Hw) as Hi'.
    pose proof (sent_record_resubmit _ _ _ Hw) as Hsent.
    destruct (record_resubmit_spec _ _ _ Hi Hw) as (b1 & l1 & last1 & R1 & _ & _ & R4).
    assert (Hq : pending w' = pending (withdrawals (fst c)) /\ next_nonce w' = next_nonce (withdrawals (fst c)) /\
      forall x, flying w' x <-> flying (withdrawals (fst c)) x).
    { assert (Hd : dom (tx_nonce t) (by_key (sent (withdrawals (fst c))))) by (eapply row_dom_key; eauto).
      destruct R4 as [(cr & _ & ->)|(_ & _ & ->)]; cbn; (split; [reflexivity|split; [reflexivity|]]); intros x; unfold flying;
        cbn [created set_created by_key sent]; fold (dom x (by_key (sent (withdrawals (fst c)))));
        [fold (dom x (binsert (tx_nonce t) b1 (bremove (tx_nonce t) (by_key (created (withdrawals (fst c)))))))
        |fold (dom x (binsert (tx_nonce t) b1 (by_key (created (withdrawals (fst c))))))];
        fold (dom x (by_key (created (withdrawals (fst c))))); rewrite dom_insert, ?dom_remove;
        destruct (N.eq_dec x (tx_nonce t)) as [->|]; tauto. }
    destruct Hq as (Q1 & Q2 & Q3).
    destruct (IH (set_withdrawals w' (fst c), record_event now (EvReplacedTransaction b t) (snd c))) as (c' & H & [B1 B2 B3 B4 B5 B6 B7]); auto.
    + intros e He'. destruct (He e (or_intror He')) as (k' & b' & l' & last' & t' & E1 & E2 & E3 & E4).
      cbn [fst withdrawals set_withdrawals]. exists k', b', l', last', t'. rewrite Hsent. auto.
    + exists c'. split.
      * unfold process_event at 1. cbn [apply_state_transition]. unfold on_withdrawals. rewrite Hw. cbn [rbind]. exact H.
      * cbn [fst snd withdrawals set_withdrawals] in *. rewrite history_snoc in *. rewrite creations_snoc in B5. rewrite accepted_snoc in B6.
        cbn [created_by accepted_by] in *. rewrite app_nil_r in *. constructor; auto; try congruence.
        intros x. rewrite B7. apply Q3.
Qed.

Lemma resubmit_batch_total now n g c : wt_inv (withdrawals (fst c)) -> tips (withdrawals (fst c)) ->
  exists c', resubmit_batch now n g c = Done c' /\ same_queue c c'.
Proof.
  intros Hi Ht. unfold resubmit_batch. destruct (mkm_is_empty _); [eauto using same_queue_refl|].
  destruct n as [n|]; [|eauto using same_queue_refl]. unfold create_resubmit_transactions.
  destruct (mkm_iter_done _ (i_sent _ Hi)) as (rows & Hrows & _ & Hin). rewrite Hrows. cbn [rbind].
  destruct (resubmit_loop_total g (filter (fun x => n <=? fst (fst x)) rows)) as (out & Ho).
  { intros k b txs Hx. apply filter_In in Hx as [Hx _]. eapply mkm_iter_rows in Hx; eauto using i_sent.
    split; [apply (i_sent_tx _ Hi _ _ _ Hx)|]. destruct (c_sent _ _ _ Ht _ _ _ Hx) as (q & _ & Hq).
    intros x Hxx. apply (Hq x Hxx). }
  rewrite Ho. cbn [rbind]. apply (replaced_list now g); auto.
  intros e He. apply in_flat_map in He as ([[id t]|?] & Hx & He); cbn in He; [|destruct He].
  destruct He as [<-|[]]. destruct (resubmit_loop_events _ _ _ _ _ Ho Hx) as (k & txs & last & Hin' & Hl & Hr).
  apply filter_In in Hin' as [Hin' _]. exists k, id, txs, last, t. split; auto.
  eapply mkm_iter_rows; eauto using i_sent.
Qed.

Lemma send_start_total n c : wt_inv (withdrawals (fst c)) -> exists c' nx, send_start n c = Done (c', nx).
Proof.
  intros Hi. assert (Hf : exists c' nx, finalize_start c = Done (c', nx)).
  { unfold finalize_start, end_timer. destruct (mkm_is_empty _); eauto. }
  unfold send_start. destruct n as [n|]; auto. unfold transactions_to_send_batch.
  destruct (mkm_iter_done _ (i_sent _ Hi)) as (rows & -> & _). cbn [rbind].
  match goal with |- context [match ?x with [] => _ | _ :: _ => _ end] => destruct x; eauto end.
Qed.
Lemma sign_start_total n c : wt_inv (withdrawals (fst c)) -> exists c' nx, sign_start n c = Done (c', nx).
Proof.
  intros Hi. unfold sign_start, transactions_to_sign_batch.
  destruct (mkm_iter_done _ (i_created _ Hi)) as (rows & -> & _). cbn [rbind].
  match goal with |- context [match ?x with [] => _ | _ :: _ => _ end] => destruct x; eauto end. apply send_start_total; auto.
Qed.

Lemma batch_split n w : exists rest, pending w = withdrawal_requests_batch n w ++ rest.
Proof. unfold withdrawal_requests_batch. eexists. symmetry. apply firstn_skipn. Qed.
Lemma batch_length n w : N.of_nat (List.length (withdrawal_requests_batch n w)) <= n.
Proof.
  unfold withdrawal_requests_batch. match goal with |- context [firstn ?k _] => pose proof (firstn_le_length k (pending w)) end. lia.
Qed.

Lemma count_total now g n c : wt_inv (withdrawals (fst c)) -> tips (withdrawals (fst c)) -> positive_fee g ->
  next_nonce (withdrawals (fst c)) + 5 <= U256_MAX ->
  exists c' nx, retrieve_count_reply now g n c = Done (c', nx).
Proof.
  intros Hi Ht Hg Hn. unfold retrieve_count_reply. destruct (resubmit_batch_total now n g c Hi Ht) as (c1 & -> & [B1 B2 B3 B4 _ _ _]).
  cbn [rbind]. unfold create_batch. destruct (batch_split WITHDRAWAL_BATCH (withdrawals (fst c1))) as (rest & Hs).
  pose proof (batch_length WITHDRAWAL_BATCH (withdrawals (fst c1))) as Hl. change WITHDRAWAL_BATCH with 5 in Hl at 2.
  destruct (create_list_total now g _ rest c1 B1 Hs Hg) as (c2 & H2); [lia|]. rewrite H2. cbn [rbind].
  apply sign_start_total. apply (bs_inv _ _ _ _ _ (create_list_shape now g _ rest c1 c2 B1 Hs H2)).
Qed.

(** *** Tips in every history *)

Definition event_tips (s : State) (e : EventType) : Prop :=
  match e with
  | EvCreatedTransaction _ t => tip_fits t
  | EvReplacedTransaction _ t => tip_fits t
  | _ => True
  end.

Lemma apply_tips s e s' : wt_inv (withdrawals s) -> tips (withdrawals s) -> event_tips s e ->
  apply_state_transition s e = Done s' -> tips (withdrawals s').
Proof.
  intros Hi Hc He H. apply apply_wt in H. unfold tips in *.
  destruct e; cbn [wt_event event_tips] in *; try (injection H as <-; exact Hc).
  - injection H as <-. apply content_next_nonce; auto.
  - eapply content_request; eauto.
  - eapply content_created; eauto.
  - eapply content_signed; eauto.
  - eapply content_resubmit; eauto.
  - eapply content_finalized; eauto.
  - eapply content_finalized_reimbursement; eauto.
  - eapply content_request; eauto.
  - eapply content_finalized_reimbursement; eauto.
  - eapply content_reimbursement_request; eauto.
  - injection H as <-. apply content_quarantine; auto.
Qed.

Lemma sim_tips s s' : sim s s' -> tips (withdrawals s) -> tips (withdrawals s').
Proof. intros (v & p & Hp & ->) Hc. cbn. apply content_pending; auto. Qed.

Section Tips.
Variable keccak : list N -> Hash.
Variable self : Principal.

Definition gas_fits (t : Task) : Prop :=
  match t with TRetrieveCount g => gf_max_priority_fee_per_gas g <= U256_MAX | _ => True end.

Lemma emits_tips t r s e : gas_fits t -> tips (withdrawals s) -> emits keccak t r s e -> event_tips s e.
Proof.
  intros Hg Ht H. apply emits_inv in H. destruct e; cbn [event_tips]; auto; cbn in H.
  - destruct H as (g & x & q & -> & -> & _ & _ & H). cbn in Hg. unfold create_transaction, tip_fits in *.
    apply rbind_done in H as (_ & _ & H). destruct q; [|apply rbind_done in H as (m & _ & H)];
      [destruct (checked_sub _ _)|destruct (_ <? _)]; try discriminate; injection H as <-; exact Hg.
  - destruct H as (g & x & k & l & last & -> & -> & Hrow & Hl & H). cbn in Hg. unfold resubmit in H.
    apply rbind_done in H as (p & Hp & H). destruct (price_eqb _ _); [discriminate|]. destruct (_ <? _); [discriminate|].
    apply rbind_done in H as (a & _ & H). injection H as <-. unfold tip_fits. cbn [tx_max_priority_fee_per_gas].
    destruct (c_sent _ _ _ Ht _ _ _ Hrow) as (q & _ & Hq). destruct (Hq last (last_opt_in _ _ Hl)) as [Hf _].
    unfold resubmit_transaction_price in Hp. destruct (_ && _); [injection Hp as <-; exact Hf|].
    apply rbind_done in Hp as (x1 & Hx1 & Hp). injection Hp as <-. cbn [tp_max_priority_fee_per_gas].
    unfold plus_10_percent in Hx1. apply rbind_done in Hx1 as (d & _ & Hd). injection Hd as <-.
    unfold or_max, checked_add. match goal with |- context [if ?a <=? ?b then _ else _] => destruct (N.leb_spec a b) end; lia.
Qed.

Definition tipped (c : Core) : Prop := core_ok keccak c /\ tips (withdrawals (fst c)).

Lemma tipped_micros (J : State -> EventType -> Prop) now c c' :
  (forall s e, J s e -> good_event keccak s e) ->
  (forall s e, tips (withdrawals s) -> J s e -> event_tips s e) ->
  micros J now c c' -> tipped c -> tipped c'.
Proof.
  intros HG HJ H Hc. induction H; auto. apply IHmicros. destruct Hc as [Hc Ht]. inversion H; subst.
  - split; [eapply core_sim; eauto using vstep_sim|]. eapply sim_tips; eauto using vstep_sim.
  - split; [eapply core_event; eauto|]. cbn [fst] in *. eapply apply_tips; eauto. apply (core_wt _ _ Hc).
  - assert (Hs : sim s (set_withdrawals w' s)) by (eapply queue_sim; eauto; apply (core_wt _ _ Hc)).
    split; [eapply core_sim; eauto|]. eapply sim_tips; eauto.
Qed.

Lemma tipped_trans s l s' : fees_ok s -> tipped (sys_core s) -> nonce_kept s l ->
  Trans self keccak s l s' -> tipped (sys_core s').
Proof.
  intros Hf Hc Hn H. pose proof (core_trans keccak self s l s' (proj1 Hc) Hn H) as Hcore.
  destruct H; cbn; cbn in Hcore; rewrite ?install_core in *; cbn in *; auto.
  - apply timer_micros in H0 as [Hv Hl]. split; auto. eapply sim_tips; [eapply vstep_sim; eauto|apply Hc].
  - eapply tipped_micros; [| |eapply call_micros; eauto|exact Hc]; eauto using good_call.
    intros s0 e _ He. destruct u; cbn in He; try tauto. destruct He as (_ & x & _ & ->). exact Logic.I.
  - eapply tipped_micros; [| |eapply resume_micros; [apply (core_wt _ _ (proj1 Hc))|eauto]|exact Hc]; eauto using good_emits.
    intros s0 e Ht He. eapply emits_tips; eauto. destruct Hf as [_ Hf]. specialize (Hf id t (Some r) H0). destruct t; try exact Logic.I.
    destruct Hf as [Hf _]. unfold max_price in Hf. cbn. lia.
  - destruct (cleanup_micros now t (sys_core s)) as (c' & Hc' & Hm). assert (c' = c) by congruence. subst c'.
    eapply tipped_micros; [| |exact Hm|exact Hc]; cbv beta; [intros s0 e; apply good_quarantine|].
    intros s0 e _ He. destruct t; cbn in He; try tauto; destruct He as [<-|[]]; exact Logic.I.
  - split; auto. destruct (canister_upgrade_inv _ _ _ _ (core_replay _ _ (proj1 Hc)) H1) as (s1 & _ & S2 & _ & S4).
    assert (Ht : tips (withdrawals s1)) by (eapply sim_tips; [apply sim_sym; eauto|apply Hc]).
    destruct a as [x|]; [|subst; exact Ht]. destruct S4 as (s2 & Ha & ->). cbn [fst].
    apply (apply_tips s1 (EvUpgrade x)); [|exact Ht|exact Logic.I|exact Ha].
    eapply sim_wt_inv; [apply sim_sym; eauto|apply (core_wt _ _ (proj1 Hc))].
Qed.

Lemma tipped_reach (env : Sys -> Label -> Prop) s : (forall s l, env s l -> nonce_kept s l) ->
  reach self keccak env s -> tipped (sys_core s).
Proof.
  intros He. apply (reach_inv2 self keccak env fees_ok (fun s => tipped (sys_core s))).
  - intros s0 H. eapply fees_reach; eauto.
  - intros now a s0 H. split; [eapply core_init; eauto|].
    apply sys_init_inv in H as (st & Hst & Hc & _). rewrite Hc. cbn [fst].
    destruct (state_of_init_wt _ _ Hst) as (n & Hw). rewrite Hw. apply content_new.
  - intros s0 l s' Hf _ Hc Hl Ht. eapply tipped_trans; eauto.
Qed.
End Tips.

(** ** Segments that create no transaction *)

Definition settled (c c' : Core) : Prop :=
  withdrawals (fst c') = withdrawals (fst c) /\ snd c' = snd c.
Lemma settled_refl c : settled c c. Proof. split; auto. Qed.
Lemma settled_trans a b c : settled a b -> settled b c -> settled a c.
Proof. intros [H1 H2] [H3 H4]. split; congruence. Qed.

Lemma sd_mint fee l es c c' nx : mint_next fee l es c = Done (c', nx) -> settled c c'.
Proof. intros H. apply mint_next_inv in H as [(_ & -> & ->)|(-> & j' & -> & _)]; split; reflexivity. Qed.
Lemma sd_chunk a tp ck c c' nx : scrape_next_chunk a tp ck c = Done (c', nx) -> settled c c'.
Proof. intros H. apply scrape_next_chunk_inv in H as [(-> & ->)|(-> & j' & ->)]; split; reflexivity. Qed.
Lemma sd_scrape j l c c' nx : scrape_next j l c = Done (c', nx) -> settled c c'.
Proof. intros H. apply scrape_next_inv in H as [(-> & ->)|(-> & j' & ->)]; split; reflexivity. Qed.
Lemma sd_end T c c' nx : end_timer T c = Done (c', nx) -> settled c c'.
Proof. unfold end_timer. intros H. inv_res. split; reflexivity. Qed.
Lemma sd_end_call p o c c' nx : end_call p o c = Done (c', nx) -> settled c c'.
Proof. unfold end_call. intros H. inv_res. split; reflexivity. Qed.
Lemma sd_reimburse l c c' nx : reimburse_next l c = Done (c', nx) -> settled c c'.
Proof.
  unfold reimburse_next. destruct l as [|[i r] l]; intros H; [eapply sd_end; eauto|]. inv_res. split; reflexivity.
Qed.
Lemma sd_finalize c c' nx : finalize_start c = Done (c', nx) -> settled c c'.
Proof.
  unfold finalize_start. destruct (mkm_is_empty _); intros H; [eapply sd_end; eauto|]. inv_res. split; reflexivity.
Qed.
Lemma sd_send n c c' nx : send_start n c = Done (c', nx) -> settled c c'.
Proof.
  unfold send_start. destruct n; intros H; [|eapply sd_finalize; eauto]. inv_res.
  destruct x; [eapply sd_finalize; eauto|]. inv_res. split; reflexivity.
Qed.
Lemma sd_sign n c c' nx : sign_start n c = Done (c', nx) -> settled c c'.
Proof.
  unfold sign_start. intros H. inv_res. destruct x; [eapply sd_send; eauto|]. inv_res. split; reflexivity.
Qed.
Lemma sd_refund j i e c c' nx : erc20_refund_start j i e c = Done (c', nx) -> settled c c'.
Proof.
  unfold erc20_refund_start. destruct (ej_fee j); intros H; [|eapply sd_end_call; eauto]. inv_res. split; reflexivity.
Qed.
Lemma sd_refresh now r s s' o : refresh_reply now r s = (s', o) -> withdrawals s' = withdrawals s.
Proof.
  unfold refresh_reply. destruct r as [h|]; [destruct (estimate_transaction_fee _ h)|]; injection 1 as <- _; reflexivity.
Qed.

(** Events that make no transaction *)
Definition makes_none (e : EventType) : Prop :=
  match e with EvCreatedTransaction _ _ | EvReplacedTransaction _ _ | EvUpgrade _ | EvInit _ => False | _ => True end.

Definition by_events (now : N) (c c' : Core) : Prop :=
  exists es c1, Forall makes_none es /\ process_events now es c = Done c1 /\ settled c1 c'.
Lemma be_none now c c' : settled c c' -> by_events now c c'.
Proof. exists [], c. repeat split; auto; apply H. Qed.
Lemma be_one now e c c1 c' : makes_none e -> process_event now e c = Done c1 -> settled c1 c' -> by_events now c c'.
Proof. intros He H Hs. exists [e], c1. split; [constructor; auto|]. split; auto. unfold process_events. cbn [rfold]. rewrite H. reflexivity. Qed.
Lemma be_many now es c c1 c' : Forall makes_none es -> process_events now es c = Done c1 -> settled c1 c' -> by_events now c c'.
Proof. intros. exists es, c1. auto. Qed.

Lemma none_signed keccak b : forall l, Forall makes_none (signed_events keccak b l).
Proof.
  induction b as [|[i x] b IH]; intros [|o l]; cbn [signed_events]; auto. destruct o; auto. constructor; auto. exact Logic.I.
Qed.
Lemma none_register ds es : Forall makes_none (register_events ds es).
Proof.
  apply Forall_forall. intros e Hin. unfold register_events in Hin. apply in_app_or in Hin as [Hin|Hin].
  - apply in_map_iff in Hin as (d & <- & _). destruct d; exact Logic.I.
  - apply in_flat_map in Hin as (d & _ & Hd). destruct d; cbn in Hd; [tauto|]. destruct Hd as [<-|[]]. exact Logic.I.
Qed.
Lemma none_quarantine t : Forall makes_none (task_quarantine t).
Proof. destruct t; cbn; auto; constructor; auto; exact Logic.I. Qed.
Lemma none_receipts (l : bmap N Receipt) :
  Forall makes_none (map (fun x => EvFinalizedTransaction (fst x) (snd x)) l).
Proof. induction l; cbn; constructor; auto. exact Logic.I. Qed.

Lemma resume_by_events keccak now t r c c' nx : (forall g, t <> TRetrieveCount g) ->
  resume keccak now t r c = Done (c', nx) -> by_events now c c'.
Proof.
  intros Ht H. destruct t, r; cbn [resume] in H; try discriminate.
  - unfold mint_reply in H. destruct r as [b|e|]; [|apply be_none; eapply sd_mint; eauto..].
    inv_res. destruct (is_native (mj_event j) && is_some (mj_fee j)); [inv_res; apply be_none, settled_refl|].
    unfold mint_record in H. inv_res. eapply be_one; [|eauto|eapply sd_mint; eauto].
    unfold minted_event. destruct (mj_event j); exact Logic.I.
  - unfold mint_record in H. inv_res. eapply be_one; [|eauto|eapply sd_mint; eauto].
    unfold minted_event. destruct (mj_event j); exact Logic.I.
  - unfold reimburse_reply in H. destruct r as [b|e|]; [|apply be_none; eapply sd_reimburse; eauto..].
    inv_res. eapply be_one; [|eauto|eapply sd_reimburse; eauto]. destruct i; exact Logic.I.
  - unfold scrape_block_reply in H.
    set (c1 := match r with
               | Some number => (set_last_observed_block_number
                   (observed_block (evm_network (fst c)) number) (fst c), snd c)
               | None => c end) in H.
    apply be_none. eapply (settled_trans _ c1); [subst c1; destruct r; split; reflexivity|].
    destruct (last_observed_block_number (fst c1)).
    + unfold scrape_until_block in H. inv_res. eapply sd_chunk; eauto.
    + destruct (MAX_ATTEMPTS <=? attempts + 1); [eapply sd_end; eauto|]. inv_res. apply settled_refl.
  - unfold scrape_logs_reply in H. destruct (sj_current j) as [f to]. destruct r as [logs| |].
    + inv_res. destruct x as [ds es]. inv_res. eapply be_many; [apply none_register|eauto|].
      eapply settled_trans; [|eapply sd_scrape; eauto]. split; reflexivity.
    + destruct (f =? to); inv_res.
      * eapply be_one; [|eauto|eapply settled_trans; [|eapply sd_scrape; eauto]; split; reflexivity]. exact Logic.I.
      * apply be_none. eapply sd_scrape; eauto.
    + apply be_none. eapply sd_end; eauto.
  - unfold retrieve_fee_reply in H. destruct (refresh_reply now r (fst c)) as [s o] eqn:E.
    apply sd_refresh in E. apply be_none. destruct o; [|apply sd_end in H]; inv_res; [split; auto|].
    eapply settled_trans; [|exact H]. split; auto.
  - edestruct Ht; eauto.
  - unfold retrieve_sign_reply in H. inv_res. eapply be_many; [apply none_signed|eauto|eapply sd_send; eauto].
  - apply be_none. eapply sd_finalize; eauto.
  - unfold retrieve_finalized_count_reply in H. apply be_none. destruct r as [n|]; [|eapply sd_end; eauto].
    inv_res. destruct x; [eapply sd_end; eauto|]. inv_res. apply settled_refl.
  - unfold retrieve_receipts_reply in H. destruct (collect_receipts hashes l []) as [rs|];
      [|apply be_none; eapply sd_end; eauto]. inv_res. eapply be_many; [|eauto|eapply sd_end; eauto].
    apply none_receipts.
  - unfold native_fee_reply in H. inv_res. apply be_none. destruct x as [i|e]; [|eapply sd_end_call; eauto].
    inv_res. unfold native_burn_start in H. inv_res. apply settled_refl.
  - unfold native_burn_reply in H. inv_res. destruct x as [i|e].
    + inv_res. eapply be_one; [|eauto|eapply sd_end_call; eauto]. exact Logic.I.
    + apply be_none. destruct (nj_fee j); [inv_res; apply settled_refl|inv_res; eapply sd_end_call; eauto].
  - unfold native_refund_reply in H. inv_res. apply be_none. eapply sd_end_call; eauto.
  - unfold erc20_estimate_reply in H. destruct (refresh_reply now r (fst c)) as [s o] eqn:E.
    apply sd_refresh in E. apply be_none. eapply (settled_trans _ (s, snd c)); [split; auto|].
    destruct o; [|eapply sd_end_call in H; exact H]. apply estimated_inv in H as (-> & _). apply settled_refl.
  - unfold erc20_fee_reply in H. inv_res. apply be_none. destruct x as [i|e]; [|eapply sd_end_call; eauto].
    unfold erc20_gas_burn_start in H. inv_res. apply settled_refl.
  - unfold erc20_gas_burn_reply in H. inv_res. apply be_none. destruct x as [i|e]; [|eapply sd_refund; eauto].
    inv_res. apply settled_refl.
  - unfold erc20_burn_reply in H. inv_res. destruct x as [i|e].
    + inv_res. eapply be_one; [|eauto|eapply sd_end_call; eauto]. exact Logic.I.
    + inv_res. destruct (0 <? _).
      * eapply be_one; [|eauto|eapply sd_refund; eauto]. exact Logic.I.
      * inv_res. apply be_none. eapply sd_refund; eauto.
  - unfold erc20_refund_reply in H. inv_res. apply be_none. eapply sd_end_call; eauto.
  - inv_res. apply be_none. destruct (refresh_reply now r (fst c)) as [s o] eqn:E. apply sd_refresh in E.
    split; auto.
Qed.

Lemma cleanup_by_events now t c c' : cleanup now t c = Done c' -> by_events now c c'.
Proof.
  unfold cleanup. intros H. inv_res. eapply be_many; [apply none_quarantine|eauto|]. split; [|reflexivity].
  cbn [on_state fst]. unfold release. clear.
  assert (Hr : forall l s, withdrawals (fold_left (fun s t => timer_guard_drop t s) l s) = withdrawals s).
  { induction l as [|T l IH]; intros s; cbn; auto. rewrite IH. reflexivity. }
  destruct (task_principal t); [|apply Hr]. etransitivity; [|apply Hr]. reflexivity.
Qed.

Lemma call_by_events (keccak : list N -> Hash) now u c c' nx : call_start now u c = Done (c', nx) -> by_events now c c'.
Proof.
  intros H. apply (call_after keccak) in H. destruct c as [s log], u; cbn [call_next] in H.
  - apply be_none. destruct H as (_ & s1 & Hg & H). apply (guard_new_inv keccak) in Hg as (_ & _ & _ & Hg).
    destruct H as [(-> & -> & _)|(d & _ & _ & [(-> & _ & ->)|(_ & -> & Hn)])]; subst s1; split; reflexivity.
  - apply be_none. destruct H as (_ & s1 & Hg & H). apply (guard_new_inv keccak) in Hg as (_ & _ & _ & Hg).
    destruct H as [(e & -> & ->)|(d & tk & _ & _ & _ & [(g & t' & -> & -> & Hn)|(s2 & Hr & -> & ->)])];
      [subst s1; split; reflexivity..|].
    apply refresh_start_wait in Hr. split; [|reflexivity]. cbn [fst]. unfold timer_guard_new in Hr.
    destruct (bmem _ _); [discriminate|]. injection Hr as <-. subst s1. reflexivity.
  - destruct H as (-> & _ & t & _ & H). eapply be_one; [|exact H|apply settled_refl]. exact Logic.I.
  - apply be_none. destruct H as (-> & n & t & _ & _ & ->). split; reflexivity.
Qed.

(** ** What a segment does to the queue *)

Record joined (c c' : Core) : Prop := {
  jn_inv : wt_inv (withdrawals (fst c'));
  jn_new : exists new, pending (withdrawals (fst c')) = pending (withdrawals (fst c)) ++ new /\
    accepted (history (snd c')) = accepted (history (snd c)) ++ new;
  jn_created : creations (history (snd c')) = creations (history (snd c));
  jn_flying : forall k, flying (withdrawals (fst c')) k -> flying (withdrawals (fst c)) k
}.

Lemma joined_refl c : wt_inv (withdrawals (fst c)) -> joined c c.
Proof. intros. constructor; auto. exists []. rewrite !app_nil_r. auto. Qed.
Lemma joined_trans a b c : joined a b -> joined b c -> joined a c.
Proof.
  intros [A1 (n1 & A2 & A3) A4 A5] [B1 (n2 & B2 & B3) B4 B5]. constructor; auto; try congruence.
  exists (n1 ++ n2). rewrite !app_assoc. split; congruence.
Qed.
Lemma joined_settled a b c : joined a b -> settled b c -> joined a c.
Proof. intros [A1 A2 A3 A4] [B1 B2]. constructor; rewrite ?B1, ?B2; auto. Qed.

Lemma joined_same c c' now e : wt_inv (withdrawals (fst c')) ->
  pending (withdrawals (fst c')) = pending (withdrawals (fst c)) ->
  (forall k, flying (withdrawals (fst c')) k -> flying (withdrawals (fst c)) k) ->
  snd c' = record_event now e (snd c) -> accepted_by e = [] -> created_by e = [] -> joined c c'.
Proof.
  intros Hi Hp Hf Hs Ha Hc. constructor; auto; rewrite Hs, history_snoc.
  - exists []. rewrite !app_nil_r, accepted_snoc, Ha, app_nil_r. auto.
  - rewrite creations_snoc, Hc, app_nil_r. reflexivity.
Qed.

Lemma same_tables_flying w w' k : by_key (created w') = by_key (created w) -> by_key (sent w') = by_key (sent w) ->
  flying w' k -> flying w k.
Proof. unfold flying. intros -> ->. auto. Qed.

Lemma wt_event_joined e w w' : makes_none e -> wt_inv w -> wt_event e w = Done w' ->
  wt_inv w' /\ pending w' = pending w ++ accepted_by e /\ (forall k, flying w' k -> flying w k).
Proof.
  intros He Hi H. assert (Hi' : wt_inv w').
  { eapply wt_event_inv; [exact Hi| |exact H]. destruct e; cbn; auto. destruct He. }
  split; auto. destruct e; cbn [wt_event makes_none accepted_by] in *; try (destruct He; fail); rewrite ?app_nil_r;
    try (injection H as <-; auto; fail).
  - apply record_withdrawal_request_spec in H as (_ & _ & _ & _ & ->). auto.
  - destruct (record_signed_spec _ _ _ Hi H) as (b & c & Hr & _ & [(l & _ & ->)|(_ & _ & ->)]); (split; [reflexivity|]);
      intros k; unfold flying; cbn [set_sent set_created created sent by_key].
    + rewrite bget_remove. destruct (keqb k _); tauto.
    + rewrite bget_remove, bget_insert. destruct (keqb_spec k (tx_nonce (st_tx transaction))) as [Hk|Hk]; [subst k|tauto].
      intros _. left. destruct Hr as [Hr _]. congruence.
  - destruct (record_finalized_spec _ _ _ _ Hi H) as (k & l & s & req & _ & _ & _ & _ & _ & _ & Hw).
    cbn zeta in Hw. set (w1 := finalized_tables _ _ _ _) in Hw.
    assert (Hw1 : pending w1 = pending w /\ forall k, flying w1 k -> flying w k).
    { split; [reflexivity|]. intros k'. unfold flying, w1. cbn [finalized_tables created sent by_key].
      rewrite !bget_remove. destruct (keqb k' k); tauto. }
    destruct Hw1 as [W1 W2]. destruct (is_failure _); [|subst w'; auto].
    unfold record_reimbursement_request in Hw. inv_res. split; auto.
  - unfold record_finalized_reimbursement in H. inv_res. split; auto.
  - apply record_withdrawal_request_spec in H as (_ & _ & _ & _ & ->). auto.
  - unfold record_finalized_reimbursement in H. inv_res. split; auto.
  - unfold record_reimbursement_request in H. inv_res. split; auto.
Qed.

Lemma event_joined now e c c' : makes_none e -> wt_inv (withdrawals (fst c)) -> process_event now e c = Done c' -> joined c c'.
Proof.
  intros He Hi H. apply process_event_inv in H as (s' & Ha & ->). apply apply_wt in Ha.
  destruct (wt_event_joined _ _ _ He Hi Ha) as (H1 & H2 & H3). constructor; auto; cbn [snd]; rewrite history_snoc.
  - exists (accepted_by e). rewrite accepted_snoc. auto.
  - rewrite creations_snoc. destruct e; cbn in *; rewrite ?app_nil_r; auto. destruct He.
Qed.

Lemma by_events_joined now c c' : wt_inv (withdrawals (fst c)) -> by_events now c c' -> joined c c'.
Proof.
  intros Hi (es & c1 & He & H & Hs). eapply joined_settled; [|exact Hs]. clear Hs c'. unfold process_events in H.
  revert c Hi H. induction He as [|e es He Hes IH]; cbn [rfold]; intros c Hi H.
  - injection H as <-. apply joined_refl; auto.
  - apply rbind_done in H as (c2 & H2 & H). pose proof (event_joined _ _ _ _ He Hi H2) as Hj.
    eapply joined_trans; [exact Hj|]. apply IH; auto. apply Hj.
Qed.

(** *** The segment that serves the queue *)

Lemma keys_dom {K A V} `{Ord K} `{Ord A} (m : mkm K A V) k : In k (mkm_keys m) <-> bget k (by_key m) <> None.
Proof. unfold mkm_keys. symmetry. apply bget_In_keys. Qed.

Lemma pending_nonces_flying w : wt_inv w -> flying_list w (pending_nonces w).
Proof.
  intros Hi. split; [apply NoDup_nodup|]. intros k. unfold pending_nonces. rewrite nodup_In, in_app_iff, !keys_dom. reflexivity.
Qed.

Lemma flying_length w l l' : flying_list w l -> flying_list w l' -> List.length l = List.length l'.
Proof.
  intros [A1 A2] [B1 B2]. apply Nat.le_antisymm; apply NoDup_incl_length; auto; intros k Hk; [apply B2, A2|apply A2, B2]; auto.
Qed.

Lemma in_consecutive n : forall a k, In k (consecutive a n) <-> a <= k /\ k < a + N.of_nat n.
Proof.
  induction n as [|n IH]; intros a k; [cbn; lia|]. cbn [consecutive In]. rewrite IH. lia.
Qed.

Record served (g : GasFeeEstimate) (c c' : Core) : Prop := {
  sv_ex : exists fl batch rest cs, flying_list (withdrawals (fst c)) fl /\
    pending (withdrawals (fst c)) = batch ++ rest /\
    List.length batch = Nat.min (Nat.min 5 (1000 - List.length fl)) (List.length (pending (withdrawals (fst c)))) /\
    pending (withdrawals (fst c')) = rest ++ filter (fun r => negb (affordable g r)) batch /\
    accepted (history (snd c')) = accepted (history (snd c)) /\
    creations (history (snd c')) = creations (history (snd c)) ++ cs /\
    map fst cs = map wr_burn_index (filter (affordable g) batch) /\
    map (fun x => tx_nonce (snd x)) cs = consecutive (next_nonce (withdrawals (fst c))) (List.length cs) /\
    (forall k, flying (withdrawals (fst c')) k <->
       flying (withdrawals (fst c)) k \/ In k (map (fun x => tx_nonce (snd x)) cs))
}.

Lemma batch_exact w : wt_inv w -> List.length (withdrawal_requests_batch WITHDRAWAL_BATCH w) =
  Nat.min (Nat.min 5 (1000 - List.length (pending_nonces w))) (List.length (pending w)).
Proof.
  intros Hi. unfold withdrawal_requests_batch. rewrite firstn_length. f_equal.
  change WITHDRAWAL_BATCH with 5. change MAX_NUM_PENDING_TRANSACTION_NONCES with 1000. lia.
Qed.

Lemma count_served now g n c c' nx : wt_inv (withdrawals (fst c)) -> tips (withdrawals (fst c)) ->
  retrieve_count_reply now g n c = Done (c', nx) -> served g c c'.
Proof.
  intros Hi Ht H. unfold retrieve_count_reply in H. apply rbind_done in H as (c1 & H1 & H).
  apply rbind_done in H as (c2 & H2 & H). destruct (resubmit_batch_total now n g c Hi Ht) as (c1' & H1' & Hq).
  assert (c1' = c1) by congruence. subst c1'. clear H1'. apply sd_sign in H. destruct H as [S1 S2].
  destruct Hq as [Q1 Q2 Q3 Q4 Q5 Q6 Q7]. unfold create_batch in H2.
  destruct (batch_split WITHDRAWAL_BATCH (withdrawals (fst c1))) as (rest & Hs).
  destruct (create_list_shape now g _ rest c1 c2 Q1 Hs H2) as [B1 B2 B3 (cs & B4 & B5 & B6 & B7) B8 B9].
  set (batch := withdrawal_requests_batch WITHDRAWAL_BATCH (withdrawals (fst c1))) in *.
  assert (Hl : List.length cs = List.length (filter (affordable g) batch)).
  { rewrite <- (map_length fst cs), B6, map_length. reflexivity. }
  constructor. exists (pending_nonces (withdrawals (fst c1))), batch, rest, cs.
  pose proof (pending_nonces_flying _ Q1) as Hf. rewrite S1, S2. split; [|split; [|split; [|split; [|split; [|split; [|split; [|split]]]]]]]; auto; try congruence.
  - destruct Hf as [Hf1 Hf2]. split; auto. intros k. rewrite Hf2. apply Q7.
  - rewrite <- Q3. apply batch_exact; auto.
  - intros k. rewrite B7, in_consecutive, <- B8. rewrite <- Q7. unfold flying. rewrite B2.
    specialize (B9 k). unfold dom in B9. tauto.
Qed.

(** ** Every step *)

Section Steps.
Variable self : Principal.
Variable keccak : list N -> Hash.

Lemma joined_step s l s' : joined (sys_core s) (sys_core s') -> queue_step s l s'.
Proof. intros [_ (new & J1 & J2) J3 J4]. eapply QS_join; eauto. Qed.

Lemma queue_trans s l s' : tipped keccak (sys_core s) -> Trans self keccak s l s' -> queue_step s l s'.
Proof.
  intros [Hc Ht] H. pose proof (core_wt _ _ Hc) as Hi. destruct H.
  - apply joined_step. apply joined_refl; auto.
  - apply joined_step. cbn [bump_next sys_core]. rewrite install_core. cbn [with_core sys_core].
    apply timer_micros in H0 as [(v & Hv) Hl]. eapply joined_settled; [apply joined_refl; auto|]. split; auto. rewrite Hv. cbn.
    destruct (withdrawals (fst (sys_core s))); reflexivity.
  - apply joined_step. cbn [bump_next sys_core]. rewrite install_core. cbn [with_core sys_core].
    apply (call_by_events keccak) in H0. eapply by_events_joined; eauto.
  - apply joined_step. apply joined_refl; auto.
  - apply joined_step. apply joined_refl; auto.
  - apply joined_step. apply joined_refl; auto.
  - apply joined_step. apply joined_refl; auto.
  - assert (Hg : (exists g, t = TRetrieveCount g) \/ forall g, t <> TRetrieveCount g).
    { destruct t; try (right; discriminate). left. eauto. }
    destruct Hg as [(g & ->)|Hg].
    + destruct r; try discriminate. cbn [resume] in H1. apply count_served in H1; auto.
      destruct H1 as [(fl & batch & rest & cs & V1 & V2 & V3 & V4 & V5 & V6 & V7 & V8 & V9)].
      eapply (QS_serve _ _ _ g id _ now fl batch rest cs); eauto; unfold queue, accepted_so_far, created_so_far, sys_state, sys_log;
        rewrite ?install_core; cbn [with_queries with_core sys_core]; auto.
    + apply joined_step. rewrite install_core. cbn [with_queries with_core sys_core].
      apply resume_by_events in H1; auto. eapply by_events_joined; eauto.
  - apply joined_step. rewrite install_core. cbn [with_core sys_core]. apply cleanup_by_events in H2.
    eapply by_events_joined; eauto.
  - destruct (canister_upgrade_inv _ _ _ _ (core_replay _ _ Hc) H1) as (s1 & _ & S2 & _ & S4).
    assert (Hu : exists n, withdrawals (fst c) = set_next_nonce n (withdrawals s1) /\
      accepted (history (snd c)) = accepted (history (snd (sys_core s))) /\
      creations (history (snd c)) = creations (history (snd (sys_core s)))).
    { unfold pre_upgrade in S4. destruct a as [x|].
      - destruct S4 as (s2 & Ha & ->). apply apply_wt in Ha. cbn [wt_event] in Ha. injection Ha as Ha. eexists.
        cbn [fst snd]. rewrite <- Ha. split; [reflexivity|]. rewrite !history_snoc, !accepted_snoc, !creations_snoc. cbn. rewrite !app_nil_r. auto.
      - subst c. cbn [fst snd]. exists (next_nonce (withdrawals s1)). split; [destruct (withdrawals s1); reflexivity|].
        rewrite !history_snoc, !accepted_snoc, !creations_snoc. cbn. rewrite !app_nil_r. auto. }
    destruct Hu as (n & U1 & U2 & U3). destruct S2 as (v & p & Hp & Hs).
    apply (QS_upgrade _ _ _ a now); auto; unfold queue, sys_state; cbn [with_core sys_core]; rewrite U1, Hs; cbn.
    + symmetry. exact Hp.
    + intros k. reflexivity.
Qed.

Lemma queue_reach (env : Sys -> Label -> Prop) s l : (forall s l, env s l -> nonce_kept s l) ->
  reach self keccak env s -> queue_step s l (step self keccak s l).
Proof. intros He Hr. apply queue_trans; [eapply tipped_reach; eauto|apply step_trans]. Qed.

Definition few (s : Sys) : Prop := at_most_flying 1000 (withdrawals (sys_state s)).

Lemma filter_length_le' {A} (f : A -> bool) l : (List.length (filter f l) <= List.length l)%nat.
Proof. induction l; cbn; [auto|]. destruct (f a); cbn; lia. Qed.

Lemma few_step s l s' : few s -> queue_step s l s' -> few s'.
Proof.
  unfold few. intros Hf H. destruct H as [new _ _ _ H|g id n now fl batch rest cs _ _ H1 H2 H3 _ _ _ H4 H5 H6|a now _ _ _ _ H].
  - intros ks Hnd Hin. apply Hf; auto.
  - intros ks Hnd Hin.
    assert (Hb : (List.length cs <= List.length batch)%nat).
    { rewrite <- (map_length fst cs), H4, map_length. apply filter_length_le'. }
    assert (Hl : (List.length ks <= List.length (fl ++ map (fun x => tx_nonce (snd x)) cs))%nat).
    { apply NoDup_incl_length; auto. intros k Hk. apply in_or_app. apply Hin, H6 in Hk as [Hk|Hk]; auto.
      left. apply H1. exact Hk. }
    rewrite app_length, map_length in Hl.
    assert (Hfl : (List.length fl <= 1000)%nat) by (apply Hf; [apply H1|intros k Hk; apply H1; auto]). lia.
  - intros ks Hnd Hin. apply Hf; auto. intros k Hk. apply H; auto.
Qed.

Lemma few_reach (env : Sys -> Label -> Prop) s : (forall s l, env s l -> nonce_kept s l) ->
  reach self keccak env s -> few s.
Proof.
  intros He. induction 1 as [now a s H|s l Hr IH Hl].
  - apply sys_init_inv in H as (st & Hst & Hc & _). unfold few, sys_state. rewrite Hc. cbn [fst].
    destruct (state_of_init_wt _ _ Hst) as (n & Hw). rewrite Hw. intros ks Hnd Hin. destruct ks as [|k ks]; [cbn; lia|].
    destruct (Hin k (or_introl eq_refl)) as [Hk|Hk]; destruct Hk; reflexivity.
  - eapply few_step; [exact IH|]. eapply queue_reach; eauto.
Qed.

(** *** Order *)

Lemma before_map {A B} (f : A -> B) a b l : before a b l -> before (f a) (f b) (map f l).
Proof. intros (l1 & l2 & l3 & ->). exists (map f l1), (map f l2), (map f l3). rewrite !map_app. cbn. rewrite map_app. reflexivity. Qed.

Lemma before_filter {A} (f : A -> bool) a b l : f a = true -> f b = true -> before a b l -> before a b (filter f l).
Proof.
  intros Ha Hb (l1 & l2 & l3 & ->). exists (filter f l1), (filter f l2), (filter f l3).
  rewrite !filter_app. cbn [filter]. rewrite Ha, filter_app. cbn [filter]. rewrite Hb. reflexivity.
Qed.

Lemma in_split_app {A} (l1 l2 r1 r2 : list A) a : l1 ++ a :: l2 = r1 ++ r2 -> In a r1 -> NoDup (r1 ++ r2) ->
  exists m, r1 = l1 ++ a :: m /\ l2 = m ++ r2.
Proof.
  revert r1. induction l1 as [|x l1 IH]; intros [|y r1] H Hin Hnd; cbn in *; try tauto.
  - injection H as -> ->. eauto.
  - injection H as -> H. apply NoDup_cons_iff in Hnd as [Hn Hnd]. destruct Hin as [->|Hin].
    + exfalso. apply Hn. rewrite <- H. apply in_or_app. right. left. auto.
    + destruct (IH r1 H Hin Hnd) as (m & -> & ->). eauto.
Qed.

Lemma before_prefix {A} (a b : A) r1 r2 : NoDup (r1 ++ r2) -> before a b (r1 ++ r2) -> In b r1 -> before a b r1.
Proof.
  intros Hnd (l1 & l2 & l3 & H) Hin. rewrite app_comm_cons, app_assoc in H.
  destruct (in_split_app (l1 ++ a :: l2) l3 r1 r2 b (eq_sym H) Hin Hnd) as (m & -> & _).
  exists l1, l2, m. rewrite <- app_assoc. reflexivity.
Qed.
End Steps.
