(** * The transactions kept in the withdrawal tables serve their requests. *)

From Verif Require Import Base BMap MultiKeyMap MultiKeyMapFacts Bytes Types Amount Tx CallData
  Network Transactions WtInv TxSpec.

Lemma or_max_cost price gas : or_max (transaction_cost price gas) = N.min (gas * price) U256_MAX.
Proof.
  unfold transaction_cost, checked_mul. rewrite (N.mul_comm price gas).
  destruct (N.leb_spec (gas * price) U256_MAX); cbn; lia.
Qed.

Lemma create_transaction_serves req nonce g net t :
  create_transaction req nonce g (match req with WNative _ => 21000 | WErc20 _ => 65000 end) net
    = Done (ROk t) ->
  tx_serves net req t /\ tx_nonce t = nonce.
Proof.
  unfold create_transaction, tx_serves, tx_fee_cap. destruct req as [r|r].
  - intros H. inv_res. destruct (checked_sub _ _) as [amount|] eqn:E; inv_res; [|discriminate].
    cbn. unfold max_transaction_fee in E. rewrite or_max_cost in E. cbn in E.
    apply checked_sub_some in E as [E ->]. repeat split; auto. lia.
  - intros H. inv_res. destruct (N.ltb_spec x0 (min_max_fee_per_gas g)); inv_res; [discriminate|].
    cbn. repeat split; auto.
    unfold into_wei_per_gas, checked_div_floor in H1. cbn in H1. injection H1 as <-.
    assert (65000 * (ew_max_transaction_fee r / 65000) <= ew_max_transaction_fee r)
      by (apply N.mul_div_le; lia). lia.
    pose proof (N.mul_succ_div_gt (ew_max_transaction_fee r) 65000 ltac:(lia)). rewrite <- N.add_1_r in *.
    unfold into_wei_per_gas, checked_div_floor in H1. cbn in H1. injection H1 as <-. exact H.
Qed.

Lemma resubmit_serves net req t g t' :
  tx_serves net req t -> resubmit t (strategy_of req) g = Done (ROk (Some t')) ->
  tx_serves net req t' /\ tx_nonce t' = tx_nonce t.
Proof.
  unfold resubmit. intros Hs H. inv_res.
  destruct (price_eqb x (tx_price t)); inv_res; [discriminate|].
  destruct (N.ltb_spec (allowed_max_transaction_fee (strategy_of req)) (max_transaction_fee x)) as [Hlt|Hle];
    inv_res; [discriminate|].
  unfold tx_serves, tx_fee_cap in *.
  assert (Hg : tp_gas_limit x = tx_gas_limit t).
  { unfold resubmit_transaction_price in H0. destruct (_ && _); inv_res; reflexivity. }
  assert (Hm : tx_max_fee_per_gas t <= tp_max_fee_per_gas x).
  { unfold resubmit_transaction_price in H0. destruct (_ && _); inv_res; cbn; lia. }
  unfold max_transaction_fee in *. rewrite or_max_cost in *.
  destruct req as [r|r]; cbn in *.
  - destruct Hs as (Hc & Ha & Hd & Hdata & Hgas & Hamt). inv_res.
    apply checked_sub_some in H1 as [H1 ->]. rewrite Hg in *. rewrite Hgas in *.
    repeat split; auto. lia.
  - destruct Hs as (Hc & Ha & Hd & Hdata & Hcall & Hgas & Hcap & Hall). inv_res. rewrite Hg in *.
    repeat split; auto. eapply N.lt_le_trans; [exact Hall|]. apply N.mul_le_mono_l. clear - Hm. lia.
Qed.

Section Content.
Variable P : WithdrawalRequest -> Tx -> Prop.
Variable Q : SignedTx -> Prop.

Lemma content_new n : wt_content P Q (wt_new n).
Proof. constructor; cbn; intros ? ? ? []; discriminate. Qed.

Lemma content_pending p w : wt_content P Q w -> wt_content P Q (set_pending p w).
Proof. intros []; constructor; auto. Qed.
Lemma content_next_nonce p w : wt_content P Q w -> wt_content P Q (set_next_nonce p w).
Proof. intros []; constructor; auto. Qed.
Lemma content_reimb a b w :
  wt_content P Q w -> wt_content P Q (set_reimbursed a (set_reimb_requests b w)).
Proof. intros []; constructor; auto. Qed.

Lemma content_request r w w' :
  wt_content P Q w -> record_withdrawal_request r w = Done w' -> wt_content P Q w'.
Proof.
  intros Hc H. apply record_withdrawal_request_spec in H as (_ & _ & _ & _ & ->).
  apply content_pending; auto.
Qed.

Lemma content_created id t w w' :
  wt_inv w -> wt_content P Q w ->
  (forall r, In r (pending w) -> wr_burn_index r = id -> P r t) ->
  record_created_transaction id t w = Done w' -> wt_content P Q w'.
Proof.
  intros Hi Hc HP H. apply record_created_spec in H.
  destruct H as (req & c' & _ & Hin & Hb & Hd & Ha & Hn & Hinc & Hins & Hp & Hm & Hw).
  apply mkm_try_insert_ok in Hins as (Hca & Hck & ->).
  rewrite Hw. destruct Hc as [c_created0 c_sent0 c_fin0]. constructor; cbn.
  - intros k b t0 Hrow. apply row_insert in Hrow; auto using i_created.
    destruct Hrow as [(-> & -> & ->)|Hrow].
    + exists req. rewrite bget_insert_eq. cbn. auto.
    + destruct (c_created0 _ _ _ Hrow) as (r & Hr & HPr). exists r. split; auto.
      rewrite bget_insert_ne; auto. congruence.
  - intros k b l Hrow. destruct (c_sent0 _ _ _ Hrow) as (r & Hr & HPr). exists r. split; auto.
    rewrite bget_insert_ne; auto. congruence.
  - intros k b l Hrow. destruct (c_fin0 _ _ _ Hrow) as (r & Hr & HPr). exists r. split; auto.
    rewrite bget_insert_ne; auto. congruence.
Qed.

Lemma content_signed s w w' :
  wt_inv w -> wt_content P Q w -> Q s ->
  record_signed_transaction s w = Done w' -> wt_content P Q w'.
Proof.
  intros Hi Hc HQ H. destruct (record_signed_spec _ _ _ Hi H) as (b & c & Hrow & Htx & Hcase).
  clear H. destruct Hc as [c_created0 c_sent0 c_fin0]. destruct (c_created0 _ _ _ Hrow) as (r & Hr & HPr).
  cbn in Hcase. set (k := tx_nonce (st_tx s)) in *.
  destruct Hcase as [(l & Hs & ->)|(Hsk & Hsb & ->)]; constructor; cbn.
  - intros k1 b1 t1 H1. apply (row_remove _ k b c) in H1 as [_ H1]; eauto using i_created.
  - intros k1 b1 l1 H1. apply row_update in H1 as [H1 H2]; [|destruct Hs; eauto].
    destruct H2 as [[-> ->]|[H2 H3]].
    + destruct (c_sent0 _ _ _ Hs) as (r' & Hr' & Hall). exists r'. split; auto.
      intros t Ht. apply in_app_iff in Ht as [Ht|[<-|[]]]; auto. cbn. rewrite <- Htx.
      split; auto. congruence.
    + apply (c_sent0 _ _ _ (conj H1 H3)).
  - auto.
  - intros k1 b1 t1 H1. apply (row_remove _ k b c) in H1 as [_ H1]; eauto using i_created.
  - intros k1 b1 l1 H1. apply row_insert in H1; eauto using i_sent.
    destruct H1 as [(-> & -> & ->)|H1]; eauto.
    exists r. split; auto. intros t [<-|[]]. cbn. rewrite <- Htx. auto.
  - auto.
Qed.

Lemma content_resubmit t w w' :
  wt_inv w -> wt_content P Q w ->
  (forall b l r, row_sent w (tx_nonce t) b l -> bget b (processed w) = Some r -> P r t) ->
  record_resubmit_transaction t w = Done w' -> wt_content P Q w'.
Proof.
  intros Hi Hc HP H.
  destruct (record_resubmit_spec _ _ _ Hi H) as (b & l & last & Hs & Hl & He & Hcase).
  destruct Hc as [c_created0 c_sent0 c_fin0]. destruct (c_sent0 _ _ _ Hs) as (r & Hr & _).
  assert (Hpt : P r t) by eauto.
  destruct Hcase as [(c & Hrow & ->)|(Hk & Hb & ->)]; constructor; cbn; auto.
  - pose proof (mkm_wf_remove (tx_nonce t) b (created w) (i_created w Hi) (proj1 Hrow)) as Hwf.
    intros k1 b1 t1 H1. apply (row_insert _ _ _ _ _ _ _ Hwf) in H1; cbn; try apply bget_remove_eq.
    destruct H1 as [(-> & -> & ->)|H1].
    + exists r. auto.
    + apply (row_remove _ _ _ c) in H1 as [_ H1]; eauto using i_created.
  - intros k1 b1 t1 H1. apply row_insert in H1; auto using i_created.
    destruct H1 as [(-> & -> & ->)|H1]; eauto.
Qed.

Lemma content_reimbursement_request i r w w' :
  wt_content P Q w -> record_reimbursement_request i r w = Done w' -> wt_content P Q w'.
Proof.
  intros Hc H. unfold record_reimbursement_request in H. inv_res. destruct Hc as [c_created0 c_sent0 c_fin0]; constructor; auto.
Qed.

Lemma row_remove_sub {K A V} `{Ord K} `{Ord A} (m : mkm K A V) k a k' a' v' :
  row (Mkm (bremove a (by_alt m)) (bremove k (by_key m))) k' a' v' -> row m k' a' v'.
Proof.
  unfold row; cbn. rewrite !bget_remove. destruct (keqb k' k), (keqb a' a); intros [? ?]; try discriminate; auto.
Qed.

Lemma content_finalized b r w w' :
  wt_inv w -> wt_content P Q w ->
  record_finalized_transaction b r w = Done w' -> wt_content P Q w'.
Proof.
  intros Hi Hc H. destruct (record_finalized_spec _ _ _ _ Hi H)
    as (k & l & s & req & Hrow & Hin & _ & Hreq & Htf & Hn & Hcase).
  assert (Hc1 : wt_content P Q (finalized_tables k b {| ft_tx := rs_tx s; ft_receipt := r |} w)).
  { destruct Hc as [c_created0 c_sent0 c_fin0]. destruct (c_sent0 _ _ _ Hrow) as (r' & Hr' & Hall).
    unfold finalized_tables. constructor; cbn.
    - intros k1 b1 t1 H1. apply row_remove_sub in H1. eauto.
    - intros k1 b1 t1 H1. apply row_remove_sub in H1. eauto.
    - intros k1 b1 f1 H1. destruct H1 as [H1 H2]. cbn in *. rewrite bget_insert in H1; rewrite bget_insert in H2.
      destruct (keqb_spec b1 b) as [Hk|Hk].
      + subst. injection H2 as <-. cbn. exists r'. split; auto.
      + destruct (keqb_spec k1 k) as [Hk1|Hk1]; [congruence|].
        apply (c_fin0 k1 b1 f1). split; auto. }
  cbn in Hcase. destruct (is_failure (rc_status r)); [|subst; auto].
  eapply content_reimbursement_request; eauto.
Qed.

Lemma content_quarantine i w :
  wt_content P Q w -> wt_content P Q (record_quarantined_reimbursement i w).
Proof. apply content_reimb. Qed.
Lemma content_finalized_reimbursement i b w w' :
  wt_content P Q w -> record_finalized_reimbursement i b w = Done w' -> wt_content P Q w'.
Proof. intros Hc H. unfold record_finalized_reimbursement in H. inv_res. apply content_reimb; auto. Qed.

End Content.
