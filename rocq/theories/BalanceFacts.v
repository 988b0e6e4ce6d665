(** * Proofs about the books (C29, C30). *)

From Verif Require Import Base BMap MultiKeyMap MultiKeyMapFacts Bytes Types Amount ArithFacts Tx CallData
  CodecFacts Network Hex Transactions State Audit Ranges Rlp Parser Memo Driver Sys SysSpec WtInv StateEquiv
  TxSpec WtContent Segments Tasks SysFacts CoreInv Lifting WithdrawSpec WithdrawFacts
  GuardSpec Guards GuardFacts WeakSteps LogFacts UpgradeFacts BalanceSpec.

(** ** Sums *)
Lemma sum_app l l' : sum (l ++ l') = sum l + sum l'.
Proof. unfold sum. induction l; cbn [app fold_right]; lia. Qed.
Lemma sum_of_app {A} (f : A -> N) l l' : sum_of f (l ++ l') = sum_of f l + sum_of f l'.
Proof. unfold sum_of. rewrite map_app. apply sum_app. Qed.
Lemma sum_of_cons {A} (f : A -> N) a l : sum_of f (a :: l) = f a + sum_of f l.
Proof. reflexivity. Qed.
Lemma sum_of_nil {A} (f : A -> N) : sum_of f [] = 0.
Proof. reflexivity. Qed.
Lemma sum_of_one {A} (f : A -> N) a : sum_of f [a] = f a.
Proof. unfold sum_of. cbn. lia. Qed.
Lemma sum_of_add {A} (f g : A -> N) l : sum_of (fun x => f x + g x) l = sum_of f l + sum_of g l.
Proof. induction l as [|a l IH]; [reflexivity|]. rewrite !sum_of_cons, IH. lia. Qed.
Lemma sum_of_ext {A} (f g : A -> N) l : (forall x, In x l -> f x = g x) -> sum_of f l = sum_of g l.
Proof.
  induction l as [|a l IH]; intros H; [reflexivity|]. rewrite !sum_of_cons, IH, (H a); cbn; auto.
  intros x Hx. apply H. right; auto.
Qed.
Lemma sum_of_le {A} (f g : A -> N) l : (forall x, In x l -> f x <= g x) -> sum_of f l <= sum_of g l.
Proof.
  induction l as [|a l IH]; intros H; [cbn; lia|]. rewrite !sum_of_cons.
  assert (f a <= g a) by (apply H; left; auto). assert (sum_of f l <= sum_of g l) by (apply IH; intros x Hx; apply H; right; auto). lia.
Qed.
Lemma sum_of_in {A} (f : A -> N) l a : In a l -> f a <= sum_of f l.
Proof. induction l as [|b l IH]; [intros []|]. rewrite sum_of_cons. intros [->|H]; [lia|]. apply IH in H. lia. Qed.

(** ** Settlements of a growing history *)
Lemma find_app_some {A} (f : A -> bool) l l' x : find f l = Some x -> find f (l ++ l') = Some x.
Proof. induction l as [|a l IH]; cbn; [discriminate|]. destruct (f a); auto. Qed.
Lemma find_map {A B} (g : A -> B) (f : B -> bool) l : find f (map g l) = option_map g (find (fun x => f (g x)) l).
Proof. induction l as [|a l IH]; cbn; auto. destruct (f (g a)); auto. Qed.

Definition found (h : list EventType) (x : N * Receipt) : Prop :=
  exists r s, find (fun r => wr_burn_index r =? fst x) (accepted h) = Some r /\
    find (fun s => st_hash s =? rc_transaction_hash (snd x)) (attempts h (fst x)) = Some s.
Lemma found_snoc h e x : found h x -> found (h ++ [e]) x /\ settlement (h ++ [e]) x = settlement h x.
Proof.
  intros (r & s & H1 & H2). unfold settlement, found. rewrite accepted_snoc, attempts_snoc.
  rewrite (find_app_some _ _ _ _ H1), (find_app_some _ _ _ _ H2), H1, H2. split; eauto.
Qed.
Lemma flat_map_ext_in {A B} (f g : A -> list B) l : (forall x, In x l -> f x = g x) -> flat_map f l = flat_map g l.
Proof. induction l as [|a l IH]; intros H; cbn; auto. rewrite (H a), IH; cbn; auto. intros x Hx. apply H. right; auto. Qed.
Lemma settlements_snoc h e : (forall x, In x (finalizations h) -> found h x) ->
  settlements (h ++ [e]) = settlements h ++ flat_map (settlement (h ++ [e])) (finalized_by e).
Proof.
  intros H. unfold settlements. rewrite finalizations_snoc, flat_map_app. f_equal.
  apply flat_map_ext_in. intros x Hx. apply found_snoc; auto.
Qed.

(** ** The balance functions *)
Lemma erc20_add_of c v b b' : erc20_add c v b = Done b' ->
  forall c', erc20_balance_of c' b' = erc20_balance_of c' b + (if c =? c' then v else 0).
Proof.
  unfold erc20_add, erc20_balance_of. intros H c'.
  destruct (bget c b) as [p|] eqn:E; inv_res.
  - apply checked_add_some in H0 as [-> _]. rewrite bget_insert. rewrite (N.eqb_sym c c').
    destruct (keqb_spec c' c) as [Hk|Hk].
    + subst c'. rewrite E, N.eqb_refl. reflexivity.
    + apply N.eqb_neq in Hk. rewrite Hk. lia.
  - rewrite bget_insert. rewrite (N.eqb_sym c c'). destruct (keqb_spec c' c) as [Hk|Hk].
    + subst c'. rewrite E, N.eqb_refl. lia.
    + apply N.eqb_neq in Hk. rewrite Hk. lia.
Qed.
Lemma erc20_sub_of c v b b' : erc20_sub c v b = Done b' ->
  forall c', erc20_balance_of c' b' + (if c =? c' then v else 0) = erc20_balance_of c' b.
Proof.
  unfold erc20_sub, erc20_balance_of. intros H c'. inv_res.
  apply checked_sub_some in H1 as [Hle ->]. rewrite bget_insert. rewrite (N.eqb_sym c c').
  destruct (keqb_spec c' c) as [Hk|Hk].
  - subst c'. rewrite H0, N.eqb_refl. lia.
  - apply N.eqb_neq in Hk. rewrite Hk. lia.
Qed.

Definition same_books (s s' : State) : Prop :=
  native_balance s' = native_balance s /\ erc20_balances s' = erc20_balances s.

Lemma deposit_books e s s' : record_event_to_mint e s = Done s' ->
  match e with
  | DepNative x => nb_balance (native_balance s') = nb_balance (native_balance s) + ne_value x /\
      nb_total_effective_tx_fees (native_balance s') = nb_total_effective_tx_fees (native_balance s) /\
      nb_total_unspent_tx_fees (native_balance s') = nb_total_unspent_tx_fees (native_balance s) /\
      erc20_balances s' = erc20_balances s
  | DepErc20 x => native_balance s' = native_balance s /\
      forall c, erc20_balance_of c (erc20_balances s') =
        erc20_balance_of c (erc20_balances s) + (if ee_erc20_contract_address x =? c then ee_value x else 0)
  end.
Proof.
  unfold record_event_to_mint, update_balance_upon_deposit. intros H.
  apply rbind_done in H as (? & _ & H). apply rbind_done in H as (? & _ & H).
  apply rbind_done in H as (? & _ & H). apply rbind_done in H as (? & _ & H).
  destruct e as [y|y]; apply rbind_done in H as (b & Hb & H); injection H as <-.
  - unfold eth_balance_add in Hb. inv_res. apply checked_add_some in H as [-> _]. cbn. auto.
  - cbn in *. split; auto. intros c. apply erc20_add_of; auto.
Qed.

Lemma withdrawal_books b rc s s' f req :
  mkm_get_alt b (finalized (withdrawals s)) = Some f -> bget b (processed (withdrawals s)) = Some req ->
  update_balance_upon_withdrawal b rc s = Done s' ->
  exists charge, charged_tx_fee req (st_tx (ft_tx f)) = Done charge /\
  let fee := rc_effective_gas_price rc * rc_gas_used rc in
  let amount := match rc_status rc with TxSuccess => tx_amount (st_tx (ft_tx f)) | TxFailure => 0 end in
  fee <= charge /\
  nb_balance (native_balance s') + amount + fee = nb_balance (native_balance s) /\
  nb_total_effective_tx_fees (native_balance s') = nb_total_effective_tx_fees (native_balance s) + fee /\
  nb_total_unspent_tx_fees (native_balance s') + fee = nb_total_unspent_tx_fees (native_balance s) + charge /\
  (match rc_status rc, tx_data (st_tx (ft_tx f)) with
   | TxSuccess, _ :: _ => exists to v, calldata_decode (tx_data (st_tx (ft_tx f))) = Done (ROk (to, v)) /\
       forall c, erc20_balance_of c (erc20_balances s') +
         (if tx_destination (st_tx (ft_tx f)) =? c then v else 0) = erc20_balance_of c (erc20_balances s)
   | _, _ => erc20_balances s' = erc20_balances s
   end).
Proof.
  intros Hf Hreq. unfold update_balance_upon_withdrawal. rewrite Hf, Hreq. intros H.
  apply rbind_done in H as (fee & H1 & H). cbn [expect rbind] in H.
  apply rbind_done in H as (charge & H2 & H). apply rbind_done in H as (unspent & H3 & H).
  apply rbind_done in H as (debited & H4 & H). apply rbind_done in H as (nb1 & H5 & H).
  apply rbind_done in H as (nb2 & H6 & H). apply rbind_done in H as (nb3 & H7 & H).
  exists charge. split; auto.
  unfold effective_transaction_fee in H1. apply expect_done in H1.
  assert (Efee : fee = rc_effective_gas_price rc * rc_gas_used rc).
  { unfold transaction_cost, checked_mul in H1. destruct (_ <=? _) in H1; [|discriminate]. injection H1 as H1; auto. }
  rewrite <- Efee. clear Efee H1.
  apply expect_done in H3. apply checked_sub_some in H3 as [H3 ->].
  unfold eth_balance_sub in H5. apply rbind_done in H5 as (b1 & H5 & E5). apply expect_done in H5.
  apply checked_sub_some in H5 as [H5 ->]. injection E5 as <-.
  unfold total_effective_tx_fees_add in H6. cbn in H6. apply rbind_done in H6 as (b2 & H6 & E6). apply expect_done in H6.
  apply checked_add_some in H6 as [-> _]. injection E6 as <-.
  unfold total_unspent_tx_fees_add in H7. cbn in H7. apply rbind_done in H7 as (b3 & H7 & E7). apply expect_done in H7.
  apply checked_add_some in H7 as [-> _]. injection E7 as <-.
  assert (Ed : debited = match rc_status rc with TxSuccess => tx_amount (st_tx (ft_tx f)) | TxFailure => 0 end + fee).
  { destruct (rc_status rc); [|injection H4 as <-; reflexivity]. apply expect_done in H4. apply checked_add_some in H4 as [-> _]. reflexivity. }
  cbn zeta. split; [exact H3|].
  destruct (rc_status rc) eqn:Es.
  2:{ injection H as <-. cbn. repeat split; lia. }
  destruct (tx_data (st_tx (ft_tx f))) as [|d l] eqn:Et.
  { injection H as <-. cbn. repeat split; lia. }
  rewrite <- Et in *. apply rbind_done in H as (dec & H8 & H). destruct dec as [[to v]|]; [|discriminate].
  apply rbind_done in H as (eb & H9 & H). injection H as <-. cbn.
  repeat split; try lia. exists to, v. split; auto. intros c. cbn in H9. apply erc20_sub_of with (c' := c) in H9. exact H9.
Qed.

(** Events that do not touch the books *)
Definition no_money (e : EventType) : bool :=
  match e with
  | EvAcceptedDeposit _ | EvAcceptedErc20Deposit _ | EvFinalizedTransaction _ _ => false
  | _ => true
  end.
Lemma no_money_books s e s' : no_money e = true -> apply_state_transition s e = Done s' -> same_books s s'.
Proof.
  intros He H. unfold same_books. destruct e; try discriminate; cbn [apply_state_transition] in H; try discriminate;
    try (apply on_withdrawals_inv in H as (w & _ & ->); split; reflexivity);
    try (injection H as <-; split; reflexivity).
  - destruct (upgrade a s) as [x|] eqn:E; [|discriminate]. injection H as <-.
    apply upgrade_spec in E as (_ & _ & ->). split; reflexivity.
  - unfold record_invalid_deposit in H. inv_res.
    destruct (bmem _ (invalid_events s)); inv_res; split; reflexivity.
  - unfold record_successful_mint in H. inv_res. split; reflexivity.
  - unfold record_add_erc20_token in H. inv_res. split; reflexivity.
  - unfold record_erc20_withdrawal_request in H. inv_res. split; reflexivity.
  - unfold record_successful_mint in H. inv_res. split; reflexivity.
  - injection H as <-. unfold record_quarantined_deposit. destruct (bmem _ _); split; reflexivity.
  - unfold record_skipped_block in H. inv_res. split; reflexivity.
Qed.

(** ** Numbers that fit their types *)
Definition typed_request (r : WithdrawalRequest) : Prop :=
  match r with
  | WNative q => is_address (nw_destination q) /\ nw_withdrawal_amount q <= U256_MAX
  | WErc20 q => is_address (ew_destination q) /\ ew_withdrawal_amount q <= U256_MAX /\
      ew_max_transaction_fee q <= U256_MAX
  end.
Definition typed_task (t : Task) : Prop :=
  match t with
  | TNativeFee j | TNativeBurn j => is_address (nj_destination j) /\ nj_amount j <= U256_MAX
  | TErc20Estimate j | TErc20Fee j | TErc20GasBurn j | TErc20Burn j _ =>
      is_address (ej_destination j) /\ ej_amount j <= U256_MAX /\ ej_tx_fee j <= U256_MAX
  | _ => True
  end.

Section Books.
Variable self : Principal.
Variable keccak : list N -> Hash.

Definition book_ok (s : State) (t : Task) : Prop := sign_ok keccak s t /\ typed_task t.

Record books (c : Core) : Prop := {
  bk_typed : forall r, In r (accepted (history (snd c))) -> typed_request r;
  bk_found : forall x, In x (finalizations (history (snd c))) -> found (history (snd c)) x;
  bk_each : forall x, In x (settlements (history (snd c))) -> gas_fee x <= charged x;
  bk_native : nb_balance (native_balance (fst c)) + sum_of spent (settlements (history (snd c))) =
    native_deposits (history (snd c));
  bk_eff : nb_total_effective_tx_fees (native_balance (fst c)) = sum_of gas_fee (settlements (history (snd c)));
  bk_charged : nb_total_effective_tx_fees (native_balance (fst c)) + nb_total_unspent_tx_fees (native_balance (fst c)) =
    sum_of charged (settlements (history (snd c)));
  bk_erc20 : forall a, erc20_balance_of a (erc20_balances (fst c)) + sum_of (spent_erc20 a) (settlements (history (snd c))) =
    erc20_deposits a (history (snd c))
}.
Definition wbooks (c : Core) : Prop := wlog c /\ books c.

Lemma book_evt s e : evt keccak book_ok s e -> evt keccak (sign_ok keccak) s e.
Proof. intros [(t & r & [Hf _] & H)|[H|[(t & [Hf _] & H)|H]]]; unfold evt; eauto 10. Qed.

Lemma evt_typed s e r : evt keccak book_ok s e -> In r (accepted_by e) -> typed_request r.
Proof.
  intros He Hr. destruct He as [(t & a & [_ Hf] & H)|[(u & H)|[(t & _ & H)|[(n & ->)|(a & -> & _)]]]]; try (destruct Hr; fail).
  - apply emits_inv in H. destruct e; try (destruct Hr; fail); destruct Hr as [<-|[]]; cbn in H.
    + destruct H as (j & b & -> & _ & ->). exact Hf.
    + destruct H as (j & i & b & -> & _ & ->). exact Hf.
  - destruct u; try (destruct H; fail). destruct H as (_ & t & _ & ->). destruct Hr.
  - destruct t; cbn in H; try (destruct H; fail); destruct H as [<-|[]]; destruct Hr.
Qed.

Lemma find_unique l r b : NoDup (map wr_burn_index l) -> In r l -> wr_burn_index r = b ->
  find (fun r => wr_burn_index r =? b) l = Some r.
Proof.
  intros Hn Hin Hb. destruct (find _ l) as [r'|] eqn:E.
  - apply find_some in E as [H1 H2]. apply N.eqb_eq in H2. f_equal. eapply nodup_burn_unique; eauto. congruence.
  - exfalso. apply find_none with (x := r) in E; auto. apply N.eqb_neq in E. auto.
Qed.

Lemma no_money_deposits e : no_money e = true -> native_deposit e = 0 /\ forall c, erc20_deposit c e = 0.
Proof. destruct e; try discriminate; auto. Qed.
Lemma deposits_snoc h e : native_deposits (h ++ [e]) = native_deposits h + native_deposit e.
Proof. unfold native_deposits. rewrite sum_of_app, sum_of_one. reflexivity. Qed.
Lemma erc20_deposits_snoc c h e : erc20_deposits c (h ++ [e]) = erc20_deposits c h + erc20_deposit c e.
Proof. unfold erc20_deposits. rewrite sum_of_app, sum_of_one. reflexivity. Qed.

(** What finalizing means for the log *)
Lemma finalized_settlement s s' b rc log : wt_inv (withdrawals s) -> repr (withdrawals s) (history log) ->
  all_serve s (history log) ->
  apply_state_transition s (EvFinalizedTransaction b rc) = Done s' ->
  let h := history log in
  exists req x w, In req (accepted h) /\ wr_burn_index req = b /\ In x (attempts h b) /\
    found h (b, rc) /\ settlement h (b, rc) = [{| se_request := req; se_signed := x; se_receipt := rc |}] /\
    st_hash x = rc_transaction_hash rc /\
    rc_effective_gas_price rc <= tx_max_fee_per_gas (st_tx x) /\ rc_gas_used rc <= tx_gas_limit (st_tx x) /\
    tx_serves (evm_network s) req (st_tx x) /\
    record_finalized_transaction b rc (withdrawals s) = Done w /\
    mkm_get_alt b (finalized w) = Some {| ft_tx := x; ft_receipt := rc |} /\ bget b (processed w) = Some req /\
    update_balance_upon_withdrawal b rc (set_withdrawals w s) = Done s'.
Proof.
  intros Hi Hrep Hserve H h. cbn [apply_state_transition] in H. unfold state_record_finalized_transaction in H.
  apply rbind_done in H as (w & Hw & H). pose proof Hw as Ht.
  apply record_finalized_spec in Ht as (k & l & x & req & Hrow & Hin & Hfind & Hreq & Htry & Hk & Ht); auto.
  pose proof (sent_attempts _ _ Hi Hrep _ _ _ Hrow) as Hatt.
  assert (Hx : In (rs_tx x) (attempts h b)) by (unfold h; rewrite <- Hatt; apply in_map; auto).
  pose proof (proj1 (p_processed _ _ Hrep _ _) Hreq) as (Hacc & Hb & _).
  apply try_finalize_spec in Htry as (Hh & Hp & Hg & _).
  assert (Hf1 : find (fun r => wr_burn_index r =? b) (accepted h) = Some req).
  { apply find_unique; auto. apply (p_acc_nodup _ _ Hrep). }
  assert (Hf2 : find (fun s => st_hash s =? rc_transaction_hash rc) (attempts h b) = Some (rs_tx x)).
  { unfold h. rewrite <- Hatt, find_map, Hfind. reflexivity. }
  exists req, (rs_tx x), w. 
  assert (Hs : tx_serves (evm_network s) req (st_tx (rs_tx x))).
  { destruct (Hserve b (st_tx (rs_tx x))) as (r & H1 & H2 & H3).
    - unfold attempts in Hx. apply in_flat_map in Hx as (e & He & Hx). apply in_flat_map. exists e. split; auto.
      destruct e; cbn in Hx; try contradiction. destruct (_ =? b) eqn:E; [|contradiction]. apply N.eqb_eq in E. subst.
      destruct Hx as [<-|[]]. left; auto.
    - replace req with r; auto. eapply (nodup_burn_unique (accepted h)); eauto; [apply (p_acc_nodup _ _ Hrep)|congruence]. }
  split; auto. split; auto. split; auto. split; [exists req, (rs_tx x); auto|].
  split; [unfold settlement; cbn [fst snd]; rewrite Hf1, Hf2; reflexivity|].
  do 5 (split; [auto|]). cbn zeta in Ht.
  set (f := {| ft_tx := rs_tx x; ft_receipt := rc |}) in *.
  assert (E : finalized w = finalized (finalized_tables k b f (withdrawals s)) /\ processed w = processed (withdrawals s)).
  { destruct (is_failure (rc_status rc)).
    - unfold record_reimbursement_request in Ht. inv_res. split; reflexivity.
    - rewrite Ht. split; reflexivity. }
  destruct E as [E1 E2]. rewrite E1, E2. split; [|split; auto].
  unfold mkm_get_alt, finalized_tables. cbn. apply bget_insert_eq.
Qed.

Lemma books_evt now s s' e log :
  core_ok keccak (s, log) -> wbooks (s, log) -> evt keccak book_ok s e ->
  apply_state_transition s e = Done s' -> wbooks (s', record_event now e log).
Proof.
  intros Hc (Hw & B) He Ha.
  assert (Hw' : wlog (s', record_event now e log)) by (eapply wlog_evt; eauto using book_evt).
  split; auto. pose proof (core_wt _ _ Hc) as Hi. cbn in Hi. destruct Hw as (Hrep & _ & Hserve). cbn [fst snd] in Hrep, Hserve.
  destruct B as [B1 B2 B0 B3 B4 B5 B6]. cbn [fst snd] in *.
  assert (Ht : forall r, In r (accepted (history log ++ [e])) -> typed_request r).
  { intros r. rewrite accepted_snoc. intros H. apply in_app_or in H as [H|H]; auto. eapply evt_typed; eauto. }
  pose proof (settlements_snoc (history log) e B2) as Hset.
  destruct (no_money e) eqn:E.
  { apply no_money_books in Ha as [E1 E2]; auto. destruct (no_money_deposits _ E) as [D1 D2].
    assert (Hf : finalized_by e = []) by (destruct e; try discriminate; auto).
    rewrite Hf in Hset. cbn in Hset. rewrite app_nil_r in Hset.
    constructor; cbn [fst snd]; rewrite ?history_snoc, ?Hset, ?E1, ?E2, ?deposits_snoc, ?D1, ?N.add_0_r; auto.
    - intros x. rewrite finalizations_snoc, Hf, app_nil_r. intros H. apply found_snoc; auto.
    - intros a. rewrite ?Hset, erc20_deposits_snoc, D2, N.add_0_r. auto. }
  destruct e; try discriminate; clear E.
  - (* native deposit *)
    cbn [apply_state_transition] in Ha. apply deposit_books in Ha as (E1 & E2 & E3 & E4).
    cbn in Hset. rewrite app_nil_r in Hset.
    constructor; cbn [fst snd]; rewrite ?history_snoc, ?Hset, ?E2, ?E3, ?E4, ?deposits_snoc; auto.
    + intros x. rewrite finalizations_snoc, app_nil_r. intros H. apply found_snoc; auto.
    + rewrite E1. cbn [native_deposit]. lia.
    + intros a. rewrite ?Hset, erc20_deposits_snoc. cbn [erc20_deposit]. rewrite N.add_0_r. auto.
  - (* finalized *)
    destruct (finalized_settlement s s' withdrawal_id receipt log Hi Hrep Hserve Ha)
      as (req & x & w & Hacc & Hb & Hx & Hfnd & Hse & Hh & _ & _ & Hsv & _ & Hfin & Hproc & Hu).
    destruct (withdrawal_books withdrawal_id receipt (set_withdrawals w s) s' _ _ Hfin Hproc Hu) as (charge & Hch & E0 & E1 & E2 & E3 & E4).
    cbn [ft_tx] in *. cbn [native_balance erc20_balances set_withdrawals] in E0, E1, E2, E3, E4.
    destruct (found_snoc _ (EvFinalizedTransaction withdrawal_id receipt) _ Hfnd) as [Hfnd' Hse'].
    cbn [finalized_by flat_map] in Hset. rewrite Hse', Hse, app_nil_r in Hset.
    set (z := {| se_request := req; se_signed := x; se_receipt := receipt |}) in *.
    assert (G : gas_fee z = rc_effective_gas_price receipt * rc_gas_used receipt) by reflexivity.
    rewrite <- G in *.
    assert (Gc : charged z = charge).
    { unfold charged, z. cbn. unfold charged_tx_fee in Hch. destruct req as [q|q]; [|injection Hch as <-; auto].
      apply expect_done in Hch. apply checked_sub_some in Hch as [_ ->]. reflexivity. }
    assert (Gs : spent z = match rc_status receipt with TxSuccess => tx_amount (st_tx x) | TxFailure => 0 end + gas_fee z).
    { unfold spent, mined_ok, z. cbn. destruct (rc_status receipt); reflexivity. }
    constructor; cbn [fst snd]; rewrite ?history_snoc, ?Hset, ?deposits_snoc, ?sum_of_app, ?sum_of_one; auto.
    + intros y. rewrite finalizations_snoc. intros H. apply in_app_or in H as [H|[<-|[]]]; auto. apply found_snoc; auto.
    + intros y H. apply in_app_or in H as [H|[<-|[]]]; auto. rewrite Gc. exact E0.
    + cbn [native_deposit]. rewrite Gs, N.add_0_r, <- B3, <- E1. lia.
    + rewrite E2, B4. reflexivity.
    + rewrite E2, Gc, <- B5, <- N.add_assoc, (N.add_comm (gas_fee z)), E3. lia.
    + intros a. rewrite ?Hset, ?sum_of_app, ?sum_of_one, erc20_deposits_snoc. cbn [erc20_deposit]. rewrite N.add_0_r, <- (B6 a).
      unfold spent_erc20 at 2, mined_ok. cbn [se_request se_receipt z].
      pose proof (Ht req) as Hty. rewrite accepted_snoc in Hty. specialize (Hty (in_or_app _ _ _ (or_introl Hacc))).
      destruct req as [q|q]; cbn in Hty, Hsv.
      * destruct Hsv as (_ & _ & _ & Hd & _). rewrite Hd in E4. destruct (rc_status receipt); rewrite E4; lia.
      * destruct Hsv as (_ & _ & Hd & _ & Hdata & _). destruct (rc_status receipt); [|cbn; rewrite E4; lia].
        destruct (tx_data (st_tx x)) as [|d l] eqn:Ed.
        { exfalso. symmetry in Hdata. unfold calldata_encode, ERC20_TRANSFER_SELECTOR in Hdata. discriminate. }
        destruct E4 as (to & v & Hdec & E4). rewrite Hdata, calldata_round_trip in Hdec by tauto.
        assert (Hv : v = ew_withdrawal_amount q) by congruence. specialize (E4 a). rewrite Hd, Hv in E4. cbn [andb].
        destruct (ew_erc20_contract_address q =? a); lia.
  - (* ERC20 deposit *)
    cbn [apply_state_transition] in Ha. apply deposit_books in Ha as (E1 & E2).
    cbn in Hset. rewrite app_nil_r in Hset.
    constructor; cbn [fst snd]; rewrite ?history_snoc, ?Hset, ?E1, ?deposits_snoc; auto.
    + intros x. rewrite finalizations_snoc, app_nil_r. intros H. apply found_snoc; auto.
    + cbn [native_deposit]. rewrite N.add_0_r. auto.
    + intros a. rewrite ?Hset, erc20_deposits_snoc, E2. cbn [erc20_deposit]. specialize (B6 a). lia.
Qed.

Lemma books_init now a s : state_of_init a = ROk s -> wbooks (s, record_event now (EvInit a) []).
Proof.
  intros H. split; [apply wlog_init; auto|].
  apply state_of_init_spec in H as (_ & h & _ & -> & _).
  constructor; cbn [fst snd]; try reflexivity; intros ? [].
Qed.
Lemma books_sim s s' log : sim s s' -> wbooks (s, log) -> wbooks (s', log).
Proof.
  intros Hs [H1 H2]. split; [eapply wlog_sim; eauto|]. destruct Hs as (v & p & _ & ->). destruct H2. constructor; auto.
Qed.

Lemma estimated_typed now j g s t : estimated_next now j g s t -> typed_task (TErc20Estimate j) -> typed_task t.
Proof.
  assert (Hf : forall f, ej_tx_fee (erc20_fee_job now f g j) <= U256_MAX).
  { intros f. cbn. unfold max_transaction_fee, or_max. destruct (transaction_cost _ _) eqn:E; [|lia].
    unfold transaction_cost, checked_mul in E. destruct (N.leb_spec (gf_base_fee_per_gas g) 0); 
      match type of E with (if ?x <=? ?y then _ else _) = _ => destruct (N.leb_spec x y); [|discriminate] end; injection E as <-; auto. }
  intros H (H1 & H2 & _). unfold estimated_next in H. destruct (withdrawal_native_fee s); [destruct H as [_ H]|]; subst t; cbn; repeat split; auto; exact (Hf None).
Qed.
Lemma typed_next now t r c c' t' : typed_task t -> next_spec now t r c c' t' -> typed_task t'.
Proof.
  intros Ht H. destruct t'; cbn in H |- *; auto; try contradiction.
  - destruct H as (j0 & b & fee & -> & _ & _ & _ & Hle & ->). cbn in *. split; [tauto|lia].
  - destruct H as (j0 & h & g & -> & _ & H). exact (estimated_typed _ _ _ _ _ H Ht).
  - destruct H as [(j0 & h & g & -> & _ & H)|(j0 & b & -> & _ & _ & ->)]; [exact (estimated_typed _ _ _ _ _ H Ht)|exact Ht].
  - destruct H as (-> & _). exact Ht.
Qed.
Lemma typed_call now u c c' t : call_next now u c c' (Await t) -> typed_task t.
Proof.
  intros H. destruct u; cbn in H.
  - destruct H as (_ & s & _ & [(E & _)|(d & Hd & Ha & [(E & _)|(_ & _ & E)])]); try discriminate.
    apply destination_iff in Hd as [Hd _]. apply address_of_text_is_address in Hd.
    destruct (withdrawal_native_fee s); [destruct E as [_ E]|]; injection E as ->; cbn; auto.
  - destruct H as (_ & s & _ & [(e & E & _)|(d & tk & Hd & Ha & _ & [(g & t' & _ & E & H)|(s' & _ & _ & E)])]); try discriminate;
      apply destination_iff in Hd as [Hd _]; apply address_of_text_is_address in Hd; injection E as ->.
    + eapply estimated_typed; eauto. cbn. split; auto. split; auto. lia.
    + cbn. split; auto. split; auto. lia.
  - destruct H as (E & _). discriminate.
  - destruct H as (_ & n & tm & _ & _ & E). discriminate.
Qed.
Lemma typed_timer now k c c' t : timer_next now k c c' (Await t) -> typed_task t.
Proof. intros H. destruct t; cbn; auto; destruct k; cbn in H; destruct H; contradiction || discriminate. Qed.

Lemma books_reach (env : Sys -> Label -> Prop) s :
  (forall s l, env s l -> nonce_kept s l) -> reach self keccak env s -> all_kept keccak book_ok wbooks s.
Proof.
  intros He Hr. eapply (kept_reach self keccak book_ok wbooks) with (env := env); eauto.
  - apply books_init.
  - intros ? ? ? _ Hw Hs. eapply books_sim; eauto.
  - apply books_evt.
  - intros s0 s1 t [H1 H2] Hs. split; [eapply sign_ok_sim; eauto|auto].
  - intros s0 s1 e log t Hc [Hw _] Hev Ha [H1 H2]. split; [eapply sign_ok_evt; eauto using book_evt|auto].
  - intros now t r c c' t' _ Hc' _ _ _ [H1 H2] H. split; [eapply sign_ok_next; eauto|eapply typed_next; eauto].
  - intros now k c c' t' Hc' _ H. split; [eapply sign_ok_timer; eauto|eapply typed_timer; eauto].
  - intros now u c c' t' _ _ H. split; [eapply sign_ok_call; eauto|eapply typed_call; eauto].
Qed.

Lemma settlements_all h : (forall x, In x (finalizations h) -> found h x) ->
  map (fun x => (wr_burn_index (se_request x), se_receipt x)) (settlements h) = finalizations h.
Proof.
  unfold settlements. generalize (finalizations h) as l. induction l as [|[b rc] l IH]; intros H; [reflexivity|].
  cbn [flat_map]. rewrite map_app, IH by (intros; apply H; right; auto).
  destruct (H (b, rc) (or_introl eq_refl)) as (r & x & H1 & H2). unfold settlement. rewrite H1, H2. cbn.
  apply find_some in H1 as [_ H1]. cbn in H1. apply N.eqb_eq in H1. rewrite H1. reflexivity.
Qed.
Lemma settlement_inv h x : In x (settlements h) ->
  let b := wr_burn_index (se_request x) in
  In (se_request x) (accepted h) /\ In (b, se_receipt x) (finalizations h) /\
  In (se_signed x) (attempts h b) /\ st_hash (se_signed x) = rc_transaction_hash (se_receipt x).
Proof.
  unfold settlements. rewrite in_flat_map. intros ([b rc] & H & Hx). unfold settlement in Hx. cbn [fst snd] in Hx.
  destruct (find _ (accepted h)) as [r|] eqn:E1; [|destruct Hx].
  destruct (find _ (attempts h b)) as [y|] eqn:E2; [|destruct Hx]. destruct Hx as [<-|[]]. cbn.
  apply find_some in E1 as [H1 H2]. apply find_some in E2 as [H3 H4]. apply N.eqb_eq in H2, H4. subst b. auto.
Qed.
Lemma attempt_made h b x : In x (attempts h b) -> In (b, st_tx x) (transactions_made h).
Proof.
  unfold attempts. intros Hx. apply in_flat_map in Hx as (e & He & Hx). apply in_flat_map. exists e. split; auto.
  destruct e; cbn in Hx; try contradiction. destruct (_ =? b) eqn:E; [|contradiction]. apply N.eqb_eq in E. subst.
  destruct Hx as [<-|[]]. left; auto.
Qed.
Lemma settlement_serves s h x : repr (withdrawals s) h -> all_serve s h -> In x (settlements h) ->
  tx_serves (evm_network s) (se_request x) (st_tx (se_signed x)).
Proof.
  intros Hrep Hs H. apply settlement_inv in H as (H1 & _ & H2 & _). apply attempt_made in H2.
  apply Hs in H2 as (r & H3 & H4 & H5). replace (se_request x) with r; auto.
  eapply (nodup_burn_unique (accepted h)); eauto. apply (p_acc_nodup _ _ Hrep).
Qed.

Variable env : Sys -> Label -> Prop.
Hypothesis Henv : forall s l, env s l -> nonce_kept s l.
Lemma settled_all s : reach self keccak env s ->
  map (fun x => (wr_burn_index (se_request x), se_receipt x)) (settlements (history (sys_log s))) =
    finalizations (history (sys_log s)) /\
  forall x, In x (settlements (history (sys_log s))) ->
    In (se_request x) (accepted (history (sys_log s))) /\
    In (se_signed x) (attempts (history (sys_log s)) (wr_burn_index (se_request x))) /\
    st_hash (se_signed x) = rc_transaction_hash (se_receipt x) /\
    gas_fee x <= charged x /\
    match se_request x with
    | WNative r => tx_amount (st_tx (se_signed x)) + charged x = nw_withdrawal_amount r
    | WErc20 _ => tx_amount (st_tx (se_signed x)) = 0
    end.
Proof.
  intros Hr. destruct (books_reach env s Henv Hr) as (_ & ((Hp & _ & Hs) & B) & _).
  change (fst (sys_core s)) with (sys_state s) in *. change (snd (sys_core s)) with (sys_log s) in *.
  split; [apply settlements_all; apply (bk_found _ B)|].
  intros x Hx. pose proof (settlement_serves _ _ _ Hp Hs Hx) as Hsv.
  pose proof (settlement_inv _ _ Hx) as (H1 & _ & H2 & H3). do 3 (split; [auto|]). split; [apply (bk_each _ B); auto|].
  unfold charged. destruct (se_request x); destruct Hsv as (_ & _ & Hsv).
  - destruct Hsv as (_ & _ & _ & Hsv). lia.
  - destruct Hsv as (_ & Hsv & _). exact Hsv.
Qed.
Lemma books_of s : reach self keccak env s -> books (sys_core s).
Proof. intros Hr. destruct (books_reach env s Henv Hr) as (_ & (_ & B) & _). exact B. Qed.
End Books.
