(** * Proofs about what the minter tells about itself *)

From Verif Require Import Base BMap MultiKeyMap MultiKeyMapFacts Bytes Types Amount ArithFacts Tx CallData
  Network Hex Transactions State Audit Ranges Rlp Parser Memo Driver Sys SysSpec WtInv StateEquiv
  Segments Tasks SysFacts CoreInv LogFacts CodecFacts WeakSteps DepositSpec Deposits TokenSpec TokenFacts WithdrawSpec WithdrawFacts Queries Info InfoSpec UpgradeSpec UpgradeFacts
  BalanceSpec BalanceFacts.

Record agrees (s : State) (h : list EventType) : Prop := {
  ag_config : exists c, configured h = Some c /\
    cf_network c = evm_network s /\ cf_native_ledger c = native_ledger_id s /\
    Some (cf_manager c) = ledger_suite_manager_id s /\ cf_helper c = helper_contract_address s /\
    cf_minimum c = native_minimum_withdrawal_amount s /\ shown_fee (cf_deposit_fee c) = deposit_native_fee s /\
    shown_fee (cf_withdrawal_fee c) = withdrawal_native_fee s /\ cf_height c = block_height s;
  ag_swap : swap_canister_id s = None;
  ag_tokens : forall c l y, dmkm_get_entry_alt c (erc20_tokens s) = Some (l, y) <->
    exists t, In (EvAddedErc20Token t) h /\ et_contract_address t = c /\ et_ledger_id t = l /\ et_symbol t = y;
  ag_chain : forall t, In (EvAddedErc20Token t) h -> et_chain_id t = evm_network s
}.

Definition plain (e : EventType) : bool :=
  match e with EvInit _ | EvUpgrade _ | EvAddedErc20Token _ => false | _ => true end.
Definition same_info (s s' : State) : Prop :=
  evm_network s' = evm_network s /\ native_ledger_id s' = native_ledger_id s /\
  ledger_suite_manager_id s' = ledger_suite_manager_id s /\ helper_contract_address s' = helper_contract_address s /\
  native_minimum_withdrawal_amount s' = native_minimum_withdrawal_amount s /\
  deposit_native_fee s' = deposit_native_fee s /\ withdrawal_native_fee s' = withdrawal_native_fee s /\
  block_height s' = block_height s /\ swap_canister_id s' = swap_canister_id s /\ erc20_tokens s' = erc20_tokens s.
Lemma plain_same s e s' : plain e = true -> apply_state_transition s e = Done s' -> same_info s s'.
Proof.
  intros Hp H. destruct e; try discriminate; cbn [apply_state_transition] in H;
    try (apply on_withdrawals_inv in H as (w & _ & ->); repeat split; fail);
    try (injection H as <-; repeat split; fail).
  - unfold record_event_to_mint, update_balance_upon_deposit in H. inv_res; repeat split.
  - unfold record_invalid_deposit in H. inv_res.
    destruct (bmem _ (invalid_events s)); inv_res; repeat split.
  - unfold record_successful_mint in H. inv_res. repeat split.
  - unfold state_record_finalized_transaction in H. inv_res.
    apply update_balance_shape in H as (nb & eb & ->). repeat split.
  - unfold record_event_to_mint, update_balance_upon_deposit in H. inv_res; repeat split.
  - unfold record_erc20_withdrawal_request in H. inv_res. repeat split.
  - unfold record_successful_mint in H. inv_res. repeat split.
  - injection H as <-. unfold record_quarantined_deposit. destruct (bmem _ _); repeat split.
  - unfold record_skipped_block in H. inv_res. repeat split.
Qed.

Lemma configured_snoc h e : configured (h ++ [e]) = configure (configured h) e.
Proof. unfold configured. rewrite fold_left_app. reflexivity. Qed.
Lemma configure_plain c e : (forall a, e <> EvInit a) -> (forall a, e <> EvUpgrade a) -> configure c e = c.
Proof. intros H1 H2. destruct e; try reflexivity; [destruct (H1 a)|destruct (H2 a)]; reflexivity. Qed.

Lemma agrees_same s s' h : same_info s s' -> agrees s h -> agrees s' h.
Proof.
  intros (E1 & E2 & E3 & E4 & E5 & E6 & E7 & E8 & E9 & E10) [(c & Hc) Hs Ht Hn]. constructor.
  - exists c. rewrite E1, E2, E3, E4, E5, E6, E7, E8. exact Hc.
  - congruence.
  - rewrite E10. exact Ht.
  - rewrite E1. exact Hn.
Qed.
Lemma no_token h e : (forall t, e <> EvAddedErc20Token t) -> forall x,
  In (EvAddedErc20Token x) (h ++ [e]) <-> In (EvAddedErc20Token x) h.
Proof. intros Hn x. rewrite in_app_iff. cbn. split; [|auto]. intros [H|[H|[]]]; auto. destruct (Hn x). auto. Qed.

Lemma agrees_event s e s' h : agrees s h -> apply_state_transition s e = Done s' -> agrees s' (h ++ [e]).
Proof.
  intros Ha H. destruct (plain e) eqn:Ep.
  - pose proof (agrees_same _ _ _ (plain_same _ _ _ Ep H) Ha) as [Hc Hs Ht Hn]. constructor; auto.
    + rewrite configured_snoc, configure_plain; auto; intros a ->; discriminate.
    + intros c l y. rewrite Ht. split; intros (t & Hin & E); exists t; (split; [|exact E]); revert Hin; apply no_token;
        intros x ->; discriminate.
    + intros t Hin. apply Hn. revert Hin. apply no_token. intros x ->. discriminate.
  - destruct e; try discriminate; cbn [apply_state_transition] in H.
    + destruct (upgrade a s) as [x|] eqn:E; [|discriminate]. injection H as <-.
      apply upgrade_spec in E as (_ & _ & ->). destruct Ha as [(c & Hc & H1 & H2 & H3 & H4 & H5 & H6 & H7 & H8) Hs Ht Hn].
      constructor.
      * rewrite configured_snoc, Hc. cbn [configure]. eexists. split; [reflexivity|].
        unfold upgraded. cbn. rewrite H1, H2, H3, H4, H5. do 4 (split; [reflexivity|]).
        split; [destruct (ua_native_minimum_withdrawal_amount a); reflexivity|].
        split; [destruct (ua_deposit_native_fee a); [reflexivity|exact H6]|].
        split; [destruct (ua_withdrawal_native_fee a); [reflexivity|exact H7]|].
        destruct (ua_block_height a); [reflexivity|exact H8].
      * exact Hs.
      * intros c0 l y. rewrite (Ht c0 l y : dmkm_get_entry_alt c0 (erc20_tokens (upgraded a s)) = Some (l, y) <-> _).
        split; intros (t & Hin & E); exists t; (split; [|exact E]); revert Hin; apply no_token; discriminate.
      * intros t Hin. apply Hn. revert Hin. apply no_token. discriminate.
    + unfold record_add_erc20_token in H. apply rbind_done in H as (u & Hu & H). apply rbind_done in H as (l0 & _ & H).
      apply rbind_done in H as (u' & _ & H). apply rbind_done in H as (m & Hm & H). injection H as <-.
      assert (Hi : dmkm_try_insert (et_ledger_id t) (et_contract_address t) (et_symbol t) (erc20_tokens s) = Done (ROk m)).
      { unfold expect_inserted in Hm. apply rbind_done in Hm as ([x|] & Hx & Hm); [|discriminate Hm]. injection Hm as <-. exact Hx. }
      apply dmkm_insert_get in Hi as [Hn Hi]. destruct Ha as [Hc Hs Ht Hn']. constructor.
      * rewrite configured_snoc. cbn [configure]. destruct (configured h) eqn:Ec; exact Hc.
      * exact Hs.
      * intros c l y.
        change (dmkm_get_entry_alt c (erc20_tokens (set_erc20_tokens m s))) with (dmkm_get_entry_alt c m). rewrite Hi.
        destruct (keqb_spec c (et_contract_address t)) as [->|Hne].
        -- split.
           ++ intros E. injection E as <- <-. exists t. split; auto. apply in_app_iff. right. left. reflexivity.
           ++ intros (t' & Hin & E1 & E2 & E3). apply in_app_iff in Hin as [Hin|[Hin|[]]].
              ** exfalso. assert (E : dmkm_get_entry_alt (et_contract_address t) (erc20_tokens s) = Some (et_ledger_id t', et_symbol t'))
                   by (apply Ht; eauto 6).
                 unfold dmkm_get_entry_alt, mkm_get_alt in E. congruence.
              ** injection Hin as <-. congruence.
        -- rewrite Ht. split.
           ++ intros (t' & Hin & E). exists t'. split; auto. apply in_app_iff; auto.
           ++ intros (t' & Hin & E1 & E). apply in_app_iff in Hin as [Hin|[Hin|[]]]; [eauto|].
              injection Hin as <-. congruence.
      * intros t' Hin. apply in_app_iff in Hin as [Hin|[Hin|[]]]; [exact (Hn' _ Hin)|]. injection Hin as <-.
        apply rassert_done, network_eqb_eq in Hu. symmetry. exact Hu.
Qed.

Lemma agrees_init a s : state_of_init a = ROk s -> agrees s [EvInit a].
Proof.
  intros H. apply state_of_init_spec in H as (_ & h & Hh & -> & _). constructor.
  - eexists. split; [reflexivity|]. unfold init_state. cbn. do 3 (split; [reflexivity|]).
    split; [|repeat split; reflexivity]. unfold init_helper in Hh.
    destruct (ia_helper_contract_address a); [|congruence]. destruct (address_of_text _); [|discriminate]. congruence.
  - reflexivity.
  - intros c l y. split; [intros E; discriminate E|]. intros (t & [Hin|[]] & _). discriminate.
  - intros t [Hin|[]]. discriminate.
Qed.

Lemma agrees_replay log s : replay_events log = Done s -> agrees s (history log).
Proof.
  unfold replay_events. destruct log as [|e log]; [discriminate|]. destruct (ev_payload e) eqn:E; try discriminate.
  destruct (state_of_init a) as [s0|] eqn:E0; [|discriminate]. intros H.
  apply agrees_init in E0. unfold history. cbn [map]. rewrite E. change (EvInit a :: map ev_payload log) with ([EvInit a] ++ map ev_payload log).
  revert s0 E0 H. generalize [EvInit a]. induction log as [|x log IH]; intros h s0 Ha H; cbn [rfold map] in *.
  - injection H as <-. rewrite app_nil_r. auto.
  - apply rbind_done in H as (s1 & H1 & H). change (ev_payload x :: map ev_payload log) with ([ev_payload x] ++ map ev_payload log).
    rewrite app_assoc. apply (IH _ s1); auto. eapply agrees_event; eauto.
Qed.

Section Reach.
Variable self : Principal.
Variable keccak : list N -> Hash.

Lemma agrees_reach (env : Sys -> Label -> Prop) s : reach self keccak env s -> agrees (sys_state s) (history (sys_log s)).
Proof.
  apply (reach_inv self keccak env (fun s => agrees (sys_state s) (history (sys_log s)))).
  - intros now a s0 H. apply sys_init_inv in H as (st & H1 & H2 & _). unfold sys_state, sys_log. rewrite H2. cbn [fst snd].
    apply agrees_init; auto.
  - intros s0 l s' IH _ H. unfold sys_state, sys_log in *. apply trans_wmicros in H as [(now & H)|(a & now & _ & _ & H)].
    + revert H IH. generalize (sys_core s0), (sys_core s').
      apply (wmicros_inv (step_emits keccak s0 l) now (fun c => agrees (fst c) (history (snd c)))).
      intros c c' Hc H. inversion H; subst; cbn [fst snd] in *.
      * eapply agrees_same; [|exact Hc]. destruct H0 as (v & ->). repeat split.
      * rewrite history_snoc. eapply agrees_event; eauto.
      * eapply agrees_same; [|exact Hc]. repeat split.
    + unfold canister_upgrade, post_upgrade in H. apply rbind_done in H as (st & H1 & H). apply agrees_replay in H1.
      destruct a as [x|].
      * apply process_event_inv in H as (s1 & Ha & ->). cbn [fst snd]. rewrite history_snoc. eapply agrees_event; eauto.
      * injection H as <-. exact H1.
Qed.

Definition info_tokens (k : list N -> list N) (l : list ERC20Token) : list InfoToken :=
  map (fun t => {| it_symbol := et_symbol t; it_contract_address := address_to_text k (et_contract_address t);
                   it_ledger_id := et_ledger_id t |}) l.
Lemma info_total (env : Sys -> Label -> Prop) k m s : reach self keccak env s -> exists i, get_minter_info k m (sys_state s) = Done i.
Proof.
  intros Hr. destruct (listed_query self keccak env s Hr) as (l & Hl). unfold get_minter_info. rewrite Hl. cbn [rbind]. eauto.
Qed.
Lemma info_inv k m s i : get_minter_info k m s = Done i -> exists l, supported_erc20_tokens s = Done l /\
  mi_supported_erc20_tokens i = Some (info_tokens k l) /\
  mi_erc20_balances i = Some (map (fun t => {| ib_contract_address := address_to_text k (et_contract_address t);
                         ib_balance := erc20_balance_of (et_contract_address t) (erc20_balances s) |}) l) /\
  mi_minter_address i = option_map (address_to_text k) m /\
  mi_helper_smart_contract_address i = option_map (address_to_text k) (helper_contract_address s) /\
  mi_minimum_withdrawal_amount i = Some (native_minimum_withdrawal_amount s) /\
  mi_deposit_native_fee i = deposit_native_fee s /\ mi_withdrawal_native_fee i = withdrawal_native_fee s /\
  mi_block_height i = Some (block_height s) /\ mi_native_balance i = Some (nb_balance (native_balance s)) /\
  mi_native_twin_token_ledger_id i = Some (native_ledger_id s) /\ mi_swap_canister_id i = swap_canister_id s /\
  mi_ledger_suite_manager_id i = ledger_suite_manager_id s.
Proof.
  intros H. unfold get_minter_info in H. apply rbind_done in H as (l & Hl & H). injection H as <-. exists l.
  split; [exact Hl|]. repeat split.
Qed.

Lemma info_settings (env : Sys -> Label -> Prop) k m s i : reach self keccak env s -> get_minter_info k m (sys_state s) = Done i ->
  exists c, configured (history (sys_log s)) = Some c /\
    mi_helper_smart_contract_address i = option_map (address_to_text k) (cf_helper c) /\
    mi_minimum_withdrawal_amount i = Some (cf_minimum c) /\
    mi_deposit_native_fee i = shown_fee (cf_deposit_fee c) /\
    mi_withdrawal_native_fee i = shown_fee (cf_withdrawal_fee c) /\
    mi_block_height i = Some (cf_height c) /\
    mi_native_twin_token_ledger_id i = Some (cf_native_ledger c) /\
    mi_ledger_suite_manager_id i = Some (cf_manager c) /\
    smart_contract_address k (sys_state s) = or_old (mi_helper_smart_contract_address i) [78; 47; 65].
Proof.
  intros Hr H. apply info_inv in H as (l & _ & _ & _ & _ & E4 & E5 & E6 & E7 & E8 & _ & E9 & E10 & E11).
  destruct (agrees_reach env s Hr) as [(c & Hc & C1 & C2 & C3 & C4 & C5 & C6 & C7 & C8) Hs _ _].
  exists c. split; [exact Hc|]. unfold smart_contract_address. rewrite E4, E5, E6, E7, E8, E9, E11, C2, <- C3, C4, C5, C6, C7, C8. repeat split.
Qed.

Lemma swap_unset (env : Sys -> Label -> Prop) s caller : reach self keccak env s ->
  check_new_deposits caller (sys_state s) = Panic "ERROR: swap feature not activated".
Proof. intros Hr. unfold check_new_deposits. rewrite (ag_swap _ _ (agrees_reach env s Hr)). reflexivity. Qed.

Lemma swap_never (env : Sys -> Label -> Prop) s caller : reach self keccak env s ->
  swap_canister_id (sys_state s) = None /\ exists why, check_new_deposits caller (sys_state s) = Panic why.
Proof. intros Hr. split; [exact (ag_swap _ _ (agrees_reach env s Hr))|]. eexists. exact (swap_unset env s caller Hr). Qed.

Lemma supported_nodup s l : tok_ok (erc20_tokens s) -> supported_erc20_tokens s = Done l ->
  NoDup (map et_ledger_id l).
Proof.
  intros Hm H. unfold supported_erc20_tokens, dmkm_iter in H.
  destruct (mkm_iter_done (erc20_tokens s) (to_wf _ Hm)) as (ll & Hl & Hk & _).
  rewrite Hl in H. cbn [rbind] in H. injection H as <-. rewrite !map_map. cbn [et_ledger_id fst snd].
  replace (map _ ll) with (map fst (map fst ll)) by (rewrite map_map; reflexivity). rewrite Hk.
  apply bsorted_NoDup. apply (to_wf _ Hm).
Qed.

Lemma supported_registered (env : Sys -> Label -> Prop) s l : reach self keccak env s -> supported_erc20_tokens (sys_state s) = Done l ->
  forall t, In t l <-> In (EvAddedErc20Token t) (history (sys_log s)).
Proof.
  intros Hr Hl t. destruct (agrees_reach env s Hr) as [_ _ Ht Hn]. pose proof (tokens_reach self keccak env s Hr) as Hm.
  pose proof (listed_iff _ Hm (et_ledger_id t) (et_contract_address t) (et_symbol t)) as Hi. rewrite Ht in Hi.
  split.
  - intros Hin. destruct (proj1 Hi) as (t' & Hin' & E1 & E2 & E3).
    + exists l. split; [exact Hl|]. replace (evm_network (sys_state s)) with (et_chain_id t); [destruct t; exact Hin|].
      unfold supported_erc20_tokens in Hl. apply rbind_done in Hl as (ll & _ & Hl). injection Hl as <-.
      apply in_map_iff in Hin as (x & <- & _). reflexivity.
    + replace t with t'; auto. pose proof (Hn _ Hin') as E.
      assert (E' : et_chain_id t = evm_network (sys_state s)).
      { unfold supported_erc20_tokens in Hl. apply rbind_done in Hl as (ll & _ & Hl). injection Hl as <-.
        apply in_map_iff in Hin as (x & <- & _). reflexivity. }
      destruct t, t'. cbn in *. congruence.
  - intros Hin. pose proof (Hn _ Hin) as E. destruct (proj2 Hi) as (l' & Hl' & Hin').
    + exists t. auto.
    + rewrite Hl in Hl'. injection Hl' as <-. rewrite <- E in Hin'. destruct t; exact Hin'.
Qed.

Lemma info_tokens_listed (env : Sys -> Label -> Prop) k m s i : reach self keccak env s -> get_minter_info k m (sys_state s) = Done i ->
  exists l, mi_supported_erc20_tokens i = Some l /\ NoDup (map it_ledger_id l) /\
    forall x, In x l <-> exists t, In (EvAddedErc20Token t) (history (sys_log s)) /\ it_symbol x = et_symbol t /\
      it_ledger_id x = et_ledger_id t /\ it_contract_address x = address_to_text k (et_contract_address t).
Proof.
  intros Hr H. apply info_inv in H as (l & Hl & E & _). exists (info_tokens k l). split; [exact E|]. split.
  - unfold info_tokens. rewrite map_map. cbn. eapply supported_nodup; [|exact Hl]. exact (tokens_reach self keccak env s Hr).
  - intros x. unfold info_tokens. rewrite in_map_iff. pose proof (supported_registered env s l Hr Hl) as Hs. split.
    + intros (t & <- & Hin). exists t. split; [apply Hs; exact Hin|repeat split].
    + intros (t & Hin & E1 & E2 & E3). exists t. split; [|apply Hs; exact Hin]. destruct x. cbn in *. congruence.
Qed.

Lemma info_balances (env : Sys -> Label -> Prop) k m s i : (forall s l, env s l -> nonce_kept s l) ->
  reach self keccak env s -> get_minter_info k m (sys_state s) = Done i ->
  let h := history (sys_log s) in
  (exists b, mi_native_balance i = Some b /\ b + sum_of spent (settlements h) = native_deposits h) /\
  (exists l, mi_erc20_balances i = Some l /\
    (forall x, In x l -> exists t, In (EvAddedErc20Token t) h /\ ib_contract_address x = address_to_text k (et_contract_address t) /\
       ib_balance x + sum_of (spent_erc20 (et_contract_address t)) (settlements h) = erc20_deposits (et_contract_address t) h) /\
    (forall t, In (EvAddedErc20Token t) h -> exists x, In x l /\ ib_contract_address x = address_to_text k (et_contract_address t) /\
       ib_balance x + sum_of (spent_erc20 (et_contract_address t)) (settlements h) = erc20_deposits (et_contract_address t) h)).
Proof.
  intros He Hr H h. apply info_inv in H as (l & Hl & _ & E2 & _ & _ & _ & _ & _ & _ & E & _).
  pose proof (books_of self keccak env He s Hr) as Hb. split.
  - eexists. split; [exact E|]. exact (bk_native _ Hb).
  - eexists. split; [exact E2|]. pose proof (supported_registered env s l Hr Hl) as Hs. split.
    + intros x Hx. apply in_map_iff in Hx as (t & <- & Hx). exists t. split; [apply Hs; exact Hx|]. split; [reflexivity|].
      exact (bk_erc20 _ Hb _).
    + intros t Hx. eexists. split; [apply in_map_iff; exists t; split; [reflexivity|apply Hs; exact Hx]|]. split; [reflexivity|].
      exact (bk_erc20 _ Hb _).
Qed.

Lemma info_estimate k m s i e : get_minter_info k m s = Done i ->
  (mi_last_gas_fee_estimate i = Some e <->
   exists p, quoted_price None s = Done p /\ qp_max_fee_per_gas p = ie_max_fee_per_gas e /\
     qp_max_priority_fee_per_gas p = ie_max_priority_fee_per_gas e /\ qp_timestamp p = Some (ie_timestamp e)).
Proof.
  intros H. unfold get_minter_info in H. apply rbind_done in H as (l & Hl & H). injection H as <-. cbn [mi_last_gas_fee_estimate].
  unfold quoted_price. cbn [rbind]. destruct (last_transaction_price_estimate s) as [[ts g]|]; cbn [option_map].
  - split.
    + intros E. injection E as <-. eexists. split; [reflexivity|]. repeat split.
    + intros (p & E & E1 & E2 & E3). injection E as <-. destruct e. cbn in *. congruence.
  - split; [discriminate|]. intros (p & E & _). discriminate.
Qed.
End Reach.

(** The position told *)
Lemma info_position keccak32 m s i : get_minter_info keccak32 m s = Done i ->
  mi_last_scraped_block_number i = Some (last_scraped_block_number s) /\
  mi_last_observed_block_number i = last_observed_block_number s /\
  mi_swap_canister_id i = swap_canister_id s /\
  mi_minter_address i = option_map (address_to_text keccak32) m.
Proof. unfold get_minter_info. intros H. apply rbind_done in H as (x & _ & H). injection H as <-. auto. Qed.

Lemma scrape_goes_on keccak32 m c i n last c' j :
  get_minter_info keccak32 m (fst c) = Done i -> mi_last_scraped_block_number i = Some n ->
  scrape_until_block last c = Done (c', Await (TScrapeLogs j)) -> fst (sj_current j) = N.min (n + 1) U256_MAX.
Proof.
  intros Hi Hn H. destruct (info_position _ _ _ _ Hi) as (E & _). rewrite E in Hn. injection Hn as <-.
  unfold scrape_until_block in H. apply rbind_done in H as (sc & Hsc & H).
  apply rbind_done in H as (ck & Hck & H).
  assert (Hs : sc_last_scraped_block_number sc = last_scraped_block_number (fst c)).
  { unfold next_scrape in Hsc. inv_res; reflexivity. }
  unfold scrape_next_chunk in H. apply rbind_done in H as ([o ck'] & Ho & H).
  destruct o as [r|]; [|unfold end_timer in H; discriminate H]. injection H as _ <-. cbn [sj_current].
  rewrite <- or_max_add, <- Hs. revert Hck Ho. unfold into_chunks, chunks_next, checked_increment. intros Hck Ho.
  apply rbind_done in Hck as (? & _ & Hck). injection Hck as <-. cbn [ck_range ck_size ck_exhausted] in Ho.
  destruct (_ <? _); [discriminate Ho|]. apply rbind_done in Ho as ([[lo|] [hi|]] & Hp & Ho); cbn [fst snd] in *.
  all: unfold partition_at_checked in Hp; cbn [fst snd] in Hp.
  all: destruct (_ <=? _); [|destruct (_ <? _); [|apply rbind_done in Hp as (? & _ & Hp)]]; try discriminate Hp;
    injection Hp as; subst; try discriminate Ho; injection Ho as <- _; reflexivity.
Qed.

Lemma only_swap caller s : check_new_deposits caller s = Done tt -> swap_canister_id s = Some caller.
Proof.
  unfold check_new_deposits. destruct (swap_canister_id s) as [x|]; [|discriminate].
  cbn. destruct (bytes_eqb x caller) eqn:E; [|discriminate]. intros _. apply bytes_eqb_eq in E. congruence.
Qed.

(** ** The settings are valid in every state *)
Definition same_config (s s' : State) : Prop :=
  ecdsa_key_name s' = ecdsa_key_name s /\ native_ledger_id s' = native_ledger_id s /\
  helper_contract_address s' = helper_contract_address s /\
  native_minimum_withdrawal_amount s' = native_minimum_withdrawal_amount s /\
  native_ledger_transfer_fee s' = native_ledger_transfer_fee s.
Lemma config_event s e s' : (forall a, e <> EvUpgrade a) -> apply_state_transition s e = Done s' -> same_config s s'.
Proof.
  intros Hu H. destruct e; cbn [apply_state_transition] in H; try discriminate;
    try (apply on_withdrawals_inv in H as (w & _ & ->); repeat split; fail);
    try (injection H as <-; repeat split; fail).
  - destruct (Hu a). reflexivity.
  - unfold record_event_to_mint, update_balance_upon_deposit in H. inv_res; repeat split.
  - unfold record_invalid_deposit in H. inv_res.
    destruct (bmem _ (invalid_events s)); inv_res; repeat split.
  - unfold record_successful_mint in H. inv_res. repeat split.
  - unfold state_record_finalized_transaction in H. inv_res.
    apply update_balance_shape in H as (nb & eb & ->). repeat split.
  - unfold record_add_erc20_token in H. inv_res. repeat split.
  - unfold record_event_to_mint, update_balance_upon_deposit in H. inv_res; repeat split.
  - unfold record_erc20_withdrawal_request in H. inv_res. repeat split.
  - unfold record_successful_mint in H. inv_res. repeat split.
  - injection H as <-. unfold record_quarantined_deposit. destruct (bmem _ _); repeat split.
  - unfold record_skipped_block in H. inv_res. repeat split.
Qed.
Lemma config_valid s s' : same_config s s' -> valid_settings s -> valid_settings s'.
Proof. intros (E1 & E2 & E3 & E4 & E5). unfold valid_settings. rewrite E1, E2, E3, E4, E5. auto. Qed.
Lemma valid_event s e s' : valid_settings s -> apply_state_transition s e = Done s' -> valid_settings s'.
Proof.
  intros Hv H. destruct e; try (eapply config_valid; [eapply config_event; [|exact H]|exact Hv]; discriminate).
  cbn [apply_state_transition] in H. destruct (upgrade a s) as [x|] eqn:E; [|discriminate H]. injection H as <-.
  apply upgrade_spec in E as (_ & E & ->). apply validate_config_spec. exact E.
Qed.
Lemma valid_init a s : state_of_init a = ROk s -> valid_settings s.
Proof. intros H. apply state_of_init_spec in H as (_ & h & _ & -> & Hv). exact Hv. Qed.
Lemma valid_replay log s : replay_events log = Done s -> valid_settings s.
Proof.
  unfold replay_events. destruct log as [|e log]; [discriminate|]. destruct (ev_payload e) eqn:E; try discriminate.
  destruct (state_of_init a) as [s0|] eqn:E0; [|discriminate]. intros H. apply valid_init in E0.
  revert s0 E0 H. induction log as [|x log IH]; intros s0 Hv H; cbn [rfold] in *.
  - injection H as <-. exact Hv.
  - apply rbind_done in H as (s1 & H1 & H). apply (IH s1); auto. eapply valid_event; eauto.
Qed.
Lemma valid_reach self keccak (env : Sys -> Label -> Prop) s : reach self keccak env s -> valid_settings (sys_state s).
Proof.
  apply (reach_inv self keccak env (fun s => valid_settings (sys_state s))).
  - intros now a s0 H. apply sys_init_inv in H as (st & H1 & H2 & _). unfold sys_state. rewrite H2. eapply valid_init; eauto.
  - intros s0 l s' IH _ H. unfold sys_state in *. apply trans_wmicros in H as [(now & H)|(a & now & _ & _ & H)].
    + revert H IH. generalize (sys_core s0), (sys_core s').
      apply (wmicros_inv (step_emits keccak s0 l) now (fun c => valid_settings (fst c))).
      intros c c' Hc H. inversion H; subst; cbn [fst snd] in *.
      * destruct H0 as (v & ->). exact Hc.
      * eapply valid_event; eauto.
      * exact Hc.
    + unfold canister_upgrade, post_upgrade in H. apply rbind_done in H as (st & H1 & H). apply valid_replay in H1.
      destruct a as [x|].
      * apply process_event_inv in H as (s1 & Ha & ->). cbn [fst snd]. eapply valid_event; eauto.
      * injection H as <-. exact H1.
Qed.
