(** * Proofs for C85: what the minter asks about the chain *)

From Coq Require Import String Bool.
From Verif Require Import CallFacts Base BMap MultiKeyMap MultiKeyMapFacts Bytes Types Amount Tx CallData Network Hex Transactions State Audit
  Ranges Rlp Parser Driver Sys SysSpec WtInv Tasks SysFacts RangesFacts Views ScrapeSpec ScrapeFacts Segments CoreInv Lifting WeakSteps LogFacts
  WithdrawSpec WithdrawFacts BurnFacts DepositSpec Deposits TokenSpec TokenFacts InfoSpec UpgradeFacts InfoFacts StageFacts SignFacts PublicEvents Ask AskSpec.
From Coq Require Import List NArith Lia.
Import ListNotations.
Local Open Scope N_scope.

(** ** Addresses of providers *)

Definition base_url (p : Provider) (n : EvmNetwork) : option string :=
  match p, n with
  | Ankr, Ethereum => Some "https://rpc.ankr.com/eth"
  | Ankr, Sepolia => Some "https://rpc.ankr.com/eth_sepolia"
  | Ankr, ArbitrumOne => Some "https://rpc.ankr.com/arbitrum"
  | Ankr, BSC => Some "https://rpc.ankr.com/bsc"
  | Ankr, BSCTestnet => Some "https://rpc.ankr.com/bsc_testnet_chapel"
  | Ankr, Polygon => Some "https://rpc.ankr.com/polygon"
  | Ankr, Optimism => Some "https://rpc.ankr.com/optimism"
  | Ankr, Base_ => Some "https://rpc.ankr.com/base"
  | Ankr, Avalanche => Some "https://rpc.ankr.com/avalanche"
  | Ankr, Fantom => Some "https://rpc.ankr.com/fantom"
  | PublicNode, Ethereum => Some "https://ethereum-rpc.publicnode.com"
  | PublicNode, Sepolia => Some "https://ethereum-sepolia-rpc.publicnode.com"
  | PublicNode, ArbitrumOne => Some "https://arbitrum-one-rpc.publicnode.com"
  | PublicNode, BSC => Some "https://bsc-rpc.publicnode.com"
  | PublicNode, BSCTestnet => Some "https://bsc-testnet-rpc.publicnode.com"
  | PublicNode, Polygon => Some "https://polygon-bor-rpc.publicnode.com"
  | PublicNode, Optimism => Some "https://optimism-rpc.publicnode.com"
  | PublicNode, Base_ => Some "https://base-rpc.publicnode.com"
  | PublicNode, Avalanche => Some "https://avalanche-c-chain-rpc.publicnode.com"
  | PublicNode, Fantom => Some "https://fantom-rpc.publicnode.com"
  | LlamaNodes, Ethereum => Some "https://eth.llamarpc.com"
  | LlamaNodes, ArbitrumOne => Some "https://arbitrum.llamarpc.com"
  | LlamaNodes, BSC => Some "https://binance.llamarpc.com"
  | LlamaNodes, Polygon => Some "https://polygon.llamarpc.com"
  | LlamaNodes, Optimism => Some "https://optimism.llamarpc.com"
  | LlamaNodes, Base_ => Some "https://base.llamarpc.com"
  | LlamaNodes, _ => None
  end%string.

Definition url (keys : Keys) (p : Provider) (n : EvmNetwork) : text :=
  match base_url p n with Some b => get_url_with_api_key keys p b | None => [] end.

Lemma all_urls keys n : rs_urls (all_providers keys n) = map (fun p => url keys p n) (get_providers n).
Proof. destruct n; reflexivity. Qed.
Lemma ankr_url keys n : rs_urls (get_one_provider_ankr keys n) = [url keys Ankr n].
Proof. destruct n; reflexivity. Qed.
Lemma public_url keys n : rs_urls (get_one_provider_public_node keys n) = [url keys PublicNode n].
Proof. destruct n; reflexivity. Qed.
Lemma services_chain keys n : rs_chain_id (all_providers keys n) = chain_id n /\
  rs_chain_id (get_one_provider_ankr keys n) = chain_id n /\ rs_chain_id (get_one_provider_public_node keys n) = chain_id n.
Proof. destruct n; repeat split. Qed.

Fixpoint meets (a b : text) : bool :=
  match a, b with x :: a', y :: b' => (x =? y) && meets a' b' | _, _ => true end.
Lemma meets_app a b x y : a ++ x = b ++ y -> meets a b = true.
Proof.
  revert b. induction a as [|c a IH]; intros [|d b] H; cbn; auto. cbn in H. injection H as -> H. rewrite N.eqb_refl. cbn. exact (IH _ H).
Qed.

Definition providers := [Ankr; LlamaNodes; PublicNode].
Definition networks := [Ethereum; Sepolia; ArbitrumOne; BSC; BSCTestnet; Polygon; Optimism; Base_; Avalanche; Fantom].
Lemma in_providers p : In p providers. Proof. destruct p; cbn; auto. Qed.
Lemma in_networks n : In n networks. Proof. destruct n; cbn; auto 12. Qed.

Definition same_base (p : Provider) (n : EvmNetwork) (q : Provider) (m : EvmNetwork) : bool :=
  match base_url p n, base_url q m with
  | Some a, Some b => if provider_eqb p q then bytes_eqb (text_of a) (text_of b) else meets (text_of a) (text_of b)
  | _, _ => false
  end.
Definition told_apart : bool :=
  forallb (fun p => forallb (fun n => forallb (fun q => forallb (fun m =>
    negb (same_base p n q m) || (provider_eqb p q && network_eqb n m)) networks) providers) networks) providers.
Lemma told_apart_true : told_apart = true. Proof. vm_compute. reflexivity. Qed.
Lemma provider_eqb_eq p q : provider_eqb p q = true <-> p = q.
Proof. destruct p, q; split; intros H; try reflexivity; discriminate H. Qed.

Lemma url_inj keys p n q m : base_url p n <> None -> base_url q m <> None -> url keys p n = url keys q m -> p = q /\ n = m.
Proof.
  intros Hp Hq H. pose proof told_apart_true as T. unfold told_apart in T.
  rewrite forallb_forall in T. specialize (T p (in_providers p)). rewrite forallb_forall in T. specialize (T n (in_networks n)).
  rewrite forallb_forall in T. specialize (T q (in_providers q)). rewrite forallb_forall in T. specialize (T m (in_networks m)).
  assert (Hs : same_base p n q m = true).
  { unfold same_base, url in *. destruct (base_url p n) as [a|]; [|congruence]. destruct (base_url q m) as [b|]; [|congruence].
    unfold get_url_with_api_key in H. destruct (provider_eqb p q) eqn:E.
    - apply provider_eqb_eq in E. subst q. apply bytes_eqb_eq. destruct (keys p); [|exact H].
      apply app_inv_tail in H. exact H.
    - destruct (keys p), (keys q).
      + exact (meets_app _ _ _ _ H).
      + apply (meets_app _ _ (text_of "/" ++ t) []). rewrite app_nil_r. exact H.
      + apply (meets_app _ _ [] (text_of "/" ++ t)). rewrite app_nil_r. exact H.
      + apply (meets_app _ _ [] []). rewrite !app_nil_r. exact H. }
  rewrite Hs in T. cbn in T. apply andb_true_iff in T as [T1 T2]. split; [apply provider_eqb_eq, T1|apply network_eqb_eq, T2].
Qed.

Lemma provider_base p n : In p (get_providers n) -> base_url p n <> None.
Proof. destruct n, p; cbn; intros H; try discriminate; repeat (destruct H as [H|H]; [discriminate H|]); destruct H. Qed.
Lemma url_https keys p n : base_url p n <> None -> begins (text_of "https://") (url keys p n).
Proof.
  intros H. unfold url. destruct (base_url p n) as [b|] eqn:E; [|congruence]. clear H.
  assert (Hb : exists r, text_of b = text_of "https://" ++ r).
  { destruct p, n; cbn in E; try discriminate E; injection E as <-; eexists; vm_compute; reflexivity. }
  destruct Hb as (r & Hb). unfold get_url_with_api_key. rewrite Hb. destruct (keys p); [|exists r; reflexivity].
  exists (r ++ text_of "/" ++ t). rewrite <- !app_assoc. reflexivity.
Qed.

Lemma url_nodup keys n ps : NoDup ps -> (forall p, In p ps -> base_url p n <> None) -> NoDup (map (fun p => url keys p n) ps).
Proof.
  induction 1 as [|p ps Hp _ IH]; intros Hb; cbn; constructor.
  - intros Hin. apply in_map_iff in Hin as (q & E & Hq). apply url_inj in E as [-> _]; [exact (Hp Hq)| |]; apply Hb; cbn; auto.
  - apply IH. intros q Hq. apply Hb. right. exact Hq.
Qed.

Definition name_of (p : Provider) (n : EvmNetwork) : string :=
  match p, n with
  | Ankr, Ethereum => "eth" | Ankr, Sepolia => "eth_sepolia" | Ankr, ArbitrumOne => "arbitrum" | Ankr, BSC => "bsc"
  | Ankr, BSCTestnet => "bsc_testnet_chapel" | Ankr, Polygon => "polygon" | Ankr, Optimism => "optimism" | Ankr, Base_ => "base"
  | Ankr, Avalanche => "avalanche" | Ankr, Fantom => "fantom"
  | PublicNode, Ethereum => "ethereum" | PublicNode, Sepolia => "ethereum-sepolia" | PublicNode, ArbitrumOne => "arbitrum-one"
  | PublicNode, BSC => "bsc" | PublicNode, BSCTestnet => "bsc-testnet" | PublicNode, Polygon => "polygon-bor"
  | PublicNode, Optimism => "optimism" | PublicNode, Base_ => "base" | PublicNode, Avalanche => "avalanche-c-chain"
  | PublicNode, Fantom => "fantom"
  | LlamaNodes, Ethereum => "eth" | LlamaNodes, ArbitrumOne => "arbitrum" | LlamaNodes, BSC => "binance"
  | LlamaNodes, Polygon => "polygon" | LlamaNodes, Optimism => "optimism" | LlamaNodes, Base_ => "base"
  | LlamaNodes, _ => ""
  end%string.
Lemma no_slash p n : ~ In 47 (text_of (name_of p n)).
Proof. destruct p, n; vm_compute; intuition discriminate. Qed.
Lemma url_own keys p n : base_url p n <> None -> own_url keys p (url keys p n).
Proof.
  intros H. exists (text_of (name_of p n)). split; [apply no_slash|]. unfold url.
  destruct (base_url p n) as [b|] eqn:E; [|congruence]. clear H.
  assert (Hb : text_of b = host_of p (text_of (name_of p n))).
  { destruct p, n; cbn in E; try discriminate E; injection E as <-; vm_compute; reflexivity. }
  unfold get_url_with_api_key. rewrite Hb. destruct (keys p); [reflexivity|rewrite app_nil_r; reflexivity].
Qed.

Definition services_of (f : Keys -> EvmNetwork -> RpcServices) : Prop :=
  f = all_providers \/ f = get_one_provider_ankr \/ f = get_one_provider_public_node.

Lemma services_urls f keys n u : services_of f -> In u (rs_urls (f keys n)) ->
  exists p, In p (get_providers n) /\ u = url keys p n.
Proof.
  intros [-> | [-> | ->]]; rewrite ?all_urls, ?ankr_url, ?public_url; intros H.
  - apply in_map_iff in H as (p & <- & Hp). eauto.
  - destruct H as [<-|[]]. exists Ankr. split; [destruct n; cbn; auto|reflexivity].
  - destruct H as [<-|[]]. exists PublicNode. split; [destruct n; cbn; auto|reflexivity].
Qed.
Lemma services_good f keys n : services_of f ->
  rs_chain_id (f keys n) = chain_id n /\ rs_urls (f keys n) <> [] /\ NoDup (rs_urls (f keys n)) /\
  (forall u, In u (rs_urls (f keys n)) -> begins (text_of "https://") u) /\
  (forall g m u, services_of g -> In u (rs_urls (f keys n)) -> In u (rs_urls (g keys m)) -> m = n).
Proof.
  intros Hf. split; [|split; [|split; [|split]]].
  - destruct Hf as [-> | [-> | ->]]; apply services_chain.
  - destruct Hf as [-> | [-> | ->]]; rewrite ?all_urls, ?ankr_url, ?public_url; try discriminate. destruct n; discriminate.
  - destruct Hf as [-> | [-> | ->]]; rewrite ?all_urls, ?ankr_url, ?public_url; try (repeat constructor; cbn; tauto).
    apply url_nodup; [|exact (fun p => provider_base p n)]. apply (CodecFacts.two_providers n).
  - intros u Hu. destruct (services_urls _ _ _ _ Hf Hu) as (p & Hp & ->). apply url_https, provider_base, Hp.
  - intros g m u Hg Hu Hu'. destruct (services_urls _ _ _ _ Hf Hu) as (p & Hp & ->).
    destruct (services_urls _ _ _ _ Hg Hu') as (q & Hq & E). apply url_inj in E as [_ ->]; auto using provider_base.
Qed.

(** ** The canister that is called *)

Definition is_setup (e : EventType) : bool := match e with EvInit _ | EvUpgrade _ => true | _ => false end.
Lemma canister_event s e s' : is_setup e = false -> apply_state_transition s e = Done s' -> evm_canister_id s' = evm_canister_id s.
Proof.
  intros Hu H. destruct e; try discriminate Hu; cbn [apply_state_transition] in H; try discriminate;
    try (apply on_withdrawals_inv in H as (w & _ & ->); reflexivity);
    try (injection H as <-; reflexivity).
  - unfold record_event_to_mint, update_balance_upon_deposit in H. inv_res; reflexivity.
  - unfold record_invalid_deposit in H. inv_res. destruct (bmem _ (invalid_events s)); inv_res; reflexivity.
  - unfold record_successful_mint in H. inv_res. reflexivity.
  - unfold state_record_finalized_transaction in H. inv_res. apply update_balance_shape in H as (nb & eb & ->). reflexivity.
  - unfold record_add_erc20_token in H. inv_res. reflexivity.
  - unfold record_event_to_mint, update_balance_upon_deposit in H. inv_res; reflexivity.
  - unfold record_erc20_withdrawal_request in H. inv_res. reflexivity.
  - unfold record_successful_mint in H. inv_res. reflexivity.
  - injection H as <-. unfold record_quarantined_deposit. destruct (bmem _ _); reflexivity.
  - unfold record_skipped_block in H. inv_res. reflexivity.
Qed.
Definition rpc_is (s : State) (h : list EventType) : Prop := rpc_canister h = Some (evm_canister_id s).
Lemma rpc_snoc h e : rpc_canister (h ++ [e]) = match e with
    | EvInit _ => Some [0; 0; 0; 0; 0; 192; 88; 150; 1; 1]
    | EvUpgrade a => match ua_evm_rpc_id a with Some p => Some p | None => rpc_canister h end
    | _ => rpc_canister h
    end.
Proof. unfold rpc_canister. rewrite fold_left_app. reflexivity. Qed.
Lemma rpc_event s e s' h : rpc_is s h -> apply_state_transition s e = Done s' -> rpc_is s' (h ++ [e]).
Proof.
  unfold rpc_is. intros Hs H. rewrite rpc_snoc. destruct (is_setup e) eqn:E.
  - destruct e; try discriminate E; cbn [apply_state_transition] in H; [discriminate H|].
    destruct (upgrade a s) as [r|] eqn:Eu; [|discriminate H]. injection H as <-. apply upgrade_spec in Eu as (_ & _ & ->).
    unfold upgraded. cbn [evm_canister_id]. destruct (ua_evm_rpc_id a); [reflexivity|exact Hs].
  - rewrite (canister_event _ _ _ E H). destruct e; try discriminate E; exact Hs.
Qed.
Lemma rpc_init a s : state_of_init a = ROk s -> rpc_is s [EvInit a].
Proof. intros H. apply state_of_init_spec in H as (_ & h & Hh & -> & _). reflexivity. Qed.
Lemma rpc_replay log s : replay_events log = Done s -> rpc_is s (history log).
Proof.
  unfold replay_events. destruct log as [|e log]; [discriminate|]. destruct (ev_payload e) eqn:E; try discriminate.
  destruct (state_of_init a) as [s0|] eqn:E0; [|discriminate]. intros H.
  apply rpc_init in E0. unfold history. cbn [map]. rewrite E. change (EvInit a :: map ev_payload log) with ([EvInit a] ++ map ev_payload log).
  revert s0 E0 H. generalize [EvInit a]. induction log as [|x log IH]; intros h s0 Ha H; cbn [rfold map] in *.
  - injection H as <-. rewrite app_nil_r. auto.
  - apply rbind_done in H as (s1 & H1 & H). change (ev_payload x :: map ev_payload log) with ([ev_payload x] ++ map ev_payload log).
    rewrite app_assoc. apply (IH _ s1); auto. eapply rpc_event; eauto.
Qed.

(** ** Logs that are asked for *)

Lemma chunk_fields a tp ck c c' j : scrape_next_chunk a tp ck c = Done (c', Await (TScrapeLogs j)) -> sj_contract j = a /\ sj_topics j = tp.
Proof.
  unfold scrape_next_chunk. intros H. apply rbind_done in H as ([o ck'] & _ & H). destruct o; [|discriminate H].
  injection H as _ <-. auto.
Qed.
Lemma next_fields j q c c' j' : scrape_next j q c = Done (c', Await (TScrapeLogs j')) -> sj_contract j' = sj_contract j /\ sj_topics j' = sj_topics j.
Proof. unfold scrape_next. destruct q; [apply chunk_fields|]. intros H. injection H as _ <-. auto. Qed.

Lemma hashes_known w n m : wt_inv w -> sent_transactions_to_finalize n w = Done m ->
  forall h b, In (h, b) m -> exists k l t, row_sent w k b l /\ In t l /\ st_hash (rs_tx t) = h.
Proof.
  intros Hi H. unfold sent_transactions_to_finalize in H. apply rbind_done in H as (rows & Hr & H).
  set (f := flat_map _ _) in H.
  assert (Hf : forall h b, In (h, b) f -> exists k l t, row_sent w k b l /\ In t l /\ st_hash (rs_tx t) = h).
  { intros h b Hx. unfold f in Hx. apply in_flat_map in Hx as ([[k b'] l] & Hin & Hx). apply filter_In in Hin as [Hin _].
    apply in_map_iff in Hx as (t & E & Ht). cbn in E. injection E as <- <-. exists k, l, t. split; [|auto].
    eapply mkm_iter_rows in Hin; eauto using i_sent. }
  clearbody f. clear Hr.
  assert (G : forall acc, (forall x, In x acc -> In x acc \/ True) -> rfold add_hash_index acc f = Done m ->
    forall x, In x m -> In x acc \/ In x f).
  { clear. induction f as [|[hh id] f IH]; intros acc _ H x Hx; cbn in H.
    - injection H as <-. auto.
    - apply rbind_done in H as (acc' & H1 & H). unfold add_hash_index in H1. apply rbind_done in H1 as (_ & _ & H1). injection H1 as <-.
      destruct (IH _ (fun _ _ => or_intror Logic.I) H x Hx) as [K|K]; [|cbn; auto].
      assert (Hc : x = (hh, id) \/ In x acc).
      { clear -K. induction acc as [|[k1 v1] acc IH]; cbn in K.
        - destruct K as [K|[]]. auto.
        - destruct (N.compare hh k1); cbn in *; intuition auto. }
      cbn. destruct Hc; auto. }
  intros h b Hin. apply Hf. destruct (G [] (fun _ _ => or_intror Logic.I) H _ Hin) as [[]|K]. exact K.
Qed.

Section Asked.
Variable self : Principal.
Variable keccak : list N -> Hash.

Lemma rpc_reach (env : Sys -> Label -> Prop) s : reach self keccak env s -> rpc_is (sys_state s) (history (sys_log s)).
Proof.
  apply (reach_inv self keccak env (fun s => rpc_is (sys_state s) (history (sys_log s)))).
  - intros now a s0 H. apply sys_init_inv in H as (st & H1 & H2 & _). unfold sys_state, sys_log. rewrite H2. cbn [fst snd].
    apply rpc_init; auto.
  - intros s0 l s' IH _ H. unfold sys_state, sys_log in *. apply trans_wmicros in H as [(now & H)|(a & now & _ & _ & H)].
    + revert H IH. generalize (sys_core s0), (sys_core s').
      apply (wmicros_inv (step_emits keccak s0 l) now (fun c => rpc_is (fst c) (history (snd c)))).
      intros c c' Hc H. inversion H; subst; cbn [fst snd] in *.
      * destruct H0 as (v & ->). exact Hc.
      * rewrite history_snoc. eapply rpc_event; eauto.
      * exact Hc.
    + unfold canister_upgrade, post_upgrade in H. apply rbind_done in H as (st & H1 & H). apply rpc_replay in H1.
      destruct a as [x|].
      * apply process_event_inv in H as (s1 & Ha & ->). cbn [fst snd]. rewrite history_snoc. eapply rpc_event; eauto.
      * injection H as <-. exact H1.
Qed.

(** Where a waiting function comes from *)
Lemma new_task s l s' t : Trans self keccak s l s' -> running s' t -> running s t \/
  (exists now k, timer_start now k (sys_core s) = Done (sys_core s', Await t)) \/
  (exists now u, call_start now u (sys_core s) = Done (sys_core s', Await t)) \/
  (exists now t0 r, running s t0 /\ resume keccak now t0 r (sys_core s) = Done (sys_core s', Await t)).
Proof.
  intros H (i & x & Hg).
  destruct H as [|k now c nx Hc H|u now c nx Hc H|k now Hc|u now Hc|id t1 c b Hget Hcall Hallow|id t1 r Hget Hfit Hno|id now t1 r c nx Hc Hget H|id trap now t1 r c Hc Hget Hp H|a now c Hc Ht H].
  - left. exists i, x. exact Hg.
  - revert Hg. cbn [bump_next sys_tasks sys_core]. rewrite install_tasks, install_core'. destruct (keqb i (sys_next s)).
    + destruct nx; [|discriminate]. intros E. injection E as -> _. right; left. exists now, k. exact H.
    + intros Hg. left. exists i, x. exact Hg.
  - revert Hg. cbn [bump_next sys_tasks sys_core]. rewrite install_tasks, install_core'. destruct (keqb i (sys_next s)).
    + destruct nx; [|discriminate]. intros E. injection E as -> _. right; right; left. exists now, u. exact H.
    + intros Hg. left. exists i, x. exact Hg.
  - left. exists i, x. exact Hg.
  - left. exists i, x. exact Hg.
  - revert Hg. unfold answered. cbn [with_op with_tasks sys_tasks]. rewrite bget_insert. destruct (keqb i id).
    + intros E. injection E as -> _. left. exists id, None. exact Hget.
    + intros Hg. left. exists i, x. exact Hg.
  - revert Hg. unfold answered. cbn [with_op with_tasks sys_tasks]. rewrite bget_insert. destruct (keqb i id).
    + intros E. injection E as -> _. left. exists id, None. exact Hget.
    + intros Hg. left. exists i, x. exact Hg.
  - revert Hg. rewrite install_tasks. destruct (keqb i id).
    + destruct nx; [|discriminate]. intros E. injection E as -> _. right; right; right. exists now, t1, r. rewrite install_core'.
      split; [exists id, (Some r); exact Hget|exact H].
    + intros Hg. left. exists i, x. exact Hg.
  - revert Hg. rewrite install_tasks. destruct (keqb i id); [discriminate|]. intros Hg. left. exists i, x. exact Hg.
  - cbn in Hg. left. exists i, x. exact Hg.
Qed.

Definition fine (s : Sys) (t : Task) : Prop :=
  match t with
  | TScrapeLogs j => helper_contract_address (sys_state s) = Some (sj_contract j) /\
      exists cs, sj_topics j = [TopicSingle DEPOSIT_TOPIC; TopicMultiple (map address_to_word cs)] /\
        forall a, In a cs -> exists l y, listed (sys_state s) l a y
  | TRetrieveSend txs => forall x, In x txs -> exists b, In (EvSignedTransaction b x) (history (sys_log s))
  | TRetrieveReceipts m => forall h, In h (bkeys m) -> exists b x, In (EvSignedTransaction b x) (history (sys_log s)) /\ st_hash x = h
  | _ => True
  end.

Lemma helper_step s l s' : sys_tasks s <> [] -> Trans self keccak s l s' ->
  helper_contract_address (sys_state s') = helper_contract_address (sys_state s).
Proof.
  intros Hne H. apply trans_wmicros in H as [(now & H)|(a & now & _ & E & _)]; [|congruence].
  assert (Hu : forall e, step_emits keccak s l e -> forall a, e <> EvUpgrade a) by (intros e He a; exact (emits_no_upgrade keccak s l e a He)).
  unfold sys_state. revert H. generalize (sys_core s), (sys_core s').
  apply (wmicros_rel (step_emits keccak s l) now (fun c c' => helper_contract_address (fst c') = helper_contract_address (fst c))).
  - reflexivity.
  - intros; congruence.
  - intros c c' H. inversion H; subst; cbn [fst].
    + destruct H0 as (v & ->). reflexivity.
    + apply config_event in H1; [|apply Hu; assumption]. apply H1.
    + reflexivity.
Qed.

Lemma scraped_filter st sc : next_scrape st = Done sc -> helper_contract_address st = Some (sc_contract_address sc) /\
  sc_topics sc = [TopicSingle DEPOSIT_TOPIC; TopicMultiple (map address_to_word (dmkm_alt_keys (erc20_tokens st)))].
Proof.
  unfold next_scrape. intros H. apply rbind_done in H as (x & Hx & H). injection H as <-. split; [|reflexivity].
  cbn [sc_contract_address]. destruct (helper_contract_address st); [|discriminate Hx]. injection Hx as ->. reflexivity.
Qed.

Section Env.
Variable env : Sys -> Label -> Prop.
Hypothesis env_kept : forall s l, env s l -> nonce_kept s l.

Lemma logs_fine s now t r c' j : reach self keccak env s -> running s t -> fine s t ->
  resume keccak now t r (sys_core s) = Done (c', Await (TScrapeLogs j)) -> fine s (TScrapeLogs j).
Proof.
  intros Hr Hrun Hf H. pose proof (resume_logs self keccak _ _ _ _ _ _ H eq_refl) as Ht.
  destruct t; try discriminate Ht; destruct r; try discriminate H; cbn [resume] in H.
  - unfold scrape_block_reply in H.
    set (c1 := match r with Some number => (set_last_observed_block_number (observed_block (evm_network (fst (sys_core s))) number) (fst (sys_core s)), snd (sys_core s)) | None => sys_core s end) in H.
    assert (N1 : helper_contract_address (fst c1) = helper_contract_address (sys_state s) /\
                 erc20_tokens (fst c1) = erc20_tokens (sys_state s)) by (destruct r; split; reflexivity).
    destruct (last_observed_block_number (fst c1)) as [last|].
    + unfold scrape_until_block in H. apply rbind_done in H as (sc & Hs & H). apply rbind_done in H as (ck & _ & H).
      apply chunk_fields in H as [E1 E2]. apply scraped_filter in Hs as [E3 E4]. destruct N1 as [N1 N2]. cbn [fine].
      rewrite E1, E2, E4, <- N1, E3, N2. split; [reflexivity|]. eexists. split; [reflexivity|].
      intros a Ha. exact (alt_key_listed self keccak env s a Hr Ha).
    + destruct (_ <=? _); discriminate H.
  - cbn [fine] in *. enough (E : sj_contract j = sj_contract j0 /\ sj_topics j = sj_topics j0).
    { destruct E as [-> ->]. exact Hf. }
    unfold scrape_logs_reply in H. destruct (sj_current j0) as [from to]. destruct r.
    + apply rbind_done in H as ([ds es] & _ & H). apply rbind_done in H as (c1 & _ & H). exact (next_fields _ _ _ _ _ H).
    + destruct (from =? to); apply rbind_done in H as (c1 & _ & H); exact (next_fields _ _ _ _ _ H).
    + discriminate H.
Qed.

Lemma recorded w h k b l t : wt_inv w -> repr w h -> row_sent w k b l -> In t l -> In (EvSignedTransaction b (rs_tx t)) h.
Proof.
  intros Hi Hp Hrow Hin. apply attempt_event.
  assert (Hnf : ~ In b (map fst (finalizations h))).
  { intros Hf. apply in_map_fst in Hf as (rc & Hf). apply (p_fin_all _ _ Hp) in Hf as (f & Hf & _).
    destruct (get_alt_row _ _ _ (i_fin _ Hi) Hf) as (k' & Hr'). apply (i_fin_excl _ Hi) in Hr'.
    destruct Hr' as (_ & _ & _ & Hr'). destruct Hrow as [_ Hrow]. congruence. }
  pose proof (p_sent _ _ Hp b Hnf) as E. destruct Hrow as [_ Hrow]. rewrite Hrow in E. cbn in E. symmetry in E.
  apply nonempty_some in E as [E _]. rewrite <- E. apply in_map. auto.
Qed.

Lemma fine_step s l t : reach self keccak env s -> env s l -> (forall t, running s t -> fine s t) ->
  running (step self keccak s l) t -> fine (step self keccak s l) t.
Proof.
  intros Hr He IH Hrun.
  assert (Hr' : reach self keccak env (step self keccak s l)) by (constructor; auto).
  pose proof (fun a c y => step_listed self keccak env s l a c y Hr) as Hl.
  pose proof (step_trans self keccak s l) as H.
  remember (step self keccak s l) as s' eqn:Es. clear Es.
  destruct (reach_wlog self keccak env env_kept s' Hr') as (Hk' & Hp' & _).
  destruct (reach_wlog self keccak env env_kept s Hr) as (Hk & Hp & _).
  destruct (LogFacts.trans_grows keccak self _ _ _ H) as (es & Eg & _).
  assert (Hgrow : forall e, In e (history (sys_log s)) -> In e (history (sys_log s'))).
  { intros e Hin. rewrite Eg. unfold history in *. rewrite map_app, in_app_iff. auto. }
  assert (Hkeep : forall t0, running s t0 -> fine s t -> fine s' t).
  { intros t0 (i & x & Hg) Hf. destruct t; cbn [fine] in *; auto.
    - destruct Hf as (E & cs & Et & Hcs). split.
      + rewrite (helper_step s l s'); auto. intros E0. rewrite E0 in Hg. discriminate Hg.
      + exists cs. split; [exact Et|]. intros a Ha. destruct (Hcs a Ha) as (ld & y & Hy). exists ld, y. apply Hl, Hy.
    - intros x0 Hx. destruct (Hf x0 Hx) as (b & Hb). eauto.
    - intros h Hh. destruct (Hf h Hh) as (b & x0 & Hb & E). eauto. }
  destruct (new_task _ _ _ _ H Hrun) as [K|[(now & k & K)|[(now & u & K)|(now & t0 & r & Hrun0 & K)]]].
  - exact (Hkeep _ K (IH _ K)).
  - destruct t; try exact Logic.I; apply timer_after in K; destruct K.
  - destruct t; try exact Logic.I; apply (call_after keccak) in K; apply call_next_task in K; destruct K.
  - destruct t; try exact Logic.I.
    + apply (Hkeep _ Hrun0). exact (logs_fine _ _ _ _ _ _ Hr Hrun0 (IH _ Hrun0) K).
    + apply resume_after in K. destruct K as (_ & n & Hb). intros x Hx. exact (sent_in_history _ _ _ _ _ Hk' Hp' Hb Hx).
    + apply (Hkeep _ Hrun0). apply resume_after in K. destruct K as (_ & _ & n & _ & Hb). intros h Hh.
      apply in_map_iff in Hh as ([h' b] & E & Hin). cbn in E. subst h'.
      destruct (hashes_known _ _ _ (core_wt _ _ Hk) Hb _ _ Hin) as (k & l0 & x & Hrow & Hx & E).
      exists b, (rs_tx x). split; [|exact E]. exact (recorded _ _ _ _ _ _ (core_wt _ _ Hk) Hp Hrow Hx).
Qed.

Lemma fine_reach s : reach self keccak env s -> forall t, running s t -> fine s t.
Proof.
  induction 1 as [now a s H|s l Hr IH He]; intros t Hrun.
  - apply sys_init_inv in H as (st & _ & _ & Ht & _). destruct Hrun as (i & x & Hg). rewrite Ht in Hg. discriminate Hg.
  - exact (fine_step _ _ _ Hr He IH Hrun).
Qed.
End Env.

Lemma requests_own keys minter s t q : reach self keccak asking_env s -> running s t ->
  In q (requests keys minter (sys_state s) t) -> own_question minter s (rq_question q).
Proof.
  intros Hr Hrun Hq.
  pose proof (fine_reach asking_env (fun s l H => proj1 H) s Hr t Hrun) as Hf.
  pose proof (scr_reach self keccak asking_env s (fun s l H => proj2 H) Hr) as Hs.
  destruct (ag_config _ _ (agrees_reach self keccak asking_env s Hr)) as (c & Hc & _ & _ & _ & Hh & _ & _ & _ & Hb).
  exists c. split; [exact Hc|]. destruct t; cbn [requests] in Hq; try (destruct Hq as []; fail).
  - destruct Hq as [<-|[]]. cbn [ask rq_question]. rewrite Hb. reflexivity.
  - destruct Hq as [<-|[]]. cbn [ask rq_question]. destruct Hf as (E & cs & Et & Hcs). destruct Hrun as (i & x & Hg).
    destruct (so_job _ Hs _ _ _ Hg) as (target & _ & [J1 J2 _ J4]).
    exists (fst (sj_current j)), (snd (sj_current j)), (sj_contract j), cs.
    split; [reflexivity|split; [reflexivity|split; [|split; [reflexivity|split; [|split; [split|split]]]]]].
    + rewrite Hh. exact E.
    + exact J1.
    + exact J2.
    + destruct J4 as (e & Ht & Hw & _). unfold MAX_BLOCK_SPREAD in Hw. rewrite J1.
      destruct (sj_current j) as [f t]. cbn [fst snd] in *. destruct Ht as (_ & _ & Ht & _). lia.
    + rewrite Et. cbn [into_evm_topic map]. f_equal.
    + exact Hcs.
  - destruct Hq as [<-|[]]. repeat split.
  - destruct Hq as [<-|[]]. split; [reflexivity|discriminate].
  - apply in_map_iff in Hq as (x & <- & Hx). cbn [ask rq_question]. destruct (Hf x Hx) as (b & Hin). exists b, x. split; [exact Hin|reflexivity].
  - destruct Hq as [<-|[]]. split; [reflexivity|discriminate].
  - apply in_map_iff in Hq as (h & <- & Hh'). cbn [ask rq_question]. destruct (Hf h Hh') as (b & x & Hin & <-). exists b, x. split; [exact Hin|reflexivity].
  - destruct Hq as [<-|[]]. repeat split.
  - destruct Hq as [<-|[]]. repeat split.
Qed.

Lemma requests_whom env keys minter s t q : reach self keccak env s -> In q (requests keys minter (sys_state s) t) ->
  rpc_canister (history (sys_log s)) = Some (rq_canister q) /\
  exists f c, services_of f /\ configured (history (sys_log s)) = Some c /\ rq_services q = f keys (cf_network c).
Proof.
  intros Hr Hq. rewrite (rpc_reach env s Hr).
  destruct (ag_config _ _ (agrees_reach self keccak env s Hr)) as (c & Hc & Hn & _).
  assert (G : exists f qu, services_of f /\ q = ask f keys (sys_state s) qu).
  { destruct t; cbn [requests] in Hq; try (destruct Hq as []; fail);
      try (destruct Hq as [<-|[]]; eexists; eexists; split; [|reflexivity]; unfold services_of; auto; fail);
      apply in_map_iff in Hq as (x & <- & _); eexists; eexists; (split; [|reflexivity]); unfold services_of; auto. }
  destruct G as (f & qu & Hf & ->). split; [reflexivity|]. exists f, c. rewrite Hn. auto.
Qed.

Lemma asked_of env keys minter s t q : reach self keccak env s -> In q (requests keys minter (sys_state s) t) ->
  rpc_canister (history (sys_log s)) = Some (rq_canister q) /\
  exists c, configured (history (sys_log s)) = Some c /\
    rs_chain_id (rq_services q) = chain_id (cf_network c) /\
    rs_urls (rq_services q) <> [] /\ NoDup (rs_urls (rq_services q)) /\
    (shared (rq_question q) = true -> (2 <= List.length (rs_urls (rq_services q)))%nat) /\
    forall u, In u (rs_urls (rq_services q)) -> begins (text_of "https://") u /\ exists p, own_url keys p u.
Proof.
  intros Hr Hq. destruct (requests_whom env keys minter s t q Hr Hq) as (H1 & f & c & Hf & Hc & Hs). split; [exact H1|].
  exists c. split; [exact Hc|]. destruct (services_good f keys (cf_network c) Hf) as (G1 & G2 & G3 & G4 & _).
  rewrite Hs. split; [exact G1|]. split; [exact G2|]. split; [exact G3|]. split.
  - intros Hm. rewrite <- Hs. clear f Hf Hs G1 G2 G3 G4.
    assert (E : rq_services q = all_providers keys (evm_network (sys_state s))).
    { destruct t; cbn [requests] in Hq; try (destruct Hq as []; fail);
        try (destruct Hq as [<-|[]]; first [discriminate Hm|reflexivity]);
        apply in_map_iff in Hq as (x & <- & _); reflexivity. }
    rewrite E, all_urls, map_length. apply (CodecFacts.two_providers (evm_network (sys_state s))).
  - intros u Hu. split; [exact (G4 u Hu)|]. destruct (services_urls _ _ _ _ Hf Hu) as (p & Hp & ->). exists p.
    apply url_own, provider_base, Hp.
Qed.

(** ** The tokens asked for *)
Lemma same_id env s l s' id f f' : reach self keccak env s -> Trans self keccak s l s' ->
  bget id (sys_tasks s) = Some f -> bget id (sys_tasks s') = Some f' ->
  fl_task f' = fl_task f \/
  exists now r, resume keccak now (fl_task f) r (sys_core s) = Done (sys_core s', Await (fl_task f')).
Proof.
  intros Hr H Hf Hg.
  assert (Hn : id <> sys_next s).
  { intros ->. rewrite (fresh_id self keccak s (ids_reach self keccak env s Hr)) in Hf. discriminate Hf. }
  destruct H as [|k now c nx Hc H|u now c nx Hc H|k now Hc|u now Hc|id1 t1 c b Hget Hcall Hallow|id1 t1 r Hget Hfit Hno|id1 now t1 r c nx Hc Hget H|id1 trap now t1 r c Hc Hget Hp H|a now c Hc Ht H].
  - left. rewrite Hf in Hg. injection Hg as <-. reflexivity.
  - revert Hg. cbn [bump_next sys_tasks]. rewrite install_tasks. destruct (keqb_spec id (sys_next s)) as [E|_]; [destruct (Hn E)|].
    intros E. change (bget id (sys_tasks s) = Some f') in E. rewrite Hf in E. injection E as <-. left. reflexivity.
  - revert Hg. cbn [bump_next sys_tasks]. rewrite install_tasks. destruct (keqb_spec id (sys_next s)) as [E|_]; [destruct (Hn E)|].
    intros E. change (bget id (sys_tasks s) = Some f') in E. rewrite Hf in E. injection E as <-. left. reflexivity.
  - left. cbn in Hg. rewrite Hf in Hg. injection Hg as <-. reflexivity.
  - left. cbn in Hg. rewrite Hf in Hg. injection Hg as <-. reflexivity.
  - left. revert Hg. unfold answered. cbn [with_op with_tasks sys_tasks]. rewrite bget_insert. destruct (keqb_spec id id1) as [->|_].
    + rewrite Hget in Hf. injection Hf as <-. intros E. injection E as <-. reflexivity.
    + intros E. change (bget id (sys_tasks s) = Some f') in E. rewrite Hf in E. injection E as <-. reflexivity.
  - left. revert Hg. unfold answered. cbn [with_op with_tasks sys_tasks]. rewrite bget_insert. destruct (keqb_spec id id1) as [->|_].
    + rewrite Hget in Hf. injection Hf as <-. intros E. injection E as <-. reflexivity.
    + intros E. change (bget id (sys_tasks s) = Some f') in E. rewrite Hf in E. injection E as <-. reflexivity.
  - revert Hg. rewrite install_tasks. destruct (keqb_spec id id1) as [->|_].
    + destruct nx; [|discriminate]. intros E. injection E as <-. rewrite Hget in Hf. injection Hf as <-. right. exists now, r.
      rewrite install_core'. exact H.
    + intros E. change (bget id (sys_tasks s) = Some f') in E. rewrite Hf in E. injection E as <-. left. reflexivity.
  - left. revert Hg. rewrite install_tasks. destruct (keqb_spec id id1) as [->|_]; [discriminate|].
    intros E. change (bget id (sys_tasks s) = Some f') in E. rewrite Hf in E. injection E as <-. reflexivity.
  - rewrite Ht in Hf. discriminate Hf.
Qed.

Lemma first_filter env keys minter s l id f f' q :
  reach self keccak env s -> env s l ->
  bget id (sys_tasks s) = Some f -> (forall q, In q (requests keys minter (sys_state s) (fl_task f)) -> filter_of (rq_question q) = None) ->
  bget id (sys_tasks (step self keccak s l)) = Some f' ->
  In q (requests keys minter (sys_state (step self keccak s l)) (fl_task f')) ->
  forall addresses topics, filter_of (rq_question q) = Some (addresses, topics) ->
  exists tokens, topics = [[DEPOSIT_TOPIC]; map (fun a => repeat 0 12 ++ be_bytes 20 a) tokens] /\
    forall a, In a tokens <-> exists ledger symbol, listed (sys_state (step self keccak s l)) ledger a symbol.
Proof.
  intros Hr He Hf Hnone Hg Hq addresses topics Hfil.
  assert (Hr' : reach self keccak env (step self keccak s l)) by (constructor; auto).
  pose proof (step_trans self keccak s l) as H. remember (step self keccak s l) as s' eqn:Es. clear Es.
  destruct (same_id _ _ _ _ _ _ _ Hr H Hf Hg) as [E|(now & r & K)].
  - exfalso. rewrite E in Hq. destruct (fl_task f) eqn:Ef; cbn [requests] in Hq; try (destruct Hq as []; fail);
      try (destruct Hq as [<-|[]]; cbn in Hfil; discriminate Hfil);
      try (apply in_map_iff in Hq as (x & <- & _); cbn in Hfil; discriminate Hfil).
    cbn [requests] in Hnone. specialize (Hnone _ (or_introl eq_refl)). discriminate Hnone.
  - destruct (fl_task f') eqn:Ef'; cbn [requests] in Hq; try (destruct Hq as []; fail);
      try (destruct Hq as [<-|[]]; cbn in Hfil; discriminate Hfil);
      try (apply in_map_iff in Hq as (x & <- & _); cbn in Hfil; discriminate Hfil).
    destruct Hq as [<-|[]]. cbn [ask rq_question filter_of] in Hfil. injection Hfil as _ <-.
    pose proof (resume_logs self keccak _ _ _ _ _ _ K eq_refl) as Ht.
    destruct (fl_task f) eqn:Ef; try discriminate Ht; [|specialize (Hnone _ (or_introl eq_refl)); discriminate Hnone].
    destruct r; try discriminate K; cbn [resume] in K. unfold scrape_block_reply in K.
    match type of K with match last_observed_block_number (fst ?x) with _ => _ end = _ => set (c1 := x) in K end.
    destruct (last_observed_block_number (fst c1)) as [last|]; [|destruct (_ <=? _); discriminate K].
    unfold scrape_until_block in K. apply rbind_done in K as (sc & Hs & K). apply rbind_done in K as (ck & _ & K).
    assert (Ec : sys_state s' = fst c1).
    { unfold scrape_next_chunk in K. apply rbind_done in K as ([o ck'] & _ & K). destruct o; [|discriminate K].
      injection K as K _. unfold sys_state. rewrite <- K. reflexivity. }
    apply chunk_fields in K as [_ E2]. apply scraped_filter in Hs as [_ E4]. rewrite E2, E4, <- Ec.
    eexists. split; [reflexivity|]. intros a. split.
    + apply (alt_key_listed self keccak env s' a Hr').
    + intros (ld & y & Hy). exact (listed_alt_key self keccak env s' _ _ _ Hr' Hy).
Qed.

Lemma next_filter env keys minter s l id f f' q q' x x' :
  reach self keccak env s ->
  bget id (sys_tasks s) = Some f -> In q (requests keys minter (sys_state s) (fl_task f)) -> filter_of (rq_question q) = Some x ->
  bget id (sys_tasks (step self keccak s l)) = Some f' ->
  In q' (requests keys minter (sys_state (step self keccak s l)) (fl_task f')) -> filter_of (rq_question q') = Some x' ->
  x' = x.
Proof.
  intros Hr Hf Hq Hx Hg Hq' Hx'.
  pose proof (step_trans self keccak s l) as H. remember (step self keccak s l) as s' eqn:Es. clear Es.
  assert (G : forall st t p y, In p (requests keys minter st t) -> filter_of (rq_question p) = Some y ->
    exists j, t = TScrapeLogs j /\ y = ([sj_contract j], into_evm_topic (sj_topics j))).
  { clear. intros st t p y Hp Hy. destruct t; cbn [requests] in Hp; try (destruct Hp as []; fail);
      try (destruct Hp as [<-|[]]; cbn in Hy; discriminate Hy);
      try (apply in_map_iff in Hp as (z & <- & _); cbn in Hy; discriminate Hy).
    destruct Hp as [<-|[]]. cbn [ask rq_question filter_of] in Hy. injection Hy as <-. exists j. split; reflexivity. }
  destruct (G _ _ _ _ Hq Hx) as (j & Ej & ->). destruct (G _ _ _ _ Hq' Hx') as (j' & Ej' & ->).
  destruct (same_id _ _ _ _ _ _ _ Hr H Hf Hg) as [E|(now & r & K)].
  - rewrite Ej, Ej' in E. injection E as ->. reflexivity.
  - rewrite Ej, Ej' in K. enough (E : sj_contract j' = sj_contract j /\ sj_topics j' = sj_topics j) by (destruct E as [-> ->]; reflexivity).
    destruct r; try discriminate K. cbn [resume] in K.
    unfold scrape_logs_reply in K. destruct (sj_current j) as [from to]. destruct r.
    + apply rbind_done in K as ([ds es] & _ & K). apply rbind_done in K as (c1 & _ & K). exact (next_fields _ _ _ _ _ K).
    + destruct (from =? to); apply rbind_done in K as (c1 & _ & K); exact (next_fields _ _ _ _ _ K).
    + discriminate K.
Qed.
End Asked.

Lemma one_network self keccak env minter s t q self' keccak' env' minter' s' t' q' keys u c c' :
  reach self keccak env s -> In q (requests keys minter (sys_state s) t) -> In u (rs_urls (rq_services q)) ->
  reach self' keccak' env' s' -> In q' (requests keys minter' (sys_state s') t') -> In u (rs_urls (rq_services q')) ->
  configured (history (sys_log s)) = Some c -> configured (history (sys_log s')) = Some c' ->
  cf_network c = cf_network c'.
Proof.
  intros Hr Hq Hu Hr' Hq' Hu' Hc Hc'.
  destruct (requests_whom self keccak env keys minter s t q Hr Hq) as (_ & f & c1 & Hf & Hc1 & Hs).
  destruct (requests_whom self' keccak' env' keys minter' s' t' q' Hr' Hq') as (_ & g & c2 & Hg & Hc2 & Hs').
  rewrite Hc in Hc1. injection Hc1 as <-. rewrite Hc' in Hc2. injection Hc2 as <-.
  destruct (services_good f keys (cf_network c) Hf) as (_ & _ & _ & _ & G). rewrite Hs in Hu. rewrite Hs' in Hu'.
  symmetry. exact (G g (cf_network c') u Hg Hu Hu').
Qed.
