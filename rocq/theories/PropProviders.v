(** * C79: one provider that lies or fails *)

From Coq Require Import Permutation.
From Verif Require Import Base BMap MultiKeyMap Bytes Types Amount Tx CallData Network Hex
  Transactions State Audit Ranges Rlp Parser Memo Driver Rpc Sys SysSpec SysFacts GuardSpec WithdrawSpec DepositSpec
  TokenSpec ReimburseSpec BurnSpec BalanceSpec SolvencySpec FeeSpec ScrapeSpec CallSpec ParserSpec Contract ContractSpec FundsSpec
  Ledger LedgerSpec LedgerFacts LedgerRun RpcSpec RpcFacts FundsFacts ProviderSpec ProviderFacts Scenario PropRpc PropScrape PropContract
  PropFunds PropLedger.

(** ** One answer *)

(** Logs and receipts that are used are true, and so is it that there is no receipt, if at
    most one of the providers of the network lies. *)
Theorem C79_logs :
  forall net is_true m l, asked_all net is_true m -> logs_reply m = LogsOk l -> is_true l.
Proof. intros net is_true m l H E. exact (agreed_true is_true net m l H (proj1 (logs_reply_ok m l) E)). Qed.
Print Assumptions C79_logs.

Theorem C79_receipt :
  forall net is_true m r, asked_all net is_true m -> receipt_reply m = Done (ReceiptOk r) ->
    exists e, is_true (Some e) /\ receipt_is e r.
Proof.
  intros net is_true m r H E. apply C46_receipt in E as (e & Ha & He). exists e. split; [|exact He].
  exact (agreed_true is_true net m (Some e) H Ha).
Qed.
Print Assumptions C79_receipt.

Theorem C79_no_receipt :
  forall net is_true m, asked_all net is_true m -> receipt_reply m = Done ReceiptMissing -> is_true None.
Proof. intros net is_true m H E. apply C46_no_receipt in E. exact (agreed_true is_true net m None H E). Qed.
Print Assumptions C79_no_receipt.

(** Where there are three providers, logs are found although one of them fails; *)
Theorem C79_one_fails :
  forall net said rs l p e, List.length (get_providers net) = 3%nat ->
    gathered (get_providers net) said (Inconsistent rs) -> said p = RErr e -> (forall q, q <> p -> said q = ROk l) ->
    logs_reply (Inconsistent rs) = LogsOk l.
Proof.
  intros net said rs l p e H3 Hg Hp Hq. apply logs_reply_ok.
  exact (one_fails net said rs l p e H3 Hg Hp Hq).
Qed.
Print Assumptions C79_one_fails.

(** on Sepolia, Avalanche, Fantom and the BSC test network there are only two, and none may
    fail. *)
Theorem C79_one_fails_refuted :
  exists net said rs l p e, gathered (get_providers net) said (Inconsistent rs) /\ In p (get_providers net) /\
    said p = RErr e /\ (forall q, q <> p -> said q = ROk l) /\ logs_reply (Inconsistent rs) = LogsErr.
Proof.
  exists Avalanche, (fun p => match p with Ankr => RErr (JsonErr 3 []) | _ => ROk [] end),
    [(1, RErr (JsonErr 3 [])); (2, ROk [])], [], Ankr, (JsonErr 3 []).
  split; [apply Permutation_refl|]. split; [left; reflexivity|]. split; [reflexivity|].
  split; [intros [] H; try reflexivity; contradiction|vm_compute; reflexivity].
Qed.
Print Assumptions C79_one_fails_refuted.

(** ** Histories *)

Lemma together_weaken self keccak (env env' : Sys -> Label -> Prop) s ls : (forall x l, env x l -> env' x l) ->
  together self keccak env s ls -> together self keccak env' s ls.
Proof.
  intros He. induction 1.
  - eapply to_start; eauto.
  - apply to_minter; auto.
  - eapply to_ledger; eauto.
  - eapply to_others; eauto.
Qed.
Lemma one_liar_truthful ms xs s l : one_liar_env ms xs s l -> truthful_env ms s l.
Proof. intros [Hn Ho]. split; [exact Hn|exact (one_liar_reports ms xs s l Ho)]. Qed.

(** Every deposit that the minter accepted was made. *)
Theorem C79_was_made :
  forall self keccak v w hs xs s d, all_proper v hs -> reach self keccak (one_liar (emitted v w hs) xs) s ->
    deposit_accepted (sys_log s) d ->
    exists c block p, In (ByHelper (dep_source d) block c) hs /\ holds_principal (dc_principal c) p /\ owner_principal p /\
      d = deposit_of (call_deposit c p) block (fst (dep_source d)) (snd (dep_source d)).
Proof.
  intros self keccak v w hs xs s d Hp Hr. apply (C74_was_made self keccak v w hs s d Hp). revert Hr. apply reach_weaken.
  intros x l H. exact (one_liar_reports _ xs x l H).
Qed.
Print Assumptions C79_was_made.

(** Every withdrawal that is recorded as finalized was mined, with this outcome and fee. *)
Theorem C79_was_mined :
  forall self keccak ms xs s x, reach self keccak (one_liar_env ms xs) s -> hashes_differ (history (sys_log s)) ->
    on_the_chain (history (sys_log s)) xs -> In x (settlements (history (sys_log s))) ->
    In {| xn_tx := se_signed x; xn_ok := mined_ok x; xn_gas := gas_fee x |} xs.
Proof. intros self keccak ms xs s x Hr Hd Hx. exact (xd_receipts _ _ (one_liar_executed self keccak ms xs s Hr Hd Hx) x). Qed.
Print Assumptions C79_was_mined.

(** The minter's address holds all tokens in circulation, and what is still to be minted, to
    be paid and to be reimbursed. *)
Theorem C79_native :
  forall self keccak v w wes s ls xs now hs, lawful v -> all_proper v wes ->
    together self keccak (one_liar_env (emitted v w wes) xs) s ls -> hashes_differ (history (sys_log s)) ->
    on_the_chain (history (sys_log s)) xs -> native_apart (sys_state s) ->
    took v Native w wes xs now -> arrived v Native w wes < 2 ^ 256 - 1 -> NoDup hs ->
    held_by hs (ls (native_ledger_id (sys_state s))) + to_mint Native s + sum_of (request_part Native) (to_pay (history (sys_log s)) xs) +
      to_repay Native s <= holds v Native now.
Proof.
  intros self keccak v w wes s ls xs now hs Hl Hp Ht Hd Hx Ha Hto Har Hn.
  pose proof (one_liar_executed self keccak _ xs s (C76_is_modelled self keccak _ s ls Ht) Hd Hx) as He.
  exact (C77_on_chain_native self keccak v w wes s ls xs now hs Hl Hp
           (together_weaken self keccak _ _ s ls (one_liar_truthful _ xs) Ht) He Ha Hto Har Hn).
Qed.
Print Assumptions C79_native.

Theorem C79_token :
  forall self keccak v w wes s ls xs now hs contract ledger symbol, lawful v -> all_proper v wes ->
    together self keccak (one_liar_env (emitted v w wes) xs) s ls -> hashes_differ (history (sys_log s)) ->
    on_the_chain (history (sys_log s)) xs ->
    listed (sys_state s) ledger contract symbol -> ledger <> native_ledger_id (sys_state s) ->
    standard v (Token contract ledger) -> took v (Token contract ledger) w wes xs now -> NoDup hs ->
    let a := Token contract ledger in
    held_by hs (ls ledger) + to_mint a s + sum_of (request_part a) (to_pay (history (sys_log s)) xs) + to_repay a s <= holds v a now.
Proof.
  intros self keccak v w wes s ls xs now hs c l sy Hl Hp Ht Hd Hx Hli Hne Hs Hto Hn a.
  pose proof (one_liar_executed self keccak _ xs s (C76_is_modelled self keccak _ s ls Ht) Hd Hx) as He.
  exact (C77_on_chain_token self keccak v w wes s ls xs now hs c l sy Hl Hp
           (together_weaken self keccak _ _ s ls (one_liar_truthful _ xs) Ht) He Hli Hne Hs Hto Hn).
Qed.
Print Assumptions C79_token.

(** ** Witnesses *)

(** One of three providers fails; one of three invents a deposit, and nothing is used. *)
Example C79_answer_witness :
  let fails : MultiRpc (list LogEntry) := Inconsistent [(0, RErr (JsonErr 3 [])); (1, ROk logs0); (2, ROk logs0)] in
  let lies : MultiRpc (list LogEntry) := Inconsistent [(0, ROk logs0); (1, ROk []); (2, ROk [])] in
  asked_all Ethereum (fun l => l = logs0) fails /\ logs_reply fails = LogsOk logs0 /\
  asked_all Ethereum (fun l => l = []) lies /\ logs_reply lies = LogsErr.
Proof.
  cbv zeta. split.
  { exists (fun p => match p with LlamaNodes => RErr (JsonErr 3 []) | _ => ROk logs0 end). split; [apply Permutation_refl|].
    exists LlamaNodes. intros [] x _ H E; try congruence; injection E; auto. }
  split; [vm_compute; reflexivity|]. split.
  { exists (fun p => match p with LlamaNodes => ROk logs0 | _ => ROk [] end). split; [apply Permutation_refl|].
    exists LlamaNodes. intros [] x _ H E; try congruence; injection E; auto. }
  vm_compute. reflexivity.
Qed.

Lemma all_say {T} net (is_true : T -> Prop) v : is_true v -> asked_all net is_true (Consistent (ROk v)).
Proof.
  intros H. exists (fun _ => ROk v). split; [intros p _; reflexivity|]. exists LlamaNodes. intros p x _ _ E. injection E as <-. exact H.
Qed.

(** all signed transactions *)
Definition signed_all (h : list EventType) : list SignedTx :=
  flat_map (fun e => match e with EvSignedTransaction _ t => [t] | _ => [] end) h.
Lemma signed_differ h : NoDup (map st_hash (signed_all h)) -> hashes_differ h.
Proof.
  intros Hn b b' t t' Ht Ht' E.
  assert (K : forall b t, In t (attempts h b) -> In t (signed_all h)).
  { intros c u Hu. unfold attempts in Hu. apply in_flat_map in Hu as (e & He & Hu). unfold signed_all. apply in_flat_map. exists e.
    split; [exact He|]. destruct e; try (destruct Hu; fail). cbn in Hu. destruct (_ =? _); [|destruct Hu]. exact Hu. }
  exact (key_inj st_hash _ t t' Hn (K b t Ht) (K b' t' Ht') E).
Qed.

Definition evm_receipt0 : EvmReceipt :=
  {| er_block_hash := 1; er_block_number := 110; er_effective_gas_price := 12; er_gas_used := 21000; er_status := Some 1;
     er_transaction_hash := hash_of (run0 up_to_sent) 7; er_other := 0 |}.
Definition quiet_label (l : Label) : bool :=
  match l with LUpgrade _ _ | LAnswer _ (ReLogs _) | LAnswer _ (ReReceipts _) => false | _ => true end.

(** The logs and one receipt were confirmed by all. *)
Example C79_reach_witness :
  exists s x y, reach self0 keccak0 (one_liar_env (emitted v0 w2 hs2) [x]) s /\ hashes_differ (history (sys_log s)) /\
    on_the_chain (history (sys_log s)) [x] /\ settlements (history (sys_log s)) = [y] /\
    (xn_ok x, xn_gas x) = (true, 252000).
Proof.
  destruct (run0 (up_to_sent ++ finalize0)) as [s|] eqn:E; [|vm_compute in E; discriminate].
  destruct xs2 as [|x [|? ?]] eqn:Ex; [vm_compute in Ex; discriminate| |vm_compute in Ex; discriminate].
  assert (Hx : st_hash (xn_tx x) = hash_of (run0 up_to_sent) 7 /\ xn_ok x = true /\ xn_gas x = 252000).
  { vm_compute in Ex. injection Ex as <-. repeat split; vm_compute; reflexivity. }
  destruct Hx as (Hx1 & Hx2 & Hx3).
  assert (Hr : reach self0 keccak0 (one_liar_env (emitted v0 w2 hs2) [x]) s).
  { eapply reach_run0; [exact E|]. intros z l Hin.
    assert (Hc : l = LAnswer 1 (ReLogs (LogsOk logs0)) \/ l = LAnswer 5 (ReReceipts [ReceiptOk (receipt0 7 21000 TxSuccess)]) \/ quiet_label l = true).
    { unfold up_to_sent, register0, scrape0, mint0, withdraw_native0, withdraw_erc200, create0, sign0, send0, finalize0, ans, ledger_ok in Hin. cbn [app] in Hin.
      repeat (destruct Hin as [<-|Hin]; [first [right; right; reflexivity|left; reflexivity|right; left; reflexivity]|]). destruct Hin. }
    destruct Hc as [->|[->|Hc]].
    - split; [exact Logic.I|]. cbn. exists (Consistent (ROk logs0)). split; [|reflexivity]. apply all_say. exact (reported0 v0 w2 hs2 eq_refl).
    - split; [exact Logic.I|]. cbn [one_liar]. intros r [<-|[]]. exists (Consistent (ROk (Some evm_receipt0))).
      split; [|unfold evm_receipt0, receipt0; generalize (hash_of (run0 up_to_sent) 7); reflexivity].
      apply all_say. exists x. cbn [er_transaction_hash er_status er_effective_gas_price er_gas_used evm_receipt0]. rewrite Hx2, Hx3.
      split; [left; reflexivity|]. split; [exact Hx1|]. split; reflexivity.
    - clear E Ex. destruct l as [| |id []| |]; try discriminate Hc; split; exact Logic.I. }
  destruct (settlements (history (sys_log s))) as [|y [|? ?]] eqn:Ey.
  1,3: vm_compute in E; injection E as <-; vm_compute in Ey; discriminate.
  exists s, x, y. split; [exact Hr|]. vm_compute in Ex. injection Ex as <-. vm_compute in E. injection E as <-.
  split.
  { apply signed_differ. vm_compute. repeat constructor; cbn; intuition discriminate. }
  split.
  { constructor.
    - intros x [<-|[]]. exists 3. vm_compute. left. reflexivity.
    - repeat constructor. intros [].
    - intros x [<-|[]]. vm_compute. discriminate. }
  split; [exact Ey|vm_compute; reflexivity].
Qed.

(** Both deposits were confirmed by all and minted. *)
Example C79_witness :
  exists s ls now now', together self0 keccak0 (one_liar_env (emitted v0 w2 hs0) []) s ls /\
    hashes_differ (history (sys_log s)) /\ on_the_chain (history (sys_log s)) [] /\ native_apart (sys_state s) /\
    took v0 Native w2 hs0 [] now /\ took v0 (Token 187 token_ledger0) w2 hs0 [] now' /\ NoDup three /\
    held_by three (ls native_ledger0) = 99999990 /\ holds v0 Native now = 100000000 /\
    held_by three (ls token_ledger0) = 4990 /\ holds v0 (Token 187 token_ledger0) now' = 5000.
Proof.
  destruct (joint_some before_request ltac:(vm_compute; reflexivity)) as (s & ls & E).
  assert (Ht : together self0 keccak0 (one_liar_env (emitted v0 w2 hs0) []) s ls).
  { apply (joint0_together (one_liar_env (emitted v0 w2 hs0) [])) in E; [exact E|]. intros x l Hin _.
    assert (Hc : l = LAnswer 1 (ReLogs (LogsOk logs0)) \/ quiet_label l = true).
    { unfold before_request, before_approval in Hin. apply in_app_or in Hin as [Hin|Hin].
      - apply in_map_iff in Hin as (l' & El & Hin). injection El as ->. unfold register0, scrape0, mint0, ans, ledger_ok in Hin. cbn [app] in Hin.
        repeat (destruct Hin as [<-|Hin]; [first [right; reflexivity|left; reflexivity]|]). destruct Hin.
      - destruct Hin as [Hin|[Hin|[]]]; discriminate. }
    destruct Hc as [->|Hc].
    - split; [exact Logic.I|]. cbn. exists (Consistent (ROk logs0)). split; [|reflexivity]. apply all_say. exact (reported0 v0 w2 hs0 eq_refl).
    - destruct l as [| |id []| |]; try discriminate Hc; split; exact Logic.I. }
  destruct (took0 Native (or_introl eq_refl)) as (now & H1 & H2).
  destruct (took0 (Token 187 token_ledger0) (or_intror eq_refl)) as (now' & H3 & H4).
  exists s, ls, now, now'. split; [exact Ht|].
  split.
  { apply signed_differ. assert (Es : signed_all (history (sys_log s)) = []) by (apply (seen_is (fun s _ => signed_all (history (sys_log s))) _ _ _ _ E); vm_compute; reflexivity).
    rewrite Es. constructor. }
  split. { constructor; [intros ? []|constructor|intros ? []]. }
  split; [apply apart_is; apply (seen_is (fun s _ => apart_b (sys_state s)) _ _ _ _ E); vm_compute; reflexivity|].
  split; [exact H1|]. split; [exact H3|].
  split; [repeat constructor; cbn; intuition discriminate|].
  split; [apply (seen_is (fun _ ls => held_by three (ls native_ledger0)) _ _ _ _ E); vm_compute; reflexivity|].
  split; [exact H2|].
  split; [apply (seen_is (fun _ ls => held_by three (ls token_ledger0)) _ _ _ _ E); vm_compute; reflexivity|exact H4].
Qed.

(** ** The number of the latest block is asked of one provider only *)

(** A deposit will be mined in block 150. The provider that is asked for the latest block
    says 160, the others truthfully report that there are no logs up to this block; after
    that, no query that is answered covers block 150, whatever happens. *)
Definition hs_late : list Happening := [ByHelper (11, 1) 150 native_call].
Definition lied : list Label :=
  register0 ++ LTimer TimerScrape 20 :: ans 1 (ReBlock (Some 160)) 21 ++ ans 1 (ReLogs (LogsOk [])) 22.
Theorem C79_latest_block_refuted :
  exists self keccak v w hs src block c m s, lawful v /\ all_proper v hs /\ In (ByHelper src block c) hs /\
    In m (emitted v w hs) /\ (mi_source m, mi_block m) = (src, block) /\
    reach self keccak (one_liar_env (emitted v w hs) []) s /\
    forall ls, all_along kept_blocks self keccak s ls ->
      forall q, In q (sys_queries (run self keccak s ls)) -> settles q = true ->
        fst (fst q) <= block <= snd (fst q) -> snd q = LogsOk [].
Proof.
  destruct (run0 lied) as [s|] eqn:E; [|vm_compute in E; discriminate].
  assert (Hr : forall env : Sys -> Label -> Prop, (forall x l, quiet_label l = true \/ l = LAnswer 1 (ReLogs (LogsOk [])) -> env x l) -> reach self0 keccak0 env s).
  { intros env He. eapply reach_run0; [exact E|]. intros x l Hin. apply He.
    unfold lied, register0, ans in Hin. cbn [app] in Hin.
    repeat (destruct Hin as [<-|Hin]; [first [left; reflexivity|right; reflexivity]|]). destruct Hin. }
  assert (H1 : reach self0 keccak0 (one_liar_env (emitted v0 w2 hs_late) []) s).
  { apply Hr. intros x l [H| ->].
    - destruct l as [| |id []| |]; try discriminate H; split; exact Logic.I.
    - split; [exact Logic.I|]. cbn. exists (Consistent (ROk [])). split; [|reflexivity]. apply all_say. intros e []. }
  assert (H2 : reach self0 keccak0 real_blocks s).
  { eapply reach_run0; [exact E|]. intros x l Hin. unfold lied, register0, ans in Hin. cbn [app] in Hin.
    repeat (destruct Hin as [<-|Hin]; [first [exact Logic.I|vm_compute; reflexivity]|]). destruct Hin. }
  assert (Hq : sys_queries s = [((101, 160), LogsOk [])] /\ last_scraped_block_number (sys_state s) = 160).
  { vm_compute in E. injection E as <-. split; vm_compute; reflexivity. }
  exists self0, keccak0, v0, w2, hs_late, (11, 1), 150, native_call.
  eexists. exists s. split; [exact lawful0|].
  split. { intros p b c [H|[]]. injection H as <- <- <-. apply (all_proper0 (11, 1) 103). left. reflexivity. }
  split; [left; reflexivity|]. split; [left; reflexivity|]. split; [reflexivity|]. split; [exact H1|].
  intros ls Hls q Hin Hs Hb.
  destruct (C07_covers_exactly_once self0 keccak0 s ls H2 Hls) as (qs & Eq & Ho & _). cbn zeta in Eq. rewrite Eq in Hin.
  destruct Hq as [Hq Hl]. rewrite Hq in Hin. apply in_app_or in Hin as [[<-|[]]|Hin]; [reflexivity|]. exfalso.
  rewrite Hl in Ho. destruct (C07_in_order_exact _ _ _ Ho) as [Hc _].
  enough (Hn : 160 + 1 <= 150 <= last_scraped_block_number (sys_state (run self0 keccak0 s ls))) by lia.
  apply Hc. exists (fst q). split; [|exact Hb]. unfold settled. apply in_map. apply filter_In. auto.
Qed.
Print Assumptions C79_latest_block_refuted.
