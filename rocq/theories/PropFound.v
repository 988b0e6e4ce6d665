(** * C69, C70: requests for an early look are answered; what a scrape finds is recorded *)

From Coq Require Import Bool.
From Verif Require Import Base BMap MultiKeyMap Types Amount State Audit Parser Driver Sys SysSpec
  DepositSpec ScrapeSpec TokenSpec ParserSpec FoundSpec ScrapeFacts FoundFacts Scenario PropGuards PropScrape.
From Coq Require Import List NArith Lia.
Import ListNotations.
Local Open Scope N_scope.

(** ** C69 *)

(** The answer in every reachable state. *)
Theorem C69_answer :
  forall self keccak s b now, reach self keccak any_env s -> sys_clock s <= now ->
    match last_observed_block_number (sys_state s), last_observed_block_time (sys_state s) with
    | Some n, Some t => request_answer self keccak s b now (OutScraping
        (if U256_MAX <? b then RErr InvalidBlockNumber
         else if b <=? n then RErr BlockAlreadyObserved
         else if now <? minute_after t then RErr CalledTooManyTimes else ROk tt))
    | Some _, None => False
    | None, _ => request_answer self keccak s b now OutTrap
    end.
Proof. intros self keccak. exact (request_cases self keccak any_env). Qed.
Print Assumptions C69_answer.
(** It fails without an answer exactly when there is no last observed block. *)
Theorem C69_fails_iff :
  forall self keccak s b now, reach self keccak any_env s -> sys_clock s <= now ->
    (request_answer self keccak s b now OutTrap <-> last_observed_block_number (sys_state s) = None).
Proof. intros self keccak. exact (request_traps self keccak any_env). Qed.
Print Assumptions C69_fails_iff.
(** Once requests are answered, they stay answered: as long as there is no upgrade and
    providers report no block below the distance kept to the head of the chain. *)
Theorem C69_stays_answered_partial :
  forall self keccak s ls b b' now now', reach self keccak high_blocks s ->
    all_along high_blocks self keccak s ls ->
    sys_clock s <= now -> sys_clock (run self keccak s ls) <= now' ->
    ~ request_answer self keccak s b now OutTrap ->
    ~ request_answer self keccak (run self keccak s ls) b' now' OutTrap.
Proof.
  intros self keccak s ls b b' now now' Hr Ha Hc Hc' Hn.
  assert (Hr' : reach self keccak high_blocks (run self keccak s ls)) by exact (along_reach self keccak high_blocks s ls Hr Ha).
  rewrite (request_traps self keccak high_blocks _ b' now' Hr' Hc').
  rewrite (request_traps self keccak high_blocks _ b now Hr Hc) in Hn. clear Hc Hc' Hr'.
  revert s Hr Ha Hn. induction ls as [|l ls IH]; intros s Hr Ha Hn; [exact Hn|]. cbn [run fold_left].
  assert (Hl : high_blocks s l) by exact (Ha [] l ls eq_refl).
  apply IH.
  - apply reach_step; assumption.
  - intros l1 x l2 E. exact (Ha (l :: l1) x l2 (f_equal (cons l) E)).
  - exact (number_stays self keccak s l Hr Hl Hn).
Qed.
Print Assumptions C69_stays_answered_partial.

(** But not across an upgrade: the last observed block is forgotten, its time is not needed
    any more, and requests fail without an answer until the next scrape has seen a block. *)
Theorem C69_after_upgrade_refuted :
  exists self keccak s b now, reach self keccak any_env s /\ sys_clock s <= now /\
    request_answer self keccak s b now (OutScraping (ROk tt)) /\
    request_answer self keccak (step self keccak s (LUpgrade None now)) b now OutTrap.
Proof.
  exists self0, keccak0. destruct (run0 (register0 ++ scrape0)) as [s|] eqn:E; [|vm_compute in E; discriminate].
  exists s, 200, 140000000000. split; [eapply any_reach; exact E|].
  vm_compute in E. injection E as <-. split; [vm_compute; discriminate|].
  split; unfold request_answer; vm_compute; reflexivity.
Qed.
Print Assumptions C69_after_upgrade_refuted.
(** Nor when a provider reports a low block on a network on which a distance to the head is
    kept: the subtraction fails and the failure replaces the last observed block. *)
Definition low_block69 : list Label :=
  LTimer TimerScrape 70000000000 :: ans 1 (ReBlock (Some 5)) 70000000001.
Theorem C69_low_block_refuted :
  exists self keccak s ls b now, reach self keccak any_env s /\ forallb no_upgrade ls = true /\
    sys_clock (run self keccak s ls) <= now /\
    request_answer self keccak s b now (OutScraping (ROk tt)) /\
    request_answer self keccak (run self keccak s ls) b now OutTrap.
Proof.
  exists self0, keccak0. destruct (run_from init_bsc scrape11) as [s|] eqn:E; [|vm_compute in E; discriminate].
  exists s, low_block69, 200, 140000000000. split.
  { eapply reach_run_from; [exact E|vm_compute; reflexivity|]. intros; exact Logic.I. }
  split; [vm_compute; reflexivity|]. vm_compute in E. injection E as <-.
  split; [vm_compute; discriminate|]. split; unfold request_answer; vm_compute; reflexivity.
Qed.
Print Assumptions C69_low_block_refuted.
Example C69_witness :
  exists s, reach self0 keccak0 high_blocks s /\ sys_clock s = 22 /\
    request_answer self0 keccak0 s 105 30 (OutScraping (RErr BlockAlreadyObserved)) /\
    request_answer self0 keccak0 s 106 30 (OutScraping (RErr CalledTooManyTimes)) /\
    request_answer self0 keccak0 s 106 60000000020 (OutScraping (ROk tt)) /\
    request_answer self0 keccak0 s (2 ^ 256) 60000000020 (OutScraping (RErr InvalidBlockNumber)) /\
    all_along high_blocks self0 keccak0 s mint0.
Proof.
  destruct (run0 (register0 ++ scrape0)) as [s|] eqn:E; [|vm_compute in E; discriminate]. exists s.
  assert (Hr : reach self0 keccak0 high_blocks s).
  { eapply reach_run0; [exact E|]. intros x l Hin. unfold register0, scrape0, ans in Hin. cbn [app In] in Hin.
    repeat (destruct Hin as [<-|Hin]; [try exact Logic.I|]); [|destruct Hin].
    cbn [high_blocks]. destruct (evm_network (sys_state x)); vm_compute; discriminate. }
  split; [exact Hr|]. vm_compute in E. injection E as <-. clear Hr.
  unfold request_answer. do 5 (split; [vm_compute; reflexivity|]).
  intros l1 l l2 El. assert (Hin : In l mint0) by (rewrite El; apply in_or_app; right; left; reflexivity).
  unfold mint0, ledger_ok, ans in Hin. cbn [app In] in Hin.
  repeat (destruct Hin as [<-|Hin]; [exact Logic.I|]). destruct Hin.
Qed.

(** ** C70 *)

(** The answer to a query for logs is read: either everything in it is recorded and the
    position moves to the end of the blocks asked for, or nothing at all is and the scrape
    ends with an error. The first happens iff the answer is recordable. *)
Theorem C70_all_or_nothing :
  forall self keccak s id j logs ds errors now, reach self keccak real_blocks s ->
    bget id (sys_tasks s) = Some {| fl_task := TScrapeLogs j; fl_reply := Some (ReLogs (LogsOk logs)) |} ->
    sys_clock s <= now -> (forall x, In x logs -> wire x) -> parse_all_logs logs = Done (ds, errors) ->
    let s' := step self keccak s (LDeliver id false now) in
    (recordable (sys_state s) ds (refused_at errors) ->
       last_scraped_block_number (sys_state s') = snd (sj_current j) /\
       (forall d, In d ds -> waiting (sys_state s') (dep_source d) d) /\
       (forall src, In src (refused_at errors) -> exists r, rejected (sys_state s') src r)) /\
    (~ recordable (sys_state s) ds (refused_at errors) ->
       sys_log s' = sys_log s /\
       last_scraped_block_number (sys_state s') = last_scraped_block_number (sys_state s) /\
       (forall src e, waiting (sys_state s') src e <-> waiting (sys_state s) src e) /\
       (forall src m, minted (sys_state s') src m <-> minted (sys_state s) src m) /\
       (forall src r, rejected (sys_state s') src r <-> rejected (sys_state s) src r) /\
       In (id, OutTrap) (sys_outcomes s') /\ bget id (sys_tasks s') = None).
Proof. exact found_all_or_nothing. Qed.
Print Assumptions C70_all_or_nothing.
(** With a provider that tells the truth, and with the position left alone, everything found
    is recorded, if the tokens are registered and the balances fit. *)
Theorem C70_recorded_partial :
  forall block_of self keccak s id j logs ds errors now, reach self keccak (honest_chain block_of) s ->
    bget id (sys_tasks s) = Some {| fl_task := TScrapeLogs j; fl_reply := Some (ReLogs (LogsOk logs)) |} ->
    sys_clock s <= now -> parse_all_logs logs = Done (ds, errors) ->
    (forall x, In (DepErc20 x) ds ->
       exists ledger symbol, listed (sys_state s) ledger (ee_erc20_contract_address x) symbol) ->
    nb_balance (native_balance (sys_state s)) + total native_part ds < 2 ^ 256 ->
    (forall c, erc20_balance_of c (erc20_balances (sys_state s)) + total (erc20_part c) ds < 2 ^ 256) ->
    let s' := step self keccak s (LDeliver id false now) in
    last_scraped_block_number (sys_state s') = snd (sj_current j) /\
    (forall d, In d ds -> ~ known (sys_state s) (dep_source d) /\ waiting (sys_state s') (dep_source d) d) /\
    (forall src, In src (refused_at errors) -> exists r, rejected (sys_state s') src r).
Proof. intros block_of self keccak. exact (found_recorded self keccak block_of). Qed.
Print Assumptions C70_recorded_partial.

(** An answer that holds a known deposit, or a deposit of a token that is not registered,
    loses all deposits in it. *)
Theorem C70_one_spoils_all :
  forall self keccak s id j logs ds errors now, reach self keccak real_blocks s ->
    bget id (sys_tasks s) = Some {| fl_task := TScrapeLogs j; fl_reply := Some (ReLogs (LogsOk logs)) |} ->
    sys_clock s <= now -> (forall x, In x logs -> wire x) -> parse_all_logs logs = Done (ds, errors) ->
    (exists d, In d ds /\ (known (sys_state s) (dep_source d) \/
       exists x, d = DepErc20 x /\
         forall ledger symbol, ~ listed (sys_state s) ledger (ee_erc20_contract_address x) symbol)) ->
    let s' := step self keccak s (LDeliver id false now) in
    last_scraped_block_number (sys_state s') = last_scraped_block_number (sys_state s) /\
    forall d, In d ds -> ~ known (sys_state s) (dep_source d) -> ~ known (sys_state s') (dep_source d).
Proof. exact found_spoilt. Qed.
Print Assumptions C70_one_spoils_all.

(** The position is set back by an upgrade to have blocks looked at again. A truthful
    provider then reports a deposit made before together with one that was never recorded:
    every scrape of these blocks ends with an error, and the second is not recorded. *)
Definition set_back : UpgradeArg :=
  {| ua_next_transaction_nonce := None; ua_native_minimum_withdrawal_amount := None;
     ua_helper_contract_address := None; ua_block_height := None; ua_last_scraped_block_number := Some 100;
     ua_evm_rpc_id := None; ua_native_ledger_transfer_fee := None; ua_min_max_priority_fee_per_gas := None;
     ua_deposit_native_fee := None; ua_withdrawal_native_fee := None |}.
Definition logs70 : list LogEntry :=
  logs0 ++ [deposit_log 33 3 105 0 70000 221 user0].
Definition block70 (src : EventSource) : N :=
  if fst src =? 11 then 103 else if fst src =? 22 then 104 else 105.
Definition again70 : list Label :=
  LTimer TimerScrape 40 :: ans 3 (ReBlock (Some 106)) 41 ++ [LAnswer 3 (ReLogs (LogsOk logs70))].
Theorem C70_looked_at_again_refuted :
  exists self keccak s id j ds d now, reach self keccak real_blocks s /\
    bget id (sys_tasks s) = Some {| fl_task := TScrapeLogs j; fl_reply := Some (ReLogs (LogsOk logs70)) |} /\
    truthful block70 (sj_current j) logs70 /\ sys_clock s <= now /\
    parse_all_logs logs70 = Done (ds, []) /\ In d ds /\ ~ known (sys_state s) (dep_source d) /\
    let s' := step self keccak s (LDeliver id false now) in
    ~ known (sys_state s') (dep_source d) /\
    last_scraped_block_number (sys_state s') = last_scraped_block_number (sys_state s).
Proof.
  exists self0, keccak0.
  destruct (run0 (register0 ++ scrape0 ++ mint0 ++ LUpgrade (Some set_back) 35 :: again70)) as [s|] eqn:E;
    [|vm_compute in E; discriminate].
  assert (Hr : reach self0 keccak0 real_blocks s).
  { eapply reach_run0; [exact E|]. intros x l Hin. unfold register0, scrape0, mint0, again70, ledger_ok, ans in Hin.
    cbn [app In] in Hin. repeat (destruct Hin as [<-|Hin]; [vm_compute; auto|]). destruct Hin. }
  vm_compute in E. injection E as <-. eexists _, 3, _, _, (DepNative _), 42.
  split; [exact Hr|]. clear Hr. split; [vm_compute; reflexivity|].
  split.
  { split.
    - vm_compute. repeat constructor; cbn; intuition discriminate.
    - intros src Hin. vm_compute in Hin. repeat (destruct Hin as [<-|Hin]; [vm_compute; split; discriminate|]). destruct Hin. }
  split; [vm_compute; discriminate|]. split; [vm_compute; reflexivity|].
  split; [eapply nth_error_In with (n := 2%nat); vm_compute; reflexivity|].
  split; [|split].
  - rewrite unknown_iff. vm_compute. auto.
  - rewrite unknown_iff. vm_compute. auto.
  - vm_compute. reflexivity.
Qed.
Print Assumptions C70_looked_at_again_refuted.
Definition wire_b (e : LogEntry) : bool :=
  forallb (fun w => (N.of_nat (List.length w) =? 32) && forallb (fun b => b <? 256) w) (le_topics e) &&
  forallb (fun b => b <? 256) (le_data e).
Lemma wire_ok e : wire_b e = true -> wire e.
Proof.
  unfold wire_b, wire. rewrite andb_true_iff, !forallb_forall. intros [H1 H2]. split; apply Forall_forall.
  - intros w Hw. specialize (H1 _ Hw). rewrite andb_true_iff, forallb_forall, N.eqb_eq in H1. destruct H1 as [A B].
    split; [lia|]. apply Forall_forall. intros b Hb. apply N.ltb_lt. auto.
  - intros b Hb. apply N.ltb_lt. auto.
Qed.
(** The hypotheses of [C70_recorded_partial] are met: two deposits, one of a token. *)
Example C70_witness :
  exists s id j ds, reach self0 keccak0 (honest_chain block70) s /\
    bget id (sys_tasks s) = Some {| fl_task := TScrapeLogs j; fl_reply := Some (ReLogs (LogsOk logs0)) |} /\
    sj_current j = (101, 105) /\ sys_clock s = 21 /\
    parse_all_logs logs0 = Done (ds, []) /\ List.length ds = 2%nat /\
    (forall x, In (DepErc20 x) ds ->
       exists ledger symbol, listed (sys_state s) ledger (ee_erc20_contract_address x) symbol) /\
    nb_balance (native_balance (sys_state s)) + total native_part ds = 100000000 /\
    (forall c, erc20_balance_of c (erc20_balances (sys_state s)) + total (erc20_part c) ds < 2 ^ 256).
Proof.
  destruct (run0 (register0 ++ LTimer TimerScrape 20 :: ans 1 (ReBlock (Some 105)) 21)) as [s|] eqn:E;
    [|vm_compute in E; discriminate].
  assert (Hr : reach self0 keccak0 (honest_chain block70) s).
  { eapply reach_run0; [exact E|]. intros x l Hin. unfold register0, ans in Hin. cbn [app In] in Hin.
    repeat (destruct Hin as [<-|Hin]; [split; [split; [vm_compute; auto|exact Logic.I]|exact Logic.I]|]). destruct Hin. }
  exists (step self0 keccak0 s (LAnswer 1 (ReLogs (LogsOk logs0)))), 1. vm_compute in E. injection E as <-.
  do 2 eexists. split.
  { apply reach_step; [exact Hr|]. clear Hr. split; [split; exact Logic.I|]. split.
    - intros x Hx. apply wire_ok. assert (Hb : forallb wire_b logs0 = true) by (vm_compute; reflexivity).
      rewrite forallb_forall in Hb. exact (Hb _ Hx).
    - intros j r Hb. vm_compute in Hb. injection Hb as <- _. split.
      + vm_compute. repeat constructor; cbn; intuition discriminate.
      + intros src Hin. vm_compute in Hin. repeat (destruct Hin as [<-|Hin]; [vm_compute; split; discriminate|]). destruct Hin. }
  clear Hr. split; [vm_compute; reflexivity|]. split; [reflexivity|]. split; [vm_compute; reflexivity|].
  split; [vm_compute; reflexivity|]. split; [reflexivity|]. split; [|split].
  - intros x [H|[H|[]]]; [discriminate|]. injection H as <-. exists token_ledger0, (text_of "icUSDC").
    unfold listed. eexists. split; [vm_compute; reflexivity|left; reflexivity].
  - vm_compute. reflexivity.
  - intros c. cbn [total fold_right erc20_part ee_erc20_contract_address ee_value].
    change (erc20_balance_of c _) with 0. destruct (187 =? c); vm_compute; reflexivity.
Qed.
