(** * C07, C08, C10, C11, C12: log scraping *)

From Verif Require Import Base BMap MultiKeyMap Bytes Types Amount Network Transactions State Audit Ranges Parser
  Driver Sys SysSpec SysFacts RangesFacts ScrapeSpec ScrapeFacts Scenario PropGuards.

Ltac conjuncts := repeat match goal with |- _ /\ _ => split end.

(** ** C07 *)

(** Take any reachable state and any continuation in which the operator does not set the
    position: the queries that settled tile the blocks after the old position up to the new
    one, in order and without overlap, and everything they returned is recorded. *)
Theorem C07_covers_exactly_once :
  forall self keccak s ls, reach self keccak real_blocks s ->
    all_along kept_blocks self keccak s ls ->
    let s' := run self keccak s ls in
    exists qs, sys_queries s' = sys_queries s ++ qs /\
      in_order (last_scraped_block_number (sys_state s) + 1) (last_scraped_block_number (sys_state s'))
        (settled qs) /\
      forall q, In q qs -> settles q = true -> recorded (sys_log s') q.
Proof.
  intros self keccak s ls Hr He. destruct (settle_run self keccak s ls Hr He) as (qs & Q1 & Q2 & Q3 & _).
  exists qs. split; [exact Q1|]. split; [apply in_order_tiles; exact Q2|exact Q3].
Qed.
Print Assumptions C07_covers_exactly_once.
(** [in_order] means: each block between the bounds is in exactly one range, no other is. *)
Theorem C07_in_order_exact :
  forall a b l, in_order a b l ->
    (forall n, a <= n <= b <-> exists r, In r l /\ fst r <= n <= snd r) /\
    forall l1 r l2 r' l3, l = l1 ++ r :: l2 ++ r' :: l3 -> snd r < fst r'.
Proof.
  intros a b l H. apply in_order_tiles in H. split.
  - intros n. rewrite (tiles_cover a b l n H), Exists_exists. reflexivity.
  - intros l1 r l2 r' l3 ->. exact (tiles_before a b l1 r l2 r' l3 H).
Qed.
Print Assumptions C07_in_order_exact.
(** A query is sent only for blocks after the position and not after the target; a scrape
    that ends without a provider error has reached its target. *)
Theorem C07_within_the_target :
  forall self keccak s, reach self keccak real_blocks s ->
    forall id j r, bget id (sys_tasks s) = Some {| fl_task := TScrapeLogs j; fl_reply := r |} ->
      exists target, last_observed_block_number (sys_state s) = Some target /\
        fst (sj_current j) = last_scraped_block_number (sys_state s) + 1 /\
        fst (sj_current j) <= snd (sj_current j) /\ snd (sj_current j) <= target /\
        forall now a c o, r = Some (ReLogs a) ->
          resume keccak now (TScrapeLogs j) (ReLogs a) (sys_core s) = Done (c, Finish o) ->
          a = LogsErr \/ last_scraped_block_number (fst c) = target.
Proof.
  intros self keccak s H id j r Hb. apply scr_reach in H; [|auto].
  destruct (so_job _ H _ _ _ Hb) as (target & Ho & J). exists target. split; [exact Ho|].
  split; [exact (jo_start _ _ _ J)|]. split; [exact (jo_some _ _ _ J)|]. split; [exact (jo_below _ _ _ J)|].
  intros now a c o -> Hf. exact (finish_target self keccak now _ _ _ _ _ _ _ J Hf).
Qed.
Print Assumptions C07_within_the_target.

(** Blocks 101..105 with the answers: too large, logs of 101..103, too large for 104..105,
    too large for 104 alone, no logs in 105 *)
Definition scrape7 : list Label :=
  LTimer TimerScrape 20 :: ans 1 (ReBlock (Some 105)) 21 ++ ans 1 (ReLogs LogsTooLarge) 22 ++
  ans 1 (ReLogs (LogsOk [deposit_log 11 1 103 0 100000000 221 user0])) 23 ++ ans 1 (ReLogs LogsTooLarge) 24 ++
  ans 1 (ReLogs LogsTooLarge) 25 ++ ans 1 (ReLogs (LogsOk [])) 26.
Example C07_witness :
  exists s s', reach self0 keccak0 real_blocks s /\
    all_along kept_blocks self0 keccak0 s scrape7 /\
    s' = run self0 keccak0 s scrape7 /\
    last_scraped_block_number (sys_state s) = 100 /\ last_scraped_block_number (sys_state s') = 105 /\
    settled (sys_queries s') = [(101, 103); (104, 104); (105, 105)] /\
    In (EvSkippedBlock 104) (map ev_payload (sys_log s')) /\ sys_tasks s' = [].
Proof.
  destruct (run0 register0) as [s|] eqn:E; [|vm_compute in E; discriminate].
  exists s, (run self0 keccak0 s scrape7).
  assert (Hall : forall x l, In l scrape7 -> real_blocks x l /\ position_kept x l).
  { intros x l Hin. unfold scrape7, ans in Hin. cbn [app In] in Hin.
    repeat (destruct Hin as [<-|Hin]; [split; [vm_compute; auto|exact Logic.I]|]). destruct Hin. }
  split; [|split; [|split; [reflexivity|]]].
  - eapply reach_run0; [exact E|]. intros x l [<-|[]]. exact Logic.I.
  - intros l1 l l2 El. apply Hall. rewrite El. apply in_or_app. right. left. reflexivity.
  - vm_compute in E. injection E as <-. conjuncts; vm_compute; auto 10.
Qed.

(** ** C08 *)

(** The number of queries a scrape still makes, the one in flight included, is bounded: with
    n blocks to go it is at most n (1 + log2 (min n 1000)), whatever the answers are. *)
Theorem C08_terminates :
  forall self keccak s, reach self keccak real_blocks s ->
    forall id j r, bget id (sys_tasks s) = Some {| fl_task := TScrapeLogs j; fl_reply := r |} ->
      exists target, last_observed_block_number (sys_state s) = Some target /\
        let n := target - last_scraped_block_number (sys_state s) in
        forall k, chain keccak (TScrapeLogs j) k -> N.of_nat (S k) <= n * (1 + N.log2_up (N.min n 1000)).
Proof.
  intros self keccak s H id j r Hb.
  destruct (queries_bound self keccak real_blocks s id j r 0 (fun _ _ x => x) H Hb (chain_0 _ _)) as (target & Ho & _).
  exists target. split; [exact Ho|]. cbv zeta. intros k Hk.
  destruct (queries_bound self keccak real_blocks s id j r k (fun _ _ x => x) H Hb Hk) as (t' & Ho' & Hn).
  rewrite Ho in Ho'. injection Ho' as <-. exact Hn.
Qed.
Print Assumptions C08_terminates.
(** Finding the target takes at most three attempts. *)
Theorem C08_target_attempts :
  forall keccak n t', follows keccak (TScrapeBlock n) t' ->
    (exists j, t' = TScrapeLogs j) \/ t' = TScrapeBlock (n + 1) /\ n + 1 < 3.
Proof. exact follows_block. Qed.
Print Assumptions C08_target_attempts.

(** The bound of plain bisection, 2n - 1, does not hold: the right half of a split is joined
    with what follows, so 4 blocks can take 9 queries. *)
Definition scrape8 : list Label :=
  LTimer TimerScrape 20 :: ans 1 (ReBlock (Some 104)) 21 ++
  flat_map (fun t => ans 1 (ReLogs LogsTooLarge) t) [22; 23; 24; 25; 26; 27; 28; 29; 30].
Theorem C08_plain_bisection_bound_refuted :
  exists self keccak s ls, reach self keccak real_blocks s /\ all_along kept_blocks self keccak s ls /\
    sys_queries s = [] /\ last_scraped_block_number (sys_state s) = 100 /\
    last_scraped_block_number (sys_state (run self keccak s ls)) = 104 /\
    List.length (sys_queries (run self keccak s ls)) = 9%nat.
Proof.
  exists self0, keccak0. destruct (run0 register0) as [s|] eqn:E; [|vm_compute in E; discriminate].
  exists s, scrape8. split; [|split].
  - eapply reach_run0; [exact E|]. intros x l [<-|[]]. exact Logic.I.
  - intros l1 l l2 El.
    assert (Hin : In l scrape8) by (rewrite El; apply in_or_app; right; left; reflexivity).
    unfold scrape8, ans in Hin. cbn [app In flat_map] in Hin.
    repeat (destruct Hin as [<-|Hin]; [split; [vm_compute; auto|exact Logic.I]|]). destruct Hin.
  - vm_compute in E. injection E as <-. conjuncts; vm_compute; reflexivity.
Qed.
Print Assumptions C08_plain_bisection_bound_refuted.
Example C08_witness :
  exists s j r, reach self0 keccak0 real_blocks s /\
    bget 1 (sys_tasks s) = Some {| fl_task := TScrapeLogs j; fl_reply := r |} /\
    last_observed_block_number (sys_state s) = Some 104 /\ last_scraped_block_number (sys_state s) = 100 /\
    4 * (1 + N.log2_up (N.min 4 1000)) = 12.
Proof.
  destruct (run0 (register0 ++ LTimer TimerScrape 20 :: ans 1 (ReBlock (Some 104)) 21)) as [s|] eqn:E;
    [|vm_compute in E; discriminate].
  assert (Hr : reach self0 keccak0 real_blocks s).
  { eapply reach_run0; [exact E|]. intros x l Hin. unfold ans, register0 in Hin. cbn [app In] in Hin.
    repeat (destruct Hin as [<-|Hin]; [vm_compute; auto|]). destruct Hin. }
  vm_compute in E. injection E as <-. eexists _, _, _. split; [exact Hr|]. split; [vm_compute; reflexivity|].
  conjuncts; vm_compute; reflexivity.
Qed.

(** ** C10 *)

(** No step moves the position back, unless the operator sets it. *)
Theorem C10_never_moves_back :
  forall self keccak s l, reach self keccak real_blocks s -> position_kept s l ->
    last_scraped_block_number (sys_state s) <= last_scraped_block_number (sys_state (step self keccak s l)).
Proof.
  intros self keccak s l H Hp. apply (position_step self keccak s l); [|exact Hp|apply step_trans].
  apply (scr_reach self keccak real_blocks); auto.
Qed.
Print Assumptions C10_never_moves_back.
(** Nor does a history without such upgrades. *)
Theorem C10_never_moves_back_over_a_run :
  forall self keccak s ls, reach self keccak real_blocks s -> all_along kept_blocks self keccak s ls ->
    last_scraped_block_number (sys_state s) <= last_scraped_block_number (sys_state (run self keccak s ls)).
Proof. intros self keccak s ls Hr He. destruct (settle_run self keccak s ls Hr He) as (_ & _ & _ & _ & H). exact H. Qed.
Print Assumptions C10_never_moves_back_over_a_run.
Example C10_witness :
  exists s, reach self0 keccak0 real_blocks s /\
    last_scraped_block_number (sys_state s) = 100 /\
    last_scraped_block_number (sys_state (run self0 keccak0 s scrape7)) = 105 /\
    last_scraped_block_number (sys_state (step self0 keccak0 (run self0 keccak0 s scrape7) (LUpgrade None 30))) = 105.
Proof.
  destruct (run0 register0) as [s|] eqn:E; [|vm_compute in E; discriminate]. exists s. split.
  - eapply reach_run0; [exact E|]. intros x l [<-|[]]. exact Logic.I.
  - vm_compute in E. injection E as <-. conjuncts; vm_compute; reflexivity.
Qed.

(** ** C11 *)

(** The target that is remembered lies exactly the margin below a block that a provider
    reported. *)
Theorem C11_target :
  forall self keccak now a s0 ls v, sys_init now a = Done s0 ->
    last_observed_block_number (sys_state (run self keccak s0 ls)) = Some v ->
    exists i, In (LAnswer i (ReBlock (Some (v + head_margin (ia_evm_network a))))) ls.
Proof. intros self keccak now a s0 ls v H. exact (hd_number _ _ _ (heads_run self keccak now a s0 ls H) v). Qed.
Print Assumptions C11_target.
(** A reported block below the margin yields no target. *)
Theorem C11_no_underflow :
  forall net n, (forall v, observed_block net n = Some v <-> v + head_margin net = n) /\
    (observed_block net n = None <-> n < head_margin net).
Proof.
  intros net n. split; [exact (observed_margin [] (fun _ => 0) net n)|].
  destruct (observed_block net n) as [v|] eqn:E.
  - apply (observed_margin [] (fun _ => 0)) in E. split; [discriminate|lia].
  - split; [|reflexivity]. intros _. destruct (N.lt_ge_cases n (head_margin net)) as [H|H]; auto.
    assert (E' : observed_block net n = Some (n - head_margin net)) by (apply (observed_margin [] (fun _ => 0)); lia). congruence.
Qed.
Print Assumptions C11_no_underflow.
(** No query asks for a block closer to the head than the margin. *)
Theorem C11_queries_keep_the_distance :
  forall self keccak now a s0 ls, sys_init now a = Done s0 -> all_along kept_blocks self keccak s0 ls ->
    forall q, In q (sys_queries (run self keccak s0 ls)) ->
      exists i n, In (LAnswer i (ReBlock (Some n))) ls /\ snd (fst q) + head_margin (ia_evm_network a) <= n.
Proof. exact queries_below. Qed.
Print Assumptions C11_queries_keep_the_distance.
Definition init_bsc : InitArg :=
  {| ia_evm_network := BSC; ia_ecdsa_key_name := text_of "key";
     ia_helper_contract_address := Some helper0;
     ia_native_ledger_id := native_ledger0; ia_native_index_id := [5];
     ia_native_symbol := text_of "icBNB"; ia_block_height := TagLatest;
     ia_native_minimum_withdrawal_amount := 10000; ia_native_ledger_transfer_fee := 10;
     ia_next_transaction_nonce := 7; ia_last_scraped_block_number := 100;
     ia_min_max_priority_fee_per_gas := 2; ia_ledger_suite_manager_id := manager0;
     ia_deposit_native_fee := 1000; ia_withdrawal_native_fee := 500 |}.
Definition scrape11 : list Label :=
  LTimer TimerScrape 20 :: ans 0 (ReBlock (Some 130)) 21 ++ ans 0 (ReLogs (LogsOk [])) 22.
Example C11_witness :
  exists s0, sys_init 1 init_bsc = Done s0 /\ all_along kept_blocks self0 keccak0 s0 scrape11 /\
    last_observed_block_number (sys_state (run self0 keccak0 s0 scrape11)) = Some 110 /\
    sys_queries (run self0 keccak0 s0 scrape11) = [((101, 110), LogsOk [])].
Proof.
  destruct (sys_init 1 init_bsc) as [s|] eqn:E; [|vm_compute in E; discriminate]. exists s. split; [reflexivity|]. split.
  - intros l1 l l2 El.
    assert (Hin : In l scrape11) by (rewrite El; apply in_or_app; right; left; reflexivity).
    unfold scrape11, ans in Hin. cbn [app In flat_map] in Hin.
    repeat (destruct Hin as [<-|Hin]; [split; [vm_compute; auto|exact Logic.I]|]). destruct Hin.
  - vm_compute in E. injection E as <-. conjuncts; vm_compute; reflexivity.
Qed.

(** ** C12 *)

(** A request is accepted iff it asks for a block after the last observed one, at least a
    minute after the last observation. *)
Theorem C12_accepted_iff :
  forall self keccak s b now, sys_clock s <= now -> b <= U256_MAX ->
    (request_accepted self keccak s b now <->
     exists n t, last_observed_block_number (sys_state s) = Some n /\
       last_observed_block_time (sys_state s) = Some t /\ n < b /\ minute_after t <= now).
Proof. exact request_iff. Qed.
Print Assumptions C12_accepted_iff.
(** Whatever happens in between, no request is accepted within a minute of an observation;
    an observation is made whenever a scrape starts. *)
Theorem C12_quiet_minute_partial :
  forall self keccak s, reach self keccak any_env s ->
    (forall t ls b now, last_observed_block_time (sys_state s) = Some t -> b <= U256_MAX ->
       sys_clock (run self keccak s ls) <= now ->
       request_accepted self keccak (run self keccak s ls) b now -> minute_after t <= now) /\
    (forall now, sys_clock s <= now -> bmem TaskScrapLogs (active_tasks (sys_state s)) = false ->
       last_observed_block_time (sys_state (step self keccak s (LTimer TimerScrape now))) = Some now).
Proof.
  intros self keccak s H. split.
  - intros t ls b now Ht. exact (quiet_minute self keccak any_env s t ls b now H Ht).
  - intros now. exact (scrape_stamps self keccak s now).
Qed.
Print Assumptions C12_quiet_minute_partial.
(** But accepted requests are not a minute apart: nothing is noted when a request is
    accepted, only when a scrape starts. While one is running, any number is accepted. *)
Definition slow12 : list Label :=
  register0 ++ scrape0 ++ [LTimer TimerScrape 70000000000].
Theorem C12_a_minute_apart_refuted :
  exists self keccak s b now, reach self keccak any_env s /\ sys_clock s <= now /\
    request_accepted self keccak s b now /\
    request_accepted self keccak (step self keccak s (LCall (CallRequestScraping b) now)) b now.
Proof.
  exists self0, keccak0. destruct (run0 slow12) as [s|] eqn:E; [|vm_compute in E; discriminate].
  exists s, 200, 140000000000. split; [eapply any_reach; exact E|].
  vm_compute in E. injection E as <-. split; [vm_compute; discriminate|].
  split; unfold request_accepted, request_answer; vm_compute; reflexivity.
Qed.
Print Assumptions C12_a_minute_apart_refuted.
Example C12_witness :
  exists s, reach self0 keccak0 any_env s /\
    last_observed_block_number (sys_state s) = Some 105 /\ last_observed_block_time (sys_state s) = Some 20 /\
    request_accepted self0 keccak0 s 106 60000000020 /\
    ~ request_accepted self0 keccak0 s 106 60000000019 /\ ~ request_accepted self0 keccak0 s 105 60000000020.
Proof.
  destruct (run0 (register0 ++ scrape0)) as [s|] eqn:E; [|vm_compute in E; discriminate].
  exists s. split; [eapply any_reach; exact E|]. vm_compute in E. injection E as <-.
  unfold request_accepted, request_answer. conjuncts; vm_compute; solve [reflexivity|intros H; discriminate].
Qed.
