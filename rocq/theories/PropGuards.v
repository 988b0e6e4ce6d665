(** * C27, C28: guards *)

From Verif Require Import Base BMap MultiKeyMap Bytes Types Amount Tx Transactions State Audit Ranges
  Driver Sys SysSpec GuardSpec GuardFacts Scenario.

(** ** C27 *)

(** Whatever happens, two withdrawal calls of one user are never in flight together. *)
Theorem C27_one_call_per_user :
  forall self keccak s, reach self keccak any_env s ->
    forall i j p, in_flight s i p -> in_flight s j p -> i = j.
Proof. intros self keccak s H i j p. exact (one_call_per_user self keccak any_env s H i j p). Qed.
Print Assumptions C27_one_call_per_user.

(** At most 100 withdrawal calls are in flight. *)
Theorem C27_at_most_100 :
  forall self keccak s, reach self keccak any_env s ->
    forall ids, NoDup ids -> (forall id, In id ids -> exists p, in_flight s id p) ->
      (List.length ids <= 100)%nat.
Proof. intros self keccak s H. exact (at_most_100 self keccak any_env s H). Qed.
Print Assumptions C27_at_most_100.

(** A withdrawal call is refused, without any effect, when its user has one in flight,
    when 100 are in flight, and when 100 requests wait for their transaction. *)
Theorem C27_refused :
  forall self keccak s, reach self keccak any_env s ->
    forall u p now, withdrawing u = Some p -> sys_clock s <= now ->
      (exists id, in_flight s id p) \/
      (exists ids, NoDup ids /\ (100 <= List.length ids)%nat /\
         forall id, In id ids -> exists q, in_flight s id q) \/
      (100 <= List.length (pending (withdrawals (sys_state s))))%nat ->
      refused s (step self keccak s (LCall u now)).
Proof. intros self keccak s H. exact (call_refused self keccak any_env s H). Qed.
Print Assumptions C27_refused.

(** A guard is held exactly by the users with a call in flight; when no call is in
    flight, no guard is held, whatever traps have happened. *)
Theorem C27_guards_released :
  forall self keccak s, reach self keccak any_env s ->
    (forall p, In p (bkeys (pending_withdrawal_principals (sys_state s))) <-> exists id, in_flight s id p) /\
    ((forall id p, ~ in_flight s id p) -> pending_withdrawal_principals (sys_state s) = []).
Proof.
  intros self keccak s H. split.
  - intros p. rewrite <- bmem_In. exact (principal_guard self keccak any_env s H p).
  - exact (no_guard_left self keccak any_env s H).
Qed.
Print Assumptions C27_guards_released.

(** Conversely, a user without a call in flight is not locked out: below the limits their
    call does not trap (it is answered, or waits for a ledger or a provider). *)
Theorem C27_not_locked_out :
  forall self keccak s, reach self keccak any_env s ->
    forall u p now, withdrawing u = Some p -> sys_clock s <= now ->
      (forall id, ~ in_flight s id p) ->
      (List.length (pending (withdrawals (sys_state s))) < 100)%nat ->
      (exists l, (List.length l < 100)%nat /\ forall id q, in_flight s id q -> In id l) ->
      p <> ANONYMOUS ->
      (forall f, withdrawal_native_fee (sys_state s) = Some f ->
         native_ledger_transfer_fee (sys_state s) <= f) ->
      match u with
      | CallWithdrawNative _ amount _ => amount <= U256_MAX
      | CallWithdrawErc20 _ amount ledger _ => amount <= U256_MAX /\
          exists token, find_erc20_token_by_ledger_id ledger (sys_state s) = Some token
      | _ => True
      end ->
      ~ In (sys_next s, OutTrap) (sys_outcomes (step self keccak s (LCall u now))).
Proof. intros self keccak s H. exact (call_accepted self keccak any_env s H). Qed.
Print Assumptions C27_not_locked_out.

Lemma any_reach ls s : run0 ls = Done s -> reach self0 keccak0 any_env s.
Proof. intros H. eapply reach_run0; [exact H|]. intros. exact Logic.I. Qed.

(** Two users have calls in flight; the third call of the first user is refused; after the
    first call has trapped, its user can call again. *)
Definition two_users : list Label :=
  [LCall (CallWithdrawNative user0 50000000 payee0) 40; LCall (CallWithdrawNative [8] 50000000 payee0) 41].
Example C27_witness :
  exists s, run0 two_users = Done s /\ reach self0 keccak0 any_env s /\
    in_flight s 0 user0 /\ in_flight s 1 [8] /\
    refused s (step self0 keccak0 s (LCall (CallWithdrawNative user0 50000000 payee0) 42)) /\
    (exists s', run0 (two_users ++ [LAnswer 0 (ReLedger (LedgerErr TooOld)); LDeliver 0 false 43;
                                    LCall (CallWithdrawNative user0 50000000 payee0) 44]) = Done s' /\
       In (0, OutTrap) (sys_outcomes s') /\ in_flight s' 2 user0).
Proof.
  destruct (run0 two_users) as [s|] eqn:E; [|vm_compute in E; discriminate].
  exists s. split; auto. split; [eapply any_reach; exact E|].
  vm_compute in E. injection E as <-. split; [|split; [|split]].
  - split; [eexists; split; [left; reflexivity|reflexivity]|intros o []].
  - split; [eexists; split; [right; left; reflexivity|reflexivity]|intros o []].
  - vm_compute. repeat split. auto.
  - eexists. split; [vm_compute; reflexivity|]. split; [vm_compute; auto|].
    split; [eexists; split; [right; right; left; reflexivity|reflexivity]|].
    intros o [H|[]]. discriminate.
Qed.

(** ** C28 *)

(** At any time at most one function mints, one scrapes, one reimburses, one processes
    withdrawals and one refreshes the fee estimate. *)
Theorem C28_never_two :
  forall self keccak s, reach self keccak any_env s ->
    forall a i j, running_activity s i a -> running_activity s j a -> i = j.
Proof. intros self keccak s H a i j. exact (one_at_a_time self keccak any_env s H i j a). Qed.
Print Assumptions C28_never_two.

(** A timer that fires while its task is running has no effect. *)
Theorem C28_second_start_does_nothing :
  forall self keccak s, reach self keccak any_env s ->
    forall k now id, running_activity s id (starts k) -> sys_clock s <= now ->
      let s' := step self keccak s (LTimer k now) in
      sys_core s' = sys_core s /\ (forall i, bget i (sys_tasks s') = bget i (sys_tasks s)) /\
      sys_ops s' = sys_ops s.
Proof. intros self keccak s H. exact (second_start self keccak any_env s H). Qed.
Print Assumptions C28_second_start_does_nothing.

(** When no such task is running (it has ended or trapped) and there is work, the timer
    starts a new one. *)
Theorem C28_can_start_again :
  forall self keccak s, reach self keccak any_env s ->
    forall now, sys_clock s <= now ->
    let idle a := forall id, ~ running_activity s id a in
    let starting k := running_activity (step self keccak s (LTimer k now)) (sys_next s) (starts k) in
    (idle Scraping -> starting TimerScrape) /\
    (forall e rest, idle Minting -> events_to_mint_list (sys_state s) = e :: rest ->
       match e with
       | DepNative _ => forall f, deposit_native_fee (sys_state s) = Some f -> f <= dep_value e
       | DepErc20 x => exists y,
           dmkm_get_entry_alt (ee_erc20_contract_address x) (erc20_tokens (sys_state s)) = Some y
       end -> starting TimerMint) /\
    (forall i r rest, idle Reimbursing -> reimb_requests (withdrawals (sys_state s)) = (i, r) :: rest ->
       starting TimerReimburse) /\
    (idle Retrieving -> has_pending_requests (withdrawals (sys_state s)) = true ->
       fresh_estimate now (sys_state s) \/ idle Refreshing -> starting TimerRetrieve) /\
    (idle Refreshing -> ~ fresh_estimate now (sys_state s) -> starting TimerRefresh).
Proof.
  intros self keccak s H now Hnow idle starting. split; [|split; [|split; [|split]]].
  - intros Hi. exact (restart_scrape self keccak any_env s H now Hi Hnow).
  - intros e rest Hi. exact (restart_mint self keccak any_env s H now e rest Hi Hnow).
  - intros i r rest Hi. exact (restart_reimburse self keccak any_env s H now i r rest Hi Hnow).
  - intros Hi. exact (restart_retrieve self keccak any_env s H now Hi Hnow).
  - intros Hi. exact (restart_refresh self keccak any_env s H now Hi Hnow).
Qed.
Print Assumptions C28_can_start_again.

(** Minting and scraping run; scraping traps and starts again. *)
Definition both : list Label := register0 ++ scrape0 ++ [LTimer TimerMint 30; LTimer TimerScrape 31].
Example C28_witness :
  exists s, run0 both = Done s /\ reach self0 keccak0 any_env s /\
    running_activity s 2 Minting /\ running_activity s 3 Scraping /\
    (exists s', run0 (both ++ [LAnswer 3 (ReBlock (Some 105)); LDeliver 3 true 32]) = Done s' /\
       (forall r, bget 3 (sys_tasks s') <> Some r) /\
       running_activity (step self0 keccak0 s' (LTimer TimerScrape 33)) 4 Scraping).
Proof.
  destruct (run0 both) as [s|] eqn:E; [|vm_compute in E; discriminate].
  exists s. split; auto. split; [eapply any_reach; exact E|].
  vm_compute in E. injection E as <-. split; [|split].
  - do 2 eexists. split; [vm_compute; reflexivity|cbn; eauto].
  - do 2 eexists. split; [vm_compute; reflexivity|cbn; eauto].
  - eexists. split; [vm_compute; reflexivity|]. split; [vm_compute; discriminate|].
    do 2 eexists. split; [vm_compute; reflexivity|cbn; eauto].
Qed.
