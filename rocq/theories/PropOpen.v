(** * C80: upgrading a canister that was not stopped *)

From Verif Require Import Base BMap MultiKeyMap Bytes Types Amount Tx Transactions State Audit Ranges Parser Memo
  Driver Sys SysSpec DepositSpec BurnSpec CallSpec Scenario PropGuards PropDeposit OpenSpec OpenFacts.

(** ** Upgrades while no ledger call is outstanding

    One such upgrade leads where failing answers followed by an upgrade of the stopped canister
    lead: to the same state and log, with the same blocks on the ledgers. *)
Theorem C80_one_upgrade self keccak env s a now :
  tolerant env -> reach self keccak env s -> env s (LUpgrade a now) -> no_ledger_call self s ->
  exists s', reach self keccak env s' /\ same_but_outcomes (upgrade_running a now s) s'.
Proof. intros He Hr Hu Hn. exact (open_upgrade self keccak env a now s He Hr Hu Hn). Qed.
Print Assumptions C80_one_upgrade.

(** However often it happens: everything that holds of the state, the log and the ledgers in all
    runs with stopped upgrades holds in all runs with such upgrades. *)
Theorem C80_as_if_stopped self keccak env s :
  tolerant env -> reach_running self keccak env s ->
  exists s', reach self keccak env s' /\ same_but_outcomes s s'.
Proof. exact (running_reach self keccak env s). Qed.
Print Assumptions C80_as_if_stopped.

(** Two of the assumptions on the environment used by other theorems *)
Theorem C80_tolerant : tolerant any_env /\ tolerant nonce_kept.
Proof. split; [exact tolerant_any|exact tolerant_nonce]. Qed.
Print Assumptions C80_tolerant.

(** For example, every deposit is minted at most once *)
Theorem C80_minted_at_most_once self keccak s src :
  reach_running self keccak any_env s -> (List.length (mints_for src (sys_ops s)) <= 1)%nat.
Proof.
  intros H. destruct (running_reach self keccak any_env s tolerant_any H) as (s' & Hr & _ & _ & _ & _ & <- & _).
  exact (C01_minted_at_most_once self keccak s' Hr src).
Qed.
Print Assumptions C80_minted_at_most_once.

(** ** While a ledger call is outstanding

    The ledger has minted a deposit, and before the answer is processed the canister is upgraded
    without being stopped: the deposit is minted again. *)
Definition minting0 : list Label :=
  register0 ++ scrape0 ++ [LTimer TimerMint 30; LAnswer 2 (ReLedger (LedgerOk 0))].
Theorem C80_minted_twice_refuted :
  exists s ls, reach self0 keccak0 any_env s /\ ~ no_ledger_call self0 s /\
    let s' := run self0 keccak0 (upgrade_running None 35 s) ls in
    List.length (mints_for (11, 1) (sys_ops s')) = 2%nat.
Proof.
  destruct (run0 minting0) as [s|] eqn:E; [|vm_compute in E; discriminate E].
  assert (Hr : reach self0 keccak0 any_env s) by (eapply any_reach; exact E).
  vm_compute in E. injection E as <-.
  eexists _, [LTimer TimerMint 36; LAnswer 3 (ReLedger (LedgerOk 1))]. split; [exact Hr|]. split.
  - intros H. match type of H with no_ledger_call _ ?x =>
      destruct (sys_tasks x) as [|[id fl] l] eqn:Et; [discriminate Et|] end.
    specialize (H id fl). rewrite Et in H. specialize (H (or_introl eq_refl)).
    injection Et as <- <- <-. discriminate H.
  - vm_compute. reflexivity.
Qed.
Print Assumptions C80_minted_twice_refuted.

(** The ledger has burned the tokens of a withdrawal: they are lost, no request is recorded and
    nothing is left that could record it. *)
Definition burning0 : list Label :=
  register0 ++ scrape0 ++ mint0 ++
  LCall (CallWithdrawNative user0 50000000 payee0) 40 :: ledger_ok 3 2 41 ++ [LAnswer 3 (ReLedger (LedgerOk 3))].
Lemma not_recorded (l : list Event) :
  forallb (fun e => match ev_payload e with EvAcceptedNativeWithdrawalRequest _ => false | _ => true end) l = true ->
  forall q, ~ In (EvAcceptedNativeWithdrawalRequest q) (map ev_payload l).
Proof.
  intros Hb q Hin. apply in_map_iff in Hin as (e & He & Hin). rewrite forallb_forall in Hb.
  specialize (Hb e Hin). rewrite He in Hb. discriminate Hb.
Qed.
Theorem C80_burn_lost_refuted :
  exists s destination, reach self0 keccak0 any_env s /\
    let s' := upgrade_running None 45 s in
    sys_tasks s' = [] /\
    In (burn_of self0 native_ledger0 (default_account user0) 49999500 (BurnConvert destination), 3) (sys_ops s') /\
    forall q, ~ In (EvAcceptedNativeWithdrawalRequest q) (map ev_payload (sys_log s')).
Proof.
  destruct (run0 burning0) as [s|] eqn:E; [|vm_compute in E; discriminate E].
  assert (Hr : reach self0 keccak0 any_env s) by (eapply any_reach; exact E).
  vm_compute in E. injection E as <-. do 2 eexists. split; [exact Hr|]. cbn zeta.
  split; [vm_compute; reflexivity|].
  split; [eapply nth_error_In with (n := 4%nat); vm_compute; reflexivity|].
  apply not_recorded. vm_compute. reflexivity.
Qed.
Print Assumptions C80_burn_lost_refuted.

(** ** The hypotheses are met: the canister is upgraded while it waits for logs, then scrapes
    again and mints both deposits *)
Definition scraping0 : list Label := register0 ++ LTimer TimerScrape 20 :: ans 1 (ReBlock (Some 105)) 21.
Definition again0 : list Label :=
  LTimer TimerScrape 50 :: ans 2 (ReBlock (Some 105)) 51 ++ ans 2 (ReLogs (LogsOk logs0)) 52 ++
  LTimer TimerMint 60 :: ledger_ok 3 0 61 ++ ledger_ok 3 1 62 ++ ledger_ok 3 0 63.
Lemma running_run s ls : reach_running self0 keccak0 any_env s -> reach_running self0 keccak0 any_env (run self0 keccak0 s ls).
Proof. revert s. induction ls as [|l ls IH]; intros s H; [exact H|]. apply IH. apply rr_step; [exact H|exact Logic.I]. Qed.
Definition minted_both (r : res Sys) : bool :=
  match r with
  | Done s =>
      let s' := upgrade_running None 40 s in
      let s2 := run self0 keccak0 s' again0 in
      negb (match sys_tasks s with [] => true | _ => false end) &&
      match sys_tasks s' with [] => true | _ => false end &&
      Nat.eqb (List.length (mints_for (11, 1) (sys_ops s2))) 1 &&
      Nat.eqb (List.length (mints_for (22, 2) (sys_ops s2))) 1
  | Panic _ => false
  end.
Example C80_witness :
  exists s, reach self0 keccak0 any_env s /\ sys_tasks s <> [] /\ no_ledger_call self0 s /\
    let s' := upgrade_running None 40 s in
    sys_tasks s' = [] /\ reach_running self0 keccak0 any_env (run self0 keccak0 s' again0) /\
    List.length (mints_for (11, 1) (sys_ops (run self0 keccak0 s' again0))) = 1%nat /\
    List.length (mints_for (22, 2) (sys_ops (run self0 keccak0 s' again0))) = 1%nat.
Proof.
  destruct (run0 scraping0) as [s|] eqn:E; [|vm_compute in E; discriminate E].
  assert (Hr : reach self0 keccak0 any_env s) by (eapply any_reach; exact E).
  assert (Hb : minted_both (run0 scraping0) = true) by (vm_compute; reflexivity).
  rewrite E in Hb. cbn [minted_both] in Hb. apply andb_true_iff in Hb as [Hb H4]. apply andb_true_iff in Hb as [Hb H3].
  apply andb_true_iff in Hb as [H1 H2]. apply Nat.eqb_eq in H3, H4.
  assert (Hn : no_ledger_call self0 s).
  { assert (Ht : forallb (fun x => negb (is_some (task_call self0 (fl_task (snd x)))))
      (match run0 scraping0 with Done s => sys_tasks s | Panic _ => [] end) = true) by (vm_compute; reflexivity).
    rewrite E in Ht. intros id fl Hin. rewrite forallb_forall in Ht. specialize (Ht _ Hin). cbn in Ht.
    destruct (task_call self0 (fl_task fl)); [discriminate Ht|reflexivity]. }
  exists s. split; [exact Hr|]. split; [intros Hs; rewrite Hs in H1; discriminate H1|]. split; [exact Hn|]. cbn zeta.
  split; [destruct (sys_tasks (upgrade_running None 40 s)); [reflexivity|discriminate H2]|].
  split; [|split; [exact H3|exact H4]]. apply running_run. apply rr_upgrade; [|exact Logic.I|exact Hn].
  clear - Hr. induction Hr as [now a s H|s l H IH Hl]; [eapply rr_init; exact H|apply rr_step; auto].
Qed.
