(** * C72: every call and every round of work comes to an end *)

From Verif Require Import Base BMap MultiKeyMap Bytes Types Amount Tx CallData Network Hex
  Transactions State Audit Ranges Rlp Parser Memo Driver Sys SysSpec WithdrawSpec
  EndSpec EndFacts PropGuards Scenario.

(** However the other calls, the timers, the answers and the traps are interleaved, a call
    ends, with one result, once it has received a fixed number of answers: three for a
    withdrawal of the native currency, five for one of tokens, none for the others. *)
Theorem C72_calls_end :
  forall self keccak s u now ls, reach self keccak any_env s -> sys_clock s <= now ->
    let id := sys_next s in
    let s1 := step self keccak s (LCall u now) in
    let s' := run self keccak s1 ls in
    let answers := received self keccak s1 id ls in
    ended s' id /\ answers <= call_answers u \/ suspended s' id /\ answers < call_answers u.
Proof. intros self keccak. exact (call_ends self keccak any_env). Qed.
Print Assumptions C72_calls_end.

(** So does a round of minting, of processing withdrawals, of reimbursing or of refreshing the
    fee estimate. The number of answers depends on the work found at its start only: what
    arrives during the round waits for the next one. *)
Theorem C72_rounds_end :
  forall self keccak s k now n ls, reach self keccak any_env s -> sys_clock s <= now ->
    round_answers k (sys_state s) = Some n ->
    let id := sys_next s in
    let s1 := step self keccak s (LTimer k now) in
    let s' := run self keccak s1 ls in
    let answers := received self keccak s1 id ls in
    ended s' id /\ answers <= n \/ suspended s' id /\ answers < n.
Proof. intros self keccak. exact (round_ends self keccak any_env). Qed.
Print Assumptions C72_rounds_end.

(** The same from the middle of a call or a round *)
Theorem C72_running_ends :
  forall self keccak s id t r ls, reach self keccak any_env s ->
    bget id (sys_tasks s) = Some {| fl_task := t; fl_reply := r |} -> is_scrape t = false ->
    let s' := run self keccak s ls in
    let answers := received self keccak s id ls in
    ended s' id /\ answers <= most_answers t \/ suspended s' id /\ answers < most_answers t.
Proof. intros self keccak. exact (ends_soon self keccak any_env). Qed.
Print Assumptions C72_running_ends.

(** And nothing can get stuck: whatever runs in whatever state, scraping included, there are
    answers that end it, and nothing else has to happen for that. *)
Theorem C72_can_end :
  forall self keccak s id, reach self keccak any_env s -> suspended s id ->
    exists ls, Forall (concerns id) ls /\ ended (run self keccak s ls) id.
Proof. intros self keccak. exact (can_end self keccak any_env). Qed.
Print Assumptions C72_can_end.

(** The ERC20 withdrawal of the scenario receives four answers and ends, since no refund is
    needed; with one answer less it is suspended. *)
Definition until_erc20 : list Label := register0 ++ scrape0 ++ mint0 ++ withdraw_native0.
Definition u72 : UserCall := CallWithdrawErc20 user0 3000 token_ledger0 payee0.
Definition rest72 : list Label := tl withdraw_erc200.
Example C72_witness :
  exists s, reach self0 keccak0 any_env s /\ sys_clock s <= 50 /\
    let s1 := step self0 keccak0 s (LCall u72 50) in
    received self0 keccak0 s1 (sys_next s) rest72 = 4 /\ ended (run self0 keccak0 s1 rest72) (sys_next s) /\
    received self0 keccak0 s1 (sys_next s) (removelast rest72) = 3 /\
    suspended (run self0 keccak0 s1 (removelast rest72)) (sys_next s).
Proof.
  destruct (run0 until_erc20) as [s|] eqn:E; [|vm_compute in E; discriminate].
  pose proof (any_reach _ _ E) as Hr. exists s. split; [exact Hr|].
  assert (Hc : sys_clock s <= 50) by (vm_compute in E; injection E as <-; vm_compute; discriminate).
  split; [exact Hc|]. cbv zeta.
  assert (Hn : suspended (run self0 keccak0 (step self0 keccak0 s (LCall u72 50)) rest72) (sys_next s) -> False).
  { vm_compute in E; injection E as <-. intros H. apply H. vm_compute. reflexivity. }
  split; [vm_compute in E; injection E as <-; vm_compute; reflexivity|]. split.
  - destruct (C72_calls_end self0 keccak0 s u72 50 rest72 Hr Hc) as [(H & _)|(H & _)]; [exact H|destruct (Hn H)].
  - split; [vm_compute in E; injection E as <-; vm_compute; reflexivity|].
    vm_compute in E; injection E as <-. unfold suspended. vm_compute. discriminate.
Qed.
