(** * C21: the queue of waiting withdrawals; C54: created transactions can be recorded *)

From Verif Require Import Base BMap MultiKeyMap Bytes Types Amount Tx Network Transactions State Audit Rlp
  Driver Sys SysSpec WithdrawSpec FeeSpec FeeFacts QueueSpec QueueFacts ReadyFacts Scenario PropGuards PropWithdraw.

(** ** C21 *)

(** Every step either lets new requests join at the end of the queue, or serves the first
    requests of the queue (at most five, and only as many as keep the number of nonces in
    flight at 1000), or is an upgrade. The served requests that can pay get transactions in
    the order of the queue with consecutive nonces; the others move to the end. *)
Theorem C21_queue :
  forall self keccak s l, reach self keccak nonce_kept s ->
    queue_step s l (step self keccak s l).
Proof. intros self keccak s l. exact (queue_reach self keccak nonce_kept s l (fun _ _ H => H)). Qed.
Print Assumptions C21_queue.

(** At most 1000 nonces are in flight at any time. *)
Theorem C21_in_flight :
  forall self keccak s, reach self keccak nonce_kept s -> at_most_flying 1000 (withdrawals (sys_state s)).
Proof. intros self keccak s. exact (few_reach self keccak nonce_kept s (fun _ _ H => H)). Qed.
Print Assumptions C21_in_flight.

(** If [a] waits before [b] and [b] gets its transaction in this step, then [a] gets its own
    in the same step, before [b], or [a] could not pay the price in use. *)
Theorem C21_no_overtaking :
  forall self keccak s l a b tb cs, reach self keccak nonce_kept s ->
    before a b (queue s) ->
    created_so_far (step self keccak s l) = created_so_far s ++ cs ->
    In (wr_burn_index b, tb) cs ->
    (exists ta, before (wr_burn_index a, ta) (wr_burn_index b, tb) cs) \/
    (exists id g n now, l = LDeliver id false now /\
       bget id (sys_tasks s) = Some {| fl_task := TRetrieveCount g; fl_reply := Some (ReCount n) |} /\
       affordable g a = false).
Proof. intros self keccak s l a b tb cs. exact (no_overtaking self keccak nonce_kept s l a b tb cs (fun _ _ H => H)). Qed.
Print Assumptions C21_no_overtaking.

(** A native and a token withdrawal wait in this order; one step gives both their transactions. *)
Definition before_create : list Label :=
  register0 ++ scrape0 ++ mint0 ++ withdraw_native0 ++ withdraw_erc200 ++
  [LTimer TimerRetrieve 60; LAnswer 5 (ReCount (Some 7))].
Example C21_witness :
  exists s a b ta tb, reach self0 keccak0 nonce_kept s /\ queue s = [a; b] /\ before a b (queue s) /\
    created_so_far (step self0 keccak0 s (LDeliver 5 false 61)) =
      created_so_far s ++ [(wr_burn_index a, ta); (wr_burn_index b, tb)] /\
    queue (step self0 keccak0 s (LDeliver 5 false 61)) = [] /\ tx_nonce ta = 7 /\ tx_nonce tb = 8.
Proof.
  destruct (run0 before_create) as [s|] eqn:E; [|vm_compute in E; discriminate].
  assert (Hr : reach self0 keccak0 nonce_kept s) by (eapply scenario_reach; [exact E|vm_compute; reflexivity]).
  vm_compute in E. injection E as <-. do 5 eexists. split; [exact Hr|]. split; [vm_compute; reflexivity|].
  split; [exists [], [], []; vm_compute; reflexivity|].
  split; [vm_compute; reflexivity|]. split; [vm_compute; reflexivity|]. split; vm_compute; reflexivity.
Qed.
(** A request that cannot pay goes to the end and lets the other pass. *)
Definition before_postpone : list Label :=
  register0 ++ scrape0 ++ mint0 ++
  LCall (CallWithdrawNative user0 300000 payee0) 40 :: ledger_ok 3 2 41 ++ ledger_ok 3 3 42 ++
  withdraw_erc200 ++ [LTimer TimerRetrieve 60; LAnswer 5 (ReCount (Some 7))].
Example C21_postponed_witness :
  exists s a b tb, reach self0 keccak0 nonce_kept s /\ queue s = [a; b] /\ before a b (queue s) /\
    created_so_far (step self0 keccak0 s (LDeliver 5 false 61)) = created_so_far s ++ [(wr_burn_index b, tb)] /\
    queue (step self0 keccak0 s (LDeliver 5 false 61)) = [a].
Proof.
  destruct (run0 before_postpone) as [s|] eqn:E; [|vm_compute in E; discriminate].
  assert (Hr : reach self0 keccak0 nonce_kept s) by (eapply scenario_reach; [exact E|vm_compute; reflexivity]).
  vm_compute in E. injection E as <-. do 4 eexists. split; [exact Hr|]. split; [vm_compute; reflexivity|].
  split; [exists [], [], []; vm_compute; reflexivity|]. split; vm_compute; reflexivity.
Qed.

(** ** C54 *)

(** As long as the smallest tip the operator configured is not zero, replacing, creating and
    recording transactions never panics (short of 2^256 nonces). *)
Theorem C54_recorded_partial :
  forall self keccak s id g r n now, reach self keccak nonce_kept s ->
    bget id (sys_tasks s) = Some {| fl_task := TRetrieveCount g; fl_reply := r |} ->
    0 < min_max_priority_fee_per_gas (sys_state s) ->
    next_nonce (withdrawals (sys_state s)) + 5 <= U256_MAX ->
    exists c' nx, resume keccak now (TRetrieveCount g) (ReCount n) (sys_core s) = Done (c', nx).
Proof.
  intros self keccak s id g r n now Hr Ht Hm Hn. eapply (create_total self keccak nonce_kept); eauto.
  pose proof (fo_tasks _ (fees_reach keccak self nonce_kept s Hr) _ _ _ Ht) as [_ H]. unfold max_price. lia.
Qed.
Print Assumptions C54_recorded_partial.
(** Recording the signatures never panics, whatever the signing service answered. *)
Theorem C54_signed :
  forall self keccak s id n batch r sigs now, reach self keccak nonce_kept s ->
    bget id (sys_tasks s) = Some {| fl_task := TRetrieveSign n batch; fl_reply := r |} ->
    exists c' nx, resume keccak now (TRetrieveSign n batch) (ReSigs sigs) (sys_core s) = Done (c', nx).
Proof.
  intros self keccak s id n batch r sigs now. exact (sign_total self keccak nonce_kept s id n batch r sigs now (fun _ _ H => H)).
Qed.
Print Assumptions C54_signed.

(** With a smallest tip of zero the claim is false: when base fee and rewards are zero the
    transaction of a native withdrawal carries the whole amount, and recording it panics. *)
Definition init_no_tip : InitArg :=
  {| ia_evm_network := Sepolia; ia_ecdsa_key_name := text_of "key";
     ia_helper_contract_address := Some helper0;
     ia_native_ledger_id := native_ledger0; ia_native_index_id := [5];
     ia_native_symbol := text_of "icETH"; ia_block_height := TagFinalized;
     ia_native_minimum_withdrawal_amount := 10000; ia_native_ledger_transfer_fee := 10;
     ia_next_transaction_nonce := 7; ia_last_scraped_block_number := 100;
     ia_min_max_priority_fee_per_gas := 0; ia_ledger_suite_manager_id := manager0;
     ia_deposit_native_fee := 1000; ia_withdrawal_native_fee := 500 |}.
Definition free_blocks : FeeHistory :=
  {| fh_oldest_block := 9; fh_base_fee_per_gas := [0; 0]; fh_reward := [[0; 0; 0]] |}.
Definition before_free : list Label :=
  register0 ++ scrape0 ++ mint0 ++ withdraw_native0 ++
  LTimer TimerRetrieve 60 :: ans 4 (ReFees (Some free_blocks)) 61.
Theorem C54_zero_fee_refuted :
  exists self keccak s id g n now, reach self keccak nonce_kept s /\
    bget id (sys_tasks s) = Some {| fl_task := TRetrieveCount g; fl_reply := None |} /\
    next_nonce (withdrawals (sys_state s)) + 5 <= U256_MAX /\
    exists m, resume keccak now (TRetrieveCount g) (ReCount n) (sys_core s) = Panic m.
Proof.
  destruct (run_from init_no_tip before_free) as [s|] eqn:E; [|vm_compute in E; discriminate].
  assert (Hr : reach self0 keccak0 nonce_kept s).
  { eapply reach_run_from; [exact E|vm_compute; reflexivity|]. intros x [] Hl; try exact Logic.I. discriminate. }
  vm_compute in E. injection E as <-. exists self0, keccak0. eexists. exists 4. eexists. exists (Some 7), 62.
  split; [exact Hr|]. split; [vm_compute; reflexivity|]. split; [vm_compute; discriminate|].
  eexists. vm_compute. reflexivity.
Qed.
Print Assumptions C54_zero_fee_refuted.

Example C54_witness :
  exists s g r, reach self0 keccak0 nonce_kept s /\
    bget 5 (sys_tasks s) = Some {| fl_task := TRetrieveCount g; fl_reply := r |} /\
    0 < min_max_priority_fee_per_gas (sys_state s) /\
    next_nonce (withdrawals (sys_state s)) + 5 <= U256_MAX /\ queue s <> [].
Proof.
  destruct (run0 before_create) as [s|] eqn:E; [|vm_compute in E; discriminate].
  assert (Hr : reach self0 keccak0 nonce_kept s) by (eapply scenario_reach; [exact E|vm_compute; reflexivity]).
  vm_compute in E. injection E as <-. do 3 eexists. split; [exact Hr|]. split; [vm_compute; reflexivity|].
  split; [vm_compute; reflexivity|]. split; vm_compute; discriminate.
Qed.
Example C54_signed_witness :
  exists s n b1 b2 x1 x2 r, reach self0 keccak0 nonce_kept s /\
    bget 5 (sys_tasks s) = Some {| fl_task := TRetrieveSign n [(b1, x1); (b2, x2)]; fl_reply := r |}.
Proof.
  destruct (run0 (before_create ++ [LDeliver 5 false 61])) as [s|] eqn:E; [|vm_compute in E; discriminate].
  assert (Hr : reach self0 keccak0 nonce_kept s) by (eapply scenario_reach; [exact E|vm_compute; reflexivity]).
  vm_compute in E. injection E as <-. do 7 eexists. split; [exact Hr|]. vm_compute. reflexivity.
Qed.
