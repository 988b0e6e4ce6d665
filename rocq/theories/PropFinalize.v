(** * C31: finalization never panics on honest receipts *)

From Verif Require Import Base BMap MultiKeyMap Bytes Types Amount Tx CallData Network Hex
  Transactions State Audit Ranges Rlp Parser Memo Driver Sys SysSpec WithdrawSpec TokenSpec BalanceSpec
  SolvencySpec FinalizeSpec FinalizeFacts CallFacts RecordFacts PropWithdraw PropBalance Scenario.

(** Any open withdrawal can be finalized with any honest receipt: the bookkeeping does not
    panic. No token is registered on the native ledger, the native deposits add up to less
    than 2^256-1, and the withdrawal is not one of zero tokens. *)
Theorem C31_finalizes :
  forall self keccak s r rc now, reach self keccak nonce_kept s -> native_apart (sys_state s) ->
    let h := history (sys_log s) in
    native_deposits h < U256_MAX -> In r (accepted h) -> positive r -> not_finalized h (wr_burn_index r) ->
    honest h (wr_burn_index r) rc ->
    exists c, process_event now (EvFinalizedTransaction (wr_burn_index r) rc) (sys_core s) = Done c.
Proof.
  intros self keccak s r rc now Hr Ha h Hs Hin Hp Hf Hh.
  exact (finalize_reach self keccak nonce_kept (fun _ _ H => H) now s r rc Hr Ha Hs Hin Hp Hf Hh).
Qed.
Print Assumptions C31_finalizes.

(** The timer task that asked for receipts ends without a panic when the receipts are honest
    and there is one for each withdrawal asked about. If moreover no question failed and
    no withdrawal has two receipts, all these withdrawals are finalized with their receipts. *)
Theorem C31_batch :
  forall self keccak s id hashes rs now, reach self keccak nonce_kept s -> native_apart (sys_state s) ->
    sys_clock s <= now ->
    let h := history (sys_log s) in
    native_deposits h < U256_MAX -> (forall r, In r (accepted h) -> positive r) ->
    bget id (sys_tasks s) = Some {| fl_task := TRetrieveReceipts hashes; fl_reply := Some (ReReceipts rs) |} ->
    fair h hashes rs ->
    let s' := step self keccak s (LDeliver id false now) in
    sys_outcomes s' = sys_outcomes s ++ [(id, OutTimer)] /\
    (complete hashes rs -> forall b rc, answered hashes rs b rc ->
       In (b, rc) (finalizations (history (sys_log s')))).
Proof.
  intros self keccak s id hashes rs now Hr Ha Hnow h Hs Hp Ht Hf.
  destruct (batch_reach self keccak nonce_kept (fun _ _ H => H) now s id hashes _ rs Hr Ha Hs Hp Ht Hf) as (c & Hc & Hfin).
  cbn zeta. rewrite (deliver_any self keccak s id _ _ now c _ Hnow Ht Hc).
  split; [reflexivity|exact Hfin].
Qed.
Print Assumptions C31_batch.

(** ** The hypotheses are met *)

(** Two transactions were sent; both are mined, the first with status success. *)
Definition asked_receipts (second : ReceiptReply) : list Label :=
  up_to_sent ++ ans 5 (ReCount (Some 9)) 64 ++
  [LAnswer 5 (ReReceipts [ReceiptOk (receipt0 7 21000 TxSuccess); second])].

Ltac apart_now := intros l c sy (x & Hx & Hin); vm_compute in Hx; injection Hx as <-;
  destruct Hin as [Hin|[]]; injection Hin as _ _ <-; vm_compute; discriminate.
Ltac honest_now :=
  split; [eexists; split; [eapply nth_error_In with (n := 0%nat); vm_compute; reflexivity|vm_compute; reflexivity]|
    intros x Hx _; vm_compute in Hx; destruct Hx as [<-|[]]; split; vm_compute; discriminate].

Example C31_witness :
  exists s hashes rs, reach self0 keccak0 nonce_kept s /\ native_apart (sys_state s) /\ sys_clock s <= 65 /\
    native_deposits (history (sys_log s)) < U256_MAX /\
    (forall r, In r (accepted (history (sys_log s))) -> positive r) /\
    bget 5 (sys_tasks s) = Some {| fl_task := TRetrieveReceipts hashes; fl_reply := Some (ReReceipts rs) |} /\
    fair (history (sys_log s)) hashes rs /\ complete hashes rs /\ map snd hashes = [3; 5].
Proof.
  destruct (run0 (asked_receipts (ReceiptOk (receipt0 8 60000 TxFailure)))) as [s|] eqn:E; [|vm_compute in E; discriminate].
  assert (Hr : reach self0 keccak0 nonce_kept s) by (eapply scenario_reach; [exact E|vm_compute; reflexivity]).
  vm_compute in E. injection E as <-. do 3 eexists. split; [exact Hr|]. split; [apart_now|]. split; [vm_compute; discriminate|].
  split; [vm_compute; reflexivity|]. split.
  { intros r H. vm_compute in H. destruct H as [<-|[<-|[]]]; [exact Logic.I|vm_compute; reflexivity]. }
  split; [vm_compute; reflexivity|]. split; [|split; [|vm_compute; reflexivity]].
  - split.
    + intros b rc H. destruct H as [H|[H|[]]]; injection H as <- <-; honest_now.
    + intros b H. destruct H as [<-|[<-|[]]]; eexists; [left|right; left]; reflexivity.
  - split; [intros [H|[H|[]]]; discriminate|].
    intros [|[|i]] [|[|j]] b rc rc' H1 H2; auto; try (destruct i; discriminate); try (destruct j; discriminate);
      injection H1 as <- _; discriminate.
Qed.

(** ** Without the side conditions *)

(** A user withdraws 0 tokens of a contract that nobody has deposited. The receipt is honest,
    but finalizing panics, again each time the receipts are fetched. *)
Definition scrape_native : list Label :=
  LTimer TimerScrape 20 :: ans 1 (ReBlock (Some 105)) 21 ++ ans 1 (ReLogs (LogsOk (firstn 1 logs0))) 22.
Definition zero_sent : list Label :=
  register0 ++ scrape_native ++ LTimer TimerMint 30 :: ledger_ok 2 0 31 ++ ledger_ok 2 1 32 ++
  LCall (CallWithdrawErc20 user0 0 token_ledger0 payee0) 50 ::
  ans 3 (ReFees (Some history0)) 51 ++ ledger_ok 3 4 52 ++ ledger_ok 3 5 53 ++ ledger_ok 3 1 54 ++
  LTimer TimerRetrieve 60 :: ans 4 (ReCount (Some 7)) 61 ++ ans 4 (ReSigs [Some sig0]) 62 ++ ans 4 ReSent 63.
Definition zero_receipt : Receipt :=
  {| rc_block_hash := 1; rc_block_number := 110; rc_effective_gas_price := 12; rc_gas_used := 60000;
     rc_status := TxSuccess; rc_transaction_hash := hash_of (run0 zero_sent) 7 |}.
Definition zero_asked : list Label :=
  zero_sent ++ ans 4 (ReCount (Some 8)) 64 ++ [LAnswer 4 (ReReceipts [ReceiptOk zero_receipt])].
Theorem C31_zero_refuted :
  exists self keccak s id hashes rs now, reach self keccak nonce_kept s /\ native_apart (sys_state s) /\
    sys_clock s <= now /\ native_deposits (history (sys_log s)) < U256_MAX /\
    bget id (sys_tasks s) = Some {| fl_task := TRetrieveReceipts hashes; fl_reply := Some (ReReceipts rs) |} /\
    fair (history (sys_log s)) hashes rs /\ complete hashes rs /\
    sys_outcomes (step self keccak s (LDeliver id false now)) = sys_outcomes s ++ [(id, OutTrap)].
Proof.
  destruct (run0 zero_asked) as [s|] eqn:E; [|vm_compute in E; discriminate].
  assert (Hr : reach self0 keccak0 nonce_kept s) by (eapply scenario_reach; [exact E|vm_compute; reflexivity]).
  vm_compute in E. injection E as <-. exists self0, keccak0. eexists. exists 4. do 2 eexists. exists 65.
  split; [exact Hr|]. split; [apart_now|]. split; [vm_compute; discriminate|].
  split; [vm_compute; reflexivity|]. split; [vm_compute; reflexivity|]. split; [|split].
  - split.
    + intros b rc H. destruct H as [H|[]]; injection H as <- <-; honest_now.
    + intros b H. destruct H as [<-|[]]; eexists; left; reflexivity.
  - split; [intros [H|[]]; discriminate|].
    intros [|[|i]] [|[|j]] b rc rc' H1 H2; auto; try discriminate.
  - vm_compute. reflexivity.
Qed.
Print Assumptions C31_zero_refuted.

(** The receipts given are honest, but there is none for one of the withdrawals asked about:
    the task panics and finalizes nothing. *)
Theorem C31_missing_refuted :
  exists self keccak s id hashes rs now, reach self keccak nonce_kept s /\ native_apart (sys_state s) /\
    sys_clock s <= now /\ native_deposits (history (sys_log s)) < U256_MAX /\
    (forall r, In r (accepted (history (sys_log s))) -> positive r) /\
    bget id (sys_tasks s) = Some {| fl_task := TRetrieveReceipts hashes; fl_reply := Some (ReReceipts rs) |} /\
    (forall b rc, answered hashes rs b rc -> honest (history (sys_log s)) b rc) /\
    (exists b rc, answered hashes rs b rc) /\ complete hashes rs /\
    let s' := step self keccak s (LDeliver id false now) in
    sys_outcomes s' = sys_outcomes s ++ [(id, OutTrap)] /\ finalizations (history (sys_log s')) = [].
Proof.
  destruct (run0 (asked_receipts ReceiptMissing)) as [s|] eqn:E; [|vm_compute in E; discriminate].
  assert (Hr : reach self0 keccak0 nonce_kept s) by (eapply scenario_reach; [exact E|vm_compute; reflexivity]).
  vm_compute in E. injection E as <-. exists self0, keccak0. eexists. exists 5. do 2 eexists. exists 65.
  split; [exact Hr|]. split; [apart_now|]. split; [vm_compute; discriminate|].
  split; [vm_compute; reflexivity|]. split.
  { intros r H. vm_compute in H. destruct H as [<-|[<-|[]]]; [exact Logic.I|vm_compute; reflexivity]. }
  split; [vm_compute; reflexivity|]. split; [|split; [|split; [|split]]].
  - intros b rc H. destruct H as [H|[H|[]]]; [|discriminate]; injection H as <- <-; honest_now.
  - do 2 eexists. left. reflexivity.
  - split; [intros [H|[H|[]]]; discriminate|].
    intros [|[|i]] [|[|j]] b rc rc' H1 H2; auto; try (destruct i; discriminate); try (destruct j; discriminate); discriminate.
  - vm_compute. reflexivity.
  - vm_compute. reflexivity.
Qed.
Print Assumptions C31_missing_refuted.
