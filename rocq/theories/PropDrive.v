(** * C68: an accepted withdrawal can always still be completed *)

From Verif Require Import Base BMap MultiKeyMap Bytes Types Amount Tx CallData Network Transactions State
  Audit Rlp Memo Driver Sys SysSpec WithdrawSpec FeeSpec QueueSpec BalanceSpec SolvencySpec FinalizeSpec
  DriveSpec DriveRound Scenario PropWithdraw PropSolvency PropFinalize.

(** Whatever has happened so far (failed calls, traps, upgrades, a half-finished round with
    answers on their way), first let everything that is under way fail; then timers that
    fire, nodes that answer and a signer that signs are enough to finalize every accepted
    withdrawal. No withdrawal is lost on the way, and each finalization that is added
    carries the receipt that the network gives for a transaction signed for this very
    withdrawal. The fees, signatures and receipts are given from outside, and only have to
    be ones the network can return. Those withdrawals that have no transaction yet must be
    able to pay the price ([servable]; a queue with others in it is C54). ERC-20 withdrawals
    of 0 tokens are excluded (they cannot be finalized: C31_zero_refuted). *)
Theorem C68_withdrawals_can_be_finalized :
  forall self keccak fees sign mine s, fair_receipts mine -> reach self keccak nonce_kept s ->
    servable fees s -> native_apart (sys_state s) -> native_deposits (history (sys_log s)) < U256_MAX ->
    (forall r, In r (accepted (history (sys_log s))) -> positive r) ->
    exists ls1 ls2, Forall failing ls1 /\ helped fees sign mine self keccak (run self keccak s ls1) ls2 /\
      let before := history (sys_log (run self keccak s ls1)) in
      let after := history (sys_log (run self keccak s (ls1 ++ ls2))) in
      accepted after = accepted (history (sys_log s)) /\
      (forall r, In r (accepted after) -> exists rc, In (wr_burn_index r, rc) (finalizations after)) /\
      (forall b rc, In (b, rc) (finalizations after) -> In (b, rc) (finalizations before) \/
         exists h x, In x (attempts after b) /\ rc = mine h b (st_hash x)).
Proof.
  intros self keccak fees sign mine s Hm Hr Hs Ha Hd Hp.
  destruct (drive self keccak fees sign mine Hm s Hr Hs Ha Hd Hp) as (ls1 & ls2 & H1 & H2 & H3 & H4 & H5).
  exists ls1, ls2. split; [exact H1|]. split; [exact H2|]. split; [exact H3|]. split; [|exact H5].
  intros r Hin. apply H4 in Hin. apply in_map_iff in Hin as ((b & rc) & E & Hin). cbn in E. subst b. eauto.
Qed.
Print Assumptions C68_withdrawals_can_be_finalized.

(** ** The hypotheses are met *)

(** Receipts that use up all the gas, at the highest price, that the transactions with this
    hash allow *)
Definition lowest (f : Tx -> N) (h : list EventType) (b : N) (hash : Hash) : N :=
  fold_right N.min 100000000 (map (fun x => f (st_tx x)) (filter (fun x => st_hash x =? hash) (attempts h b))).
Definition mine0 (h : list EventType) (b : N) (hash : Hash) : Receipt :=
  {| rc_block_hash := 1; rc_block_number := 110; rc_effective_gas_price := lowest tx_max_fee_per_gas h b hash;
     rc_gas_used := lowest tx_gas_limit h b hash; rc_status := TxSuccess; rc_transaction_hash := hash |}.
Lemma lowest_le f h b x : In x (attempts h b) -> lowest f h b (st_hash x) <= f (st_tx x).
Proof.
  intros H. unfold lowest. assert (Hin : In x (filter (fun y => st_hash y =? st_hash x) (attempts h b)))
    by (apply filter_In; split; [exact H|apply N.eqb_refl]).
  induction (filter (fun y => st_hash y =? st_hash x) (attempts h b)) as [|y l IH]; [destruct Hin|].
  cbn [map fold_right]. destruct Hin as [->|Hin]; [lia|]. specialize (IH Hin). lia.
Qed.
Example C68_receipts : fair_receipts mine0.
Proof.
  intros h b x Hx. split; [reflexivity|]. split.
  - exists x. auto.
  - intros y Hy E. cbn in E. cbn [mine0 rc_effective_gas_price rc_gas_used]. rewrite <- E. split; apply lowest_le; exact Hy.
Qed.
(** A round has started; both withdrawals still wait for their transactions. *)
Definition round_begun : list Label :=
  register0 ++ scrape0 ++ mint0 ++ withdraw_native0 ++ withdraw_erc200 ++ [LTimer TimerRetrieve 60].
Example C68_witness :
  exists s, reach self0 keccak0 nonce_kept s /\ servable history0 s /\ native_apart (sys_state s) /\
    native_deposits (history (sys_log s)) < U256_MAX /\
    (forall r, In r (accepted (history (sys_log s))) -> positive r) /\
    map wr_burn_index (queue s) = [3; 5] /\ finalizations (history (sys_log s)) = [] /\ sys_tasks s <> [].
Proof.
  destruct (run0 round_begun) as [s|] eqn:E; [|vm_compute in E; discriminate].
  assert (Hr : reach self0 keccak0 nonce_kept s) by (eapply scenario_reach; [exact E|vm_compute; reflexivity]).
  vm_compute in E. injection E as <-. eexists. split; [exact Hr|]. split.
  - constructor; [|vm_compute; discriminate]. eexists. split; [vm_compute; reflexivity|]. split; [vm_compute; reflexivity|].
    intros r H. vm_compute in H. destruct H as [<-|[<-|[]]]; vm_compute; reflexivity.
  - split; [apart_now|]. split; [vm_compute; reflexivity|]. split.
    { intros r H. vm_compute in H. destruct H as [<-|[<-|[]]]; [exact Logic.I|vm_compute; reflexivity]. }
    split; [vm_compute; reflexivity|]. split; [vm_compute; reflexivity|discriminate].
Qed.
