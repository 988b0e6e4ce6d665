(** * C87: the time of the oldest withdrawal that is not complete *)

From Verif Require Import Base BMap MultiKeyMap Bytes Types Amount Tx CallData Network Hex
  Transactions State Audit Ranges Rlp Parser Memo Driver Sys SysSpec WtInv CoreInv WithdrawSpec OldestSpec
  WithdrawFacts StageFacts OldestFacts Scenario.

(** Every accepted withdrawal bears a time. *)
Theorem C87_dated :
  forall self keccak env s r, reach self keccak env s -> In r (accepted (history (sys_log s))) ->
    exists t, wr_created_at r = Some t.
Proof. exact accepted_dated. Qed.
Print Assumptions C87_dated.

(** The time given is that of an incomplete withdrawal, and no incomplete withdrawal is older.
    No time is given exactly when every accepted withdrawal has been finalized. *)
Theorem C87_oldest :
  forall self keccak s, reach self keccak nonce_kept s ->
    let h := history (sys_log s) in
    match oldest_incomplete_withdrawal_timestamp (withdrawals (sys_state s)) with
    | Some t => (exists r, incomplete h r /\ wr_created_at r = Some t) /\
                forall r t', incomplete h r -> wr_created_at r = Some t' -> t <= t'
    | None => forall r, ~ incomplete h r
    end.
Proof.
  intros self keccak s Hr h. destruct (reach_wlog self keccak nonce_kept (fun _ _ H => H) s Hr) as (Hc & Hp & _).
  pose proof (core_wt _ _ Hc) as Hi. pose proof (incomplete_tables _ _ Hi Hp) as Hin. fold h in Hin.
  change (fst (sys_core s)) with (sys_state s) in Hin.
  unfold oldest_incomplete_withdrawal_timestamp.
  set (l := pending (withdrawals (sys_state s)) ++ maybe_reimburse_requests (withdrawals (sys_state s))) in *.
  pose proof (min_opt_spec (flat_map (fun r => match wr_created_at r with Some t => [t] | None => [] end) l)) as H.
  destruct (min_opt _) as [t|].
  - destruct H as [H1 H2]. split.
    + apply in_flat_map in H1 as (r & Hl & Ht). exists r. split; [apply Hin; exact Hl|].
      destruct (wr_created_at r) as [t'|]; [|destruct Ht]. destruct Ht as [->|[]]. reflexivity.
    + intros r t' Ho Ht. apply H2. apply in_flat_map. exists r. split; [apply Hin; exact Ho|]. rewrite Ht. left. reflexivity.
  - intros r Ho. destruct (accepted_dated self keccak nonce_kept s r Hr (proj1 Ho)) as (t & Ht).
    assert (Hx : In t []); [|destruct Hx]. rewrite <- H. apply in_flat_map. exists r. split; [apply Hin; exact Ho|]. rewrite Ht. left. reflexivity.
Qed.
Print Assumptions C87_oldest.

(** Two withdrawals: the first one's time is told until its receipt is recorded, then the
    second one's. *)
Example C87_witness :
  let told ls := match run0 ls with
                 | Done s => Some (oldest_incomplete_withdrawal_timestamp (withdrawals (sys_state s)),
                                   map wr_created_at (accepted (history (sys_log s))))
                 | _ => None
                 end in
  told (register0 ++ scrape0 ++ mint0) = Some (None, []) /\
  told up_to_sent = Some (Some 41, [Some 41; Some 52]) /\
  told (up_to_sent ++ finalize0) = Some (Some 52, [Some 41; Some 52]).
Proof. vm_compute. repeat split. Qed.
