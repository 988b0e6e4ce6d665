(** * C43, C62 and C63 for whole histories.

    When everything that comes from outside fits the types that the code declares for it
    ([ok_label] and [typed_start], TypedSpec.v), so does everything that the canister
    records and sends: no hypothesis on recorded values is left. *)

From Verif Require Import Base BMap MultiKeyMap Bytes Types Amount Tx CallData Network Hex
  Transactions State Audit Ranges Rlp Parser Memo Driver Sys SysSpec Scenario Cbor CborSpec MemoFacts TypedSpec TypedFacts.

(** ** C43 *)

(** No ledger has two transfers of the minter with the same memo. *)
Theorem C43_history_unique :
  forall self keccak s, reach self keccak typed_nonce_kept s -> typed_start keccak s ->
    NoDup (map (fun x => (fst x, mint_memo_bytes (snd x))) (mint_memos (sys_ops s))).
Proof. exact typed_memos_unique. Qed.
Print Assumptions C43_history_unique.
(** Every memo that the minter sent to a ledger decodes back to what it stands for. *)
Theorem C43_history_mints_decode :
  forall self keccak s l to v m b, reach self keccak typed_env s -> typed_start keccak s ->
    In (Transfer l to v (Some (MemoMint m)), b) (sys_ops s) -> forall rest, dec_mint_memo (mint_memo_bytes m ++ rest) = DOk m rest.
Proof. exact typed_mint_decodes. Qed.
Print Assumptions C43_history_mints_decode.
Theorem C43_history_burns_decode :
  forall self keccak s l from to v m b, reach self keccak typed_env s -> typed_start keccak s ->
    In (TransferFrom l from to v (Some (MemoBurn m)), b) (sys_ops s) ->
    forall rest, dec_burn_memo (burn_memo_bytes m ++ rest) = DOk m rest.
Proof. exact typed_burn_decodes. Qed.
Print Assumptions C43_history_burns_decode.

(** ** C62 *)

(** The log of every history is read back from stable memory as it was recorded. *)
Theorem C62_history_survives :
  forall self keccak s, reach self keccak typed_env s -> typed_start keccak s ->
    map (load_event keccak) (map store_event (sys_log s)) = map Done (sys_log s).
Proof. exact typed_log_survives. Qed.
Print Assumptions C62_history_survives.

(** ** C63 *)

(** No burn of any history has a memo above 80 bytes. *)
Theorem C63_history_burn_memos :
  forall self keccak s l from to v m b, reach self keccak typed_env s -> typed_start keccak s ->
    In (TransferFrom l from to v (Some (MemoBurn m)), b) (sys_ops s) -> (List.length (burn_memo_bytes m) <= 80)%nat.
Proof. exact typed_burn_size. Qed.
Print Assumptions C63_history_burn_memos.

(** Deposits, both kinds of withdrawals and a reimbursement. *)
Ltac fits :=
  lazymatch goal with
  | |- True => exact Logic.I
  | |- _ /\ _ => split; fits
  | |- Forall _ [] => apply Forall_nil
  | |- Forall _ (_ :: _) => apply Forall_cons; [cbv beta; fits|fits]
  | |- bytes_of _ _ => unfold bytes_of; fits
  | |- principal _ => unfold principal; fits
  | |- string_of _ => unfold string_of; fits
  | |- ok_log _ => unfold ok_log; cbn [le_topics le_data le_block_number le_transaction_hash le_log_index]; fits
  | |- ok_receipt _ => unfold ok_receipt; cbn [rc_block_hash rc_block_number rc_effective_gas_price rc_gas_used rc_transaction_hash]; fits
  | |- optional _ _ => cbn [optional]; fits
  | |- scalar _ => left; reflexivity
  | |- (_ <= _)%nat => cbn; lia
  | |- (match _ with ReceiptOk _ => _ | _ => _ end) => cbv beta iota; fits
  | |- _ => vm_compute; reflexivity
  end.
Example C62_history_witness :
  exists s, reach self0 keccak0 typed_nonce_kept s /\ typed_start keccak0 s /\ (List.length (sys_log s) >= 10)%nat /\
    List.length (mint_memos (sys_ops s)) = 3%nat.
Proof.
  assert (Hl : Forall ok_label all0).
  { match goal with |- Forall ?P ?l => let l' := eval vm_compute in l in change (Forall P l') end.
    repeat (apply Forall_cons; [cbn [ok_label ok_reply ok_call fh_base_fee_per_gas fh_reward sg_r sg_s at_ledger_id]; fits|]). apply Forall_nil. }
  destruct (run0 all0) as [s|] eqn:E; [|vm_compute in E; discriminate].
  assert (Hr : reach self0 keccak0 typed_nonce_kept s).
  { eapply reach_run0; [exact E|]. intros x l Hin. split; [rewrite Forall_forall in Hl; auto|].
    assert (Hu : forallb no_upgrade all0 = true) by (vm_compute; reflexivity). rewrite forallb_forall in Hu. specialize (Hu _ Hin).
    destruct l; try exact Logic.I. discriminate. }
  vm_compute in E. injection E as <-. eexists. split; [exact Hr|]. split; [|split; [vm_compute; lia|vm_compute; reflexivity]].
  unfold typed_start, sys_log. cbn [sys_core snd]. unfold ok_event. cbn [ev_timestamp ev_payload ok_payload]. split; [vm_compute; reflexivity|].
  unfold ok_init. cbn [ia_ecdsa_key_name ia_helper_contract_address ia_native_ledger_id ia_native_index_id ia_native_symbol
    ia_native_minimum_withdrawal_amount ia_native_ledger_transfer_fee ia_next_transaction_nonce ia_last_scraped_block_number
    ia_min_max_priority_fee_per_gas ia_ledger_suite_manager_id ia_deposit_native_fee ia_withdrawal_native_fee]. fits.
Qed.
