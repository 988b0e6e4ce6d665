(** * C82 the network accepts the minter's transactions as the minter's *)

From Verif Require Import Base BMap MultiKeyMap MultiKeyMapFacts Bytes Types Amount Tx CallData
  Network Hex Transactions State Audit Ranges Rlp Parser Memo Driver Sys SysSpec WithdrawSpec Lifting
  RlpSpec CborSpec TypedSpec Sign NetSpec NetFacts SignSpec SignFacts Keccak Scenario PropTyped PropNet PropContract.

(** ** C82 *)

(** Whatever the management canister answers: a signature that the minter takes recovers,
    from the hash of the transaction, to the minter's key. *)
Theorem C82_signature_is_the_minters :
  forall keccak Key recovery_id recover, ids_recover Key recovery_id recover ->
    forall (key : Key) t answer sg, sign_tx keccak Key recovery_id key t answer = Done (Some sg) ->
      recover (keccak (signing_payload t)) (sg_y_parity sg) (sg_r sg) (sg_s sg) = Some key /\
      exists bytes, answer = Some bytes /\ List.length bytes = 64%nat /\
        sg_r sg = of_be (firstn 32 bytes) /\ sg_s sg = of_be (skipn 32 bytes).
Proof.
  intros keccak Key rid rec Hlib key t a sg H. split; [exact (sign_genuine keccak Key rid rec Hlib key t a sg H)|].
  unfold sign_tx in H. destruct a as [a|]; [|discriminate H]. exists a. split; auto.
  destruct (Nat.eqb_spec (List.length a) 64) as [Hl|]; [|discriminate H]. split; auto.
  cbn [negb] in H. destruct (rid key (signing_hash keccak t) a) as [[[|] y]|]; try discriminate H.
  unfold split_in_two in H. injection H as <-. split; reflexivity.
Qed.
Print Assumptions C82_signature_is_the_minters.

(** In every history whose signatures come from the signing service: every transaction that
    is recorded as signed, and every one that is being sent, is read by the network as that
    transaction, sent by the owner of the minter's key, for the minter's network, and it is
    found there under the hash the minter keeps. *)
Theorem C82_accepted_as_the_minters :
  forall self keccak Key recovery_id recover, ids_recover Key recovery_id recover ->
    forall (key : Key) s, reach self keccak (signing_env keccak Key recovery_id key) s -> typed_start keccak s ->
      (forall b t, In (EvSignedTransaction b t) (history (sys_log s)) ->
         accepted_as keccak Key recover key (evm_network (sys_state s)) t) /\
      (forall txs t, running s (TRetrieveSend txs) -> In t txs ->
         accepted_as keccak Key recover key (evm_network (sys_state s)) t).
Proof.
  intros self keccak Key rid rec Hlib key s Hr Hst. split.
  - intros b t. exact (signed_accepted self keccak Key rid rec Hlib key s b t Hr Hst).
  - intros txs t. exact (sent_accepted self keccak Key rid rec Hlib key s txs t Hr Hst).
Qed.
Print Assumptions C82_accepted_as_the_minters.

(** Bytes have one sender and one meaning. *)
Theorem C82_one_sender :
  forall keccak Key recover raw, byte_list raw ->
    forall (k k' : Key) t t', sent_by keccak Key recover k t raw -> sent_by keccak Key recover k' t' raw -> k = k' /\ t = t'.
Proof.
  intros keccak Key rec raw Hb k k' t t' (sg & p & H1 & Hp & H2 & H3) (sg' & p' & H1' & Hp' & H2' & H3').
  rewrite H1 in H1'. injection H1' as <- <-. apply read_unsigned_inv in H2; auto. apply read_unsigned_inv in H2'; auto. subst.
  rewrite H3 in H3'. injection H3' as <-. auto.
Qed.
Print Assumptions C82_one_sender.

(** *** A library for the examples: a signature of the key is any pair with that sum. *)
Definition sum_recover (d : Hash) (y : bool) (r s : N) : option N := if y then None else Some (r + s).
Definition sum_id (k : N) (d : Hash) (sig : list N) : option (bool * bool) :=
  if of_be (firstn 32 sig) + of_be (skipn 32 sig) =? k then Some (false, false) else None.

Example C82_witness :
  ids_recover N sum_id sum_recover /\
  (exists a sg, sign_tx keccak0 N sum_id 11 sepolia_tx (Some a) = Done (Some sg) /\ sg_r sg = 5 /\ sg_s sg = 6) /\
  sign_tx keccak0 N sum_id 11 sepolia_tx (Some (be_bytes 32 7 ++ be_bytes 32 7)) = Panic "BUG: failed to recover public key" /\
  sign_tx keccak0 N sum_id 11 sepolia_tx (Some [1]) = Panic "BUG: invalid signature from management canister. Expected 64 bytes" /\
  exists s txs, reach self0 keccak0 (signing_env keccak0 N sum_id 11) s /\ typed_start keccak0 s /\
    running s (TRetrieveSend txs) /\ List.length txs = 2%nat /\
    exists b t, In (EvSignedTransaction b t) (history (sys_log s)).
Proof.
  assert (Hsign : forall t, sign_tx keccak0 N sum_id 11 t (Some (be_bytes 32 5 ++ be_bytes 32 6)) = Done (Some sig0)).
  { intros t. unfold sign_tx. replace (sum_id 11 (signing_hash keccak0 t) (be_bytes 32 5 ++ be_bytes 32 6)) with (Some (false, false))
      by (vm_compute; reflexivity). vm_compute. reflexivity. }
  split; [|split; [|split; [|split]]].
  - intros k d sig y _. unfold sum_id, sum_recover. destruct (N.eqb_spec (of_be (firstn 32 sig) + of_be (skipn 32 sig)) k); [|discriminate].
    intros H. injection H as <-. subst. reflexivity.
  - exists (be_bytes 32 5 ++ be_bytes 32 6), sig0. split; [apply Hsign|split; reflexivity].
  - vm_compute. reflexivity.
  - vm_compute. reflexivity.
  - set (ls := register0 ++ scrape0 ++ mint0 ++ withdraw_native0 ++ withdraw_erc200 ++ create0 ++ sign0).
    assert (Hl : Forall ok_label ls).
    { unfold ls. match goal with |- Forall ?P ?l => let l' := eval vm_compute in l in change (Forall P l') end.
      repeat (apply Forall_cons; [cbn [ok_label ok_reply ok_call fh_base_fee_per_gas fh_reward sg_r sg_s at_ledger_id]; fits|]). apply Forall_nil. }
    assert (Hs : forall id sigs, In (LAnswer id (ReSigs sigs)) ls -> sigs = [Some sig0; Some sig0]).
    { intros id sigs Hin.
      assert (Hb : forallb (fun l => match l with LAnswer _ (ReSigs [Some a; Some b]) => (sg_r a =? 5) && (sg_s a =? 6) && negb (sg_y_parity a)
          && (sg_r b =? 5) && (sg_s b =? 6) && negb (sg_y_parity b) | LAnswer _ (ReSigs _) => false | _ => true end) ls = true)
        by (vm_compute; reflexivity).
      rewrite forallb_forall in Hb. specialize (Hb _ Hin). cbn in Hb.
      destruct sigs as [|[[ya ra sa]|] [|[[yb rb sb]|] [|? ?]]]; try discriminate Hb. cbn [Types.sg_r Types.sg_s Types.sg_y_parity] in Hb.
      rewrite !andb_true_iff, !N.eqb_eq, !negb_true_iff in Hb. destruct Hb as (((((-> & ->) & ->) & ->) & ->) & ->). reflexivity. }
    destruct (run0 ls) as [s|] eqn:E; [|vm_compute in E; discriminate].
    assert (Hr : reach self0 keccak0 (signing_env keccak0 N sum_id 11) s).
    { eapply reach_run0; [exact E|]. intros x l Hin. split; [rewrite Forall_forall in Hl; auto|]. split.
      - assert (Hu : forallb no_upgrade ls = true) by (vm_compute; reflexivity). rewrite forallb_forall in Hu. specialize (Hu _ Hin).
        destruct l; try exact Logic.I. discriminate.
      - destruct l as [| |id r| |]; try exact Logic.I. destruct r; try exact Logic.I. apply Hs in Hin. subst. intros c batch r _ b t o Ho.
        apply in_combine_r in Ho. destruct Ho as [<-|[<-|[]]]; eexists; apply Hsign. }
    clear Hl Hs Hsign. unfold ls in E. vm_compute in E. injection E as <-. eexists. eexists. split; [exact Hr|]. split; [|split; [|split]].
    + unfold typed_start, sys_log. cbn [sys_core snd]. unfold ok_event. cbn [ev_timestamp ev_payload ok_payload]. split; [vm_compute; reflexivity|].
      unfold ok_init. cbn [ia_ecdsa_key_name ia_helper_contract_address ia_native_ledger_id ia_native_index_id ia_native_symbol
        ia_native_minimum_withdrawal_amount ia_native_ledger_transfer_fee ia_next_transaction_nonce ia_last_scraped_block_number
        ia_min_max_priority_fee_per_gas ia_ledger_suite_manager_id ia_deposit_native_fee ia_withdrawal_native_fee]. fits.
    + exists 5. eexists. vm_compute. reflexivity.
    + vm_compute. reflexivity.
    + eexists. eexists. cbn [sys_log sys_core snd history map ev_payload].
      apply nth_error_In with (n := 10%nat). vm_compute. reflexivity.
Qed.
