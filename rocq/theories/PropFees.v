(** * C42: signing payloads; C48: fee estimates *)

From Verif Require Import Base BMap MultiKeyMap Bytes Types Amount Tx Network Transactions State Audit Rlp RlpSpec
  RlpFacts Driver Sys SysSpec FeeSpec FeeFacts Scenario PropGuards.

(** ** C42 *)

(** The signing payload determines the transaction: chain id, nonce, fees, gas, recipient,
    amount, data and access list. *)
Theorem C42_payload_determines_transaction :
  forall t t', tx_typed t -> tx_typed t' ->
    fits_memory (signing_payload t) -> fits_memory (signing_payload t') ->
    signing_payload t = signing_payload t' -> t = t'.
Proof. exact payload_inj. Qed.
Print Assumptions C42_payload_determines_transaction.
(** The raw bytes that are sent determine the transaction and its signature. *)
Theorem C42_raw_bytes_determine_transaction :
  forall t s t' s', tx_typed t -> tx_typed t' -> sig_typed s -> sig_typed s' ->
    fits_memory (raw_bytes t s) -> fits_memory (raw_bytes t' s') ->
    raw_bytes t s = raw_bytes t' s' -> t = t' /\ s = s'.
Proof. exact raw_inj. Qed.
Print Assumptions C42_raw_bytes_determine_transaction.
(** What is signed is never something that can be sent. *)
Theorem C42_payload_is_not_raw :
  forall t t' s', fits_memory (signing_payload t) -> fits_memory (raw_bytes t' s') ->
    signing_payload t <> raw_bytes t' s'.
Proof. exact payload_not_raw. Qed.
Print Assumptions C42_payload_is_not_raw.

Definition tx42 (amount : N) : Tx :=
  {| tx_chain_id := 1; tx_nonce := 7; tx_max_priority_fee_per_gas := 2; tx_max_fee_per_gas := 30;
     tx_gas_limit := 21000; tx_destination := 204; tx_amount := amount; tx_data := [1; 2; 3]; tx_access_list := [] |}.
Example C42_witness :
  tx_typed (tx42 5) /\ fits_memory (signing_payload (tx42 5)) /\
  fits_memory (raw_bytes (tx42 5) {| sg_y_parity := true; sg_r := 5; sg_s := 6 |}) /\
  signing_payload (tx42 5) <> signing_payload (tx42 6).
Proof.
  split; [|split; [|split]].
  - repeat (split; [vm_compute; solve [reflexivity|discriminate]|]). constructor.
  - vm_compute. discriminate.
  - vm_compute. discriminate.
  - vm_compute. discriminate.
Qed.

(** ** C48 *)

(** The median is the element of rank n/2; there is exactly one, and none iff there are no
    rewards. *)
Theorem C48_median :
  forall l, (forall m, median l = Some m <-> is_median m l) /\ (median l = None <-> l = []).
Proof. intros l. split; [exact (median_iff l)|exact (median_none l)]. Qed.
Print Assumptions C48_median.
(** The estimate is the last base fee with the median reward raised to the minimum; it is
    given iff twice the base fee plus the tip fits 256 bits. *)
Theorem C48_estimate :
  forall min_tip h g, estimate_transaction_fee min_tip h = ROk g <->
    read_history min_tip h g /\ max_price g <= U256_MAX.
Proof. exact estimate_ok_iff. Qed.
Print Assumptions C48_estimate.
(** Overflow and an incomplete history are reported. *)
Theorem C48_errors :
  forall min_tip h,
    (estimate_transaction_fee min_tip h = RErr FeeOverflow <->
       exists g, read_history min_tip h g /\ U256_MAX < max_price g) /\
    (estimate_transaction_fee min_tip h = RErr InvalidFeeHistory <->
       fh_base_fee_per_gas h = [] \/ List.concat (fh_reward h) = []).
Proof. intros m h. split; [exact (estimate_overflow_iff m h)|exact (estimate_invalid_iff m h)]. Qed.
Print Assumptions C48_errors.
(** The maximum price per gas is 2 * base + tip, saturating. *)
Theorem C48_max_price :
  forall g, estimate_max_fee_per_gas g = N.min (max_price g) U256_MAX.
Proof. exact max_fee_saturates. Qed.
Print Assumptions C48_max_price.
(** A cached estimate is used iff it is less than 30 s old. *)
Theorem C48_cache :
  forall now s g, refresh_start now s = RefreshCached g <->
    exists t, last_transaction_price_estimate s = Some (t, g) /\ now < half_minute_after t.
Proof. exact cached_iff. Qed.
Print Assumptions C48_cache.
(** In every history: the cached estimate was made in the past and is usable, and so is the
    one every running task works with; the fee charged for a token withdrawal is the largest
    cost of its transfer under such an estimate. *)
Theorem C48_estimates_in_use :
  forall self keccak s, reach self keccak any_env s ->
    let min_tip := min_max_priority_fee_per_gas (sys_state s) in
    (forall t g, last_transaction_price_estimate (sys_state s) = Some (t, g) ->
       t <= sys_clock s /\ usable min_tip g) /\
    (forall id r g, bget id (sys_tasks s) = Some {| fl_task := TRetrieveCount g; fl_reply := r |} ->
       usable min_tip g) /\
    (forall id r j i, bget id (sys_tasks s) = Some {| fl_task := TErc20Fee j; fl_reply := r |} \/
       bget id (sys_tasks s) = Some {| fl_task := TErc20GasBurn j; fl_reply := r |} \/
       bget id (sys_tasks s) = Some {| fl_task := TErc20Burn j i; fl_reply := r |} ->
       exists g, usable min_tip g /\ ej_tx_fee j = erc20_charge g).
Proof.
  intros self keccak s H. apply fees_reach in H. destruct H as [H1 H2]. split; [exact H1|]. split.
  - intros id r g Hb. exact (H2 _ _ _ Hb).
  - intros id r j i [Hb|[Hb|Hb]]; exact (H2 _ _ _ Hb).
Qed.
Print Assumptions C48_estimates_in_use.

Example C48_witness :
  is_median 3 [1; 3; 4] /\
  estimate_transaction_fee 2 history0 = ROk {| gf_base_fee_per_gas := 10; gf_max_priority_fee_per_gas := 3 |} /\
  estimate_transaction_fee 2 {| fh_oldest_block := 1; fh_base_fee_per_gas := [2 ^ 255]; fh_reward := [[1]] |} =
    RErr FeeOverflow /\
  exists s, reach self0 keccak0 any_env s /\
    last_transaction_price_estimate (sys_state s) =
      Some (51, {| gf_base_fee_per_gas := 10; gf_max_priority_fee_per_gas := 3 |}) /\
    exists id r, bget id (sys_tasks s) = Some {| fl_task := TRetrieveCount
      {| gf_base_fee_per_gas := 10; gf_max_priority_fee_per_gas := 3 |}; fl_reply := r |}.
Proof.
  split; [|split; [vm_compute; reflexivity|split; [vm_compute; reflexivity|]]].
  - vm_compute. intuition; repeat constructor.
  - destruct (run0 (register0 ++ scrape0 ++ mint0 ++ withdraw_native0 ++ withdraw_erc200 ++ [LTimer TimerRetrieve 60]))
      as [s|] eqn:E; [|vm_compute in E; discriminate]. exists s. split; [eapply any_reach; exact E|].
    vm_compute in E. injection E as <-. split; [vm_compute; reflexivity|]. exists 5, None. vm_compute. reflexivity.
Qed.
