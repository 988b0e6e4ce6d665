(** * C46, C47 and C49: what is made of the answers of several providers *)

From Verif Require Import Base BMap MultiKeyMap Bytes Types Amount Tx CallData Network Hex
  Transactions State Audit Ranges Rlp Parser Memo Driver Rpc RpcSpec RpcFacts.

(** ** C46 *)

(** Logs are used iff the answers agree on them. The reason "too large" is given iff they
    agree on nothing and some answer said so. *)
Theorem C46_logs :
  forall m l, logs_reply m = LogsOk l <-> agreed m l.
Proof. exact logs_reply_ok. Qed.
Print Assumptions C46_logs.

Theorem C46_logs_too_large :
  forall m, logs_reply m = LogsTooLarge <-> (forall l, ~ agreed m l) /\ said_too_large m.
Proof. exact logs_reply_large. Qed.
Print Assumptions C46_logs_too_large.

(** A block is used iff the answers agree on it and it has a base fee. *)
Theorem C46_block :
  forall m b, get_block m = Done (ROk b) <-> exists e, agreed m e /\ block_is e b.
Proof. exact get_block_iff. Qed.
Print Assumptions C46_block.

(** One block without base fee, from any provider, makes the call panic; nothing else does. *)
Theorem C46_block_panics :
  forall m, (forall r, get_block m <> Done r) <->
    exists e, eb_base_fee_per_gas e = None /\ (m = Consistent (ROk e) \/ exists p, gave m p e).
Proof. exact get_block_panics. Qed.
Print Assumptions C46_block_panics.

(** A receipt is used iff the answers agree on it and its status is 0 or 1; a transaction is
    taken to have no receipt iff the answers agree that there is none; nothing panics. *)
Theorem C46_receipt :
  forall m r, receipt_reply m = Done (ReceiptOk r) <-> exists e, agreed m (Some e) /\ receipt_is e r.
Proof.
  intros m r. rewrite <- get_receipt_iff. unfold receipt_reply. destruct (get_receipt m) as [[[x|]|e]|]; cbn;
    (split; intros H; [injection H as <- || discriminate|injection H as <- || discriminate]; reflexivity).
Qed.
Print Assumptions C46_receipt.

Theorem C46_no_receipt :
  forall m, receipt_reply m = Done ReceiptMissing <-> agreed m None.
Proof.
  intros m. rewrite <- get_receipt_none. unfold receipt_reply. destruct (get_receipt m) as [[[x|]|e]|]; cbn;
    split; intros H; reflexivity || discriminate.
Qed.
Print Assumptions C46_no_receipt.

Theorem C46_receipt_total :
  forall m, exists r, receipt_reply m = Done r.
Proof. intros m. destruct (receipt_reply_iff m) as [H|[[H _]|(r & e & H & _)]]; eauto. Qed.
Print Assumptions C46_receipt_total.

(** Transaction counts *)
Theorem C46_finalized_count :
  forall m n, get_finalized_count m = Done (ROk n) <-> agreed m n.
Proof. exact finalized_count_iff. Qed.
Print Assumptions C46_finalized_count.

Theorem C46_latest_count :
  forall m n, get_latest_count m = Done (ROk n) <->
    m = Consistent (ROk n) \/
    ((2 <= values_given m)%nat /\ (exists p, gave m p n) /\ forall p x, gave m p x -> n <= x).
Proof. exact latest_count_iff. Qed.
Print Assumptions C46_latest_count.

Theorem C46_counts_total :
  forall m, (exists r, get_finalized_count m = Done r) /\ exists r, get_latest_count m = Done r.
Proof. intros m. split; [apply finalized_count_total|apply latest_count_total]. Qed.
Print Assumptions C46_counts_total.

(** The result of sending is that of the first provider that gave one. *)
Theorem C46_send :
  forall m r, get_send m = Done (ROk r) <->
    (exists x, m = Consistent (ROk x) /\ send_of x = r) \/
    (exists a p x b, m = Inconsistent (a ++ (p, ROk x) :: b) /\ (forall q y, ~ In (q, ROk y) a) /\ send_of x = r).
Proof. exact send_iff. Qed.
Print Assumptions C46_send.

(** A fee history is used iff all providers gave it or it is elected; nothing panics. *)
Theorem C46_fee_history :
  forall m, exists r, get_fee_history m = Done r /\
    forall h, r = ROk h <-> m = Consistent (ROk (Some h)) \/ elected m h.
Proof. exact fee_history_spec. Qed.
Print Assumptions C46_fee_history.

(** Four providers: one fails, one is behind *)
Definition hist_at (n : N) : FeeHistory := {| fh_oldest_block := n; fh_base_fee_per_gas := [7]; fh_reward := [[1]] |}.
Definition answers4 : MultiRpc (option FeeHistory) :=
  Inconsistent [(1, ROk (Some (hist_at 10))); (2, RErr (HttpErr (InvalidHttpJsonRpcResponse 502 []))); (3, ROk (Some (hist_at 9)));
                (4, ROk (Some (hist_at 10)))].
Example C46_witness :
  get_fee_history answers4 = Done (ROk (hist_at 10)) /\
  get_finalized_count (Inconsistent [(1, ROk 5); (2, RErr (JsonErr 3 [])); (3, ROk 5)]) = Done (ROk 5) /\
  (forall n, get_finalized_count (Inconsistent [(1, ROk 5); (2, RErr (JsonErr 3 [])); (3, ROk 6)]) <> Done (ROk n)) /\
  (forall n, get_finalized_count (Inconsistent [(1, ROk 5); (2, RErr (JsonErr 3 []))]) <> Done (ROk n)) /\
  get_latest_count (Inconsistent [(1, ROk 6); (2, RErr (JsonErr 3 [])); (3, ROk 5)]) = Done (ROk 5) /\
  logs_reply (Inconsistent [(1, ROk []); (2, RErr (HttpErr (IcError 1 (text_of "exceeds size limit"))))]) = LogsTooLarge /\
  logs_reply (Inconsistent [(1, ROk []); (2, RErr (HttpErr (IcError 2 (text_of "exceeds size limit"))))]) = LogsErr.
Proof.
  split; [vm_compute; reflexivity|]. split; [vm_compute; reflexivity|]. split; [intros n H; vm_compute in H; discriminate|].
  split; [intros n H; vm_compute in H; discriminate|]. split; [vm_compute; reflexivity|].
  split; vm_compute; reflexivity.
Qed.

(** ** C47: a majority is not required *)

(** Five providers, two of which agree: no majority, but a fee history is used. *)
Theorem C47_majority_refuted :
  exists m h, get_fee_history m = Done (ROk h) /\ ~ majority m h.
Proof.
  exists (Inconsistent [(1, ROk (Some (hist_at 10))); (2, ROk (Some (hist_at 11))); (3, ROk (Some (hist_at 9)));
                        (4, ROk (Some (hist_at 10))); (5, ROk (Some (hist_at 12)))]), (hist_at 10).
  split; [vm_compute; reflexivity|]. intros [H|(l & Hnd & Hl & Hn)]; [discriminate|]. cbn in Hn.
  assert (Hin : incl l [1; 4]).
  { intros p Hp. apply Hl in Hp as (rs & E & Hp). injection E as <-.
    repeat (destruct Hp as [Hp|Hp]; [injection Hp; intros; subst; cbn; auto; discriminate|]). destruct Hp. }
  apply NoDup_incl_length in Hin; auto. cbn in Hin. lia.
Qed.
Print Assumptions C47_majority_refuted.

(** With at most three histories, of different providers, there is a majority. *)
Theorem C47_majority_partial :
  forall rs h, NoDup (map fst rs) -> (histories_given (Inconsistent rs) <= 3)%nat ->
    get_fee_history (Inconsistent rs) = Done (ROk h) -> majority (Inconsistent rs) h.
Proof.
  intros rs h Hnd Hle E. destruct (C46_fee_history (Inconsistent rs)) as (r & Er & Hr). rewrite Er in E. injection E as ->.
  destruct (proj1 (Hr h) eq_refl) as [H|H]; [discriminate|]. exact (small_majority rs h Hnd Hle H).
Qed.
Print Assumptions C47_majority_partial.

Example C47_witness :
  exists rs h, NoDup (map fst rs) /\ (histories_given (Inconsistent rs) <= 3)%nat /\
    get_fee_history (Inconsistent rs) = Done (ROk h).
Proof.
  exists [(1, ROk (Some (hist_at 10))); (3, ROk (Some (hist_at 9))); (4, ROk (Some (hist_at 10)))], (hist_at 10).
  split; [|split; [cbn; lia|vm_compute; reflexivity]]. cbn. repeat (constructor; [cbn; intuition discriminate|]). constructor.
Qed.

(** ** C49 *)

(** [ask n c] is the answer to attempt [n] with [c] cycles. *)
Theorem C49_retries :
  forall T (ask : nat -> N -> MultiRpc T) attempts last, rpc_call ask = (attempts, last) ->
    attempts_from 30000000000 attempts last /\ (1 <= List.length attempts <= 11)%nat /\
    ((List.length attempts < 11)%nat -> forall e, ~ demands last e) /\
    (forall i c m, nth_error attempts i = Some (c, m) -> m = ask i c).
Proof. intros T ask attempts last H. exact (loop_attempts ask MAX_NUM_RETRIES 0 MIN_ATTACHED_CYCLES attempts last H). Qed.
Print Assumptions C49_retries.

(** A provider that charges a hundred times as much as attached *)
Definition dear (n : nat) (c : N) : MultiRpc N :=
  if c <? 3000000000000 then Inconsistent [(1, ROk 5); (2, RErr (ProviderErr (TooFewCycles 3000000000000 c)))]
  else Consistent (ROk 5).
Example C49_witness :
  rpc_call dear = ([(30000000000, Inconsistent [(1, ROk 5); (2, RErr (ProviderErr (TooFewCycles 3000000000000 30000000000)))]);
                    (3000000000000, Consistent (ROk 5))], Consistent (ROk 5)).
Proof. vm_compute. reflexivity. Qed.
