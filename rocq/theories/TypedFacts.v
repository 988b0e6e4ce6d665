(** * What the canister records fits the Rust types *)

From Verif Require Import Base BMap MultiKeyMap MultiKeyMapFacts Bytes Types Amount Tx CallData
  Network Hex CodecFacts Transactions State Audit Ranges Rlp Parser Memo Driver Sys SysSpec WtInv StateEquiv
  Segments SysFacts CoreInv LogFacts FeeFacts CborSpec Cbor CborFacts MemoFacts TypedSpec.

(** ** Elementary facts *)
Lemma Forall_app_2 {A} (P : A -> Prop) l m : Forall P l -> Forall P m -> Forall P (l ++ m).
Proof. intros. apply Forall_app. auto. Qed.
Lemma u256_max n : u256 n <-> n <= U256_MAX.
Proof. unfold u256. pose proof U256_MAX_val. lia. Qed.
Lemma u256_le m n : n <= m -> u256 m -> u256 n.
Proof. rewrite !u256_max. lia. Qed.
Lemma u256_u64 n : u64 n -> u256 n.
Proof. unfold u64. intros H. apply u256_le with (2 ^ 64); [lia|reflexivity]. Qed.
Lemma u64_max n : u64 n <-> n <= U64_MAX.
Proof. unfold u64. assert (U64_MAX + 1 = 2 ^ 64) by reflexivity. lia. Qed.
Lemma u256_or_max o : optional u256 o -> u256 (or_max o).
Proof. destruct o; cbn; auto. intros _. apply u256_max. lia. Qed.
Lemma u256_add a b : optional u256 (checked_add a b).
Proof. destruct (checked_add a b) eqn:E; cbn; auto. apply (proj1 (checked_add_some _ _ _)) in E as [-> E]. apply u256_max. auto. Qed.
Lemma u256_mul a b : optional u256 (checked_mul a b).
Proof. destruct (checked_mul a b) eqn:E; cbn; auto. apply (proj1 (checked_mul_some _ _ _)) in E as [-> E]. apply u256_max. auto. Qed.
Lemma u256_sub a b c : u256 a -> checked_sub a b = Some c -> u256 c.
Proof. intros H E. apply (proj1 (checked_sub_some _ _ _)) in E as [E ->]. eapply u256_le; [|eauto]. lia. Qed.
Lemma u256_nat n v : amount_of_nat n = Some v -> u256 v.
Proof.
  rewrite amount_of_nat_spec. destruct (N.leb_spec n U256_MAX); [|discriminate]. injection 1 as <-. apply u256_max. auto.
Qed.
Lemma u256_maximum a b : u256 a -> u256 b -> u256 (N.max a b).
Proof. rewrite !u256_max. lia. Qed.
Lemma block_typed b i : block_u64 b = Done i -> u64 i.
Proof. intros H. apply block_u64_done in H as [-> H]. apply u64_max. auto. Qed.
Lemma burn_typed r i : burn_result r = Done (ROk i) -> u64 i.
Proof. intros H. apply burn_result_ok in H as [_ H]. apply u64_max. auto. Qed.
Lemma text_typed (t : text) : (List.length t <= 1000)%nat -> Forall (fun c => c < 256) t -> string_of t.
Proof.
  intros Hl H. split.
  - eapply Forall_impl; [|exact H]. cbn. intros c Hc. left. lia.
  - assert (N.of_nat (List.length t) <= 1000) by lia. assert (4 * 1000 < 2 ^ 64) by reflexivity. lia.
Qed.
Lemma symbol_string t : symbol t -> string_of t.
Proof.
  intros [Hl H]. apply text_typed; [lia|]. eapply Forall_impl; [|exact H]. cbn. intros; lia.
Qed.
Lemma text_of_bytes s : Forall (fun c => c < 256) (text_of s).
Proof.
  unfold text_of. apply Forall_forall. intros c Hc. apply in_map_iff in Hc as (a & <- & _).
  pose proof (Ascii.nat_ascii_bounded a). lia.
Qed.
Lemma error_typed e : string_of (error_text e).
Proof.
  apply text_typed; [|apply text_of_bytes]. apply Nat.leb_le. destruct e as [w|[]]; vm_compute; reflexivity.
Qed.
Lemma native_symbol_typed : symbol (text_of "Native").
Proof. split; [apply Nat.leb_le; vm_compute; reflexivity|]. repeat (apply Forall_cons; [vm_compute; reflexivity|]). constructor. Qed.
Lemma chain_typed n : u64 (chain_id n).
Proof. destruct n; vm_compute; reflexivity. Qed.
Lemma of_be_u256 w : bytes_of 32 w -> u256 (of_be w).
Proof. intros [H Hl]. pose proof (of_be_lt w H) as E. rewrite Hl in E. unfold u256. rewrite u256_pow in E. pose proof U256_MAX_val. lia. Qed.
Lemma word_address w a : bytes_of 32 w -> address_of_word w = Some a -> address a.
Proof.
  intros [H Hl]. unfold address_of_word. destruct (forallb _ _); [|discriminate]. injection 1 as <-.
  assert (Hb : byte_list (skipn 12 w)).
  { apply Forall_forall. intros x Hx. rewrite Forall_forall in H. apply H. rewrite <- (firstn_skipn 12 w). apply in_or_app; auto. }
  pose proof (of_be_lt _ Hb) as E. rewrite skipn_length, Hl in E. unfold address. rewrite <- addr_pow. exact E.
Qed.
Lemma calldata_typed a v : bytes (calldata_encode a v).
Proof.
  split.
  - unfold calldata_encode, address_to_word, amount_to_be. apply Forall_app_2; [|apply Forall_app_2; [apply Forall_app_2|]].
    + unfold ERC20_TRANSFER_SELECTOR. do 4 (apply Forall_cons; [reflexivity|]). apply Forall_nil.
    + apply Forall_forall. intros x Hx. apply repeat_spec in Hx. subst. reflexivity.
    + apply be_bytes_byte_list.
    + apply be_bytes_byte_list.
  - rewrite calldata_length. reflexivity.
Qed.

(** ** Maps *)
Definition ball {K V} (P : K -> V -> Prop) (m : bmap K V) : Prop := Forall (fun x => P (fst x) (snd x)) m.
Section Ball.
  Context {K V : Type} `{Ord K} (P : K -> V -> Prop).
  Lemma ball_insert k v m : P k v -> ball P m -> ball P (binsert k v m).
  Proof.
    intros Hk. induction m as [|[k' v'] m IH]; cbn; intros Hm; [constructor; auto|].
    inversion Hm; subst. destruct (cmp k k'); repeat (constructor; auto).
    apply IH; auto.
  Qed.
  Lemma ball_remove k m : ball P m -> ball P (bremove k m).
  Proof.
    induction m as [|[k' v'] m IH]; cbn; intros Hm; [constructor|]. inversion Hm; subst.
    destruct (keqb k k'); auto. constructor; auto. apply IH; auto.
  Qed.
  Lemma ball_get k v m : ball P m -> bget k m = Some v -> P k v.
  Proof. intros Hm Hg. apply bget_In in Hg. unfold ball in Hm. rewrite Forall_forall in Hm. exact (Hm _ Hg). Qed.
  Lemma ball_in k v m : ball P m -> In (k, v) m -> P k v.
  Proof. intros Hm Hg. unfold ball in Hm. rewrite Forall_forall in Hm. exact (Hm _ Hg). Qed.
End Ball.
Section BallMkm.
  Context {K A V : Type} `{Ord K} `{Ord A} (P : A -> V -> Prop).
  Lemma ball_inserted k a v (m : mkm K A V) r : P a v -> ball P (by_alt m) -> mkm_try_insert k a v m = Done (ROk r) -> ball P (by_alt r).
  Proof.
    unfold mkm_try_insert. destruct (bmem a (by_alt m)); [discriminate|]. destruct (bmem k (by_key m)); [discriminate|].
    intros Hp Hm E. inv_res. cbn. apply ball_insert; auto.
  Qed.
  Lemma ball_expect k a v (m : mkm K A V) r msg : P a v -> ball P (by_alt m) -> expect_inserted (mkm_try_insert k a v m) msg = Done r ->
    ball P (by_alt r).
  Proof.
    unfold expect_inserted. intros Hp Hm E. apply rbind_done in E as (x & E & Hx). destruct x; [|discriminate].
    injection Hx as <-. eapply ball_inserted; eauto.
  Qed.
  Lemma ball_removed k (m : mkm K A V) r o : ball P (by_alt m) -> mkm_remove_entry k m = Done (r, o) ->
    ball P (by_alt r) /\ forall k' a v, o = Some (k', a, v) -> P a v.
  Proof.
    unfold mkm_remove_entry. intros Hm. destruct (bget k (by_key m)) as [a|] eqn:E.
    - intros Hr. apply rbind_done in Hr as (v & Hv & Hr). apply expect_done in Hv. injection Hr as <- <-. cbn. split.
      + apply ball_remove; auto.
      + intros k' a' v' [= <- <- <-]. eapply ball_get; eauto.
    - injection 1 as <- <-. split; auto. discriminate.
  Qed.
  Lemma ball_modified k f (m : mkm K A V) r : (forall a v, P a v -> P a (f v)) -> ball P (by_alt m) -> mkm_modify k f m = Some r -> ball P (by_alt r).
  Proof.
    unfold mkm_modify. intros Hf Hm. destruct (bget k (by_key m)) as [a|]; [|discriminate]. cbn.
    destruct (bget a (by_alt m)) as [v|] eqn:E; [|discriminate]. injection 1 as <-. cbn. apply ball_insert; auto.
    apply Hf. eapply ball_get; eauto.
  Qed.
  Lemma ball_iter (m : mkm K A V) l k a v : ball P (by_alt m) -> mkm_iter m = Done l -> In (k, a, v) l -> P a v.
  Proof.
    unfold mkm_iter. intros Hm. generalize (by_key m). intros ks. revert l. induction ks as [|[k0 a0] ks IH]; cbn; intros l E Hin.
    - injection E as <-. destruct Hin.
    - apply rbind_done in E as (v0 & Hv & E). apply expect_done in Hv. apply rbind_done in E as (l0 & E & E').
      injection E' as <-. destruct Hin as [Hin|Hin]; [|eapply IH; eauto]. injection Hin as <- <- <-. eapply ball_get; eauto.
  Qed.
  Lemma ball_entry k (m : mkm K A V) a v : ball P (by_alt m) -> mkm_get_entry k m = Some (a, v) -> P a v.
  Proof.
    unfold mkm_get_entry. intros Hm. destruct (bget k (by_key m)) as [a0|]; [|discriminate]. cbn.
    destruct (bget a0 (by_alt m)) eqn:E; [|discriminate]. injection 1 as <- <-. eapply ball_get; eauto.
  Qed.
End BallMkm.

(** ** The state *)
Definition ok_deposit (e : ReceivedDepositEvent) : Prop :=
  match e with DepNative e => ok_native_event e | DepErc20 e => ok_erc20_event e end.
Definition ok_request (r : WithdrawalRequest) : Prop :=
  match r with WNative r => ok_native_request r | WErc20 r => ok_erc20_request r end.
Definition ok_strategy (s : Resubmission) : Prop :=
  match s with ReduceEthAmount w => u256 w | GuaranteeEthAmount f => u256 f end.
Definition ok_gas (g : GasFeeEstimate) : Prop := u256 (gf_base_fee_per_gas g) /\ u256 (gf_max_priority_fee_per_gas g).
Definition ok_created (b : N) (r : TxRequest) : Prop := u64 b /\ ok_tx (rs_tx r) /\ ok_strategy (rs_strategy r).
Definition ok_sent1 (r : SignedTxRequest) : Prop := ok_tx (st_tx (rs_tx r)) /\ ok_strategy (rs_strategy r).
Definition ok_sent (b : N) (l : list SignedTxRequest) : Prop := u64 b /\ Forall ok_sent1 l.

Record ty_wt (w : WT) : Prop := {
  tw_pending : Forall ok_request (pending w);
  tw_processed : ball (fun _ r => ok_request r) (processed w);
  tw_created : ball ok_created (by_alt (created w));
  tw_sent : ball ok_sent (by_alt (sent w));
  tw_nonce : u256 (next_nonce w);
  tw_reimb : ball (fun i r => ok_index i /\ ok_reimbursement r) (reimb_requests w)
}.
Record ty_state (s : State) : Prop := {
  ts_mint : ball (fun _ e => ok_deposit e) (events_to_mint s);
  ts_wt : ty_wt (withdrawals s);
  ts_tokens : ball (fun a x => address a /\ principal (fst x) /\ symbol (snd x)) (by_alt (erc20_tokens s));
  ts_scraped : u256 (last_scraped_block_number s);
  ts_observed : optional u256 (last_observed_block_number s);
  ts_price : optional (fun x => ok_gas (snd x)) (last_transaction_price_estimate s);
  ts_min : u256 (min_max_priority_fee_per_gas s)
}.

Section Typed.
Variable self : Principal.
Variable keccak : list N -> Hash.

Definition ty_payload (e : EventType) : Prop :=
  ok_payload keccak e /\ match e with EvAddedErc20Token t => symbol (et_symbol t) | _ => True end.
Definition ty_event (e : Event) : Prop := u64 (ev_timestamp e) /\ ty_payload (ev_payload e).

(** ** Transitions *)
Lemma ok_dep_source e : ok_deposit e -> ok_source (dep_source e).
Proof. destruct e as [e|e]; unfold ok_source; cbn; unfold ok_native_event, ok_erc20_event; tauto. Qed.
Lemma ok_burn_index r : ok_request r -> u64 (wr_burn_index r).
Proof. destruct r; cbn; unfold ok_native_request, ok_erc20_request; tauto. Qed.
Lemma ok_strategy_of r : ok_request r -> ok_strategy (strategy_of r).
Proof. destruct r; cbn; unfold ok_native_request, ok_erc20_request; tauto. Qed.
Lemma ok_ri r : ok_request r -> ok_index (ri_of_request r).
Proof. destruct r; cbn; unfold ok_native_request, ok_erc20_request; tauto. Qed.

Lemma ty_pending x w : Forall ok_request x -> ty_wt w -> ty_wt (set_pending x w).
Proof. intros Hx []. constructor; auto. Qed.
Lemma ty_removed r w : ty_wt w -> ty_wt (remove_withdrawal_request r w).
Proof.
  intros H. apply ty_pending; auto. apply Forall_forall. intros x Hx. apply filter_In in Hx as [Hx _].
  pose proof (tw_pending w H) as Hp. rewrite Forall_forall in Hp. auto.
Qed.
Lemma ty_accept r w w' : ok_request r -> ty_wt w -> record_withdrawal_request r w = Done w' -> ty_wt w'.
Proof.
  unfold record_withdrawal_request. intros Hr Hw H. apply rbind_done in H as (? & _ & H). injection H as <-.
  apply ty_pending; auto. apply Forall_app_2; [apply Hw|]. constructor; auto.
Qed.
Lemma ty_reschedule r w w' : ok_request r -> ty_wt w -> reschedule_withdrawal_request r w = Done w' -> ty_wt w'.
Proof.
  unfold reschedule_withdrawal_request. intros Hr Hw H. apply rbind_done in H as (? & _ & H).
  eapply ty_accept; [exact Hr| |exact H]. apply ty_removed; auto.
Qed.
Lemma ty_create id t w w' : u64 id -> ok_tx t -> ty_wt w -> record_created_transaction id t w = Done w' -> ty_wt w'.
Proof.
  unfold record_created_transaction. intros Hi Ht Hw H.
  apply rbind_done in H as (req & Hreq & H). apply expect_done in Hreq. apply find_some in Hreq as [Hreq _].
  assert (Hq : ok_request req). { pose proof (tw_pending w Hw) as Hp. rewrite Forall_forall in Hp. auto. }
  apply rbind_done in H as (? & _ & H). apply rbind_done in H as (? & _ & H). apply rbind_done in H as (? & _ & H).
  apply rbind_done in H as (? & _ & H). apply rbind_done in H as (n' & Hn & H). apply expect_done in Hn.
  apply rbind_done in H as (c' & Hc & H). apply rbind_done in H as (? & _ & H). apply rbind_done in H as (? & _ & H).
  injection H as <-. assert (Hn' : u256 n'). { pose proof (u256_add (next_nonce w) 1) as E. unfold checked_increment in Hn. rewrite Hn in E. exact E. }
  destruct (ty_removed req w Hw) as [P1 P2 P3 P4 P5 P6]. constructor; cbn; auto.
  - apply ball_insert; auto.
  - eapply ball_expect; [|exact (tw_created w Hw)|exact Hc]. repeat split; cbn; auto using ok_burn_index, ok_strategy_of.
    all: apply Ht.
Qed.
Lemma ty_sign t w w' : ok_tx (st_tx t) -> ty_wt w -> record_signed_transaction t w = Done w' -> ty_wt w'.
Proof.
  unfold record_signed_transaction. intros Ht Hw H.
  apply rbind_done in H as (c & Hc & H). apply expect_done in Hc.
  apply rbind_done in H as (? & _ & H). apply rbind_done in H as ([created' removed] & Hr & H).
  destruct (ball_removed ok_created _ _ _ _ (tw_created w Hw) Hr) as [Hc' Hrem].
  apply rbind_done in H as ([[n b] v] & Hv & H). apply expect_done in Hv. subst removed.
  destruct (Hrem n b v eq_refl) as (Hb & _ & _).
  assert (Hs : ok_strategy (rs_strategy c)).
  { unfold mkm_get in Hc. destruct (bget _ (by_key (created w))) as [a|]; [|discriminate]. cbn in Hc.
    apply (ball_get ok_created _ _ _ (tw_created w Hw) Hc). }
  apply rbind_done in H as (sent' & Hsent & H). injection H as <-. destruct Hw as [P1 P2 P3 P4 P5 P6]. constructor; cbn; auto.
  match type of Hsent with match ?x with _ => _ end = _ => destruct x as [m|] eqn:E end.
  - injection Hsent as <-. eapply ball_modified; [|exact P4|exact E]. intros a l [Ha Hl]. split; auto.
    apply Forall_app_2; auto. constructor; auto. split; auto.
  - eapply ball_expect; [|exact P4|exact Hsent]. split; auto. constructor; auto. split; auto.
Qed.
Lemma ty_cleanup n c c' : ball ok_created (by_alt c) -> cleanup_created n c = Done c' -> ball ok_created (by_alt c').
Proof.
  unfold cleanup_created. intros Hc H. apply rbind_done in H as ([x o] & H & E). injection E as <-.
  apply (ball_removed ok_created _ _ _ _ Hc H).
Qed.
Lemma ty_last n w b last : ty_wt w -> expect_last_sent_tx_entry (sent w) n = Done (b, last) -> u64 b /\ ok_sent1 last.
Proof.
  unfold expect_last_sent_tx_entry. intros Hw H. apply rbind_done in H as ([b0 l] & He & H). apply expect_done in He.
  apply rbind_done in H as (x & Hx & H). apply expect_done in Hx. injection H as <- <-.
  destruct (ball_entry ok_sent _ _ _ _ (tw_sent w Hw) He) as [Hb Hl]. split; auto. rewrite Forall_forall in Hl.
  apply Hl, last_opt_in, Hx.
Qed.
Lemma ty_resubmit t w w' : ok_tx t -> ty_wt w -> record_resubmit_transaction t w = Done w' -> ty_wt w'.
Proof.
  unfold record_resubmit_transaction. intros Ht Hw H.
  apply rbind_done in H as ([b last] & Hl & H). destruct (ty_last _ _ _ _ Hw Hl) as [Hb [_ Hs]].
  apply rbind_done in H as (? & _ & H). apply rbind_done in H as (c' & Hc & H). apply rbind_done in H as (c'' & Hi & H).
  injection H as <-. destruct Hw as [P1 P2 P3 P4 P5 P6]. constructor; cbn; auto.
  eapply ball_expect; [|eapply ty_cleanup; [exact P3|exact Hc]|exact Hi]. repeat split; cbn; auto; apply Ht.
Qed.
Lemma ty_request_reimb i r w w' : ok_index i -> ok_reimbursement r -> ty_wt w ->
  record_reimbursement_request i r w = Done w' -> ty_wt w'.
Proof.
  unfold record_reimbursement_request. intros Hi Hr Hw H. do 3 (apply rbind_done in H as (? & _ & H)). injection H as <-.
  destruct Hw. constructor; cbn; auto. apply ball_insert; auto.
Qed.
Lemma ok_reimbursement_of req b f r : u64 b -> ok_request req -> ok_tx (st_tx (ft_tx f)) -> ok_receipt r ->
  ok_reimbursement (reimbursement_of req b f r).
Proof.
  intros Hb Hq Ht Hr. unfold ok_reimbursement. destruct req; cbn in *; unfold ok_native_request, ok_erc20_request, ok_tx, ok_receipt in *; tauto.
Qed.
Lemma ty_finalize b r w w' : u64 b -> ok_receipt r -> ty_wt w -> record_finalized_transaction b r w = Done w' -> ty_wt w'.
Proof.
  unfold record_finalized_transaction. intros Hb Hr Hw H.
  apply rbind_done in H as (txs & Htxs & H). apply expect_done in Htxs.
  apply rbind_done in H as (s & Hs & H). apply expect_done in Hs. apply find_some in Hs as [Hs _].
  apply rbind_done in H as (f & Hf & H). apply expect_done in Hf.
  assert (Hft : ft_tx f = rs_tx s).
  { unfold try_finalize in Hf. repeat (destruct (_ : bool) in Hf; [discriminate|]). injection Hf as <-. reflexivity. }
  assert (Hst : ok_tx (st_tx (ft_tx f))).
  { rewrite Hft. destruct (ball_get ok_sent _ _ _ (tw_sent w Hw) Htxs) as [_ Hl]. rewrite Forall_forall in Hl. apply (Hl _ Hs). }
  apply rbind_done in H as ([sent' o] & Hsent & H). destruct (ball_removed ok_sent _ _ _ _ (tw_sent w Hw) Hsent) as [Hs' _].
  apply rbind_done in H as (created' & Hc & H). pose proof (ty_cleanup _ _ _ (tw_created w Hw) Hc) as Hc'.
  apply rbind_done in H as (fin & _ & H). apply rbind_done in H as (? & _ & H).
  apply rbind_done in H as (req & Hq & H). apply expect_done in Hq. cbn in Hq.
  pose proof (ball_get _ _ _ _ (tw_processed w Hw) Hq) as Hreq. cbn in Hreq.
  assert (Hw1 : ty_wt (set_maybe_reimburse (bremove b (maybe_reimburse w))
           (set_finalized fin (set_created created' (set_sent sent' w))))).
  { destruct Hw. constructor; cbn; auto. }
  destruct (is_failure (rc_status r)); [|injection H as <-; exact Hw1].
  exact (ty_request_reimb _ _ _ _ (ok_ri _ Hreq) (ok_reimbursement_of req b f r Hb Hreq Hst Hr) Hw1 H).
Qed.
Lemma ty_quarantine i w : ty_wt w -> ty_wt (record_quarantined_reimbursement i w).
Proof. intros []. constructor; cbn; auto. apply ball_remove; auto. Qed.
Lemma ty_reimbursed i b w w' : ty_wt w -> record_finalized_reimbursement i b w = Done w' -> ty_wt w'.
Proof.
  unfold record_finalized_reimbursement. intros [] H. apply rbind_done in H as (? & _ & H). apply rbind_done in H as (? & _ & H).
  injection H as <-. constructor; cbn; auto. apply ball_remove; auto.
Qed.

Lemma ty_withdrawals w s : ty_wt w -> ty_state s -> ty_state (set_withdrawals w s).
Proof. intros Hw []. constructor; cbn; auto. Qed.
Lemma ty_on_withdrawals f s s' : (forall w w', ty_wt w -> f w = Done w' -> ty_wt w') -> ty_state s ->
  on_withdrawals f s = Done s' -> ty_state s'.
Proof. intros Hf Hs H. apply on_withdrawals_inv in H as (w & Hw & ->). apply ty_withdrawals; auto. eapply Hf; [|exact Hw]. apply Hs. Qed.

Lemma ty_same s s' : events_to_mint s' = events_to_mint s -> withdrawals s' = withdrawals s -> erc20_tokens s' = erc20_tokens s ->
  last_scraped_block_number s' = last_scraped_block_number s -> last_observed_block_number s' = last_observed_block_number s ->
  last_transaction_price_estimate s' = last_transaction_price_estimate s ->
  min_max_priority_fee_per_gas s' = min_max_priority_fee_per_gas s -> ty_state s -> ty_state s'.
Proof. intros E1 E2 E3 E4 E5 E6 E7 []. constructor; rewrite ?E1, ?E2, ?E3, ?E4, ?E5, ?E6, ?E7; auto. Qed.
Ltac same := apply ty_same; reflexivity.
Lemma ty_balance b r s s' : update_balance_upon_withdrawal b r s = Done s' -> ty_state s -> ty_state s'.
Proof.
  unfold update_balance_upon_withdrawal. intros H.
  do 6 (apply rbind_done in H as (? & _ & H)).
  do 3 (apply rbind_done in H as (? & _ & H)). cbn zeta in H.
  match type of H with match ?a with _ => _ end = _ => destruct a end; [|injection H as <-; same].
  match type of H with match ?a with _ => _ end = _ => destruct a end; [injection H as <-; same|].
  apply rbind_done in H as (d & _ & H). destruct d as [[? ?]|]; [|discriminate].
  apply rbind_done in H as (? & _ & H). injection H as <-. same.
Qed.
Lemma ty_deposit e s s' : ok_deposit e -> record_event_to_mint e s = Done s' -> ty_state s -> ty_state s'.
Proof.
  unfold record_event_to_mint. intros He H Hs. do 4 (apply rbind_done in H as (? & _ & H)).
  assert (H1 : ty_state (set_events_to_mint (binsert (dep_source e) e (events_to_mint s)) s)).
  { destruct Hs. constructor; cbn; auto. apply ball_insert; auto. }
  unfold update_balance_upon_deposit in H.
  destruct e; apply rbind_done in H as (? & _ & H); injection H as <-; revert H1; same.
Qed.

Lemma ty_apply s e s' : ty_payload e -> ty_state s -> apply_state_transition s e = Done s' -> ty_state s'.
Proof.
  intros [He Hy] Hs H. destruct e; cbn [apply_state_transition] in H; cbn [ok_payload] in He.
  - discriminate.
  - destruct (upgrade a s) as [u|] eqn:E; [|discriminate]. injection H as <-.
    apply (proj1 (upgrade_spec _ _ _)) in E as ((F1 & F2 & F3 & F4 & F5 & F6 & _) & _ & ->).
    destruct Hs as [S1 [] S3 S4 S5 S6 S7]. constructor; cbn; auto.
    + constructor; cbn; auto. unfold keep. destruct (ua_next_transaction_nonce a) eqn:E; auto. apply u256_max, F1; reflexivity.
    + unfold keep. destruct (ua_last_scraped_block_number a) eqn:E; auto. apply u256_max, F6; reflexivity.
    + unfold keep. destruct (ua_min_max_priority_fee_per_gas a) eqn:E; auto. apply u256_max, F4; reflexivity.
  - eapply ty_deposit; [|exact H|exact Hs]. exact He.
  - unfold record_invalid_deposit in H. do 2 (apply rbind_done in H as (? & _ & H)). destruct (bmem _ _); injection H as <-; [exact Hs|revert Hs; same].
  - unfold record_successful_mint in H. do 3 (apply rbind_done in H as (? & _ & H)). injection H as <-.
    destruct Hs. constructor; cbn; auto. apply ball_remove; auto.
  - injection H as <-. destruct Hs. constructor; cbn; auto.
  - eapply ty_on_withdrawals; [|exact Hs|exact H]. intros w w' Hw Hr. eapply ty_accept; [|exact Hw|exact Hr]. exact He.
  - eapply ty_on_withdrawals; [|exact Hs|exact H]. intros w w' Hw Hr. exact (ty_create _ _ _ _ (proj1 He) (proj2 He) Hw Hr).
  - eapply ty_on_withdrawals; [|exact Hs|exact H]. intros w w' Hw Hr. exact (ty_sign _ _ _ (proj1 (proj2 He)) Hw Hr).
  - eapply ty_on_withdrawals; [|exact Hs|exact H]. intros w w' Hw Hr. exact (ty_resubmit _ _ _ (proj2 He) Hw Hr).
  - unfold state_record_finalized_transaction in H. apply rbind_done in H as (w & Hw & H).
    eapply ty_balance; [exact H|]. apply ty_withdrawals; auto. exact (ty_finalize _ _ _ _ (proj1 He) (proj2 He) (ts_wt _ Hs) Hw).
  - eapply ty_on_withdrawals; [|exact Hs|exact H]. intros w w' Hw Hr. eapply ty_reimbursed; eauto.
  - unfold record_add_erc20_token in H. do 3 (apply rbind_done in H as (? & _ & H)). apply rbind_done in H as (m & Hm & H).
    injection H as <-. destruct Hs. constructor; cbn; auto. unfold dmkm_try_insert in Hm. eapply ball_expect; [|eassumption|exact Hm].
    cbn. unfold ok_token in He. tauto.
  - eapply ty_deposit; [|exact H|exact Hs]. exact He.
  - unfold record_erc20_withdrawal_request in H. apply rbind_done in H as (? & _ & H). apply rbind_done in H as (w & Hw & H).
    injection H as <-. apply ty_withdrawals; auto. eapply ty_accept; [|apply Hs|exact Hw]. exact He.
  - unfold record_successful_mint in H. do 3 (apply rbind_done in H as (? & _ & H)). injection H as <-.
    destruct Hs. constructor; cbn; auto. apply ball_remove; auto.
  - eapply ty_on_withdrawals; [|exact Hs|exact H]. intros w w' Hw Hr. eapply ty_reimbursed; eauto.
  - eapply ty_on_withdrawals; [|exact Hs|exact H]. intros w w' Hw Hr. eapply ty_request_reimb; [|exact He|exact Hw|exact Hr].
    apply He.
  - injection H as <-. unfold record_quarantined_deposit.
    assert (H1 : ty_state (set_events_to_mint (bremove event_source (events_to_mint s)) s)).
    { destruct Hs. constructor; cbn; auto. apply ball_remove; auto. }
    destruct (bmem _ _); [exact H1|]. revert H1. same.
  - injection H as <-. apply ty_withdrawals; auto. apply ty_quarantine, Hs.
  - unfold record_skipped_block in H. apply rbind_done in H as (? & _ & H). injection H as <-. revert Hs. same.
Qed.

Lemma ty_init a s : state_of_init a = ROk s -> ty_state s.
Proof.
  unfold state_of_init, ebind, or_err. intros H.
  repeat match type of H with
  | match amount_of_nat ?n with _ => _ end = _ => fail
  | match (match amount_of_nat ?n with _ => _ end) with _ => _ end = _ =>
      let E := fresh "E" in destruct (amount_of_nat n) eqn:E; [apply u256_nat in E|discriminate H]
  | match (match ?x with _ => _ end) with _ => _ end = _ => destruct x; try discriminate H
  | match ?x with _ => _ end = _ => destruct x; try discriminate H
  end.
  all: injection H as <-; constructor; cbn; auto; try apply Forall_nil; constructor; cbn; auto; apply Forall_nil.
Qed.

(** ** The state and the log *)
Definition ty_core (c : Core) : Prop := ty_state (fst c) /\ Forall ty_event (snd c).

Lemma ty_process now e c c' : u64 now -> ty_payload e -> ty_core c -> process_event now e c = Done c' -> ty_core c'.
Proof.
  intros Hn He [Hs Hl] H. apply process_event_inv in H as (s' & Hs' & ->). split; cbn.
  - eapply ty_apply; eauto.
  - unfold record_event. apply Forall_app_2; auto. constructor; [split; auto|constructor].
Qed.
Lemma ty_processes now es : forall c c', u64 now -> Forall ty_payload es -> ty_core c -> process_events now es c = Done c' -> ty_core c'.
Proof.
  unfold process_events. induction es as [|e es IH]; cbn; intros c c' Hn He Hc H.
  - injection H as <-. auto.
  - inversion He; subst. apply rbind_done in H as (c1 & H1 & H). eapply IH; [exact Hn|assumption| |exact H].
    eapply ty_process; [exact Hn| |exact Hc|exact H1]. assumption.
Qed.
Lemma ty_replay log s : Forall ty_event log -> replay_events log = Done s -> ty_state s.
Proof.
  destruct log as [|e log]; [discriminate|]. intros Hl. inversion Hl as [|? ? _ Ht]; subst. cbn.
  destruct (ev_payload e); try discriminate. destruct (state_of_init a) as [s0|] eqn:E; [|discriminate].
  apply ty_init in E. clear Hl. revert s0 E. induction Ht as [|x log Hx Ht IH]; cbn; intros s0 E H.
  - injection H as <-. auto.
  - apply rbind_done in H as (s1 & H1 & H). eapply IH; [|exact H]. eapply ty_apply; [apply Hx|exact E|exact H1].
Qed.
Lemma ty_upgrade now a c c' : u64 now -> optional ok_upgrade a -> ty_core c -> canister_upgrade now a c = Done c' -> ty_core c'.
Proof.
  unfold canister_upgrade, post_upgrade. intros Hn Ha [Hs Hl] H. apply rbind_done in H as (s & H1 & H).
  assert (Hp : Forall ty_event (pre_upgrade now c)).
  { unfold pre_upgrade, record_event. apply Forall_app_2; auto. constructor; [|constructor]. split; [exact Hn|].
    split; [|exact Logic.I]. apply Hs. }
  assert (Hc : ty_core (s, pre_upgrade now c)) by (split; [eapply ty_replay; [exact Hp|exact H1]|exact Hp]).
  destruct a as [x|]; [|injection H as <-; exact Hc]. eapply ty_process; [exact Hn| |exact Hc|exact H]. split; [exact Ha|exact Logic.I].
Qed.

(** ** Suspended functions *)
Definition ok_mint_job (j : MintJob) : Prop :=
  ok_deposit (mj_event j) /\ symbol (mj_symbol j) /\ Forall ok_deposit (mj_rest j).
Definition ok_range (r : Range) : Prop := u256 (snd r).
Definition ok_scrape_job (j : ScrapeJob) : Prop :=
  ok_range (sj_current j) /\ Forall ok_range (sj_subranges j) /\ ok_range (ck_range (sj_chunks j)).
Definition ok_native_job (j : NativeJob) : Prop :=
  principal (nj_caller j) /\ address (nj_destination j) /\ u256 (nj_amount j) /\ u64 (nj_now j).
Definition ok_erc20_job (j : Erc20Job) : Prop :=
  principal (ej_caller j) /\ address (ej_destination j) /\ u256 (ej_amount j) /\ address (et_contract_address (ej_token j)) /\
  symbol (et_symbol (ej_token j)) /\ principal (et_ledger_id (ej_token j)) /\ u256 (ej_tx_fee j) /\ u64 (ej_now j).
Definition ok_reimb (x : ReimbursementIndex * ReimbursementRequest) : Prop := ok_index (fst x) /\ ok_reimbursement (snd x).
Definition ty_task (t : Task) : Prop :=
  match t with
  | TMint j => ok_mint_job j
  | TMintFee j b => ok_mint_job j /\ u64 b
  | TReimburse _ i r rest => ok_index i /\ ok_reimbursement r /\ Forall ok_reimb rest
  | TScrapeLogs j => ok_scrape_job j
  | TRetrieveCount g => ok_gas g
  | TRetrieveSign _ batch => Forall (fun x => u64 (fst x) /\ ok_tx (snd x)) batch
  | TRetrieveReceipts h => Forall (fun x => u64 (snd x)) h
  | TNativeFee j | TNativeBurn j => ok_native_job j
  | TErc20Estimate j | TErc20Fee j | TErc20GasBurn j => ok_erc20_job j
  | TErc20Burn j i => ok_erc20_job j /\ u64 i
  | _ => True
  end.
Definition ty_next (nx : Next) : Prop := match nx with Await t => ty_task t | Finish _ => True end.
Definition ty_result (x : Core * Next) : Prop := ty_core (fst x) /\ ty_next (snd x).

Lemma ty_active x s : ty_state s -> ty_state (set_active_tasks x s).
Proof. same. Qed.
Lemma ty_principals x s : ty_state s -> ty_state (set_pending_withdrawal_principals x s).
Proof. same. Qed.
Lemma ty_time x s : ty_state s -> ty_state (set_last_observed_block_time x s).
Proof. same. Qed.
Lemma ty_number x s : optional u256 x -> ty_state s -> ty_state (set_last_observed_block_number x s).
Proof. intros Hx []. constructor; auto. Qed.
Lemma ty_scraped x s : u256 x -> ty_state s -> ty_state (set_last_scraped_block_number x s).
Proof. intros Hx []. constructor; auto. Qed.
Lemma ty_estimate x s : optional (fun x => ok_gas (snd x)) x -> ty_state s -> ty_state (set_last_transaction_price_estimate x s).
Proof. intros Hx []. constructor; auto. Qed.
Lemma ty_timer_new t s s' : timer_guard_new t s = Some s' -> ty_state s -> ty_state s'.
Proof. unfold timer_guard_new. destruct (bmem _ _); [discriminate|]. injection 1 as <-. apply ty_active. Qed.
Lemma ty_guard_new t s s' : guard_new t s = ROk s' -> ty_state s -> ty_state s'.
Proof.
  unfold guard_new. destruct (_ <=? _); [discriminate|]. destruct (bmem _ _); [discriminate|]. destruct (_ <=? _); [discriminate|].
  injection 1 as <-. apply ty_principals.
Qed.
Lemma ty_release l p s : ty_state s -> ty_state (release l p s).
Proof.
  unfold release. intros H. assert (H1 : ty_state (fold_left (fun s t => timer_guard_drop t s) l s)).
  { revert s H. induction l as [|t l IH]; cbn; intros s H; auto. apply IH. apply ty_active; auto. }
  destruct p; auto. apply ty_principals; auto.
Qed.
Lemma ty_on_state f c : (ty_state (fst c) -> ty_state (f (fst c))) -> ty_core c -> ty_core (on_state f c).
Proof. intros Hf [Hs Hl]. split; cbn; auto. Qed.
Lemma ty_end_timer t c x : end_timer t c = Done x -> ty_core c -> ty_result x.
Proof. unfold end_timer. injection 1 as <-. intros H. split; [|exact Logic.I]. apply ty_on_state; auto. intros. apply ty_active; auto. Qed.
Lemma ty_end_call t o c x : end_call t o c = Done x -> ty_core c -> ty_result x.
Proof. unfold end_call. injection 1 as <-. intros H. split; [|exact Logic.I]. apply ty_on_state; auto. intros. apply ty_principals; auto. Qed.

(** *** Minting *)
Lemma ty_mint_next fee l es c x : Forall ok_deposit es -> ty_core c -> mint_next fee l es c = Done x -> ty_result x.
Proof.
  unfold mint_next. intros He Hc H. destruct es as [|e es]; [eapply ty_end_timer; eauto|]. inversion He; subst.
  apply rbind_done in H as ([sy le] & Hs & H). apply rbind_done in H as (a & _ & H). injection H as <-.
  split; auto. cbn. split; auto. split; auto. cbn. destruct e.
  - injection Hs as <- _. apply native_symbol_typed.
  - apply rbind_done in Hs as ([l0 sy0] & Hs & E). apply expect_done in Hs. injection E as <- _.
    unfold dmkm_get_entry_alt, mkm_get_alt in Hs. apply (ball_get _ _ _ _ (ts_tokens _ (proj1 Hc)) Hs).
Qed.
Lemma ty_minted j b : ok_mint_job j -> u64 b -> ty_payload (minted_event j b).
Proof.
  intros (He & Hs & _) Hb. unfold minted_event. pose proof (ok_dep_source _ He). apply symbol_string in Hs.
  destruct (mj_event j); (split; [|exact Logic.I]); cbn [ok_payload]; auto.
  split; auto. split; auto. split; auto. cbn in He. unfold ok_erc20_event in He. tauto.
Qed.
Lemma ty_mint_record now j b c x : u64 now -> ok_mint_job j -> u64 b -> ty_core c -> mint_record now j b c = Done x -> ty_result x.
Proof.
  unfold mint_record. intros Hn Hj Hb Hc H. apply rbind_done in H as (c' & Hc' & H).
  eapply ty_mint_next; [apply Hj| |exact H]. exact (ty_process _ _ _ _ Hn (ty_minted _ _ Hj Hb) Hc Hc').
Qed.
Lemma ty_mint_reply now j r c x : u64 now -> ok_mint_job j -> ty_core c -> mint_reply now j r c = Done x -> ty_result x.
Proof.
  unfold mint_reply. intros Hn Hj Hc H. destruct r; try (eapply ty_mint_next; [apply Hj|exact Hc|exact H]).
  apply rbind_done in H as (b & Hb & H). apply block_typed in Hb. destruct (_ && _).
  - injection H as <-. split; auto. split; auto.
  - exact (ty_mint_record _ _ _ _ _ Hn Hj Hb Hc H).
Qed.
Lemma ty_mint_start c x : ty_core c -> mint_start c = Done x -> ty_result x.
Proof.
  unfold mint_start. intros Hc H. destruct (timer_guard_new _ _) as [s|] eqn:E.
  - assert (Hs : ty_state s) by (exact (ty_timer_new _ _ _ E (proj1 Hc))).
    assert (Hs' : ty_core (s, snd c)) by (split; [exact Hs|exact (proj2 Hc)]).
    eapply ty_mint_next; [|exact Hs'|exact H].
    unfold events_to_mint_list, bvals. apply Forall_map. exact (ts_mint _ Hs).
  - injection H as <-. split; auto. exact Logic.I.
Qed.

(** *** Scraping *)
Lemma ty_partition r m p : partition_at_checked r m = Done p -> ok_range r ->
  optional ok_range (fst p) /\ optional ok_range (snd p).
Proof.
  unfold partition_at_checked. destruct r as [a b]. intros H Hr. destruct (m <=? a); [injection H as <-; cbn; auto|].
  destruct (N.ltb_spec b m) as [Hb|Hb]; [injection H as <-; cbn; auto|]. apply rbind_done in H as (d & Hd & H). apply expect_done in Hd.
  injection H as <-. cbn in *. split; auto. unfold ok_range in *. cbn in *. apply (proj1 (checked_sub_some _ _ _)) in Hd as [_ ->].
  eapply u256_le; [|exact Hr]. lia.
Qed.
Lemma ty_chunk a tp ck c x : ok_range (ck_range ck) -> ty_core c -> scrape_next_chunk a tp ck c = Done x -> ty_result x.
Proof.
  unfold scrape_next_chunk. intros Hk Hc H. apply rbind_done in H as ([o ck'] & Ho & H).
  assert (Hck : optional ok_range o /\ ok_range (ck_range ck')).
  { unfold chunks_next in Ho. destruct (ck_exhausted ck); [injection Ho as <- <-; split; [exact Logic.I|auto]|].
    destruct (_ <? _); [injection Ho as <- <-; split; [exact Logic.I|auto]|]. apply rbind_done in Ho as (p & Hp & Ho).
    apply ty_partition in Hp as [P1 P2]; auto. destruct p as [[lo|] [hi|]]; cbn in *; try discriminate; injection Ho as <- <-; auto. }
  destruct o as [r|]; [|eapply ty_end_timer; eauto]. injection H as <-. split; auto. cbn. unfold ok_scrape_job. cbn.
  destruct Hck. auto.
Qed.
Lemma ty_scrape_next j q c x : ok_range (ck_range (sj_chunks j)) -> Forall ok_range q -> ty_core c ->
  scrape_next j q c = Done x -> ty_result x.
Proof.
  unfold scrape_next. intros Hj Hq Hc H. destruct q as [|r q]; [eapply ty_chunk; eauto|]. injection H as <-. inversion Hq; subst.
  split; auto. cbn. unfold ok_scrape_job. cbn. auto.
Qed.
Lemma ty_split r q q' : split_queue r q = Done q' -> ok_range r -> Forall ok_range q -> Forall ok_range q'.
Proof.
  unfold split_queue. intros H Hr Hq. apply rbind_done in H as ([l h] & Hp & H). injection H as <-.
  assert (P : optional ok_range l /\ optional ok_range h).
  { unfold partition_into_halves in Hp. destruct r as [a b]. destruct (b <=? a); [injection Hp as <- <-; cbn; auto|].
    do 3 (apply rbind_done in Hp as (? & _ & Hp)). apply ty_partition in Hp; auto. }
  destruct P as [P1 P2].
  assert (Hq1 : Forall ok_range match h with Some h => match q with [] => [h] | nx :: q' => join_with h nx :: q' end | None => q end).
  { destruct h as [h|]; auto. destruct q as [|nx q]; [constructor; auto|]. inversion Hq; subst. constructor; auto.
    unfold ok_range, join_with in *. cbn in *. apply u256_maximum; auto. }
  destruct l as [l|]; auto.
Qed.
Lemma ty_parse_log e r : ok_log e -> parse_log e = Done r ->
  match r with ROk d => ok_deposit d | RErr (InvalidEventSource s _) => ok_source s | _ => True end.
Proof.
  intros (H1 & H2 & H3 & H4 & H5) H. unfold parse_log in H. unfold ensure_not_pending in H.
  destruct (le_block_hash e) as [bh|]; [|injection H as <-; exact Logic.I]. destruct (le_block_number e) as [b|]; [|injection H as <-; exact Logic.I].
  destruct (le_transaction_hash e) as [h|]; [|injection H as <-; exact Logic.I].
  destruct (le_transaction_index e) as [ti|]; [|injection H as <-; exact Logic.I]. destruct (le_log_index e) as [i|]; [|injection H as <-; exact Logic.I].
  cbn [optional] in H3, H4, H5. assert (Hsrc : ok_source (h, i)) by (split; auto).
  destruct (le_removed e); [injection H as <-; exact Hsrc|].
  destruct (negb (_ && _)); [injection H as <-; exact Hsrc|]. destruct (negb (Nat.eqb (List.length (le_data e)) 64)) eqn:El; [injection H as <-; exact Hsrc|].
  assert (Hl : List.length (le_data e) = 64%nat) by (destruct (Nat.eqb_spec (List.length (le_data e)) 64); [auto|discriminate]).
  assert (Hf : bytes_of 32 (firstn 32 (le_data e))).
  { split; [|rewrite firstn_length, Hl; reflexivity]. apply Forall_forall. intros x Hx. rewrite Forall_forall in H2. apply H2.
    rewrite <- (firstn_skipn 32 (le_data e)). apply in_or_app; auto. }
  assert (Hg : bytes_of 32 (skipn 32 (le_data e))).
  { split; [|rewrite skipn_length, Hl; reflexivity]. apply Forall_forall. intros x Hx. rewrite Forall_forall in H2. apply H2.
    rewrite <- (firstn_skipn 32 (le_data e)). apply in_or_app; auto. }
  cbn zeta in H. destruct (address_of_word (firstn 32 (le_data e))) as [from|] eqn:Ef; [|injection H as <-; exact Hsrc].
  pose proof (word_address _ _ Hf Ef) as Hfrom.
  assert (Hsub : optional u256 (subaccount_from_bytes (skipn 32 (le_data e)))).
  { unfold subaccount_from_bytes. destruct (bytes_eqb _ _); [exact Logic.I|]. cbn [optional]. apply of_be_u256; auto. }
  assert (Ht : forall n w, nth_error (le_topics e) n = Some w -> bytes_of 32 w).
  { intros n w Hw. apply nth_error_In in Hw. rewrite Forall_forall in H1. auto. }
  apply rbind_done in H as (tw & Htw & H). apply expect_done in Htw. apply Ht in Htw.
  destruct (address_of_word tw) as [tok|] eqn:Etok; [|injection H as <-; exact Hsrc]. apply word_address in Etok; auto.
  apply rbind_done in H as (pw & Hpw & H). apply expect_done in Hpw. apply Ht in Hpw.
  apply rbind_done in H as (p & Hp & H). destruct p as [p|]; [|injection H as <-; exact Hsrc].
  assert (Hpr : principal p).
  { destruct Hpw as [Hb _]. unfold parse_principal_from_slice in Hp. destruct pw as [|n tl]; [discriminate|].
    destruct (32 <? _); [discriminate|]. destruct (n =? 0); [discriminate|]. destruct (29 <? n); [discriminate|]. destruct (_ <? _); [discriminate|].
    apply rbind_done in Hp as (? & _ & Hp). cbn zeta in Hp. destruct (negb (forallb _ _)); [discriminate|].
    destruct (bytes_eqb (firstn (N.to_nat n) tl) ANONYMOUS); [discriminate|].
    destruct (N.ltb_spec 29 (N.of_nat (List.length (firstn (N.to_nat n) tl)))) as [Hx|Hx]; [discriminate|]. injection Hp as <-.
    inversion Hb; subst. split; [|lia]. apply Forall_forall. intros y Hy. rewrite Forall_forall in *. 
    match goal with Hq : forall x, In x tl -> _ |- _ => apply Hq end. rewrite <- (firstn_skipn (N.to_nat n) tl). apply in_or_app; auto. }
  apply rbind_done in H as (v & Hv & H). apply expect_done in Hv. apply Ht in Hv. apply of_be_u256 in Hv.
  injection H as <-. destruct Hsrc as [S1 S2]. cbn [fst snd] in S1, S2.
  destruct (is_native_token tok); cbn [ok_deposit]; unfold ok_native_event, ok_erc20_event;
    cbn [ne_transaction_hash ne_block_number ne_log_index ne_from_address ne_value ne_principal ne_subaccount
         ee_transaction_hash ee_block_number ee_log_index ee_from_address ee_value ee_principal ee_erc20_contract_address ee_subaccount fst snd];
    tauto.
Qed.
Lemma ty_parse logs : forall ds es, Forall ok_log logs -> parse_all_logs logs = Done (ds, es) ->
  Forall ok_deposit ds /\ Forall (fun x => match x with InvalidEventSource s _ => ok_source s | _ => True end) es.
Proof.
  induction logs as [|e logs IH]; cbn [parse_all_logs]; intros ds es Hl H.
  - injection H as <- <-. auto.
  - inversion Hl; subst. apply rbind_done in H as (r & Hr & H). apply rbind_done in H as ([ok errs] & Hk & H).
    destruct (IH _ _ H3 Hk) as [I1 I2]. apply ty_parse_log in Hr; auto. destruct r as [d|x]; injection H as <- <-; auto.
Qed.
Lemma ty_register ds es : Forall ok_deposit ds -> Forall (fun x => match x with InvalidEventSource s _ => ok_source s | _ => True end) es ->
  Forall ty_payload (register_events ds es).
Proof.
  intros Hd He. unfold register_events. apply Forall_app_2.
  - apply Forall_map. eapply Forall_impl; [|exact Hd]. intros [d|d] H; (split; [exact H|exact Logic.I]).
  - apply Forall_forall. intros e H. apply in_flat_map in H as ([|src x] & Hx & H); [destruct H|]. destruct H as [<-|[]].
    rewrite Forall_forall in He. apply He in Hx. split; [|exact Logic.I]. split; [exact Hx|apply error_typed].
Qed.
Lemma ty_logs now j r c x : u64 now -> ok_scrape_job j -> match r with LogsOk l => Forall ok_log l | _ => True end -> ty_core c ->
  scrape_logs_reply now j r c = Done x -> ty_result x.
Proof.
  unfold scrape_logs_reply. intros Hn (H1 & H2 & H3) Hr Hc H. destruct (sj_current j) as [a b] eqn:Ej. unfold ok_range in H1. cbn [snd] in H1.
  destruct r as [logs| |].
  - apply rbind_done in H as ([ds es] & Hp & H). apply ty_parse in Hp as [P1 P2]; auto. apply rbind_done in H as (c' & Hc' & H).
    eapply ty_scrape_next; [exact H3|exact H2| |exact H]. apply ty_on_state; [apply ty_scraped; exact H1|].
    eapply ty_processes; [exact Hn|eapply ty_register; [exact P1|exact P2]|exact Hc|exact Hc'].
  - destruct (a =? b).
    + apply rbind_done in H as (c' & Hc' & H). eapply ty_scrape_next; [exact H3|exact H2| |exact H].
      apply ty_on_state; [apply ty_scraped; exact H1|]. eapply ty_process; [exact Hn| |exact Hc|exact Hc']. split; [exact H1|exact Logic.I].
    + apply rbind_done in H as (q & Hq & H). eapply ty_scrape_next; [exact H3| |exact Hc|exact H].
      eapply ty_split; [exact Hq|exact H1|exact H2].
  - eapply ty_end_timer; eauto.
Qed.
Lemma ty_until last c x : u256 last -> ty_core c -> scrape_until_block last c = Done x -> ty_result x.
Proof.
  unfold scrape_until_block. intros Hl Hc H. apply rbind_done in H as (sc & Hsc & H). apply rbind_done in H as (ck & Hk & H).
  eapply ty_chunk; [|exact Hc|exact H]. unfold into_chunks in Hk. apply rbind_done in Hk as (? & _ & Hk). injection Hk as <-. exact Hl.
Qed.
Lemma ty_observed n b : u256 b -> optional u256 (observed_block n b).
Proof.
  intros Hb. unfold observed_block. destruct (safety_margin n); [|exact Hb]. destruct (checked_sub b n0) eqn:E; [|exact Logic.I].
  eapply u256_sub; eauto.
Qed.
Lemma ty_block k r c x : optional u256 r -> ty_core c -> scrape_block_reply k r c = Done x -> ty_result x.
Proof.
  unfold scrape_block_reply. intros Hr Hc H.
  set (c' := match r with Some number => (set_last_observed_block_number (observed_block (evm_network (fst c)) number) (fst c), snd c) | None => c end) in H.
  assert (Hc' : ty_core c').
  { subst c'. destruct r; auto. split; [|exact (proj2 Hc)]. apply ty_number; [apply ty_observed; auto|apply Hc]. }
  pose proof (ts_observed _ (proj1 Hc')) as Ho. destruct (last_observed_block_number (fst c')) as [last|].
  - eapply ty_until; [exact Ho|exact Hc'|exact H].
  - destruct (_ <=? _); [eapply ty_end_timer; eauto|]. injection H as <-. split; [exact Hc'|exact Logic.I].
Qed.
Lemma ty_scrape_start now c x : ty_core c -> scrape_start now c = Done x -> ty_result x.
Proof.
  unfold scrape_start. intros [Hs Hl] H. destruct (timer_guard_new _ _) as [s|] eqn:E; injection H as <-; (split; [|exact Logic.I]); split; auto.
  apply ty_time. eapply ty_timer_new; eauto.
Qed.

(** *** Fees *)
Lemma ty_fee min h g : u256 min -> Forall u256 (fh_base_fee_per_gas h) -> Forall (Forall u256) (fh_reward h) ->
  estimate_transaction_fee min h = ROk g -> ok_gas g.
Proof.
  intros Hm Hb Hr. unfold estimate_transaction_fee. destruct (last_opt _) as [b|] eqn:Eb; [|discriminate].
  destruct (median _) as [m|] eqn:Em; [|discriminate]. destruct (checked_estimate_max_fee_per_gas _); [|discriminate].
  injection 1 as <-. split; cbn.
  - rewrite Forall_forall in Hb. apply Hb. apply last_opt_in. exact Eb.
  - apply u256_maximum; auto. unfold median in Em. apply nth_error_In in Em. apply (proj1 (sort_in _ _)) in Em.
    apply in_concat in Em as (l & Hl & Hm'). rewrite Forall_forall in Hr. specialize (Hr _ Hl). rewrite Forall_forall in Hr. auto.
Qed.
Definition ok_fees (r : option FeeHistory) : Prop :=
  match r with Some h => Forall u256 (fh_base_fee_per_gas h) /\ Forall (Forall u256) (fh_reward h) | None => True end.
Lemma ty_refresh now r s s' o : ok_fees r -> ty_state s -> refresh_reply now r s = (s', o) -> ty_state s' /\ optional ok_gas o.
Proof.
  unfold refresh_reply. intros Hr Hs H. destruct r as [h|]; [|injection H as <- <-; split; [apply ty_active; auto|exact Logic.I]].
  destruct (estimate_transaction_fee _ h) as [g|] eqn:E; injection H as <- <-.
  - apply ty_fee in E; [|apply Hs|apply Hr|apply Hr]. split; auto. apply ty_active, ty_estimate; auto.
  - split; [apply ty_active; auto|exact Logic.I].
Qed.
Lemma ty_refresh_start now s : ty_state s ->
  match refresh_start now s with RefreshCached g => ok_gas g | RefreshBusy => True | RefreshWait s' => ty_state s' end.
Proof.
  unfold refresh_start. intros Hs. pose proof (ts_price _ Hs) as Hp.
  assert (Hgo : match (match timer_guard_new TaskRefreshGasFeeEstimate s with Some s' => RefreshWait s' | None => RefreshBusy end) with
    RefreshCached g => ok_gas g | RefreshBusy => True | RefreshWait s' => ty_state s' end).
  { destruct (timer_guard_new _ s) eqn:E; [|exact Logic.I]. eapply ty_timer_new; eauto. }
  destruct (last_transaction_price_estimate s) as [[ts g]|]; [|exact Hgo]. destruct (_ <? _); [exact Hp|exact Hgo].
Qed.
Lemma ty_max_fee g l : u256 (max_transaction_fee (to_price g l)).
Proof. unfold max_transaction_fee. apply u256_or_max, u256_mul. Qed.

(** *** Processing withdrawals *)
Lemma ty_plus10 a b : plus_10_percent a = Done b -> u256 b.
Proof. unfold plus_10_percent. intros H. apply rbind_done in H as (d & _ & H). injection H as <-. apply u256_or_max, u256_add. Qed.
Lemma ty_resubmit_tx t s g t' : ok_tx t -> ok_strategy s -> ok_gas g -> resubmit t s g = Done (ROk (Some t')) -> ok_tx t'.
Proof.
  intros Ht Hs Hg. unfold resubmit. intros H. apply rbind_done in H as (new & Hnew & H).
  assert (Hp : u256 (tp_gas_limit new) /\ u256 (tp_max_fee_per_gas new) /\ u256 (tp_max_priority_fee_per_gas new)).
  { unfold ok_tx in Ht. unfold resubmit_transaction_price in Hnew. destruct (_ && _); [injection Hnew as <-; cbn; tauto|].
    apply rbind_done in Hnew as (p & Hp & Hnew). apply ty_plus10 in Hp. injection Hnew as <-. cbn.
    split; [tauto|]. split; apply u256_maximum; try tauto; [|apply Hg]. apply u256_or_max, u256_add. }
  destruct (price_eqb _ _); [discriminate|]. destruct (_ <? _); [discriminate|]. apply rbind_done in H as (a & Ha & H).
  assert (Hau : u256 a).
  { destruct s; [|injection Ha as <-; unfold ok_tx in Ht; tauto]. apply expect_done in Ha. exact (u256_sub _ _ _ Hs Ha). }
  injection H as <-. unfold ok_tx in *. cbn. tauto.
Qed.
Lemma ty_create_tx q n g l net t : ok_request q -> u256 n -> ok_gas g -> u256 l -> create_transaction q n g l net = Done (ROk t) -> ok_tx t.
Proof.
  intros Hq Hn Hg Hl. unfold create_transaction. intros H. apply rbind_done in H as (? & _ & H).
  assert (Ha : ok_access_list []) by (split; [reflexivity|constructor]). pose proof (chain_typed net) as Hch.
  destruct q as [r|r]; cbn [ok_request] in Hq.
  - destruct (checked_sub _ _) as [a|] eqn:E; [|discriminate]. injection H as <-. unfold ok_tx. cbn.
    unfold ok_native_request in Hq. assert (Hau : u256 a) by (eapply u256_sub; [|exact E]; tauto).
    assert (Hb : bytes []) by (split; [constructor|reflexivity]).
    assert (Hm : u256 (estimate_max_fee_per_gas g)).
    { unfold estimate_max_fee_per_gas, checked_estimate_max_fee_per_gas. apply u256_or_max. destruct (checked_mul _ _); [|exact Logic.I]. apply u256_add. }
    destruct Hg. tauto.
  - apply rbind_done in H as (m & Hm & H). apply expect_done in Hm. cbn zeta in H. destruct (_ <? _); [discriminate|]. injection H as <-.
    unfold ok_erc20_request in Hq.
    assert (Hm' : u256 m).
    { unfold into_wei_per_gas, checked_div_floor in Hm. destruct (N.eqb_spec l 0) as [|Hl0]; [discriminate|]. injection Hm as <-. apply (u256_le (ew_max_transaction_fee r)); [|apply Hq].
      apply N.div_le_upper_bound; [exact Hl0|]. nia. }
    pose proof (calldata_typed (ew_destination r) (ew_withdrawal_amount r)) as Hd.
    unfold ok_tx. cbn [Types.tx_chain_id Types.tx_nonce Types.tx_max_priority_fee_per_gas Types.tx_max_fee_per_gas Types.tx_gas_limit
      Types.tx_destination Types.tx_amount Types.tx_data Types.tx_access_list].
    assert (H0 : u256 0) by reflexivity. destruct Hg. tauto.
Qed.
Lemma ty_resubmit_batch now n g c c' : u64 now -> ok_gas g -> ty_core c -> resubmit_batch now n g c = Done c' -> ty_core c'.
Proof.
  unfold resubmit_batch. intros Hn Hg Hc H. destruct (mkm_is_empty _); [injection H as <-; auto|]. destruct n as [n|]; [|injection H as <-; auto].
  apply rbind_done in H as (l & Hl & H). eapply ty_processes; [exact Hn| |exact Hc|exact H].
  apply Forall_forall. intros e He. apply in_flat_map in He as (r & Hr & He). destruct r as [[id t]|]; [|destruct He]. destruct He as [<-|[]].
  unfold create_resubmit_transactions in Hl. apply rbind_done in Hl as (rows & Hrows & Hl).
  destruct (resubmit_loop_events _ _ _ _ _ Hl Hr) as (k & txs & last & Hin & Hlast & Hres). apply filter_In in Hin as [Hin _].
  destruct (ball_iter ok_sent _ _ _ _ _ (tw_sent _ (ts_wt _ (proj1 Hc))) Hrows Hin) as [Hid Htxs]. rewrite Forall_forall in Htxs.
  apply last_opt_in in Hlast. destruct (Htxs _ Hlast) as [Ht Hs]. split; [|exact Logic.I]. split; [exact Hid|].
  exact (ty_resubmit_tx _ _ _ _ Ht Hs Hg Hres).
Qed.
Lemma ty_create_one now g c r c' : u64 now -> ok_gas g -> ok_request r -> ty_core c -> create_one now g c r = Done c' -> ty_core c'.
Proof.
  unfold create_one. intros Hn Hg Hr Hc H. apply rbind_done in H as (x & Hx & H). destruct x as [t|].
  - eapply ty_process; [exact Hn| |exact Hc|exact H]. split; [|exact Logic.I]. split; [apply ok_burn_index; auto|].
    eapply ty_create_tx; [exact Hr|apply Hc|exact Hg| |exact Hx]. destruct r; reflexivity.
  - apply rbind_done in H as (w & Hw & H). injection H as <-. split; [|exact (proj2 Hc)]. cbn. apply ty_withdrawals; [|apply Hc].
    eapply ty_reschedule; [exact Hr|apply Hc|exact Hw].
Qed.
Lemma ty_create_batch now g c c' : u64 now -> ok_gas g -> ty_core c -> create_batch now g c = Done c' -> ty_core c'.
Proof.
  unfold create_batch. intros Hn Hg Hc H.
  assert (Hl : Forall ok_request (withdrawal_requests_batch WITHDRAWAL_BATCH (withdrawals (fst c)))).
  { unfold withdrawal_requests_batch. pose proof (tw_pending _ (ts_wt _ (proj1 Hc))) as Hp. apply Forall_forall. intros x Hx.
    rewrite Forall_forall in Hp. apply Hp. revert Hx. generalize (N.to_nat
      (N.min (MAX_NUM_PENDING_TRANSACTION_NONCES - N.of_nat (List.length (pending_nonces (withdrawals (fst c))))) WITHDRAWAL_BATCH)).
    intros m Hx. rewrite <- (firstn_skipn m). apply in_or_app; auto. }
  revert H Hl. generalize (withdrawal_requests_batch WITHDRAWAL_BATCH (withdrawals (fst c))).
  intros l. revert c c' Hc. induction l as [|r l IH]; cbn; intros c0 c' Hc H Hl; [injection H as <-; auto|].
  inversion Hl; subst. apply rbind_done in H as (c1 & H1 & H). eapply IH; [|exact H|assumption].
  eapply ty_create_one; [exact Hn|exact Hg| |exact Hc|exact H1]. assumption.
Qed.
Lemma ty_finalize_start c x : ty_core c -> finalize_start c = Done x -> ty_result x.
Proof.
  unfold finalize_start. intros Hc H. destruct (mkm_is_empty _); [eapply ty_end_timer; eauto|]. injection H as <-. split; [auto|exact Logic.I].
Qed.
Lemma ty_send_start n c x : ty_core c -> send_start n c = Done x -> ty_result x.
Proof.
  unfold send_start. intros Hc H. destruct n as [n|]; [|apply ty_finalize_start in H; auto]. apply rbind_done in H as (l & _ & H).
  destruct l; [apply ty_finalize_start in H; auto|]. injection H as <-. split; [auto|exact Logic.I].
Qed.
Lemma ty_sign_start n c x : ty_core c -> sign_start n c = Done x -> ty_result x.
Proof.
  unfold sign_start. intros Hc H. apply rbind_done in H as (l & Hl & H).
  assert (Hb : Forall (fun x => u64 (fst x) /\ ok_tx (snd x)) l).
  { unfold transactions_to_sign_batch in Hl. apply rbind_done in Hl as (rows & Hrows & Hl). injection Hl as <-. apply Forall_forall.
    intros y Hy. apply in_map_iff in Hy as ([[k b] v] & <- & Hin). cbn [fst snd].
    assert (Hin' : In (k, b, v) rows). { rewrite <- (firstn_skipn (N.to_nat SIGN_BATCH) rows). apply in_or_app; auto. }
    destruct (ball_iter ok_created _ _ _ _ _ (tw_created _ (ts_wt _ (proj1 Hc))) Hrows Hin') as (Q1 & Q2 & _). auto. }
  destruct l; [apply ty_send_start in H; auto|]. injection H as <-. split; auto.
Qed.
Lemma ty_signed batch : forall sigs, Forall (fun x => u64 (fst x) /\ ok_tx (snd x)) batch ->
  Forall (optional (fun g => u256 (sg_r g) /\ u256 (sg_s g))) sigs -> Forall ty_payload (signed_events keccak batch sigs).
Proof.
  induction batch as [|[id t] batch IH]; cbn; intros sigs Hb Hs; [constructor|]. destruct sigs as [|o sigs]; [constructor|].
  inversion Hb as [|? ? Hb1 Hb2]; subst. inversion Hs as [|? ? Hs1 Hs2]; subst. cbn [fst snd] in Hb1.
  destruct o as [sg|]; [|apply IH; auto]. constructor; [|apply IH; auto]. split; [|exact Logic.I]. split; [apply Hb1|].
  unfold ok_signed. split; [apply Hb1|]. split; [apply Hs1|]. split; [apply Hs1|reflexivity].
Qed.
Lemma ty_hashes n c h : ty_core c -> sent_transactions_to_finalize n (withdrawals (fst c)) = Done h -> Forall (fun x => u64 (snd x)) h.
Proof.
  unfold sent_transactions_to_finalize. intros Hc H. apply rbind_done in H as (rows & Hrows & H).
  set (l := flat_map _ _) in H.
  assert (Hl : Forall (fun x => u64 (snd x)) l).
  { subst l. apply Forall_forall. intros y Hy. apply in_flat_map in Hy as ([[k b] v] & Hin & Hy). apply filter_In in Hin as [Hin _].
    apply in_map_iff in Hy as (t & <- & _). cbn [fst snd].
    apply (ball_iter ok_sent _ _ _ _ _ (tw_sent _ (ts_wt _ (proj1 Hc))) Hrows Hin). }
  assert (Hnil : Forall (fun x : N * N => u64 (snd x)) []) by constructor. revert Hnil H. generalize (@nil (N * N)) at 1 2.
  clear Hrows. clearbody l. induction Hl as [|[h0 b0] l Hx Hl IH]; cbn; intros m Hm H; [injection H as <-; auto|].
  apply rbind_done in H as (m1 & H1 & H). eapply IH; [|exact H]. unfold add_hash_index in H1. apply rbind_done in H1 as (? & _ & H1).
  injection H1 as <-. apply (ball_insert (fun _ b => u64 b)); auto.
Qed.
Lemma ty_collect hs : forall rs acc out, Forall (fun x : Hash * N => u64 (snd x)) hs ->
  Forall (fun x => match x with ReceiptOk r => ok_receipt r | _ => True end) rs ->
  ball (fun i r => u64 i /\ ok_receipt r) acc -> collect_receipts hs rs acc = Some out -> ball (fun i r => u64 i /\ ok_receipt r) out.
Proof.
  induction hs as [|[h id] hs IH]; cbn; intros rs acc out Hh Hr Ha H; [injection H as <-; auto|].
  destruct rs as [|r rs]; [injection H as <-; auto|]. inversion Hh as [|? ? Hh1 Hh2]; subst. inversion Hr as [|? ? Hr1 Hr2]; subst.
  destruct r as [x| |]; [|eapply IH; eauto|discriminate]. destruct (bmem id acc); [discriminate|].
  eapply IH; [exact Hh2|exact Hr2| |exact H]. apply ball_insert; auto.
Qed.
Lemma ty_receipts now hs rs c x : u64 now -> Forall (fun x : Hash * N => u64 (snd x)) hs ->
  Forall (fun x => match x with ReceiptOk r => ok_receipt r | _ => True end) rs -> ty_core c ->
  retrieve_receipts_reply now hs rs c = Done x -> ty_result x.
Proof.
  unfold retrieve_receipts_reply. intros Hn Hh Hr Hc H. destruct (collect_receipts hs rs []) as [m|] eqn:E; [|eapply ty_end_timer; eauto].
  apply ty_collect in E; auto; [|constructor]. apply rbind_done in H as (? & _ & H). apply rbind_done in H as (c' & Hc' & H).
  eapply ty_end_timer; [exact H|]. eapply ty_processes; [exact Hn| |exact Hc|exact Hc']. apply Forall_map.
  eapply Forall_impl; [|exact E]. intros [i r] Hi. split; [exact Hi|exact Logic.I].
Qed.

(** *** Reimbursements *)
Lemma ty_reimburse_next l c x : Forall ok_reimb l -> ty_core c -> reimburse_next l c = Done x -> ty_result x.
Proof.
  unfold reimburse_next. intros Hl Hc H. destruct l as [|[i r] l]; [eapply ty_end_timer; eauto|]. injection H as <-.
  inversion Hl as [|? ? H1 H2]; subst. split; auto. cbn. destruct H1. auto.
Qed.
Lemma ty_reimbursed_event i r b : ok_index i -> ok_reimbursement r -> u64 b -> ty_payload (reimbursed_event i r b).
Proof.
  intros Hi (R1 & R2 & R3 & R4 & R5) Hb. unfold reimbursed_event. destruct i; (split; [|exact Logic.I]); cbn in *;
    unfold ok_reimbursed; cbn; tauto.
Qed.
Lemma ty_reimburse_reply now i r rest a c x : u64 now -> ok_index i -> ok_reimbursement r -> Forall ok_reimb rest -> ty_core c ->
  reimburse_reply now i r rest a c = Done x -> ty_result x.
Proof.
  unfold reimburse_reply. intros Hn Hi Hr Hl Hc H. destruct a; try (eapply ty_reimburse_next; [exact Hl|exact Hc|exact H]).
  apply rbind_done in H as (b & Hb & H). apply block_typed in Hb. apply rbind_done in H as (c' & Hc' & H).
  eapply ty_reimburse_next; [exact Hl| |exact H]. exact (ty_process _ _ _ _ Hn (ty_reimbursed_event _ _ _ Hi Hr Hb) Hc Hc').
Qed.

(** *** Withdrawals *)
Lemma ty_native_burn now j a c x : u64 now -> ok_native_job j -> u256 a -> ty_core c -> native_burn_start now j a c = Done x -> ty_result x.
Proof.
  unfold native_burn_start. intros Hn Hj Ha Hc H. injection H as <-. split; auto. cbn. unfold ok_native_job in *. cbn. tauto.
Qed.
Lemma ty_destination r d : validate_address_as_destination r = ROk d -> address d.
Proof.
  unfold validate_address_as_destination. destruct (address_of_text r) eqn:E; [|discriminate]. destruct (_ =? _); [discriminate|].
  injection 1 as <-. exact (address_of_text_is_address _ _ E).
Qed.
Lemma ty_native now p a r c x : u64 now -> principal p -> ty_core c -> withdraw_native_start now p a r c = Done x -> ty_result x.
Proof.
  unfold withdraw_native_start. intros Hn Hp Hc H. apply rbind_done in H as (? & _ & H).
  destruct (guard_new p (fst c)) as [s|] eqn:Eg; [|discriminate].
  assert (Hs : ty_core (s, snd c)) by (split; [exact (ty_guard_new _ _ _ Eg (proj1 Hc))|exact (proj2 Hc)]).
  destruct (validate_address_as_destination r) as [d|] eqn:Ed; [|eapply ty_end_call; eauto]. apply ty_destination in Ed.
  apply rbind_done in H as (v & Hv & H). apply expect_done in Hv. apply u256_nat in Hv.
  destruct (_ <? _); [eapply ty_end_call; eauto|]. cbn zeta in H.
  destruct (withdrawal_native_fee s).
  - apply rbind_done in H as (? & _ & H). injection H as <-. split; auto. cbn. unfold ok_native_job. cbn. auto.
  - eapply ty_native_burn; [exact Hn| |exact Hv|exact Hs|exact H]. unfold ok_native_job. cbn. auto.
Qed.
Lemma ty_native_fee now j r c x : u64 now -> ok_native_job j -> ty_core c -> native_fee_reply now j r c = Done x -> ty_result x.
Proof.
  unfold native_fee_reply. intros Hn Hj Hc H. apply rbind_done in H as (y & _ & H). destruct y; [|eapply ty_end_call; eauto].
  apply rbind_done in H as (f & _ & H). apply rbind_done in H as (v & Hv & H). apply expect_done in Hv.
  eapply ty_native_burn; [exact Hn|exact Hj| |exact Hc|exact H]. eapply u256_sub; [|exact Hv]. apply Hj.
Qed.
Lemma ty_native_burned now j r c x : u64 now -> ok_native_job j -> ty_core c -> native_burn_reply now j r c = Done x -> ty_result x.
Proof.
  unfold native_burn_reply. intros Hn Hj Hc H. apply rbind_done in H as (y & Hy & H). destruct y as [i|e].
  - apply burn_typed in Hy. apply rbind_done in H as (c' & Hc' & H). eapply ty_end_call; [exact H|].
    eapply ty_process; [exact Hn| |exact Hc|exact Hc']. split; [|exact Logic.I]. cbn. unfold ok_native_request, ok_native_job in *. cbn. tauto.
  - destruct (nj_fee j); [|apply rbind_done in H as (? & _ & H); eapply ty_end_call; eauto]. injection H as <-. split; [auto|exact Logic.I].
Qed.
Lemma ty_gas_burn now j c x : u64 now -> ok_erc20_job j -> ty_core c -> erc20_gas_burn_start now j c = Done x -> ty_result x.
Proof.
  unfold erc20_gas_burn_start. intros Hn Hj Hc H. injection H as <-. split; auto. cbn. unfold ok_erc20_job in *. cbn. tauto.
Qed.
Lemma ty_estimated now j g c x : u64 now -> ok_erc20_job j -> ty_core c -> erc20_estimated now j g c = Done x -> ty_result x.
Proof.
  unfold erc20_estimated. intros Hn Hj Hc H. pose proof (ty_max_fee g ERC20_GAS_LIMIT) as Hm.
  destruct (withdrawal_native_fee (fst c)).
  - apply rbind_done in H as (? & _ & H). injection H as <-. split; auto. cbn. unfold ok_erc20_job in *.
    cbn [ej_caller ej_destination ej_amount ej_token ej_tx_fee ej_now]. tauto.
  - eapply ty_gas_burn; [exact Hn| |exact Hc|exact H]. unfold ok_erc20_job in *. cbn [ej_caller ej_destination ej_amount ej_token ej_tx_fee ej_now]. tauto.
Qed.
Lemma ty_erc20 now p a l r c x : u64 now -> principal p -> principal l -> ty_core c ->
  withdraw_erc20_start now p a l r c = Done x -> ty_result x.
Proof.
  unfold withdraw_erc20_start. intros Hn Hp Hl Hc H. apply rbind_done in H as (? & _ & H).
  destruct (guard_new p (fst c)) as [s|] eqn:Eg; [|discriminate].
  assert (Hs : ty_core (s, snd c)) by (split; [exact (ty_guard_new _ _ _ Eg (proj1 Hc))|exact (proj2 Hc)]).
  destruct (validate_address_as_destination r) as [d|] eqn:Ed; [|eapply ty_end_call; eauto]. apply ty_destination in Ed.
  apply rbind_done in H as (v & Hv & H). apply expect_done in Hv. apply u256_nat in Hv.
  destruct (find_erc20_token_by_ledger_id l s) as [tok|] eqn:Et.
  - assert (Htok : address (et_contract_address tok) /\ symbol (et_symbol tok) /\ et_ledger_id tok = l).
    { unfold find_erc20_token_by_ledger_id, dmkm_get_entry in Et. destruct (mkm_get_entry l (erc20_tokens s)) as [[c0 y]|] eqn:E; [|discriminate].
      cbn in Et. injection Et as <-. destruct (ball_entry _ _ _ _ _ (ts_tokens _ (proj1 Hs)) E) as (A1 & _ & A2). cbn. auto. }
    destruct Htok as (T1 & T2 & T3). cbn zeta in H.
    set (j := {| ej_caller := p; ej_destination := d; ej_amount := v; ej_token := tok; ej_transfer_fee := native_ledger_transfer_fee s;
                 ej_native_ledger := native_ledger_id s; ej_tx_fee := 0; ej_fee := None; ej_now := now |}) in H.
    assert (Hj : ok_erc20_job j).
    { subst j. unfold ok_erc20_job. cbn [ej_caller ej_destination ej_amount ej_token ej_tx_fee ej_now]. rewrite T3.
      assert (u256 0) by reflexivity. tauto. }
    clearbody j. pose proof (ty_refresh_start now s (proj1 Hs)) as Hr. destruct (refresh_start now s) as [g| |s'].
    + eapply ty_estimated; [exact Hn|exact Hj|exact Hs|exact H].
    + eapply ty_end_call; eauto.
    + injection H as <-. split; [split; [exact Hr|exact (proj2 Hc)]|exact Hj].
  - apply rbind_done in H as (? & _ & H). eapply ty_end_call; eauto.
Qed.
Lemma ty_refund j i e c x : ty_core c -> erc20_refund_start j i e c = Done x -> ty_result x.
Proof.
  unfold erc20_refund_start. intros Hc H. destruct (ej_fee j); [|eapply ty_end_call; eauto]. injection H as <-. split; [auto|exact Logic.I].
Qed.
Lemma ty_erc20_burned now j i r c x : u64 now -> ok_erc20_job j -> u64 i -> ty_core c -> erc20_burn_reply now j i r c = Done x -> ty_result x.
Proof.
  unfold erc20_burn_reply. intros Hn Hj Hi Hc H. apply rbind_done in H as (y & Hy & H). destruct y as [b|e].
  - apply burn_typed in Hy. apply rbind_done in H as (c' & Hc' & H). eapply ty_end_call; [exact H|].
    eapply ty_process; [exact Hn| |exact Hc|exact Hc']. split; [|exact Logic.I]. cbn. unfold ok_erc20_request, ok_erc20_job in *. cbn. tauto.
  - cbn zeta in H. apply rbind_done in H as (c' & Hc' & H). eapply ty_refund; [|exact H].
    destruct (0 <? _); [|injection Hc' as <-; auto]. eapply ty_process; [exact Hn| |exact Hc|exact Hc']. split; [|exact Logic.I].
    cbn. unfold ok_reimbursement. cbn. unfold ok_erc20_job in Hj.
    assert (Ha : u256 (failed_burn_reimbursement j e)).
    { unfold failed_burn_reimbursement. assert (u256 0) by reflexivity. destruct e; try tauto;
        (destruct (checked_sub _ _) eqn:E; [eapply u256_sub; [|exact E]; tauto|auto]). }
    tauto.
Qed.
Lemma ty_add_token now p a c x : u64 now -> principal (at_ledger_id a) -> ty_core c -> add_erc20_token now p a c = Done x -> ty_result x.
Proof.
  unfold add_erc20_token. intros Hn Hl Hc H. do 2 (apply rbind_done in H as (? & _ & H)). apply rbind_done in H as (t & Ht & H).
  apply expect_done in Ht. apply rbind_done in H as (c' & Hc' & H). injection H as <-. split; [|exact Logic.I]. cbn.
  eapply ty_process; [exact Hn| |exact Hc|exact Hc']. unfold erc20_token_of in Ht. destruct (_ <? _); [discriminate|].
  destruct (network_of_chain_id _); [|discriminate]. destruct (address_of_text _) eqn:Ea; [|discriminate].
  destruct (parse_symbol _) eqn:Es; [|discriminate]. injection Ht as <-. apply address_of_text_is_address in Ea. apply parsed_symbol in Es.
  split; [|exact Es]. cbn. unfold ok_token. cbn. auto using symbol_string.
Qed.

(** ** Segments *)
Lemma ty_resume now t r c x : u64 now -> ty_task t -> ok_reply r -> ty_core c -> resume keccak now t r c = Done x -> ty_result x.
Proof.
  intros Hn Ht Hr Hc H. destruct t; destruct r; cbn [resume] in H; try discriminate; cbn [ty_task] in Ht; cbn [ok_reply] in Hr.
  - eapply ty_mint_reply; eauto.
  - destruct Ht as [Hj Hb]. exact (ty_mint_record _ _ _ _ _ Hn Hj Hb Hc H).
  - destruct Ht as (? & ? & ?). eapply ty_reimburse_reply; eauto.
  - eapply ty_block; eauto.
  - eapply ty_logs; eauto.
  - unfold retrieve_fee_reply in H. destruct (refresh_reply now r (fst c)) as [s o] eqn:E. apply ty_refresh in E as [E1 E2]; [|exact Hr|apply Hc].
    destruct o; [injection H as <-; split; [split; [exact E1|apply Hc]|exact E2]|]. eapply ty_end_timer; [exact H|]. split; [exact E1|apply Hc].
  - unfold retrieve_count_reply in H. apply rbind_done in H as (c1 & H1 & H). apply rbind_done in H as (c2 & H2 & H).
    eapply ty_sign_start; [|exact H]. eapply ty_create_batch; [exact Hn|exact Ht| |exact H2]. eapply ty_resubmit_batch; [exact Hn|exact Ht|exact Hc|exact H1].
  - unfold retrieve_sign_reply in H. apply rbind_done in H as (c1 & H1 & H). eapply ty_send_start; [|exact H].
    eapply ty_processes; [exact Hn|eapply ty_signed; [exact Ht|exact Hr]|exact Hc|exact H1].
  - eapply ty_finalize_start; eauto.
  - unfold retrieve_finalized_count_reply in H. destruct r as [n|]; [|eapply ty_end_timer; eauto].
    apply rbind_done in H as (h & Hh & H). pose proof (ty_hashes _ _ _ Hc Hh) as Hb. destruct h; [eapply ty_end_timer; eauto|].
    injection H as <-. split; auto.
  - eapply ty_receipts; eauto.
  - eapply ty_native_fee; eauto.
  - eapply ty_native_burned; eauto.
  - unfold native_refund_reply in H. apply rbind_done in H as (? & _ & H). apply rbind_done in H as (? & _ & H). eapply ty_end_call; eauto.
  - unfold erc20_estimate_reply in H. destruct (refresh_reply now r (fst c)) as [s o] eqn:E. apply ty_refresh in E as [E1 E2]; [|exact Hr|apply Hc].
    destruct o; [|eapply ty_end_call; [exact H|]; split; [exact E1|apply Hc]].
    exact (ty_estimated _ _ _ (s, snd c) _ Hn Ht (conj E1 (proj2 Hc)) H).
  - unfold erc20_fee_reply in H. apply rbind_done in H as (y & _ & H). destruct y; [|eapply ty_end_call; eauto]. eapply ty_gas_burn; eauto.
  - unfold erc20_gas_burn_reply in H. apply rbind_done in H as (y & Hy & H). destruct y; [|eapply ty_refund; eauto]. apply burn_typed in Hy.
    injection H as <-. split; [auto|split; auto].
  - destruct Ht as [Hj Hi]. exact (ty_erc20_burned _ _ _ _ _ _ Hn Hj Hi Hc H).
  - unfold erc20_refund_reply in H. apply rbind_done in H as (? & _ & H). eapply ty_end_call; eauto.
  - injection H as <-. destruct (refresh_reply now r (fst c)) as [s o] eqn:E. apply ty_refresh in E as [E1 E2]; [|exact Hr|apply Hc].
    split; [split; [exact E1|apply Hc]|exact Logic.I].
Qed.
Lemma ty_timer now k c x : ty_core c -> timer_start now k c = Done x -> ty_result x.
Proof.
  intros Hc H. destruct k; cbn [timer_start] in H.
  - eapply ty_mint_start; eauto.
  - eapply ty_scrape_start; eauto.
  - unfold retrieve_start in H. destruct (timer_guard_new _ _) as [s|] eqn:E; [|injection H as <-; split; [auto|exact Logic.I]].
    assert (Hs : ty_core (s, snd c)) by (split; [exact (ty_timer_new _ _ _ E (proj1 Hc))|exact (proj2 Hc)]).
    destruct (negb _); [eapply ty_end_timer; eauto|]. pose proof (ty_refresh_start now s (proj1 Hs)) as Hr.
    destruct (refresh_start now s); [injection H as <-; split; auto|eapply ty_end_timer; eauto|].
    injection H as <-. split; [split; [exact Hr|apply Hc]|exact Logic.I].
  - unfold reimburse_start in H. destruct (timer_guard_new _ _) as [s|] eqn:E; [|injection H as <-; split; [auto|exact Logic.I]].
    assert (Hs : ty_core (s, snd c)) by (split; [exact (ty_timer_new _ _ _ E (proj1 Hc))|exact (proj2 Hc)]).
    eapply ty_reimburse_next; [|exact Hs|exact H]. exact (tw_reimb _ (ts_wt _ (proj1 Hs))).
  - unfold refresh_task_start in H. pose proof (ty_refresh_start now (fst c) (proj1 Hc)) as Hr.
    destruct (refresh_start now (fst c)); injection H as <-; (split; [|exact Logic.I]); auto. split; [exact Hr|apply Hc].
Qed.
Lemma ty_call now u c x : u64 now -> ok_call u -> ty_core c -> call_start now u c = Done x -> ty_result x.
Proof.
  intros Hn Hu Hc H. destruct u; cbn [call_start] in H; cbn [ok_call] in Hu.
  - eapply ty_native; eauto.
  - exact (ty_erc20 _ _ _ _ _ _ _ Hn (proj1 Hu) (proj2 Hu) Hc H).
  - exact (ty_add_token _ _ _ _ _ Hn (proj2 Hu) Hc H).
  - unfold request_scraping_logs in H. do 2 (apply rbind_done in H as (? & _ & H)).
    destruct (amount_of_nat block); injection H as <-; (split; [auto|exact Logic.I]).
Qed.
Lemma ty_cleanup_task now t c c' : u64 now -> ty_task t -> ty_core c -> cleanup now t c = Done c' -> ty_core c'.
Proof.
  unfold cleanup. intros Hn Ht Hc H. apply rbind_done in H as (c1 & H1 & H). injection H as <-.
  apply ty_on_state; [apply ty_release|]. eapply ty_processes; [exact Hn| |exact Hc|exact H1].
  destruct t; try constructor; cbn [ty_task] in Ht; try constructor.
  - apply ok_dep_source, Ht.
  - exact Logic.I.
  - apply ok_dep_source, Ht.
  - exact Logic.I.
  - apply Ht.
  - exact Logic.I.
Qed.

(** ** Ledger operations *)
Definition call_memo (c : LedgerCall) : option Memo :=
  match c with Transfer _ _ _ m => m | TransferFrom _ _ _ _ m => m end.
Definition ok_memo (m : Memo) : Prop :=
  match m with
  | MemoMint m => ok_mint_memo m
  | MemoBurn m => ok_burn_memo m /\ match m with BurnErc20GasFee t _ _ => symbol t | _ => True end
  end.
Lemma ty_memo t c : ty_task t -> task_call self t = Some c -> optional ok_memo (call_memo c).
Proof.
  intros Ht H. destruct t; cbn [task_call] in H; try discriminate; injection H as <-; cbn [call_memo]; try exact Logic.I;
    cbn [ty_task] in Ht; unfold ok_memo; cbn [optional].
  - destruct Ht as (He & _). unfold memo_of_deposit. destruct (mj_event j); cbn in *; unfold ok_native_event, ok_erc20_event in He; tauto.
  - destruct Ht as (_ & (R1 & _ & _ & _ & R5) & _). unfold memo_of_reimbursement. destruct (rr_transaction_hash r); cbn in *; auto.
  - unfold ok_native_job in Ht. cbn. tauto.
  - unfold ok_erc20_job in Ht. cbn. pose proof (symbol_string (et_symbol (ej_token j))). tauto.
  - unfold ok_erc20_job in Ht. cbn. tauto.
Qed.

(** ** Whole histories *)
Record ty_sys (s : Sys) : Prop := {
  ty_c : ty_core (sys_core s);
  ty_t : forall id fl, bget id (sys_tasks s) = Some fl -> ty_task (fl_task fl) /\ optional ok_reply (fl_reply fl);
  ty_o : Forall (fun o => optional ok_memo (call_memo (fst o))) (sys_ops s)
}.
Lemma ty_install id nx s : ty_sys s -> ty_next nx -> ty_sys (install id nx s).
Proof.
  intros [H1 H2 H3] Hn. constructor.
  - rewrite install_core. exact H1.
  - intros i fl. rewrite install_tasks. destruct (keqb i id); [|apply H2]. destruct nx; [|discriminate]. injection 1 as <-. cbn. auto.
  - rewrite install_ops. exact H3.
Qed.
Lemma ty_trans s l s' : ty_sys s -> ok_label l -> Trans self keccak s l s' -> ty_sys s'.
Proof.
  intros Hs Hl H.
  destruct H as [|k now c nx Hc H|u now c nx Hc H|k now Hc|u now Hc|id t c b Hget Hcall Hallow|id t r Hget Hfit Hno|id now t r c nx Hc Hget H|id trap now t r c Hc Hget Hp H|a now c Hc Ht H];
    cbn [ok_label] in Hl.
  - exact Hs.
  - apply ty_timer in H as [T1 T2]; [|apply Hs]. pose proof (ty_install (sys_next s) nx (with_core c now s)
      {| ty_c := T1 : ty_core (sys_core (with_core c now s)); ty_t := ty_t s Hs; ty_o := ty_o s Hs |} T2) as [].
    constructor; assumption.
  - apply ty_call in H as [T1 T2]; [|apply Hl|apply Hl|apply Hs]. pose proof (ty_install (sys_next s) nx (with_core c now (with_call (sys_next s) u s))
      {| ty_c := T1 : ty_core (sys_core (with_core c now (with_call (sys_next s) u s))); ty_t := ty_t s Hs; ty_o := ty_o s Hs |} T2) as [].
    constructor; assumption.
  - destruct Hs. constructor; assumption.
  - destruct Hs. constructor; assumption.
  - pose proof (ty_t s Hs _ _ Hget) as [T1 _]. cbn in T1. destruct Hs as [H1 H2 H3]. constructor; cbn.
    + exact H1.
    + intros i fl. rewrite bget_insert. destruct (keqb i id); [|apply H2]. injection 1 as <-. cbn. auto.
    + apply Forall_app_2; auto. constructor; [|constructor]. cbn. eapply ty_memo; [exact T1|exact Hcall].
  - pose proof (ty_t s Hs _ _ Hget) as [T1 _]. cbn in T1. destruct Hs as [H1 H2 H3]. constructor; cbn.
    + exact H1.
    + intros i fl. rewrite bget_insert. destruct (keqb i id); [|apply H2]. injection 1 as <-. cbn. auto.
    + exact H3.
  - pose proof (ty_t s Hs _ _ Hget) as [T1 T2]. cbn in T1, T2. apply ty_resume in H as [T3 T4]; [|exact Hl|exact T1|exact T2|apply Hs].
    pose proof (ty_install id nx (with_queries (task_query t r) (with_core c now s))
      {| ty_c := T3 : ty_core (sys_core (with_queries (task_query t r) (with_core c now s))); ty_t := ty_t s Hs; ty_o := ty_o s Hs |} T4) as [].
    constructor; assumption.
  - pose proof (ty_t s Hs _ _ Hget) as [T1 T2]. cbn in T1. pose proof (ty_cleanup_task _ _ _ _ Hl T1 (ty_c s Hs) H) as T3.
    pose proof (ty_install id (Finish OutTrap) (with_core c now s)
      {| ty_c := T3 : ty_core (sys_core (with_core c now s)); ty_t := ty_t s Hs; ty_o := ty_o s Hs |} Logic.I) as [].
    constructor; assumption.
  - destruct Hl as [La Ln]. pose proof (ty_upgrade _ _ _ _ Ln La (ty_c s Hs) H) as T1.
    exact {| ty_c := T1 : ty_core (sys_core (with_core c now s)); ty_t := ty_t s Hs; ty_o := ty_o s Hs |}.
Qed.

Lemma start_back s l s' : Trans self keccak s l s' -> typed_start keccak s' -> typed_start keccak s.
Proof.
  intros H. destruct (trans_grows keccak self _ _ _ H) as (es & E & _). unfold typed_start. rewrite E. destruct (sys_log s); auto. 
Qed.
Lemma ty_reach (env : Sys -> Label -> Prop) s : (forall s l, env s l -> ok_label l) -> reach self keccak env s ->
  typed_start keccak s -> ty_sys s.
Proof.
  intros He. apply (reach_inv self keccak env (fun s => typed_start keccak s -> ty_sys s)).
  - intros now a s0 H Hst. apply sys_init_inv in H as (st & Hi & Hc & Ht & _ & _ & Ho & _). constructor.
    + rewrite Hc. split; [eapply ty_init; exact Hi|]. unfold typed_start, sys_log in Hst. rewrite Hc in Hst. cbn in Hst.
      constructor; [|constructor]. destruct Hst. split; auto. split; auto. exact Logic.I.
    + rewrite Ht. discriminate.
    + rewrite Ho. constructor.
  - intros s0 l s' IH Hl H Hst. eapply ty_trans; [apply IH; eapply start_back; eauto|eapply He; exact Hl|exact H].
Qed.

Lemma typed_log (env : Sys -> Label -> Prop) s : (forall s l, env s l -> ok_label l) -> reach self keccak env s ->
  typed_start keccak s -> Forall (ok_event keccak) (sys_log s).
Proof.
  intros He Hr Hst. destruct (ty_c s (ty_reach env s He Hr Hst)) as [_ H]. eapply Forall_impl; [|exact H].
  intros e (H1 & H2 & _). split; auto.
Qed.
Lemma typed_memo (env : Sys -> Label -> Prop) s c b m : (forall s l, env s l -> ok_label l) -> reach self keccak env s ->
  typed_start keccak s -> In (c, b) (sys_ops s) -> call_memo c = Some m -> ok_memo m.
Proof.
  intros He Hr Hst Hin Hm. pose proof (ty_o s (ty_reach env s He Hr Hst)) as H. rewrite Forall_forall in H. apply H in Hin.
  cbn in Hin. rewrite Hm in Hin. exact Hin.
Qed.

(** ** Consequences *)
Lemma typed_log_survives s : reach self keccak typed_env s -> typed_start keccak s ->
  map (load_event keccak) (map store_event (sys_log s)) = map Done (sys_log s).
Proof. intros Hr Hs. apply stored_log. exact (typed_log typed_env s (fun _ _ H => H) Hr Hs). Qed.
Lemma typed_mint_decodes s l to v m b : reach self keccak typed_env s -> typed_start keccak s ->
  In (Transfer l to v (Some (MemoMint m)), b) (sys_ops s) -> forall rest, dec_mint_memo (mint_memo_bytes m ++ rest) = DOk m rest.
Proof.
  intros Hr Hs Hin rest. apply (proj1 mint_memo_reads). exact (typed_memo typed_env s _ _ _ (fun _ _ H => H) Hr Hs Hin eq_refl).
Qed.
Lemma typed_burn_decodes s l from to v m b : reach self keccak typed_env s -> typed_start keccak s ->
  In (TransferFrom l from to v (Some (MemoBurn m)), b) (sys_ops s) -> forall rest, dec_burn_memo (burn_memo_bytes m ++ rest) = DOk m rest.
Proof.
  intros Hr Hs Hin rest. apply (proj1 burn_memo_reads). exact (proj1 (typed_memo typed_env s _ _ _ (fun _ _ H => H) Hr Hs Hin eq_refl)).
Qed.
Lemma typed_burn_size s l from to v m b : reach self keccak typed_env s -> typed_start keccak s ->
  In (TransferFrom l from to v (Some (MemoBurn m)), b) (sys_ops s) -> (List.length (burn_memo_bytes m) <= 80)%nat.
Proof.
  intros Hr Hs Hin. apply burn_memo_size. exact (proj2 (typed_memo typed_env s _ _ _ (fun _ _ H => H) Hr Hs Hin eq_refl)).
Qed.
Lemma typed_memos_unique s : reach self keccak typed_nonce_kept s -> typed_start keccak s ->
  NoDup (map (fun x => (fst x, mint_memo_bytes (snd x))) (mint_memos (sys_ops s))).
Proof.
  intros Hr Hs. apply (memos_unique self keccak typed_nonce_kept s (fun _ _ H => proj2 H) Hr). apply Forall_forall. intros [l m] Hin.
  apply memos_in in Hin as (o & to & v & Hin & E). destruct o as [c b]. cbn in E. subst c.
  exact (typed_memo typed_nonce_kept s _ _ _ (fun _ _ H => proj1 H) Hr Hs Hin eq_refl).
Qed.
End Typed.
