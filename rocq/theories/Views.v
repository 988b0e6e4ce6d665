(** * Views: how each segment changes the scraping position, the observed block and the
    cached fee estimate. *)

From Verif Require Import Base BMap MultiKeyMap MultiKeyMapFacts Bytes Types Amount ArithFacts Tx CallData
  Network Hex Transactions State Audit Ranges Rlp Parser Memo Driver Sys SysSpec WtInv StateEquiv
  Segments Tasks SysFacts CoreInv LogFacts Guards.

Record View := {
  v_number : option N;
  v_time : option N;
  v_price : option (N * GasFeeEstimate);
  v_scraped : N;
  v_min : N;
  v_network : EvmNetwork
}.
Definition vw (s : State) : View :=
  {| v_number := last_observed_block_number s; v_time := last_observed_block_time s;
     v_price := last_transaction_price_estimate s; v_scraped := last_scraped_block_number s;
     v_min := min_max_priority_fee_per_gas s; v_network := evm_network s |}.

(** Events that do not touch it *)
Definition plain (e : EventType) : Prop :=
  match e with EvInit _ | EvUpgrade _ | EvSyncedToBlock _ => False | _ => True end.

Lemma vw_apply s e s' : plain e -> apply_state_transition s e = Done s' -> vw s' = vw s.
Proof.
  intros Hp H. destruct e; cbn [apply_state_transition] in H; try contradiction; try discriminate;
    try (apply on_withdrawals_inv in H as (w & _ & ->); reflexivity);
    try (injection H as <-; reflexivity).
  - unfold record_event_to_mint, update_balance_upon_deposit in H. inv_res; reflexivity.
  - unfold record_invalid_deposit in H. inv_res.
    destruct (bmem _ (invalid_events s)); inv_res; reflexivity.
  - unfold record_successful_mint in H. inv_res. reflexivity.
  - unfold state_record_finalized_transaction in H. inv_res.
    apply update_balance_shape in H as (nb & eb & ->). reflexivity.
  - unfold record_add_erc20_token in H. inv_res. reflexivity.
  - unfold record_event_to_mint, update_balance_upon_deposit in H. inv_res; reflexivity.
  - unfold record_erc20_withdrawal_request in H. inv_res. reflexivity.
  - unfold record_successful_mint in H. inv_res. reflexivity.
  - injection H as <-. unfold record_quarantined_deposit. destruct (bmem _ _); reflexivity.
  - unfold record_skipped_block in H. inv_res. reflexivity.
Qed.
Lemma vw_event now e c c' : plain e -> process_event now e c = Done c' -> vw (fst c') = vw (fst c).
Proof. intros Hp H. apply process_event_inv in H as (s' & H & ->). eapply vw_apply; eauto. Qed.
Lemma vw_events now es : Forall plain es ->
  forall c c', process_events now es c = Done c' -> vw (fst c') = vw (fst c).
Proof.
  unfold process_events. induction 1 as [|e es He _ IH]; cbn; intros c c' H; inv_res; auto.
  apply IH in H. apply vw_event in H0; auto. congruence.
Qed.
Lemma vw_create now g l : forall c c', rfold (create_one now g) c l = Done c' -> vw (fst c') = vw (fst c).
Proof.
  induction l as [|r l IH]; cbn; intros c c' H; inv_res; auto.
  apply IH in H. rewrite H. unfold create_one in H0. inv_res. destruct x0.
  - eapply vw_event; eauto. exact Logic.I.
  - inv_res. reflexivity.
Qed.
Lemma vw_resubmit now n g c c' : resubmit_batch now n g c = Done c' -> vw (fst c') = vw (fst c).
Proof.
  unfold resubmit_batch. destruct (mkm_is_empty _); [intros H; inv_res; auto|].
  destruct n; intros H; inv_res; auto. eapply vw_events; [|exact H].
  clear. induction x as [|[[]|] x IH]; cbn; auto. constructor; auto. exact Logic.I.
Qed.
Lemma plain_signed keccak b : forall l, Forall plain (signed_events keccak b l).
Proof.
  induction b as [|[i t] b IH]; intros [|[s|] l]; cbn; auto. constructor; auto. exact Logic.I.
Qed.
Lemma plain_register ds es : Forall plain (register_events ds es).
Proof.
  unfold register_events. apply Forall_app. split.
  - induction ds as [|[] ds IH]; cbn; constructor; auto; exact Logic.I.
  - induction es as [|[] es IH]; cbn; auto. constructor; auto. exact Logic.I.
Qed.
Lemma plain_receipts (l : bmap N Receipt) :
  Forall plain (map (fun x => EvFinalizedTransaction (fst x) (snd x)) l).
Proof. induction l; cbn; constructor; auto. exact Logic.I. Qed.
Lemma plain_quarantine t : Forall plain (task_quarantine t).
Proof. destruct t; cbn; auto; constructor; auto; exact Logic.I. Qed.

Lemma vw_mint fee l es c c' nx : mint_next fee l es c = Done (c', nx) -> vw (fst c') = vw (fst c).
Proof. intros H. apply mint_next_inv in H as [(_ & -> & ->)|(-> & j' & -> & _)]; reflexivity. Qed.
Lemma vw_chunk a tp ck c c' nx : scrape_next_chunk a tp ck c = Done (c', nx) -> vw (fst c') = vw (fst c).
Proof. intros H. apply scrape_next_chunk_inv in H as [(-> & ->)|(-> & j' & ->)]; reflexivity. Qed.
Lemma vw_scrape j l c c' nx : scrape_next j l c = Done (c', nx) -> vw (fst c') = vw (fst c).
Proof. intros H. apply scrape_next_inv in H as [(-> & ->)|(-> & j' & ->)]; reflexivity. Qed.
Lemma vw_end T c c' nx : end_timer T c = Done (c', nx) -> vw (fst c') = vw (fst c).
Proof. unfold end_timer. intros H. inv_res. reflexivity. Qed.
Lemma vw_end_call p o c c' nx : end_call p o c = Done (c', nx) -> vw (fst c') = vw (fst c).
Proof. unfold end_call. intros H. inv_res. reflexivity. Qed.
Lemma vw_reimburse l c c' nx : reimburse_next l c = Done (c', nx) -> vw (fst c') = vw (fst c).
Proof.
  unfold reimburse_next. destruct l as [|[i r] l]; intros H; [eapply vw_end; eauto|]. inv_res. reflexivity.
Qed.
Lemma vw_finalize c c' nx : finalize_start c = Done (c', nx) -> vw (fst c') = vw (fst c).
Proof.
  unfold finalize_start. destruct (mkm_is_empty _); intros H; [eapply vw_end; eauto|]. inv_res. reflexivity.
Qed.
Lemma vw_send n c c' nx : send_start n c = Done (c', nx) -> vw (fst c') = vw (fst c).
Proof.
  unfold send_start. destruct n; intros H; [|eapply vw_finalize; eauto]. inv_res.
  destruct x; [eapply vw_finalize; eauto|]. inv_res. reflexivity.
Qed.
Lemma vw_refund j i e c c' nx : erc20_refund_start j i e c = Done (c', nx) -> vw (fst c') = vw (fst c).
Proof.
  unfold erc20_refund_start. destruct (ej_fee j); intros H; [|eapply vw_end_call; eauto]. inv_res. reflexivity.
Qed.

Definition set_v_number n v := {| v_number := n; v_time := v_time v; v_price := v_price v;
  v_scraped := v_scraped v; v_min := v_min v; v_network := v_network v |}.
Definition set_v_time n v := {| v_number := v_number v; v_time := n; v_price := v_price v;
  v_scraped := v_scraped v; v_min := v_min v; v_network := v_network v |}.
Definition set_v_price n v := {| v_number := v_number v; v_time := v_time v; v_price := n;
  v_scraped := v_scraped v; v_min := v_min v; v_network := v_network v |}.
Definition set_v_scraped n v := {| v_number := v_number v; v_time := v_time v; v_price := v_price v;
  v_scraped := n; v_min := v_min v; v_network := v_network v |}.

(** What a callback does to the view *)
Definition resumed (now : N) (t : Task) (r : Reply) (v v' : View) : Prop :=
  match t, r with
  | TScrapeBlock _, ReBlock (Some n) => v' = set_v_number (observed_block (v_network v) n) v
  | TScrapeLogs j, ReLogs (LogsOk _) => v' = set_v_scraped (snd (sj_current j)) v
  | TScrapeLogs j, ReLogs LogsTooLarge =>
      v' = (if fst (sj_current j) =? snd (sj_current j) then set_v_scraped (snd (sj_current j)) v else v)
  | (TRetrieveFee | TErc20Estimate _ | TRefresh), ReFees (Some h) =>
      match estimate_transaction_fee (v_min v) h with
      | ROk g => v' = set_v_price (Some (now, g)) v
      | RErr _ => v' = v
      end
  | _, _ => v' = v
  end.

Lemma vw_refresh now r s s' o : refresh_reply now r s = (s', o) ->
  match r with
  | Some h => match estimate_transaction_fee (min_max_priority_fee_per_gas s) h with
              | ROk g => vw s' = set_v_price (Some (now, g)) (vw s) /\ o = Some g
              | RErr _ => vw s' = vw s /\ o = None
              end
  | None => vw s' = vw s /\ o = None
  end.
Proof.
  unfold refresh_reply. destruct r as [h|]; [destruct (estimate_transaction_fee _ h)|];
    injection 1 as <- <-; split; reflexivity.
Qed.

Section Keccak.
Variable keccak : list N -> Hash.

Lemma resume_view now t r c c' nx :
  resume keccak now t r c = Done (c', nx) -> resumed now t r (vw (fst c)) (vw (fst c')).
Proof.
  intros H. destruct t, r; cbn [resume] in H; try discriminate; cbn [resumed].
  - unfold mint_reply in H. destruct r as [b|e|]; [|eapply vw_mint; eauto..].
    inv_res. destruct (is_native (mj_event j) && is_some (mj_fee j)); [inv_res; reflexivity|].
    unfold mint_record in H. inv_res. apply vw_mint in H. rewrite H. eapply vw_event; eauto.
    unfold minted_event. destruct (mj_event j); exact Logic.I.
  - unfold mint_record in H. inv_res. apply vw_mint in H. rewrite H. eapply vw_event; eauto.
    unfold minted_event. destruct (mj_event j); exact Logic.I.
  - unfold reimburse_reply in H. destruct r as [b|e|]; [|eapply vw_reimburse; eauto..].
    inv_res. apply vw_reimburse in H. rewrite H. eapply vw_event; eauto. destruct i; exact Logic.I.
  - unfold scrape_block_reply in H.
    set (c1 := match r with
               | Some number => (set_last_observed_block_number
                   (observed_block (evm_network (fst c)) number) (fst c), snd c)
               | None => c end) in H.
    assert (Hg : vw (fst c') = vw (fst c1)).
    { destruct (last_observed_block_number (fst c1)).
      + unfold scrape_until_block in H. inv_res. eapply vw_chunk; eauto.
      + destruct (MAX_ATTEMPTS <=? attempts + 1); [eapply vw_end; eauto|]. inv_res. reflexivity. }
    rewrite Hg. subst c1. destruct r; reflexivity.
  - unfold scrape_logs_reply in H. destruct (sj_current j) as [f to]. cbn [fst snd]. destruct r as [logs| |].
    + inv_res. destruct x as [ds es]. inv_res. apply vw_scrape in H. rewrite H. cbn [on_state fst].
      apply vw_events in H1; [|apply plain_register]. rewrite <- H1. reflexivity.
    + destruct (f =? to); inv_res; apply vw_scrape in H; rewrite H; auto. cbn [on_state fst].
      apply vw_event in H0; [|exact Logic.I]. rewrite <- H0. reflexivity.
    + eapply vw_end; eauto.
  - unfold retrieve_fee_reply in H. destruct (refresh_reply now r (fst c)) as [s o] eqn:E.
    apply vw_refresh in E. cbn [vw v_min].
    destruct r as [h|]; [destruct (estimate_transaction_fee _ h)|]; destruct E as [E ->]; unfold end_timer in H; inv_res; exact E.
  - unfold retrieve_count_reply in H. inv_res. unfold sign_start in H. inv_res.
    apply vw_resubmit in H0. apply vw_create in H1.
    destruct x1; [apply vw_send in H|inv_res]; cbn [fst]; congruence.
  - unfold retrieve_sign_reply in H. inv_res. apply vw_send in H. rewrite H.
    eapply vw_events; [|eauto]. apply plain_signed.
  - eapply vw_finalize; eauto.
  - unfold retrieve_finalized_count_reply in H. destruct r as [n|]; [|eapply vw_end; eauto].
    inv_res. destruct x; [eapply vw_end; eauto|]. inv_res. reflexivity.
  - unfold retrieve_receipts_reply in H. destruct (collect_receipts hashes l []) as [rs|];
      [|eapply vw_end; eauto]. inv_res. apply vw_end in H. rewrite H. eapply vw_events; [|eauto].
    apply plain_receipts.
  - unfold native_fee_reply in H. inv_res. destruct x as [i|e]; [|eapply vw_end_call; eauto].
    inv_res. unfold native_burn_start in H. inv_res. reflexivity.
  - unfold native_burn_reply in H. inv_res. destruct x as [i|e].
    + inv_res. apply vw_end_call in H. rewrite H. eapply vw_event; eauto. exact Logic.I.
    + destruct (nj_fee j); [inv_res; reflexivity|inv_res; eapply vw_end_call; eauto].
  - unfold native_refund_reply in H. inv_res. eapply vw_end_call; eauto.
  - unfold erc20_estimate_reply in H. destruct (refresh_reply now r (fst c)) as [s o] eqn:E.
    apply vw_refresh in E. cbn [vw v_min].
    assert (Hg : vw (fst c') = vw s).
    { destruct o; [|eapply vw_end_call in H; exact H]. apply estimated_inv in H as (-> & _). reflexivity. }
    destruct r as [h|]; [destruct (estimate_transaction_fee _ h)|]; destruct E as [E _];
      rewrite <- E; exact Hg.
  - unfold erc20_fee_reply in H. inv_res. destruct x as [i|e]; [|eapply vw_end_call; eauto].
    unfold erc20_gas_burn_start in H. inv_res. reflexivity.
  - unfold erc20_gas_burn_reply in H. inv_res. destruct x as [i|e]; [|eapply vw_refund; eauto].
    inv_res. reflexivity.
  - unfold erc20_burn_reply in H. inv_res. destruct x as [i|e].
    + inv_res. apply vw_end_call in H. rewrite H. eapply vw_event; eauto. exact Logic.I.
    + inv_res. apply vw_refund in H. rewrite H.
      destruct (0 <? _); inv_res; auto. eapply vw_event; eauto. exact Logic.I.
  - unfold erc20_refund_reply in H. inv_res. eapply vw_end_call; eauto.
  - inv_res. cbn [fst]. destruct (refresh_reply now r (fst c)) as [s o] eqn:E. apply vw_refresh in E.
    cbn [vw v_min fst]. destruct r as [h|]; [destruct (estimate_transaction_fee _ h)|]; destruct E as [E _]; exact E.
Qed.

Lemma cleanup_view now t c c' : cleanup now t c = Done c' -> vw (fst c') = vw (fst c).
Proof.
  unfold cleanup. intros H. inv_res. apply vw_events in H0; [|apply plain_quarantine]. rewrite <- H0.
  cbn [on_state fst]. unfold release. clear.
  assert (Hr : forall l s, vw (fold_left (fun s t => timer_guard_drop t s) l s) = vw s).
  { induction l as [|T l IH]; intros s; cbn; auto. rewrite IH. reflexivity. }
  destruct (task_principal t); [|apply Hr]. etransitivity; [|apply Hr]. reflexivity.
Qed.

Lemma timer_new_view T s s' : timer_guard_new T s = Some s' -> vw s' = vw s.
Proof. unfold timer_guard_new. destruct (bmem _ _); [discriminate|]. injection 1 as <-. reflexivity. Qed.

Lemma timer_view now k c c' nx : timer_start now k c = Done (c', nx) ->
  vw (fst c') = (match nx with Await (TScrapeBlock _) => set_v_time (Some now) | _ => fun v => v end) (vw (fst c)).
Proof.
  destruct c as [s log]. destruct k; cbn [timer_start fst].
  - unfold mint_start; cbn [fst snd]. destruct (timer_guard_new _ s) as [s1|] eqn:E; intros H; [|inv_res; auto].
    apply timer_new_view in E.
    apply mint_next_inv in H as [(_ & -> & ->)|(-> & j' & -> & _)]; exact E.
  - unfold scrape_start; cbn [fst snd]. destruct (timer_guard_new _ s) as [s1|] eqn:E; intros H; inv_res; auto.
    apply timer_new_view in E. rewrite <- E. reflexivity.
  - unfold retrieve_start, end_timer; cbn [fst snd]. destruct (timer_guard_new _ s) as [s1|] eqn:E; intros H;
      [|inv_res; auto]. apply timer_new_view in E.
    destruct (negb _); [inv_res; exact E|]. destruct (refresh_start now s1) eqn:Er; inv_res; try exact E.
    apply refresh_start_wait, timer_new_view in Er. cbn [fst]. congruence.
  - unfold reimburse_start; cbn [fst snd]. destruct (timer_guard_new _ s) as [s1|] eqn:E; intros H;
      [|inv_res; auto]. apply timer_new_view in E.
    unfold reimburse_next, end_timer in H. destruct (reimb_requests (withdrawals s1)) as [|[i q] l]; inv_res; exact E.
  - unfold refresh_task_start; cbn [fst snd]. destruct (refresh_start now s) eqn:Er; intros H; inv_res; auto.
    apply refresh_start_wait, timer_new_view in Er. exact Er.
Qed.

Lemma call_view now u c c' nx : call_start now u c = Done (c', nx) -> vw (fst c') = vw (fst c).
Proof.
  intros H. apply (call_after keccak) in H. destruct c as [s log], u; cbn [call_next] in H.
  - destruct H as (_ & s1 & Hg & H). apply (guard_new_inv keccak) in Hg as (_ & _ & _ & Hg).
    destruct H as [(-> & -> & _)|(d & _ & _ & [(-> & _ & ->)|(_ & -> & Hn)])]; subst s1; reflexivity.
  - destruct H as (_ & s1 & Hg & H). apply (guard_new_inv keccak) in Hg as (_ & _ & _ & Hg).
    destruct H as [(e & -> & ->)|(d & tk & _ & _ & _ & [(g & t' & -> & -> & Hn)|(s2 & Hr & -> & ->)])];
      [subst s1; reflexivity..|].
    apply refresh_start_wait, timer_new_view in Hr. cbn [fst]. rewrite Hr. subst s1. reflexivity.
  - destruct H as (-> & _ & t & _ & H). eapply vw_event in H; [exact H|exact Logic.I].
  - destruct H as (-> & n & t & _ & _ & ->). reflexivity.
Qed.

Lemma replay_snoc_inv log e s : replay_events (log ++ [e]) = Done s -> (forall a, ev_payload e <> EvInit a) ->
  exists s0, replay_events log = Done s0 /\ apply_state_transition s0 (ev_payload e) = Done s.
Proof.
  destruct log as [|e0 log]; cbn.
  - destruct (ev_payload e); try discriminate. intros _ H. edestruct H; reflexivity.
  - destruct (ev_payload e0); try discriminate. destruct (state_of_init a) as [s0|]; [|discriminate].
    rewrite rfold_app. destruct (rfold _ s0 log) as [s1|]; cbn; [|discriminate]. intros H _. inv_res. eauto.
Qed.

Lemma upgrade_view now a c c' : canister_upgrade now a c = Done c' ->
  last_observed_block_number (fst c') = None /\ last_observed_block_time (fst c') = None /\
  last_transaction_price_estimate (fst c') = None /\
  last_scraped_block_number (fst c') =
    match a with Some x => keep (ua_last_scraped_block_number x) (last_scraped_block_number (fst c))
    | None => last_scraped_block_number (fst c) end.
Proof.
  unfold canister_upgrade, post_upgrade. intros H. inv_res.
  assert (Hl : last_scraped_block_number x = last_scraped_block_number (fst c)).
  { unfold pre_upgrade in H0. unfold record_event in H0. apply replay_snoc_inv in H0 as (s0 & _ & H0); [|discriminate].
    cbn [ev_payload apply_state_transition] in H0. injection H0 as <-. reflexivity. }
  apply replay_volatile in H0. destruct H0 as (V1 & V2 & _ & _ & V3).
  destruct a as [a|]; [|inv_res; auto].
  apply process_event_inv in H as (s' & Ha & ->). cbn [fst apply_state_transition] in *.
  destruct (upgrade a x) as [y|] eqn:E; [|discriminate]. injection Ha as <-.
  apply upgrade_spec in E as (_ & _ & ->). cbn. rewrite <- Hl. auto.
Qed.

(** A step changes the view in one of these ways *)
Variable self : Principal.

Inductive vstepped (s : Sys) : Label -> Sys -> Prop :=
| VS_same l s' : vw (sys_state s') = vw (sys_state s) -> vstepped s l s'
| VS_scrape now s' : sys_clock s <= now -> sys_clock s' = now ->
    vw (sys_state s') = set_v_time (Some now) (vw (sys_state s)) -> vstepped s (LTimer TimerScrape now) s'
| VS_resume id now t r s' : sys_clock s <= now -> sys_clock s' = now ->
    bget id (sys_tasks s) = Some {| fl_task := t; fl_reply := Some r |} ->
    resumed now t r (vw (sys_state s)) (vw (sys_state s')) -> vstepped s (LDeliver id false now) s'
| VS_upgrade a now s' : sys_tasks s = [] ->
    last_observed_block_number (sys_state s') = None /\ last_observed_block_time (sys_state s') = None /\
    last_transaction_price_estimate (sys_state s') = None /\
    last_scraped_block_number (sys_state s') =
      match a with Some x => keep (ua_last_scraped_block_number x) (last_scraped_block_number (sys_state s))
      | None => last_scraped_block_number (sys_state s) end ->
    vstepped s (LUpgrade a now) s'.

Lemma install_clock id nx s : sys_clock (install id nx s) = sys_clock s.
Proof. destruct nx; reflexivity. Qed.
Lemma install_core' id nx s : sys_core (install id nx s) = sys_core s.
Proof. destruct nx; reflexivity. Qed.

Lemma trans_view s l s' : Trans self keccak s l s' -> vstepped s l s'.
Proof.
  intros H. unfold sys_state in *. destruct H.
  - apply VS_same. reflexivity.
  - pose proof H0 as Ht. apply timer_view in H0.
    assert (Hc : sys_core (bump_next (install (sys_next s) nx (with_core c now s))) = c)
      by (cbn; rewrite install_core'; reflexivity).
    assert (Hn : (exists n, nx = Await (TScrapeBlock n)) \/ vw (fst c) = vw (fst (sys_core s))).
    { destruct nx as [[]|]; auto. left; eauto. }
    destruct Hn as [[n ->]|Hn]; [|apply VS_same; unfold sys_state; rewrite Hc; exact Hn].
    assert (k = TimerScrape) as ->.
    { apply timer_after in Ht. destruct k; cbn [timer_next] in Ht; auto; exfalso.
      all: clear - Ht; intuition; repeat match goal with H : exists _, _ |- _ => destruct H end; intuition; discriminate. }
    apply VS_scrape; auto.
  - apply VS_same. unfold sys_state. cbn. rewrite install_core'. cbn. eapply call_view; eauto.
  - apply VS_same. reflexivity.
  - apply VS_same. reflexivity.
  - apply VS_same. reflexivity.
  - apply VS_same. reflexivity.
  - eapply VS_resume; [exact H|rewrite install_clock; reflexivity|exact H0|].
    unfold sys_state. rewrite install_core'. cbn. eapply resume_view; eauto.
  - apply VS_same. unfold sys_state. rewrite install_core'. cbn. eapply cleanup_view; eauto.
  - eapply VS_upgrade; auto. unfold sys_state. cbn. eapply upgrade_view; eauto.
Qed.

End Keccak.
