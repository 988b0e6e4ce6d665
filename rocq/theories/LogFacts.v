(** * The event log only grows, and never by an Init event. *)

From Verif Require Import Base BMap MultiKeyMap MultiKeyMapFacts Bytes Types Amount Tx CallData
  Network Hex Transactions State Audit Ranges Rlp Parser Memo Driver Sys SysSpec WtInv StateEquiv
  TxSpec WtContent Segments SysFacts CoreInv.

(** [log'] is [log] followed by events other than Init *)
Definition grows (log log' : list Event) : Prop :=
  exists es, log' = log ++ es /\ forall e a, In e es -> ev_payload e <> EvInit a.

Lemma grows_refl log : grows log log.
Proof. exists []. rewrite app_nil_r. cbn. tauto. Qed.
Lemma grows_trans a b c : grows a b -> grows b c -> grows a c.
Proof.
  intros (x & -> & Hx) (y & -> & Hy). exists (x ++ y). rewrite app_assoc. split; auto.
  intros e i Hin. apply in_app_iff in Hin as [H|H]; eauto.
Qed.
Lemma grows_process now e c c' : process_event now e c = Done c' -> grows (snd c) (snd c').
Proof.
  intros H. apply process_event_inv in H as (s' & Ha & ->). cbn.
  eexists. split; [reflexivity|]. intros x a [<-|[]]. cbn. intros ->. discriminate.
Qed.
Lemma grows_processes now es : forall c c', process_events now es c = Done c' -> grows (snd c) (snd c').
Proof.
  unfold process_events. induction es as [|e es IH]; cbn; intros c c' H.
  - inv_res. apply grows_refl.
  - inv_res. eapply grows_trans; [eapply grows_process; eauto|eauto].
Qed.
Lemma grows_next_mint fee l es c c' nx : mint_next fee l es c = Done (c', nx) -> grows (snd c) (snd c').
Proof. intros H. apply mint_next_core in H as [->| ->]; apply grows_refl. Qed.
Lemma grows_chunk a t ck c c' nx : scrape_next_chunk a t ck c = Done (c', nx) -> grows (snd c) (snd c').
Proof.
  unfold scrape_next_chunk. intros H. inv_res. destruct x as [[r|] ck']; unfold end_timer in *; inv_res;
    apply grows_refl.
Qed.
Lemma grows_scrape_next j q c c' nx : scrape_next j q c = Done (c', nx) -> grows (snd c) (snd c').
Proof.
  destruct q; cbn; intros H; [eapply grows_chunk; eauto|]. inv_res. apply grows_refl.
Qed.
Lemma grows_finalize c c' nx : finalize_start c = Done (c', nx) -> grows (snd c) (snd c').
Proof.
  unfold finalize_start, end_timer. destruct (mkm_is_empty _); intros H; inv_res; apply grows_refl.
Qed.
Lemma grows_send n c c' nx : send_start n c = Done (c', nx) -> grows (snd c) (snd c').
Proof.
  unfold send_start. destruct n; [|apply grows_finalize]. intros H. inv_res.
  destruct x; [eapply grows_finalize; eauto|]. inv_res. apply grows_refl.
Qed.
Lemma grows_sign n c c' nx : sign_start n c = Done (c', nx) -> grows (snd c) (snd c').
Proof.
  unfold sign_start. intros H. inv_res. destruct x; [eapply grows_send; eauto|]. inv_res. apply grows_refl.
Qed.
Lemma grows_reimburse l c c' nx : reimburse_next l c = Done (c', nx) -> grows (snd c) (snd c').
Proof.
  unfold reimburse_next, end_timer. destruct l as [|[i r] l]; intros H; inv_res; apply grows_refl.
Qed.
Lemma grows_estimated now j g c c' nx : erc20_estimated now j g c = Done (c', nx) -> grows (snd c) (snd c').
Proof.
  unfold erc20_estimated, erc20_gas_burn_start. destruct (withdrawal_native_fee _); intros H; inv_res;
    apply grows_refl.
Qed.
Lemma grows_refund j i e c c' nx : erc20_refund_start j i e c = Done (c', nx) -> grows (snd c) (snd c').
Proof.
  unfold erc20_refund_start, end_call. destruct (ej_fee j); intros H; inv_res; apply grows_refl.
Qed.

Section Keccak.
Variable keccak : list N -> Hash.

Lemma resume_grows now t r c c' nx : resume keccak now t r c = Done (c', nx) -> grows (snd c) (snd c').
Proof.
  intros H. destruct t, r; cbn in H; try discriminate; destruct c as [s log]; cbn [fst snd] in *.
  - unfold mint_reply in H. destruct r; try (eapply grows_next_mint in H; exact H). inv_res.
    destruct (_ && _); inv_res; [apply grows_refl|]. unfold mint_record in H. inv_res.
    eapply grows_trans; [|eapply grows_next_mint; eauto]. eapply grows_process in H1. auto.
  - unfold mint_record in H. inv_res.
    eapply grows_trans; [|eapply grows_next_mint; eauto]. eapply grows_process in H0. auto.
  - unfold reimburse_reply in H. destruct r; try (eapply grows_reimburse in H; exact H). inv_res.
    eapply grows_trans; [|eapply grows_reimburse; eauto]. eapply grows_process in H1. auto.
  - unfold scrape_block_reply in H. destruct r as [n|]; cbn in H.
    + destruct (observed_block _ _); [|destruct (MAX_ATTEMPTS <=? _); unfold end_timer in H; inv_res; apply grows_refl].
      unfold scrape_until_block in H. inv_res. apply grows_chunk in H. auto.
    + destruct (last_observed_block_number s);
        [|destruct (MAX_ATTEMPTS <=? _); unfold end_timer in H; inv_res; apply grows_refl].
      unfold scrape_until_block in H. inv_res. apply grows_chunk in H. auto.
  - unfold scrape_logs_reply in H. destruct (sj_current j) as [f to]. destruct r.
    + inv_res. destruct x as [ds es]. inv_res. apply grows_scrape_next in H. cbn in H.
      eapply grows_trans; [|exact H]. eapply grows_processes in H1. auto.
    + destruct (f =? to); inv_res; apply grows_scrape_next in H; cbn in H; auto.
      eapply grows_trans; [|exact H]. eapply grows_process in H0. auto.
    + unfold end_timer in H. inv_res. apply grows_refl.
  - unfold retrieve_fee_reply, end_timer in H. destruct (refresh_reply _ _ _) as [s1 [g|]]; inv_res; apply grows_refl.
  - unfold retrieve_count_reply in H. inv_res. apply grows_sign in H. eapply grows_trans; [|exact H].
    eapply grows_trans.
    + instantiate (1 := snd x). unfold resubmit_batch in H0. destruct (mkm_is_empty _); inv_res; [apply grows_refl|].
      destruct r; inv_res; [|apply grows_refl]. eapply grows_processes in H0. exact H0.
    + unfold create_batch in H1. revert H1. generalize (withdrawal_requests_batch WITHDRAWAL_BATCH (withdrawals (fst x))).
      clear. intros l. revert x. induction l as [|q l IH]; cbn; intros x Hx; inv_res; [apply grows_refl|].
      eapply grows_trans; [|eapply IH; eauto]. unfold create_one in H. inv_res. destruct x2; inv_res.
      * eapply grows_process; eauto.
      * apply grows_refl.
  - unfold retrieve_sign_reply in H. inv_res. apply grows_send in H. eapply grows_trans; [|exact H].
    eapply grows_processes in H0. auto.
  - apply grows_finalize in H. auto.
  - unfold retrieve_finalized_count_reply, end_timer in H. destruct r; inv_res; [|apply grows_refl].
    destruct x; inv_res; apply grows_refl.
  - unfold retrieve_receipts_reply, end_timer in H. destruct (collect_receipts _ _ _); inv_res; [|apply grows_refl].
    eapply grows_processes in H1. auto.
  - unfold native_fee_reply, end_call, native_burn_start in H. inv_res. destruct x; inv_res; apply grows_refl.
  - unfold native_burn_reply, end_call in H. inv_res. destruct x; inv_res.
    + eapply grows_process in H1. auto.
    + destruct (nj_fee j); inv_res; apply grows_refl.
  - unfold native_refund_reply, end_call in H. inv_res. apply grows_refl.
  - unfold erc20_estimate_reply, end_call in H. destruct (refresh_reply _ _ _) as [s1 [g|]].
    + apply grows_estimated in H. auto.
    + inv_res. apply grows_refl.
  - unfold erc20_fee_reply, end_call, erc20_gas_burn_start in H. inv_res. destruct x; inv_res; apply grows_refl.
  - unfold erc20_gas_burn_reply in H. inv_res. destruct x; inv_res; [apply grows_refl|].
    apply grows_refund in H. auto.
  - unfold erc20_burn_reply, end_call in H. inv_res. destruct x; inv_res.
    + eapply grows_process in H1. auto.
    + apply grows_refund in H. eapply grows_trans; [|exact H].
      destruct (0 <? _); inv_res; [|apply grows_refl]. eapply grows_process in H1. auto.
  - unfold erc20_refund_reply, end_call in H. inv_res. apply grows_refl.
  - inv_res. apply grows_refl.
Qed.

Lemma micros_grows (J : State -> EventType -> Prop) now c c' : micros J now c c' -> grows (snd c) (snd c').
Proof.
  induction 1; [apply grows_refl|]. eapply grows_trans; [|eauto]. inversion H; subst; cbn.
  - apply grows_refl.
  - eexists. split; [reflexivity|]. intros x a [<-|[]]. cbn. intros ->. discriminate.
  - apply grows_refl.
Qed.

Lemma upgrade_grows now a c c' : canister_upgrade now a c = Done c' -> grows (snd c) (snd c').
Proof.
  unfold canister_upgrade, post_upgrade. intros H. inv_res.
  eapply grows_trans with (b := pre_upgrade now c).
  - eexists. split; [reflexivity|]. intros e i [<-|[]]. cbn. discriminate.
  - destruct a; inv_res; [|apply grows_refl]. eapply grows_process in H. exact H.
Qed.

Variable self : Principal.

Lemma trans_grows s l s' : Trans self keccak s l s' -> grows (sys_log s) (sys_log s').
Proof.
  intros H. unfold sys_log. destruct H; cbn; rewrite ?install_core; cbn; try apply grows_refl.
  - apply timer_micros in H0 as [_ ->]. apply grows_refl.
  - apply call_micros in H0. eapply micros_grows; eauto.
  - eapply resume_grows; eauto.
  - destruct (cleanup_micros now t (sys_core s)) as (c' & Hc & Hm).
    assert (c' = c) by congruence. subst. eapply micros_grows; eauto.
  - eapply upgrade_grows; eauto.
Qed.

Lemma step_grows s l : grows (sys_log s) (sys_log (step self keccak s l)).
Proof. eapply trans_grows, step_trans. Qed.

Lemma run_grows ls : forall s, grows (sys_log s) (sys_log (run self keccak s ls)).
Proof.
  induction ls as [|l ls IH]; cbn; intros s; [apply grows_refl|].
  eapply grows_trans; [apply step_grows|apply IH].
Qed.

(** Exactly one Init, at the front *)
Lemma log_init_first (env : Sys -> Label -> Prop) s : reach self keccak env s ->
  exists now a es, sys_log s = {| ev_timestamp := now; ev_payload := EvInit a |} :: es /\
    forall e b, In e es -> ev_payload e <> EvInit b.
Proof.
  apply (reach_inv self keccak env (fun s => exists now a es,
    sys_log s = {| ev_timestamp := now; ev_payload := EvInit a |} :: es /\
    forall e b, In e es -> ev_payload e <> EvInit b)).
  - intros now a s0 H. apply sys_init_inv in H as (st & _ & Hc & _). unfold sys_log. rewrite Hc. cbn.
    exists now, a, []. split; auto.
  - intros s0 l s' (now & a & es & He & Hn) _ H. apply trans_grows in H as (es' & -> & Hn').
    exists now, a, (es ++ es'). rewrite He. split; auto.
    intros e b Hin. apply in_app_iff in Hin as [Hin|Hin]; eauto.
Qed.

End Keccak.

(** ** Replay *)

Lemma replay_rejects_reinit log1 e a log2 : log1 <> [] -> ev_payload e = EvInit a ->
  exists msg, replay_events (log1 ++ e :: log2) = Panic msg.
Proof.
  destruct log1 as [|e0 log1]; [congruence|]. intros _ He. cbn.
  destruct (ev_payload e0); eauto. destruct (state_of_init a0) as [s|]; eauto.
  rewrite rfold_app. destruct (rfold _ s log1); cbn; [|eauto]. rewrite He. cbn. eauto.
Qed.

Definition fresh_volatile (s : State) : Prop :=
  last_observed_block_number s = None /\ last_observed_block_time s = None /\
  pending_withdrawal_principals s = [] /\ active_tasks s = [] /\
  last_transaction_price_estimate s = None.

Lemma state_of_init_volatile a s : state_of_init a = ROk s -> fresh_volatile s.
Proof.
  unfold state_of_init, ebind. intros H.
  repeat match type of H with match ?x with _ => _ end = _ => destruct x; try discriminate end.
  injection H as <-. repeat split.
Qed.

Lemma replay_volatile log s : replay_events log = Done s -> fresh_volatile s.
Proof.
  destruct log as [|e log]; cbn; [discriminate|]. destruct (ev_payload e); try discriminate.
  destruct (state_of_init a) as [s0|] eqn:E; [|discriminate]. apply state_of_init_volatile in E.
  revert s0 E. induction log as [|x log IH]; cbn; intros s0 E H; [injection H as <-; auto|].
  inv_res. eapply IH; [|eauto].
  match goal with H : apply_state_transition _ _ = _ |- _ => apply apply_same in H as [_ H1] end.
  unfold fresh_volatile, same_volatile in *. intuition congruence.
Qed.
