(** * Recording a withdrawal after its burns never panics (C26). *)

From Verif Require Import Base BMap MultiKeyMap MultiKeyMapFacts Bytes Types Amount ArithFacts Tx CallData
  Network Hex Transactions State Audit Ranges Rlp Parser Memo Driver Sys SysSpec WtInv StateEquiv
  Segments Tasks SysFacts CoreInv GuardSpec Guards GuardFacts WeakSteps LogFacts UpgradeFacts
  TxSpec WtContent WithdrawSpec WithdrawFacts StageFacts DepositSpec Deposits TokenSpec TokenFacts
  ReimburseSpec ReimburseFacts BurnSpec BurnFacts CallSpec CallFacts CallStages RecordSpec.

(** ** The token of a suspended withdrawal is registered *)

Definition task_job (t : Task) : option Erc20Job :=
  match t with
  | TErc20Estimate j | TErc20Fee j | TErc20GasBurn j | TErc20Burn j _ => Some j
  | _ => None
  end.
Definition job_listed (m : tokens_map) (t : Task) : Prop :=
  forall j, task_job t = Some j ->
    dmkm_get_entry_alt (et_contract_address (ej_token j)) m = Some (et_ledger_id (ej_token j), et_symbol (ej_token j)).
Definition jobs_ok (s : Sys) : Prop :=
  forall id t r, bget id (sys_tasks s) = Some {| fl_task := t; fl_reply := r |} ->
    job_listed (erc20_tokens (sys_state s)) t.

Lemma estimated_job now j g s t j' : estimated_next now j g s t -> task_job t = Some j' -> ej_token j' = ej_token j.
Proof.
  unfold estimated_next. destruct (withdrawal_native_fee s); [intros [_ ->]|intros ->]; cbn; intros E; injection E as <-; reflexivity.
Qed.
Lemma estimated_listed now j g s t (m : tokens_map) : estimated_next now j g s t -> job_listed m (TErc20Estimate j) -> job_listed m t.
Proof. intros H H1 j' Hj. rewrite (estimated_job _ _ _ _ _ _ H Hj). apply H1. reflexivity. Qed.

Section Jobs.
Variable self : Principal.
Variable keccak : list N -> Hash.

Lemma call_job now u c c' t : tok_ok (erc20_tokens (fst c)) ->
  call_start now u c = Done (c', Await t) -> job_listed (erc20_tokens (fst c)) t.
Proof.
  intros Hm H. destruct u; cbn [call_start] in H.
  - apply (call_after keccak now (CallWithdrawNative caller amount recipient)) in H as (_ & s & _ & [(E & _)|(d & _ & _ & [(E & _)|(_ & _ & E)])]); try discriminate E.
    destruct (withdrawal_native_fee s); [destruct E as [_ E]|]; injection E as ->; intros j Hj; discriminate Hj.
  - unfold withdraw_erc20_start, end_call in H. apply rbind_done in H as (x & _ & H).
    destruct (guard_new caller (fst c)) as [s|] eqn:Eg; [|discriminate].
    assert (E : erc20_tokens s = erc20_tokens (fst c)).
    { apply (guard_new_inv (fun _ => 0)) in Eg as (_ & _ & _ & ->). reflexivity. }
    destruct (validate_address_as_destination recipient); [|discriminate].
    apply rbind_done in H as (am & _ & H). destruct (find_erc20_token_by_ledger_id ledger s) as [tk|] eqn:Ef;
      [|apply rbind_done in H as (? & _ & H); discriminate].
    assert (Htk : dmkm_get_entry_alt (et_contract_address tk) (erc20_tokens (fst c)) = Some (et_ledger_id tk, et_symbol tk)).
    { unfold find_erc20_token_by_ledger_id, dmkm_get_entry in Ef. rewrite E in Ef.
      unfold mkm_get_entry in Ef.
      destruct (bget ledger (by_key (erc20_tokens (fst c)))) as [ca|] eqn:Ek; [|discriminate].
      destruct (key_get _ _ _ Hm Ek) as (sy & Hs). cbn in Ef. pose proof Hs as Hs'.
      unfold dmkm_get_entry_alt, mkm_get_alt in Hs'. rewrite Hs' in Ef. cbn in Ef. injection Ef as <-. cbn. exact Hs. }
    destruct (refresh_start now s) eqn:Er; [|discriminate|].
    + apply estimated_inv in H as (_ & t' & [= <-] & H). eapply estimated_listed; [exact H|].
      intros j Hj. injection Hj as <-. exact Htk.
    + injection H as _ <-. intros j Hj. injection Hj as <-. exact Htk.
  - unfold add_erc20_token in H. inv_res. discriminate.
  - unfold request_scraping_logs in H. inv_res. destruct (amount_of_nat block); discriminate.
Qed.

Lemma timer_job now k c c' t (m : tokens_map) : timer_start now k c = Done (c', Await t) -> job_listed m t.
Proof. intros H j Hj. apply timer_after in H. destruct t; try discriminate Hj; destruct H. Qed.

Lemma resume_job now t r c c' t' (m : tokens_map) : job_listed m t ->
  resume keccak now t r c = Done (c', Await t') -> job_listed m t'.
Proof.
  intros Ht H. pose proof (resume_after keccak _ _ _ _ _ _ H) as A. cbn [after] in A.
  destruct t'; try (intros j' Hj'; discriminate Hj'); cbn [next_spec] in A.
  - contradiction.
  - destruct A as (j0 & h & g & -> & -> & A). eapply estimated_listed; eauto.
  - destruct A as [(j0 & h & g & -> & -> & A)|(j0 & b & -> & -> & _ & ->)]; [eapply estimated_listed; eauto|].
    intros j Hj. injection Hj as <-. exact (Ht j0 eq_refl).
  - destruct A as (-> & _). intros j' Hj. injection Hj as <-. apply Ht. reflexivity.
Qed.

(** tokens stay registered *)
Lemma token_kept s l s' ca le sy : dep_ok (sys_core s) -> tok_ok (erc20_tokens (sys_state s)) -> Trans self keccak s l s' ->
  dmkm_get_entry_alt ca (erc20_tokens (sys_state s)) = Some (le, sy) ->
  dmkm_get_entry_alt ca (erc20_tokens (sys_state s')) = Some (le, sy).
Proof.
  intros Hd Hm H Hg. destruct (token_step self keccak _ _ _ Hd Hm H) as [_ [->|(p & a & now & t & _ & _ & _ & Ha)]]; auto.
  apply (add_token_spec _ _ Hm) in Ha as (_ & Hnc & ->). unfold dmkm_get_entry_alt, mkm_get_alt in *. cbn.
  rewrite bget_insert. destruct (keqb_spec ca (et_contract_address t)) as [Hk|Hk]; [|exact Hg]. exfalso.
  apply Hnc. exists le, (et_contract_address t), sy. split; auto. apply (listed_iff _ Hm). rewrite <- Hk. exact Hg.
Qed.

Lemma jobs_trans s l s' : dep_ok (sys_core s) -> tok_ok (erc20_tokens (sys_state s)) -> jobs_ok s ->
  Trans self keccak s l s' -> jobs_ok s'.
Proof.
  intros Hd Hm Hj H.
  assert (Hold : forall t, job_listed (erc20_tokens (sys_state s)) t -> job_listed (erc20_tokens (sys_state s')) t).
  { intros t Ht j E. eapply token_kept; eauto. }
  intros id t r Hg. apply Hold. revert Hg. clear Hold.
  destruct H; cbn [bump_next sys_tasks]; rewrite ?install_tasks; eauto.
  - destruct (keqb id (sys_next s)); [|cbn; eauto]. destruct nx; [|discriminate]. injection 1 as -> <-.
    eapply timer_job; eauto.
  - destruct (keqb id (sys_next s)); [|cbn; eauto]. destruct nx; [|discriminate]. injection 1 as -> <-.
    eapply (call_job now u (sys_core s)); eauto.
  - cbn. rewrite bget_insert. destruct (keqb_spec id id0); eauto. injection 1 as -> <-. eauto.
  - cbn. rewrite bget_insert. destruct (keqb_spec id id0); eauto. injection 1 as -> <-. eauto.
  - destruct (keqb_spec id id0); [|cbn; eauto]. destruct nx; [|discriminate]. injection 1 as -> <-.
    eapply (resume_job now t0 r0 (sys_core s)); eauto.
  - destruct (keqb id id0); [discriminate|]. cbn; eauto.
Qed.

Lemma jobs_reach (env : Sys -> Label -> Prop) s : reach self keccak env s -> jobs_ok s.
Proof.
  apply (reach_inv2 self keccak env (fun s => dep_ok (sys_core s) /\ tok_ok (erc20_tokens (sys_state s))) jobs_ok).
  - intros s0 H. split; [eapply dep_reach; eauto|eapply tokens_reach; eauto].
  - intros now a s0 H. apply sys_init_inv in H as (st & Hst & Hc & Ht & _). intros id t r. rewrite Ht. discriminate.
  - intros s0 l s' [K1 K2] _ Hs _ Htr. eapply jobs_trans; eauto.
Qed.

(** the transfer fee known to a suspended withdrawal is the current one *)
Definition fees_known (s : Sys) : Prop :=
  forall id t r, bget id (sys_tasks s) = Some {| fl_task := t; fl_reply := r |} ->
    forall j, task_job t = Some j -> ej_transfer_fee j = native_ledger_transfer_fee (sys_state s).

Lemma estimated_fee now j g s t j' : estimated_next now j g s t -> task_job t = Some j' -> ej_transfer_fee j' = ej_transfer_fee j.
Proof.
  unfold estimated_next. destruct (withdrawal_native_fee s); [intros [_ ->]|intros ->]; cbn; intros E; injection E as <-; reflexivity.
Qed.
Lemma call_fee now u c c' t : call_start now u c = Done (c', Await t) ->
  forall j, task_job t = Some j -> ej_transfer_fee j = native_ledger_transfer_fee (fst c).
Proof.
  intros H j Hj. destruct u; cbn [call_start] in H.
  - apply (call_after keccak now (CallWithdrawNative caller amount recipient)) in H as (_ & s & _ & [(E & _)|(d & _ & _ & [(E & _)|(_ & _ & E)])]); try discriminate E.
    destruct (withdrawal_native_fee s); [destruct E as [_ E]|]; injection E as ->; discriminate Hj.
  - unfold withdraw_erc20_start, end_call in H. apply rbind_done in H as (x & _ & H).
    destruct (guard_new caller (fst c)) as [s|] eqn:Eg; [|discriminate].
    assert (E : native_ledger_transfer_fee s = native_ledger_transfer_fee (fst c)).
    { apply (guard_new_inv (fun _ => 0)) in Eg as (_ & _ & _ & ->). reflexivity. }
    destruct (validate_address_as_destination recipient); [|discriminate].
    apply rbind_done in H as (am & _ & H). destruct (find_erc20_token_by_ledger_id ledger s) as [tk|];
      [|apply rbind_done in H as (? & _ & H); discriminate].
    destruct (refresh_start now s) eqn:Er; [|discriminate|].
    + apply estimated_inv in H as (_ & t' & [= <-] & H). rewrite (estimated_fee _ _ _ _ _ _ H Hj). exact E.
    + injection H as _ <-. injection Hj as <-. exact E.
  - unfold add_erc20_token in H. inv_res. discriminate.
  - unfold request_scraping_logs in H. inv_res. destruct (amount_of_nat block); discriminate.
Qed.
Lemma resume_fee now t r c c' t' f : (forall j, task_job t = Some j -> ej_transfer_fee j = f) ->
  resume keccak now t r c = Done (c', Await t') -> forall j, task_job t' = Some j -> ej_transfer_fee j = f.
Proof.
  intros Ht H j' Hj'. pose proof (resume_after keccak _ _ _ _ _ _ H) as A. cbn [after] in A.
  destruct t'; try discriminate Hj'; cbn [next_spec] in A.
  - contradiction.
  - destruct A as (j0 & h & g & -> & -> & A). rewrite (estimated_fee _ _ _ _ _ _ A Hj'). auto.
  - destruct A as [(j0 & h & g & -> & -> & A)|(j0 & b & -> & -> & _ & ->)]; [rewrite (estimated_fee _ _ _ _ _ _ A Hj'); auto|].
    injection Hj' as <-. exact (Ht j0 eq_refl).
  - destruct A as (-> & _). injection Hj' as <-. apply Ht. reflexivity.
Qed.

Lemma fee_step s l : (forall a now, l <> LUpgrade a now) ->
  native_ledger_transfer_fee (sys_state (step self keccak s l)) = native_ledger_transfer_fee (sys_state s).
Proof.
  intros Hne. pose proof (step_trans self keccak s l) as H. apply trans_wmicros in H as [(now & H)|(a & now & E & _)].
  2: { destruct (Hne _ _ E). }
  change (sys_state s) with (fst (sys_core s)). change (sys_state (step self keccak s l)) with (fst (sys_core (step self keccak s l))).
  revert H. generalize (sys_core s), (sys_core (step self keccak s l)).
  apply (wmicros_rel (step_emits keccak s l) now (fun c c' => native_ledger_transfer_fee (fst c') = native_ledger_transfer_fee (fst c))).
  - intros; reflexivity.
  - intros; congruence.
  - intros c c' H. inversion H; subst; cbn.
    + match goal with H : vstep _ _ |- _ => apply vstep_settings in H; apply H end.
    + match goal with H : apply_state_transition _ _ = _ |- _ => apply settings_event in H; [apply H|] end.
      intros a. eapply emits_no_upgrade; eauto.
    + reflexivity.
Qed.

Lemma fees_known_reach (env : Sys -> Label -> Prop) s : reach self keccak env s -> fees_known s.
Proof.
  induction 1 as [now a s H|s l Hr IH He].
  - apply sys_init_inv in H as (st & Hst & Hc & Ht & _). intros id t r. rewrite Ht. discriminate.
  - pose proof (fee_step s l) as Hf. pose proof (step_trans self keccak s l) as T. revert Hf T.
    generalize (step self keccak s l) as s'. intros s' Hf T.
    assert (Hu : (exists a now, l = LUpgrade a now) \/ forall a now, l <> LUpgrade a now).
    { destruct l; eauto; right; discriminate. }
    destruct Hu as [(a & now & ->)|Hu].
    { inversion T; subst; [exact IH|]. intros id t r. cbn.
      match goal with E : sys_tasks s = [] |- _ => rewrite E end. discriminate. }
    intros id t r Hg. rewrite (Hf Hu). clear Hf Hu. revert id t r Hg.
    destruct T; cbn [bump_next sys_tasks]; intros i t' r'; rewrite ?install_tasks; try (cbn; apply IH).
    + destruct (keqb i (sys_next s)); [|cbn; apply IH]. destruct nx; [|discriminate]. injection 1 as -> <-.
      intros j Hj. apply timer_after in H0. destruct t'; try discriminate Hj; destruct H0.
    + destruct (keqb i (sys_next s)); [|cbn; apply IH]. destruct nx; [|discriminate]. injection 1 as -> <-.
      eapply (call_fee now u (sys_core s)); eauto.
    + cbn. rewrite bget_insert. destruct (keqb_spec i id); [|apply IH]. injection 1 as -> <-. eapply IH; eauto.
    + cbn. rewrite bget_insert. destruct (keqb_spec i id); [|apply IH]. injection 1 as -> <-. eapply IH; eauto.
    + destruct (keqb_spec i id); [|cbn; apply IH]. destruct nx; [|discriminate]. injection 1 as -> <-.
      eapply (resume_fee now t r (sys_core s)); eauto.
    + destruct (keqb i id); [discriminate|]. cbn; apply IH.
Qed.

(** ** Recording *)

Lemma record_fresh_request w h r : wt_inv w -> repr w h -> ~ In (wr_burn_index r) (map wr_burn_index (accepted h)) ->
  exists w', record_withdrawal_request r w = Done w'.
Proof.
  intros Hi Hp Hn. rewrite (repr_accepted w h Hp) in Hn. eexists. apply record_withdrawal_request_spec.
  assert (Hd : ~ dom (wr_burn_index r) (processed w)) by tauto. rewrite (i_proc_dom _ Hi) in Hd.
  split; [|split; [|split; [|split; [|reflexivity]]]]; try tauto.
  intros x Hx E. apply Hn. left. eauto.
Qed.
Lemma accepted_claim native h b : In b (map wr_burn_index (accepted h)) -> In (native, b) (claims native h).
Proof.
  unfold accepted, claims. rewrite in_map_iff. intros (r & <- & Hr). apply in_flat_map in Hr as (e & He & Hr).
  apply in_flat_map. exists e. split; auto.
  destruct e; cbn in Hr |- *; try contradiction; destruct Hr as [<-|[]]; cbn; auto.
Qed.
Lemma failed_claim native h b : failed h (RINative b) -> In (native, b) (claims native h).
Proof.
  intros H. inversion H as [r rc Ha Hf _ E| |q Hq E]; subst.
  - apply accepted_claim. apply in_map_iff. exists (WNative r). auto.
  - unfold claims. apply in_flat_map. eexists. split; [exact Hq|]. cbn. auto.
Qed.
Lemma record_fresh_failure native c b q : wt_inv (withdrawals (fst c)) -> repr (withdrawals (fst c)) (history (snd c)) ->
  rhist c -> ~ In (native, b) (claims native (history (snd c))) ->
  exists w', record_reimbursement_request (RINative b) q (withdrawals (fst c)) = Done w'.
Proof.
  intros Hi Hp Hrh Hn. unfold record_reimbursement_request.
  assert (Hk : ~ known_index (fst c) (RINative b)).
  { rewrite (rh_known _ Hrh). intros H. apply Hn. apply failed_claim; auto. }
  assert (Ha : ~ In b (map wr_burn_index (accepted (history (snd c))))).
  { intros H. apply Hn. apply accepted_claim; auto. }
  rewrite (repr_accepted _ _ Hp) in Ha.
  unfold known_index, dom in Hk. cbn [ri_withdrawal_id].
  assert (Hm : ~ dom b (maybe_reimburse (withdrawals (fst c)))).
  { rewrite (i_mr_dom _ Hi). intros H. apply Ha. right. rewrite (i_proc_dom _ Hi). tauto. }
  assert (E1 : bmem b (maybe_reimburse (withdrawals (fst c))) = false).
  { apply bmem_false. destruct (bget b _) eqn:E; auto. exfalso. apply Hm. unfold dom. rewrite E. discriminate. }
  assert (E2 : bmem (RINative b) (reimb_requests (withdrawals (fst c))) = false).
  { apply bmem_false. destruct (bget (RINative b) _) eqn:E; auto. exfalso. apply Hk. left. discriminate. }
  assert (E3 : bmem (RINative b) (reimbursed (withdrawals (fst c))) = false).
  { apply bmem_false. destruct (bget (RINative b) (reimbursed _)) eqn:E; auto. exfalso. apply Hk. right. discriminate. }
  rewrite E1, E2, E3. cbn. eauto.
Qed.

(** The suspended function and its answer *)
Definition waiting (s : Sys) (id : N) (t : Task) (a : LedgerReply) : Prop :=
  bget id (sys_tasks s) = Some {| fl_task := t; fl_reply := Some (ReLedger a) |}.

Section Reach.
Variable env : Sys -> Label -> Prop.
Hypothesis Henv : forall s l, env s l -> nonce_kept s l.

Lemma claim_fresh s id t a x : reach self keccak env s -> waiting s id t a ->
  In x (task_claims {| fl_task := t; fl_reply := Some (ReLedger a) |}) ->
  ~ In x (claims (native_ledger_id (sys_state s)) (history (sys_log s))).
Proof.
  intros Hr Hw Hx. destruct (burns_reach self keccak env s Henv Hr) as [B1 _ _].
  apply (fr_fly _ _ _ B1 id). unfold sget. unfold waiting in Hw. rewrite Hw. exact Hx.
Qed.
Lemma job_native s id t a : reach self keccak env s -> waiting s id t a -> task_native (native_ledger_id (sys_state s)) t.
Proof.
  intros Hr Hw. destruct (burns_reach self keccak env s Henv Hr) as [_ _ B3].
  destruct (B3 id _ Hw) as (H & _). exact H.
Qed.
Lemma record_native s id j b now : reach self keccak env s -> sys_clock s <= now ->
  waiting s id (TNativeBurn j) (LedgerOk b) -> b <= U64_MAX ->
  exists c, process_event now (EvAcceptedNativeWithdrawalRequest (native_request j b)) (sys_core s) = Done c.
Proof.
  intros Hr Hnow Hw Hb.
  destruct (reach_wlog self keccak env Henv s Hr) as (Hc & Hp & _).
  pose proof (core_wt _ _ Hc) as Hi.
  pose proof (job_native _ _ _ _ Hr Hw) as Hj. cbn in Hj.
  unfold process_event. cbn [apply_state_transition]. unfold on_withdrawals.
  destruct (record_fresh_request _ _ (WNative (native_request j b)) Hi Hp) as (w' & Hw').
  { intros H. apply (accepted_claim (native_ledger_id (sys_state s))) in H. revert H.
    eapply claim_fresh; [exact Hr|exact Hw|]. cbn. rewrite Hj. auto. }
  unfold sys_state in Hw'. rewrite Hw'. cbn. eauto.
Qed.

Lemma record_erc20 s id j i b now : reach self keccak env s ->
  waiting s id (TErc20Burn j i) (LedgerOk b) ->
  exists c, process_event now (EvAcceptedErc20WithdrawalRequest (erc20_request j i b)) (sys_core s) = Done c.
Proof.
  intros Hr Hw.
  destruct (reach_wlog self keccak env Henv s Hr) as (Hc & Hp & _).
  pose proof (core_wt _ _ Hc) as Hi.
  pose proof (job_native _ _ _ _ Hr Hw) as Hj. cbn in Hj.
  pose proof (jobs_reach env s Hr id _ _ Hw j eq_refl) as Htok.
  unfold process_event. cbn [apply_state_transition]. unfold record_erc20_withdrawal_request.
  destruct (record_fresh_request _ _ (WErc20 (erc20_request j i b)) Hi Hp) as (w' & Hw').
  { intros H. apply (accepted_claim (native_ledger_id (sys_state s))) in H. revert H.
    eapply claim_fresh; [exact Hr|exact Hw|]. cbn. rewrite Hj. auto. }
  assert (Ht : dmkm_contains_alt (ew_erc20_contract_address (erc20_request j i b)) (erc20_tokens (fst (sys_core s))) = true).
  { apply bmem_true. eexists. exact Htok. }
  rewrite Ht. cbn [rassert rbind]. unfold sys_state in Hw'. rewrite Hw'. cbn. eauto.
Qed.

Lemma record_failure s id j i a q now : reach self keccak env s ->
  waiting s id (TErc20Burn j i) a -> rr_ledger_burn_index q = i ->
  exists c, process_event now (EvFailedErc20WithdrawalRequest q) (sys_core s) = Done c.
Proof.
  intros Hr Hw Hq.
  destruct (reach_wlog self keccak env Henv s Hr) as (Hc & Hp & _).
  pose proof (core_wt _ _ Hc) as Hi.
  pose proof (job_native _ _ _ _ Hr Hw) as Hj. cbn in Hj.
  unfold process_event. cbn [apply_state_transition]. unfold on_withdrawals. rewrite Hq.
  destruct (record_fresh_failure (native_ledger_id (sys_state s)) (sys_core s) i q Hi Hp) as (w' & Hw').
  { eapply rhist_reach; eauto. }
  { eapply claim_fresh; [exact Hr|exact Hw|]. cbn. rewrite Hj. auto. }
  rewrite Hw'. cbn. eauto.
Qed.

(** ** The steps *)

Lemma deliver_done s id t a now c nx : sys_clock s <= now -> waiting s id t a ->
  resume keccak now t (ReLedger a) (sys_core s) = Done (c, nx) ->
  step self keccak s (LDeliver id false now) = install id nx (with_queries (task_query t (ReLedger a)) (with_core c now s)).
Proof.
  intros Hn Hw H. cbn [step]. destruct (N.ltb_spec now (sys_clock s)); [lia|]. unfold waiting in Hw. rewrite Hw.
  unfold deliver. rewrite H. reflexivity.
Qed.

Lemma native_recorded s id j b now : reach self keccak env s -> sys_clock s <= now ->
  waiting s id (TNativeBurn j) (LedgerOk b) -> b <= U64_MAX ->
  let s' := step self keccak s (LDeliver id false now) in
  history (sys_log s') = history (sys_log s) ++ [EvAcceptedNativeWithdrawalRequest (native_request j b)] /\
  sys_outcomes s' = sys_outcomes s ++ [(id, OutNative (ROk (native_request j b)))].
Proof.
  intros Hr Hnow Hw Hb. destruct (record_native s id j b now Hr Hnow Hw Hb) as (c & Hc). cbn zeta.
  assert (Hres : resume keccak now (TNativeBurn j) (ReLedger (LedgerOk b)) (sys_core s) =
    Done (on_state (guard_drop (nj_caller j)) c, Finish (OutNative (ROk (native_request j b))))).
  { cbn [resume]. unfold native_burn_reply. cbn [burn_result block_u64]. unfold block_u64.
    replace (b <=? U64_MAX) with true by (symmetry; apply N.leb_le; auto). cbn [rassert rbind].
    unfold native_request in Hc. rewrite Hc. reflexivity. }
  rewrite (deliver_done _ _ _ _ _ _ _ Hnow Hw Hres). unfold sys_log. rewrite install_core, install_outcomes. cbn.
  split; [|reflexivity]. apply event_history in Hc. exact Hc.
Qed.

Lemma erc20_recorded s id j i b now : reach self keccak env s -> sys_clock s <= now ->
  waiting s id (TErc20Burn j i) (LedgerOk b) -> b <= U64_MAX ->
  let s' := step self keccak s (LDeliver id false now) in
  history (sys_log s') = history (sys_log s) ++ [EvAcceptedErc20WithdrawalRequest (erc20_request j i b)] /\
  sys_outcomes s' = sys_outcomes s ++ [(id, OutErc20 (ROk (erc20_request j i b)))].
Proof.
  intros Hr Hnow Hw Hb. destruct (record_erc20 s id j i b now Hr Hw) as (c & Hc). cbn zeta.
  assert (Hres : resume keccak now (TErc20Burn j i) (ReLedger (LedgerOk b)) (sys_core s) =
    Done (on_state (guard_drop (ej_caller j)) c, Finish (OutErc20 (ROk (erc20_request j i b))))).
  { cbn [resume]. unfold erc20_burn_reply. cbn [burn_result]. unfold block_u64.
    replace (b <=? U64_MAX) with true by (symmetry; apply N.leb_le; auto). cbn [rassert rbind].
    unfold erc20_request in Hc. rewrite Hc. reflexivity. }
  rewrite (deliver_done _ _ _ _ _ _ _ Hnow Hw Hres). unfold sys_log. rewrite install_core, install_outcomes. cbn.
  split; [|reflexivity]. apply event_history in Hc. exact Hc.
Qed.

(** the gas fee is burned: the token burn is asked for *)
Lemma gas_burned s id j b now : reach self keccak env s -> sys_clock s <= now ->
  waiting s id (TErc20GasBurn j) (LedgerOk b) -> b <= U64_MAX ->
  bget id (sys_tasks (step self keccak s (LDeliver id false now))) =
    Some {| fl_task := TErc20Burn j b; fl_reply := None |}.
Proof.
  intros Hr Hnow Hw Hb.
  assert (Hres : resume keccak now (TErc20GasBurn j) (ReLedger (LedgerOk b)) (sys_core s) =
    Done (sys_core s, Await (TErc20Burn j b))).
  { cbn [resume]. unfold erc20_gas_burn_reply. cbn [burn_result]. unfold block_u64.
    replace (b <=? U64_MAX) with true by (symmetry; apply N.leb_le; auto). reflexivity. }
  rewrite (deliver_done _ _ _ _ _ _ _ Hnow Hw Hres). rewrite install_tasks.
  rewrite (proj2 (keqb_eq id id) eq_refl). reflexivity.
Qed.

(** the token burn failed in a way that the minter handles: the debt is recorded *)
Lemma failure_recorded s id j i a e now : reach self keccak env s -> sys_clock s <= now ->
  waiting s id (TErc20Burn j i) a -> burn_result a = Done (RErr e) ->
  let s' := step self keccak s (LDeliver id false now) in
  history (sys_log s') = history (sys_log s) ++
    (if 0 <? failed_burn_reimbursement j e
     then [EvFailedErc20WithdrawalRequest (failed_request j i (failed_burn_reimbursement j e))] else []) /\
  ((exists p l m, bget id (sys_tasks s') = Some {| fl_task := TErc20Refund p l m (Some i) e; fl_reply := None |}) \/
   sys_outcomes s' = sys_outcomes s ++ [(id, OutErc20 (RErr (EeErc20Ledger i e)))]).
Proof.
  intros Hr Hnow Hw Ha. cbn zeta.
  set (q := failed_request j i (failed_burn_reimbursement j e)).
  destruct (record_failure s id j i a q now Hr Hw eq_refl) as (c1 & Hc1).
  assert (Hc : exists c, (if 0 <? failed_burn_reimbursement j e
       then process_event now (EvFailedErc20WithdrawalRequest q) (sys_core s) else Done (sys_core s)) = Done c /\
     history (snd c) = history (snd (sys_core s)) ++ (if 0 <? failed_burn_reimbursement j e then [EvFailedErc20WithdrawalRequest q] else [])).
  { destruct (0 <? _); [exists c1; split; auto; eapply event_history; eauto|exists (sys_core s); split; auto; rewrite app_nil_r; auto]. }
  destruct Hc as (c & Hc & Hh). clear c1 Hc1.
  assert (Hres : exists nx c', resume keccak now (TErc20Burn j i) (ReLedger a) (sys_core s) = Done (c', nx) /\
     snd c' = snd c /\
     (nx = Finish (OutErc20 (RErr (EeErc20Ledger i e))) \/ exists p l m, nx = Await (TErc20Refund p l m (Some i) e))).
  { cbn [resume]. unfold erc20_burn_reply. rewrite Ha. cbn [rbind]. unfold q, failed_request in Hc. rewrite Hc. cbn [rbind].
    unfold erc20_refund_start. destruct (ej_fee j); do 2 eexists; (split; [reflexivity|]); (split; [reflexivity|]); eauto 6. }
  destruct Hres as (nx & c' & Hres & Hsnd & Hnx).
  rewrite (deliver_done _ _ _ _ _ _ _ Hnow Hw Hres). unfold sys_log. rewrite install_core, install_outcomes, install_tasks.
  cbn [sys_core with_queries with_core]. rewrite Hsnd. split; [exact Hh|].
  rewrite (proj2 (keqb_eq id id) eq_refl).
  destruct Hnx as [->|(p & l & m & ->)]; [right; reflexivity|left; eauto].
Qed.

Lemma gas_op s id j i a : reach self keccak env s -> waiting s id (TErc20Burn j i) a ->
  In (burn_of self (native_ledger_id (sys_state s)) (default_account (ej_caller j)) (ej_tx_fee j)
        (BurnErc20GasFee (et_symbol (ej_token j)) (ej_amount j) (ej_destination j)), i) (sys_ops s).
Proof.
  intros Hr Hw. destruct (burns_reach self keccak env s Henv Hr) as [_ _ B3].
  destruct (B3 id _ Hw) as (H1 & _ & H3). cbn in H1. rewrite <- H1. apply (H3 j i eq_refl).
Qed.
End Reach.

(** ** Every burn is matched *)

Lemma native_trans s l s' : core_ok keccak (sys_core s) -> Trans self keccak s l s' ->
  native_ledger_id (sys_state s') = native_ledger_id (sys_state s).
Proof.
  intros Hc H. apply trans_wmicros in H as [(now & H)|(a & now & _ & _ & H)].
  - apply wmicros_logs in H as [_ H]. exact H.
  - pose proof Hc as [_ _ Hrep].
    destruct (canister_upgrade_inv _ _ _ _ Hrep H) as (st & _ & Hs & _ & Ha).
    assert (En : native_ledger_id st = native_ledger_id (sys_state s)).
    { destruct Hs as (v & p & _ & Hs). unfold sys_state. rewrite Hs. reflexivity. }
    destruct a as [x|]; [|unfold sys_state at 1; rewrite Ha; exact En].
    destruct Ha as (st' & Ha & E). unfold sys_state at 1. rewrite E. cbn [fst].
    destruct (apply_same _ _ _ Ha) as ((_ & Hn & _) & _). congruence.
Qed.

Definition recorded_op (s : Sys) (c : LedgerCall) (b : N) : Prop :=
  exists e, In e (history (sys_log s)) /\ records self (native_ledger_id (sys_state s)) c b e.
Definition blocks_small (s : Sys) : Prop := forall id t b, waiting s id t (LedgerOk b) -> b <= U64_MAX.
Definition matched_ops (s : Sys) : Prop := blocks_small s /\
  forall c b, In (c, b) (sys_ops s) -> is_conversion c = true -> recorded_op s c b \/ exists id, got self s id c (LedgerOk b).

Lemma got_conversion s id c a : got self s id c a -> is_conversion c = true ->
  exists t, waiting s id t a /\ task_call self t = Some c /\
    ((exists j, t = TNativeBurn j) \/ (exists j i, t = TErc20Burn j i)).
Proof.
  intros (t & Hw & Ht) Hc. exists t. split; [exact Hw|]. split; [exact Ht|].
  destruct t; cbn in Ht; try discriminate; injection Ht as <-; cbn in Hc; try discriminate; eauto.
Qed.

Lemma delivered_records s id c b now : reach self keccak smooth s -> sys_clock s <= now ->
  got self s id c (LedgerOk b) -> is_conversion c = true -> b <= U64_MAX ->
  recorded_op (step self keccak s (LDeliver id false now)) c b.
Proof.
  intros Hr Hnow Hg Hc Hb.
  assert (Hr' : reach self keccak nonce_kept s) by (eapply reach_weaken; [|exact Hr]; intros ? ? [? _]; auto).
  destruct (reach_wlog self keccak nonce_kept (fun _ _ H => H) s Hr') as (Hcore & _).
  pose proof (native_trans _ _ _ Hcore (step_trans self keccak s (LDeliver id false now))) as Hn.
  apply got_conversion in Hg as (t & Hw & Ht & [(j & ->)|(j & i & ->)]); auto; unfold recorded_op; rewrite Hn.
  - destruct (native_recorded nonce_kept (fun _ _ H => H) s id j b now Hr' Hnow Hw Hb) as [Hh _].
    eexists. split; [rewrite Hh; apply in_or_app; right; left; reflexivity|].
    pose proof (job_native nonce_kept (fun _ _ H => H) _ _ _ _ Hr' Hw) as Hj. cbn in Hj.
    constructor; [|reflexivity]. cbn in Ht. injection Ht as <-. rewrite Hj. reflexivity.
  - destruct (erc20_recorded nonce_kept (fun _ _ H => H) s id j i b now Hr' Hnow Hw Hb) as [Hh _].
    eexists. split; [rewrite Hh; apply in_or_app; right; left; reflexivity|].
    constructor; [|reflexivity]. cbn in Ht. injection Ht as <-. reflexivity.
Qed.

Lemma recorded_grows s l c b : core_ok keccak (sys_core s) -> recorded_op s c b -> recorded_op (step self keccak s l) c b.
Proof.
  intros Hc (e & He & Hrec). exists e. rewrite (native_trans _ _ _ Hc (step_trans self keccak s l)). split; auto.
  destruct (step_grows keccak self s l) as (es & -> & _). unfold history. rewrite map_app. apply in_or_app. auto.
Qed.

Lemma matched_reach s : reach self keccak smooth s -> matched_ops s.
Proof.
  induction 1 as [now a s H|s l Hr IH He].
  - apply sys_init_inv in H as (st & _ & _ & Ht & _ & _ & Ho & _). split.
    + intros id t b Hw. unfold waiting in Hw. rewrite Ht in Hw. discriminate.
    + rewrite Ho. intros c b [].
  - destruct IH as [IH1 IH2].
    assert (Hr' : reach self keccak nonce_kept s) by (eapply reach_weaken; [|exact Hr]; intros ? ? [? _]; auto).
    destruct (reach_wlog self keccak nonce_kept (fun _ _ H => H) s Hr') as (Hcore & _).
    assert (Hold : forall c b, recorded_op s c b -> recorded_op (step self keccak s l) c b).
    { intros c b. apply recorded_grows. exact Hcore. }
    assert (Hdel : forall id now, l = LDeliver id false now -> sys_clock s <= now -> forall c b,
      got self s id c (LedgerOk b) -> is_conversion c = true -> recorded_op (step self keccak s l) c b).
    { intros id now -> Hnow c b Hg Hc. apply delivered_records; auto.
      apply got_conversion in Hg as (t & Hw & _); auto. eapply IH1; eauto. }
    pose proof (step_trans self keccak s l) as T. revert Hold Hdel T.
    generalize (step self keccak s l) as s'. intros s' Hold Hdel T.
    assert (Hkeep : forall id0, sys_ops s' = sys_ops s ->
      (forall fl, bget id0 (sys_tasks s') = Some fl -> fl_reply fl = None) ->
      (forall i, i <> id0 -> bget i (sys_tasks s') = bget i (sys_tasks s)) ->
      (forall c b, got self s id0 c (LedgerOk b) -> is_conversion c = true -> recorded_op s' c b) ->
      matched_ops s').
    { intros id0 K2 K3 K4 K5. split.
      - intros i t b Hw. unfold waiting in Hw. destruct (key_dec i id0) as [->|Hi].
        + apply K3 in Hw. discriminate.
        + rewrite K4 in Hw; auto. eapply IH1; eauto.
      - rewrite K2. intros c b Hin Hc. destruct (IH2 _ _ Hin Hc) as [Hx|(i & Hg)]; [left; apply Hold; auto|].
        destruct (key_dec i id0) as [->|Hi]; [left; apply K5; auto|]. right. exists i.
        destruct Hg as (t & Hw & Ht). exists t. split; auto. rewrite K4; auto. }
    assert (Hnew : forall c b, got self s (sys_next s) c (LedgerOk b) -> is_conversion c = true -> recorded_op s' c b).
    { intros c b (t & Hw & _) _. exfalso. pose proof (ids_reach self keccak smooth s Hr) as Hids.
      rewrite (fresh_id self keccak s Hids) in Hw. discriminate. }
    destruct T as [|k now c nx Hc H|u now c nx Hc H|k now Hc|u now Hc|id t c b Hget Hcall Hallow|id t r Hget Hfit Hno|id now t r c nx Hc Hget H|id trap now t r c Hc Hget Hp H|a now c Hc Ht H].
    + split; auto.
    + apply (Hkeep (sys_next s)); auto.
      * cbn. rewrite install_ops. reflexivity.
      * cbn. rewrite install_tasks, (proj2 (keqb_eq _ _) eq_refl). intros fl. destruct nx; [|discriminate]. injection 1 as <-. reflexivity.
      * cbn. intros i Hi. rewrite install_tasks. destruct (keqb_spec i (sys_next s)); [contradiction|reflexivity].
    + apply (Hkeep (sys_next s)); auto.
      * cbn. rewrite install_ops. reflexivity.
      * cbn. rewrite install_tasks, (proj2 (keqb_eq _ _) eq_refl). intros fl. destruct nx; [|discriminate]. injection 1 as <-. reflexivity.
      * cbn. intros i Hi. rewrite install_tasks. destruct (keqb_spec i (sys_next s)); [contradiction|reflexivity].
    + apply (Hkeep (sys_next s)); auto. cbn. intros fl Hf. rewrite (fresh_id self keccak s (ids_reach self keccak smooth s Hr)) in Hf. discriminate.
    + apply (Hkeep (sys_next s)); auto. cbn. intros fl Hf. rewrite (fresh_id self keccak s (ids_reach self keccak smooth s Hr)) in Hf. discriminate.
    + assert (Hg : forall i, bget i (sys_tasks (with_op (c, b) (answered id t (ReLedger (LedgerOk b)) s))) =
        if keqb i id then Some {| fl_task := t; fl_reply := Some (ReLedger (LedgerOk b)) |} else bget i (sys_tasks s)).
      { intros i. cbn. apply bget_insert. }
      split.
      * intros i t' b' Hw. unfold waiting in Hw. rewrite Hg in Hw. destruct (keqb_spec i id) as [Hi|Hi]; [|eapply IH1; eauto].
        injection Hw as <- <-. destruct He as [_ He]. exact He.
      * cbn. intros c' b' Hin Hcv. apply in_app_or in Hin as [Hin|[Hin|[]]].
        -- destruct (IH2 _ _ Hin Hcv) as [Hx|(i & t' & Hw & Ht)]; [left; apply Hold; auto|]. right. exists i, t'. split; auto.
           rewrite Hg. destruct (keqb_spec i id) as [Hi|Hi]; [|exact Hw]. subst i. congruence.
        -- injection Hin as <- <-. right. exists id, t. split; auto. rewrite Hg, (proj2 (keqb_eq _ _) eq_refl). reflexivity.
    + assert (Hg : forall i, bget i (sys_tasks (answered id t r s)) =
        if keqb i id then Some {| fl_task := t; fl_reply := Some r |} else bget i (sys_tasks s)).
      { intros i. cbn. apply bget_insert. }
      split.
      * intros i t' b' Hw. unfold waiting in Hw. rewrite Hg in Hw. destruct (keqb_spec i id) as [Hi|Hi]; [|eapply IH1; eauto].
        injection Hw as <- Hw. destruct (Hno b'). congruence.
      * cbn. intros c' b' Hin Hcv. 
        destruct (IH2 _ _ Hin Hcv) as [Hx|(i & t' & Hw & Ht)]; [left; apply Hold; auto|]. right. exists i, t'. split; auto.
        rewrite Hg. destruct (keqb_spec i id) as [Hi|Hi]; [|exact Hw]. subst i. congruence.
    + apply (Hkeep id); auto.
      * rewrite install_ops. reflexivity.
      * rewrite install_tasks, (proj2 (keqb_eq _ _) eq_refl). intros fl. destruct nx; [|discriminate]. injection 1 as <-. reflexivity.
      * intros i Hi. rewrite install_tasks. destruct (keqb_spec i id); [contradiction|reflexivity].
      * intros c' b Hg Hcv. eapply Hdel; eauto.
    + apply (Hkeep id); auto.
      * intros fl. rewrite install_tasks, (proj2 (keqb_eq id id) eq_refl). discriminate.
      * intros i Hi. rewrite install_tasks. destruct (keqb_spec i id); [contradiction|reflexivity].
      * destruct He as [_ He]. subst trap. intros c' b Hg Hcv. eapply Hdel; eauto.
    + apply (Hkeep (sys_next s)); auto. cbn. rewrite Ht. discriminate.
Qed.
End Jobs.
