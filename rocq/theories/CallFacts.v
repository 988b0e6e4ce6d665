(** * What one withdrawal call does (C24, C25) *)

From Verif Require Import Base BMap MultiKeyMap MultiKeyMapFacts Bytes Types Amount ArithFacts Tx CallData
  Network Hex Transactions State Audit Ranges Rlp Parser Memo Driver Sys SysSpec WtInv StateEquiv
  TxSpec Segments Tasks SysFacts CoreInv WithdrawSpec WithdrawFacts LogFacts WeakSteps TokenSpec TokenFacts FeeSpec FeeFacts
  BurnSpec BurnFacts CallSpec.

(** ** The settings change only with an upgrade *)
Definition same_settings (s s' : State) : Prop :=
  withdrawal_native_fee s' = withdrawal_native_fee s /\
  native_ledger_transfer_fee s' = native_ledger_transfer_fee s /\
  native_ledger_id s' = native_ledger_id s /\
  native_minimum_withdrawal_amount s' = native_minimum_withdrawal_amount s /\
  min_max_priority_fee_per_gas s' = min_max_priority_fee_per_gas s.
Lemma settings_refl s : same_settings s s.
Proof. repeat split. Qed.
Lemma settings_trans a b c : same_settings a b -> same_settings b c -> same_settings a c.
Proof. intros (H1 & H2 & H3 & H4 & H5) (K1 & K2 & K3 & K4 & K5). unfold same_settings. repeat split; congruence. Qed.
Lemma settings_event s e s' : (forall a, e <> EvUpgrade a) -> apply_state_transition s e = Done s' -> same_settings s s'.
Proof.
  intros Hu H. destruct e; cbn [apply_state_transition] in H; try discriminate;
    try (apply on_withdrawals_inv in H as (w & _ & ->); repeat split; fail);
    try (injection H as <-; repeat split; fail).
  - destruct (Hu a). reflexivity.
  - unfold record_event_to_mint, update_balance_upon_deposit in H. inv_res; repeat split.
  - unfold record_invalid_deposit in H. inv_res.
    destruct (bmem _ (invalid_events s)); inv_res; repeat split.
  - unfold record_successful_mint in H. inv_res. repeat split.
  - unfold state_record_finalized_transaction in H. inv_res.
    apply update_balance_shape in H as (nb & eb & ->). repeat split.
  - unfold record_add_erc20_token in H. inv_res. repeat split.
  - unfold record_event_to_mint, update_balance_upon_deposit in H. inv_res; repeat split.
  - unfold record_erc20_withdrawal_request in H. inv_res. repeat split.
  - unfold record_successful_mint in H. inv_res. repeat split.
  - injection H as <-. unfold record_quarantined_deposit. destruct (bmem _ _); repeat split.
  - unfold record_skipped_block in H. inv_res. repeat split.
Qed.
Lemma vstep_settings s s' : vstep s s' -> same_settings s s'.
Proof. intros (v & ->). repeat split. Qed.

Section Calls.
Variable self : Principal.
Variable keccak : list N -> Hash.

Lemma emits_no_upgrade s l e a : step_emits keccak s l e -> e <> EvUpgrade a.
Proof.
  intros H ->. destruct l; cbn in H; try contradiction.
  - destruct H as (st & H). destruct u; cbn in H; try contradiction. decompose [and ex] H. discriminate.
  - destruct H as (t & r & _ & [[(x & H)|H]|H]).
    + apply emits_inv in H. exact H.
    + destruct H as (g & i & x & _ & [H|H]); discriminate.
    + destruct t; cbn in H; try contradiction; destruct H as [H|[]]; discriminate.
Qed.
Lemma settings_step s l : sys_tasks s <> [] -> same_settings (sys_state s) (sys_state (step self keccak s l)).
Proof.
  intros Hne. pose proof (step_trans self keccak s l) as H. apply trans_wmicros in H as [(now & H)|(a & now & _ & E & _)].
  2: { congruence. }
  change (sys_state s) with (fst (sys_core s)). change (sys_state (step self keccak s l)) with (fst (sys_core (step self keccak s l))).
  revert H. generalize (sys_core s), (sys_core (step self keccak s l)).
  apply (wmicros_rel (step_emits keccak s l) now (fun c c' => same_settings (fst c) (fst c'))).
  - intros; apply settings_refl.
  - intros; eapply settings_trans; eauto.
  - intros c c' H. inversion H; subst; cbn.
    + apply vstep_settings; auto.
    + eapply settings_event; eauto. intros a. eapply emits_no_upgrade; eauto.
    + repeat split.
Qed.

(** ** A function that runs through its stages *)
Definition answer_ops (t : Task) (o : option Reply) : list Op :=
  match o, task_call self t with Some (ReLedger (LedgerOk b)), Some c => [(c, b)] | _, _ => [] end.
Definition answer_fees (o : option Reply) : list FeeHistory :=
  match o with Some (ReFees (Some h)) => [h] | _ => [] end.

Section Run.
Variable st : State.
Variable id : N.
Variable stage : list FeeHistory -> list Op -> list EventType -> Task -> Prop.
Variable result : list FeeHistory -> list Op -> list EventType -> Outcome -> Prop.

Hypothesis Hresume : forall now t r c c' nx fees ops evs,
  same_settings st (fst c) -> stage fees ops evs t -> reply_fits self t r = true ->
  resume keccak now t r c = Done (c', nx) ->
  exists es, history (snd c') = history (snd c) ++ es /\
    match nx with
    | Await t' => stage (fees ++ answer_fees (Some r)) (ops ++ answer_ops t (Some r)) (evs ++ es) t'
    | Finish o => result (fees ++ answer_fees (Some r)) (ops ++ answer_ops t (Some r)) (evs ++ es) o
    end.
Hypothesis Htrap : forall t r fees ops evs, stage fees ops evs t -> reply_fits self t r = true ->
  task_quarantine t = [] /\ result (fees ++ answer_fees (Some r)) (ops ++ answer_ops t (Some r)) evs OutTrap.

Definition running (s : Sys) (fees : list FeeHistory) (ops : list Op) (evs : list EventType) : Prop :=
  exists fl fees0 ops0, bget id (sys_tasks s) = Some fl /\ stage fees0 ops0 evs (fl_task fl) /\
    fees = fees0 ++ answer_fees (fl_reply fl) /\ ops = ops0 ++ answer_ops (fl_task fl) (fl_reply fl) /\
    (forall r, fl_reply fl = Some r -> reply_fits self (fl_task fl) r = true) /\
    same_settings st (sys_state s) /\ forall o, ~ In (id, o) (sys_outcomes s).
Definition finished (s : Sys) (fees : list FeeHistory) (ops : list Op) (evs : list EventType) : Prop :=
  bget id (sys_tasks s) = None /\ id < sys_next s /\
  exists o, result fees ops evs o /\ forall o', In (id, o') (sys_outcomes s) <-> o' = o.

Lemma skipn_all_nil {A} (l : list A) : skipn (List.length l) l = [].
Proof. induction l; auto. Qed.
Lemma skipn_app_r {A} (l m : list A) : skipn (List.length l) (l ++ m) = m.
Proof. induction l; auto. Qed.

(** other functions do not matter *)
Definition quiet (l : Label) : Prop :=
  match l with LAnswer i _ | LDeliver i _ _ => i <> id | _ => True end.
Lemma quiet_nothing s l : id < sys_next s -> quiet l -> ops_by self keccak id s l = [] /\ events_by self keccak id s l = [] /\ fees_by self id s l = [].
Proof.
  intros Hid Hq. destruct l; cbn in Hq |- *; auto.
  - destruct (N.eqb_spec (sys_next s) id); [lia|]. auto.
  - destruct (N.eqb_spec id0 id); [congruence|]. repeat split.
    destruct r; auto. destruct r; auto. destruct (bget id (sys_tasks s)) as [[t []]|]; auto.
  - destruct (N.eqb_spec id0 id); [congruence|]. auto.
Qed.

Lemma install_outcomes i nx s : sys_outcomes (install i nx s) = sys_outcomes s ++ match nx with Finish o => [(i, o)] | Await _ => [] end.
Proof. destruct nx; cbn; rewrite ?app_nil_r; reflexivity. Qed.

Lemma quiet_step s l : ids_ok s -> id < sys_next s -> quiet l ->
  bget id (sys_tasks (step self keccak s l)) = bget id (sys_tasks s) /\
  (forall o, In (id, o) (sys_outcomes (step self keccak s l)) <-> In (id, o) (sys_outcomes s)) /\
  sys_next s <= sys_next (step self keccak s l).
Proof.
  intros Hi Hid Hq. pose proof (step_trans self keccak s l) as H. revert H. generalize (step self keccak s l) as s'. intros s' H.
  destruct H as [|k now c nx Hc H|u now c nx Hc H|k now Hc|u now Hc|i t c b Hget Hcall Hallow
    |i t r Hget Hfit Hno|i now t r c nx Hc Hget H|i trap now t r c Hc Hget Hp H|a now c Hc Ht H]; cbn in Hq.
  - split; [reflexivity|]. split; [tauto|lia].
  - cbn. rewrite install_tasks, install_outcomes. cbn. split; [|split].
    + destruct (keqb_spec id (sys_next s)); [lia|reflexivity].
    + intros o. rewrite in_app_iff. split; auto. intros [Ho|Ho]; auto. destruct nx; [destruct Ho|].
      destruct Ho as [E|[]]. injection E as E _. lia.
    + destruct nx; cbn; lia.
  - cbn. rewrite install_tasks, install_outcomes. cbn. split; [|split].
    + destruct (keqb_spec id (sys_next s)); [lia|reflexivity].
    + intros o. rewrite in_app_iff. split; auto. intros [Ho|Ho]; auto. destruct nx; [destruct Ho|].
      destruct Ho as [E|[]]. injection E as E _. lia.
    + destruct nx; cbn; lia.
  - cbn. split; auto. split; [|lia]. intros o. rewrite in_app_iff. split; auto. intros [Ho|[E|[]]]; auto. injection E as E _. lia.
  - cbn. split; auto. split; [|lia]. intros o. rewrite in_app_iff. split; auto. intros [Ho|[E|[]]]; auto. injection E as E _. lia.
  - cbn. rewrite bget_insert. destruct (keqb_spec id i); [congruence|]. split; auto. split; [tauto|lia].
  - cbn. rewrite bget_insert. destruct (keqb_spec id i); [congruence|]. split; auto. split; [tauto|lia].
  - rewrite install_tasks, install_outcomes. cbn. split; [|split].
    + destruct (keqb_spec id i); [congruence|reflexivity].
    + intros o. rewrite in_app_iff. split; auto. intros [Ho|Ho]; auto. destruct nx; [destruct Ho|].
      destruct Ho as [E|[]]. injection E as E _. congruence.
    + destruct nx; cbn; lia.
  - rewrite install_tasks, install_outcomes. cbn. split; [|split].
    + destruct (keqb_spec id i); [congruence|reflexivity].
    + intros o. rewrite in_app_iff. split; auto. intros [Ho|Ho]; auto.
      destruct Ho as [E|[]]. injection E as E _. congruence.
    + lia.
  - cbn. split; auto. split; [tauto|lia].
Qed.

Lemma running_answer s r fees ops evs : running s fees ops evs ->
  running (step self keccak s (LAnswer id r)) (fees ++ fees_by self id s (LAnswer id r))
    (ops ++ ops_by self keccak id s (LAnswer id r)) (evs ++ events_by self keccak id s (LAnswer id r)).
Proof.
  intros Hrun. pose proof Hrun as ([t o] & fees0 & ops0 & Hget & Hst & -> & -> & Hf & Hs & Ho). cbn [fl_task fl_reply] in *.
  assert (Hstay : step self keccak s (LAnswer id r) = s -> fees_by self id s (LAnswer id r) = [] ->
    running (step self keccak s (LAnswer id r)) ((fees0 ++ answer_fees o) ++ fees_by self id s (LAnswer id r))
    ((ops0 ++ answer_ops t o) ++ ops_by self keccak id s (LAnswer id r)) (evs ++ events_by self keccak id s (LAnswer id r))).
  { intros E1 E2. unfold ops_by, events_by. rewrite E1, E2, N.eqb_refl, skipn_all_nil, !app_nil_r. exact Hrun. }
  destruct o as [r0|].
  { apply Hstay; [cbn|unfold fees_by]; rewrite Hget; auto. destruct r; auto. destruct r; auto. }
  destruct (reply_fits self t r) eqn:Efit.
  2: { apply Hstay; [cbn; rewrite Hget, Efit; auto|]. unfold fees_by. rewrite Hget. destruct r; auto. destruct r; auto.
       rewrite Efit, andb_false_r. reflexivity. }
  set (s1 := with_tasks (binsert id {| fl_task := t; fl_reply := Some r |} (sys_tasks s)) s).
  assert (Hfees : fees_by self id s (LAnswer id r) = answer_fees (Some r)).
  { unfold fees_by. rewrite Hget. destruct r; auto. destruct r; auto. rewrite Efit, N.eqb_refl. reflexivity. }
  assert (Hgo : forall s2, step self keccak s (LAnswer id r) = s2 -> sys_tasks s2 = sys_tasks s1 ->
    sys_ops s2 = sys_ops s ++ answer_ops t (Some r) -> sys_state s2 = sys_state s -> sys_outcomes s2 = sys_outcomes s ->
    running (step self keccak s (LAnswer id r)) ((fees0 ++ answer_fees None) ++ fees_by self id s (LAnswer id r))
      ((ops0 ++ answer_ops t None) ++ ops_by self keccak id s (LAnswer id r)) (evs ++ events_by self keccak id s (LAnswer id r))).
  { intros s2 E1 E2 E3 E4 E5. unfold ops_by, events_by. rewrite E1, N.eqb_refl, Hfees, E3, skipn_app_r, !app_nil_r.
    exists {| fl_task := t; fl_reply := Some r |}, fees0, ops0. cbn [fl_task fl_reply]. rewrite E2, E4, E5. unfold s1. cbn.
    rewrite bget_insert_eq. split; auto. split; auto. split; [reflexivity|]. split; [reflexivity|].
    split; [intros r1 [= <-]; auto|]. auto. }
  destruct (task_call self t) as [c|] eqn:Ec.
  - destruct r as [[b| |]| | | | | | |];
      try (apply (Hgo s1); [cbn [step]; rewrite Hget, Efit, Ec; reflexivity|..]; cbn; rewrite ?app_nil_r; reflexivity).
    destruct (ledger_allows self (sys_ops s) c b) eqn:Ea.
    + apply (Hgo (with_op (c, b) s1)); [cbn [step]; rewrite Hget, Efit, Ec, Ea; reflexivity|..]; cbn; rewrite ?Ec; reflexivity.
    + apply Hstay; [cbn [step]; rewrite Hget, Efit, Ec, Ea; reflexivity|reflexivity].
  - apply (Hgo s1); [cbn [step]; rewrite Hget, Efit, Ec|..]; try reflexivity; cbn; rewrite ?Ec; destruct r as [[b| |]| | | | | | |]; cbn; rewrite ?app_nil_r; reflexivity.
Qed.

Lemma history_diff l l' es : history l' = history l ++ es -> map ev_payload (skipn (List.length l) l') = es.
Proof.
  unfold history. intros H. rewrite <- skipn_map, H.
  rewrite <- (map_length ev_payload l). apply skipn_app_r.
Qed.

Lemma running_deliver s trap now fees ops evs : ids_ok s -> id < sys_next s -> running s fees ops evs ->
  let l := LDeliver id trap now in
  let s' := step self keccak s l in
  running s' (fees ++ fees_by self id s l) (ops ++ ops_by self keccak id s l) (evs ++ events_by self keccak id s l) \/
  finished s' (fees ++ fees_by self id s l) (ops ++ ops_by self keccak id s l) (evs ++ events_by self keccak id s l).
Proof.
  intros Hi Hid Hrun l. pose proof Hrun as ([t o] & fees0 & ops0 & Hget & Hst & -> & -> & Hf & Hs & Ho). cbn [fl_task fl_reply] in *.
  unfold l, fees_by, ops_by, events_by, new_events. cbn zeta. rewrite N.eqb_refl, !app_nil_r.
  assert (Hstay : step self keccak s l = s ->
    running (step self keccak s l) (fees0 ++ answer_fees o) (ops0 ++ answer_ops t o)
      (evs ++ map ev_payload (skipn (List.length (sys_log s)) (sys_log (step self keccak s l))))).
  { intros ->. rewrite skipn_all_nil, app_nil_r. exact Hrun. }
  assert (Hsett : same_settings (sys_state s) (sys_state (step self keccak s l))).
  { apply settings_step. intros E. rewrite E in Hget. discriminate. }
  fold l in Hstay |- *. revert Hsett. unfold l in *. cbn [step] in *.
  destruct (now <? sys_clock s); [left; auto|]. rewrite Hget in *.
  destruct o as [r|]; [|left; auto]. clear Hstay. specialize (Hf _ eq_refl). unfold deliver.
  assert (Hpanic : let s' := install id (Finish OutTrap) (with_core match cleanup now t (sys_core s) with Done c => c | Panic _ => sys_core s end now s) in
    finished s' (fees0 ++ answer_fees (Some r)) (ops0 ++ answer_ops t (Some r))
      (evs ++ map ev_payload (skipn (List.length (sys_log s)) (sys_log s')))).
  { cbn zeta. destruct (Htrap _ _ _ _ _ Hst Hf) as [Hq Hres].
    destruct (cleanup_micros now t (sys_core s)) as (c' & Hc & Hm). rewrite Hc.
    assert (E : history (snd c') = history (sys_log s) ++ []).
    { rewrite app_nil_r. rewrite Hq in Hm.
      assert (Hw : wmicros (fun _ => False) now (sys_core s) c').
      { eapply micros_weak; [|exact Hm]. intros s0 e He; exact He. }
      apply wmicros_logs in Hw as [(es & Hes & Hj) _]. destruct es as [|e es]; [|destruct (Hj e); left; auto].
      rewrite Hes, app_nil_r. reflexivity. }
    assert (E2 : map ev_payload (skipn (List.length (sys_log s)) (sys_log (install id (Finish OutTrap) (with_core c' now s)))) = []).
    { unfold sys_log at 2. rewrite install_core. apply history_diff. exact E. }
    rewrite E2, app_nil_r.
    split; [|split].
    - rewrite install_tasks. rewrite (proj2 (keqb_eq id id) eq_refl). reflexivity.
    - cbn. exact Hid.
    - exists OutTrap. split; [exact Hres|]. intros o'. rewrite install_outcomes. cbn. rewrite in_app_iff. split.
      + intros [H|[H|[]]]; [destruct (Ho _ H)|congruence].
      + intros ->. right. left. reflexivity. }
  destruct trap; [intros _; right; exact Hpanic|].
  destruct (resume keccak now t r (sys_core s)) as [[c nx]|] eqn:Er; [|intros _; right; exact Hpanic].
  destruct (Hresume _ _ _ _ _ _ _ _ _ Hs Hst Hf Er) as (es & Hes & Hnx). intros Hsett.
  assert (E : map ev_payload (skipn (List.length (sys_log s)) (sys_log (install id nx (with_queries (task_query t r) (with_core c now s))))) = es).
  { unfold sys_log at 2. rewrite install_core. apply history_diff. exact Hes. }
  rewrite E. destruct nx as [t'|o'].
  - left. exists {| fl_task := t'; fl_reply := None |}, (fees0 ++ answer_fees (Some r)), (ops0 ++ answer_ops t (Some r)).
    cbn [fl_task fl_reply]. split; [rewrite install_tasks, (proj2 (keqb_eq id id) eq_refl); reflexivity|]. split; [exact Hnx|].
    split; [rewrite app_nil_r; reflexivity|]. split; [rewrite app_nil_r; reflexivity|]. split; [discriminate|].
    split; [eapply settings_trans; eauto|]. intros o. rewrite install_outcomes. cbn. rewrite app_nil_r. apply Ho.
  - right. split; [rewrite install_tasks, (proj2 (keqb_eq id id) eq_refl); reflexivity|]. split; [exact Hid|].
    exists o'. split; [exact Hnx|]. intros o. rewrite install_outcomes. cbn. rewrite in_app_iff. split.
    + intros [H|[H|[]]]; [destruct (Ho _ H)|congruence].
    + intros ->. right. left. reflexivity.
Qed.

Lemma next_mono s l : sys_next s <= sys_next (step self keccak s l).
Proof.
  destruct (step_trans self keccak s l) as [|? ? ? nx ? ?|? ? ? nx ? ?| | | | |? ? ? ? ? nx ? ? ?| | ]; cbn; try lia; destruct nx; cbn; lia.
Qed.

Lemma run_inv ls : forall s fees ops evs, ids_ok s -> id < sys_next s ->
  running s fees ops evs \/ finished s fees ops evs ->
  let s' := run self keccak s ls in
  let fees' := fees ++ gather self keccak (fees_by self id) s ls in
  let ops' := ops ++ gather self keccak (ops_by self keccak id) s ls in
  let evs' := evs ++ gather self keccak (events_by self keccak id) s ls in
  running s' fees' ops' evs' \/ finished s' fees' ops' evs'.
Proof.
  induction ls as [|l ls IH]; intros s fees ops evs Hi Hid Hrun; cbn zeta.
  - cbn. rewrite !app_nil_r. exact Hrun.
  - cbn [run fold_left gather]. fold (run self keccak (step self keccak s l) ls).
    rewrite !app_assoc. apply IH.
    + eapply ids_step; [exact Hi|]. apply step_trans.
    + pose proof (next_mono s l). lia.
    + assert (Hq : quiet l \/ (exists r, l = LAnswer id r) \/ (exists trap now, l = LDeliver id trap now)).
      { destruct l as [| |i r|i trap now|]; cbn; auto; destruct (N.eq_dec i id); subst; eauto. }
      destruct Hq as [Hq|Hq].
      * destruct (quiet_nothing s _ Hid Hq) as (-> & -> & ->). rewrite !app_nil_r.
        destruct (quiet_step s _ Hi Hid Hq) as (E1 & E2 & E3). destruct Hrun as [Hrun|Hrun].
        -- left. destruct Hrun as (fl & f0 & o0 & H1 & H2 & H3 & H4 & H5 & H6 & H7).
           exists fl, f0, o0. rewrite E1. repeat (split; [assumption|]). split.
           ++ eapply settings_trans; [exact H6|]. apply settings_step. intros E. rewrite E in H1. discriminate.
           ++ intros o Ho. apply E2 in Ho. eapply H7; eauto.
        -- right. destruct Hrun as (H1 & H2 & o & H3 & H4). split; [congruence|]. split; [lia|].
           exists o. split; auto. intros o'. rewrite E2. auto.
      * destruct Hrun as [Hrun|Hrun].
        -- destruct Hq as [(r & ->)|(trap & now & ->)]; [left; apply running_answer; auto|].
           apply running_deliver; auto.
        -- right. pose proof Hrun as (H1 & _).
           assert (E : step self keccak s l = s).
           { destruct Hq as [(r & ->)|(trap & now & ->)]; cbn; rewrite H1; auto. destruct (now <? sys_clock s); auto. }
           assert (E2 : ops_by self keccak id s l = [] /\ events_by self keccak id s l = [] /\ fees_by self id s l = []).
           { unfold ops_by, events_by, new_events. rewrite E. destruct Hq as [(r & ->)|(trap & now & ->)]; rewrite N.eqb_refl, skipn_all_nil;
             split; auto; split; auto. unfold fees_by. rewrite H1. destruct r; auto. destruct r; auto. }
           destruct E2 as (-> & -> & ->). rewrite E, !app_nil_r. exact Hrun.
Qed.
End Run.
End Calls.
