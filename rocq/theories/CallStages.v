(** * The stages of the two withdrawal calls (C24, C25) *)

From Verif Require Import Base BMap MultiKeyMap MultiKeyMapFacts Bytes Types Amount ArithFacts Tx CallData
  Network Hex Transactions State Audit Ranges Rlp Parser Memo Driver Sys SysSpec WtInv StateEquiv
  TxSpec Segments Tasks SysFacts CoreInv WithdrawSpec WithdrawFacts LogFacts UpgradeFacts WeakSteps TokenSpec TokenFacts
  FeeSpec FeeFacts GuardSpec Guards GuardFacts BurnSpec BurnFacts CallSpec CallFacts.

(** ** The withdrawal fee fits *)
Definition fee_small (s : State) : Prop := forall f, withdrawal_native_fee s = Some f -> f <= U256_MAX.
Lemma fee_option_some n f : fee_option n = Some f -> f = n.
Proof. unfold fee_option. destruct (n =? 0); congruence. Qed.
Lemma fee_small_init a s : state_of_init a = ROk s -> fee_small s.
Proof.
  intros H. apply state_of_init_spec in H as ((_ & _ & _ & _ & _ & _ & Hf) & h & _ & -> & _). intros f E. cbn in E.
  apply fee_option_some in E as ->. exact Hf.
Qed.
Lemma fee_small_event s e s' : apply_state_transition s e = Done s' -> fee_small s -> fee_small s'.
Proof.
  intros H Hs. destruct e;
    try (apply settings_event in H as (E & _); [|intros; discriminate]; unfold fee_small; rewrite E; exact Hs).
  cbn in H. destruct (upgrade a s) as [x|] eqn:E; [|discriminate]. injection H as <-.
  apply upgrade_spec in E as ((_ & _ & _ & _ & _ & _ & _ & Hf) & _ & ->). intros f Ef. cbn in Ef.
  destruct (ua_withdrawal_native_fee a) as [n|]; cbn in Hf, Ef; [|apply Hs; exact Ef].
  apply fee_option_some in Ef as ->. exact (Hf n eq_refl).
Qed.
Lemma fee_small_fold es : forall s s', rfold (fun s e => apply_state_transition s (ev_payload e)) s es = Done s' ->
  fee_small s -> fee_small s'.
Proof.
  induction es as [|e es IH]; cbn; intros s s' H Hs; inv_res; auto. eapply IH; eauto. eapply fee_small_event; eauto.
Qed.
Lemma fee_small_replay log s : replay_events log = Done s -> fee_small s.
Proof.
  destruct log as [|e log]; cbn; [discriminate|]. destruct (ev_payload e); try discriminate.
  destruct (state_of_init a) as [s0|] eqn:E; [|discriminate]. intros H. eapply fee_small_fold; eauto.
  eapply fee_small_init; eauto.
Qed.

Section Stages.
Variable self : Principal.
Variable keccak : list N -> Hash.

Lemma fee_small_reach (env : Sys -> Label -> Prop) s : reach self keccak env s -> fee_small (sys_state s).
Proof.
  apply (reach_inv self keccak env (fun s => fee_small (sys_state s))).
  - intros now a s0 H. apply sys_init_inv in H as (st & Hst & Hc & _). unfold sys_state. rewrite Hc. eapply fee_small_init; eauto.
  - intros s0 l s' Hs _ Htr. apply trans_wmicros in Htr as [(now & H)|(a & now & _ & _ & H)].
    + change (sys_state s0) with (fst (sys_core s0)) in Hs. change (sys_state s') with (fst (sys_core s')).
      revert Hs. revert H. generalize (sys_core s0), (sys_core s').
      apply (wmicros_rel (step_emits keccak s0 l) now (fun c c' => fee_small (fst c) -> fee_small (fst c'))); [auto|auto|].
      intros c c' H. inversion H; subst; cbn; auto.
      * intros Hs. destruct (vstep_settings _ _ H0) as (E & _). unfold fee_small. rewrite E. exact Hs.
      * eapply fee_small_event; eauto.
    + unfold canister_upgrade, post_upgrade in H. apply rbind_done in H as (x & H1 & H2).
      apply fee_small_replay in H1. unfold sys_state. destruct a as [a|].
      * apply process_event_inv in H2 as (s2 & Ha & E). rewrite E. eapply fee_small_event; eauto.
      * injection H2 as E. rewrite <- E. exact H1.
Qed.

Lemma refund_value f tf : f <= U256_MAX -> refund_amount f tf = f - 2 * tf.
Proof.
  intros Hf. unfold refund_amount, checked_mul, checked_sub. rewrite (N.mul_comm tf 2).
  destruct (N.leb_spec (2 * tf) U256_MAX).
  - destruct (N.leb_spec (2 * tf) f); lia.
  - rewrite N.leb_refl. lia.
Qed.
Lemma prefix_nil {A} (l : list A) : prefix [] l.
Proof. exists l. reflexivity. Qed.
Lemma prefix_refl {A} (l : list A) : prefix l l.
Proof. exists []. rewrite app_nil_r. reflexivity. Qed.
Lemma prefix_app {A} (l m : list A) : prefix l (l ++ m).
Proof. exists m. reflexivity. Qed.
Lemma prefix_both {A} (l m n : list A) : prefix m n -> prefix (l ++ m) (l ++ n).
Proof. intros (r & ->). exists r. apply app_assoc. Qed.
Lemma prefix_more {A} (l m n : list A) : prefix l m -> prefix l (m ++ n).
Proof. intros (r & ->). exists (r ++ n). rewrite app_assoc. reflexivity. Qed.

Lemma fee_err_ops t a e : fee_transfer_result a = Done (RErr e) -> answer_ops self t (Some (ReLedger a)) = [].
Proof. destruct a as [b|[]|]; cbn; intros H; inv_res; try discriminate; reflexivity. Qed.
Lemma burn_err_ops t a e : burn_result a = Done (RErr e) -> answer_ops self t (Some (ReLedger a)) = [].
Proof. destruct a as [b|[]|]; cbn; intros H; inv_res; try discriminate; reflexivity. Qed.
Lemma one_op t r c : task_call self t = Some c -> prefix (map fst (answer_ops self t (Some r))) [c].
Proof.
  intros H. unfold answer_ops. rewrite H. destruct r as [[b| |]| | | | | | |]; try apply prefix_nil. apply prefix_refl.
Qed.
Lemma fits_ledger t r : reply_fits self t r = true -> task_call self t <> None -> (exists a, r = ReLedger a) \/ answer_ops self t (Some r) = [].
Proof. intros _ _. destruct r; eauto. Qed.
Lemma end_call_inv p o c c' nx : end_call p o c = Done (c', nx) -> history (snd c') = history (snd c) /\ nx = Finish o.
Proof. intros [= <- <-]. split; reflexivity. Qed.
Lemma event_history now e c c' : process_event now e c = Done c' -> history (snd c') = history (snd c) ++ [e].
Proof. intros H. apply process_event_inv in H as (s & _ & ->). cbn. unfold record_event, history. rewrite map_app. reflexivity. Qed.
Lemma snoc_prefix {A} (x : A) m : prefix m [x] -> m = [] \/ m = [x].
Proof. intros (r & H). destruct m as [|y [|z m]]; auto; cbn in H; [injection H as -> _; auto|discriminate]. Qed.

(** ** The start of a call *)
Lemma outcomes_reach (env : Sys -> Label -> Prop) s : reach self keccak env s ->
  forall i o, In (i, o) (sys_outcomes s) -> i < sys_next s.
Proof.
  apply (reach_inv2 self keccak env ids_ok (fun s => forall i o, In (i, o) (sys_outcomes s) -> i < sys_next s)).
  - intros s0. apply ids_reach.
  - intros now a s0 H i o Ho. apply sys_init_inv in H as (st & _ & _ & _ & _ & _ & _ & _ & E & _). rewrite E in Ho. destruct Ho.
  - intros s0 l s' Hi _ Hs _ H. assert (Hlt : forall i fl, bget i (sys_tasks s0) = Some fl -> i < sys_next s0) by apply Hi.
    clear Hi. destruct H as [|k now c nx Hc H|u now c nx Hc H|k now Hc|u now Hc|i t c b Hget Hcall Hallow
    |i t r Hget Hfit Hno|i now t r c nx Hc Hget H|i trap now t r c Hc Hget Hp H|a now c Hc Ht H]; auto.
    all: intros i0 o0; rewrite ?install_outcomes; cbn [bump_next sys_outcomes sys_next]; rewrite ?install_outcomes; cbn; rewrite ?in_app_iff.
    + destruct nx; cbn; (intros [Ho|Ho]; [apply Hs in Ho; lia|]); [destruct Ho|destruct Ho as [E|[]]; injection E as <- _; lia].
    + destruct nx; cbn; (intros [Ho|Ho]; [apply Hs in Ho; lia|]); [destruct Ho|destruct Ho as [E|[]]; injection E as <- _; lia].
    + intros [Ho|[E|[]]]; [apply Hs in Ho; lia|injection E as <- _; lia].
    + intros [Ho|[E|[]]]; [apply Hs in Ho; lia|injection E as <- _; lia].
    + destruct nx; cbn; (intros [Ho|Ho]; [apply Hs in Ho; lia|]); [destruct Ho|destruct Ho as [E|[]]; injection E as <- _; apply Hlt in Hget; lia].
    + intros [Ho|[E|[]]]; [apply Hs in Ho; lia|injection E as <- _; apply Hlt in Hget; lia].
Qed.

Section Start.
Variable s : Sys.
Variable u : UserCall.
Variable now : N.
Variable stage : list FeeHistory -> list Op -> list EventType -> Task -> Prop.
Variable result : list FeeHistory -> list Op -> list EventType -> Outcome -> Prop.
Hypothesis Hids : ids_ok s.
Hypothesis Houts : forall i o, In (i, o) (sys_outcomes s) -> i < sys_next s.
Hypothesis Hclock : sys_clock s <= now.
Hypothesis Hstart : forall c nx, call_start now u (sys_core s) = Done (c, nx) ->
  same_settings (sys_state s) (fst c) /\
  exists es, history (snd c) = history (sys_log s) ++ es /\
  match nx with Await t => stage [] [] es t | Finish o => result [] [] es o end.
Hypothesis Hnone : result [] [] [] OutTrap.

Lemma call_begins : let l := LCall u now in let s' := step self keccak s l in let id := sys_next s in
  running self (sys_state s) id stage s' (fees_by self id s l) (ops_by self keccak id s l) (events_by self keccak id s l) \/
  finished id result s' (fees_by self id s l) (ops_by self keccak id s l) (events_by self keccak id s l).
Proof.
  intros l s' id. assert (Hf : fees_by self id s l = []) by reflexivity. assert (Ho : ops_by self keccak id s l = []) by reflexivity.
  rewrite Hf, Ho. unfold events_by, l. fold id. rewrite N.eqb_refl. unfold new_events. fold l. fold s'.
  assert (Hfresh : bget id (sys_tasks s) = None) by (apply (fresh_id self keccak); auto).
  assert (Hno : forall o, ~ In (id, o) (sys_outcomes s)).
  { intros o Hin. apply Houts in Hin. unfold id in Hin. lia. }
  assert (E : s' = start_task now (call_start now u (sys_core s)) (with_call (sys_next s) u s)).
  { unfold s', l. cbn [step]. destruct (N.ltb_spec now (sys_clock s)); [lia|reflexivity]. }
  destruct (call_start now u (sys_core s)) as [[c nx]|] eqn:Ec; cbn [start_task] in E.
  - destruct (Hstart _ _ eq_refl) as (Hst & es & Hes & Hnx).
    assert (Ed : map ev_payload (skipn (List.length (sys_log s)) (sys_log s')) = es).
    { apply history_diff. rewrite E. destruct nx; cbn; exact Hes. }
    rewrite Ed. destruct nx as [t|o].
    + left. exists {| fl_task := t; fl_reply := None |}, [], []. rewrite E. cbn. rewrite bget_insert_eq. cbn.
      repeat (split; [auto; fail|]). split; [discriminate|]. auto.
    + right. rewrite E. split; [|split].
      * cbn. rewrite bget_remove. fold id. rewrite (proj2 (keqb_eq id id) eq_refl). reflexivity.
      * cbn. unfold id. lia.
      * exists o. split; auto. intros o'. cbn. rewrite in_app_iff. fold id. split.
        -- intros [H|[H|[]]]; [destruct (Hno _ H)|congruence].
        -- intros ->. right. left. reflexivity.
  - assert (Ed : map ev_payload (skipn (List.length (sys_log s)) (sys_log s')) = []).
    { apply history_diff. rewrite E. cbn. rewrite app_nil_r. reflexivity. }
    rewrite Ed. right. rewrite E. split; [|split].
    + cbn. exact Hfresh.
    + cbn. unfold id. lia.
    + exists OutTrap. split; auto. intros o'. cbn. rewrite in_app_iff. fold id. split.
        -- intros [H|[H|[]]]; [destruct (Hno _ H)|congruence].
        -- intros ->. right. left. reflexivity.
Qed.
End Start.

(** ** withdraw_native_token *)
Section Native.
Variable st : State.
Variable p : Principal.
Variable a : N.
Variable r : text.
Hypothesis Hsmall : fee_small st.

Notation fee := (fee st).
Notation fee_calls := (fee_calls self st p).
Notation refund_calls := (refund_calls self st p).

Definition native_job (d : Address) (amount : N) (j : NativeJob) : Prop :=
  nj_caller j = p /\ nj_destination j = d /\ nj_amount j = amount /\ nj_fee j = withdrawal_native_fee st /\
  nj_transfer_fee j = native_ledger_transfer_fee st /\ nj_ledger j = native_ledger_id st.
Definition native_stage (_ : list FeeHistory) (ops : list Op) (evs : list EventType) (t : Task) : Prop :=
  evs = [] /\ exists d, native_valid st p a r d /\
  match t with
  | TNativeFee j => ops = [] /\ withdrawal_native_fee st <> None /\ native_job d a j
  | TNativeBurn j => map fst ops = fee_calls /\ fee <= a /\ native_job d (a - fee) j
  | TNativeRefund p' l m _ => map fst ops = fee_calls /\ fee <= a /\ p' = p /\ l = native_ledger_id st /\
      exists f, withdrawal_native_fee st = Some f /\ m = f - 2 * native_ledger_transfer_fee st
  | _ => False
  end.
Definition native_final (_ : list FeeHistory) (ops : list Op) (evs : list EventType) (o : Outcome) : Prop :=
  native_result self st p a r ops evs o.

Lemma native_fee_call d j : native_job d a j -> withdrawal_native_fee st <> None -> 
  exists c, task_call self (TNativeFee j) = Some c /\ fee_calls = [c].
Proof.
  intros (H1 & H2 & H3 & H4 & H5 & H6) Hf. cbn. rewrite H1, H4, H5, H6. unfold CallSpec.fee_calls.
  destruct (withdrawal_native_fee st) as [f|]; [|congruence]. eauto.
Qed.
Lemma native_burn_call d j : native_job d (a - fee) j ->
  task_call self (TNativeBurn j) = Some (native_burn self st p a d).
Proof. intros (H1 & H2 & H3 & H4 & H5 & H6). cbn. rewrite H1, H2, H3, H6. reflexivity. Qed.
Lemma native_refund_call f e : withdrawal_native_fee st = Some f ->
  exists c, task_call self (TNativeRefund p (native_ledger_id st) (f - 2 * native_ledger_transfer_fee st) e) = Some c /\
    refund_calls = [c].
Proof. intros Hf. cbn. unfold CallSpec.refund_calls. rewrite Hf. eauto. Qed.

Lemma native_trap t x fees ops evs : native_stage fees ops evs t -> reply_fits self t x = true ->
  task_quarantine t = [] /\
  native_final (fees ++ answer_fees (Some x)) (ops ++ answer_ops self t (Some x)) evs OutTrap.
Proof.
  intros (-> & d & Hv & Ht) Hfit. unfold native_final. destruct t; try contradiction; (split; [reflexivity|]).
  - destruct Ht as (-> & Hf & Hj). destruct (native_fee_call _ _ Hj Hf) as (c & Hc & E).
    eapply NrTrap; eauto. left. apply prefix_more. rewrite E, map_app. apply one_op; auto.
  - destruct Ht as (Hops & Hle & Hj). pose proof (native_burn_call _ _ Hj) as Hc.
    pose proof (one_op _ x _ Hc) as Hp. apply snoc_prefix in Hp as [E|E].
    + eapply NrTrap; eauto. left. unfold Op in *. rewrite map_app, E, app_nil_r, Hops. apply prefix_app.
    + eapply NrTrap; eauto. right. unfold Op in *. rewrite map_app, E, Hops. auto.
  - destruct Ht as (Hops & Hle & -> & -> & f & Hf & ->). destruct (native_refund_call f e Hf) as (c & Hc & E).
    eapply NrTrap; eauto. left. unfold Op in *. rewrite map_app, Hops. apply prefix_both. rewrite E. apply one_op. exact Hc.
Qed.

Lemma native_resume now t x c c' nx fees ops evs :
  same_settings st (fst c) -> native_stage fees ops evs t -> reply_fits self t x = true ->
  resume keccak now t x c = Done (c', nx) ->
  exists es, history (snd c') = history (snd c) ++ es /\
    match nx with
    | Await t' => native_stage (fees ++ answer_fees (Some x)) (ops ++ answer_ops self t (Some x)) (evs ++ es) t'
    | Finish o => native_final (fees ++ answer_fees (Some x)) (ops ++ answer_ops self t (Some x)) (evs ++ es) o
    end.
Proof.
  intros (S1 & S2 & S3 & S4 & S5) (-> & d & Hv & Ht) Hfit H. unfold native_final. destruct t; try contradiction.
  - destruct Ht as (-> & Hf & Hj). destruct (native_fee_call _ _ Hj Hf) as (cl & Hc & E).
    pose proof Hj as (J1 & J2 & J3 & J4 & J5 & J6).
    destruct x as [y| | | | | | |]; try discriminate. cbn [resume] in H. unfold native_fee_reply in H. apply rbind_done in H as (z & Hz & H).
    destruct z as [b|e].
    + apply fee_result_ok in Hz as [-> _]. apply rbind_done in H as (f & Ef & H). apply rbind_done in H as (m & Em & H).
      apply expect_done in Ef. apply expect_done in Em. apply checked_sub_some in Em as [Hle ->].
      injection H as <- <-. exists []. split; [rewrite app_nil_r; reflexivity|]. split; [reflexivity|]. exists d. split; auto.
      rewrite J4 in Ef. unfold answer_ops. rewrite Hc. cbn [map app fst]. rewrite E. split; auto.
      unfold CallSpec.fee. rewrite Ef. rewrite <- J3. split; auto. unfold native_job. cbn. rewrite S3. intuition congruence.
    + apply end_call_inv in H as [H ->]. exists []. split; [rewrite app_nil_r; auto|].
      rewrite (fee_err_ops _ _ _ Hz). cbn [app]. eapply NrFee; eauto.
  - destruct Ht as (Hops & Hle & Hj). pose proof (native_burn_call _ _ Hj) as Hc.
    pose proof Hj as (J1 & J2 & J3 & J4 & J5 & J6).
    destruct x as [y| | | | | | |]; try discriminate. cbn [resume] in H. unfold native_burn_reply in H. apply rbind_done in H as (z & Hz & H).
    destruct z as [b|e].
    + apply burn_result_ok in Hz as [-> _]. apply rbind_done in H as (c1 & He & H). apply end_call_inv in H as [H ->].
      apply event_history in He. eexists. split; [rewrite H, He; reflexivity|]. cbn [app].
      unfold answer_ops. rewrite Hc. rewrite J1, J2, J3. apply NrDone; auto.
    + assert (Ea := burn_err_ops (TNativeBurn j) _ _ Hz). rewrite Ea, !app_nil_r. destruct (nj_fee j) as [f|] eqn:Ef.
      * injection H as <- <-. exists []. split; [rewrite app_nil_r; reflexivity|]. split; [reflexivity|]. exists d. split; auto.
        split; auto. split; auto. split; auto. split; auto. exists f. split; [congruence|]. rewrite J5. apply refund_value. apply Hsmall. congruence.
      * apply rbind_done in H as (w & Hw & H). apply burn_error_done in Hw as [-> Hw].
        apply end_call_inv in H as [H ->]. exists []. split; [rewrite app_nil_r; auto|]. cbn [app].
        rewrite <- (app_nil_r ops). eapply NrBurn; eauto. apply prefix_nil.
  - destruct Ht as (Hops & Hle & -> & -> & f & Hf & ->). destruct (native_refund_call f e Hf) as (cl & Hc & E).
    destruct x as [y| | | | | | |]; try discriminate. cbn [resume] in H. unfold native_refund_reply in H. apply rbind_done in H as (z & Hz & H).
    apply rbind_done in H as (w & Hw & H). apply burn_error_done in Hw as [-> Hw].
    apply end_call_inv in H as [H ->]. exists []. split; [rewrite app_nil_r; auto|]. cbn [app].
    eapply NrBurn; eauto. rewrite E. apply one_op. exact Hc.
Qed.
End Native.

Lemma native_start p a r now c c' nx : call_start now (CallWithdrawNative p a r) c = Done (c', nx) ->
  same_settings (fst c) (fst c') /\
  exists es, history (snd c') = history (snd c) ++ es /\
  match nx with
  | Await t => native_stage (fst c) p a r [] [] es t
  | Finish o => native_final (fst c) p a r [] [] es o
  end.
Proof.
  intros H. apply (call_after keccak) in H. destruct H as (Hp & s1 & Hg & H).
  apply (guard_new_inv keccak) in Hg as (_ & _ & _ & ->).
  destruct H as [(-> & -> & e & He)|(d & Hd & Ha & [(-> & Hlt & ->)|(Hle & -> & H)])].
  - split; [repeat split|]. exists []. split; [cbn; rewrite app_nil_r; reflexivity|]. eapply NrDestination; eauto.
  - split; [repeat split|]. exists []. split; [cbn; rewrite app_nil_r; reflexivity|]. exact (NrTooLow self (fst c) p a r d Hp Hd Hlt).
  - split; [repeat split|]. exists []. split; [cbn; rewrite app_nil_r; reflexivity|].
    assert (Hv : native_valid (fst c) p a r d) by (repeat split; auto). cbn in H.
    destruct (withdrawal_native_fee (fst c)) as [f|] eqn:Ef.
    + destruct H as [_ ->]. split; [reflexivity|]. exists d. split; auto. split; auto. split; [congruence|].
      repeat split; auto.
    + subst nx. split; [reflexivity|]. exists d. split; auto. unfold CallSpec.fee_calls, CallSpec.fee. rewrite Ef.
      split; [reflexivity|]. split; [apply N.le_0_l|]. unfold native_job, CallSpec.fee. rewrite Ef. cbn.
      rewrite N.sub_0_r. repeat split; auto.
Qed.

Theorem native_call (env : Sys -> Label -> Prop) s p a r now ls : reach self keccak env s -> sys_clock s <= now ->
  let ls' := LCall (CallWithdrawNative p a r) now :: ls in
  let id := sys_next s in
  (forall o, ~ In (id, o) (sys_outcomes (run self keccak s ls'))) \/
  exists o, (forall o', In (id, o') (sys_outcomes (run self keccak s ls')) <-> o' = o) /\
    native_result self (sys_state s) p a r (gather self keccak (ops_by self keccak id) s ls')
      (gather self keccak (events_by self keccak id) s ls') o.
Proof.
  intros Hr Hc ls' id. pose proof (ids_reach self keccak env s Hr) as Hids. pose proof (outcomes_reach env s Hr) as Ho.
  pose proof (fee_small_reach env s Hr) as Hf.
  set (l := LCall (CallWithdrawNative p a r) now).
  pose proof (call_begins s _ now (native_stage (sys_state s) p a r) (native_final (sys_state s) p a r) Hids Ho Hc
    (fun c nx H => native_start p a r now (sys_core s) c nx H) (NrNothing self _ _ _ _)) as Hb. cbn zeta in Hb. fold l id in Hb.
  assert (Hids' : ids_ok (step self keccak s l)) by (eapply ids_step; [exact Hids|apply step_trans]).
  assert (Hnext : id < sys_next (step self keccak s l)).
  { unfold l. cbn [step]. destruct (N.ltb_spec now (sys_clock s)); [lia|].
    destruct (call_start now _ (sys_core s)) as [[c [t|o]]|]; cbn; unfold id; lia. }
  pose proof (run_inv self keccak (sys_state s) id (native_stage (sys_state s) p a r) (native_final (sys_state s) p a r)
    (fun now t x c c' nx fees ops evs => native_resume (sys_state s) p a r Hf now t x c c' nx fees ops evs)
    (fun t x fees ops evs => native_trap (sys_state s) p a r t x fees ops evs) ls _ _ _ _ Hids' Hnext Hb) as H. cbn zeta in H.
  unfold ls'. cbn [run fold_left gather]. fold l. fold (run self keccak (step self keccak s l) ls).
  destruct H as [(fl & f0 & o0 & _ & _ & _ & _ & _ & _ & H)|(_ & _ & o & Hres & H)].
  - left. exact H.
  - right. exists o. split; [exact H|]. exact Hres.
Qed.

(** ** withdraw_erc20 *)
Section Erc20.
Variable st : State.
Variable now0 : N.
Variable p : Principal.
Variable a : N.
Variable l : Principal.
Variable r : text.
Hypothesis Hsmall : fee_small st.

Notation fee_calls := (fee_calls self st p).
Notation refund_calls := (refund_calls self st p).
Notation gas_burn := (gas_burn self st p a).
Notation token_burn := (token_burn self p a).
Notation valid := (erc20_valid st p a l r).
Notation quoted := (quoted st now0).

Definition erc20_base (d : Address) (tk : ERC20Token) (j : Erc20Job) : Prop :=
  ej_caller j = p /\ ej_destination j = d /\ ej_amount j = a /\ ej_token j = tk /\
  ej_transfer_fee j = native_ledger_transfer_fee st /\ ej_native_ledger j = native_ledger_id st.
Definition erc20_job (d : Address) (tk : ERC20Token) (g : N) (j : Erc20Job) : Prop :=
  erc20_base d tk j /\ ej_tx_fee j = g /\ ej_fee j = withdrawal_native_fee st.
Definition erc20_stage (fees : list FeeHistory) (ops : list Op) (evs : list EventType) (t : Task) : Prop :=
  exists d tk, valid d tk /\
  match t with
  | TErc20Estimate j => fees = [] /\ ops = [] /\ evs = [] /\ erc20_base d tk j
  | TErc20Fee j => ops = [] /\ evs = [] /\ withdrawal_native_fee st <> None /\
      exists g, quoted fees g /\ erc20_job d tk g j
  | TErc20GasBurn j => map fst ops = fee_calls /\ evs = [] /\ exists g, quoted fees g /\ erc20_job d tk g j
  | TErc20Burn j i => evs = [] /\ exists g paid, quoted fees g /\ erc20_job d tk g j /\
      ops = paid ++ [(gas_burn g tk d, i)] /\ map fst paid = fee_calls
  | TErc20Refund p' l' m idx e => p' = p /\ l' = native_ledger_id st /\
      (exists f, withdrawal_native_fee st = Some f /\ m = f - 2 * native_ledger_transfer_fee st) /\
      exists g paid, quoted fees g /\ map fst paid = fee_calls /\
      match idx with
      | None => ops = paid /\ evs = []
      | Some i => ops = paid ++ [(gas_burn g tk d, i)] /\ evs = fee_owed st p g i e
      end
  | _ => False
  end.
Definition erc20_final (fees : list FeeHistory) (ops : list Op) (evs : list EventType) (o : Outcome) : Prop :=
  erc20_result self st now0 p a l r fees ops evs o.

Lemma erc20_fee_call d tk g j : erc20_job d tk g j -> withdrawal_native_fee st <> None ->
  exists c, task_call self (TErc20Fee j) = Some c /\ fee_calls = [c].
Proof.
  intros ((H1 & H2 & H3 & H4 & H5 & H6) & H7 & H8) Hf. cbn. rewrite H1, H5, H6, H8. unfold CallSpec.fee_calls.
  destruct (withdrawal_native_fee st) as [f|]; [|congruence]. eauto.
Qed.
Lemma erc20_gas_call d tk g j : erc20_job d tk g j -> task_call self (TErc20GasBurn j) = Some (gas_burn g tk d).
Proof. intros ((H1 & H2 & H3 & H4 & H5 & H6) & H7 & H8). cbn. rewrite H1, H2, H3, H4, H6, H7. reflexivity. Qed.
Lemma erc20_token_call d tk g j i : erc20_job d tk g j -> task_call self (TErc20Burn j i) = Some (token_burn tk i d).
Proof. intros ((H1 & H2 & H3 & H4 & H5 & H6) & H7 & H8). cbn. rewrite H1, H2, H3, H4. reflexivity. Qed.
Lemma erc20_refund_call f i e : withdrawal_native_fee st = Some f ->
  exists c, task_call self (TErc20Refund p (native_ledger_id st) (f - 2 * native_ledger_transfer_fee st) i e) = Some c /\
    refund_calls = [c].
Proof. intros Hf. cbn. unfold CallSpec.refund_calls. rewrite Hf. eauto. Qed.

Lemma quoted_more t x fees g : quoted fees g -> reply_fits self t x = true -> (forall y, x <> ReFees y) ->
  quoted (fees ++ answer_fees (Some x)) g.
Proof. intros Hq _ Hx. destruct x; cbn [answer_fees]; rewrite ?app_nil_r; auto. destruct (Hx r0). reflexivity. Qed.

Lemma erc20_trap t x fees ops evs : erc20_stage fees ops evs t -> reply_fits self t x = true ->
  task_quarantine t = [] /\
  erc20_final (fees ++ answer_fees (Some x)) (ops ++ answer_ops self t (Some x)) evs OutTrap.
Proof.
  intros (d & tk & Hv & Ht) Hfit. unfold erc20_final. destruct t; try contradiction; (split; [reflexivity|]).
  all: assert (Hq : forall g, quoted fees g -> (forall y, x <> ReFees y) -> quoted (fees ++ answer_fees (Some x)) g)
    by (intros; eapply quoted_more; eauto).
  - destruct Ht as (-> & -> & -> & Hj). destruct x as [y| | | | | | |]; try discriminate. cbn [answer_ops app]. apply ErNothing.
  - destruct x as [y| | | | | | |]; try discriminate. destruct Ht as (-> & -> & Hf & g & Hg & Hj).
    destruct (erc20_fee_call _ _ _ _ Hj Hf) as (c & Hc & E). apply Hq in Hg; [|discriminate].
    eapply (ErTrap _ _ _ _ _ _ _ _ d tk g); eauto. apply prefix_more. rewrite E, map_app. apply one_op; auto.
  - destruct x as [y| | | | | | |]; try discriminate. destruct Ht as (Hops & -> & g & Hg & Hj).
    pose proof (erc20_gas_call _ _ _ _ Hj) as Hc. apply Hq in Hg; [|discriminate]. unfold answer_ops. rewrite Hc. destruct y as [b| |].
    + eapply ErTrapBurned; eauto. apply prefix_nil.
    + eapply (ErTrap _ _ _ _ _ _ _ _ d tk g); eauto. rewrite app_nil_r, Hops. apply prefix_app.
    + eapply (ErTrap _ _ _ _ _ _ _ _ d tk g); eauto. rewrite app_nil_r, Hops. apply prefix_app.
  - destruct x as [y| | | | | | |]; try discriminate. destruct Ht as (-> & g & paid & Hg & Hj & -> & Hp).
    pose proof (erc20_token_call _ _ _ _ native_index Hj) as Hc. apply Hq in Hg; [|discriminate].
    rewrite <- app_assoc. cbn [app]. eapply ErTrapBurned; eauto. apply one_op. exact Hc.
  - destruct x as [y| | | | | | |]; try discriminate. destruct Ht as (-> & -> & (f & Hf & ->) & g & paid & Hg & Hp & Hi).
    destruct (erc20_refund_call f native_index e Hf) as (c & Hc & E). apply Hq in Hg; [|discriminate].
    pose proof (one_op _ (ReLedger y) _ Hc) as H1. rewrite <- E in H1. destruct native_index as [i|].
    + destruct Hi as [-> ->]. unfold Op in *. rewrite <- app_assoc. cbn [app]. eapply ErToken; eauto.
    + destruct Hi as [-> ->]. eapply (ErTrap _ _ _ _ _ _ _ _ d tk g); eauto. unfold Op in *. rewrite map_app, Hp. apply prefix_both. exact H1.
Qed.

Lemma erc20_priced now j g s t' d tk fees : same_settings st s -> usable 0 g -> valid d tk -> quoted fees (erc20_charge g) ->
  erc20_base d tk j -> estimated_next now j g s t' -> erc20_stage fees [] [] t'.
Proof.
  intros (S1 & S2 & S3 & S4 & S5) Hu Hv Hq Hj H. pose proof (price_charge g Hu) as Hp. unfold estimated_next in H. rewrite S1 in H.
  assert (Hjob : erc20_job d tk (erc20_charge g) (erc20_fee_job now (withdrawal_native_fee st) g j)).
  { destruct Hj as (J1 & J2 & J3 & J4 & J5 & J6). unfold erc20_job, erc20_base, erc20_fee_job. cbn. repeat split; auto. }
  exists d, tk. split; auto. destruct (withdrawal_native_fee st) as [f|] eqn:Ef.
  - destruct H as [_ ->]. split; auto. split; auto. split; [congruence|]. eauto.
  - subst t'. unfold CallSpec.fee_calls. rewrite Ef. split; auto. split; auto. eauto.
Qed.

Lemma erc20_resume now t x c c' nx fees ops evs :
  same_settings st (fst c) -> erc20_stage fees ops evs t -> reply_fits self t x = true ->
  resume keccak now t x c = Done (c', nx) ->
  exists es, history (snd c') = history (snd c) ++ es /\
    match nx with
    | Await t' => erc20_stage (fees ++ answer_fees (Some x)) (ops ++ answer_ops self t (Some x)) (evs ++ es) t'
    | Finish o => erc20_final (fees ++ answer_fees (Some x)) (ops ++ answer_ops self t (Some x)) (evs ++ es) o
    end.
Proof.
  intros Hset (d & tk & Hv & Ht) Hfit H. pose proof Hset as (S1 & S2 & S3 & S4 & S5). unfold erc20_final.
  destruct t; try contradiction.
  - destruct Ht as (-> & -> & -> & Hj). destruct x as [| | |y| | | |]; try discriminate. cbn [resume] in H. unfold erc20_estimate_reply in H.
    destruct (refresh_reply now y (fst c)) as [s o] eqn:E. exists [].
    assert (Hs : same_settings st s).
    { assert (s = fst (refresh_reply now y (fst c))) as -> by (rewrite E; reflexivity). unfold refresh_reply.
      destruct y as [h|]; [|unfold timer_guard_drop; exact Hset]. destruct (estimate_transaction_fee _ h); unfold timer_guard_drop; exact Hset. }
    assert (Ha : forall (o0 : option FeeHistory) j0, answer_ops self (TErc20Estimate j0) (Some (ReFees o0)) = []) by reflexivity.
    rewrite Ha. cbn [app]. destruct o as [g|].
    + apply estimated_inv in H as (-> & t' & -> & H). split; [cbn; rewrite app_nil_r; reflexivity|].
      unfold refresh_reply in E. destruct y as [h|]; [|discriminate].
      destruct (estimate_transaction_fee (min_max_priority_fee_per_gas (fst c)) h) as [g'|] eqn:Eg; [|discriminate].
      injection E as Es Ee. subst g'. clear Es. rewrite S5 in Eg.
      eapply erc20_priced; eauto.
      * eapply usable_0, estimate_usable; eauto.
      * exists g. split; auto. right. exists h. split; [reflexivity|]. apply estimate_ok_iff in Eg as [Eg _]. exact Eg.
    + apply end_call_inv in H as [H ->]. split; [rewrite app_nil_r; exact H|]. eapply ErUnavailable; eauto.
  - destruct Ht as (-> & -> & Hf & g & Hg & Hj). destruct (erc20_fee_call _ _ _ _ Hj Hf) as (cl & Hc & E).
    pose proof Hj as ((J1 & J2 & J3 & J4 & J5 & J6) & J7 & J8).
    destruct x as [y| | | | | | |]; try discriminate. cbn [resume] in H. unfold erc20_fee_reply in H. apply rbind_done in H as (z & Hz & H).
    cbn [answer_fees]. rewrite app_nil_r. destruct z as [b|e].
    + apply fee_result_ok in Hz as [-> _]. injection H as <- <-. exists []. split; [rewrite app_nil_r; reflexivity|].
      exists d, tk. split; auto. unfold answer_ops. rewrite Hc. cbn [map app fst]. rewrite E. split; auto. split; auto.
      exists g. split; auto.
    + apply end_call_inv in H as [H ->]. exists []. split; [rewrite app_nil_r; auto|].
      rewrite (fee_err_ops _ _ _ Hz). cbn [app]. eapply ErFee; eauto.
  - destruct Ht as (Hops & -> & g & Hg & Hj). pose proof (erc20_gas_call _ _ _ _ Hj) as Hc.
    pose proof Hj as ((J1 & J2 & J3 & J4 & J5 & J6) & J7 & J8).
    destruct x as [y| | | | | | |]; try discriminate. cbn [resume] in H. unfold erc20_gas_burn_reply in H. apply rbind_done in H as (z & Hz & H).
    cbn [answer_fees]. rewrite app_nil_r. destruct z as [b|e].
    + apply burn_result_ok in Hz as [-> _]. injection H as <- <-. exists []. split; [rewrite app_nil_r; reflexivity|].
      exists d, tk. split; auto. split; auto. exists g, ops. split; auto. split; auto. unfold answer_ops. rewrite Hc. auto.
    + rewrite (burn_err_ops _ _ _ Hz), app_nil_r. unfold erc20_refund_start in H. exists [].
      destruct (ej_fee j) as [f|] eqn:Ef.
      * injection H as <- <-. split; [rewrite app_nil_r; reflexivity|]. exists d, tk. split; auto. split; auto. split; auto.
        split. { exists f. split; [congruence|]. rewrite J5. apply refund_value, Hsmall. congruence. }
        exists g, ops. auto.
      * apply end_call_inv in H as [H ->]. split; [rewrite app_nil_r; auto|]. cbn [app].
        rewrite <- (app_nil_r ops). eapply ErGas; eauto. apply prefix_nil.
  - destruct Ht as (-> & g & paid & Hg & Hj & -> & Hp). pose proof (erc20_token_call _ _ _ _ native_index Hj) as Hc.
    pose proof Hj as ((J1 & J2 & J3 & J4 & J5 & J6) & J7 & J8).
    destruct x as [y| | | | | | |]; try discriminate. cbn [resume] in H. unfold erc20_burn_reply in H. apply rbind_done in H as (z & Hz & H).
    cbn [answer_fees]. rewrite app_nil_r. destruct z as [b|e].
    + apply burn_result_ok in Hz as [-> _]. apply rbind_done in H as (c1 & He & H). apply end_call_inv in H as [H ->].
      apply event_history in He. eexists. split; [rewrite H, He; reflexivity|]. cbn [app].
      unfold answer_ops. rewrite Hc. rewrite <- app_assoc. cbn [app].
      assert (Hl : et_ledger_id tk = l) by apply Hv. rewrite J1, J2, J3, J4, J7, Hl. eapply ErDone; eauto.
    + rewrite (burn_err_ops _ _ _ Hz), app_nil_r. apply rbind_done in H as (c1 & He & H).
      assert (Hm : failed_burn_reimbursement j e = match e with LeTemporarilyUnavailable => g | _ => g - native_ledger_transfer_fee st end).
      { unfold failed_burn_reimbursement. rewrite J5, J7. unfold checked_sub.
        destruct (N.leb_spec (native_ledger_transfer_fee st) g); destruct e; auto; lia. }
      assert (Hes : history (snd c1) = history (snd c) ++ fee_owed st p g native_index e).
      { unfold fee_owed. rewrite <- Hm. destruct (N.ltb_spec 0 (failed_burn_reimbursement j e)).
        - destruct (N.eqb_spec (failed_burn_reimbursement j e) 0); [lia|]. apply event_history in He. rewrite He, J1. reflexivity.
        - destruct (N.eqb_spec (failed_burn_reimbursement j e) 0); [|lia]. injection He as ->. rewrite app_nil_r. reflexivity. }
      exists (fee_owed st p g native_index e). unfold erc20_refund_start in H. cbn [app].
      destruct (ej_fee j) as [f|] eqn:Ef.
      * injection H as <- <-. split; auto. exists d, tk. split; auto. split; auto. split; auto.
        split. { exists f. split; [congruence|]. rewrite J5. apply refund_value, Hsmall. congruence. }
        exists g, paid. auto.
      * apply end_call_inv in H as [H ->]. split; [congruence|]. cbn [erc20_error].
        eapply ErToken; eauto. apply prefix_nil.
  - destruct Ht as (-> & -> & (f & Hf & ->) & g & paid & Hg & Hp & Hi).
    destruct (erc20_refund_call f native_index e Hf) as (cl & Hc & E).
    destruct x as [y| | | | | | |]; try discriminate. cbn [resume] in H. unfold erc20_refund_reply in H. apply rbind_done in H as (z & Hz & H).
    apply end_call_inv in H as [H ->]. exists []. split; [rewrite app_nil_r; auto|]. cbn [answer_fees]. rewrite !app_nil_r.
    pose proof (one_op _ (ReLedger y) _ Hc) as H1. rewrite <- E in H1. destruct native_index as [i|].
    + destruct Hi as [-> ->]. unfold Op in *. rewrite <- app_assoc. cbn [app]. eapply ErToken; eauto.
    + destruct Hi as [-> ->]. eapply ErGas; eauto.
Qed.
End Erc20.

Lemma found_token l s : tok_ok (erc20_tokens s) ->
  match find_erc20_token_by_ledger_id l s with
  | Some tk => token_of s l tk
  | None => forall c y, ~ listed s l c y
  end.
Proof.
  intros Hm. unfold find_erc20_token_by_ledger_id, dmkm_get_entry.
  assert (Hl := listed_iff s Hm). unfold mkm_get_entry.
  destruct (bget l (by_key (erc20_tokens s))) as [c|] eqn:E; cbn.
  - destruct (key_get _ _ _ Hm E) as (sy & Hs). pose proof Hs as Hs'. unfold dmkm_get_entry_alt, mkm_get_alt in Hs'. rewrite Hs'. cbn.
    split; [reflexivity|]. apply Hl. exact Hs.
  - intros c y H. apply Hl in H. apply alt_get in H; auto. congruence.
Qed.

Lemma erc20_start p a l r now c c' nx : tok_ok (erc20_tokens (fst c)) ->
  (forall t g, last_transaction_price_estimate (fst c) = Some (t, g) -> usable 0 g) ->
  call_start now (CallWithdrawErc20 p a l r) c = Done (c', nx) ->
  same_settings (fst c) (fst c') /\
  exists es, history (snd c') = history (snd c) ++ es /\
  match nx with
  | Await t => erc20_stage (fst c) now p a l r [] [] es t
  | Finish o => erc20_final (fst c) now p a l r [] [] es o
  end.
Proof.
  intros Htok Hcache H. cbn [call_start] in H. unfold withdraw_erc20_start in H.
  apply rbind_done in H as (? & Hp & H). apply rassert_done in Hp.
  assert (Hp' : p <> ANONYMOUS). { intros ->. rewrite bytes_eqb_refl in Hp. discriminate. }
  destruct (guard_new p (fst c)) as [s1|] eqn:Eg; [|discriminate].
  apply (guard_new_inv keccak) in Eg as (_ & _ & _ & Eg).
  assert (Hs : same_settings (fst c) s1) by (rewrite Eg; repeat split).
  assert (Hf : find_erc20_token_by_ledger_id l s1 = find_erc20_token_by_ledger_id l (fst c)) by (rewrite Eg; reflexivity).
  assert (Hprice : last_transaction_price_estimate s1 = last_transaction_price_estimate (fst c)) by (rewrite Eg; reflexivity).
  clear Eg. pose proof (found_token l _ Htok) as Htk. rewrite <- Hf in Htk.
  assert (Hend : forall o, end_call p o (s1, snd c) = Done (c', nx) -> same_settings (fst c) (fst c') /\
    history (snd c') = history (snd c) ++ [] /\ nx = Finish o).
  { intros o [= <- <-]. cbn. rewrite app_nil_r. split; [exact Hs|]. auto. }
  destruct (validate_address_as_destination r) as [d|e] eqn:Ed.
  2: { apply Hend in H as (H1 & H2 & ->). split; auto. exists []. split; auto. eapply ErDestination; eauto. }
  apply rbind_done in H as (a' & Ha & H). apply expect_done in Ha. rewrite amount_of_nat_spec in Ha.
  destruct (N.leb_spec a U256_MAX) as [Hle|]; [|discriminate]. injection Ha as <-.
  destruct (find_erc20_token_by_ledger_id l s1) as [tk|].
  2: { apply rbind_done in H as (? & _ & H). apply Hend in H as (H1 & H2 & ->).
       split; auto. exists []. split; auto. eapply ErUnsupported; eauto. }
  assert (Hv : erc20_valid (fst c) p a l r d tk) by (repeat split; auto; apply Htk).
  match type of H with context [erc20_estimated now ?x _ _] => set (j := x) in H end.
  assert (Hj : erc20_base (fst c) p a d tk j).
  { destruct Hs as (S1 & S2 & S3 & _). unfold j, erc20_base. cbn. repeat split; auto. }
  destruct (refresh_start now s1) as [g| |s2] eqn:Er.
  - apply cached_iff in Er as (t & Et & Hnow). rewrite Hprice in Et.
    apply estimated_inv in H as (-> & t' & -> & H). split; [exact Hs|]. exists []. split; [cbn; rewrite app_nil_r; reflexivity|].
    eapply erc20_priced; eauto. exists g. split; auto. left. split; auto. eauto.
  - apply Hend in H as (H1 & H2 & ->). split; auto. exists []. split; auto. eapply ErUnavailable; eauto.
  - injection H as <- <-. apply refresh_start_wait in Er. unfold timer_guard_new in Er.
    destruct (bmem _ (active_tasks s1)); [discriminate|]. injection Er as <-.
    split; [exact Hs|]. exists []. split; [cbn; rewrite app_nil_r; reflexivity|].
    exists d, tk. split; auto.
Qed.

Theorem erc20_call (env : Sys -> Label -> Prop) s p a l r now ls : reach self keccak env s -> sys_clock s <= now ->
  let ls' := LCall (CallWithdrawErc20 p a l r) now :: ls in
  let id := sys_next s in
  (forall o, ~ In (id, o) (sys_outcomes (run self keccak s ls'))) \/
  exists o, (forall o', In (id, o') (sys_outcomes (run self keccak s ls')) <-> o' = o) /\
    erc20_result self (sys_state s) now p a l r (gather self keccak (fees_by self id) s ls')
      (gather self keccak (ops_by self keccak id) s ls')
      (gather self keccak (events_by self keccak id) s ls') o.
Proof.
  intros Hr Hc ls' id. pose proof (ids_reach self keccak env s Hr) as Hids. pose proof (outcomes_reach env s Hr) as Ho.
  pose proof (fee_small_reach env s Hr) as Hf. pose proof (tokens_reach self keccak env s Hr) as Htok.
  assert (Hcache : forall t g, last_transaction_price_estimate (sys_state s) = Some (t, g) -> usable 0 g).
  { intros t g E. destruct (fo_cache _ (fees_reach keccak self env s Hr) t g E) as [_ Hu]. eapply usable_0; eauto. }
  set (lb := LCall (CallWithdrawErc20 p a l r) now).
  pose proof (call_begins s _ now (erc20_stage (sys_state s) now p a l r) (erc20_final (sys_state s) now p a l r) Hids Ho Hc
    (fun c nx H => erc20_start p a l r now (sys_core s) c nx Htok Hcache H) (ErNothing self _ _ _ _ _ _ _)) as Hb. cbn zeta in Hb. fold lb id in Hb.
  assert (Hids' : ids_ok (step self keccak s lb)) by (eapply ids_step; [exact Hids|apply step_trans]).
  assert (Hnext : id < sys_next (step self keccak s lb)).
  { unfold lb. cbn [step]. destruct (N.ltb_spec now (sys_clock s)); [lia|].
    destruct (call_start now _ (sys_core s)) as [[c [t|o]]|]; cbn; unfold id; lia. }
  pose proof (run_inv self keccak (sys_state s) id (erc20_stage (sys_state s) now p a l r) (erc20_final (sys_state s) now p a l r)
    (fun now' t x c c' nx fees ops evs => erc20_resume (sys_state s) now p a l r Hf now' t x c c' nx fees ops evs)
    (fun t x fees ops evs => erc20_trap (sys_state s) now p a l r t x fees ops evs) ls _ _ _ _ Hids' Hnext Hb) as H. cbn zeta in H.
  unfold ls'. cbn [run fold_left gather]. fold lb. fold (run self keccak (step self keccak s lb) ls).
  destruct H as [(fl & f0 & o0 & _ & _ & _ & _ & _ & _ & H)|(_ & _ & o & Hres & H)].
  - left. exact H.
  - right. exists o. split; [exact H|]. exact Hres.
Qed.
End Stages.
