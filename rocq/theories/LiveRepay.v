(** * Progress: what is owed can be paid back, from every reachable state. *)

From Verif Require Import Base BMap MultiKeyMap MultiKeyMapFacts Bytes Types Amount ArithFacts Tx CallData
  Network Hex Transactions State Audit Ranges Rlp Parser Memo Driver Sys SysSpec WtInv StateEquiv
  Segments Tasks SysFacts CoreInv LogFacts WeakSteps GuardSpec Guards GuardFacts WithdrawSpec
  FinalizeFacts ReimburseSpec ReimburseFacts LiveSpec LiveFacts.

Section Live.
Variable self : Principal.
Variable keccak : list N -> Hash.
Notation step := (step self keccak).
Notation run := (run self keccak).
Notation R := (reach self keccak nonce_kept).

Lemma run_reach_kept s ls : R s -> Forall accepting ls -> R (run s ls).
Proof.
  revert s. induction ls as [|l ls IH]; cbn; auto. intros s H Ha. inversion Ha; subst. apply IH; auto. apply reach_step; [exact H|].
  destruct l; try exact Logic.I. match goal with H : accepting _ |- _ => destruct H end.
Qed.

Definition paid_for (q : ReimbursementRequest) (d : Reimbursed) : Prop :=
  rd_burn_in_block d = rr_ledger_burn_index q /\ rd_reimbursed_amount d = rr_reimbursed_amount q /\
  rd_transaction_hash d = rr_transaction_hash q.
Record rcalm (s s' : State) : Prop := {
  rc_fewer : forall i q, owing s' i q -> owing s i q;
  rc_fate : forall i q, owing s i q -> owing s' i q \/ exists d, repaid s' i d /\ paid_for q d;
  rc_kept : forall i d, repaid s i d -> repaid s' i d
}.
Lemma rcalm_refl s : rcalm s s.
Proof. constructor; auto. Qed.
Lemma rcalm_same s s' : withdrawals s' = withdrawals s -> rcalm s s'.
Proof. intros E. constructor; unfold owing, repaid; rewrite E; auto. Qed.
Lemma rcalm_trans a b c : rcalm a b -> rcalm b c -> rcalm a c.
Proof.
  intros [F1 F2 F3] [G1 G2 G3]. constructor; auto. intros i q H. destruct (F2 _ _ H) as [H'|(d & H' & E)]; [auto|right; eauto].
Qed.

Definition ridle (s : Sys) : Prop := forall id, ~ running_activity s id Reimbursing.
Definition rwork (s : Sys) (id : N) (es : list (ReimbursementIndex * ReimbursementRequest)) : Prop :=
  match es with
  | [] => ridle s
  | (i, q) :: es => exists l, bget id (sys_tasks s) = Some {| fl_task := TReimburse l i q es; fl_reply := None |}
  end.
Definition rnext (nx : Next) (es : list (ReimbursementIndex * ReimbursementRequest)) : Prop :=
  match es with
  | [] => exists o, nx = Finish o
  | (i, q) :: es => exists l, nx = Await (TReimburse l i q es)
  end.
Lemma rnext_total es c : exists c' nx, reimburse_next es c = Done (c', nx) /\ withdrawals (fst c') = withdrawals (fst c) /\ rnext nx es.
Proof.
  destruct es as [|[i q] es]; cbn.
  - do 2 eexists. split; [reflexivity|]. split; [reflexivity|eauto].
  - do 2 eexists. split; [reflexivity|]. split; [reflexivity|eauto].
Qed.

Lemma repay_total s i q b : wt_inv (withdrawals s) -> owing s i q -> rr_ledger_burn_index q = ri_burn_in_block i ->
  exists s', apply_state_transition s (reimbursed_event i q b) = Done s' /\
    reimb_requests (withdrawals s') = bremove i (reimb_requests (withdrawals s)).
Proof.
  intros Hi Ho Hb. assert (Hrd : bget i (reimbursed (withdrawals s)) = None).
  { apply (i_rq_rd _ Hi). unfold dom. rewrite (Ho : bget _ _ = _). discriminate. }
  assert (Hrm : bmem i (reimbursed (withdrawals s)) = false) by (apply bmem_false; exact Hrd).
  unfold owing in Ho.
  destruct i as [k|k l k']; cbn in Hb; cbn [reimbursed_event apply_state_transition rd_burn_in_block]; rewrite ?Hb;
    unfold record_finalized_reimbursement, on_withdrawals; rewrite Ho; cbn [expect rbind]; rewrite Hrm; cbn; eexists; (split; [reflexivity|reflexivity]).
Qed.
Lemma reply_repay s l i q rest b now log : R s -> rjob_ok (sys_state s) l i q rest -> b <= U64_MAX -> log = sys_log s ->
  exists c nx, reimburse_reply now i q rest (LedgerOk b) (sys_core s) = Done (c, nx) /\
    rcalm (sys_state s) (fst c) /\ rnext nx rest /\ exists d, repaid (fst c) i d /\ paid_for q d.
Proof.
  intros Hr (_ & _ & Ho) Hb ->. specialize (Ho i q (or_introl eq_refl)).
  destruct (rknown_reach self keccak nonce_kept s (fun _ _ H => H) Hr) as (_ & _ & Hc & Hh).
  assert (Hburn : rr_ledger_burn_index q = ri_burn_in_block i).
  { eapply owed_burn. eapply (rh_owed _ Hh); eauto. }
  assert (Hw : wt_inv (withdrawals (sys_state s))) by exact (core_wt _ _ Hc).
  destruct (repay_total _ _ _ b Hw Ho Hburn) as (s1 & E & Erm).
  destruct (reimbursed_event_apply _ _ _ _ _ Hw Ho Hburn E) as (_ & (d & D1 & _ & D3 & D4 & D5) & Hrest & _).
  unfold reimburse_reply, block_u64. apply N.leb_le in Hb. rewrite Hb. cbn [rassert rbind].
  unfold process_event. change (fst (sys_core s)) with (sys_state s). rewrite E. cbn [rbind].
  destruct (rnext_total rest (s1, record_event now (reimbursed_event i q b) (snd (sys_core s)))) as (c & nx & En & Ew & Hn).
  exists c, nx. split; [exact En|]. cbn [fst] in Ew.
  assert (Hd : repaid (fst c) i d) by (unfold repaid; rewrite Ew; exact D1).
  assert (Hp : paid_for q d) by (unfold paid_for; auto).
  split; [|split; [exact Hn|exists d; auto]]. constructor.
  - intros k v. unfold owing. rewrite Ew, Erm, bget_remove. destruct (keqb k i); [discriminate|auto].
  - intros k v Hk. destruct (keqb_spec k i) as [->|Hne].
    + right. exists d. unfold owing in *. split; auto. congruence.
    + left. unfold owing in *. rewrite Ew, Erm, bget_remove_ne; auto.
  - intros k v Hk. destruct (keqb_spec k i) as [->|Hne].
    + exfalso. assert (Hrd : bget i (reimbursed (withdrawals (sys_state s))) = None).
      { apply (i_rq_rd _ Hw). unfold dom. rewrite (Ho : bget _ _ = _). discriminate. }
      unfold repaid in Hk. congruence.
    + unfold repaid in *. rewrite Ew. rewrite <- Hk. apply Hrest. exact Hne.
Qed.

Lemma rwork_after s id l i q rest r now c nx es :
  R s -> bget id (sys_tasks s) = Some {| fl_task := TReimburse l i q rest; fl_reply := Some r |} -> rnext nx es ->
  rwork (install id nx (with_queries (task_query (TReimburse l i q rest) r) (with_core c now s))) id es.
Proof.
  intros Hr Hg Hn. destruct es as [|[k v] es]; cbn [rwork rnext] in *.
  - destruct Hn as (o & ->). intros j (t' & r' & Hi & Ht). rewrite install_tasks in Hi. destruct (keqb_spec j id) as [->|Hne]; [discriminate|].
    apply Hne. eapply (one_at_a_time self keccak nonce_kept s Hr j id Reimbursing); [exists t', r'; auto|].
    do 2 eexists. split; [exact Hg|]. cbn. eauto 6.
  - destruct Hn as (l' & ->). exists l'. rewrite install_tasks, (proj2 (keqb_eq id id) eq_refl). reflexivity.
Qed.

Lemma rjob_at s id l i q rest r : R s -> bget id (sys_tasks s) = Some {| fl_task := TReimburse l i q rest; fl_reply := r |} ->
  rjob_ok (sys_state s) l i q rest.
Proof.
  intros Hr Hg. apply (po_job _ (pays_reach self keccak nonce_kept s (fun _ _ H => H) Hr)). exists id. eexists. split; [exact Hg|reflexivity].
Qed.
Lemma deliver_repay s id l i q rest a : R s ->
  bget id (sys_tasks s) = Some {| fl_task := TReimburse l i q rest; fl_reply := Some (ReLedger a) |} ->
  (forall b, a = LedgerOk b -> b <= U64_MAX) ->
  let s' := step s (LDeliver id false (sys_clock s)) in
  sys_ops s' = sys_ops s /\ rcalm (sys_state s) (sys_state s') /\ rwork s' id rest /\
  (forall b, a = LedgerOk b -> exists d, repaid (sys_state s') i d /\ paid_for q d).
Proof.
  intros Hr Hg Hb. cbv zeta. pose proof (rjob_at s id l i q rest _ Hr Hg) as Hj.
  assert (Hx : exists c nx, resume keccak (sys_clock s) (TReimburse l i q rest) (ReLedger a) (sys_core s) = Done (c, nx) /\
    rcalm (sys_state s) (fst c) /\ rnext nx rest /\ (forall b, a = LedgerOk b -> exists d, repaid (fst c) i d /\ paid_for q d)).
  { cbn [resume]. destruct a as [b| |].
    - destruct (reply_repay s l i q rest b (sys_clock s) _ Hr Hj (Hb b eq_refl) eq_refl) as (c & nx & E & H1 & H2 & H3).
      exists c, nx. split; [exact E|]. split; [exact H1|]. split; [exact H2|]. intros b' _. exact H3.
    - destruct (rnext_total rest (sys_core s)) as (c & nx & E & H1 & H2). exists c, nx. split; [exact E|].
      split; [apply rcalm_same; exact H1|]. split; [exact H2|]. discriminate.
    - destruct (rnext_total rest (sys_core s)) as (c & nx & E & H1 & H2). exists c, nx. split; [exact E|].
      split; [apply rcalm_same; exact H1|]. split; [exact H2|]. discriminate. }
  destruct Hx as (c & nx & E & H1 & H2 & H3). rewrite (deliver_any self keccak s id _ _ _ c nx (N.le_refl _) Hg E).
  rewrite install_ops. split; [reflexivity|]. unfold sys_state at 2 3. rewrite install_core. cbn [sys_core with_queries with_core].
  split; [exact H1|]. split; [|exact H3]. eapply rwork_after; eauto.
Qed.

Record rprogress (s s' : Sys) (es : list (ReimbursementIndex * ReimbursementRequest)) : Prop := {
  rp_calm : rcalm (sys_state s) (sys_state s');
  rp_idle : ridle s';
  rp_done : forall i q, In (i, q) es -> exists d, repaid (sys_state s') i d /\ paid_for q d
}.
Lemma rprogress_more s ls ls' es es' : rcalm (sys_state s) (sys_state (run s ls)) -> rprogress (run s ls) (run (run s ls) ls') es' ->
  (forall i q, In (i, q) es -> In (i, q) es' \/ exists d, repaid (sys_state (run s ls)) i d /\ paid_for q d) ->
  rprogress s (run s (ls ++ ls')) es.
Proof.
  intros Hc [P1 P2 P3] He. rewrite run_app. constructor; auto.
  - eapply rcalm_trans; eauto.
  - intros i q Hin. destruct (He _ _ Hin) as [Hin'|(d & Hd & E)]; [auto|]. exists d. split; auto. apply (rc_kept _ _ P1). exact Hd.
Qed.

Lemma finish_repay es : forall s id n, R s -> rwork s id es -> room s (N.of_nat (List.length es) + n) ->
  exists ls, Forall accepting ls /\ rprogress s (run s ls) es /\ room (run s ls) n.
Proof.
  induction es as [|[i q] es IH]; intros s id n Hr Hw Hroom; cbn [rwork] in Hw.
  - exists []. split; [constructor|]. split; [constructor; [apply rcalm_refl|exact Hw|intros ? ? []]|]. eapply room_le; [exact Hroom|lia].
  - destruct Hw as (l & Hg). cbn [List.length] in Hroom. destruct Hroom as (b & Hf & Hb).
    destruct (task_call self (TReimburse l i q es)) as [c|] eqn:Ec; [|discriminate].
    set (s1 := step s (LAnswer id (ReLedger (LedgerOk b)))).
    assert (H1 : s1 = with_op (c, b) (with_tasks (binsert id {| fl_task := TReimburse l i q es; fl_reply := Some (ReLedger (LedgerOk b)) |} (sys_tasks s)) s)).
    { apply answer_ok; auto. cbn in Ec. injection Ec as <-. reflexivity. }
    assert (R1 : R s1) by (apply reach_step; [exact Hr|exact Logic.I]).
    assert (S1 : sys_state s1 = sys_state s) by (rewrite H1; reflexivity).
    assert (G1 : bget id (sys_tasks s1) = Some {| fl_task := TReimburse l i q es; fl_reply := Some (ReLedger (LedgerOk b)) |}).
    { rewrite H1. cbn. apply bget_insert_eq. }
    assert (Hb64 : b <= U64_MAX). { replace (2 ^ 64) with (U64_MAX + 1) in Hb by (vm_compute; reflexivity). lia. }
    assert (Room1 : room s1 (N.of_nat (List.length es) + n)).
    { eapply room_answer; [exact Hf| |rewrite H1; reflexivity]. lia. }
    pose proof (deliver_repay s1 id l i q es (LedgerOk b) R1 G1 ltac:(intros b' [= <-]; exact Hb64)) as (O2 & C2 & W2 & D2).
    set (s2 := step s1 (LDeliver id false (sys_clock s1))) in *. assert (R2 : R s2) by (apply reach_step; [exact R1|exact Logic.I]).
    rewrite S1 in C2. assert (Room2 : room s2 (N.of_nat (List.length es) + n)) by (eapply room_same; [exact O2|exact Room1]).
    destruct (IH s2 id n R2 W2 Room2) as (ls & A & P & Rm).
    set (l0 := [LAnswer id (ReLedger (LedgerOk b)); LDeliver id false (sys_clock s1)]).
    exists (l0 ++ ls). split; [repeat (constructor; [exact Logic.I|]); exact A|].
    assert (E0 : run s l0 = s2) by reflexivity. split; [|rewrite run_app, E0; exact Rm].
    apply (rprogress_more s l0 ls _ es); [rewrite E0; exact C2|rewrite E0; exact P|].
    intros i' q' [E|Hin]; [right|auto]. injection E as <- <-. rewrite E0. eauto.
Qed.

Definition debts (s : Sys) : N := N.of_nat (List.length (reimb_requests (withdrawals (sys_state s)))).
Lemma requests_sorted s : R s -> bsorted (reimb_requests (withdrawals (sys_state s))).
Proof.
  intros Hr. destruct (rknown_reach self keccak nonce_kept s (fun _ _ H => H) Hr) as (_ & _ & Hc & _).
  exact (i_rq_sorted _ (core_wt _ _ Hc)).
Qed.
Lemma rest_debts s l i q rest : rjob_ok (sys_state s) l i q rest -> 1 + N.of_nat (List.length rest) <= debts s.
Proof.
  intros (_ & Hd & Ho). unfold debts.
  assert (H : (List.length (map fst ((i, q) :: rest)) <= List.length (bkeys (reimb_requests (withdrawals (sys_state s)))))%nat).
  { apply NoDup_incl_length; [exact Hd|]. intros k Hk. apply in_map_iff in Hk as ([k' v] & <- & He). apply bget_In_keys. cbn [fst].
    rewrite (Ho k' v He : bget _ _ = _). discriminate. }
  unfold bkeys in H. rewrite !map_length in H. cbn [List.length] in H. lia.
Qed.
Lemma debts_fewer s s' : R s' -> rcalm (sys_state s) (sys_state s') -> debts s' <= debts s.
Proof.
  intros Hr [H _ _]. unfold debts. pose proof (requests_sorted s' Hr) as Hs.
  assert (Hx : (List.length (bkeys (reimb_requests (withdrawals (sys_state s')))) <= List.length (bkeys (reimb_requests (withdrawals (sys_state s)))))%nat).
  { apply NoDup_incl_length; [apply bsorted_NoDup; exact Hs|]. intros k Hk. unfold bkeys in Hk. apply in_map_iff in Hk as ([k' e] & <- & He).
    apply bget_In_keys. cbn [fst]. rewrite (H k' e (bget_of_In _ _ _ (bsorted_NoDup _ Hs) He) : bget _ _ = _). discriminate. }
  unfold bkeys in Hx. rewrite !map_length in Hx. lia.
Qed.

Lemma finish_rrunning s id n : R s -> running_activity s id Reimbursing -> room s (debts s + n) ->
  exists ls, Forall accepting ls /\ rprogress s (run s ls) [] /\ room (run s ls) n.
Proof.
  intros Hr (t & r & Hg & (l & i & q & rest & ->)) Hroom.
  pose proof (rest_debts s l i q rest (rjob_at s id l i q rest r Hr Hg)) as Hlen. destruct r as [r|].
  - assert (Hfit := fits_reach self keccak nonce_kept s Hr _ _ _ Hg). destruct r as [a| | | | | | |]; try discriminate Hfit.
    assert (Hb : forall b, a = LedgerOk b -> b <= U64_MAX).
    { intros b ->. destruct (po_list _ (pays_reach self keccak nonce_kept s (fun _ _ H => H) Hr)) as (L & HL).
      assert (Hin : In (i, q, b) L) by (apply (lg_fly _ _ _ _ _ _ HL); exists id, l, rest; exact Hg).
      apply (in_map (paid_op (native_ledger_id (sys_state s)))) in Hin. rewrite <- (lg_ops _ _ _ _ _ _ HL) in Hin.
      apply filter_In in Hin as [Hin _]. destruct Hroom as (nb & Hf & Hnb). cbn in Hin. apply Hf in Hin. cbn [snd] in Hin.
      replace (2 ^ 64) with (U64_MAX + 1) in Hnb by (vm_compute; reflexivity). lia. }
    pose proof (deliver_repay s id l i q rest a Hr Hg Hb) as (O & C & W & _).
    set (s' := step s (LDeliver id false (sys_clock s))) in *. assert (R' : R s') by (apply reach_step; [exact Hr|exact Logic.I]).
    destruct (finish_repay rest s' id n R' W) as (ls & A & P & Rm); [eapply room_same; [exact O|]; eapply room_le; [exact Hroom|lia]|].
    exists ([LDeliver id false (sys_clock s)] ++ ls). split; [constructor; [exact Logic.I|exact A]|]. split; [|exact Rm].
    apply (rprogress_more s [_] ls [] rest); [exact C|exact P|intros ? ? []].
  - destruct (finish_repay ((i, q) :: rest) s id n Hr) as (ls & A & P & Rm).
    + cbn. eauto.
    + eapply room_le; [exact Hroom|]. cbn [List.length]. lia.
    + exists ls. split; [exact A|]. split; [|exact Rm]. destruct P as [P1 P2 P3]. constructor; auto. intros ? ? [].
Qed.
Lemma rrunning_dec s : R s -> ridle s \/ exists id, running_activity s id Reimbursing.
Proof.
  intros Hr. destruct (bmem TaskReimbursement (active_tasks (sys_state s))) eqn:E.
  - right. eapply (timer_guard self keccak nonce_kept s Hr Reimbursing). exact E.
  - left. intros id H. assert (Ht : bmem TaskReimbursement (active_tasks (sys_state s)) = true).
    { apply (timer_guard self keccak nonce_kept s Hr Reimbursing). exists id. exact H. }
    congruence.
Qed.

Lemma rtimer s : R s -> ridle s ->
  let s' := step s (LTimer TimerReimburse (sys_clock s)) in
  sys_ops s' = sys_ops s /\ rcalm (sys_state s) (sys_state s') /\ rwork s' (sys_next s) (reimb_requests (withdrawals (sys_state s))).
Proof.
  intros Hr Hi. cbv zeta. cbn [Sys.step]. rewrite (proj2 (N.ltb_ge _ _) (N.le_refl _)). unfold start_task. cbn [timer_start].
  unfold reimburse_start. change (fst (sys_core s)) with (sys_state s).
  rewrite (timer_guard_free self keccak nonce_kept s Hr Reimbursing Hi : timer_guard_new TaskReimbursement (sys_state s) = _).
  set (s1 := set_active_tasks _ (sys_state s)).
  destruct (rnext_total (reimb_requests (withdrawals s1)) (s1, snd (sys_core s))) as (c & nx & -> & Ew & Hn). cbn [fst] in Ew.
  change (withdrawals s1) with (withdrawals (sys_state s)) in *.
  unfold sys_state at 2. cbn [bump_next sys_ops sys_core with_core].
  rewrite install_ops, install_core. cbn [sys_core with_core]. split; [reflexivity|].
  split; [apply rcalm_same; exact Ew|].
  destruct (reimb_requests (withdrawals (sys_state s))) as [|[i q] es]; cbn [rwork rnext] in *.
  - destruct Hn as (o & ->). intros k (t & r & Hg & Hd). cbn [bump_next sys_tasks] in Hg. rewrite install_tasks in Hg.
    destruct (keqb k (sys_next s)); [discriminate|]. apply (Hi k). exists t, r. auto.
  - destruct Hn as (l & ->). exists l. cbn [bump_next sys_tasks]. rewrite install_tasks, (proj2 (keqb_eq (sys_next s) (sys_next s)) eq_refl). reflexivity.
Qed.

Theorem repayments_live s : R s -> room s (2 * debts s) ->
  exists ls, Forall accepting ls /\
    (forall i q, owing (sys_state s) i q -> exists d, repaid (sys_state (run s ls)) i d /\ paid_for q d) /\
    reimb_requests (withdrawals (sys_state (run s ls))) = [].
Proof.
  intros Hr Hroom.
  assert (H : exists ls, Forall accepting ls /\ rprogress s (run s ls) [] /\ room (run s ls) (debts s)).
  { destruct (rrunning_dec s Hr) as [Hi|(id & Hid)].
    - exists []. split; [constructor|]. split; [constructor; [apply rcalm_refl|exact Hi|intros ? ? []]|]. eapply room_le; [exact Hroom|lia].
    - eapply (finish_rrunning s id); eauto. eapply room_le; [exact Hroom|lia]. }
  destruct H as (l1 & A1 & [P1 P2 _] & Rm1). set (s1 := run s l1) in *. assert (R1 : R s1) by (apply run_reach_kept; auto).
  pose proof (rtimer s1 R1 P2) as (O & C & W). set (s1' := step s1 (LTimer TimerReimburse (sys_clock s1))) in *.
  assert (R1' : R s1') by (apply reach_step; [exact R1|exact Logic.I]).
  destruct (finish_repay _ s1' _ 0 R1' W) as (l2 & A2 & [Q1 Q2 Q3] & _).
  { eapply room_same; [exact O|]. eapply room_le; [exact Rm1|]. pose proof (debts_fewer s s1 R1 P1). unfold debts in *. lia. }
  set (l3 := LTimer TimerReimburse (sys_clock s1) :: l2).
  exists (l1 ++ l3). split; [apply Forall_app; split; [exact A1|constructor; [exact Logic.I|exact A2]]|].
  rewrite run_app. fold s1. change (run s1 l3) with (run s1' l2). set (s2 := run s1' l2) in *.
  assert (R2 : R s2) by (apply run_reach_kept; auto).
  assert (Hdone : forall i q, owing (sys_state s1) i q -> exists d, repaid (sys_state s2) i d /\ paid_for q d).
  { intros i q H. apply Q3. unfold owing in H. apply bget_In in H. exact H. }
  assert (C2 : rcalm (sys_state s1) (sys_state s2)) by (eapply rcalm_trans; eauto).
  split.
  - intros i q H. destruct (rc_fate _ _ P1 _ _ H) as [H1|(d & Hd & E)]; [auto|]. exists d. split; [|exact E]. apply (rc_kept _ _ C2). exact Hd.
  - destruct (reimb_requests (withdrawals (sys_state s2))) as [|[k e] w] eqn:E; [reflexivity|]. exfalso.
    assert (Hw : owing (sys_state s2) k e). { unfold owing. rewrite E. cbn. rewrite (proj2 (keqb_eq k k) eq_refl). reflexivity. }
    destruct (Hdone k e (rc_fewer _ _ C2 _ _ Hw)) as (d & Hd & _).
    destruct (rknown_reach self keccak nonce_kept s2 (fun _ _ H => H) R2) as (_ & _ & Hc & _).
    assert (Hx : bget k (reimbursed (withdrawals (sys_state s2))) = None).
    { apply (i_rq_rd _ (core_wt _ _ Hc)). unfold dom. unfold owing in Hw. cbn. change (bget k (reimb_requests (withdrawals (sys_state s2))) <> None). rewrite Hw. discriminate. }
    unfold repaid in Hd. congruence.
Qed.
End Live.
