(** * Progress: accepted withdrawals can be completed, from every reachable state. *)

From Verif Require Import Base BMap MultiKeyMap MultiKeyMapFacts Bytes Types Amount ArithFacts Tx CallData
  Network Hex Transactions State Audit Ranges Rlp Parser Memo Driver Sys SysSpec WtInv StateEquiv
  TxSpec WtContent Segments Tasks SysFacts CoreInv LogFacts WeakSteps WithdrawSpec WithdrawFacts StageFacts
  GuardSpec Guards GuardFacts FeeSpec FeeFacts QueueSpec QueueFacts ReadyFacts TokenSpec BalanceSpec BalanceFacts
  SolvencySpec SolvencyFacts FinalizeSpec FinalizeFacts LiveFacts DriveSpec.
Import Transactions.

(** ** What the steps of a round leave alone *)
Record tame (c c' : Core) : Prop := {
  tm_accepted : accepted (history (snd c')) = accepted (history (snd c));
  tm_deposits : native_deposits (history (snd c')) = native_deposits (history (snd c));
  tm_ledger : native_ledger_id (fst c') = native_ledger_id (fst c);
  tm_tokens : erc20_tokens (fst c') = erc20_tokens (fst c);
  tm_network : evm_network (fst c') = evm_network (fst c);
  tm_tip : min_max_priority_fee_per_gas (fst c') = min_max_priority_fee_per_gas (fst c);
  tm_final : incl (finalizations (history (snd c))) (finalizations (history (snd c')));
  tm_queue : incl (pending (withdrawals (fst c'))) (pending (withdrawals (fst c)));
  tm_nonce : next_nonce (withdrawals (fst c')) + N.of_nat (List.length (pending (withdrawals (fst c')))) =
    next_nonce (withdrawals (fst c)) + N.of_nat (List.length (pending (withdrawals (fst c))))
}.
Lemma tame_refl c : tame c c.
Proof. constructor; auto; apply incl_refl. Qed.
Lemma tame_trans a b c : tame a b -> tame b c -> tame a c.
Proof.
  intros [A1 A2 A3 A4 A5 A6 A7 A8 A9] [B1 B2 B3 B4 B5 B6 B7 B8 B9]. constructor; try congruence; eapply incl_tran; eauto.
Qed.
Definition quiet (e : EventType) : Prop :=
  match e with
  | EvCreatedTransaction _ _ | EvReplacedTransaction _ _ | EvSignedTransaction _ _ | EvFinalizedTransaction _ _ => True
  | _ => False
  end.

Lemma out_length r l : NoDup (map wr_burn_index l) -> In r l ->
  List.length l = S (List.length (filter (fun x => negb (wr_eqb x r)) l)).
Proof.
  induction l as [|a l IH]; [intros _ []|]. cbn [map]. intros Hn Hin. inversion Hn as [|? ? Hx Hn']; subst.
  destruct (wr_eqb a r) eqn:E.
  - apply wr_eqb_eq in E. subst a. rewrite (remove_head r l Hn). reflexivity.
  - cbn [filter]. rewrite E. cbn [negb List.length]. f_equal. apply IH; auto. destruct Hin as [->|]; auto.
    assert (wr_eqb r r = true) by (apply wr_eqb_eq; auto). congruence.
Qed.

Lemma tame_withdrawals s w : incl (pending w) (pending (withdrawals s)) ->
  next_nonce w + N.of_nat (List.length (pending w)) =
    next_nonce (withdrawals s) + N.of_nat (List.length (pending (withdrawals s))) ->
  forall now e log, quiet e -> tame (s, log) (set_withdrawals w s, record_event now e log).
Proof.
  intros H1 H2 now e log He. constructor; cbn [fst snd]; try reflexivity; auto; rewrite history_snoc.
  - rewrite WithdrawFacts.accepted_snoc. destruct e; try destruct He; cbn; apply app_nil_r.
  - unfold native_deposits. rewrite sum_of_app. destruct e; try destruct He; cbn; apply N.add_0_r.
  - rewrite finalizations_snoc. apply incl_appl, incl_refl.
Qed.
Lemma tame_event now s s' log e : quiet e -> wt_inv (withdrawals s) -> apply_state_transition s e = Done s' ->
  tame (s, log) (s', record_event now e log).
Proof.
  intros He Hi H. destruct e; try destruct He; cbn [apply_state_transition] in H.
  - apply on_withdrawals_inv in H as (w' & H & ->). apply record_created_spec in H.
    destruct H as (req & cr & _ & Hr & _ & _ & _ & _ & Hinc & _ & _ & _ & Hw). apply checked_increment_val in Hinc.
    pose proof (out_length req _ (i_pend_nodup _ Hi) Hr) as Hl.
    apply tame_withdrawals; [..|exact Logic.I].
    + rewrite Hw. cbn [pending]. intros x Hx. apply filter_In in Hx. tauto.
    + rewrite Hinc. rewrite Hw. cbn [pending]. rewrite Hl. lia.
  - apply on_withdrawals_inv in H as (w' & H & ->). apply record_signed_spec in H; auto.
    destruct H as (b & c & _ & _ & H). cbn zeta in H.
    apply tame_withdrawals; [..|exact Logic.I]; (destruct H as [(l & _ & ->)|(_ & _ & ->)]; [|]); cbn; auto using incl_refl.
  - apply on_withdrawals_inv in H as (w' & H & ->). apply record_resubmit_spec in H; auto.
    destruct H as (b & l & last & _ & _ & _ & H). cbn zeta in H.
    apply tame_withdrawals; [..|exact Logic.I]; (destruct H as [(c & _ & ->)|(_ & _ & ->)]; [|]); cbn; auto using incl_refl.
  - unfold state_record_finalized_transaction in H. apply rbind_done in H as (w' & H & H2).
    apply update_balance_shape in H2 as (nb & eb & ->). apply record_finalized_spec in H; auto.
    destruct H as (k & l & x & req & _ & _ & _ & _ & _ & _ & H). cbn zeta in H.
    assert (Hw : pending w' = pending (withdrawals s) /\ next_nonce w' = next_nonce (withdrawals s)).
    { destruct (is_failure (rc_status receipt)); [|subst w'; auto]. unfold record_reimbursement_request in H. inv_res. auto. }
    destruct Hw as [W1 W2].
    assert (T : tame (s, log) (set_withdrawals w' s, record_event now (EvFinalizedTransaction withdrawal_id receipt) log)).
    { apply tame_withdrawals; rewrite ?W1, ?W2; auto using incl_refl. exact Logic.I. }
    destruct T. constructor; auto.
Qed.

Section Drive.
Variable self : Principal.
Variable keccak : list N -> Hash.
Notation step := (step self keccak).
Notation run := (run self keccak).
Notation R := (reach self keccak nonce_kept).

Lemma tame_vol s s' log : vstep s s' -> tame (s, log) (s', log).
Proof. intros (v & ->). destruct s as [? ? ? ? ? ? ? ? ? ? ? ? ? ? ? ? ? [] ? ? ? ? ? ? ? ? ? ? ? ?], v. constructor; cbn; auto using incl_refl. Qed.
Lemma tame_micros (J : State -> EventType -> Prop) now c c' :
  (forall s e, J s e -> good_event keccak s e /\ quiet e) -> micros J now c c' -> core_ok keccak c ->
  tame c c' /\ core_ok keccak c'.
Proof.
  intros HJ H. induction H as [c|c1 c2 c3 H1 _ IH]; intros Hc; [split; [apply tame_refl|exact Hc]|].
  assert (H2 : tame c1 c2 /\ core_ok keccak c2).
  { destruct H1 as [s s' log Hv|s s' log e Hj Ha|s log r w' Hr Hw].
    - split; [apply tame_vol; exact Hv|]. eapply core_sim; [apply vstep_sim; exact Hv|exact Hc].
    - destruct (HJ _ _ Hj) as [Hg Hq]. split; [|eapply core_event; eauto].
      apply tame_event; auto. exact (core_wt _ _ Hc).
    - pose proof (core_wt _ _ Hc) as Hi. cbn [fst] in Hi. rewrite (reschedule_present r _ Hi Hr) in Hw. injection Hw as <-. split.
      + pose proof (out_length r _ (i_pend_nodup _ Hi) Hr) as Hl. constructor; cbn; auto using incl_refl.
        * intros x Hx. apply in_app_or in Hx as [Hx|[<-|[]]]; [apply filter_In in Hx; tauto|exact Hr].
        * rewrite app_length. cbn [List.length]. lia.
      + eapply core_sim; [|exact Hc]. eapply queue_sim; [exact Hi|exact Hr|]. apply reschedule_present; auto. }
  destruct H2 as [T2 C2]. destruct (IH C2) as [T3 C3]. split; [eapply tame_trans; eauto|exact C3].
Qed.

Lemma nk : forall s l, nonce_kept s l -> nonce_kept s l.
Proof. auto. Qed.

(** ** Answers and callbacks *)
Definition waits (s : Sys) (id : N) (t : Task) : Prop := bget id (sys_tasks s) = Some {| fl_task := t; fl_reply := None |}.
Lemma answer_step s id t r : waits s id t -> task_call self t = None -> reply_fits self t r = true ->
  step s (LAnswer id r) = with_tasks (binsert id {| fl_task := t; fl_reply := Some r |} (sys_tasks s)) s.
Proof. intros Hw Hc Hf. cbn [Sys.step]. rewrite Hw, Hf, Hc. reflexivity. Qed.

Definition finished (nx : Next) : option Flight :=
  match nx with Await t => Some {| fl_task := t; fl_reply := None |} | Finish _ => None end.
(** What delivering an answer does *)
Lemma deliver_step s id t r now : sys_clock s <= now ->
  bget id (sys_tasks s) = Some {| fl_task := t; fl_reply := Some r |} ->
  let s' := step s (LDeliver id false now) in
  exists nx,
    (resume keccak now t r (sys_core s) = Done (sys_core s', nx) \/
     (nx = Finish OutTrap /\ (exists w, resume keccak now t r (sys_core s) = Panic w) /\ cleanup now t (sys_core s) = Done (sys_core s'))) /\
    sys_clock s' = now /\
    forall i, bget i (sys_tasks s') = if keqb i id then finished nx else bget i (sys_tasks s).
Proof.
  intros Hn Hg. cbv zeta. cbn [Sys.step]. rewrite (proj2 (N.ltb_ge _ _) Hn), Hg. unfold deliver.
  destruct (resume keccak now t r (sys_core s)) as [[c nx]|w] eqn:E.
  - exists nx. rewrite install_core. cbn [sys_core with_queries with_core]. split; [left; reflexivity|].
    split; [destruct nx; reflexivity|]. intros i. rewrite install_tasks. destruct nx; reflexivity.
  - destruct (cleanup_micros now t (sys_core s)) as (c & Hc & _). exists (Finish OutTrap). rewrite Hc. split; [right; split; [reflexivity|]; split; [eauto|]; reflexivity|].
    split; [reflexivity|]. intros i. rewrite install_tasks. reflexivity.
Qed.

Definition ours (t : Task) : Prop := doing t Retrieving \/ doing t Refreshing.
Definition our_kind (t : Task) : bool :=
  match t with
  | TRetrieveFee | TRetrieveCount _ | TRetrieveSign _ _ | TRetrieveSend _ | TRetrieveFinalizedCount | TRetrieveReceipts _
  | TRefresh | TErc20Estimate _ => true
  | _ => false
  end.
Lemma ours_kind t : ours t -> our_kind t = true.
Proof.
  intros [H|H]; cbn in H.
  - destruct H as [->|[(g & ->)|[(c & b & ->)|[(l & ->)|[->|(h & ->)]]]]]; reflexivity.
  - destruct H as [->|[->|(j & ->)]]; reflexivity.
Qed.
Lemma ours_no_call t : ours t -> task_call self t = None.
Proof. intros H. apply ours_kind in H. destruct t; try discriminate; reflexivity. Qed.
Lemma ours_quiet t r s e : ours t -> emits keccak t r s e -> quiet e.
Proof.
  intros Ho H. apply ours_kind in Ho. destruct t; try discriminate Ho; destruct r; cbn in H; try (destruct H; fail).
  - destruct H as [(k & b & l & last & t' & _ & _ & _ & ->)|(q & t' & _ & _ & ->)]; exact Logic.I.
  - destruct H as (x & t' & sg & _ & ->). exact Logic.I.
  - destruct H as (x & y & _ & _ & ->). exact Logic.I.
Qed.
Lemma ours_plain t : ours t -> task_quarantine t = [].
Proof. intros H. apply ours_kind in H. destruct t; try discriminate; reflexivity. Qed.

Lemma tame_deliver s id t r now : R s -> ours t -> sys_clock s <= now ->
  bget id (sys_tasks s) = Some {| fl_task := t; fl_reply := Some r |} ->
  tame (sys_core s) (sys_core (step s (LDeliver id false now))).
Proof.
  intros Hr Ho Hn Hg. pose proof (core_reach _ _ _ _ nk Hr) as Hc.
  destruct (deliver_step s id t r now Hn Hg) as (nx & H & _). set (c' := sys_core (step s (LDeliver id false now))) in *. clearbody c'.
  destruct H as [H|(_ & _ & H)].
  - apply (resume_micros keccak) in H; [|exact (core_wt _ _ Hc)].
    apply (tame_micros _ _ _ _ (fun s e He => conj (good_emits keccak t r s e He) (ours_quiet t r s e Ho He)) H Hc).
  - unfold cleanup in H. rewrite (ours_plain _ Ho) in H. cbn in H. injection H as <-. destruct (sys_core s) as [st log].
    apply tame_vol. apply vstep_release.
Qed.

Lemma reach_failing ls : forall s, R s -> Forall failing ls -> R (run s ls).
Proof.
  induction ls as [|l ls IH]; intros s Hr Hf; [exact Hr|]. inversion Hf as [|? ? H1 H2]; subst. cbn [Sys.run fold_left]. apply IH; [|exact H2].
  apply reach_step; [exact Hr|]. destruct l as [| | | |[a|] now]; try exact Logic.I. destruct H1.
Qed.

(** ** Whatever is under way is brought to an end *)
Definition rank (t : Task) : nat :=
  match t with
  | TRetrieveFee => 6 | TRetrieveCount _ => 5 | TRetrieveSign _ _ => 4 | TRetrieveSend _ => 3
  | TRetrieveFinalizedCount => 2 | TRetrieveReceipts _ => 1 | _ => 0
  end%nat.
Lemma finalize_start_rank c c' nx : finalize_start c = Done (c', nx) -> match nx with Await t' => t' = TRetrieveFinalizedCount | _ => True end.
Proof. unfold finalize_start, end_timer. intros H. inv_res. destruct (mkm_is_empty _); inv_res; auto. Qed.
Lemma send_start_rank n c c' nx : send_start n c = Done (c', nx) ->
  match nx with Await t' => t' = TRetrieveFinalizedCount \/ exists l, t' = TRetrieveSend l | _ => True end.
Proof.
  unfold send_start. intros H. assert (Hf : finalize_start c = Done (c', nx) -> match nx with Await t' => t' = TRetrieveFinalizedCount \/ exists l, t' = TRetrieveSend l | _ => True end).
  { intros E. apply finalize_start_rank in E. destruct nx; auto. }
  destruct n as [n|]; [|exact (Hf H)]. apply rbind_done in H as (l & _ & H). destruct l; [exact (Hf H)|]. injection H as _ <-. eauto.
Qed.
Lemma rank_next now t r c c' t' : doing t Retrieving -> resume keccak now t r c = Done (c', Await t') ->
  doing t' Retrieving /\ (rank t' < rank t)%nat.
Proof.
  intros Hd H. assert (Hk : is_retrieve t = true).
  { cbn in Hd. destruct Hd as [->|[(g & ->)|[(x & b & ->)|[(l & ->)|[->|(h & ->)]]]]]; reflexivity. }
  destruct t; try discriminate Hk; destruct r; try discriminate H; cbn [resume] in H.
  - unfold retrieve_fee_reply in H. destruct (refresh_reply now r (fst c)) as [s [g|]]; [|discriminate]. injection H as _ <-.
    split; [right; left; eauto|cbn; lia].
  - unfold retrieve_count_reply in H. apply rbind_done in H as (c1 & _ & H). apply rbind_done in H as (c2 & _ & H).
    unfold sign_start in H. apply rbind_done in H as (batch & _ & H). destruct batch as [|x l].
    + apply send_start_rank in H as [->|(l & ->)]; (split; [cbn; eauto 8|cbn; lia]).
    + injection H as _ <-. split; [cbn; eauto 8|cbn; lia].
  - unfold retrieve_sign_reply in H. apply rbind_done in H as (c1 & _ & H).
    apply send_start_rank in H as [->|(l1 & ->)]; (split; [cbn; eauto 8|cbn; lia]).
  - apply finalize_start_rank in H as ->. split; [cbn; auto 8|cbn; lia].
  - unfold retrieve_finalized_count_reply in H. destruct r as [n|]; [|discriminate]. apply rbind_done in H as (h & _ & H).
    destruct h; [discriminate|]. injection H as _ <-. split; [cbn; eauto 8|cbn; lia].
  - unfold retrieve_receipts_reply in H. destruct (collect_receipts _ _ _); [|discriminate].
    apply rbind_done in H as (? & _ & H). apply rbind_done in H as (? & _ & H). discriminate.
Qed.

Definition fail_reply (t : Task) : Reply :=
  match t with
  | TRetrieveCount _ | TRetrieveFinalizedCount => ReCount None
  | TRetrieveSign _ batch => ReSigs (map (fun _ => None) batch)
  | TRetrieveSend _ => ReSent
  | TRetrieveReceipts h => ReReceipts (map (fun _ => ReceiptErr) h)
  | _ => ReFees None
  end.
Lemma fail_fits t id : ours t -> reply_fits self t (fail_reply t) = true /\ failing (LAnswer id (fail_reply t)).
Proof.
  intros H. apply ours_kind in H. destruct t; try discriminate; cbn; rewrite ?map_length, ?Nat.eqb_refl; (split; [reflexivity|]); auto.
  - apply Forall_forall. intros x Hx. apply in_map_iff in Hx as (y & <- & _). reflexivity.
  - apply Forall_forall. intros x Hx. apply in_map_iff in Hx as (y & <- & _). reflexivity.
Qed.

Lemma fail_answer s id t : waits s id t -> ours t ->
  let s' := step s (LAnswer id (fail_reply t)) in
  sys_core s' = sys_core s /\ bget id (sys_tasks s') = Some {| fl_task := t; fl_reply := Some (fail_reply t) |} /\
  forall i, i <> id -> bget i (sys_tasks s') = bget i (sys_tasks s).
Proof.
  intros Hw Ho. cbv zeta. rewrite (answer_step s id t _ Hw (ours_no_call _ Ho) (proj1 (fail_fits t id Ho))).
  split; [reflexivity|]. cbn. split; [apply bget_insert_eq|]. intros i Hi. rewrite bget_insert_ne; auto.
Qed.

(** one callback; an answer that is missing is an error *)
Lemma one_more s id t r : R s -> bget id (sys_tasks s) = Some {| fl_task := t; fl_reply := r |} -> ours t ->
  exists ls nx, Forall failing ls /\ tame (sys_core s) (sys_core (run s ls)) /\
    (forall i, bget i (sys_tasks (run s ls)) = if keqb i id then finished nx else bget i (sys_tasks s)) /\
    match nx with Await t' => exists now r' c c', resume keccak now t r' c = Done (c', Await t') | Finish _ => True end.
Proof.
  intros Hr Hg Ho.
  assert (Hd : forall s r, R s -> bget id (sys_tasks s) = Some {| fl_task := t; fl_reply := Some r |} ->
    exists nx, tame (sys_core s) (sys_core (step s (LDeliver id false (sys_clock s)))) /\
      (forall i, bget i (sys_tasks (step s (LDeliver id false (sys_clock s)))) = if keqb i id then finished nx else bget i (sys_tasks s)) /\
      match nx with Await t' => exists now r' c c', resume keccak now t r' c = Done (c', Await t') | Finish _ => True end).
  { clear s r Hr Hg. intros s r Hr Hg. destruct (deliver_step s id t r (sys_clock s) (N.le_refl _) Hg) as (nx & H & _ & Ht).
    exists nx. split; [eapply tame_deliver; eauto; lia|]. split; [exact Ht|]. destruct nx as [t'|]; [|exact Logic.I].
    destruct H as [H|(E & _)]; [eauto|discriminate]. }
  destruct r as [r|].
  - destruct (Hd s r Hr Hg) as (nx & T & Ht & Hx). exists [LDeliver id false (sys_clock s)], nx. split; [constructor; [exact Logic.I|constructor]|].
    split; [exact T|]. split; [exact Ht|exact Hx].
  - destruct (fail_answer s id t Hg Ho) as (C1 & G1 & O1). set (s1 := step s (LAnswer id (fail_reply t))) in *.
    assert (R1 : R s1) by (apply reach_step; [exact Hr|exact Logic.I]).
    destruct (Hd s1 _ R1 G1) as (nx & T & Ht & Hx). exists [LAnswer id (fail_reply t); LDeliver id false (sys_clock s1)], nx.
    split; [constructor; [apply (proj2 (fail_fits t id Ho))|constructor; [exact Logic.I|constructor]]|].
    change (run s [LAnswer id (fail_reply t); LDeliver id false (sys_clock s1)]) with (step s1 (LDeliver id false (sys_clock s1))).
    split; [rewrite <- C1; exact T|]. split; [|exact Hx]. intros i. rewrite Ht.
    match goal with |- context [keqb i id] => destruct (keqb_spec i id) as [Hj|Hj]; [reflexivity|apply O1; exact Hj] end.
Qed.

Lemma finish_round n : forall s id t r, (rank t <= n)%nat -> R s -> bget id (sys_tasks s) = Some {| fl_task := t; fl_reply := r |} ->
  doing t Retrieving ->
  exists ls, Forall failing ls /\ tame (sys_core s) (sys_core (run s ls)) /\
    forall i, bget i (sys_tasks (run s ls)) = if keqb i id then None else bget i (sys_tasks s).
Proof.
  induction n as [|n IH]; intros s id t r Hn Hr Hg Hd.
  - exfalso. cbn in Hd. destruct Hd as [->|[(g & ->)|[(x & b & ->)|[(l & ->)|[->|(h & ->)]]]]]; cbn in Hn; lia.
  - destruct (one_more s id t r Hr Hg (or_introl Hd)) as (ls & nx & F & T & Ht & Hx). destruct nx as [t'|o].
    + destruct Hx as (now & r' & c & c' & Hx). destruct (rank_next _ _ _ _ _ _ Hd Hx) as [Hd' Hl].
      assert (R1 : R (run s ls)) by (apply reach_failing; auto).
      assert (G1 : bget id (sys_tasks (run s ls)) = Some {| fl_task := t'; fl_reply := None |}) by (rewrite Ht, (proj2 (keqb_eq id id) eq_refl); reflexivity).
      destruct (IH (run s ls) id t' None ltac:(lia) R1 G1 Hd') as (ls' & F' & T' & Ht'). exists (ls ++ ls').
      split; [apply Forall_app; auto|]. rewrite run_app. split; [eapply tame_trans; eauto|]. intros i. rewrite Ht', Ht. destruct (keqb i id); reflexivity.
    + exists ls. split; [exact F|]. split; [exact T|exact Ht].
Qed.

Definition at_rest (s : Sys) : Prop := forall id, ~ running_activity s id Retrieving /\ ~ running_activity s id Refreshing.
Lemma running_or_not s a : R s -> (exists id, running_activity s id a) \/ forall id, ~ running_activity s id a.
Proof.
  intros Hr. destruct (bmem (guard_of a) (active_tasks (sys_state s))) eqn:E.
  - left. apply (timer_guard self keccak nonce_kept s Hr a). exact E.
  - right. intros id H. assert (Ht : bmem (guard_of a) (active_tasks (sys_state s)) = true).
    { apply (timer_guard self keccak nonce_kept s Hr a). exists id. exact H. }
    congruence.
Qed.

(** The function [id] is gone, the others are where they were *)
Lemma gone s s' id a : R s -> running_activity s id a ->
  (forall i, bget i (sys_tasks s') = if keqb i id then None else bget i (sys_tasks s)) -> forall i, ~ running_activity s' i a.
Proof.
  intros Hr Ha Ht i (t & r & Hg & Hd). rewrite Ht in Hg. destruct (keqb_spec i id) as [->|Hne]; [discriminate|].
  apply Hne. eapply (one_at_a_time self keccak nonce_kept s Hr i id a); [exists t, r; auto|exact Ha].
Qed.
Lemma fewer s s' id a : (forall i, ~ running_activity s i a) ->
  (forall i, bget i (sys_tasks s') = if keqb i id then None else bget i (sys_tasks s)) -> forall i, ~ running_activity s' i a.
Proof.
  intros Hn Ht i (t & r & Hg & Hd). rewrite Ht in Hg. destruct (keqb i id); [discriminate|]. apply (Hn i). exists t, r. auto.
Qed.

Lemma come_to_rest s : R s -> exists ls, Forall failing ls /\ tame (sys_core s) (sys_core (run s ls)) /\ at_rest (run s ls).
Proof.
  intros Hr.
  assert (H1 : exists ls, Forall failing ls /\ tame (sys_core s) (sys_core (run s ls)) /\ forall i, ~ running_activity (run s ls) i Retrieving).
  { destruct (running_or_not s Retrieving Hr) as [(id & t & r & Hg & Hd)|Hn].
    - destruct (finish_round _ s id t r (le_n _) Hr Hg Hd) as (ls & F & T & Ht). exists ls. split; [exact F|]. split; [exact T|].
      eapply gone; [exact Hr| |exact Ht]. exists t, r. auto.
    - exists []. split; [constructor|]. split; [apply tame_refl|exact Hn]. }
  destruct H1 as (ls & F & T & Hn). assert (R1 : R (run s ls)) by (apply reach_failing; auto).
  destruct (running_or_not (run s ls) Refreshing R1) as [(id & t & r & Hg & Hd)|Hn2].
  - destruct (one_more (run s ls) id t r R1 Hg (or_intror Hd)) as (ls2 & nx & F2 & T2 & Ht2 & Hx).
    exists (ls ++ ls2). split; [apply Forall_app; auto|]. rewrite run_app. split; [eapply tame_trans; eauto|].
    assert (Hnew : forall t' r', finished nx = Some {| fl_task := t'; fl_reply := r' |} -> ~ ours t').
    { intros t' r' E. destruct nx as [t1|]; [|discriminate]. injection E as <- _. destruct Hx as (now & r1 & c & c' & Hx).
      intros Ho. destruct Hd as [->|[->|(j & ->)]].
      - destruct r1; discriminate.
      - apply (Hn id). exists TRetrieveFee, r. split; [exact Hg|left; reflexivity].
      - destruct r1; try discriminate. cbn [resume] in Hx. unfold erc20_estimate_reply in Hx. apply ours_kind in Ho.
        destruct (refresh_reply _ _ _) as [s1 [g|]].
        + apply estimated_inv in Hx as (_ & Hx). unfold estimated_next in Hx. destruct Hx as (t2 & E & Hx). injection E as <-.
          destruct (withdrawal_native_fee _); [destruct Hx as [_ ->]|subst t1]; discriminate.
        + discriminate. }
    intros i. split; intros (t1 & r1 & Hg1 & Hd1); rewrite Ht2 in Hg1.
    + destruct (keqb i id); [eapply Hnew; [exact Hg1|left; exact Hd1]|]. apply (Hn i). exists t1, r1. auto.
    + destruct (keqb_spec i id) as [->|Hne]; [eapply Hnew; [exact Hg1|right; exact Hd1]|].
      apply Hne. eapply (one_at_a_time self keccak nonce_kept _ R1 i id Refreshing); [exists t1, r1; auto|exists t, r; auto].
  - exists ls. split; [exact F|]. split; [exact T|]. intros i. split; auto.
Qed.
End Drive.
