(** * Upgrades of a canister that was not stopped: proofs *)

From Verif Require Import Base BMap MultiKeyMap Bytes Types Amount Tx CallData Network Hex
  Transactions State Audit Ranges Rlp Parser Memo Driver Sys SysSpec WtInv StateEquiv Segments SysFacts OpenSpec.

Section Open.
Variable self : Principal.
Variable keccak : list N -> Hash.
Notation step := (step self keccak).
Notation task_call := (task_call self).

(** What giving up work that waits for providers keeps *)
Definition keeps (s s' : Sys) : Prop :=
  sys_log s' = sys_log s /\ withdrawals (sys_state s') = withdrawals (sys_state s) /\
  last_scraped_block_number (sys_state s') = last_scraped_block_number (sys_state s) /\
  sys_next s' = sys_next s /\ sys_ops s' = sys_ops s /\ sys_calls s' = sys_calls s /\
  sys_queries s' = sys_queries s.

Lemma keeps_trans a b c : keeps a b -> keeps b c -> keeps a c.
Proof. unfold keeps. intuition congruence. Qed.

Definition failure (t : Task) : Reply :=
  match t with
  | TScrapeBlock _ => ReBlock None
  | TScrapeLogs _ => ReLogs LogsErr
  | TRetrieveFee | TErc20Estimate _ | TRefresh => ReFees None
  | TRetrieveCount _ | TRetrieveFinalizedCount => ReCount None
  | TRetrieveSign _ b => ReSigs (map (fun _ => None) b)
  | TRetrieveReceipts h => ReReceipts (map (fun _ => ReceiptErr) h)
  | _ => ReSent
  end.

Lemma failure_fits t : task_call t = None -> reply_fits self t (failure t) = true.
Proof. destruct t; cbn; intros H; try discriminate H; auto; rewrite map_length; apply Nat.eqb_refl. Qed.
Lemma failure_failing t id : task_call t = None -> failing (LAnswer id (failure t)).
Proof.
  destruct t; cbn; intros H; try discriminate H; auto.
  - induction batch; constructor; auto.
  - induction hashes; constructor; auto.
Qed.

Lemma released t s : withdrawals (release (task_timers t) (task_principal t) s) = withdrawals s /\
  last_scraped_block_number (release (task_timers t) (task_principal t) s) = last_scraped_block_number s.
Proof. destruct t; cbn; auto. Qed.

Lemma cleaned now t c : task_call t = None -> exists c', cleanup now t c = Done c' /\ snd c' = snd c /\
  withdrawals (fst c') = withdrawals (fst c) /\ last_scraped_block_number (fst c') = last_scraped_block_number (fst c).
Proof.
  intros H. unfold cleanup. assert (Hq : task_quarantine t = []) by (destruct t; try reflexivity; discriminate H).
  rewrite Hq. cbn [process_events rfold rbind]. eexists. split; [reflexivity|]. cbn. split; auto. apply released.
Qed.

Lemma trapped now id t r s : bget id (sys_tasks s) = Some {| fl_task := t; fl_reply := Some r |} ->
  task_call t = None -> sys_clock s <= now ->
  let s' := step s (LDeliver id true now) in
  keeps s s' /\ sys_tasks s' = bremove id (sys_tasks s) /\ sys_clock s' = now.
Proof.
  intros Ht Hc Hn. cbn [Sys.step]. rewrite (proj2 (N.ltb_ge _ _) Hn), Ht. unfold deliver.
  destruct (cleaned now t (sys_core s) Hc) as (c' & E & E1 & E2 & E3). rewrite E.
  unfold keeps, sys_log, sys_state. cbn. repeat (split; auto).
Qed.

Lemma failed id t s : bget id (sys_tasks s) = Some {| fl_task := t; fl_reply := None |} ->
  task_call t = None ->
  let s' := step s (LAnswer id (failure t)) in
  keeps s s' /\ sys_tasks s' = binsert id {| fl_task := t; fl_reply := Some (failure t) |} (sys_tasks s) /\
  sys_clock s' = sys_clock s.
Proof.
  intros Ht Hc. cbn [Sys.step]. rewrite Ht, (failure_fits _ Hc), Hc. unfold keeps, sys_log, sys_state. cbn.
  repeat (split; auto).
Qed.

Lemma drop_one env now id fl s : tolerant env -> reach self keccak env s -> bget id (sys_tasks s) = Some fl ->
  task_call (fl_task fl) = None -> sys_clock s <= now ->
  exists s', reach self keccak env s' /\ keeps s s' /\ sys_tasks s' = bremove id (sys_tasks s) /\ sys_clock s' = now.
Proof.
  intros (Hf & _ & _) Hr Hg Hc Hn. destruct fl as [t [r|]]; cbn in Hc.
  - exists (step s (LDeliver id true now)). split; [apply reach_step; auto; apply Hf; exact Logic.I|].
    exact (trapped now id t r s Hg Hc Hn).
  - destruct (failed id t s Hg Hc) as (K & T & C). set (s1 := step s (LAnswer id (failure t))) in *.
    assert (Hr1 : reach self keccak env s1) by (apply reach_step; auto; apply Hf; apply failure_failing; auto).
    assert (Hg1 : bget id (sys_tasks s1) = Some {| fl_task := t; fl_reply := Some (failure t) |}) by (rewrite T; apply bget_insert_eq).
    assert (Hn1 : sys_clock s1 <= now) by (rewrite C; exact Hn).
    destruct (trapped now id t _ s1 Hg1 Hc Hn1) as (K2 & T2 & C2).
    exists (step s1 (LDeliver id true now)). split; [apply reach_step; auto; apply Hf; exact Logic.I|].
    split; [eapply keeps_trans; eauto|]. split; [|exact C2].
    assert (Hs : bsorted (sys_tasks s)) by (eapply ids_sorted, ids_reach; exact Hr).
    rewrite T2, T. apply bmap_ext; [apply bsorted_remove, bsorted_insert; auto|apply bsorted_remove; auto|].
    intros k. rewrite !bget_remove, bget_insert. destruct (keqb k id); reflexivity.
Qed.

Lemma drop_all env now : tolerant env -> forall n s, (List.length (sys_tasks s) <= n)%nat -> reach self keccak env s ->
  no_ledger_call self s -> sys_clock s <= now ->
  exists s', reach self keccak env s' /\ keeps s s' /\ sys_tasks s' = [] /\ sys_clock s' <= now.
Proof.
  intros He. induction n as [|n IH]; intros s Hl Hr Hno Hn.
  - exists s. split; auto. split; [repeat split|]. split; auto. destruct (sys_tasks s); auto. cbn in Hl. lia.
  - destruct (sys_tasks s) as [|[id fl] rest] eqn:Et.
    { exists s. split; auto. split; [repeat split|]. auto. }
    assert (Hs : bsorted (sys_tasks s)) by (eapply ids_sorted, ids_reach; exact Hr).
    assert (Hg : bget id (sys_tasks s) = Some fl) by (apply bget_iff_In; auto; rewrite Et; left; reflexivity).
    destruct (drop_one env now id fl s He Hr Hg) as (s1 & Hr1 & K1 & T1 & C1); auto.
    { apply Hno with id. rewrite Et. left. reflexivity. }
    destruct (IH s1) as (s2 & Hr2 & K2 & T2 & C2); auto.
    + rewrite T1. pose proof (bremove_length id fl (sys_tasks s) (bsorted_NoDup _ Hs) Hg) as L. rewrite Et in L at 1. cbn [List.length] in L, Hl. lia.
    + intros i x Hi. rewrite T1 in Hi. apply bget_iff_In in Hi; [|apply bsorted_remove; auto].
      rewrite bget_remove in Hi. destruct (keqb i id); [discriminate Hi|]. apply bget_iff_In in Hi; auto. eapply Hno; eauto.
    + rewrite C1. lia.
    + exists s2. split; auto. split; [eapply keeps_trans; eauto|]. auto.
Qed.

Lemma open_upgrade env a now s : tolerant env -> reach self keccak env s -> env s (LUpgrade a now) -> no_ledger_call self s ->
  exists s', reach self keccak env s' /\ same_but_outcomes (upgrade_running a now s) s'.
Proof.
  intros He Hr Hu Hno. unfold upgrade_running. destruct (N.ltb_spec now (sys_clock s)) as [|Hn].
  { exists s. split; auto. repeat split. }
  destruct (canister_upgrade now a (sys_core s)) as [c|] eqn:Eu; [|exists s; split; auto; repeat split].
  destruct (drop_all env now He _ s (le_n _) Hr Hno Hn) as (s1 & Hr1 & (K1 & K2 & K3 & K4 & K5 & K6 & K7) & T1 & C1).
  assert (E1 : canister_upgrade now a (sys_core s1) = Done c).
  { unfold canister_upgrade, pre_upgrade in *. unfold sys_log, sys_state in *. rewrite K1, K3. exact Eu. }
  exists (step s1 (LUpgrade a now)). split.
  - apply reach_step; auto. destruct He as (_ & He & _). apply He with s; auto.
  - cbn [Sys.step]. rewrite (proj2 (N.ltb_ge _ _) C1), T1, E1. unfold same_but_outcomes. cbn. rewrite T1. repeat (split; auto).
Qed.

(** Nothing the canister does depends on what it said to callers *)
Definition with_outcomes (o : list (N * Outcome)) (s : Sys) : Sys :=
  {| sys_core := sys_core s; sys_tasks := sys_tasks s; sys_next := sys_next s; sys_clock := sys_clock s;
     sys_ops := sys_ops s; sys_calls := sys_calls s; sys_outcomes := o; sys_queries := sys_queries s |}.
Lemma same_with s s' : same_but_outcomes s s' -> s' = with_outcomes (sys_outcomes s') s.
Proof. destruct s, s'. unfold same_but_outcomes, with_outcomes. cbn. intros (-> & -> & -> & -> & -> & -> & ->). reflexivity. Qed.
Lemma step_with o s l : exists o', step (with_outcomes o s) l = with_outcomes o' (step s l).
Proof.
  destruct l as [k now|u now|id r|id trap now|a now]; cbn [Sys.step with_outcomes sys_clock sys_tasks sys_core sys_ops].
  - destruct (now <? sys_clock s); [eexists; reflexivity|]. unfold start_task. cbn [sys_core with_outcomes].
    destruct (timer_start now k (sys_core s)) as [[c [t|x]]|]; eexists; reflexivity.
  - destruct (now <? sys_clock s); [eexists; reflexivity|]. unfold start_task. cbn [sys_core with_outcomes with_call].
    destruct (call_start now u (sys_core s)) as [[c [t|x]]|]; eexists; reflexivity.
  - destruct (bget id (sys_tasks s)) as [[t [x|]]|]; try (eexists; reflexivity).
    destruct (reply_fits self t r); [|eexists; reflexivity].
    destruct (task_call t); destruct r as [[| |]| | | | | | |]; try (eexists; reflexivity).
    destruct (ledger_allows self (sys_ops s) l block_index); eexists; reflexivity.
  - destruct (now <? sys_clock s); [eexists; reflexivity|].
    destruct (bget id (sys_tasks s)) as [[t [x|]]|]; try (eexists; reflexivity).
    unfold deliver. cbn [sys_core with_outcomes]. destruct (if trap then _ else _) as [[c [t'|y]]|]; eexists; reflexivity.
  - destruct (now <? sys_clock s); [eexists; reflexivity|]. destruct (sys_tasks s); [|eexists; reflexivity].
    destruct (canister_upgrade now a (sys_core s)); eexists; reflexivity.
Qed.
Lemma same_step s s' l : same_but_outcomes s s' -> same_but_outcomes (step s l) (step s' l).
Proof.
  intros H. apply same_with in H. rewrite H. destruct (step_with (sys_outcomes s') s l) as (o & ->). repeat split.
Qed.

Lemma running_reach env s : tolerant env -> reach_running self keccak env s ->
  exists s', reach self keccak env s' /\ same_but_outcomes s s'.
Proof.
  intros He H. induction H as [now a s H|s l H IH Hl|s a now H IH Hu Hno].
  - exists s. split; [eapply reach_init; eauto|repeat split].
  - destruct IH as (s' & Hr & Hs). exists (step s' l). split; [|apply same_step; auto].
    apply reach_step; auto. destruct He as (_ & _ & He). eapply He; eauto.
  - destruct IH as (s' & Hr & Hs).
    assert (Hu' : env s' (LUpgrade a now)) by (destruct He as (_ & _ & He); eapply He; eauto).
    assert (Hno' : no_ledger_call self s').
    { intros id fl Hi. destruct Hs as (_ & Hs & _). rewrite Hs in Hi. eapply Hno; eauto. }
    destruct (open_upgrade env a now s' He Hr Hu' Hno') as (s2 & Hr2 & H2). exists s2. split; auto.
    unfold upgrade_running in *. destruct Hs as (E1 & E2 & E3 & E4 & E5 & E6 & E7). rewrite E1, E4 in H2.
    destruct (now <? sys_clock s); [unfold same_but_outcomes in *; intuition congruence|].
    destruct (canister_upgrade now a (sys_core s)); unfold same_but_outcomes in *; cbn in *; intuition congruence.
Qed.

Lemma tolerant_any : tolerant any_env.
Proof. repeat split. Qed.
Lemma tolerant_nonce : tolerant nonce_kept.
Proof.
  split; [|split].
  - intros s l H. destruct l as [| | | |]; cbn in *; auto. destruct H.
  - intros s s' a now _ E H. destruct a as [a|]; cbn in *; auto. intros n Hn. rewrite E. auto.
  - intros s s' l (E & _) H. unfold sys_state in *. destruct l as [| | | |[a|]]; cbn in *; auto. unfold sys_state. rewrite E. auto.
Qed.
End Open.
