(** * Invariants of the log and of suspended functions, from small steps to histories. *)

From Verif Require Import Base BMap MultiKeyMap MultiKeyMapFacts Bytes Types Amount Tx CallData
  Network Hex Transactions State Audit Ranges Rlp Parser Memo Driver Sys SysSpec WtInv StateEquiv
  TxSpec WtContent Segments Tasks SysFacts CoreInv.

Section Lift.
Variable self : Principal.
Variable keccak : list N -> Hash.
(** what is known about a suspended function *)
Variable F : State -> Task -> Prop.
(** what is known about state and log *)
Variable I : Core -> Prop.

(** Events that are recorded *)
Definition evt (s : State) (e : EventType) : Prop :=
  (exists t r, F s t /\ emits keccak t r s e) \/ (exists u, call_emits u s e) \/
  (exists t, F s t /\ In e (task_quarantine t)) \/ (exists n, e = EvSyncedToBlock n) \/
  (exists a, e = EvUpgrade a /\ nonce_up (withdrawals s) e).

Lemma good_evt s e : evt s e -> good_event keccak s e.
Proof.
  intros [(t & r & _ & H)|[(u & H)|[(t & _ & H)|[(n & ->)|(a & -> & H)]]]];
    eauto using good_emits, good_call, good_quarantine; intros ? ?; cbn; auto.
Qed.

Hypothesis I_init : forall now a s, state_of_init a = ROk s -> I (s, record_event now (EvInit a) []).
Hypothesis I_sim : forall s s' log, core_ok keccak (s, log) -> I (s, log) -> sim s s' -> I (s', log).
Hypothesis I_evt : forall now s s' e log, core_ok keccak (s, log) -> I (s, log) -> evt s e ->
  apply_state_transition s e = Done s' -> I (s', record_event now e log).
Hypothesis F_sim : forall s s' t, F s t -> sim s s' -> F s' t.
Hypothesis F_evt : forall s s' e log t, core_ok keccak (s, log) -> I (s, log) -> evt s e ->
  apply_state_transition s e = Done s' -> F s t -> F s' t.
Hypothesis F_next : forall now t r c c' t', core_ok keccak c -> core_ok keccak c' -> I c -> I c' ->
  F (fst c) t -> F (fst c') t -> next_spec now t r c c' t' -> F (fst c') t'.
Hypothesis F_timer : forall now k c c' t', core_ok keccak c' -> I c' ->
  timer_next now k c c' (Await t') -> F (fst c') t'.
Hypothesis F_call : forall now u c c' t', core_ok keccak c' -> I c' ->
  call_next now u c c' (Await t') -> F (fst c') t'.

(** All that is kept *)
Definition kept (T : Task -> Prop) (c : Core) : Prop :=
  core_ok keccak c /\ I c /\ forall t, T t -> F (fst c) t.

Lemma kept_micro (T : Task -> Prop) now c c' : kept T c -> micro evt now c c' -> kept T c'.
Proof.
  intros (Hc & Hi & Hf) H. inversion H; subst.
  - apply vstep_sim in H0. split; [|split].
    + eapply core_sim; eauto.
    + eapply I_sim; eauto.
    + intros t Ht. eapply F_sim; [apply Hf; auto|auto].
  - split; [|split].
    + eapply core_event; eauto using good_evt.
    + eapply I_evt; eauto.
    + intros t Ht. eapply F_evt; eauto.
  - assert (Hs : sim s (set_withdrawals w' s)) by (eapply queue_sim; eauto; apply (core_wt _ _ Hc)).
    split; [|split].
    + eapply core_sim; eauto.
    + eapply I_sim; eauto.
    + intros t Ht. eapply F_sim; [apply Hf; auto|auto].
Qed.

(** Small steps whose events come from a kept function *)
Lemma kept_micros (T : Task -> Prop) (J : State -> EventType -> Prop) now c c' :
  (forall s e, (forall t, T t -> F s t) -> J s e -> evt s e) ->
  micros J now c c' -> kept T c -> kept T c' /\ micros evt now c c'.
Proof.
  intros HJ H. induction H; intros Hk; [split; auto; apply MNil|].
  assert (Hm : micro evt now c1 c2).
  { inversion H; subst; [eapply MVol|eapply MEvent|eapply MQueue]; eauto. apply HJ; auto.
    destruct Hk as (_ & _ & Hf). exact Hf. }
  pose proof (kept_micro T now c1 c2 Hk Hm) as Hk2. destruct (IHmicros Hk2). split; auto.
  eapply MCons; eauto.
Qed.

Definition running (s : Sys) (t : Task) : Prop :=
  exists id r, bget id (sys_tasks s) = Some {| fl_task := t; fl_reply := r |}.

Definition all_kept (s : Sys) : Prop := kept (running s) (sys_core s).

Lemma kept_upgrade now a c c' (T : Task -> Prop) :
  (forall t, ~ T t) -> kept T c ->
  (forall x, a = Some x -> forall n, ua_next_transaction_nonce x = Some n -> next_nonce (withdrawals (fst c)) <= n) ->
  canister_upgrade now a c = Done c' ->
  kept T c' /\ exists s, sim (fst c) s /\ micros evt now (s, snd c) c'.
Proof.
  intros HT Hk Hn H. destruct Hk as (Hc & Hi & Hf).
  destruct (core_replay _ _ Hc) as (s0 & H1 & H2). pose proof H as Hu.
  unfold canister_upgrade, post_upgrade, pre_upgrade in Hu.
  set (n := last_scraped_block_number (fst c)) in *.
  erewrite replay_snoc in Hu; [|eauto|reflexivity]. cbn [rbind] in Hu.
  assert (Hk0 : kept T (s0, snd c)).
  { destruct c as [s log]. cbn in *. apply sim_sym in H2. split; [|split].
    - eapply core_sim; eauto.
    - eapply I_sim; eauto.
    - intros t Ht. exfalso. eapply HT; eauto. }
  set (s1 := set_last_scraped_block_number n s0) in *.
  assert (Hm1 : micro evt now (s0, snd c) (s1, record_event now (EvSyncedToBlock n) (snd c))).
  { eapply MEvent; [|reflexivity]. unfold evt. eauto 6. }
  assert (Hk1 : kept T (s1, record_event now (EvSyncedToBlock n) (snd c))) by (eapply kept_micro; eauto).
  destruct a as [x|].
  - apply process_event_inv in Hu as (s2 & Ha & ->).
    assert (Hm2 : micro evt now (s1, record_event now (EvSyncedToBlock n) (snd c))
                    (s2, record_event now (EvUpgrade x) (record_event now (EvSyncedToBlock n) (snd c)))).
    { eapply MEvent; [|exact Ha]. do 4 right. exists x. split; auto. cbn. intros m Hm.
      apply (Hn x eq_refl) in Hm. destruct H2 as (v & p & _ & Hv). rewrite Hv in Hm. exact Hm. }
    split; [eapply kept_micro; eauto|]. exists s0. split; [apply sim_sym; auto|].
    eapply MCons; [exact Hm1|]. apply micros_one; auto.
  - injection Hu as <-. split; auto. exists s0. split; [apply sim_sym; auto|]. apply micros_one; auto.
Qed.

(** The tasks after a step are tasks from before or the new one *)
Lemma running_install id nx s t :
  running (install id nx s) t ->
  nx = Await t \/ (exists i r, i <> id /\ bget i (sys_tasks s) = Some {| fl_task := t; fl_reply := r |}).
Proof.
  intros (i & r & H). rewrite install_tasks in H. destruct (keqb_spec i id) as [Hk|Hk].
  - destruct nx; [|discriminate]. injection H as <- _. auto.
  - eauto 6.
Qed.
Lemma running_install_old id nx s t : running (install id nx s) t -> nx = Await t \/ running s t.
Proof. intros H. apply running_install in H as [H|(i & r & _ & H)]; auto. right. exists i, r. auto. Qed.

Lemma kept_weaken (T T' : Task -> Prop) c : (forall t, T' t -> T t) -> kept T c -> kept T' c.
Proof. intros H (H1 & H2 & H3). split; [|split]; auto. Qed.
Lemma kept_add (T T' : Task -> Prop) c :
  kept T c -> (forall t, T' t -> T t \/ F (fst c) t) -> kept T' c.
Proof. intros (H1 & H2 & H3) H. split; [|split]; auto. intros t Ht. destruct (H t Ht); auto. Qed.

Lemma pair_eta (c : Core) : (fst c, snd c) = c.
Proof. destruct c; reflexivity. Qed.

(** One step of the system *)
Lemma kept_trans s l s' :
  all_kept s -> nonce_kept s l -> Trans self keccak s l s' ->
  all_kept s' /\
  exists now st, sim (sys_state s) st /\ micros evt now (st, sys_log s) (sys_core s').
Proof.
  intros Hk Hn H. unfold all_kept, sys_state, sys_log in *.
  assert (Hsame : forall c', micros evt 0 (sys_core s) c' ->
    exists now st, sim (fst (sys_core s)) st /\ micros evt now (st, snd (sys_core s)) c').
  { intros c' Hm. exists 0, (fst (sys_core s)). rewrite pair_eta. split; auto. apply sim_refl. }
  destruct H; cbn; rewrite ?install_core; cbn.
  - split; auto. apply Hsame, MNil.
  - (* timer *)
    pose proof H0 as Ht. apply timer_after in Ht. apply timer_micros in H0 as [Hv Hl].
    assert (Hm : micros evt now (sys_core s) c).
    { destruct c; cbn in *; subst. apply micros_vol; auto. }
    destruct (kept_micros (running s) evt now (sys_core s) c) as [Hk' _]; auto.
    split.
    + eapply kept_add; [exact Hk'|]. intros t Hr.
      assert (Hr' : running (install (sys_next s) nx (with_core c now s)) t) by exact Hr.
      apply running_install_old in Hr' as [->|Hr']; auto. right.
      destruct Hk' as (? & ? & ?). eapply F_timer; eauto.
    + exists now, (fst (sys_core s)). rewrite pair_eta. split; [apply sim_refl|auto].
  - (* call *)
    pose proof H0 as Ht. apply (call_after keccak) in Ht. apply call_micros in H0.
    destruct (kept_micros (running s) (call_emits u) now (sys_core s) c) as [Hk' Hm]; auto.
    { intros st e _ He. unfold evt. eauto. }
    split.
    + eapply kept_add; [exact Hk'|]. intros t Hr.
      assert (Hr' : running (install (sys_next s) nx (with_core c now (with_call (sys_next s) u s))) t) by exact Hr.
      apply running_install_old in Hr' as [->|Hr']; auto. right.
      destruct Hk' as (? & ? & ?). eapply F_call; eauto.
    + exists now, (fst (sys_core s)). rewrite pair_eta. split; [apply sim_refl|auto].
  - split; [exact Hk|]. apply Hsame, MNil.
  - split; [exact Hk|]. apply Hsame, MNil.
  - (* ledger operation *)
    split; [|apply Hsame, MNil]. eapply kept_weaken; [|exact Hk].
    intros t' (i & r & Hg). cbn in Hg. rewrite bget_insert in Hg.
    destruct (keqb_spec i id) as [Hi|Hi]; [|exists i, r; auto].
    injection Hg as <- _. exists id, None. auto.
  - split; [|apply Hsame, MNil]. eapply kept_weaken; [|exact Hk].
    intros t' (i & r' & Hg). cbn in Hg. rewrite bget_insert in Hg.
    destruct (keqb_spec i id) as [Hi|Hi]; [|exists i, r'; auto].
    injection Hg as <- _. exists id, None. auto.
  - (* callback *)
    pose proof H1 as Ht. apply resume_after in Ht.
    assert (Hrun : running s t) by (exists id, (Some r); auto).
    apply resume_micros in H1; [|apply (core_wt _ _ (proj1 Hk))].
    destruct (kept_micros (running s) (emits keccak t r) now (sys_core s) c) as [Hk' Hm]; auto.
    { intros st e Hf He. left. exists t, r. auto. }
    split.
    + eapply kept_add; [exact Hk'|]. intros t' Hr.
      apply running_install_old in Hr as [->|Hr]; auto. right.
      destruct Hk' as (? & ? & ?), Hk as (? & ? & ?). eapply (F_next now t r (sys_core s) c); eauto.
    + exists now, (fst (sys_core s)). rewrite pair_eta. split; [apply sim_refl|auto].
  - (* trap *)
    assert (Hrun : running s t) by (exists id, (Some r); auto).
    destruct (cleanup_micros now t (sys_core s)) as (c' & Hc & Hm).
    assert (c' = c) by congruence. subst c'.
    destruct (kept_micros (running s) (fun _ e => In e (task_quarantine t)) now (sys_core s) c) as [Hk' Hm']; auto.
    { intros st e Hf He. right. right. left. exists t. auto. }
    split.
    + eapply kept_weaken; [|exact Hk']. intros t' Hr.
      assert (Hr' : running (install id (Finish OutTrap) (with_core c now s)) t') by exact Hr.
      apply running_install_old in Hr' as [|Hr']; auto. discriminate.
    + exists now, (fst (sys_core s)). rewrite pair_eta. split; [apply sim_refl|auto].
  - (* upgrade *)
    destruct (kept_upgrade now a (sys_core s) c (running s)) as [Hk' (st & Hs & Hm)]; auto.
    + intros t (i & r & Hr). rewrite H0 in Hr. discriminate.
    + intros x ->. exact Hn.
    + split; [exact Hk'|]. exists now, st. auto.
Qed.

Lemma kept_init now a s : sys_init now a = Done s -> all_kept s.
Proof.
  intros H. pose proof (core_init keccak _ _ _ H) as Hc.
  apply sys_init_inv in H as (st & Hst & Hcore & Ht & _).
  unfold all_kept. rewrite Hcore in *. split; [auto|split].
  - apply I_init; auto.
  - intros t (i & r & Hr). rewrite Ht in Hr. discriminate.
Qed.

Lemma kept_reach (env : Sys -> Label -> Prop) s :
  (forall s l, env s l -> nonce_kept s l) -> reach self keccak env s -> all_kept s.
Proof.
  intros He. apply (reach_inv self keccak env all_kept); [apply kept_init|].
  intros s0 l s1 Hk Hl Ht. eapply kept_trans; eauto.
Qed.

(** A step of a history *)
Lemma reach_step_micros (env : Sys -> Label -> Prop) s l :
  (forall s l, env s l -> nonce_kept s l) -> reach self keccak env s -> env s l ->
  exists now st, sim (sys_state s) st /\
    micros evt now (st, sys_log s) (sys_core (step self keccak s l)).
Proof.
  intros He Hr Hl. eapply kept_trans; [eapply kept_reach; eauto|apply He; eauto|apply step_trans].
Qed.

End Lift.
