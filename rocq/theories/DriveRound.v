(** * Progress: a round in which nothing fails finalizes a withdrawal. *)

From Verif Require Import Base BMap MultiKeyMap MultiKeyMapFacts Bytes Types Amount ArithFacts Tx CallData
  Network Hex Transactions State Audit Ranges Rlp Parser Memo Driver Sys SysSpec WtInv StateEquiv
  TxSpec WtContent Segments Tasks SysFacts CoreInv LogFacts WeakSteps WithdrawSpec WithdrawFacts StageFacts
  GuardSpec Guards GuardFacts FeeSpec FeeFacts QueueSpec QueueFacts ReadyFacts TokenSpec BalanceSpec BalanceFacts
  SolvencySpec SolvencyFacts FinalizeSpec FinalizeFacts LiveFacts DriveSpec DriveFacts.
Import Transactions.

Lemma min_in (l : list N) : l <> [] -> exists k, In k l /\ forall x, In x l -> k <= x.
Proof.
  induction l as [|a l IH]; [congruence|]. intros _. destruct l as [|b l].
  - exists a. split; [left; auto|]. intros x [<-|[]]. lia.
  - destruct IH as (k & Hk & Hm); [discriminate|]. destruct (N.le_gt_cases a k) as [H|H].
    + exists a. split; [left; auto|]. intros x [<-|Hx]; [lia|]. specialize (Hm x Hx). lia.
    + exists k. split; [right; auto|]. intros x [<-|Hx]; [lia|]. auto.
Qed.

(** The lowest nonce in flight *)
Definition least (w : WT) (k : N) : Prop := flying w k /\ forall x, flying w x -> k <= x.
Lemma least_ex w x : wt_inv w -> flying w x -> exists k, least w k.
Proof.
  intros Hi Hx. destruct (pending_nonces_flying w Hi) as [_ Hf]. destruct (min_in (pending_nonces w)) as (k & Hk & Hm).
  - intros E. apply Hf in Hx. rewrite E in Hx. destruct Hx.
  - exists k. split; [apply Hf; exact Hk|]. intros y Hy. apply Hm, Hf, Hy.
Qed.
Lemma least_same w w' k : (forall x, flying w' x <-> flying w x) -> least w k -> least w' k.
Proof. intros H [H1 H2]. split; [apply H; exact H1|]. intros x Hx. apply H2, H, Hx. Qed.

(** The hashes of the transactions of one withdrawal *)
Lemma index_same b f : forall acc, bsorted acc -> (forall x, In x f -> snd x = b) ->
  (forall h v, bget h acc = Some v -> v = b) ->
  exists m, rfold add_hash_index acc f = Done m /\ bsorted m /\ (forall h v, bget h m = Some v -> v = b) /\
    (forall h v, bget h m = Some v -> bget h acc = Some v \/ In (h, b) f) /\
    (acc <> [] \/ f <> [] -> m <> []).
Proof.
  induction f as [|[h v] f IH]; intros acc Hs Hf Ha; cbn [rfold].
  - exists acc. split; [reflexivity|]. split; [exact Hs|]. split; [exact Ha|]. split; [auto|]. intros [H|H]; auto.
  - pose proof (Hf _ (or_introl eq_refl)) as Hv. cbn in Hv. subst v.
    assert (E : add_hash_index acc (h, b) = Done (binsert h b acc)).
    { unfold add_hash_index. destruct (bget h acc) as [p|] eqn:Eg; [|reflexivity]. rewrite (Ha _ _ Eg), N.eqb_refl. reflexivity. }
    rewrite E. cbn [rbind].
    destruct (IH (binsert h b acc)) as (m & M1 & M2 & M3 & M4 & M5).
    + apply bsorted_insert; exact Hs.
    + intros x Hx. apply Hf. right. exact Hx.
    + intros h' v'. rewrite bget_insert. destruct (keqb h' h); [congruence|apply Ha].
    + exists m. split; [exact M1|]. split; [exact M2|]. split; [exact M3|]. split.
      * intros h' v' H. destruct (M4 _ _ H) as [H'|H']; [|right; right; exact H'].
        rewrite bget_insert in H'. destruct (keqb_spec h' h) as [->|Hne]; [right; left; reflexivity|left; exact H'].
      * intros _. apply M5. left. intros E'. pose proof (bget_insert_eq h b acc) as Hg. rewrite E' in Hg. discriminate.
Qed.

(** Events that finalize come from somewhere *)
Lemma fin_micros (J : State -> EventType -> Prop) now c c' : micros J now c c' ->
  forall b rc, In (b, rc) (finalizations (history (snd c'))) ->
    In (b, rc) (finalizations (history (snd c))) \/ exists s, J s (EvFinalizedTransaction b rc).
Proof.
  induction 1 as [c|c1 c2 c3 H1 _ IH]; intros b rc Hin; [auto|]. destruct (IH _ _ Hin) as [H|H]; [|auto].
  destruct H1 as [s s' log Hv|s s' log e Hj Ha|s log r w' Hr Hw]; cbn [snd] in *; auto.
  rewrite history_snoc, finalizations_snoc in H. apply in_app_or in H as [H|H]; [auto|]. right. exists s.
  destruct e; cbn in H; try (destruct H; fail). destruct H as [H|[]]. injection H as -> ->. exact Hj.
Qed.

Section Round.
Variable self : Principal.
Variable keccak : list N -> Hash.
Variable fees : FeeHistory.
Variable sign : Tx -> Signature.
Variable mine : list EventType -> N -> Hash -> Receipt.
Hypothesis Hmine : fair_receipts mine.
Notation step := (step self keccak).
Notation run := (run self keccak).
Notation R := (reach self keccak nonce_kept).
Notation helped := (helped fees sign mine self keccak).
Notation waits := (DriveFacts.waits).

Record good (g : GasFeeEstimate) (s : Sys) : Prop := {
  gd_reach : R s;
  gd_apart : native_apart (sys_state s);
  gd_deposits : native_deposits (history (sys_log s)) < U256_MAX;
  gd_positive : forall r, In r (accepted (history (sys_log s))) -> positive r;
  gd_fee : estimate_transaction_fee (min_max_priority_fee_per_gas (sys_state s)) fees = ROk g;
  gd_price : 0 < max_price g;
  gd_queue : forall r, In r (queue s) -> affordable g r = true;
  gd_nonce : next_nonce (withdrawals (sys_state s)) + N.of_nat (List.length (queue s)) + 5 <= U256_MAX
}.
Lemma good_tame g s s' : good g s -> R s' -> tame (sys_core s) (sys_core s') -> good g s'.
Proof.
  intros [G1 G2 G3 G4 G5 G6 G7 G8] Hr [T1 T2 T3 T4 T5 T6 T7 T8 T9].
  change (fst (sys_core s)) with (sys_state s) in *. change (fst (sys_core s')) with (sys_state s') in *.
  change (snd (sys_core s)) with (sys_log s) in *. change (snd (sys_core s')) with (sys_log s') in *.
  constructor; auto.
  - intros l c sy H. rewrite T3. apply (G2 l c sy). destruct H as (ts & H1 & H2). exists ts.
    unfold supported_erc20_tokens in *. rewrite T4, T5 in *. auto.
  - rewrite T2. exact G3.
  - rewrite T1. exact G4.
  - rewrite T6. exact G5.
  - unfold queue in *. lia.
Qed.

(** What a round achieves *)
Definition fair_new (h h' : list EventType) : Prop :=
  forall b rc, In (b, rc) (finalizations h') -> In (b, rc) (finalizations h) \/
    exists h0 x, In x (attempts h' b) /\ rc = mine h0 b (st_hash x).
Lemma attempts_grow log log' b x : grows log log' -> In x (attempts (history log) b) -> In x (attempts (history log') b).
Proof.
  intros (es & -> & _) H. unfold attempts, history in *. rewrite map_app, flat_map_app. apply in_or_app. auto.
Qed.
Lemma fair_trans s s' s'' : grows (sys_log s') (sys_log s'') -> fair_new (history (sys_log s)) (history (sys_log s')) ->
  fair_new (history (sys_log s')) (history (sys_log s'')) -> fair_new (history (sys_log s)) (history (sys_log s'')).
Proof.
  intros Hg H1 H2 b rc Hin. destruct (H2 _ _ Hin) as [Hin'|H]; [|auto]. destruct (H1 _ _ Hin') as [H|(h0 & x & Hx & E)]; [auto|].
  right. exists h0, x. split; [|exact E]. eapply attempts_grow; eauto.
Qed.

Definition alone (s : Sys) (id : N) : Prop :=
  forall i t r, bget i (sys_tasks s) = Some {| fl_task := t; fl_reply := r |} -> ours t -> i = id.
Record reaches (s s' : Sys) : Prop := {
  rs_tame : tame (sys_core s) (sys_core s');
  rs_fair : fair_new (history (sys_log s)) (history (sys_log s'));
  rs_grow : grows (sys_log s) (sys_log s')
}.
Lemma reaches_trans s s' s'' : reaches s s' -> reaches s' s'' -> reaches s s''.
Proof.
  intros [A1 A2 A3] [B1 B2 B3]. constructor; [eapply tame_trans; eauto|eapply fair_trans; eauto|eapply grows_trans; eauto].
Qed.
(** a withdrawal that was open is final *)
Definition one_less (s s' : Sys) : Prop :=
  exists r, In r (accepted (history (sys_log s))) /\ not_finalized (history (sys_log s)) (wr_burn_index r) /\
    In (wr_burn_index r) (map fst (finalizations (history (sys_log s')))).
Lemma one_less_back s s' s'' : tame (sys_core s) (sys_core s') -> one_less s' s'' -> one_less s s''.
Proof.
  intros [T1 _ _ _ _ _ T7 _ _] (r & H1 & H2 & H3). change (snd (sys_core s)) with (sys_log s) in *. change (snd (sys_core s')) with (sys_log s') in *.
  exists r. rewrite <- T1. split; [exact H1|]. split; [|exact H3]. intros H. apply H2. apply in_map_iff in H as (y & E & H).
  apply in_map_iff. exists y. split; [exact E|]. apply T7. exact H.
Qed.
Definition completes (s : Sys) : Prop :=
  exists ls, helped s ls /\ reaches s (run s ls) /\ one_less s (run s ls) /\ at_rest (run s ls).

Lemma reach_helped ls : forall s, R s -> helped s ls -> R (run s ls).
Proof.
  induction ls as [|l ls IH]; intros s Hr H; [exact Hr|]. destruct H as [H1 H2]. cbn [Sys.run fold_left]. apply IH; [|exact H2].
  apply reach_step; [exact Hr|]. destruct l as [| | | |[a|] now]; try exact Logic.I. destruct H1.
Qed.
Lemma helped_app a : forall s b, helped s a -> helped (run s a) b -> helped s (a ++ b).
Proof.
  induction a as [|l a IH]; intros s b Ha Hb; [exact Hb|]. destruct Ha as [H1 H2]. split; [exact H1|]. apply IH; auto.
Qed.

(** One answer and its callback *)
Lemma advance s id t r c nx : R s -> ours t -> waits s id t -> alone s id -> reply_fits self t r = true ->
  resume keccak (sys_clock s) t r (sys_core s) = Done (c, nx) -> helpful fees sign mine s (LAnswer id r) ->
  exists ls, helped s ls /\ R (run s ls) /\ sys_core (run s ls) = c /\ tame (sys_core s) c /\ grows (sys_log s) (snd c) /\
    micros (emits keccak t r) (sys_clock s) (sys_core s) c /\
    (forall i, bget i (sys_tasks (run s ls)) = if keqb i id then finished nx else bget i (sys_tasks s)).
Proof.
  intros Hr Ho Hw Ha Hf H Hh. exists [LAnswer id r; LDeliver id false (sys_clock s)].
  assert (Hh2 : helped s [LAnswer id r; LDeliver id false (sys_clock s)]) by (split; [exact Hh|split; exact Logic.I]).
  split; [exact Hh2|]. split; [apply reach_helped; auto|].
  set (s1 := step s (LAnswer id r)). assert (E1 : s1 = with_tasks (binsert id {| fl_task := t; fl_reply := Some r |} (sys_tasks s)) s)
    by (apply answer_step; auto; apply ours_no_call; exact Ho).
  assert (C1 : sys_core s1 = sys_core s) by (rewrite E1; reflexivity).
  assert (K1 : sys_clock s1 = sys_clock s) by (rewrite E1; reflexivity).
  assert (R1 : R s1) by (apply reach_step; [exact Hr|exact Logic.I]).
  assert (G1 : bget id (sys_tasks s1) = Some {| fl_task := t; fl_reply := Some r |}) by (rewrite E1; cbn; apply bget_insert_eq).
  change (run s [LAnswer id r; LDeliver id false (sys_clock s)]) with (step s1 (LDeliver id false (sys_clock s))).
  pose proof (tame_deliver self keccak s1 id t r (sys_clock s) R1 Ho ltac:(lia) G1) as T.
  pose proof (step_grows keccak self s1 (LDeliver id false (sys_clock s))) as Gr.
  destruct (deliver_step self keccak s1 id t r (sys_clock s) ltac:(lia) G1) as (nx' & H' & _ & Ht).
  rewrite C1 in H'. destruct H' as [H'|(_ & (w & H') & _)]; [|congruence]. rewrite H in H'. pose proof (f_equal (fun x => match x with Done (y, _) => Some y | _ => None end) H') as Ec.
  pose proof (f_equal (fun x => match x with Done (_, y) => Some y | _ => None end) H') as En.
  cbv beta iota in Ec, En. injection En as <-. clear H'.
  unfold sys_log in Gr. generalize dependent (sys_core (step s1 (LDeliver id false (sys_clock s)))). intros cc T Gr Ec. injection Ec as <-.
  rewrite C1 in T, Gr. split; [reflexivity|]. split; [exact T|]. split; [exact Gr|].
  split; [eapply resume_micros; [exact (core_wt _ _ (core_reach _ _ _ _ nk Hr))|exact H]|].
  intros i. rewrite Ht. match goal with |- context [keqb i id] => destruct (keqb_spec i id) as [Hj|Hj]; [reflexivity|] end.
  rewrite E1. cbn. apply bget_insert_ne. exact Hj.
Qed.
Lemma advance_alone s s' id nx : alone s id ->
  (forall i, bget i (sys_tasks s') = if keqb i id then finished nx else bget i (sys_tasks s)) -> alone s' id.
Proof.
  intros Ha Ht i t r Hg Ho. rewrite Ht in Hg. destruct (keqb_spec i id) as [->|Hne]; [reflexivity|]. eapply Ha; eauto.
Qed.
Lemma advance_rest s s' id o : alone s id ->
  (forall i, bget i (sys_tasks s') = if keqb i id then finished (Finish o) else bget i (sys_tasks s)) -> at_rest s'.
Proof.
  intros Ha Ht i. split; intros (t & r & Hg & Hd); rewrite Ht in Hg; destruct (keqb_spec i id) as [->|Hne]; try discriminate;
    apply Hne; eapply Ha; eauto; [left|right]; exact Hd.
Qed.
Lemma advance_waits s s' id t : (forall i, bget i (sys_tasks s') = if keqb i id then finished (Await t) else bget i (sys_tasks s)) -> waits s' id t.
Proof. intros Ht. unfold DriveFacts.waits. rewrite Ht, (proj2 (keqb_eq id id) eq_refl). reflexivity. Qed.
(** No finalization among the events of these segments *)
Lemma fair_plain s t r now c : micros (emits keccak t r) now (sys_core s) c ->
  (forall h, t <> TRetrieveReceipts h) -> fair_new (history (sys_log s)) (history (snd c)).
Proof.
  intros H Ht b rc Hin. left. destruct (fin_micros _ _ _ _ H b rc Hin) as [H'|(s0 & H')]; [exact H'|]. exfalso.
  apply emits_inv in H'. destruct H' as (h & l & -> & _). eapply Ht; reflexivity.
Qed.

(** ** The receipts *)
Lemma missing_pairs {A} (l : list (A * N)) b rc : ~ In (b, ReceiptOk rc) (combine (map snd l) (map (fun _ => ReceiptMissing) l)).
Proof. induction l as [|x l IH]; cbn; [auto|]. intros [E|H]; [discriminate|auto]. Qed.
Lemma missing_helpful {A} (l : list A) x a : In (x, a) (combine l (map (fun _ => ReceiptMissing) l)) -> a = ReceiptMissing.
Proof. induction l as [|y l IH]; cbn; [intros []|]. intros [E|H]; [congruence|auto]. Qed.

Lemma stage_receipts g s id hashes b : good g s -> waits s id (TRetrieveReceipts hashes) -> alone s id -> hashes <> [] ->
  (forall h v, In (h, v) hashes -> v = b /\ exists x, In x (attempts (history (sys_log s)) b) /\ st_hash x = h) ->
  (exists r, In r (accepted (history (sys_log s))) /\ wr_burn_index r = b /\ not_finalized (history (sys_log s)) b) ->
  completes s.
Proof.
  intros [G1 G2 G3 G4 _ _ _ _] Hw Ha Hne Hh (q & Q1 & Q2 & Q3). destruct hashes as [|[h0 v0] hs]; [congruence|]. clear Hne.
  destruct (Hh h0 v0 (or_introl eq_refl)) as (-> & x & X1 & X2).
  set (rc := mine (history (sys_log s)) b h0). set (rs := ReceiptOk rc :: map (fun _ => ReceiptMissing) hs).
  assert (Hans : forall b' rc', answered ((h0, b) :: hs) rs b' rc' <-> b' = b /\ rc' = rc).
  { intros b' rc'. unfold answered, rs. cbn [map combine snd In]. split.
    - intros [E|H]; [injection E as -> ->; auto|]. exfalso. eapply missing_pairs. exact H.
    - intros [-> ->]. left. reflexivity. }
  assert (Hfair : fair (history (sys_log s)) ((h0, b) :: hs) rs).
  { split.
    - intros b' rc' H. apply Hans in H as [-> ->]. unfold rc. rewrite <- X2. exact (proj2 (Hmine _ _ _ X1)).
    - intros b' H. exists rc. apply Hans. split; [|reflexivity]. apply in_map_iff in H as ([h v] & <- & H). apply (Hh h v H). }
  assert (Hcomp : complete ((h0, b) :: hs) rs).
  { split.
    - intros [H|H]; [discriminate|]. apply in_map_iff in H as (? & H & _). discriminate.
    - intros i j b' r1 r2 H1 H2. unfold rs in *. cbn [map combine snd] in *.
      destruct i as [|i]; cbn [nth_error] in H1; [|exfalso; apply nth_error_In in H1; eapply missing_pairs; exact H1].
      destruct j as [|j]; cbn [nth_error] in H2; [reflexivity|exfalso; apply nth_error_In in H2; eapply missing_pairs; exact H2]. }
  destruct (batch_reach self keccak nonce_kept nk (sys_clock s) s id ((h0, b) :: hs) None rs G1 G2 G3 G4 Hw Hfair) as (c & Hc & Hfin).
  destruct (advance s id (TRetrieveReceipts ((h0, b) :: hs)) (ReReceipts rs) c (Finish OutTimer) G1) as (ls & L1 & L2 & L3 & L4 & L5 & L6 & L7); [|exact Hw|exact Ha| |exact Hc| |].
  - left. cbn. eauto 10.
  - cbn [reply_fits]. apply PeanoNat.Nat.eqb_eq. unfold rs. cbn [List.length]. rewrite map_length. reflexivity.
  - cbn [helpful]. exists ((h0, b) :: hs), None. split; [exact Hw|]. unfold rs. cbn [combine]. intros y a [E|H].
    + injection E as <- <-. right. reflexivity.
    + left. eapply missing_helpful. exact H.
  - assert (Hlog : sys_log (run s ls) = snd c) by (unfold sys_log; rewrite L3; reflexivity).
    exists ls. split; [exact L1|]. split; [|split].
    + constructor; [rewrite L3; exact L4| |rewrite Hlog; exact L5].
      intros b' rc' H. rewrite Hlog in *. destruct (fin_micros _ _ _ _ L6 _ _ H) as [H'|(s0 & H')]; [left; exact H'|]. right.
      apply emits_inv in H' as (hh & l & E1 & E2 & E3 & E4). injection E1 as <-. injection E2 as <-.
      exists (history (sys_log s)), x. rewrite X2.
      assert (b' = b). { unfold bvals in E3. apply in_map_iff in E3 as ([h v] & <- & E3). apply (Hh h v E3). } subst b'.
      split; [exact (attempts_grow _ _ _ _ L5 X1)|]. destruct E4 as [E4|E4]; [injection E4 as <-; reflexivity|].
      apply in_map_iff in E4 as (? & E4 & _). discriminate.
    + exists q. rewrite Q2. split; [exact Q1|]. split; [exact Q3|]. rewrite Hlog. apply in_map_iff. exists (b, rc). split; [reflexivity|].
      apply Hfin; [exact Hcomp|]. apply Hans. auto.
    + eapply advance_rest; [exact Ha|exact L7].
Qed.

(** A segment that leads to another one *)
Lemma through g s id t r c t' : good g s -> ours t -> (forall h, t <> TRetrieveReceipts h) -> waits s id t -> alone s id ->
  reply_fits self t r = true -> resume keccak (sys_clock s) t r (sys_core s) = Done (c, Await t') ->
  helpful fees sign mine s (LAnswer id r) ->
  (forall s', good g s' -> sys_core s' = c -> waits s' id t' -> alone s' id -> completes s') -> completes s.
Proof.
  intros Hg Ho Ht Hw Ha Hf H Hh Hnext.
  destruct (advance s id t r c _ (gd_reach _ _ Hg) Ho Hw Ha Hf H Hh) as (ls & L1 & L2 & L3 & L4 & L5 & L6 & L7).
  assert (T : tame (sys_core s) (sys_core (run s ls))) by (rewrite L3; exact L4).
  assert (Hlog : sys_log (run s ls) = snd c) by (unfold sys_log; rewrite L3; reflexivity).
  destruct (Hnext (run s ls)) as (ls2 & B1 & B2 & B3 & B4).
  - eapply good_tame; eauto.
  - exact L3.
  - eapply advance_waits; exact L7.
  - eapply advance_alone; eauto.
  - exists (ls ++ ls2). split; [apply helped_app; auto|]. rewrite run_app. split; [|split; [|exact B4]].
    + eapply reaches_trans; [|exact B2]. constructor; [exact T| |rewrite Hlog; exact L5].
      rewrite Hlog. eapply fair_plain; eauto.
    + eapply one_less_back; [exact T|exact B3].
Qed.

(** ** Which transactions are mined *)
Lemma stage_count g s id k : good g s -> waits s id TRetrieveFinalizedCount -> alone s id ->
  least (withdrawals (sys_state s)) k -> bget k (by_key (sent (withdrawals (sys_state s)))) <> None -> completes s.
Proof.
  intros Hg Hw Ha [Hk Hleast] Hs. pose proof (gd_reach _ _ Hg) as Hr. destruct (reach_wlog self keccak nonce_kept nk s Hr) as (Hc & Hp & _).
  set (w := withdrawals (sys_state s)) in *. pose proof (core_wt _ _ Hc) as Hi. change (withdrawals (fst (sys_core s))) with w in Hi.
  destruct (mkm_iter_done (sent w) (i_sent _ Hi)) as (rows & Hrows & Hkeys & Hrow).
  destruct (bget k (by_key (sent w))) as [b|] eqn:Eb; [|congruence].
  destruct (dom_key_row _ _ (i_sent _ Hi) ltac:(unfold dom; rewrite Eb; discriminate)) as (b' & l & Hkb). pose proof (proj1 Hkb) as Eb'.
  assert (b' = b) by congruence. subst b'.
  set (f := flat_map (fun x => map (fun t => (st_hash (rs_tx t), snd (fst x))) (snd x)) (filter (fun x => fst (fst x) <? k + 1) rows)).
  assert (Hf : forall h v, In (h, v) f <-> v = b /\ exists t, In t l /\ st_hash (rs_tx t) = h).
  { intros h v. unfold f. rewrite in_flat_map. split.
    - intros ([[k' b'] l'] & H & Hx). apply filter_In in H as [H Hlt]. cbn [fst] in Hlt. apply N.ltb_lt in Hlt.
      apply Hrow in H. cbn [fst snd] in Hx. apply in_map_iff in Hx as (t & E & Ht). injection E as E1 E2.
      assert (k <= k') by (apply Hleast; right; rewrite (proj1 H); discriminate). assert (k' = k) by lia. subst k'.
      assert (b' = b) by (destruct H; congruence). subst b'. assert (l' = l) by (destruct H, Hkb; congruence). subst l'.
      split; [auto|]. exists t. auto.
    - intros (-> & t & Ht & <-). exists (k, b, l). split.
      + apply filter_In. split; [apply Hrow; exact Hkb|]. cbn. apply N.ltb_lt. lia.
      + cbn. apply in_map_iff. exists t. auto. }
  destruct (index_same b f [] bsorted_nil) as (m & M1 & M2 & M3 & M4 & M5).
  { intros [h v] H. apply Hf in H as [-> _]. reflexivity. }
  { intros h v H. rewrite bget_nil in H. discriminate. }
  pose proof (sent_not_final _ _ Hi Hp _ _ _ Hkb) as Hnf.
  assert (Hl : exists t, In t l /\ True).
  { pose proof (p_sent _ _ Hp b Hnf) as Hps. rewrite (proj2 Hkb) in Hps. cbn [option_map] in Hps.
    destruct l as [|t l]; [|exists t; split; [left|]; auto]. exfalso. destruct (attempts (history (sys_log s)) b); discriminate. }
  assert (Hm : m <> []).
  { apply M5. right. destruct Hl as (t & Ht & _). intros E. assert (In (st_hash (rs_tx t), b) f) by (apply Hf; eauto). rewrite E in H. destruct H. }
  assert (Hres : resume keccak (sys_clock s) TRetrieveFinalizedCount (ReCount (Some (k + 1))) (sys_core s) =
    Done (sys_core s, Await (TRetrieveReceipts m))).
  { cbn [resume]. unfold retrieve_finalized_count_reply, sent_transactions_to_finalize. change (withdrawals (fst (sys_core s))) with w.
    rewrite Hrows. cbn [rbind]. fold f. rewrite M1. cbn [rbind]. destruct m; [congruence|reflexivity]. }
  apply (through g s id TRetrieveFinalizedCount (ReCount (Some (k + 1))) (sys_core s) (TRetrieveReceipts m)); auto.
  { left. cbn. auto 10. }
  { discriminate. }
  { cbn [helpful]. intros k' Hlt Hfl. pose proof (Hleast _ Hfl). assert (k' = k) by lia. subst k'. fold w. congruence. }
  intros s' Hg' Hcore Hw' Ha'.
  assert (Hlog : sys_log s' = sys_log s) by (unfold sys_log; rewrite Hcore; reflexivity).
  apply (stage_receipts g s' id m b); auto.
  - intros h v H. apply bget_iff_In in H; [|exact M2]. split; [eapply M3; exact H|]. destruct (M4 _ _ H) as [H'|H']; [rewrite bget_nil in H'; discriminate|].
    apply Hf in H' as (_ & t & Ht & E). exists (rs_tx t). split; [|exact E]. rewrite Hlog.
    pose proof (p_sent _ _ Hp b Hnf) as Hps. rewrite (proj2 Hkb) in Hps. cbn [option_map] in Hps.
    destruct (attempts (history (sys_log s)) b) as [|a0 a]; cbn in Hps; [discriminate|]. injection Hps as Hps. rewrite <- Hps. apply in_map. exact Ht.
  - destruct (i_sent_tx _ Hi _ _ _ Hkb) as (_ & req & Hreq & _). apply (p_processed _ _ Hp) in Hreq as (R1 & R2 & _).
    exists req. rewrite Hlog. auto.
Qed.

(** ** Sending *)
Lemma finalize_goes c k : bget k (by_key (sent (withdrawals (fst c)))) <> None -> finalize_start c = Done (c, Await TRetrieveFinalizedCount).
Proof.
  intros H. unfold finalize_start, mkm_is_empty. destruct (by_key (sent (withdrawals (fst c)))); [|reflexivity]. rewrite bget_nil in H. congruence.
Qed.
Definition after_sign (t : Task) : Prop := t = TRetrieveFinalizedCount \/ exists l, t = TRetrieveSend l.
Lemma send_goes n c k : wt_inv (withdrawals (fst c)) -> bget k (by_key (sent (withdrawals (fst c)))) <> None ->
  exists t', send_start n c = Done (c, Await t') /\ after_sign t'.
Proof.
  intros Hi H. destruct (send_start_total n c Hi) as (c' & nx & Hs). unfold send_start in *. destruct n as [n|].
  - destruct (transactions_to_send_batch _ _ _) as [[|x l]|] eqn:E; cbn [rbind] in *; [|eexists; split; [reflexivity|right; eauto]|discriminate].
    rewrite (finalize_goes c k H). eexists; split; [reflexivity|left; reflexivity].
  - rewrite (finalize_goes c k H). eexists; split; [reflexivity|left; reflexivity].
Qed.
Lemma stage_send g s id t k : good g s -> after_sign t -> waits s id t -> alone s id ->
  least (withdrawals (sys_state s)) k -> bget k (by_key (sent (withdrawals (sys_state s)))) <> None -> completes s.
Proof.
  intros Hg [->|(l & ->)] Hw Ha Hk Hs; [eapply stage_count; eauto|].
  apply (through g s id (TRetrieveSend l) ReSent (sys_core s) TRetrieveFinalizedCount); auto.
  - left. cbn. eauto 10.
  - discriminate.
  - cbn [resume]. apply (finalize_goes (sys_core s) k Hs).
  - exact Logic.I.
  - intros s' Hg' Hc Hw' Ha'. assert (E : sys_state s' = sys_state s) by (unfold sys_state; rewrite Hc; reflexivity).
    apply (stage_count g s' id k); auto; rewrite E; auto.
Qed.

(** ** Signing *)
Lemma signed_flying st w w' : wt_inv w -> record_signed_transaction st w = Done w' ->
  (forall x, flying w' x <-> flying w x) /\ (forall x, bget x (by_key (sent w)) <> None -> bget x (by_key (sent w')) <> None) /\
  bget (tx_nonce (st_tx st)) (by_key (sent w')) <> None.
Proof.
  intros Hi H. destruct (record_signed_spec _ _ _ Hi H) as (b & c & Hrow & _ & [(l & Hl & ->)|(Hk & Hb & ->)]); cbn [set_sent set_created sent created by_key].
  - set (k := tx_nonce (st_tx st)) in *. split; [|split].
    + intros x. unfold flying. cbn [set_sent set_created sent created by_key]. destruct (key_dec x k) as [->|Hne].
      * rewrite (proj1 Hl), (proj1 Hrow). split; intros _; right; discriminate.
      * rewrite bget_remove_ne by auto. tauto.
    + auto.
    + rewrite (proj1 Hl). discriminate.
  - set (k := tx_nonce (st_tx st)) in *. split; [|split].
    + intros x. unfold flying. cbn [set_sent set_created sent created by_key]. destruct (key_dec x k) as [->|Hne].
      * rewrite bget_insert_eq, (proj1 Hrow). split; intros _; [left|right]; discriminate.
      * rewrite bget_remove_ne, bget_insert_ne by auto. tauto.
    + intros x Hx. rewrite bget_insert. destruct (keqb x k); [discriminate|exact Hx].
    + rewrite bget_insert_eq. discriminate.
Qed.
Lemma signed_all now batch : forall c c', wt_inv (withdrawals (fst c)) ->
  process_events now (signed_events keccak batch (map (fun x => Some (sign (snd x))) batch)) c = Done c' ->
  wt_inv (withdrawals (fst c')) /\
  (forall x, flying (withdrawals (fst c')) x <-> flying (withdrawals (fst c)) x) /\
  (forall x, bget x (by_key (sent (withdrawals (fst c)))) <> None -> bget x (by_key (sent (withdrawals (fst c')))) <> None) /\
  (forall b t, In (b, t) batch -> bget (tx_nonce t) (by_key (sent (withdrawals (fst c')))) <> None).
Proof.
  induction batch as [|[b t] batch IH]; intros c c' Hi H.
  - cbn in H. injection H as <-. split; [exact Hi|]. split; [tauto|]. split; [auto|intros ? ? []].
  - cbn [map signed_events snd] in H. unfold process_events in H. cbn [rfold] in H. apply rbind_done in H as (c1 & H1 & H).
    apply process_event_inv in H1 as (s1 & H1 & ->). apply apply_wt in H1. cbn [wt_event] in H1.
    destruct (signed_flying _ _ _ Hi H1) as (F1 & F2 & F3). pose proof (inv_record_signed _ _ _ Hi H1) as Hi1.
    destruct (IH (s1, _) _ Hi1 H) as (J0 & J1 & J2 & J3). split; [exact J0|]. cbn [fst] in *. split; [|split].
    + intros x. rewrite J1. apply F1.
    + intros x Hx. apply J2, F2, Hx.
    + intros b' t' [E|Hin]; [|eapply J3; exact Hin]. injection E as <- <-. apply J2. exact F3.
Qed.

Lemma sign_first w batch k : wt_inv w -> transactions_to_sign_batch SIGN_BATCH w = Done batch -> least w k ->
  bget k (by_key (sent w)) = None -> exists b t, In (b, t) batch /\ tx_nonce t = k.
Proof.
  intros Hi H [Hk Hl] Hs. unfold transactions_to_sign_batch in H. apply rbind_done in H as (rows & Hrows & H). injection H as <-.
  destruct (mkm_iter_done (created w) (i_created _ Hi)) as (rows' & E & Hkeys & Hrow). rewrite Hrows in E. injection E as <-.
  destruct Hk as [Hk|Hk]; [|congruence]. destruct rows as [|[[k0 b0] t0] rows].
  - exfalso. destruct (by_key (created w)); [apply Hk, bget_nil|discriminate].
  - assert (Hr0 : row_created w k0 b0 t0) by (apply Hrow; left; reflexivity).
    assert (k0 = k).
    { apply N.le_antisymm; [|apply Hl; left; rewrite (proj1 Hr0); discriminate].
      destruct (bget k (by_key (created w))) as [b|] eqn:E; [|congruence].
      apply bget_In in E. rewrite <- Hkeys in E. cbn [map fst] in E. destruct E as [E|E]; [injection E as -> _; lia|].
      assert (So : bsorted (by_key (created w))) by (apply (wf_sorted_key _ (i_created _ Hi))).
      rewrite <- Hkeys in So. cbn [map fst] in So. apply bsorted_cons_inv in So as [_ So]. rewrite Forall_forall in So.
      specialize (So _ E). cbn [fst] in So. unfold klt in So. apply N.lt_le_incl. exact So. }
    subst k0. exists b0, (rs_tx t0). split; [left; reflexivity|]. apply (i_created_tx _ Hi _ _ _ Hr0).
Qed.

Lemma stage_sign g s id n batch k : good g s -> waits s id (TRetrieveSign n batch) -> alone s id ->
  least (withdrawals (sys_state s)) k -> transactions_to_sign_batch SIGN_BATCH (withdrawals (sys_state s)) = Done batch ->
  completes s.
Proof.
  intros Hg Hw Ha Hk Hb. pose proof (gd_reach _ _ Hg) as Hr. pose proof (core_wt _ _ (core_reach _ _ _ _ nk Hr)) as Hi.
  destruct (ready_reach self keccak nonce_kept s nk Hr _ _ _ Hw) as [Hn Hrow].
  destruct (signed_total keccak (sys_clock s) batch (map (fun x => Some (sign (snd x))) batch) (sys_core s) Hi Hn Hrow) as (c & Hc & Hi').
  destruct (signed_all _ _ _ _ Hi Hc) as (_ & F1 & F2 & F3).
  change (withdrawals (fst (sys_core s))) with (withdrawals (sys_state s)) in *.
  assert (Hs : bget k (by_key (sent (withdrawals (fst c)))) <> None).
  { destruct (bget k (by_key (sent (withdrawals (sys_state s))))) as [b|] eqn:E; [apply F2; rewrite E; discriminate|].
    destruct (sign_first _ _ _ Hi Hb Hk E) as (b & t & Hin & <-). eapply F3. exact Hin. }
  destruct (send_goes n c k Hi' Hs) as (t' & Ht & Hafter).
  apply (through g s id (TRetrieveSign n batch) (ReSigs (map (fun x => Some (sign (snd x))) batch)) c t'); auto.
  - left. cbn. eauto 10.
  - discriminate.
  - cbn [reply_fits]. rewrite map_length. apply PeanoNat.Nat.eqb_refl.
  - cbn [resume]. unfold retrieve_sign_reply. rewrite Hc. exact Ht.
  - cbn [helpful]. exists n, batch, None. split; [exact Hw|reflexivity].
  - intros s' Hg' Hcore Hw' Ha'. unfold sys_state in *.
    apply (stage_send g s' id t' k); auto; unfold sys_state; rewrite Hcore; [|exact Hs].
    eapply least_same; [exact F1|exact Hk].
Qed.

(** ** Making transactions *)
Definition has_open (s : Sys) : Prop :=
  exists r, In r (accepted (history (sys_log s))) /\ not_finalized (history (sys_log s)) (wr_burn_index r).
Lemma open_somewhere s : R s -> has_open s ->
  queue s <> [] \/ exists x, flying (withdrawals (sys_state s)) x.
Proof.
  intros Hr (r & H1 & H2). destruct (reach_wlog self keccak nonce_kept nk s Hr) as (Hc & Hp & _). pose proof (core_wt _ _ Hc) as Hi.
  change (withdrawals (fst (sys_core s))) with (withdrawals (sys_state s)) in Hi.
  destruct (in_dec N.eq_dec (wr_burn_index r) (map fst (creations (history (sys_log s))))) as [Hin|Hin].
  - right. assert (Hb : bget (wr_burn_index r) (processed (withdrawals (sys_state s))) = Some r) by (apply (p_processed _ _ Hp); auto).
    destruct (proj1 (i_proc_dom _ Hi (wr_burn_index r))) as [H|[H|H]]; [unfold dom; rewrite Hb; discriminate| | |].
    + destruct (dom_alt_row _ _ (i_created _ Hi) H) as (k & v & Hrow). exists k. left. rewrite (proj1 Hrow). discriminate.
    + destruct (dom_alt_row _ _ (i_sent _ Hi) H) as (k & v & Hrow). exists k. right. rewrite (proj1 Hrow). discriminate.
    + exfalso. apply H2. apply dom_ex in H as (f & Hf). apply (p_fin _ _ Hp) in Hf as [Hf _].
      apply in_map_iff. exists (wr_burn_index r, ft_receipt f). auto.
  - left. intros E. assert (H : In r (queue s)) by (apply (p_pending _ _ Hp); auto). rewrite E in H. destruct H.
Qed.
Lemma sign_same n c c' nx : sign_start n c = Done (c', nx) -> withdrawals (fst c') = withdrawals (fst c).
Proof.
  assert (F : forall c0 c1 nx0, finalize_start c0 = Done (c1, nx0) -> withdrawals (fst c1) = withdrawals (fst c0)).
  { intros c0 c1 nx0 H. unfold finalize_start in H. destruct (mkm_is_empty _); [unfold end_timer in H|]; injection H as <- _; reflexivity. }
  intros H. unfold sign_start in H. apply rbind_done in H as (batch & _ & H). destruct batch as [|x batch]; [|injection H as <- _; reflexivity].
  unfold send_start in H. destruct n as [n|]; [|eapply F; exact H]. apply rbind_done in H as (txs & _ & H).
  destruct txs; [eapply F; exact H|injection H as <- _; reflexivity].
Qed.

Lemma stage_create g s id : good g s -> waits s id (TRetrieveCount g) -> alone s id -> has_open s -> completes s.
Proof.
  intros Hg Hw Ha Ho. pose proof (gd_reach _ _ Hg) as Hr. pose proof (core_reach _ _ _ _ nk Hr) as Hc. pose proof (core_wt _ _ Hc) as Hi.
  destruct (tipped_reach keccak self nonce_kept s nk Hr) as [_ Ht].
  destruct (create_total self keccak nonce_kept s id g None (Some 0) (sys_clock s) nk Hr Hw (gd_price _ _ Hg)) as (c & nx & Hres).
  { pose proof (gd_nonce _ _ Hg). lia. }
  assert (Hours : ours (TRetrieveCount g)) by (left; cbn; eauto 10).
  pose proof (resume_micros keccak _ _ _ _ _ _ Hi Hres) as Hm.
  destruct (tame_micros keccak _ _ _ _ (fun s e He => conj (good_emits keccak (TRetrieveCount g) (ReCount (Some 0)) s e He) (ours_quiet keccak _ _ s e Hours He)) Hm Hc) as (T & Hc').
  pose proof (core_wt _ _ Hc') as Hi'.
  cbn [resume] in Hres. destruct (count_served _ _ _ _ _ _ Hi Ht Hres) as [(fl & batch & rest & cs & S1 & S2 & S3 & S4 & S5 & S6 & S7 & S8 & S9)].
  assert (Hfly : exists x, flying (withdrawals (fst c)) x).
  { destruct fl as [|x fl]; [|exists x; apply S9; left; apply S1; left; reflexivity].
    destruct (open_somewhere s Hr Ho) as [Hq|(x & Hx)]; [|exists x; apply S9; left; exact Hx].
    unfold queue in Hq. change (withdrawals (fst (sys_core s))) with (withdrawals (sys_state s)) in *.
    destruct batch as [|r batch].
    - exfalso. cbn [List.length] in S3. destruct (pending (withdrawals (sys_state s))); [congruence|]. cbn [List.length] in S3. lia.
    - assert (Haf : affordable g r = true) by (apply (gd_queue _ _ Hg); unfold queue; rewrite S2; left; reflexivity).
      cbn [filter] in S7. rewrite Haf in S7. destruct cs as [|y cs]; [discriminate|]. exists (tx_nonce (snd y)). apply S9. right. left. reflexivity. }
  destruct Hfly as (x & Hx). destruct (least_ex _ x Hi' Hx) as (k & Hk).
  assert (Hgo : exists t', nx = Await t' /\ ((after_sign t' /\ bget k (by_key (sent (withdrawals (fst c)))) <> None) \/
    exists n batch', t' = TRetrieveSign n batch' /\ transactions_to_sign_batch SIGN_BATCH (withdrawals (fst c)) = Done batch')).
  { pose proof Hres as H. unfold retrieve_count_reply in H. apply rbind_done in H as (c1 & _ & H). apply rbind_done in H as (c2 & _ & H).
    pose proof (sign_same _ _ _ _ H) as E. unfold sign_start in H. apply rbind_done in H as (batch' & Hb & H). rewrite <- E in Hb.
    destruct batch' as [|y batch'].
    - assert (Hs : bget k (by_key (sent (withdrawals (fst c)))) <> None).
      { intros E0. destruct (sign_first _ _ _ Hi' Hb Hk E0) as (? & ? & [] & _). }
      rewrite E in Hi', Hs. destruct (send_goes (Some 0) c2 k Hi' Hs) as (t' & Hsend & Haf). rewrite Hsend in H. injection H as <- <-.
      exists t'. auto.
    - injection H as <- <-. eexists. split; [reflexivity|]. right. eauto. }
  destruct Hgo as (t' & -> & Hgo).
  apply (through g s id (TRetrieveCount g) (ReCount (Some 0)) c t'); auto.
  - discriminate.
  - cbn [helpful]. intros k' Hk'. lia.
  - intros s' Hg' Hcore Hw' Ha'. destruct Hgo as [[Haf Hs]|(n & batch' & -> & Hb)].
    + apply (stage_send g s' id t' k); auto; unfold sys_state; rewrite Hcore; auto.
    + apply (stage_sign g s' id n batch' k); auto; unfold sys_state; rewrite Hcore; auto.
Qed.

(** ** The fee *)
Lemma stage_fee g s id : good g s -> waits s id TRetrieveFee -> alone s id -> has_open s -> completes s.
Proof.
  intros Hg Hw Ha Ho.
  set (c := (timer_guard_drop TaskRefreshGasFeeEstimate (set_last_transaction_price_estimate (Some (sys_clock s, g)) (sys_state s)), sys_log s)).
  apply (through g s id TRetrieveFee (ReFees (Some fees)) c (TRetrieveCount g)); auto.
  - left. cbn. auto.
  - discriminate.
  - cbn [resume]. unfold retrieve_fee_reply, refresh_reply. change (fst (sys_core s)) with (sys_state s). rewrite (gd_fee _ _ Hg). reflexivity.
  - reflexivity.
  - intros s' Hg' Hcore Hw' Ha'. apply (stage_create g s' id); auto. unfold has_open, sys_log in *. rewrite Hcore. exact Ho.
Qed.

(** ** The start of a round *)
Definition stale (s : Sys) : N :=
  match last_transaction_price_estimate (sys_state s) with
  | Some (ts, _) => N.max (sys_clock s) (u64_saturating_add ts MAX_AGE_NS)
  | None => sys_clock s
  end.
Lemma pending_yes s : R s -> has_open s -> has_pending_requests (withdrawals (sys_state s)) = true.
Proof.
  intros Hr Ho. unfold has_pending_requests, mkm_is_empty. destruct (open_somewhere s Hr Ho) as [H|(x & [H|H])].
  - unfold queue in H. destruct (pending (withdrawals (sys_state s))); [congruence|reflexivity].
  - destruct (by_key (created (withdrawals (sys_state s)))); [rewrite bget_nil in H; congruence|]. cbn. rewrite Bool.orb_true_r. reflexivity.
  - destruct (by_key (sent (withdrawals (sys_state s)))); [rewrite bget_nil in H; congruence|]. cbn. rewrite Bool.orb_true_r. reflexivity.
Qed.
Lemma stage_start g s : good g s -> at_rest s -> has_open s -> completes s.
Proof.
  intros Hg Hrest Ho. pose proof (gd_reach _ _ Hg) as Hr.
  set (now := stale s). assert (Hnow : sys_clock s <= now) by (unfold now, stale; destruct (last_transaction_price_estimate _) as [[ts ?]|]; lia).
  pose proof (timer_guard_free self keccak nonce_kept s Hr Retrieving (fun i => proj1 (Hrest i))) as G1.
  pose proof (timer_guard_free self keccak nonce_kept s Hr Refreshing (fun i => proj2 (Hrest i))) as G2.
  cbn [guard_of] in G1, G2. set (s1 := set_active_tasks (binsert TaskRetrieveEth tt (active_tasks (sys_state s))) (sys_state s)) in *.
  assert (G3 : exists s2, timer_guard_new TaskRefreshGasFeeEstimate s1 = Some s2).
  { unfold timer_guard_new in *. assert (E : bmem TaskRefreshGasFeeEstimate (active_tasks s1) = bmem TaskRefreshGasFeeEstimate (active_tasks (sys_state s))).
    { unfold s1. cbn [set_active_tasks active_tasks]. unfold bmem. rewrite bget_insert_ne by discriminate. reflexivity. }
    rewrite E. destruct (bmem TaskRefreshGasFeeEstimate (active_tasks (sys_state s))); [discriminate|]. eauto. }
  destruct G3 as (s2 & G3).
  assert (Hstart : timer_start now TimerRetrieve (sys_core s) = Done ((s2, sys_log s), Await TRetrieveFee)).
  { cbn [timer_start]. unfold retrieve_start. change (fst (sys_core s)) with (sys_state s). rewrite G1.
    change (withdrawals s1) with (withdrawals (sys_state s)). rewrite (pending_yes s Hr Ho). cbn [negb].
    unfold refresh_start. change (last_transaction_price_estimate s1) with (last_transaction_price_estimate (sys_state s)). rewrite G3.
    unfold now, stale. destruct (last_transaction_price_estimate (sys_state s)) as [[ts g0]|]; [|reflexivity].
    rewrite (proj2 (N.ltb_ge _ _)) by lia. reflexivity. }
  set (s' := step s (LTimer TimerRetrieve now)).
  assert (E' : s' = bump_next (install (sys_next s) (Await TRetrieveFee) (with_core (s2, sys_log s) now s))).
  { unfold s'. cbn [Sys.step]. rewrite (proj2 (N.ltb_ge _ _)) by lia. unfold start_task. rewrite Hstart. reflexivity. }
  assert (Hr' : R s') by (apply reach_step; [exact Hr|exact Logic.I]).
  assert (Hcore : sys_core s' = (s2, sys_log s)) by (rewrite E'; reflexivity).
  assert (Htask : sys_tasks s' = binsert (sys_next s) {| fl_task := TRetrieveFee; fl_reply := None |} (sys_tasks s)) by (rewrite E'; reflexivity).
  assert (T : tame (sys_core s) (sys_core s')).
  { rewrite Hcore. destruct (timer_micros _ _ _ _ _ Hstart) as [Hv _]. destruct (sys_core s) as [st log] eqn:Es.
    unfold sys_log. rewrite Es. apply tame_vol. exact Hv. }
  assert (Hlog : sys_log s' = sys_log s) by (unfold sys_log at 1; rewrite Hcore; reflexivity).
  destruct (stage_fee g s' (sys_next s)) as (ls & B1 & B2 & B3 & B4).
  - eapply good_tame; eauto.
  - unfold DriveFacts.waits. rewrite Htask. apply bget_insert_eq.
  - intros i t r Hget Hours. rewrite Htask in Hget. destruct (key_dec i (sys_next s)) as [Hi|Hi]; [exact Hi|]. exfalso.
    rewrite bget_insert_ne in Hget by exact Hi. destruct Hours as [Hd|Hd]; [apply (proj1 (Hrest i))|apply (proj2 (Hrest i))]; exists t, r; auto.
  - unfold has_open. rewrite Hlog. exact Ho.
  - exists (LTimer TimerRetrieve now :: ls). split; [split; [exact Logic.I|exact B1]|].
    change (run s (LTimer TimerRetrieve now :: ls)) with (run s' ls). split; [|split; [|exact B4]].
    + eapply reaches_trans; [|exact B2]. constructor; [exact T| |rewrite Hlog; apply grows_refl].
      rewrite Hlog. intros b rc H. left. exact H.
    + eapply one_less_back; [exact T|exact B3].
Qed.

(** ** Round after round *)
Lemma filter_less {A} (p q : A -> bool) l x : (forall y, In y l -> q y = true -> p y = true) -> In x l -> p x = true -> q x = false ->
  (List.length (filter q l) < List.length (filter p l))%nat.
Proof.
  assert (Hle : forall l0, (forall y, In y l0 -> q y = true -> p y = true) -> (List.length (filter q l0) <= List.length (filter p l0))%nat).
  { induction l0 as [|a l0 IH]; cbn; intros H; [lia|]. pose proof (IH (fun y Hy => H y (or_intror Hy))).
    destruct (q a) eqn:Eq; [rewrite (H a (or_introl eq_refl) Eq)|destruct (p a)]; cbn; lia. }
  induction l as [|a l IH]; cbn; [intros _ []|]. intros H [->|Hin] Hp Hq.
  - rewrite Hp, Hq. pose proof (Hle l (fun y Hy => H y (or_intror Hy))). cbn. lia.
  - pose proof (IH (fun y Hy => H y (or_intror Hy)) Hin Hp Hq).
    destruct (q a) eqn:Eq; [rewrite (H a (or_introl eq_refl) Eq)|destruct (p a)]; cbn; lia.
Qed.
Definition still_open (s : Sys) : nat := List.length (filter (open_request (history (sys_log s))) (accepted (history (sys_log s)))).
Definition all_final (s : Sys) : Prop :=
  forall r, In r (accepted (history (sys_log s))) -> In (wr_burn_index r) (map fst (finalizations (history (sys_log s)))).
Lemma fewer_open s s' : reaches s s' -> one_less s s' -> (still_open s' < still_open s)%nat.
Proof.
  intros [[T1 _ _ _ _ _ T7 _ _] _ _] (r & H1 & H2 & H3). unfold still_open.
  change (snd (sys_core s)) with (sys_log s) in *. change (snd (sys_core s')) with (sys_log s') in *. rewrite T1.
  apply (filter_less _ _ _ r); auto.
  - intros y _ Hy. apply open_true in Hy. apply open_true. intros H. apply Hy. apply in_map_iff in H as (z & E & H).
    apply in_map_iff. exists z. split; [exact E|apply T7; exact H].
  - apply open_true. exact H2.
  - destruct (open_request (history (sys_log s')) r) eqn:E; [|reflexivity]. apply open_true in E. contradiction.
Qed.
Lemma rounds g n : forall s, (still_open s <= n)%nat -> good g s -> at_rest s ->
  exists ls, helped s ls /\ reaches s (run s ls) /\ all_final (run s ls).
Proof.
  induction n as [|n IH]; intros s Hn Hg Hrest.
  - exists []. split; [exact Logic.I|]. split.
    + constructor; [apply tame_refl|intros b rc H; left; exact H|apply grows_refl].
    + intros r Hr. destruct (in_dec N.eq_dec (wr_burn_index r) (map fst (finalizations (history (sys_log s))))) as [H|H]; [exact H|].
      exfalso. apply open_true in H. unfold still_open in Hn. assert (Hin : In r (filter (open_request (history (sys_log s))) (accepted (history (sys_log s))))) by (apply filter_In; auto).
      destruct (filter (open_request (history (sys_log s))) (accepted (history (sys_log s)))); [destruct Hin|cbn in Hn; lia].
  - destruct (filter (open_request (history (sys_log s))) (accepted (history (sys_log s)))) as [|r l] eqn:E.
    + apply IH; auto. unfold still_open. rewrite E. cbn. lia.
    + assert (Hin : In r (filter (open_request (history (sys_log s))) (accepted (history (sys_log s))))) by (rewrite E; left; reflexivity).
      apply filter_In in Hin as [H1 H2]. apply open_true in H2.
      destruct (stage_start g s Hg Hrest) as (ls & B1 & B2 & B3 & B4); [exists r; auto|].
      assert (Hr' : R (run s ls)) by (apply reach_helped; [exact (gd_reach _ _ Hg)|exact B1]).
      destruct (IH (run s ls)) as (ls2 & C1 & C2 & C3).
      * pose proof (fewer_open _ _ B2 B3). lia.
      * eapply good_tame; [exact Hg|exact Hr'|exact (rs_tame _ _ B2)].
      * exact B4.
      * exists (ls ++ ls2). split; [apply helped_app; auto|]. rewrite run_app. split; [eapply reaches_trans; eauto|exact C3].
Qed.

Theorem drive s : R s -> servable fees s -> native_apart (sys_state s) -> native_deposits (history (sys_log s)) < U256_MAX ->
  (forall r, In r (accepted (history (sys_log s))) -> positive r) ->
  exists ls1 ls2, Forall failing ls1 /\ helped (run s ls1) ls2 /\
    accepted (history (sys_log (run s (ls1 ++ ls2)))) = accepted (history (sys_log s)) /\
    all_final (run s (ls1 ++ ls2)) /\
    fair_new (history (sys_log (run s ls1))) (history (sys_log (run s (ls1 ++ ls2)))).
Proof.
  intros Hr [(g & S1 & S2 & S3) S4] Ha Hd Hp. destruct (come_to_rest self keccak s Hr) as (ls1 & F & T & Hrest).
  assert (Hg : good g s) by (constructor; auto).
  assert (Hr1 : R (run s ls1)) by (apply reach_failing; auto).
  destruct (rounds g _ (run s ls1) (le_n _) (good_tame _ _ _ Hg Hr1 T) Hrest) as (ls2 & H1 & H2 & H3).
  exists ls1, ls2. rewrite run_app. split; [exact F|]. split; [exact H1|]. split.
  - pose proof (tm_accepted _ _ (tame_trans _ _ _ T (rs_tame _ _ H2))) as E. exact E.
  - split; [exact H3|exact (rs_fair _ _ H2)].
Qed.
End Round.
