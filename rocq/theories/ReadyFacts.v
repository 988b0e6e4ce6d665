(** * While a processing task is suspended, its transactions stay as they were *)

From Verif Require Import Base BMap MultiKeyMap MultiKeyMapFacts Bytes Types Amount Tx CallData
  Network Hex Transactions State Audit Ranges Rlp Parser Memo Driver Sys SysSpec WtInv StateEquiv
  TxSpec WtContent Segments Tasks SysFacts CoreInv Lifting ArithFacts WithdrawSpec WithdrawFacts StageFacts
  GuardSpec Guards GuardFacts FeeSpec FeeFacts QueueSpec QueueFacts.

(** What a suspended processing task relies on *)
Definition ready (w : WT) (t : Task) : Prop :=
  match t with
  | TRetrieveSign _ batch =>
      NoDup (map (fun x => tx_nonce (snd x)) batch) /\
      forall b x, In (b, x) batch -> exists c, row_created w (tx_nonce x) b c /\ rs_tx c = x
  | TRetrieveReceipts h => exists n, sent_transactions_to_finalize n w = Done h
  | _ => True
  end.

Record same_tables (w w' : WT) : Prop := {
  st_created : created w' = created w;
  st_sent : sent w' = sent w;
  st_finalized : finalized w' = finalized w;
  st_processed : processed w' = processed w
}.
Lemma same_tables_refl w : same_tables w w. Proof. constructor; auto. Qed.
Lemma same_tables_trans a b c : same_tables a b -> same_tables b c -> same_tables a c.
Proof. intros [] []. constructor; congruence. Qed.

Lemma ready_same w w' t : same_tables w w' -> ready w t -> ready w' t.
Proof.
  intros [S1 S2 _ _] H. destruct t; cbn in *; auto.
  - destruct H as [H1 H2]. split; auto. intros b x Hin. rewrite S1. auto.
  - unfold sent_transactions_to_finalize in *. rewrite S2. exact H.
Qed.

(** Events that leave the tables of transactions alone *)
Definition leaves_tables (e : EventType) : Prop :=
  match e with
  | EvCreatedTransaction _ _ | EvReplacedTransaction _ _ | EvSignedTransaction _ _ | EvFinalizedTransaction _ _ => False
  | _ => True
  end.

Lemma wt_event_tables e w w' : leaves_tables e -> wt_event e w = Done w' -> same_tables w w'.
Proof.
  intros He H. destruct e; cbn [wt_event leaves_tables] in *; try tauto; try (injection H as <-; constructor; reflexivity).
  - apply record_withdrawal_request_spec in H as (_ & _ & _ & _ & ->). constructor; reflexivity.
  - unfold record_finalized_reimbursement in H. inv_res. constructor; reflexivity.
  - apply record_withdrawal_request_spec in H as (_ & _ & _ & _ & ->). constructor; reflexivity.
  - unfold record_finalized_reimbursement in H. inv_res. constructor; reflexivity.
  - unfold record_reimbursement_request in H. inv_res. constructor; reflexivity.
Qed.

Lemma micros_tables (J : State -> EventType -> Prop) now c c' : (forall s e, J s e -> leaves_tables e) ->
  micros J now c c' -> same_tables (withdrawals (fst c)) (withdrawals (fst c')).
Proof.
  intros HJ H. induction H; [apply same_tables_refl|]. eapply same_tables_trans; [|exact IHmicros]. clear IHmicros H0.
  inversion H; subst; cbn [fst].
  - destruct H0 as (v & ->). constructor; reflexivity.
  - eapply wt_event_tables; [eapply HJ; eauto|]. apply apply_wt. eauto.
  - unfold reschedule_withdrawal_request in H1. inv_res.
    apply record_withdrawal_request_spec in H1 as (_ & _ & _ & _ & ->). constructor; reflexivity.
Qed.

Section Ready.
Variable self : Principal.
Variable keccak : list N -> Hash.

Lemma emits_leaves t r s e : is_retrieve t = false -> emits keccak t r s e -> leaves_tables e.
Proof.
  intros Ht H. apply emits_inv in H. destruct e; cbn in *; auto.
  - destruct H as (g & x & q & -> & _). discriminate.
  - destruct H as (g & x & q & ? & ? & -> & _). discriminate.
  - destruct H as (g & x & q & ? & ? & -> & _). discriminate.
  - destruct H as (g & x & -> & _). discriminate.
Qed.

Definition ready_ok (s : Sys) : Prop :=
  forall id t r, bget id (sys_tasks s) = Some {| fl_task := t; fl_reply := r |} -> ready (withdrawals (sys_state s)) t.

(** A task that relies on something is a processing task *)
Lemma ready_trivial w t : is_retrieve t = false -> ready w t.
Proof. destruct t; cbn; auto; discriminate. Qed.
Lemma retrieve_doing t : is_retrieve t = true -> doing t Retrieving.
Proof. destruct t; cbn; try discriminate; intros _; eauto 10. Qed.

Lemma sign_batch_ready n w batch : wt_inv w -> transactions_to_sign_batch n w = Done batch ->
  NoDup (map (fun x => tx_nonce (snd x)) batch) /\
  forall b x, In (b, x) batch -> exists c, row_created w (tx_nonce x) b c /\ rs_tx c = x.
Proof.
  intros Hi H. unfold transactions_to_sign_batch in H. apply rbind_done in H as (rows & Hr & H). injection H as <-.
  pose proof (mkm_iter_keys _ _ (i_created _ Hi) Hr) as Hk.
  assert (Hrow : forall k b c, In (k, b, c) rows -> row_created w k b c /\ tx_nonce (rs_tx c) = k).
  { intros k b c Hin. eapply mkm_iter_rows in Hin; eauto using i_created. split; [exact Hin|].
    apply (i_created_tx _ Hi _ _ _ Hin). }
  split.
  - rewrite map_map. cbn [snd].
    replace (map (fun x => tx_nonce (rs_tx (snd x))) (firstn (N.to_nat n) rows))
      with (map (fun x => fst (fst x)) (firstn (N.to_nat n) rows)).
    + rewrite <- firstn_map. apply nodup_firstn. rewrite Hk. unfold mkm_keys. apply bsorted_NoDup.
      apply (wf_sorted_key _ (i_created _ Hi)).
    + apply map_ext_in. intros [[k b] c] Hin. cbn. symmetry. apply (Hrow k b c). apply in_firstn in Hin. exact Hin.
  - intros b x Hin. apply in_map_iff in Hin as ([[k b'] c] & He & Hin). cbn in He. injection He as -> <-.
    apply in_firstn in Hin. destruct (Hrow _ _ _ Hin) as [R1 R2]. exists c. rewrite R2. auto.
Qed.

Lemma ready_next now t r c c' t' : wt_inv (withdrawals (fst c')) -> next_spec now t r c c' t' ->
  ready (withdrawals (fst c')) t' /\ (is_retrieve t' = true -> is_retrieve t = true).
Proof.
  intros Hi H. destruct t'; cbn [next_spec ready is_retrieve] in *; try (split; [exact Logic.I|discriminate]); try (destruct H; fail).
  - subst. auto.
  - destruct H as (Hb & g & -> & ->). split; [|reflexivity]. eapply sign_batch_ready; eauto.
  - destruct H as (Ht & _). auto.
  - auto.
  - destruct H as (-> & -> & n & _ & H). split; [eauto|reflexivity].
Qed.

Lemma ready_trans s l s' : core_ok keccak (sys_core s) -> core_ok keccak (sys_core s') ->
  (forall i j, running_activity s i Retrieving -> running_activity s j Retrieving -> i = j) ->
  ready_ok s -> Trans self keccak s l s' -> ready_ok s'.
Proof.
  intros Hc Hc' H1 Hr H. unfold ready_ok in *. pose proof (core_wt _ _ Hc) as Hi. pose proof (core_wt _ _ Hc') as Hi'.
  destruct H; auto.
  - intros i t r. unfold sys_state in *. cbn [bump_next sys_tasks sys_core] in *. rewrite install_core in *. rewrite install_tasks.
    cbn [with_core sys_core sys_tasks] in *.
    assert (Hs : same_tables (withdrawals (fst (sys_core s))) (withdrawals (fst c))).
    { pose proof H0 as Hm. apply timer_micros in Hm as [(v & Hv) _]. rewrite Hv. constructor; reflexivity. }
    destruct (keqb i (sys_next s)).
    + destruct nx as [t0|]; [|discriminate]. injection 1 as <- _. apply timer_after in H0.
      destruct t0; cbn in *; auto; tauto.
    + intros Hg. eapply ready_same; eauto.
  - intros i t r. unfold sys_state in *. cbn [bump_next sys_tasks sys_core] in *. rewrite install_core in *. rewrite install_tasks.
    cbn [with_core sys_core sys_tasks with_call] in *.
    assert (Hs : same_tables (withdrawals (fst (sys_core s))) (withdrawals (fst c))).
    { eapply micros_tables; [|eapply call_micros; eauto]. intros st e He.
      destruct u; cbn in He; try tauto. destruct He as (_ & x & _ & ->). exact Logic.I. }
    destruct (keqb i (sys_next s)).
    + destruct nx as [t0|]; [|discriminate]. injection 1 as <- _. apply (call_after keccak) in H0. apply call_next_task in H0.
      destruct t0; cbn in *; auto; tauto.
    + intros Hg. eapply ready_same; eauto.
  - intros i t' r. cbn [answered with_op with_tasks sys_tasks sys_state sys_core]. unfold answered. cbn. rewrite bget_insert.
    destruct (keqb_spec i id) as [Hk|Hk]; [|eauto]. subst i. injection 1 as <- _. eapply Hr; eauto.
  - intros i t' r'. unfold answered. cbn. rewrite bget_insert.
    destruct (keqb_spec i id) as [Hk|Hk]; [|eauto]. subst i. injection 1 as <- _. eapply Hr; eauto.
  - intros i t' r'. unfold sys_state in *. rewrite install_core in *. rewrite install_tasks.
    cbn [with_core sys_core sys_tasks with_queries] in *.
    pose proof H2 as Ha. apply resume_after in Ha.
    destruct (keqb_spec i id) as [Hk|Hk].
    + destruct nx as [t0|]; [|discriminate]. injection 1 as <- _. cbn [after] in Ha.
      eapply ready_next; eauto.
    + intros Hg. destruct (is_retrieve t) eqn:Et.
      * destruct (is_retrieve t') eqn:Et'; [|apply ready_trivial; auto].
        exfalso. apply Hk. apply H1; [exists t', r'|exists t, (Some r)]; split; auto using retrieve_doing.
      * eapply ready_same; [|eapply Hr; eauto].
        eapply micros_tables; [|eapply resume_micros; eauto]. intros st e He. eapply emits_leaves; eauto.
  - intros i t' r'. unfold sys_state in *. rewrite install_core in *. rewrite install_tasks.
    cbn [with_core sys_core sys_tasks] in *. destruct (keqb i id); [discriminate|]. intros Hg.
    destruct (cleanup_micros now t (sys_core s)) as (c' & Hc'' & Hm). assert (c' = c) by congruence. subst c'.
    eapply ready_same; [|eapply Hr; eauto]. eapply micros_tables; [|exact Hm]. cbv beta. intros _ e He.
    destruct t; cbn in He; try tauto; destruct He as [<-|[]]; exact Logic.I.
  - intros i t' r'. cbn. rewrite H0. discriminate.
Qed.

Lemma ready_reach (env : Sys -> Label -> Prop) s : (forall s l, env s l -> nonce_kept s l) ->
  reach self keccak env s -> ready_ok s.
Proof.
  intros He. apply (reach_inv2 self keccak env (fun s => core_ok keccak (sys_core s) /\
    forall i j, running_activity s i Retrieving -> running_activity s j Retrieving -> i = j) ready_ok).
  - intros s0 H. split; [eapply core_reach; eauto|]. intros i j. eapply one_at_a_time; eauto.
  - intros now a s0 H. apply sys_init_inv in H as (st & _ & _ & Ht & _). intros id t r. rewrite Ht. discriminate.
  - intros s0 l s' [Hc H1] [Hc' _] Hr _ Ht. exact (ready_trans s0 l s' Hc Hc' H1 Hr Ht).
Qed.

(** ** Signing never panics *)
Lemma signed_total now batch sigs c : wt_inv (withdrawals (fst c)) ->
  NoDup (map (fun x => tx_nonce (snd x)) batch) ->
  (forall b x, In (b, x) batch -> exists r, row_created (withdrawals (fst c)) (tx_nonce x) b r /\ rs_tx r = x) ->
  exists c', process_events now (signed_events keccak batch sigs) c = Done c' /\ wt_inv (withdrawals (fst c')).
Proof.
  revert sigs c. induction batch as [|[b x] batch IH]; intros [|o sigs] c Hi Hn Hb; cbn [signed_events]; try (exists c; split; auto; reflexivity).
  cbn [map snd] in Hn. inversion Hn as [|? ? Hnin Hn']; subst.
  destruct o as [sg|]; [|apply IH; auto; intros; apply Hb; right; auto].
  destruct (Hb b x (or_introl eq_refl)) as (r & Hrow & Hx).
  destruct (record_signed_total (withdrawals (fst c)) (signed_tx keccak x sg) b r Hi Hrow Hx) as (w' & Hw).
  pose proof (inv_record_signed _ _ _ Hi Hw) as Hi'.
  unfold process_events. cbn [rfold]. unfold process_event at 1. cbn [apply_state_transition]. unfold on_withdrawals.
  rewrite Hw. cbn [rbind]. fold (process_events now (signed_events keccak batch sigs)).
  apply IH; cbn [fst]; auto. intros b2 x2 Hin. destruct (Hb b2 x2 (or_intror Hin)) as (r2 & Hrow2 & Hx2).
  exists r2. split; auto. cbn.
  assert (Hne : tx_nonce x2 <> tx_nonce x).
  { intros He. apply Hnin. rewrite <- He. apply (in_map (fun x => tx_nonce (snd x)) _ _ Hin). }
  assert (Hne2 : b2 <> b).
  { intros ->. apply Hne. apply (row_fun_alt _ _ _ _ _ _ (i_created _ Hi) Hrow2 Hrow). }
  destruct (record_signed_spec _ _ _ Hi Hw) as (b0 & c0 & Hr0 & _ & Hcase). cbn [signed_tx st_tx] in *.
  assert (b0 = b) by (eapply (row_fun_key _ _ _ _ _ _ Hr0 Hrow)). subst b0.
  destruct Hrow2 as [Hk Ha].
  destruct Hcase as [(l & _ & ->)|(_ & _ & ->)]; split; cbn; rewrite bget_remove_ne; auto.
Qed.

Lemma sign_total (env : Sys -> Label -> Prop) s id n batch r sigs now : (forall s l, env s l -> nonce_kept s l) ->
  reach self keccak env s ->
  bget id (sys_tasks s) = Some {| fl_task := TRetrieveSign n batch; fl_reply := r |} ->
  exists c' nx, resume keccak now (TRetrieveSign n batch) (ReSigs sigs) (sys_core s) = Done (c', nx).
Proof.
  intros He Hr Ht. destruct (ready_reach env s He Hr _ _ _ Ht) as [Hn Hb].
  pose proof (core_wt _ _ (core_reach _ _ _ _ He Hr)) as Hi.
  cbn [resume]. unfold retrieve_sign_reply. destruct (signed_total now batch sigs (sys_core s) Hi Hn Hb) as (c' & -> & Hi').
  cbn [rbind]. apply send_start_total; auto.
Qed.

Lemma create_total (env : Sys -> Label -> Prop) s id g r n now : (forall s l, env s l -> nonce_kept s l) ->
  reach self keccak env s ->
  bget id (sys_tasks s) = Some {| fl_task := TRetrieveCount g; fl_reply := r |} ->
  0 < max_price g -> next_nonce (withdrawals (sys_state s)) + 5 <= U256_MAX ->
  exists c' nx, resume keccak now (TRetrieveCount g) (ReCount n) (sys_core s) = Done (c', nx).
Proof.
  intros He Hr Ht Hg Hn. destruct (tipped_reach keccak self env s He Hr) as [Hc Htip].
  cbn [resume]. apply count_total; auto. apply (core_wt _ _ Hc).
Qed.

(** ** Nobody is overtaken by a later request *)
Lemma nodup_map_inj {A B} (f : A -> B) l a b : NoDup (map f l) -> In a l -> In b l -> f a = f b -> a = b.
Proof.
  induction l as [|x l IH]; cbn; [tauto|]. intros Hn Ha Hb He. apply NoDup_cons_iff in Hn as [Hx Hn].
  destruct Ha as [->|Ha], Hb as [->|Hb]; auto.
  - destruct Hx. rewrite He. apply in_map; auto.
  - destruct Hx. rewrite <- He. apply in_map; auto.
Qed.
Lemma before_unmap {A B} (l : list (A * B)) a b tb : NoDup (map fst l) -> In (b, tb) l -> before a b (map fst l) ->
  exists ta, before (a, ta) (b, tb) l.
Proof.
  intros Hn Hin (l1 & l2 & l3 & H). apply map_eq_app in H as (m1 & m' & -> & <- & H).
  apply map_eq_cons in H as ([a' ta] & m'' & -> & Ha & H). apply map_eq_app in H as (m2 & m3 & -> & <- & H).
  apply map_eq_cons in H as ([b' tb'] & m4 & -> & Hb & <-). cbn in Ha, Hb. subst a' b'. exists ta.
  assert (E : (b, tb) = (b, tb')).
  { eapply nodup_map_inj; [exact Hn|exact Hin| |reflexivity]. apply in_or_app. right. right. apply in_or_app. right. left. auto. }
  injection E as ->. exists m1, m2, m4. reflexivity.
Qed.
Lemma nodup_filter_map {A B} (f : A -> B) (p : A -> bool) l : NoDup (map f l) -> NoDup (map f (filter p l)).
Proof.
  induction l as [|x l IH]; cbn; auto. intros Hn. apply NoDup_cons_iff in Hn as [Hx Hn]. destruct (p x); auto.
  cbn. constructor; auto. intros H. apply Hx. apply in_map_iff in H as (y & <- & H). apply filter_In in H. apply in_map. tauto.
Qed.
Lemma nodup_app_l {A} (l m : list A) : NoDup (l ++ m) -> NoDup l.
Proof.
  induction l as [|x l IH]; cbn; intros H; [constructor|]. apply NoDup_cons_iff in H as [Hx H]. constructor; auto.
  intros Hin. apply Hx, in_or_app. auto.
Qed.
Lemma no_overtaking (env : Sys -> Label -> Prop) s l a b tb cs : (forall s l, env s l -> nonce_kept s l) ->
  reach self keccak env s -> before a b (queue s) ->
  created_so_far (step self keccak s l) = created_so_far s ++ cs -> In (wr_burn_index b, tb) cs ->
  (exists ta, before (wr_burn_index a, ta) (wr_burn_index b, tb) cs) \/
  (exists id g n now, l = LDeliver id false now /\
     bget id (sys_tasks s) = Some {| fl_task := TRetrieveCount g; fl_reply := Some (ReCount n) |} /\
     affordable g a = false).
Proof.
  intros He Hr Hab Hcs Hin. pose proof (core_wt _ _ (core_reach _ _ _ _ He Hr)) as Hi.
  pose proof (i_pend_nodup _ Hi) as Hnd. fold (sys_state s) in Hnd. fold (queue s) in Hnd.
  destruct (queue_reach self keccak env s l He Hr) as
    [new _ _ H _|g id n now fl batch rest cs' -> Ht _ H2 _ _ _ H H4 _ _|u now _ _ _ H _].
  - rewrite H in Hcs. rewrite <- (app_nil_r (created_so_far s)) in Hcs at 1. apply app_inv_head in Hcs. subst cs. destruct Hin.
  - rewrite H in Hcs. apply app_inv_head in Hcs. subst cs'. destruct (affordable g a) eqn:Ea; [left|right; eauto 10].
    assert (Hb : In b (filter (affordable g) batch)).
    { assert (Hb : In (wr_burn_index b) (map fst cs)) by (apply in_map_iff; eexists; split; [|exact Hin]; reflexivity).
      rewrite H4 in Hb. apply in_map_iff in Hb as (r & Hrb & Hb). replace b with r; auto.
      apply (nodup_map_inj wr_burn_index (queue s)); auto.
      - rewrite H2. apply in_or_app. left. apply filter_In in Hb. tauto.
      - destruct Hab as (l1 & l2 & l3 & ->). apply in_or_app. right. right. apply in_or_app. right. left. auto. }
    apply before_unmap; [|exact Hin|].
    + rewrite H4. apply nodup_filter_map. rewrite H2, map_app in Hnd. eapply nodup_app_l; exact Hnd.
    + rewrite H4. apply before_map. apply filter_In in Hb as [Hb Eb]. apply before_filter; auto.
      rewrite H2 in Hab, Hnd. eapply before_prefix; eauto. apply NoDup_map_inv in Hnd. exact Hnd.
  - rewrite H in Hcs. rewrite <- (app_nil_r (created_so_far s)) in Hcs at 1. apply app_inv_head in Hcs. subst cs. destruct Hin.
Qed.
End Ready.
