(** * Consequences of the log invariant: stages, nonces, finality. *)

From Verif Require Import Base BMap MultiKeyMap MultiKeyMapFacts Bytes Types Amount Tx CallData Network Hex
  Transactions State Audit Ranges Rlp Parser Memo Driver Sys ArithFacts WtInv StateEquiv TxSpec WtContent
  Segments Tasks SysSpec SysFacts CoreInv Lifting WithdrawSpec WithdrawFacts.

(** ** Stages *)

Lemma stage_exists w h r : wt_inv w -> repr w h -> In r (accepted h) -> exists st, at_stage w r st.
Proof.
  intros Hi Hp Ha. destruct (in_dec N.eq_dec (wr_burn_index r) (map fst (creations h))) as [Hc|Hc].
  - assert (Hr : bget (wr_burn_index r) (processed w) = Some r) by (apply (p_processed _ _ Hp); auto).
    assert (Hd : dom (wr_burn_index r) (processed w)) by (unfold dom; congruence).
    apply (i_proc_dom w Hi) in Hd. unfold dom in Hd.
    destruct (bget (wr_burn_index r) (by_alt (sent w))) eqn:E1.
    { exists Sent. split; auto. unfold mkm_get_alt. congruence. }
    destruct (bget (wr_burn_index r) (by_alt (finalized w))) eqn:E2.
    { exists Finalized. split; auto. unfold mkm_get_alt. congruence. }
    exists Prepared. split; auto. unfold mkm_get_alt. intuition congruence.
  - exists Waiting. apply (p_pending _ _ Hp). auto.
Qed.

Lemma stage_unique w r st st' : wt_inv w -> at_stage w r st -> at_stage w r st' -> st = st'.
Proof.
  intros Hi.
  assert (A : In r (pending w) -> bget (wr_burn_index r) (processed w) = Some r -> False).
  { intros H1 H2. apply (i_pend_fresh w Hi) in H1. congruence. }
  assert (B : mkm_get_alt (wr_burn_index r) (finalized w) <> None ->
              mkm_get_alt (wr_burn_index r) (created w) = None /\ mkm_get_alt (wr_burn_index r) (sent w) = None).
  { unfold mkm_get_alt. intros H. destruct (bget _ (by_alt (finalized w))) eqn:E; [|congruence].
    apply (get_alt_row _ _ _ (i_fin w Hi)) in E as (k & E). apply (i_fin_excl w Hi) in E. tauto. }
  destruct st, st'; cbn; intuition congruence.
Qed.

Lemma stage_accepted w h r st : repr w h -> at_stage w r st -> In r (accepted h).
Proof.
  intros Hp H. destruct st; cbn in H; [apply (p_pending _ _ Hp) in H; tauto| | |];
    destruct H as (H & _); apply (p_processed _ _ Hp) in H; tauto.
Qed.

(** how far a withdrawal has certainly come *)
Definition progress (w : WT) (r : WithdrawalRequest) (n : N) : Prop :=
  let b := wr_burn_index r in
  (1 <= n -> bget b (processed w) = Some r) /\ (2 <= n -> out w b) /\
  (3 <= n -> exists f, bget b (by_alt (finalized w)) = Some f).

Lemma stage_progress w r st : at_stage w r st -> progress w r (rank st).
Proof.
  unfold progress, out, dom. destruct st; cbn [at_stage rank]; unfold mkm_get_alt; intros H;
    (split; [|split]); intros Hr; try tauto; try (exfalso; clear - Hr; lia).
  destruct (bget _ (by_alt (finalized w))); [eauto|tauto].
Qed.
Lemma progress_stage w r n st : wt_inv w -> progress w r n -> at_stage w r st -> n <= 3 -> n <= rank st.
Proof.
  intros Hi (H1 & H2 & H3) Hs Hn.
  assert (Hc : n = 0 \/ n = 1 \/ n = 2 \/ n = 3) by lia.
  destruct Hc as [->|[->|[->| ->]]].
  - lia.
  - destruct st; cbn [rank]; try lia. cbn in Hs. apply (i_pend_fresh w Hi) in Hs. rewrite H1 in Hs by lia. discriminate.
  - destruct st; cbn [rank]; try lia.
    + cbn in Hs. apply (i_pend_fresh w Hi) in Hs. rewrite H1 in Hs by lia. discriminate.
    + destruct Hs as (_ & Hc & Hs). destruct (H2 ltac:(lia)) as [H|H]; unfold mkm_get_alt, dom in *; [tauto|].
      destruct (bget _ (by_alt (finalized w))) eqn:E; [|tauto].
      apply (get_alt_row _ _ _ (i_fin w Hi)) in E as (k & E). apply (i_fin_excl w Hi) in E. tauto.
  - destruct (H3 ltac:(lia)) as (f & Hf).
    rewrite (stage_unique w r st Finalized Hi Hs); [cbn; lia|]. split; [apply H1; lia|].
    unfold mkm_get_alt. congruence.
Qed.

Lemma progress_event e w w' r n :
  wt_inv w -> wt_event e w = Done w' -> progress w r n -> progress w' r n.
Proof.
  intros Hi H (H1 & H2 & H3). split; [|split]; intros Hn.
  - eapply processed_event; eauto.
  - eapply out_event; eauto.
  - destruct (H3 Hn) as (f & Hf). exists f. eapply finalized_event; eauto.
Qed.

Section Steps.
Variable self : Principal.
Variable keccak : list N -> Hash.

Lemma sim_progress s s' r n : sim s s' -> progress (withdrawals s) r n -> progress (withdrawals s') r n.
Proof.
  intros Hs H. apply sim_tables in Hs as (_ & p & -> & _). exact H.
Qed.

Lemma micros_progress r n now c c' :
  micros (evt keccak (sign_ok keccak)) now c c' ->
  core_ok keccak c /\ progress (withdrawals (fst c)) r n ->
  core_ok keccak c' /\ progress (withdrawals (fst c')) r n.
Proof.
  intros H. apply (micros_inv _ _ (fun c => core_ok keccak c /\ progress (withdrawals (fst c)) r n)) with (2 := H).
  clear. intros c c' (Hc & Hp) H. inversion H; subst; cbn in *.
  - split; [eapply core_sim; eauto using vstep_sim|eapply sim_progress; eauto using vstep_sim].
  - split; [eapply core_event; eauto using good_evt|].
    eapply progress_event; eauto using apply_wt. apply (core_wt _ _ Hc).
  - assert (Hs : sim s (set_withdrawals w' s)) by (eapply queue_sim; eauto; apply (core_wt _ _ Hc)).
    split; [eapply core_sim; eauto|apply (sim_progress _ _ _ _ Hs Hp)].
Qed.

Lemma micros_grow (J : State -> EventType -> Prop) now c c' :
  micros J now c c' -> exists h, history (snd c') = history (snd c) ++ h.
Proof.
  induction 1 as [|c1 c2 c3 Hm _ (h & IH)]; [exists []; rewrite app_nil_r; auto|].
  inversion Hm; subst; cbn [snd] in *; eauto.
  rewrite history_snoc in IH. rewrite <- app_assoc in IH. eauto.
Qed.

Variable env : Sys -> Label -> Prop.
Hypothesis Henv : forall s l, env s l -> nonce_kept s l.

Lemma reach_wlog s : reach self keccak env s ->
  core_ok keccak (sys_core s) /\ repr (withdrawals (sys_state s)) (history (sys_log s)) /\
  follows (history (sys_log s)) /\ all_serve (sys_state s) (history (sys_log s)) /\
  forall t, running s t -> sign_ok keccak (sys_state s) t.
Proof.
  intros Hr. destruct (withdraw_reach self keccak env s Henv Hr) as (H1 & (H2 & H3 & H4) & H5).
  auto.
Qed.

Lemma history_step s l : reach self keccak env s -> env s l ->
  exists h, history (sys_log (step self keccak s l)) = history (sys_log s) ++ h.
Proof.
  intros Hr He. destruct (withdraw_step self keccak env s l Henv Hr He) as (now & st & _ & Hm).
  apply micros_grow in Hm. exact Hm.
Qed.

Lemma stage_step s l r st :
  reach self keccak env s -> env s l -> at_stage (withdrawals (sys_state s)) r st ->
  exists st', at_stage (withdrawals (sys_state (step self keccak s l))) r st' /\ rank st <= rank st'.
Proof.
  intros Hr He Hst.
  destruct (reach_wlog s Hr) as (Hc & Hp & _).
  destruct (reach_wlog _ (reach_step self keccak env s l Hr He)) as (Hc' & Hp' & _).
  pose proof (stage_accepted _ _ _ _ Hp Hst) as Ha.
  destruct (withdraw_step self keccak env s l Henv Hr He) as (now & st0 & Hs & Hm).
  assert (Hpr : core_ok keccak (st0, sys_log s) /\ progress (withdrawals (fst (st0, sys_log s))) r (rank st)).
  { split; [eapply core_sim; [exact Hs|]; unfold sys_state, sys_log; rewrite <- surjective_pairing; auto|].
    cbn. eapply sim_progress; eauto. apply stage_progress; auto. }
  destruct (micros_progress r (rank st) _ _ _ Hm Hpr) as (_ & Hpr').
  destruct (micros_grow _ _ _ _ Hm) as (h & Hh).
  destruct (stage_exists _ _ r (core_wt _ _ Hc') Hp') as (st' & Hst').
  { unfold sys_log in *. rewrite Hh. unfold accepted. rewrite flat_map_app, in_app_iff. auto. }
  exists st'. split; auto. eapply progress_stage; eauto. apply (core_wt _ _ Hc').
  destruct st; cbn; lia.
Qed.
End Steps.

(** ** Nonces *)

Lemma consecutive_snoc n k : consecutive n (S k) = consecutive n k ++ [n + N.of_nat k].
Proof.
  revert n. induction k as [|k IH]; intros n; [cbn; f_equal; lia|].
  cbn [consecutive app]. cbn [consecutive] in IH. rewrite IH. do 3 f_equal. lia.
Qed.

Lemma nonces_consecutive a h :
  follows (EvInit a :: h) -> existsb overrides_nonce h = false -> (forall x, ~ In (EvInit x) h) ->
  expected_nonce (EvInit a :: h) =
    ia_next_transaction_nonce a + N.of_nat (List.length (creations h)) /\
  map (fun x => tx_nonce (snd x)) (creations h) =
    consecutive (ia_next_transaction_nonce a) (List.length (creations h)).
Proof.
  induction h as [|e h IH] using rev_ind; intros Hf Ho Hi; [cbn; split; auto; lia|].
  rewrite existsb_app in Ho. apply orb_false_iff in Ho as (Ho & He). cbn in He. rewrite orb_false_r in He.
  destruct IH as (IH1 & IH2); auto.
  { intros h1 x h2 Hh. apply (Hf h1 x (h2 ++ [e])).
    change (EvInit a :: h ++ [e]) with ((EvInit a :: h) ++ [e]). rewrite Hh, <- app_assoc. auto. }
  { intros x Hx. apply (Hi x), in_app_iff. auto. }
  change (EvInit a :: h ++ [e]) with ((EvInit a :: h) ++ [e]) in *.
  rewrite expected_snoc, creations_snoc, IH1.
  destruct e; cbn [created_by nonce_after]; rewrite ?app_nil_r; auto.
  - exfalso. eapply Hi. apply in_app_iff. right. left. reflexivity.
  - cbn in He. destruct (ua_next_transaction_nonce _); [discriminate|auto].
  - rewrite map_app, app_length. cbn [map List.length snd].
    rewrite Nat.add_1_r, consecutive_snoc, IH2. split; [lia|]. do 2 f_equal.
    destruct (Hf (EvInit a :: h) _ [] eq_refl) as (_ & _ & ->). exact IH1.
Qed.

(** ** Finality *)

Lemma follows_prefix h1 h2 : follows (h1 ++ h2) -> follows h1.
Proof.
  intros H a e b Hb. apply (H a e (b ++ h2)). rewrite Hb, <- app_assoc. reflexivity.
Qed.

Lemma made_created h b : follows h -> In b (map fst (transactions_made h)) -> In b (map fst (creations h)).
Proof.
  induction h as [|e h IH] using rev_ind; [auto|]. intros Hf. rewrite made_snoc, creations_snoc, !map_app, !in_app_iff.
  pose proof (follows_prefix _ _ Hf) as Hf1. pose proof (Hf h e [] eq_refl) as He.
  intros [H|H]; [left; auto|]. destruct e; cbn in H; try tauto; destruct H as [<-|[]].
  - right. cbn. auto.
  - left. apply IH; auto. cbn in He. apply unsigned_made in He. apply in_map_fst. eauto.
  - left. apply IH; auto. destruct He as (_ & s & Hs & _). apply last_opt_in in Hs.
    apply attempts_made in Hs. apply in_map_fst. eauto.
Qed.

Lemma final_unsigned h b : follows h -> In b (map fst (finalizations h)) -> unsigned h b = None.
Proof.
  induction h as [|e h IH] using rev_ind; [cbn; tauto|]. intros Hf.
  pose proof (follows_prefix _ _ Hf) as Hf1. pose proof (Hf h e [] eq_refl) as He.
  rewrite finalizations_snoc, unsigned_snoc, map_app, in_app_iff.
  intros [H|H].
  - specialize (IH Hf1 H). destruct e; cbn [unsigned_after]; auto; destruct (N.eqb_spec withdrawal_id b); auto; subst.
    + destruct He as (_ & Hn & _). destruct Hn. apply made_created; auto.
      clear - Hf1 H. apply in_map_fst in H as (r & H). unfold finalizations in H. apply in_flat_map in H as (e & He & H).
      destruct e; cbn in H; try tauto. destruct H as [H|[]]. injection H as -> ->.
      apply in_split in He as (h1 & h2 & ->). pose proof (Hf1 h1 _ h2 eq_refl) as (_ & s & Hs & _).
      apply attempts_made in Hs. unfold transactions_made. rewrite flat_map_app, map_app, in_app_iff. left.
      apply in_map_fst. eauto.
    + destruct He as (He & _). tauto.
  - destruct e; cbn in H; try tauto. destruct H as [<-|[]]. cbn. rewrite N.eqb_refl. auto.
Qed.

(** after finalization nothing more is made for the withdrawal *)
Lemma final_no_more h1 b r h2 : follows (h1 ++ EvFinalizedTransaction b r :: h2) ->
  ~ In b (map fst (transactions_made h2)) /\ ~ In b (map fst (finalizations h2)).
Proof.
  intros Hf. split; intros H; apply in_map_fst in H as (x & H); apply in_flat_map in H as (e & He & H).
  - apply in_split in He as (a & c & ->).
    assert (E : h1 ++ EvFinalizedTransaction b r :: a ++ e :: c = (h1 ++ EvFinalizedTransaction b r :: a) ++ e :: c)
      by (rewrite <- app_assoc; auto).
    rewrite E in Hf. pose proof (Hf _ e c eq_refl) as Hm.
    pose proof (follows_prefix _ _ Hf) as Hp.
    assert (Hfin : In b (map fst (finalizations (h1 ++ EvFinalizedTransaction b r :: a)))).
    { unfold finalizations. rewrite flat_map_app, map_app, in_app_iff. right. cbn. auto. }
    destruct e; cbn in H; try tauto; destruct H as [H|[]]; injection H as Hb Hx; subst; cbn in Hm.
    + destruct Hm as (_ & Hn & _). apply Hn, made_created; auto.
      assert (Hs := Hp h1 _ a eq_refl). destruct Hs as (_ & s & Hs & _).
      apply attempts_made in Hs. unfold transactions_made. rewrite flat_map_app, map_app, in_app_iff. left.
      apply in_map_fst. eauto.
    + rewrite (final_unsigned _ b Hp Hfin) in Hm. discriminate.
    + tauto.
  - apply in_split in He as (a & c & ->).
    assert (E : h1 ++ EvFinalizedTransaction b r :: a ++ e :: c = (h1 ++ EvFinalizedTransaction b r :: a) ++ e :: c)
      by (rewrite <- app_assoc; auto).
    rewrite E in Hf. pose proof (Hf _ e c eq_refl) as Hm.
    destruct e; cbn in H; try tauto; destruct H as [H|[]]; injection H as Hb Hx; subst; cbn in Hm.
    destruct Hm as (Hm & _). apply Hm. unfold finalizations. rewrite flat_map_app, map_app, in_app_iff. right. cbn. auto.
Qed.

(** ** Signing *)
Lemma record_signed_total w s b c :
  wt_inv w -> row_created w (tx_nonce (st_tx s)) b c -> rs_tx c = st_tx s ->
  exists w', record_signed_transaction s w = Done w'.
Proof.
  intros Hi Hrow Hc. unfold record_signed_transaction.
  replace (mkm_get (tx_nonce (st_tx s)) (created w)) with (Some c)
    by (symmetry; apply mkm_get_row; eauto).
  cbn [expect rbind].
  replace (tx_eqb (rs_tx c) (st_tx s)) with true by (symmetry; apply tx_eqb_eq; auto).
  cbn [rassert rbind]. rewrite (mkm_remove_present _ _ _ _ Hrow). cbn [expect rbind].
  match goal with |- context [match ?x with Some _ => _ | None => _ end] => destruct x as [m|] eqn:Em end;
    [cbn; eauto|].
  apply mkm_modify_none in Em; [|apply (i_sent w Hi)].
  rewrite mkm_try_insert_fresh; auto; [cbn; eauto|].
  destruct (bget b (by_alt (sent w))) as [l|] eqn:Eb; [exfalso|exact Eb].
  apply (get_alt_row _ _ _ (i_sent w Hi)) in Eb as (k & Hs).
  rewrite <- (agree_alt w _ _ _ _ _ Hi Hrow Hs) in Hs. destruct Hs as [Hs _].
  discriminate (eq_trans (eq_sym Em) Hs).
Qed.

Section Signing.
Variable self : Principal.
Variable keccak : list N -> Hash.
Variable env : Sys -> Label -> Prop.
Hypothesis Henv : forall s l, env s l -> nonce_kept s l.

Lemma signed_iff s b x : reach self keccak env s ->
  ((exists s', apply_state_transition (sys_state s) (EvSignedTransaction b x) = Done s') <->
   exists b', unsigned (history (sys_log s)) b' = Some (st_tx x)).
Proof.
  intros Hr. destruct (reach_wlog self keccak env Henv s Hr) as (Hc & Hp & _).
  pose proof (core_wt _ _ Hc) as Hi. change (fst (sys_core s)) with (sys_state s) in Hi. split.
  - intros (s' & H). apply apply_wt in H. cbn in H.
    apply record_signed_spec in H as (b' & c & Hrow & Hx & _); auto. exists b'.
    rewrite <- (p_created _ _ Hp). destruct Hrow as [_ ->]. cbn. f_equal. exact Hx.
  - intros (b' & H). rewrite <- (p_created _ _ Hp) in H.
    destruct (bget b' (by_alt (created (withdrawals (sys_state s))))) as [c|] eqn:E; [|discriminate].
    cbn in H. injection H as H.
    apply (get_alt_row _ _ _ (i_created _ Hi)) in E as (k & Hrow).
    destruct (i_created_tx _ Hi _ _ _ Hrow) as (Hk & _). rewrite H in Hk. subst k.
    destruct (record_signed_total _ x b' c Hi Hrow H) as (w' & Hw).
    cbn [apply_state_transition]. unfold on_withdrawals. rewrite Hw. cbn. eauto.
Qed.
End Signing.

(** ** Resubmission *)

(** the transaction still covers the estimate *)
Lemma resubmit_covered t st g :
  min_max_fee_per_gas g <= tx_max_fee_per_gas t ->
  gf_max_priority_fee_per_gas g <= tx_max_priority_fee_per_gas t ->
  resubmit t st g = Done (ROk None).
Proof.
  intros H1 H2. unfold resubmit, resubmit_transaction_price. cbn [tx_price tp_max_fee_per_gas tp_max_priority_fee_per_gas].
  apply N.leb_le in H1. apply N.leb_le in H2. rewrite H1, H2. cbn [andb rbind].
  unfold price_eqb. destruct (price_dec _ _); [reflexivity|congruence].
Qed.

Lemma resubmit_loop_shape g l out :
  resubmit_loop g l = Done out ->
  exists done rest, l = done ++ rest /\
    flat_map (fun r => match r with ROk x => [x] | RErr _ => [] end) out = flat_map (replacement g) done /\
    (rest = [] \/ exists x rest', rest = x :: rest' /\ unaffordable g x).
Proof.
  revert out. induction l as [|[[k b] txs] l IH]; intros out H; cbn [resubmit_loop] in H.
  - injection H as <-. exists [], []. auto.
  - apply rbind_done in H as (last & Hl & H). apply expect_done in Hl.
    apply rbind_done in H as (r & Hr & H).
    assert (Hrep : replacement g (k, b, txs) = match r with ROk (Some t) => [(b, t)] | _ => [] end).
    { unfold replacement. cbn [snd fst]. rewrite Hl, Hr. reflexivity. }
    destruct r as [[t|]|e].
    + apply rbind_done in H as (rest & Hrest & H). injection H as <-.
      destruct (IH _ Hrest) as (d & rs & -> & Hd & Ht). exists ((k, b, txs) :: d), rs.
      split; auto. split; auto. cbn [flat_map]. rewrite Hrep. cbn [app]. f_equal. exact Hd.
    + destruct (IH _ H) as (d & rs & -> & Hd & Ht). exists ((k, b, txs) :: d), rs.
      split; auto. split; auto. cbn [flat_map]. rewrite Hrep. exact Hd.
    + injection H as <-. exists [], ((k, b, txs) :: l). split; auto. split; auto.
      right. exists (k, b, txs), l. split; auto. exists last, e. auto.
Qed.

Lemma min_max_fee_mono b p p' : p <= p' -> 
  min_max_fee_per_gas {| gf_base_fee_per_gas := b; gf_max_priority_fee_per_gas := p |} <=
  min_max_fee_per_gas {| gf_base_fee_per_gas := b; gf_max_priority_fee_per_gas := p' |}.
Proof.
  intros H. unfold min_max_fee_per_gas. cbn [gf_base_fee_per_gas gf_max_priority_fee_per_gas].
  assert (A : forall x, or_max (checked_add b x) = N.min (b + x) U256_MAX).
  { intros x. unfold checked_add. destruct (N.leb_spec (b + x) U256_MAX); cbn; lia. }
  rewrite !A. lia.
Qed.

Lemma resubmit_covers t st g t' : resubmit t st g = Done (ROk (Some t')) ->
  min_max_fee_per_gas g <= tx_max_fee_per_gas t' /\
  gf_max_priority_fee_per_gas g <= tx_max_priority_fee_per_gas t'.
Proof.
  unfold resubmit. intros H. apply rbind_done in H as (p & Hp & H).
  destruct (price_eqb p (tx_price t)) eqn:E; [discriminate|].
  destruct (_ <? _); [discriminate|]. apply rbind_done in H as (am & _ & H). injection H as <-. cbn [tx_max_fee_per_gas tx_max_priority_fee_per_gas].
  unfold resubmit_transaction_price in Hp. destruct (_ && _).
  - injection Hp as <-. unfold price_eqb in E. destruct (price_dec _ _); congruence.
  - apply rbind_done in Hp as (p10 & _ & Hp). injection Hp as <-. cbn [tp_max_fee_per_gas tp_max_priority_fee_per_gas].
    split; [|lia]. destruct g as [bf pf]. cbn [gf_base_fee_per_gas gf_max_priority_fee_per_gas].
    pose proof (min_max_fee_mono bf pf (N.max p10 pf)). lia.
Qed.

Lemma resubmit_err_iff t st g : (exists e, resubmit t st g = Done (RErr e)) <->
  exists p, resubmit_transaction_price (tx_price t) g = Done p /\ p <> tx_price t /\
    allowed_max_transaction_fee st < max_transaction_fee p.
Proof.
  unfold resubmit. split.
  - intros (e & H). apply rbind_done in H as (p & Hp & H). exists p. split; auto.
    unfold price_eqb in H. destruct (price_dec p (tx_price t)); [discriminate|]. split; auto.
    destruct (N.ltb_spec (allowed_max_transaction_fee st) (max_transaction_fee p)); auto.
    apply rbind_done in H as (? & _ & H). discriminate.
  - intros (p & Hp & Hn & Hlt). rewrite Hp. cbn [rbind]. unfold price_eqb.
    destruct (price_dec p (tx_price t)); [tauto|].
    apply N.ltb_lt in Hlt. rewrite Hlt. eauto.
Qed.
