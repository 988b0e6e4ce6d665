(** * RefuseFacts: every recorded fate of an entry comes from an answer, and the reason is true *)

From Verif Require Import Base BMap MultiKeyMap Bytes Types Amount Tx CallData Network Hex
  Transactions State Audit Ranges Rlp Parser Memo Driver Sys SysSpec SysFacts WithdrawSpec DepositSpec
  TokenSpec ReimburseSpec BurnSpec ParserSpec RefuseSpec
  Segments WeakSteps CoreInv BurnFacts Deposits ParserFacts BalanceFacts SolvencyFacts LogFacts ScrapeFacts.

Lemma no_address_word w : List.length w = 32%nat -> byte_list w -> address_of_word w = None -> no_address w.
Proof.
  intros Hl Hb H a Ha Hw. assert (E : address_of_word w = Some a) by (apply address_of_word_num; auto). congruence.
Qed.

Lemma refused_defect e src x : wire e -> parse_log e = Done (RErr (InvalidEventSource src x)) ->
  (exists b, mined e b (fst src) (snd src)) /\ defect x e.
Proof.
  intros [Hw Hd] H. unfold parse_log in H.
  destruct (ensure_not_pending e) as [[b [h i]]|y] eqn:Em; unfold perr in H.
  2:{ exfalso. injection H as ->. unfold ensure_not_pending in Em.
      destruct (le_block_hash e), (le_block_number e), (le_transaction_hash e), (le_transaction_index e), (le_log_index e); discriminate Em. }
  apply ensure_ok in Em.
  assert (G : forall r : res (result ReceivedDepositEvent DepositError), forall z, r = Done (RErr (InvalidEventSource (h, i) z)) -> defect z e ->
    r = Done (RErr (InvalidEventSource src x)) -> (exists b, mined e b (fst src) (snd src)) /\ defect x e).
  { intros r z -> Hz Hr. injection Hr as <- <-. split; [exists b; exact Em|exact Hz]. }
  destruct (le_removed e) eqn:Er; [eapply G; [reflexivity| |exact H]; exact Er|].
  destruct (Nat.eqb_spec (List.length (le_topics e)) 4) as [Hl|Hl].
  2:{ eapply G; [reflexivity| |exact H]. intros t a p E. apply Hl. rewrite E. reflexivity. }
  destruct (le_topics e) as [|t0 [|t1 [|t2 [|t3 [|]]]]] eqn:Et; try discriminate Hl. cbn [andb] in H.
  destruct (bytes_eqb t0 DEPOSIT_TOPIC) eqn:E0.
  2:{ eapply G; [reflexivity| |exact H]. intros t a p E. rewrite Et in E. injection E as -> _ _ _. 
      rewrite bytes_eqb_refl in E0. discriminate E0. }
  cbn [negb] in H. destruct (Nat.eqb_spec (List.length (le_data e)) 64) as [H64|H64].
  2:{ eapply G; [reflexivity| |exact H]. exact H64. }
  cbn [negb] in H. cbv zeta in H.
  assert (Hf : List.length (firstn 32 (le_data e)) = 32%nat /\ byte_list (firstn 32 (le_data e))).
  { split; [rewrite firstn_length, H64; reflexivity|]. unfold byte_list in *. pose proof Hd as Hd'. rewrite <- (firstn_skipn 32 (le_data e)) in Hd'.
    apply Forall_app in Hd' as [Hd' _]. exact Hd'. }
  destruct (address_of_word (firstn 32 (le_data e))) as [from|] eqn:Ef.
  2:{ eapply G; [reflexivity| |exact H]. left. apply no_address_word; [apply Hf|apply Hf|exact Ef]. }
  cbn [nth_error expect rbind] in H.
  inversion Hw as [|w0 l0 _ Hw1]. inversion Hw1 as [|w1 l1 Ht1 _]. subst.
  destruct (address_of_word t1) as [token|] eqn:Ek.
  2:{ eapply G; [reflexivity| |exact H]. right. exists t1. rewrite Et. split; [reflexivity|].
      apply no_address_word; [apply Ht1|apply Ht1|exact Ek]. }
  destruct (parse_principal_total t3) as ([p|] & Hp); rewrite Hp in H; cbn [rbind] in H; [discriminate H|].
  eapply G; [reflexivity| |exact H]. split; [rewrite Et; reflexivity|]. intros p Ho Hh.
  assert (Hp' : parse_principal_from_slice t3 = Done (Some p)).
  { apply parse_principal_iff. split; [|split; assumption].
    rewrite Forall_forall in Hw. destruct (Hw t3) as [L _]; [rewrite ?Et; cbn; tauto|]. rewrite L. apply le_n. }
  congruence.
Qed.

Section Reach.
Variable self : Principal.
Variable keccak : list N -> Hash.
Variable env : Sys -> Label -> Prop.

Definition answered_so (s : Sys) (e : EventType) : Prop :=
  exists range logs ds es, In (range, LogsOk logs) (sys_queries s) /\ parse_all_logs logs = Done (ds, es) /\
    In e (register_events ds es).

Lemma queries_grow s l s' : Trans self keccak s l s' -> exists qs, sys_queries s' = sys_queries s ++ qs.
Proof.
  destruct 1; cbn [bump_next sys_queries]; rewrite ?install_queries;
    cbn [with_core with_call with_queries with_outcome with_op with_tasks sys_queries answered];
    try (exists []; rewrite app_nil_r; reflexivity); eexists; reflexivity.
Qed.

Lemma answered_step s l s' e : Trans self keccak s l s' -> about_entry e ->
  In e (history (sys_log s')) -> In e (history (sys_log s)) \/ answered_so s' e.
Proof.
  intros H Ha Hin. destruct (trans_wmicros self keccak _ _ _ H) as [(now & Hw)|(a & now & _ & _ & Hu)].
  - apply wmicros_logs in Hw as ((es & Hes & Hj) & _). unfold sys_log in Hin. rewrite Hes in Hin.
    apply in_app_iff in Hin as [Hin|He]; [left; exact Hin|]. pose proof He as He0. apply Hj in He.
    destruct l as [k n|u n|id r|id trap n|a n]; cbn [step_emits] in He; try destruct He.
    + exfalso. destruct u; cbn in H0; try destruct H0. destruct H1 as (tk & _ & ->). destruct Ha.
    + destruct H0 as (r & Hget & He).
      assert (Hemit : exists j logs ds es', x = TScrapeLogs j /\ r = ReLogs (LogsOk logs) /\
        parse_all_logs logs = Done (ds, es') /\ In e (register_events ds es')).
      { destruct He as [[(st & He)|(g & i & y & _ & [-> | ->])]|He].
        - apply emits_inv in He. destruct e; try destruct Ha; exact He.
        - destruct Ha.
        - destruct Ha.
        - exfalso. destruct x; cbn in He; try destruct He as [<-|[]]; try destruct He; destruct Ha. }
      destruct Hemit as (j & logs & ds & es' & -> & -> & Hpa & Hev).
      assert (Hs : sys_queries s' = sys_queries s ++ task_query (TScrapeLogs j) (ReLogs (LogsOk logs)) \/ sys_log s' = sys_log s).
      { clear Hev Hpa He0 Hes Hj. inversion H as [| | | | | | |i0 n0 t0 r0 c0 nx0 Hc0 Hg0 Hr0|i0 tr0 n0 t0 r0 c0 Hc0 Hg0 Hp0 Hr0|]; subst.
        - right. reflexivity.
        - left. rewrite Hg0 in Hget. injection Hget as -> ->. rewrite install_queries. reflexivity.
        - right. rewrite Hg0 in Hget. injection Hget as -> ->. cbn in Hr0. injection Hr0 as <-. reflexivity. }
      destruct Hs as [Hs|Hs].
      * right. exists (sj_current j), logs, ds, es'. split; [|auto]. rewrite Hs. apply in_or_app. right. left. reflexivity.
      * left. rewrite <- Hs. unfold sys_log. rewrite Hes. apply in_or_app. right. exact He0.
  - left. unfold sys_log, canister_upgrade, post_upgrade in *. apply rbind_done in Hu as (st & _ & Hu).
    assert (Hp : In e (history (pre_upgrade now (sys_core s))) -> In e (history (snd (sys_core s)))).
    { unfold pre_upgrade, record_event, history. rewrite map_app, in_app_iff. intros [Hp|[<-|[]]]; [exact Hp|destruct Ha]. }
    destruct a as [a|].
    + apply process_history in Hu as (Hu & _). rewrite Hu in Hin. cbn [snd] in Hin. apply in_app_iff in Hin as [Hin|[<-|[]]]; [exact (Hp Hin)|destruct Ha].
    + injection Hu as Hu. rewrite <- Hu in Hin. exact (Hp Hin).
Qed.

Lemma answered_reach s e : reach self keccak env s -> about_entry e -> In e (history (sys_log s)) -> answered_so s e.
Proof.
  intros Hr Ha. revert s Hr. apply (reach_inv self keccak env (fun s => In e (history (sys_log s)) -> answered_so s e)).
  - intros now a s0 H Hin. apply sys_init_inv in H as (st & Hi & Hcore & _). unfold sys_log in Hin. rewrite Hcore in Hin.
    cbn in Hin. destruct Hin as [<-|[]]. destruct Ha.
  - intros x l x' IH _ H Hin. destruct (answered_step x l x' e H Ha Hin) as [Hi|Hs]; [|exact Hs].
    destruct (IH Hi) as (range & logs & ds & es & Hq & Hp & He). exists range, logs, ds, es. split; [|auto].
    destruct (queries_grow x l x' H) as (qs & ->). apply in_or_app. left. exact Hq.
Qed.
End Reach.

Lemma refused_answer self keccak env s src reason : reach self keccak env s ->
  In (EvInvalidDeposit src reason) (history (sys_log s)) ->
  exists range logs e x, In (range, LogsOk logs) (sys_queries s) /\ In e logs /\
    parse_log e = Done (RErr (InvalidEventSource src x)) /\ reason = error_text x.
Proof.
  intros Hr Hin. destruct (answered_reach self keccak env s (EvInvalidDeposit src reason) Hr Logic.I Hin) as (range & logs & ds & es & Hq & Hp & He).
  unfold register_events in He. apply in_app_iff in He as [He|He].
  - exfalso. apply in_map_iff in He as (d & E & _). destruct d; discriminate E.
  - apply in_flat_map in He as (y & Hy & He). destruct y as [|src' x]; [destruct He|]. destruct He as [E|[]]. injection E as -> <-.
    apply (proj1 (proj1 (proj2 (parse_all_spec _ _ _ Hp)) _)) in Hy as (e & Hel & Hpe). exists range, logs, e, x. auto.
Qed.
Lemma accepted_answer self keccak env s d : reach self keccak env s -> deposit_accepted (sys_log s) d ->
  exists range logs e, In (range, LogsOk logs) (sys_queries s) /\ In e logs /\ parse_log e = Done (ROk d).
Proof.
  intros Hr Hin. assert (Ha : about_entry (into_deposit d)) by (destruct d; exact Logic.I).
  assert (Hd : In (into_deposit d) (history (sys_log s))) by (destruct d; exact Hin).
  destruct (answered_reach self keccak env s _ Hr Ha Hd) as (range & logs & ds & es & Hq & Hp & He).
  unfold register_events in He. apply in_app_iff in He as [He|He].
  - apply in_map_iff in He as (d' & E & Hd'). assert (d' = d) as -> by (destruct d, d'; inversion E; reflexivity).
    apply (proj1 (proj1 (parse_all_spec _ _ _ Hp) d)) in Hd' as (e & Hel & Hpe). exists range, logs, e. auto.
  - exfalso. apply in_flat_map in He as (y & _ & He). destruct y as [|src' x]; [destruct He|]. destruct He as [E|[]]. destruct d; discriminate E.
Qed.
