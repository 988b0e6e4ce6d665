(** * OldestFacts: the time of the oldest incomplete withdrawal *)

From Verif Require Import Base BMap MultiKeyMap Bytes Types Amount Tx CallData Network Hex
  Transactions State Audit Ranges Rlp Parser Memo Driver Sys SysSpec SysFacts MultiKeyMapFacts ArithFacts WtInv
  WithdrawSpec OldestSpec Segments WeakSteps CoreInv BurnFacts BalanceFacts SolvencyFacts LogFacts
  WithdrawFacts StageFacts.

Lemma fold_min l x : In (fold_left N.min l x) (x :: l) /\ forall y, In y (x :: l) -> fold_left N.min l x <= y.
Proof.
  revert x. induction l as [|a l IH]; intros x; cbn [fold_left].
  - split; [left; reflexivity|]. intros y [->|[]]. lia.
  - destruct (IH (N.min x a)) as [H1 H2]. split.
    + destruct H1 as [H1|H1]; [|right; right; exact H1]. rewrite <- H1. destruct (N.min_spec x a) as [[_ ->]|[_ ->]]; cbn; auto.
    + assert (Hm : fold_left N.min l (N.min x a) <= N.min x a) by (apply H2; left; reflexivity).
      intros y [<-|[<-|Hy]]; [lia|lia|]. apply H2. right. exact Hy.
Qed.
Lemma min_opt_spec l : match min_opt l with
                       | Some t => In t l /\ forall y, In y l -> t <= y
                       | None => l = []
                       end.
Proof. destruct l as [|x l]; cbn [min_opt]; [reflexivity|]. apply fold_min. Qed.

Lemma incomplete_tables w h : wt_inv w -> repr w h ->
  forall r, In r (pending w ++ maybe_reimburse_requests w) <-> incomplete h r.
Proof.
  intros Hi Hp r. rewrite in_app_iff. unfold maybe_reimburse_requests.
  assert (Hfin : forall b, In b (map fst (finalizations h)) <-> dom b (by_alt (finalized w))).
  { intros b. split.
    - intros Hb. apply in_map_iff in Hb as ([b' x] & <- & Hb). apply (p_fin_all _ _ Hp) in Hb as (f & Hf & _). unfold dom. cbn. congruence.
    - intros Hb. apply dom_ex in Hb as (f & Hf). apply (p_fin _ _ Hp) in Hf as [Hf _]. apply in_map_iff. exists (b, ft_receipt f). auto. }
  assert (Hex : forall b, dom b (by_alt (finalized w)) -> ~ dom b (maybe_reimburse w)).
  { intros b Hb Hm. apply dom_ex in Hb as (f & Hf). apply (get_alt_row _ _ _ (i_fin w Hi)) in Hf as (k & Hf).
    apply (i_fin_excl w Hi) in Hf as (_ & _ & H1 & H2). apply (i_mr_dom w Hi) in Hm. unfold dom in Hm. intuition congruence. }
  split.
  - intros [H|H].
    + apply (p_pending _ _ Hp) in H as Hq. destruct Hq as [Ha Hc]. split; [exact Ha|]. intros Hf. apply Hfin in Hf.
      assert (Hd : dom (wr_burn_index r) (processed w)) by (apply (i_proc_dom w Hi); auto).
      apply (i_pend_fresh w Hi) in H. unfold dom in Hd. congruence.
    + apply in_map_iff in H as ([b x] & Hx & H). cbn in Hx. subst x. apply filter_In in H as [H Hm]. cbn in Hm.
      apply (bget_of_In _ _ _ (bsorted_NoDup _ (i_proc_sorted w Hi))) in H.
      apply (p_processed _ _ Hp) in H as (Ha & Hb & _). split; [exact Ha|]. rewrite Hb. intros Hf. apply Hfin, Hex in Hf. apply Hf.
      apply bmem_true in Hm as (u & Hu). unfold dom. congruence.
  - intros [Ha Hn]. destruct (in_dec N.eq_dec (wr_burn_index r) (map fst (creations h))) as [Hc|Hc].
    + right. assert (Hr : bget (wr_burn_index r) (processed w) = Some r) by (apply (p_processed _ _ Hp); auto).
      apply in_map_iff. exists (wr_burn_index r, r). split; [reflexivity|]. apply filter_In. split; [apply bget_In; exact Hr|].
      cbn. assert (Hd : dom (wr_burn_index r) (processed w)) by (unfold dom; congruence).
      apply (i_proc_dom w Hi) in Hd. assert (Hm : dom (wr_burn_index r) (maybe_reimburse w)).
      { apply (i_mr_dom w Hi). destruct Hd as [Hd|[Hd|Hd]]; auto. exfalso. apply Hn, Hfin, Hd. }
      apply bmem_true. apply dom_ex in Hm. exact Hm.
    + left. apply (p_pending _ _ Hp). auto.
Qed.

Section Reach.
Variable self : Principal.
Variable keccak : list N -> Hash.
Variable env : Sys -> Label -> Prop.

Definition dated (e : EventType) : Prop := forall r, In r (accepted_by e) -> wr_created_at r <> None.

Lemma dated_step s l s' : Trans self keccak s l s' ->
  (forall e, In e (history (sys_log s)) -> dated e) -> forall e, In e (history (sys_log s')) -> dated e.
Proof.
  intros H IH e Hin. destruct (trans_wmicros self keccak _ _ _ H) as [(now & Hw)|(a & now & _ & _ & Hu)].
  - apply wmicros_logs in Hw as ((es & Hes & Hj) & _). unfold sys_log in Hin. rewrite Hes in Hin.
    apply in_app_iff in Hin as [Hin|He]; [apply IH; exact Hin|]. apply Hj in He.
    destruct l as [k n|u n|id r|id trap n|a n]; cbn [step_emits] in He; try destruct He.
    + destruct u; cbn in H0; try destruct H0. destruct H1 as (tk & _ & ->). intros r [].
    + destruct H0 as (r & Hget & He). destruct He as [[(st & He)|(g & i & y & _ & [-> | ->])]|He].
      * apply emits_inv in He. destruct e; try (intros q Hq; destruct Hq; fail); intros q Hq; destruct Hq as [<-|[]]; cbn [emits_of] in He.
        -- destruct He as (j & b & _ & _ & ->). discriminate.
        -- destruct He as (j & i & b & _ & _ & ->). discriminate.
      * intros q [].
      * intros q [].
      * destruct x; cbn in He; try destruct He as [<-|[]]; try destruct He; intros q [].
  - unfold sys_log, canister_upgrade, post_upgrade in *. apply rbind_done in Hu as (st & _ & Hu).
    assert (Hp : In e (history (pre_upgrade now (sys_core s))) -> dated e).
    { unfold pre_upgrade, record_event, history. rewrite map_app, in_app_iff. intros [Hp|[<-|[]]]; [apply IH; exact Hp|intros q []]. }
    destruct a as [a|].
    + apply process_history in Hu as (Hu & _). rewrite Hu in Hin. cbn [snd] in Hin. apply in_app_iff in Hin as [Hin|[<-|[]]]; [exact (Hp Hin)|intros q []].
    + injection Hu as Hu. rewrite <- Hu in Hin. exact (Hp Hin).
Qed.

Lemma dated_reach s : reach self keccak env s -> forall e, In e (history (sys_log s)) -> dated e.
Proof.
  intros Hr. revert s Hr. apply (reach_inv self keccak env (fun s => forall e, In e (history (sys_log s)) -> dated e)).
  - intros now a s0 H e Hin. apply sys_init_inv in H as (st & Hi & Hcore & _). unfold sys_log in Hin. rewrite Hcore in Hin.
    cbn in Hin. destruct Hin as [<-|[]]. intros q [].
  - intros x l x' IH _ H. exact (dated_step x l x' H IH).
Qed.

Lemma accepted_dated s r : reach self keccak env s -> In r (accepted (history (sys_log s))) ->
  exists t, wr_created_at r = Some t.
Proof.
  intros Hr Hin. unfold accepted in Hin. apply in_flat_map in Hin as (e & He & Hin).
  pose proof (dated_reach s Hr e He r Hin) as H. destruct (wr_created_at r) as [t|]; [eauto|congruence].
Qed.
End Reach.
