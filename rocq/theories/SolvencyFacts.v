(** * Proofs about solvency (C31, C32). *)

From Coq Require Import Permutation ZArith.
From Verif Require Import Base BMap MultiKeyMap MultiKeyMapFacts Bytes Types Amount ArithFacts Tx CallData
  CodecFacts Network Hex Transactions State Audit Ranges Rlp Parser Memo Driver Sys SysSpec WtInv StateEquiv
  TxSpec WtContent Segments Tasks SysFacts CoreInv Lifting WithdrawSpec WithdrawFacts StageFacts
  GuardSpec Guards GuardFacts WeakSteps LogFacts UpgradeFacts DepositSpec Deposits MintFacts TokenSpec TokenFacts
  ReimburseSpec ReimburseFacts BurnSpec BurnFacts RecordSpec RecordFacts BalanceSpec BalanceFacts SolvencySpec.

(** ** One event *)

Definition wait_sum (a : Asset) (s : State) : N := bsum (fun _ e => deposit_part a e) (events_to_mint s).
Definition repay_sum (a : Asset) (s : State) : N :=
  bsum (fun i q => repay_part (native_ledger_id s) a i q) (reimb_requests (withdrawals s)).

(** What is held, less what is owed and recorded *)
Definition net (a : Asset) (s : State) (h : list EventType) : Z :=
  (Z.of_N (held a s) - Z.of_N (unspent a s) - Z.of_N (wait_sum a s) - Z.of_N (outstanding a h) - Z.of_N (repay_sum a s))%Z.

(** the new debts that an event records *)
Definition uses (native : Principal) (a : Asset) (e : EventType) : N :=
  match e with
  | EvAcceptedNativeWithdrawalRequest r => request_part a (WNative r)
  | EvAcceptedErc20WithdrawalRequest r => request_part a (WErc20 r)
  | EvFailedErc20WithdrawalRequest q => on_ledger native a native (rr_reimbursed_amount q)
  | _ => 0
  end.
(** the debts that an event says are paid *)
Definition waiting_part (a : Asset) (s : State) (src : EventSource) : N :=
  match bget src (events_to_mint s) with Some d => deposit_part a d | None => 0 end.
Definition owing_part (a : Asset) (s : State) (i : ReimbursementIndex) : N :=
  match bget i (reimb_requests (withdrawals s)) with Some q => repay_part (native_ledger_id s) a i q | None => 0 end.
Definition frees (a : Asset) (s : State) (e : EventType) : N :=
  match e with
  | EvMintedNative src _ | EvMintedErc20 src _ _ _ | EvQuarantinedDeposit src => waiting_part a s src
  | EvReimbursedNativeWithdrawal d => owing_part a s (RINative (rd_burn_in_block d))
  | EvReimbursedErc20Withdrawal b l d => owing_part a s (RIErc20 b l (rd_burn_in_block d))
  | EvQuarantinedReimbursement i => owing_part a s i
  | _ => 0
  end.

(** The ledgers of a request fit the asset *)
Definition consistent (native : Principal) (a : Asset) (r : WithdrawalRequest) : Prop :=
  match a, r with
  | Native, WErc20 q => ew_erc20_ledger_id q <> native
  | Token c l, WErc20 q => ew_erc20_contract_address q = c <-> ew_erc20_ledger_id q = l
  | _, _ => True
  end.
Definition apart (native : Principal) (a : Asset) : Prop :=
  match a with Native => True | Token _ l => l <> native end.

Lemma on_ledger_eq native a l n : l = asset_ledger native a -> on_ledger native a l n = n.
Proof. intros ->. unfold on_ledger. rewrite bytes_eqb_refl. reflexivity. Qed.
Lemma on_ledger_ne native a l n : l <> asset_ledger native a -> on_ledger native a l n = 0.
Proof.
  intros H. unfold on_ledger. destruct (bytes_eqb _ _) eqn:E; auto. apply bytes_eqb_eq in E. contradiction.
Qed.
Lemma on_ledger_le native a l n : on_ledger native a l n <= n.
Proof. unfold on_ledger. destruct (bytes_eqb _ _); lia. Qed.
Lemma bytes_dec (a b : list N) : a = b \/ a <> b.
Proof. destruct (bytes_eqb a b) eqn:E; [left; apply bytes_eqb_eq; auto|right; intros ->; rewrite bytes_eqb_refl in E; discriminate]. Qed.

Lemma wait_remove a (m : bmap EventSource ReceivedDepositEvent) src : bsorted m ->
  bsum (fun _ e => deposit_part a e) m =
  match bget src m with Some d => deposit_part a d | None => 0 end + bsum (fun _ e => deposit_part a e) (bremove src m).
Proof.
  intros Hs. destruct (bget src m) as [d|] eqn:E.
  - exact (bsum_remove (fun _ e => deposit_part a e) src d m (bsorted_NoDup _ Hs) E).
  - rewrite bremove_notin by auto. reflexivity.
Qed.
Lemma repay_remove native a (m : bmap ReimbursementIndex ReimbursementRequest) i : bsorted m ->
  bsum (fun i q => repay_part native a i q) m =
  match bget i m with Some q => repay_part native a i q | None => 0 end + bsum (fun i q => repay_part native a i q) (bremove i m).
Proof.
  intros Hs. destruct (bget i m) as [d|] eqn:E.
  - exact (bsum_remove (fun i q => repay_part native a i q) i d m (bsorted_NoDup _ Hs) E).
  - rewrite bremove_notin by auto. reflexivity.
Qed.

Definition into_part (a : Asset) (e : EventType) : N :=
  match e with
  | EvAcceptedDeposit x => deposit_part a (DepNative x)
  | EvAcceptedErc20Deposit x => deposit_part a (DepErc20 x)
  | _ => 0
  end.
Definition wait_out (a : Asset) (s : State) (e : EventType) : N :=
  match e with
  | EvMintedNative src _ | EvMintedErc20 src _ _ _ | EvQuarantinedDeposit src => waiting_part a s src
  | _ => 0
  end.
Lemma wait_event a s e s' : bsorted (events_to_mint s) -> apply_state_transition s e = Done s' ->
  wait_sum a s' + wait_out a s e = wait_sum a s + into_part a e.
Proof.
  intros Hs Ha. apply apply_dv in Ha. unfold wait_sum.
  change (events_to_mint s') with (dv_wait (dv s')). change (events_to_mint s) with (dv_wait (dv s)) in *.
  remember (dv s') as v'. remember (dv s) as v.
  assert (Hw : forall src, waiting_part a s src = match bget src (dv_wait v) with Some d => deposit_part a d | None => 0 end)
    by (intros; subst; reflexivity).
  destruct Ha as [d H1 H2 H3 H4|src r H1 H2|src|e src b sy c d Hm H1 H2 H3|t m Hm|x|e He].
  - cbn [dv_accept dv_wait]. rewrite bsum_insert_new by auto. destruct d; cbn [into_deposit wait_out into_part]; lia.
  - cbn. rewrite bremove_notin by auto. lia.
  - cbn [wait_out into_part dv_reject dv_wait]. rewrite Hw. pose proof (wait_remove a (dv_wait v) src Hs). lia.
  - assert (E : wait_out a s e = waiting_part a s src /\ into_part a e = 0).
    { destruct e; try discriminate Hm; injection Hm as <- _ _ _; split; reflexivity. }
    destruct E as [-> ->]. rewrite Hw. cbn [dv_mint dv_wait]. pose proof (wait_remove a (dv_wait v) src Hs). lia.
  - reflexivity.
  - reflexivity.
  - destruct e; try contradiction; cbn; lia.
Qed.

(** the requests that are not finalized *)
Lemma open_snoc h e r : finalized_by e = [] -> open_request (h ++ [e]) r = open_request h r.
Proof. intros H. unfold open_request. rewrite finalizations_snoc, H, app_nil_r. reflexivity. Qed.
Lemma outstanding_same a h e : accepted_by e = [] -> finalized_by e = [] -> outstanding a (h ++ [e]) = outstanding a h.
Proof.
  intros H1 H2. unfold outstanding. rewrite WithdrawFacts.accepted_snoc, H1, app_nil_r. f_equal. apply filter_ext.
  intros r. apply open_snoc; auto.
Qed.
Lemma open_true h r : open_request h r = true <-> ~ In (wr_burn_index r) (map fst (finalizations h)).
Proof.
  unfold open_request. rewrite negb_true_iff. split.
  - intros H Hin. apply in_map_iff in Hin as (x & Hx & Hin).
    assert (existsb (fun x => fst x =? wr_burn_index r) (finalizations h) = true); [|congruence].
    apply existsb_exists. exists x. split; auto. apply N.eqb_eq; auto.
  - intros H. destruct (existsb _ _) eqn:E; auto. apply existsb_exists in E as (x & Hin & E). apply N.eqb_eq in E.
    destruct H. rewrite <- E. apply in_map; auto.
Qed.
Lemma outstanding_accept a h e r : accepted_by e = [r] -> finalized_by e = [] -> open_request h r = true ->
  outstanding a (h ++ [e]) = outstanding a h + request_part a r.
Proof.
  intros H1 H2 H3. unfold outstanding. rewrite WithdrawFacts.accepted_snoc, H1, filter_app, sum_of_app.
  rewrite (filter_ext _ (open_request h)) by (intros; apply open_snoc; auto).
  cbn [filter]. rewrite open_snoc, H3, sum_of_one by auto. reflexivity.
Qed.
Lemma sum_split {A} (f : A -> N) (p q : A -> bool) l x :
  NoDup l -> In x l -> p x = true -> q x = false -> (forall y, In y l -> y <> x -> q y = p y) ->
  sum_of f (filter p l) = f x + sum_of f (filter q l).
Proof.
  induction l as [|a l IH]; [intros _ []|]. intros Hn Hin Hp Hq Hy. inversion Hn as [|? ? Ha Hn']; subst.
  cbn [filter]. destruct Hin as [->|Hin].
  - rewrite Hp, Hq, sum_of_cons. f_equal. f_equal. apply filter_ext_in. intros y Hyl. symmetry. apply Hy; [right; auto|].
    intros ->. auto.
  - assert (a <> x) by (intros ->; auto). rewrite (Hy a) by (auto; left; auto).
    destruct (p a); rewrite ?sum_of_cons, IH; auto; try lia; intros; apply Hy; auto; right; auto.
Qed.
Lemma outstanding_finalized a h b rc r : NoDup (map wr_burn_index (accepted h)) -> In r (accepted h) -> wr_burn_index r = b ->
  ~ In b (map fst (finalizations h)) ->
  outstanding a h = request_part a r + outstanding a (h ++ [EvFinalizedTransaction b rc]).
Proof.
  intros Hn Hin Hb Hf. unfold outstanding. rewrite WithdrawFacts.accepted_snoc. cbn [accepted_by]. rewrite app_nil_r.
  apply sum_split; auto.
  - eapply NoDup_map_inv; eauto.
  - apply open_true. congruence.
  - destruct (open_request _ r) eqn:E; auto. apply open_true in E. destruct E. rewrite finalizations_snoc, map_app.
    apply in_or_app. right. left. cbn. auto.
  - intros y Hy Hne.
    assert (Hyb : wr_burn_index y <> b).
    { intros E. apply Hne. eapply (nodup_burn_unique (accepted h)); eauto. congruence. }
    unfold open_request. f_equal. rewrite finalizations_snoc. cbn [finalized_by]. rewrite existsb_app. cbn.
    destruct (N.eqb_spec b (wr_burn_index y)); [congruence|]. rewrite !orb_false_r. reflexivity.
Qed.

Lemma filter_open_in h r : In r (accepted h) -> open_request h r = true -> In r (filter (open_request h) (accepted h)).
Proof. intros. apply filter_In. auto. Qed.

Section Events.
Variable self : Principal.
Variable keccak : list N -> Hash.

Definition known_core (c : Core) : Prop := wbooks c /\ dep_ok c.

(** the books, from the log *)
Lemma funds_log a c : books c ->
  (Z.of_N (held a (fst c)) - Z.of_N (unspent a (fst c)) =
   match a with
   | Native => Z.of_N (native_deposits (history (snd c))) - Z.of_N (sum_of spent (settlements (history (snd c)))) -
       Z.of_N (sum_of charged (settlements (history (snd c)))) + Z.of_N (sum_of gas_fee (settlements (history (snd c))))
   | Token t _ => Z.of_N (erc20_deposits t (history (snd c))) - Z.of_N (sum_of (spent_erc20 t) (settlements (history (snd c))))
   end)%Z.
Proof.
  intros [_ _ _ B1 B2 B3 B4]. destruct a as [|t l]; cbn [held unspent]; [lia|]. specialize (B4 t). lia.
Qed.
(** what a finalized withdrawal takes from the funds *)
Definition taken (a : Asset) (x : Settlement) : Z :=
  match a with
  | Native => (Z.of_N (spent x) + Z.of_N (charged x) - Z.of_N (gas_fee x))%Z
  | Token t _ => Z.of_N (spent_erc20 t x)
  end.
Definition settled_now (h : list EventType) (e : EventType) : list Settlement := flat_map (settlement h) (finalized_by e).
Lemma funds_event now a s s' e log : books (s, log) -> books (s', record_event now e log) ->
  (Z.of_N (held a s') - Z.of_N (unspent a s') =
   Z.of_N (held a s) - Z.of_N (unspent a s) + Z.of_N (into_part a e) -
   match settled_now (history log ++ [e]) e with [x] => taken a x | _ => 0 end)%Z.
Proof.
  intros B B'. pose proof (funds_log a _ B) as F. pose proof (funds_log a _ B') as F'. cbn [fst snd] in F, F'.
  rewrite F, F'. clear F F'. rewrite history_snoc. pose proof (settlements_snoc (history log) e (bk_found _ B)) as Hs.
  fold (settled_now (history log ++ [e]) e) in Hs. rewrite Hs.
  assert (Hl : settled_now (history log ++ [e]) e = [] \/ exists x, settled_now (history log ++ [e]) e = [x]).
  { unfold settled_now. destruct e; cbn; auto. rewrite app_nil_r. unfold settlement.
    destruct (find _ _); auto. destruct (find _ _); eauto. }
  rewrite !deposits_snoc. destruct a as [|t l].
  - rewrite !sum_of_app.
    assert (D : native_deposit e = into_part Native e) by (destruct e; reflexivity). rewrite D.
    destruct Hl as [->|(x & ->)]; rewrite ?sum_of_nil, ?sum_of_one; unfold taken; lia.
  - rewrite !sum_of_app, erc20_deposits_snoc.
    assert (D : erc20_deposit t e = into_part (Token t l) e) by (destruct e; reflexivity). rewrite D.
    destruct Hl as [->|(x & ->)]; rewrite ?sum_of_nil, ?sum_of_one; unfold taken; lia.
Qed.

(** what a new reimbursement adds *)
Lemma repay_insert a s s' i q : native_ledger_id s' = native_ledger_id s ->
  (exists w, reimb_requests w = reimb_requests (withdrawals s) /\ record_reimbursement_request i q w = Done (withdrawals s')) ->
  repay_sum a s' = repay_sum a s + repay_part (native_ledger_id s) a i q.
Proof.
  intros Hn (w & Hw & H). unfold record_reimbursement_request in H. inv_res.
  unfold repay_sum. rewrite Hn. rewrite <- H. cbn [set_reimb_requests reimb_requests].
  apply negb_true_iff, bmem_false in H2. rewrite Hw in *. rewrite bsum_insert_new by auto. lia.
Qed.
Lemma repay_same a s s' : native_ledger_id s' = native_ledger_id s ->
  reimb_requests (withdrawals s') = reimb_requests (withdrawals s) -> repay_sum a s' = repay_sum a s.
Proof. intros H1 H2. unfold repay_sum. rewrite H1, H2. reflexivity. Qed.
Lemma repay_done a s s' i : bsorted (reimb_requests (withdrawals s)) -> native_ledger_id s' = native_ledger_id s ->
  reimb_requests (withdrawals s') = bremove i (reimb_requests (withdrawals s)) ->
  repay_sum a s' + owing_part a s i = repay_sum a s.
Proof.
  intros Hs H1 H2. unfold repay_sum, owing_part. rewrite H1, H2.
  pose proof (repay_remove (native_ledger_id s) a (reimb_requests (withdrawals s)) i Hs). lia.
Qed.

Lemma net_event now a s s' e log :
  core_ok keccak (s, log) -> wbooks (s, log) -> wbooks (s', record_event now e log) -> dep_ok (s, log) ->
  apart (native_ledger_id s) a -> (forall r, In r (accepted (history log)) -> consistent (native_ledger_id s) a r) ->
  apply_state_transition s e = Done s' ->
  (net a s' (history log ++ [e]) + Z.of_N (uses (native_ledger_id s) a e) = net a s (history log) + Z.of_N (frees a s e))%Z.
Proof.
  intros Hc [(Hrep & _ & Hserve) B] [(Hrep' & _ & _) B'] Hd Hap Hcon Ha. cbn [fst snd] in Hrep, Hserve, Hrep'.
  rewrite history_snoc in Hrep'.
  pose proof (core_wt _ _ Hc) as Hi. cbn in Hi.
  pose proof (hist_good _ _ Hd) as Hh. pose proof (ho_wait_sorted _ _ Hh) as Hws. cbn in Hws.
  pose proof (wait_event a s e s' Hws Ha) as Hw.
  pose proof (funds_event now a s s' e log B B') as Hf.
  pose proof (i_rq_sorted _ Hi) as Hrs.
  destruct (apply_same _ _ _ Ha) as ((_ & Hn & _) & _).
  pose proof (apply_wt _ _ _ Ha) as Hwt.
  unfold net.
  destruct (no_failure e) eqn:Ef.
  - (* no change of the reimbursements *)
    destruct (no_failure_tables _ _ _ Ef Hwt) as [Er _]. rewrite (repay_same a s s' Hn Er).
    assert (Hfin : finalized_by e = []) by (destruct e; try discriminate Ef; reflexivity).
    assert (Hset : settled_now (history log ++ [e]) e = []) by (unfold settled_now; rewrite Hfin; reflexivity).
    rewrite Hset in Hf.
    assert (Hfr : frees a s e = wait_out a s e) by (destruct e; try discriminate Ef; reflexivity). rewrite Hfr.
    destruct (accepted_by e) as [|r rs] eqn:Eacc.
    + rewrite (outstanding_same a _ _ Eacc Hfin).
      assert (Hu : uses (native_ledger_id s) a e = 0) by (destruct e; try discriminate Ef; try discriminate Eacc; reflexivity).
      rewrite Hu. lia.
    + assert (E : accepted_by e = [r] /\ uses (native_ledger_id s) a e = request_part a r /\ into_part a e = 0 /\ wait_out a s e = 0).
      { destruct e; try discriminate Eacc; cbn in Eacc; injection Eacc as <- <-; cbn; auto. }
      clear Eacc. destruct E as (Eacc & Eu & E1 & E2).
      rewrite Eu, E1, E2 in *. rewrite (outstanding_accept a _ _ r Eacc Hfin); [lia|]. apply open_true.
      intros Hin. apply in_map_fst in Hin as (rc & Hin). destruct (p_fin_all _ _ Hrep _ _ Hin) as (f & Hfn & _).
      apply (p_fin _ _ Hrep) in Hfn as [_ Hatt]. apply attempt_made in Hatt. apply Hserve in Hatt as (r0 & Hr0 & Hb0 & _).
      pose proof (p_acc_nodup _ _ Hrep') as Hnd. rewrite WithdrawFacts.accepted_snoc, Eacc, map_app in Hnd.
      apply NoDup_remove_2 in Hnd. apply Hnd. rewrite app_nil_r. rewrite <- Hb0. apply in_map; auto.
  - destruct e; try discriminate Ef; clear Ef; cbn [wait_out into_part] in Hw, Hf; cbn [uses frees].
    + (* finalized *)
      set (h := history log) in *. set (b := withdrawal_id) in *. set (rc := receipt) in *.
      destruct (finalized_settlement s s' b rc log Hi Hrep Hserve Ha)
        as (req & x & w & Hacc & Hb & Hx & Hfnd & Hse & _ & _ & _ & Hsv & Hwr & Hfin & _ & _).
      fold h in Hacc, Hx, Hfnd, Hse.
      destruct (found_snoc _ (EvFinalizedTransaction b rc) _ Hfnd) as [_ Hse'].
      unfold settled_now in Hf. cbn [finalized_by flat_map] in Hf. rewrite Hse', Hse, app_nil_r in Hf.
      set (z := {| se_request := req; se_signed := x; se_receipt := rc |}) in *.
      assert (Hnf : ~ In b (map fst (finalizations h))).
      { pose proof (p_fin_nodup _ _ Hrep') as Hnd. rewrite finalizations_snoc in Hnd. cbn [finalized_by] in Hnd.
        rewrite map_app in Hnd. apply NoDup_remove_2 in Hnd. rewrite app_nil_r in Hnd. exact Hnd. }
      rewrite (outstanding_finalized a h b rc req (p_acc_nodup _ _ Hrep) Hacc Hb Hnf).
      assert (Hrp : repay_sum a s' = repay_sum a s +
        (if mined_ok z then 0 else repay_part (native_ledger_id s) a (ri_of_request req) (reimbursement_of req b {| ft_tx := x; ft_receipt := rc |} rc))).
      { cbn in Hwt. assert (Ew : w = withdrawals s') by congruence.
        apply record_finalized_spec in Hwr as (k & l & x' & req' & _ & _ & _ & Hreq & _ & _ & Ht); auto.
        cbn zeta in Ht. pose proof Hfin as Hfin'. subst w.
        assert (E : ft_tx {| ft_tx := rs_tx x'; ft_receipt := rc |} = x /\ req' = req).
        { split.
          - assert (Hg : mkm_get_alt b (finalized (withdrawals s')) = Some {| ft_tx := rs_tx x'; ft_receipt := rc |}).
            { destruct (is_failure (rc_status rc)).
              - unfold record_reimbursement_request in Ht. inv_res. rewrite <- Ht. unfold mkm_get_alt, finalized_tables. cbn. apply bget_insert_eq.
              - rewrite Ht. unfold mkm_get_alt, finalized_tables. cbn. apply bget_insert_eq. }
            rewrite Hg in Hfin'. cbn. congruence.
          - apply (p_processed _ _ Hrep) in Hreq as (Hr1 & Hr2 & _).
            eapply (nodup_burn_unique (accepted h)); eauto; [apply (p_acc_nodup _ _ Hrep)|congruence]. }
        cbn in E. destruct E as [E ->]. unfold SignedTxRequest in *. rewrite E in Ht.
        unfold mined_ok, z. cbn [se_receipt]. destruct (rc_status rc); cbn [is_failure] in Ht.
        - rewrite N.add_0_r. apply repay_same; auto. rewrite Ht. reflexivity.
        - apply repay_insert; auto. exists (finalized_tables k b {| ft_tx := x; ft_receipt := rc |} (withdrawals s)). split; auto. }
      rewrite Hrp. clear Hrp.
      assert (Hmain : (taken a z + Z.of_N (if mined_ok z then 0 else repay_part (native_ledger_id s) a (ri_of_request req) (reimbursement_of req b {| ft_tx := x; ft_receipt := rc |} rc))
        = Z.of_N (request_part a req))%Z).
      { specialize (Hcon req Hacc).
        destruct req as [q|q]; cbn [ri_of_request reimbursement_of]; unfold repay_part; cbn [pay_ledger rr_reimbursed_amount ft_tx].
        - destruct Hsv as (_ & _ & _ & _ & _ & Hsv). destruct a as [|t l]; cbn [taken request_part].
          + unfold spent, charged, z. cbn [se_request se_signed]. rewrite on_ledger_eq by reflexivity.
            destruct (mined_ok _); lia.
          + unfold spent_erc20, z. cbn [se_request]. rewrite on_ledger_ne by (cbn in *; congruence). destruct (mined_ok _); lia.
        - destruct Hsv as (_ & _ & _ & Hsv & _). destruct a as [|t l]; cbn [taken request_part].
          + unfold spent, charged, z. cbn [se_request se_signed]. rewrite Hsv. rewrite on_ledger_ne by exact Hcon.
            destruct (mined_ok _); lia.
          + unfold spent_erc20, z. cbn [se_request]. cbn in Hcon. destruct (N.eqb_spec (ew_erc20_contract_address q) t) as [E|E].
            * rewrite on_ledger_eq by (apply Hcon; auto). destruct (mined_ok _); cbn [andb]; lia.
            * rewrite on_ledger_ne by (cbn; tauto). rewrite andb_false_r. destruct (mined_ok _); lia. }
      lia.
    + cbn in Hwt. unfold record_finalized_reimbursement in Hwt. inv_res.
      rewrite outstanding_same by reflexivity.
      assert (E : repay_sum a s' + owing_part a s (RINative (rd_burn_in_block r)) = repay_sum a s).
      { apply repay_done; auto. rewrite <- Hwt. reflexivity. }
      cbn [settled_now finalized_by flat_map] in Hf. lia.
    + cbn in Hwt. unfold record_finalized_reimbursement in Hwt. inv_res.
      rewrite outstanding_same by reflexivity.
      match goal with |- context [owing_part a s ?i] => assert (E : repay_sum a s' + owing_part a s i = repay_sum a s) end.
      { apply repay_done; auto. rewrite <- Hwt. reflexivity. }
      cbn [settled_now finalized_by flat_map] in Hf. lia.
    + cbn in Hwt. rewrite outstanding_same by reflexivity.
      rewrite (repay_insert a s s' _ _ Hn (ex_intro _ (withdrawals s) (conj eq_refl Hwt))).
      unfold repay_part. cbn [pay_ledger]. cbn [settled_now finalized_by flat_map] in Hf. lia.
    + cbn in Hwt. injection Hwt as Hwt. rewrite outstanding_same by reflexivity.
      match goal with |- context [owing_part a s ?i] => assert (E : repay_sum a s' + owing_part a s i = repay_sum a s) end.
      { apply repay_done; auto. rewrite <- Hwt. reflexivity. }
      cbn [settled_now finalized_by flat_map] in Hf. lia.
Qed.
End Events.

(** ** One segment *)
Section Segment.
Variable self : Principal.
Variable keccak : list N -> Hash.

Notation keeps := (kept keccak (book_ok keccak) known_core).
Notation ev := (evt keccak (book_ok keccak)).

Lemma net_sim a s s' h : sim s s' -> net a s' h = net a s h.
Proof. intros (v & p & _ & ->). reflexivity. Qed.
Lemma frees_sim a s s' e : sim s s' -> frees a s' e = frees a s e.
Proof. intros (v & p & _ & ->). reflexivity. Qed.
Lemma known_core_init now a s : state_of_init a = ROk s -> known_core (s, record_event now (EvInit a) []).
Proof. intros H. split; [apply books_init; auto|]. apply DH_init. auto. Qed.
Lemma known_core_sim s s' log : core_ok keccak (s, log) -> known_core (s, log) -> sim s s' -> known_core (s', log).
Proof.
  intros _ [H1 H2] Hs. split; [eapply books_sim; eauto|]. unfold dep_ok in *. destruct Hs as (v & p & _ & ->). exact H2.
Qed.
Lemma known_core_evt now s s' e log : core_ok keccak (s, log) -> known_core (s, log) -> ev s e ->
  apply_state_transition s e = Done s' -> known_core (s', record_event now e log).
Proof.
  intros Hc [H1 H2] He Ha. split; [eapply books_evt; eauto|]. eapply DH_event; [exact H2|]. apply apply_dv; auto.
Qed.
Lemma book_evt_keep s s' e log t : core_ok keccak (s, log) -> known_core (s, log) -> ev s e ->
  apply_state_transition s e = Done s' -> book_ok keccak s t -> book_ok keccak s' t.
Proof. intros Hc [[Hw _] _] Hev Ha [H1 H2]. split; [eapply sign_ok_evt; eauto using book_evt|auto]. Qed.
Lemma book_sim s s' t : book_ok keccak s t -> sim s s' -> book_ok keccak s' t.
Proof. intros [H1 H2] Hs. split; [eapply sign_ok_sim; eauto|auto]. Qed.

Lemma keeps_reach (env : Sys -> Label -> Prop) s :
  (forall s l, env s l -> nonce_kept s l) -> reach self keccak env s -> all_kept keccak (book_ok keccak) known_core s.
Proof.
  intros He Hr. eapply (kept_reach self keccak (book_ok keccak) known_core) with (env := env); eauto.
  - apply known_core_init.
  - apply known_core_sim.
  - apply known_core_evt.
  - apply book_sim.
  - apply book_evt_keep.
  - intros now t r c c' t' _ Hc' _ _ _ [H1 H2] H. split; [eapply sign_ok_next; eauto|eapply typed_next; eauto].
  - intros now k c c' t' Hc' _ H. split; [eapply sign_ok_timer; eauto|eapply typed_timer; eauto].
  - intros now u c c' t' _ _ H. split; [eapply sign_ok_call; eauto|eapply typed_call; eauto].
Qed.
Lemma keeps_trans s l s' : all_kept keccak (book_ok keccak) known_core s -> nonce_kept s l -> Trans self keccak s l s' ->
  exists now st, sim (sys_state s) st /\ micros ev now (st, sys_log s) (sys_core s').
Proof.
  intros Hk Hn H. eapply (kept_trans self keccak (book_ok keccak) known_core) in H as [_ H]; eauto.
  - apply known_core_sim.
  - apply known_core_evt.
  - apply book_sim.
  - apply book_evt_keep.
  - intros now t r c c' t' _ Hc' _ _ _ [H1 H2] H0. split; [eapply sign_ok_next; eauto|eapply typed_next; eauto].
  - intros now k c c' t' Hc' _ H0. split; [eapply sign_ok_timer; eauto|eapply typed_timer; eauto].
  - intros now u c c' t' _ _ H0. split; [eapply sign_ok_call; eauto|eapply typed_call; eauto].
Qed.

Lemma sum_app_uses native a es es' : sum_of (uses native a) (es ++ es') = sum_of (uses native a) es + sum_of (uses native a) es'.
Proof. apply sum_of_app. Qed.

Lemma net_micros (T : Task -> Prop) now native a c c' : keeps T c -> micros ev now c c' ->
  native_ledger_id (fst c) = native -> apart native a ->
  (forall r, In r (accepted (history (snd c'))) -> consistent native a r) ->
  exists es F, history (snd c') = history (snd c) ++ es /\
    (net a (fst c') (history (snd c')) + Z.of_N (sum_of (uses native a) es) = net a (fst c) (history (snd c)) + Z.of_N F)%Z /\
    (forall e, es = [e] -> F = frees a (fst c) e) /\ (es = [] -> F = 0).
Proof.
  intros Hk H. revert Hk. induction H as [c|c1 c2 c3 Hm Hms IH]; intros Hk Hn Hap Hcon.
  - exists [], 0. rewrite app_nil_r, sum_of_nil. split; auto. split; [lia|]. split; [discriminate|auto].
  - assert (Hk2 : keeps T c2).
    { eapply (kept_micro keccak (book_ok keccak) known_core); eauto using known_core_sim, known_core_evt, book_sim, book_evt_keep. }
    assert (Hn2 : native_ledger_id (fst c2) = native).
    { assert (Hw : wmicros (fun _ => True) now c1 c2).
      { apply wmicros_one. inversion Hm; subst; [eapply WVol|eapply WEvent|eapply WQueue]; eauto. }
      apply wmicros_logs in Hw as [_ Hw]. congruence. }
    destruct (IH Hk2 Hn2 Hap Hcon) as (es & F & H1 & H2 & H3 & H4).
    assert (Hsame : sim (fst c1) (fst c2) -> snd c2 = snd c1 -> 
      exists es F, history (snd c3) = history (snd c1) ++ es /\
      (net a (fst c3) (history (snd c3)) + Z.of_N (sum_of (uses native a) es) = net a (fst c1) (history (snd c1)) + Z.of_N F)%Z /\
      (forall e, es = [e] -> F = frees a (fst c1) e) /\ (es = [] -> F = 0)).
    { intros Hs El. exists es, F. rewrite El in *. rewrite (net_sim _ _ _ _ Hs) in H2. split; auto. split; auto. split; auto.
      intros e E. rewrite (H3 e E). apply frees_sim. auto. }
    destruct Hk as (Hc1 & HI & _).
    inversion Hm as [s s' log Hv|s s' log e He Ha|s log r w' Hq]; subst c1 c2.
    + apply Hsame; auto. cbn. apply vstep_sim; auto.
    + clear Hsame. cbn [fst snd] in *.
      assert (Hnet : (net a s' (history log ++ [e]) + Z.of_N (uses native a e) = net a s (history log) + Z.of_N (frees a s e))%Z).
      { rewrite <- Hn. eapply (net_event self keccak now); eauto.
        - apply HI.
        - destruct Hk2 as (_ & [Hw _] & _). exact Hw.
        - apply HI.
        - rewrite Hn. auto.
        - intros r Hr. rewrite Hn. apply Hcon. rewrite H1, history_snoc. unfold accepted. rewrite !flat_map_app.
          apply in_or_app. left. apply in_or_app. left. exact Hr. }
      rewrite history_snoc in *. exists (e :: es), (frees a s e + F). split.
      { rewrite H1, <- app_assoc. reflexivity. }
      split; [rewrite sum_of_cons; lia|]. split; [|discriminate].
      intros e0 E. injection E as <- E. rewrite (H4 E). lia.
    + apply Hsame; auto. cbn. eapply queue_sim; eauto. apply (core_wt _ _ Hc1).
Qed.

(** ** The functions *)

(** minted by a function that has not recorded it yet *)
Definition minted_by (native : Principal) (a : Asset) (fl : Flight) : N :=
  let ok n := match fl_reply fl with Some (ReLedger (LedgerOk _)) => n | _ => 0 end in
  match fl_task fl with
  | TMint j => ok (on_ledger native a (mj_ledger j) (mj_amount j))
  | TMintFee j _ => on_ledger native a (mj_ledger j) (mj_amount j) +
      ok (on_ledger native a (mj_ledger j) (match mj_fee j with Some f => f | None => 0 end))
  | TReimburse l _ q _ => ok (on_ledger native a l (rr_reimbursed_amount q))
  | _ => 0
  end.
Definition value (native : Principal) (a : Asset) (o : option Flight) : Z :=
  match o with Some fl => (Z.of_N (minted_by native a fl) - Z.of_N (burned_by native a fl))%Z | None => 0%Z end.
Definition values (native : Principal) (a : Asset) (m : bmap N Flight) : Z :=
  (Z.of_N (bsum (fun _ fl => minted_by native a fl) m) - Z.of_N (bsum (fun _ fl => burned_by native a fl) m))%Z.
Definition putm (id : N) (o : option Flight) (m : bmap N Flight) : bmap N Flight :=
  match o with Some fl => binsert id fl m | None => bremove id m end.
Lemma values_put native a id o m : bsorted m ->
  (values native a (putm id o m) + value native a (bget id m) = values native a m + value native a o)%Z.
Proof.
  intros Hs. unfold values.
  set (f := fun (_ : N) fl => minted_by native a fl). set (g := fun (_ : N) fl => burned_by native a fl).
  destruct o as [fl|]; cbn [putm value]; destruct (bget id m) as [fl0|] eqn:E; cbn [value].
  - pose proof (bsum_insert_upd f id fl fl0 m Hs E) as A. pose proof (bsum_insert_upd g id fl fl0 m Hs E) as B.
    unfold f at 2 in A. unfold g at 2 in B. unfold f at 2 in A. unfold g at 2 in B. cbv beta in A, B. lia.
  - rewrite (bsum_insert_new f id fl m E), (bsum_insert_new g id fl m E). unfold f at 1, g at 1. lia.
  - pose proof (bsum_remove f id fl0 m (bsorted_NoDup _ Hs) E) as A. pose proof (bsum_remove g id fl0 m (bsorted_NoDup _ Hs) E) as B.
    unfold f at 2 in A. unfold g at 2 in B. cbv beta in A, B. lia.
  - rewrite bremove_notin by auto. lia.
Qed.

(** The inequality that is kept *)
Definition covered_sum (a : Asset) (s : Sys) : Z :=
  let native := native_ledger_id (sys_state s) in
  let l := asset_ledger native a in
  (net a (sys_state s) (history (sys_log s)) + Z.of_N (burned_total self l (sys_ops s)) - Z.of_N (minted_total l (sys_ops s)) +
   values native a (sys_tasks s))%Z.

Definition paid_by (a : Asset) (s : State) (es : list EventType) : N :=
  match es with [e] => frees a s e | _ => 0 end.

Lemma covered_seg a s l s' id o es :
  ids_ok s -> all_kept keccak (book_ok keccak) known_core s -> nonce_kept s l -> Trans self keccak s l s' ->
  apart (native_ledger_id (sys_state s)) a ->
  (forall r, In r (accepted (history (sys_log s'))) -> consistent (native_ledger_id (sys_state s)) a r) ->
  history (sys_log s') = history (sys_log s) ++ es -> sys_ops s' = sys_ops s -> sys_tasks s' = putm id o (sys_tasks s) ->
  (value (native_ledger_id (sys_state s)) a (bget id (sys_tasks s)) + Z.of_N (sum_of (uses (native_ledger_id (sys_state s)) a) es) <=
   value (native_ledger_id (sys_state s)) a o + Z.of_N (paid_by a (sys_state s) es))%Z ->
  (covered_sum a s >= 0)%Z -> (covered_sum a s' >= 0)%Z.
Proof.
  intros Hi Hk Hn Ht Hap Hcon Hes Hops Htasks Hval Hcov.
  assert (Hnat : native_ledger_id (sys_state s') = native_ledger_id (sys_state s)).
  { eapply (native_trans self keccak); eauto. apply Hk. }
  destruct (keeps_trans s l s' Hk Hn Ht) as (now & st & Hs & Hm).
  assert (Hk0 : keeps (running s) (st, sys_log s)).
  { destruct Hk as (K1 & K2 & K3). rewrite <- (pair_eta (sys_core s)) in K1, K2. split; [|split].
    - eapply core_sim; eauto.
    - eapply known_core_sim; eauto.
    - intros t Hr. eapply book_sim; [apply K3; auto|auto]. }
  destruct (net_micros (running s) now (native_ledger_id (sys_state s)) a _ _ Hk0 Hm) as (es' & F & E1 & E2 & E3 & E4); auto.
  { cbn. destruct Hs as (v & p & _ & ->). reflexivity. }
  cbn [fst snd] in *. change (snd (sys_core s')) with (sys_log s') in *. change (fst (sys_core s')) with (sys_state s') in *.
  rewrite Hes in E1. apply app_inv_head in E1. subst es'.
  rewrite (net_sim _ _ _ _ Hs) in E2.
  assert (HF : F >= paid_by a (sys_state s) es).
  { destruct es as [|e [|e' es]]; cbn [paid_by]; try lia. rewrite (E3 e eq_refl), (frees_sim _ _ _ _ Hs). lia. }
  unfold covered_sum in *. rewrite Hnat, Hops, Htasks.
  pose proof (values_put (native_ledger_id (sys_state s)) a id o (sys_tasks s) (ids_sorted _ Hi)). lia.
Qed.
(** ** What the functions have minted is owed *)

(** The tokens registered fit the asset *)
Definition compat (a : Asset) (s : State) : Prop :=
  match a with
  | Native => forall c l sy, dmkm_get_entry_alt c (erc20_tokens s) = Some (l, sy) -> l <> native_ledger_id s
  | Token c l => l <> native_ledger_id s /\
      forall c' l' sy, dmkm_get_entry_alt c' (erc20_tokens s) = Some (l', sy) -> (c' = c <-> l' = l)
  end.
Lemma compat_apart a s : compat a s -> apart (native_ledger_id s) a.
Proof. destruct a; cbn; tauto. Qed.

Lemma deposit_le a s j : compat a s -> job_ok (dv s) j ->
  on_ledger (native_ledger_id s) a (mj_ledger j) (dep_value (mj_event j)) <= deposit_part a (mj_event j).
Proof.
  intros Hc Hj. pose proof (jo_ledger _ _ Hj) as Hl. cbn [dv dv_ledger dv_tokens] in Hl.
  destruct (mj_event j) as [x|x]; cbn [dep_value].
  - rewrite Hl. destruct a as [|c l]; cbn [deposit_part]; [apply on_ledger_le|].
    rewrite on_ledger_ne; [lia|]. cbn. intros E. destruct Hc as [Hc _]. congruence.
  - destruct a as [|c l]; cbn [deposit_part].
    + rewrite on_ledger_ne; [lia|]. cbn. exact (Hc _ _ _ Hl).
    + destruct Hc as [_ Hc]. destruct (N.eqb_spec (ee_erc20_contract_address x) c) as [E|E]; [apply on_ledger_le|].
      rewrite on_ledger_ne; [lia|]. cbn. intros E'. apply E. eapply Hc; eauto.
Qed.
Lemma minted_le a s fl j : compat a s -> job_ok (dv s) j -> mint_job (fl_task fl) j ->
  (forall b, fl_task fl = TMintFee j b -> is_native (mj_event j) = true /\ is_some (mj_fee j) = true) ->
  minted_by (native_ledger_id s) a fl <= waiting_part a s (dep_source (mj_event j)).
Proof.
  intros Hc Hj Hm Hf.
  assert (Hw : waiting_part a s (dep_source (mj_event j)) = deposit_part a (mj_event j)).
  { unfold waiting_part. pose proof (jo_wait _ _ Hj (mj_event j) (or_introl eq_refl)) as Hw. cbn in Hw. rewrite Hw. reflexivity. }
  rewrite Hw. pose proof (deposit_le a s j Hc Hj) as Hd. pose proof (jo_amount _ _ Hj) as Ha.
  assert (Hsum : (if is_native (mj_event j) then match mj_fee j with Some f => f | None => 0 end else 0) + mj_amount j = dep_value (mj_event j)).
  { unfold calculate_deposit_amount in Ha. destruct (is_native (mj_event j)); [destruct (mj_fee j)|]; inv_res; lia. }
  unfold on_ledger in *. unfold minted_by.
  destruct Hm as [E|(b & E)]; rewrite E.
  - unfold on_ledger. destruct (bytes_eqb _ _); destruct (fl_reply fl) as [[[ | | ]| | | | | | | ]|]; lia.
  - destruct (Hf b E) as [Hn Hs]. rewrite Hn in Hsum. unfold on_ledger.
    destruct (bytes_eqb _ _); destruct (fl_reply fl) as [[[ | | ]| | | | | | | ]|]; lia.
Qed.
Lemma repaid_le a s l i q rest fl : rjob_ok s l i q rest -> fl_task fl = TReimburse l i q rest ->
  minted_by (native_ledger_id s) a fl <= owing_part a s i.
Proof.
  intros (-> & _ & Ho) E. specialize (Ho i q (or_introl eq_refl)). unfold owing in Ho. unfold owing_part. rewrite Ho.
  unfold minted_by. rewrite E. unfold repay_part. destruct i; cbn [pay_ledger reimburse_ledger];
  destruct (fl_reply fl) as [[[ | | ]| | | | | | | ]|]; lia.
Qed.
Lemma not_minting t r native a : (forall j, ~ mint_job t j) -> ~ reimbursing t ->
  minted_by native a {| fl_task := t; fl_reply := r |} = 0.
Proof.
  intros H1 H2. destruct t; cbn; auto.
  - destruct (H1 j). left. reflexivity.
  - destruct (H1 j). right. eauto.
  - destruct H2. unfold reimbursing. eauto 6.
Qed.
Lemma not_burning t r native a : ~ burning t -> burned_by native a {| fl_task := t; fl_reply := r |} = 0.
Proof. destruct t; cbn; auto; tauto. Qed.

Definition next_flight (nx : Next) : option Flight :=
  match nx with Await t' => Some {| fl_task := t'; fl_reply := None |} | Finish _ => None end.
Lemma next_value native a nx : (forall t' j i, nx = Await t' -> t' <> TErc20Burn j i) -> (0 <= value native a (next_flight nx))%Z.
Proof.
  intros H. destruct nx as [t'|]; cbn [next_flight value]; [|lia].
  assert (E : burned_by native a {| fl_task := t'; fl_reply := None |} = 0).
  { destruct t'; cbn; auto. destruct (H _ j native_index eq_refl). reflexivity. }
  lia.
Qed.
Lemma install_putm id nx s : sys_tasks (install id nx s) = putm id (next_flight nx) (sys_tasks s).
Proof. destruct nx; reflexivity. Qed.
Lemma uses_unfunded native a es : (forall e, In e es -> unfunded e) -> sum_of (uses native a) es = 0.
Proof.
  induction es as [|e es IH]; intros H; [reflexivity|]. rewrite sum_of_cons, IH by (intros; apply H; right; auto).
  specialize (H e (or_introl eq_refl)). destruct e; cbn; auto; specialize (H []); discriminate H.
Qed.

(** What the callbacks of the functions that mint record *)
Lemma mint_next_quiet fee l es c c' nx : mint_next fee l es c = Done (c', nx) ->
  history (snd c') = history (snd c) /\ forall t' j i, nx = Await t' -> t' <> TErc20Burn j i.
Proof.
  unfold mint_next. destruct es as [|e es]; intros H.
  - unfold end_timer in H. injection H as <- <-. split; [reflexivity|discriminate].
  - apply rbind_done in H as ([sy le] & _ & H). apply rbind_done in H as (am & _ & H). injection H as <- <-.
    split; [reflexivity|]. intros t' j i E. injection E as <-. discriminate.
Qed.
Lemma reimburse_next_quiet rest c c' nx : reimburse_next rest c = Done (c', nx) ->
  history (snd c') = history (snd c) /\ forall t' j i, nx = Await t' -> t' <> TErc20Burn j i.
Proof.
  unfold reimburse_next. destruct rest as [|[i q] rest]; intros H.
  - unfold end_timer in H. injection H as <- <-. split; [reflexivity|discriminate].
  - injection H as <- <-. split; [reflexivity|]. intros t' j i0 E. injection E as <-. discriminate.
Qed.
Lemma mint_segment now j t r c c' nx : mint_job t j -> resume keccak now t r c = Done (c', nx) ->
  (forall t' j i, nx = Await t' -> t' <> TErc20Burn j i) /\
  ((exists b, history (snd c') = history (snd c) ++ [minted_event j b]) \/
   (history (snd c') = history (snd c) /\ t = TMint j /\ forall b, r <> ReLedger (LedgerOk b)) \/
   (exists b, history (snd c') = history (snd c) /\ t = TMint j /\ nx = Await (TMintFee j b))).
Proof.
  intros Hj H.
  assert (Hrec : forall b, mint_record now j b c = Done (c', nx) ->
    (forall t' j i, nx = Await t' -> t' <> TErc20Burn j i) /\ history (snd c') = history (snd c) ++ [minted_event j b]).
  { intros b Hr. unfold mint_record in Hr. apply rbind_done in Hr as (c1 & H1 & H2).
    apply mint_next_quiet in H2 as [-> H2]. apply process_history in H1 as [-> _]. auto. }
  destruct Hj as [->|(b & ->)]; destruct r; cbn in H; try discriminate.
  - destruct r as [b| |].
    + unfold mint_reply in H. apply rbind_done in H as (b' & _ & H).
      destruct (is_native (mj_event j) && is_some (mj_fee j)).
      * injection H as <- <-. split; [intros t' j' i E; injection E as <-; discriminate|]. right. right. exists b'. auto.
      * apply Hrec in H as [H1 H2]. split; auto. left. eauto.
    + cbn in H. apply mint_next_quiet in H as [H1 H2]. split; auto. right. left. split; auto. split; auto. discriminate.
    + cbn in H. apply mint_next_quiet in H as [H1 H2]. split; auto. right. left. split; auto. split; auto. discriminate.
  - apply Hrec in H as [H1 H2]. split; auto. left. eauto.
Qed.
Lemma reimburse_segment now l i q rest r c c' nx : resume keccak now (TReimburse l i q rest) r c = Done (c', nx) ->
  (forall t' j i, nx = Await t' -> t' <> TErc20Burn j i) /\
  ((exists b, history (snd c') = history (snd c) ++ [reimbursed_event i q b]) \/
   (history (snd c') = history (snd c) /\ forall b, r <> ReLedger (LedgerOk b))).
Proof.
  intros H. destruct r; cbn in H; try discriminate. destruct r as [b| |]; cbn in H.
  - apply rbind_done in H as (b' & _ & H). apply rbind_done in H as (c1 & H1 & H2).
    apply reimburse_next_quiet in H2 as [-> H2]. apply process_history in H1 as [-> _]. split; auto. left. eauto.
  - apply reimburse_next_quiet in H as [H1 H2]. split; auto. right. split; auto. discriminate.
  - apply reimburse_next_quiet in H as [H1 H2]. split; auto. right. split; auto. discriminate.
Qed.
Lemma cleanup_segment now t c c' : cleanup now t c = Done c' -> history (snd c') = history (snd c) ++ task_quarantine t.
Proof.
  unfold cleanup. intros H. apply rbind_done in H as (c1 & H1 & H2). injection H2 as <-. cbn.
  assert (E : forall e, process_events now [e] c = Done c1 -> history (snd c1) = history (snd c) ++ [e]).
  { intros e He. cbn in He. apply rbind_done in He as (c2 & He & E). injection E as <-. apply process_history in He as [He _]. exact He. }
  destruct t; cbn [task_quarantine] in *; auto; injection H1 as <-; rewrite app_nil_r; reflexivity.
Qed.
Lemma minted_frees a s j b : frees a s (minted_event j b) = waiting_part a s (dep_source (mj_event j)).
Proof. unfold minted_event. destruct (mj_event j); reflexivity. Qed.
Lemma reimbursed_frees a s i q b : rr_ledger_burn_index q = ri_burn_in_block i ->
  frees a s (reimbursed_event i q b) = owing_part a s i.
Proof. intros E. unfold reimbursed_event. destruct i; cbn in *; rewrite E; reflexivity. Qed.

(** Ledgers *)
Lemma total_snoc sel l ops (o : Op) :
  total sel l (ops ++ [o]) = total sel l ops + (if sel (fst o) && bytes_eqb (call_ledger (fst o)) l then call_amount (fst o) else 0).
Proof.
  induction ops as [|x ops IH]; cbn [app total fold_right].
  - destruct (_ && _); lia.
  - unfold total in IH. rewrite IH. destruct (sel (fst x) && _); lia.
Qed.
Lemma mint_total_snoc native a ops (o : Op) : is_mint (fst o) = true ->
  minted_total (asset_ledger native a) (ops ++ [o]) = minted_total (asset_ledger native a) ops + on_ledger native a (call_ledger (fst o)) (call_amount (fst o)) /\
  burned_total self (asset_ledger native a) (ops ++ [o]) = burned_total self (asset_ledger native a) ops.
Proof.
  intros H. unfold minted_total, burned_total. rewrite !total_snoc, H. unfold on_ledger.
  destruct (fst o); cbn in *; [|discriminate]. destruct (bytes_eqb _ _); lia.
Qed.
Lemma burn_total_snoc native a ops (o : Op) : is_burn self (fst o) = true ->
  burned_total self (asset_ledger native a) (ops ++ [o]) = burned_total self (asset_ledger native a) ops + on_ledger native a (call_ledger (fst o)) (call_amount (fst o)) /\
  minted_total (asset_ledger native a) (ops ++ [o]) = minted_total (asset_ledger native a) ops.
Proof.
  intros H. unfold minted_total, burned_total. rewrite !total_snoc, H. unfold on_ledger.
  destruct (fst o); cbn in *; [discriminate|]. destruct (bytes_eqb _ _); lia.
Qed.
Lemma other_total_snoc native a ops (o : Op) : is_mint (fst o) = false ->
  burned_total self (asset_ledger native a) ops <= burned_total self (asset_ledger native a) (ops ++ [o]) /\
  minted_total (asset_ledger native a) (ops ++ [o]) = minted_total (asset_ledger native a) ops.
Proof.
  intros H. unfold minted_total, burned_total. rewrite !total_snoc, H. cbn. destruct (_ && _); lia.
Qed.
Lemma op_value native a t c b : task_call self t = Some c -> forall ops,
  (value native a (Some {| fl_task := t; fl_reply := Some (ReLedger (LedgerOk b)) |}) +
   Z.of_N (burned_total self (asset_ledger native a) (ops ++ [(c, b)])) - Z.of_N (minted_total (asset_ledger native a) (ops ++ [(c, b)])) >=
   value native a (Some {| fl_task := t; fl_reply := None |}) +
   Z.of_N (burned_total self (asset_ledger native a) ops) - Z.of_N (minted_total (asset_ledger native a) ops))%Z.
Proof.
  intros Hc ops.
  assert (Hself : account_eqb (default_account self) (default_account self) = true) by (unfold account_eqb; cbn; rewrite bytes_eqb_refl; reflexivity).
  destruct t; cbn in Hc; try discriminate; injection Hc as <-;
    match goal with |- context [ops ++ [(?c, b)]] =>
    match c with
    | Transfer _ _ _ _ => destruct (mint_total_snoc native a ops (c, b) eq_refl) as [E1 E2]
    | TransferFrom _ _ (default_account self) _ _ => destruct (burn_total_snoc native a ops (c, b) Hself) as [E1 E2]
    | _ => destruct (other_total_snoc native a ops (c, b) eq_refl) as [E1 E2]
    end end;
    unfold Op in *; cbn [fst call_ledger call_amount value minted_by burned_by fl_task fl_reply] in *; lia.
Qed.

Lemma compat_back a s l s' : core_ok keccak (sys_core s) -> dep_ok (sys_core s) -> tok_ok (erc20_tokens (sys_state s)) ->
  Trans self keccak s l s' -> compat a (sys_state s') -> compat a (sys_state s).
Proof.
  intros Hc Hd Ht H. pose proof (native_trans self keccak _ _ _ Hc H) as Hn. destruct a as [|c le]; cbn.
  - intros Hx c l0 sy Hg. rewrite <- Hn. eapply Hx. eapply token_kept; eauto.
  - rewrite Hn. intros [H1 H2]. split; auto. intros c' l' sy Hg. eapply H2. eapply token_kept; eauto.
Qed.

(** Accepted withdrawals of tokens have a registered contract with its ledger. *)
Definition requests_ok (s : Sys) : Prop :=
  forall q, In (WErc20 q) (accepted (history (sys_log s))) ->
  exists sy, dmkm_get_entry_alt (ew_erc20_contract_address q) (erc20_tokens (sys_state s)) = Some (ew_erc20_ledger_id q, sy).
Lemma requests_trans s l s' : core_ok keccak (sys_core s) -> dep_ok (sys_core s) -> tok_ok (erc20_tokens (sys_state s)) -> jobs_ok s ->
  Trans self keccak s l s' -> requests_ok s -> requests_ok s'.
Proof.
  intros Hc Hd Ht Hj H Hr q Hq.
  assert (Hx : In (WErc20 q) (accepted (history (sys_log s))) \/
    exists id j i b r, bget id (sys_tasks s) = Some {| fl_task := TErc20Burn j i; fl_reply := Some r |} /\ q = erc20_request j i b).
  { destruct (trans_wmicros self keccak _ _ _ H) as [(now & Hw)|(a & now & -> & _ & Hu)].
    - apply wmicros_logs in Hw as [(es & Hes & He) _]. unfold sys_log in Hq. rewrite Hes in Hq. unfold accepted in Hq.
      rewrite flat_map_app in Hq. apply in_app_or in Hq as [Hq|Hq]; [left; exact Hq|right].
      apply in_flat_map in Hq as (e & Hin & Hq). apply He in Hin.
      destruct e; cbn in Hq; try contradiction; destruct Hq as [Hq|[]]; try discriminate Hq. injection Hq as ->.
      destruct l; cbn in Hin; try contradiction.
      + destruct Hin as (st & Hin). destruct u; cbn in Hin; try contradiction. decompose [and ex] Hin. discriminate.
      + destruct Hin as (t & r & Hg & [[(st & Hin)|Hin]|Hin]).
        * apply emits_inv in Hin. cbn in Hin. destruct Hin as (j & i & b & -> & -> & Hrq). exists id, j, i, b. eauto.
        * destruct Hin as (g & ? & x & _ & [Hin|Hin]); discriminate Hin.
        * destruct t; cbn in Hin; try contradiction; destruct Hin as [Hin|[]]; discriminate Hin.
    - left. pose proof Hc as [_ _ Hrep]. destruct (canister_upgrade_inv _ _ _ _ Hrep Hu) as (st & _ & _ & _ & Ha).
      destruct a as [x|].
      + destruct Ha as (st' & _ & E). unfold sys_log in Hq. rewrite E in Hq. cbn [snd] in Hq. unfold pre_upgrade in Hq.
        rewrite history_snoc in Hq. cbn [snd] in Hq. rewrite history_snoc in Hq. unfold accepted in Hq. rewrite !flat_map_app in Hq.
        cbn in Hq. rewrite !app_nil_r in Hq. exact Hq.
      + unfold sys_log in Hq. rewrite Ha in Hq. unfold pre_upgrade in Hq. cbn [snd] in Hq. rewrite history_snoc in Hq.
        unfold accepted in Hq. rewrite !flat_map_app in Hq. cbn in Hq. rewrite !app_nil_r in Hq. exact Hq. }
  destruct Hx as [Hx|(id & j & i & b & r & Hg & ->)].
  - destruct (Hr q Hx) as (sy & Hs). exists sy. eapply token_kept; eauto.
  - exists (et_symbol (ej_token j)). cbn. eapply token_kept; eauto. eapply Hj; eauto.
Qed.
Lemma requests_consistent a s r : requests_ok s -> compat a (sys_state s) ->
  In r (accepted (history (sys_log s))) -> consistent (native_ledger_id (sys_state s)) a r.
Proof.
  intros Hr Hc Hin. destruct r as [q|q]; [destruct a; exact Logic.I|]. destruct (Hr q Hin) as (sy & Hs). destruct a as [|c l]; cbn.
  - exact (Hc _ _ _ Hs).
  - destruct Hc as [_ Hc]. exact (Hc _ _ _ Hs).
Qed.
(** ** One step *)
Lemma call_no_burn now u c c' j i : call_start now u c = Done (c', Await (TErc20Burn j i)) -> False.
Proof.
  intros H. apply (call_after keccak) in H. destruct u; cbn in H.
  - destruct H as (_ & s1 & Hg & [(H & _)|(d & _ & _ & [(H & _)|(_ & _ & H)])]); try discriminate.
    destruct (withdrawal_native_fee s1); [destruct H as [_ H]|]; discriminate H.
  - destruct H as (_ & s1 & Hg & [(e & H & _)|(d & tk & _ & _ & _ & [(g & t2 & _ & H & Hest)|(s2 & _ & _ & H)])]); try discriminate.
    injection H as <-. unfold estimated_next in Hest. destruct (withdrawal_native_fee s1); [destruct Hest as [_ Hest]|]; discriminate Hest.
  - destruct H as (H & _). discriminate.
  - destruct H as (_ & n & tm & _ & _ & H). discriminate.
Qed.
Record solv_known (s : Sys) : Prop := {
  sk_ids : ids_ok s;
  sk_kept : all_kept keccak (book_ok keccak) known_core s;
  sk_tok : tok_ok (erc20_tokens (sys_state s));
  sk_jobs : jobs_ok s;
  sk_mints : mints_ok s;
  sk_fees : forall id j b r, bget id (sys_tasks s) = Some {| fl_task := TMintFee j b; fl_reply := r |} ->
    is_native (mj_event j) = true /\ is_some (mj_fee j) = true;
  sk_pays : pays_ok s;
  sk_rhist : rhist (sys_core s);
  sk_burns : burns_ok self s;
  sk_requests : requests_ok s
}.

Lemma covered_trans a s l s' : solv_known s -> solv_known s' -> nonce_kept s l -> Trans self keccak s l s' ->
  compat a (sys_state s') -> (compat a (sys_state s) -> covered_sum a s >= 0)%Z -> (covered_sum a s' >= 0)%Z.
Proof.
  intros K K' Hnk HT Hcomp' Hcov.
  pose proof (sk_kept _ K) as Hk. destruct Hk as (Hcore & [Hbooks Hdep] & Hfl). pose proof (sk_kept _ K) as Hk.
  pose proof (compat_back a _ _ _ Hcore Hdep (sk_tok _ K) HT Hcomp') as Hcomp. specialize (Hcov Hcomp).
  pose proof (native_trans self keccak _ _ _ Hcore HT) as Hnat.
  assert (Hcon : forall r, In r (accepted (history (sys_log s'))) -> consistent (native_ledger_id (sys_state s)) a r).
  { intros r Hr. rewrite <- Hnat. eapply requests_consistent; eauto. apply (sk_requests _ K'). }
  assert (Hfresh : bget (sys_next s) (sys_tasks s) = None) by apply (fresh_id self keccak _ (sk_ids _ K)).
  set (native := native_ledger_id (sys_state s)) in *.
  pose proof (covered_seg a s l s') as Hseg.
  assert (Hseg' : forall id o es, history (sys_log s') = history (sys_log s) ++ es -> sys_ops s' = sys_ops s ->
    sys_tasks s' = putm id o (sys_tasks s) ->
    (value native a (bget id (sys_tasks s)) + Z.of_N (sum_of (uses native a) es) <=
     value native a o + Z.of_N (paid_by a (sys_state s) es))%Z -> (covered_sum a s' >= 0)%Z).
  { intros id o es H1 H2 H3 H4. eapply Hseg; eauto. apply (sk_ids _ K). apply compat_apart. exact Hcomp. }
  clear Hseg. pose proof HT as H.
  destruct H as [|k now c nx Hc H|u now c nx Hc H|k now Hc|u now Hc|id t c b Hget Hcall Hallow
    |id t r Hget Hfit Hno|id now t r c nx Hc Hget H|id trap now t r c Hc Hget Hp H|ua now c Hc Ht H].
  - auto.
  - (* a timer *)
    pose proof (timer_micros _ _ _ _ _ H) as [Hv Hl].
    eapply Hseg' with (id := sys_next s) (o := next_flight nx) (es := []).
    + unfold sys_log. cbn. rewrite install_core. cbn. rewrite Hl, app_nil_r. reflexivity.
    + cbn. rewrite install_ops. reflexivity.
    + cbn [bump_next sys_tasks]. rewrite install_putm. reflexivity.
    + rewrite Hfresh. cbn [value paid_by]. rewrite sum_of_nil. pose proof (next_value native a nx) as Hv'. 
      assert (Hq : forall t' j i, nx = Await t' -> t' <> TErc20Burn j i).
      { intros t' j i -> ->. apply timer_after in H. destruct H. }
      specialize (Hv' Hq). lia.
  - (* a call *)
    assert (Hw : wmicros (fun e => exists st, call_emits u st e) now (sys_core s) c).
    { eapply micros_weak; [|eapply call_micros; eauto]. eauto. }
    apply wmicros_logs in Hw as [(es & Hes & Hj) Hn].
    eapply Hseg' with (id := sys_next s) (o := next_flight nx) (es := es).
    + unfold sys_log. cbn. rewrite install_core. cbn. exact Hes.
    + cbn. rewrite install_ops. reflexivity.
    + cbn [bump_next sys_tasks]. rewrite install_putm. reflexivity.
    + rewrite Hfresh. cbn [value]. rewrite uses_unfunded.
      2:{ intros e He. apply Hj in He as (st & He). destruct u; cbn in He; try contradiction.
          decompose [and ex] He. subst e. intros n. reflexivity. }
      pose proof (next_value native a nx) as Hv'.
      assert (Hq : forall t' j i, nx = Await t' -> t' <> TErc20Burn j i).
      { intros t' j i -> ->. eapply (call_no_burn now u); eauto. }
      specialize (Hv' Hq). lia.
  - unfold covered_sum in *. exact Hcov.
  - unfold covered_sum in *. exact Hcov.
  - (* a ledger executes an operation *)
    unfold covered_sum in *. rewrite Hnat.
    change (sys_tasks (with_op (c, b) (answered id t (ReLedger (LedgerOk b)) s))) with
      (putm id (Some {| fl_task := t; fl_reply := Some (ReLedger (LedgerOk b)) |}) (sys_tasks s)).
    change (sys_ops (with_op (c, b) (answered id t (ReLedger (LedgerOk b)) s))) with (sys_ops s ++ [(c, b)]).
    change (sys_state (with_op (c, b) (answered id t (ReLedger (LedgerOk b)) s))) with (sys_state s).
    change (sys_log (with_op (c, b) (answered id t (ReLedger (LedgerOk b)) s))) with (sys_log s).
    fold native in Hcov |- *.
    pose proof (values_put native a id (Some {| fl_task := t; fl_reply := Some (ReLedger (LedgerOk b)) |}) (sys_tasks s) (ids_sorted _ (sk_ids _ K))) as Hv.
    rewrite Hget in Hv. pose proof (op_value native a t c b Hcall (sys_ops s)) as Ho. unfold Op in *. lia.
  - (* another answer *)
    eapply Hseg' with (id := id) (o := Some {| fl_task := t; fl_reply := Some r |}) (es := []).
    + rewrite app_nil_r. reflexivity.
    + reflexivity.
    + reflexivity.
    + rewrite Hget, sum_of_nil. cbn [paid_by].
      assert (E : value native a (Some {| fl_task := t; fl_reply := Some r |}) = value native a (Some {| fl_task := t; fl_reply := None |})).
      { cbn [value]. destruct t; cbn [minted_by burned_by fl_task fl_reply]; try reflexivity;
          destruct r as [[b| |]| | | | | | |]; try reflexivity; destruct (Hno b); reflexivity. }
      lia.
  - (* a callback *)
    assert (Hnx : sys_tasks (install id nx (with_queries (task_query t r) (with_core c now s))) = putm id (next_flight nx) (sys_tasks s)).
    { rewrite install_putm. destruct t; reflexivity. }
    assert (Hops : sys_ops (install id nx (with_queries (task_query t r) (with_core c now s))) = sys_ops s).
    { rewrite install_ops. reflexivity. }
    assert (Hlog : sys_log (install id nx (with_queries (task_query t r) (with_core c now s))) = snd c).
    { unfold sys_log. rewrite install_core. reflexivity. }
    assert (Hgo : forall es, history (snd c) = history (sys_log s) ++ es ->
      (value native a (Some {| fl_task := t; fl_reply := Some r |}) + Z.of_N (sum_of (uses native a) es) <=
       value native a (next_flight nx) + Z.of_N (paid_by a (sys_state s) es))%Z ->
      (covered_sum a (install id nx (with_queries (task_query t r) (with_core c now s))) >= 0)%Z).
    { intros es H1 H2. eapply Hseg' with (id := id) (o := next_flight nx) (es := es); auto.
      - rewrite Hlog. exact H1.
      - rewrite Hget. exact H2. }
    destruct (bo_fly _ _ (sk_burns _ K) _ _ Hget) as (Q1 & Q2 & Q3). cbn [fl_task fl_reply] in Q1.
    destruct (burning_dec t) as [Hb|Hb].
    + pose proof (burn_segment self keccak _ _ _ _ _ _ Hb H) as (es & Hes & Hn & Haft).
      apply (Hgo es); [exact Hes|].
      assert (Hdull : es = [] -> (forall t', nx = Await t' -> ~ burning t' /\ forall n, task_native n t') ->
        (value native a (Some {| fl_task := t; fl_reply := Some r |}) + Z.of_N (sum_of (uses native a) es) <=
         value native a (next_flight nx) + Z.of_N (paid_by a (sys_state s) es))%Z).
      { intros -> Hd. rewrite sum_of_nil. cbn [paid_by].
        pose proof (next_value native a nx) as Hv.
        assert (Hq : forall t' j i, nx = Await t' -> t' <> TErc20Burn j i).
        { intros t' j i E ->. destruct (Hd _ E) as [D _]. apply D. exact Logic.I. }
        specialize (Hv Hq). cbn [value]. rewrite not_minting; [lia|..].
        - intros j [E|(b & E)]; subst t; exact Hb.
        - intros (l0 & i & q & rest & E); subst t; exact Hb. }
      assert (Hr : (exists b, r = ReLedger (LedgerOk b)) \/ (forall b, r <> ReLedger (LedgerOk b))).
      { destruct r as [[b| |]| | | | | | |]; [eauto|..]; right; discriminate. }
      destruct t; try destruct Hb; destruct Hr as [(b & ->)|Hr]; cbn [burn_after] in Haft.
      * destruct Haft as [-> (o & ->)]. cbn in Q1. rewrite sum_of_cons, sum_of_nil.
        cbn [next_flight value paid_by minted_by burned_by fl_task fl_reply uses frees].
        destruct a as [|c0 l0]; cbn [request_part].
        -- rewrite on_ledger_eq by (cbn; exact Q1). cbn. lia.
        -- lia.
      * apply Hdull; destruct r as [[b| |]| | | | | | |]; try tauto; destruct (Hr b); reflexivity.
      * destruct Haft as [-> ->]. rewrite sum_of_nil. cbn [next_flight value paid_by minted_by burned_by fl_task fl_reply]. lia.
      * apply Hdull; destruct r as [[b| |]| | | | | | |]; try tauto; destruct (Hr b); reflexivity.
      * destruct Haft as [-> (o & ->)]. cbn in Q1. rewrite sum_of_cons, sum_of_nil.
        cbn [next_flight value paid_by minted_by burned_by fl_task fl_reply uses frees].
        pose proof (sk_jobs _ K _ _ _ Hget j eq_refl) as Hlist.
        destruct a as [|c0 l0]; cbn [request_part].
        -- rewrite on_ledger_eq by (cbn; exact Q1). cbn. lia.
        -- cbn [erc20_request ew_erc20_contract_address ew_withdrawal_amount].
           destruct (N.eqb_spec (et_contract_address (ej_token j)) c0) as [E|E]; [|lia].
           rewrite (on_ledger_eq native (Token c0 l0) (et_ledger_id (ej_token j))); [lia|].
           cbn. destruct Hcomp as [_ Hcomp]. eapply Hcomp; eauto.
      * assert (Hx : (es = [] \/ (exists x : N, x <= ej_tx_fee j /\ es = [EvFailedErc20WithdrawalRequest (failed_request j native_index x)])) /\
            (forall t' : Task, nx = Await t' -> ~ burning t' /\ (forall n, task_native n t'))).
        { destruct r as [[b| |]| | | | | | |]; try exact Haft. destruct (Hr b). reflexivity. }
        destruct Hx as [[E|(x & Hx1 & ->)] Hx]; [apply Hdull; auto|].
        cbn in Q1. rewrite sum_of_cons, sum_of_nil. cbn [uses paid_by frees failed_request rr_reimbursed_amount].
        pose proof (next_value native a nx) as Hv.
        assert (Hq : forall t' j i, nx = Await t' -> t' <> TErc20Burn j i).
        { intros t' j' i E ->. destruct (Hx _ E) as [D _]. apply D. exact Logic.I. }
        specialize (Hv Hq). cbn [value minted_by burned_by fl_task fl_reply].
        assert (on_ledger native a native x <= on_ledger native a (ej_native_ledger j) (ej_tx_fee j)).
        { rewrite Q1. fold native. unfold on_ledger. destruct (bytes_eqb _ _); lia. }
        lia.
    + assert (Hbn : burned_by native a {| fl_task := t; fl_reply := Some r |} = 0) by (apply not_burning; auto).
      destruct (mint_job_dec t) as [(j & Hj)|Hj].
      * pose proof (mint_segment _ _ _ _ _ _ _ Hj H) as (Hq & Hes).
        pose proof (next_value native a nx Hq) as Hv.
        assert (Hml : minted_by native a {| fl_task := t; fl_reply := Some r |} <= waiting_part a (sys_state s) (dep_source (mj_event j))).
        { apply minted_le; auto.
          - eapply (mo_job _ (sk_mints _ K)); [exact Hget|exact Hj].
          - cbn. intros b E. subst t. eapply (sk_fees _ K); eauto. }
        destruct Hes as [(b & Hes)|[(Hes & -> & Hr)|(b & Hes & -> & ->)]].
        -- apply (Hgo _ Hes). rewrite sum_of_cons, sum_of_nil. cbn [paid_by]. rewrite minted_frees.
           assert (E : uses native a (minted_event j b) = 0) by (unfold minted_event; destruct (mj_event j); reflexivity).
           rewrite E. cbn [value]. lia.
        -- apply (Hgo []); [rewrite app_nil_r; exact Hes|]. rewrite sum_of_nil. cbn [paid_by value].
           assert (E : minted_by native a {| fl_task := TMint j; fl_reply := Some r |} = 0).
           { cbn. destruct r as [[b| |]| | | | | | |]; auto. destruct (Hr b). reflexivity. }
           lia.
        -- apply (Hgo []); [rewrite app_nil_r; exact Hes|]. rewrite sum_of_nil. cbn [paid_by value next_flight].
           cbn [minted_by burned_by fl_task fl_reply]. destruct r as [[b0| |]| | | | | | |]; lia.
      * destruct (reimbursing_dec t) as [(l & i & q & rest & ->)|Hn].
        -- pose proof (reimburse_segment _ _ _ _ _ _ _ _ _ H) as (Hq & Hes).
           pose proof (next_value native a nx Hq) as Hv.
           assert (Hjob : rjob_ok (sys_state s) l i q rest).
           { apply (po_job _ (sk_pays _ K)). exists id. eexists. split; [exact Hget|reflexivity]. }
           pose proof (repaid_le a _ _ _ _ _ {| fl_task := TReimburse l i q rest; fl_reply := Some r |} Hjob eq_refl) as Hml.
           fold native in Hml.
           destruct Hes as [(b & Hes)|(Hes & Hr)].
           ++ apply (Hgo _ Hes). rewrite sum_of_cons, sum_of_nil. cbn [paid_by]. rewrite reimbursed_frees.
              ** assert (E : uses native a (reimbursed_event i q b) = 0) by (unfold reimbursed_event; destruct i; reflexivity).
                 rewrite E. cbn [value]. lia.
              ** eapply owed_burn. eapply rh_owed; [apply (sk_rhist _ K)|]. apply Hjob. left. reflexivity.
           ++ apply (Hgo []); [rewrite app_nil_r; exact Hes|]. rewrite sum_of_nil. cbn [paid_by value].
              assert (E : minted_by native a {| fl_task := TReimburse l i q rest; fl_reply := Some r |} = 0).
              { cbn. destruct r as [[b| |]| | | | | | |]; auto. destruct (Hr b). reflexivity. }
              lia.
        -- pose proof (resume_wmicros _ _ _ _ _ _ _ H) as Hw. apply wmicros_logs in Hw as [(es & Hes & He) _].
           apply (Hgo _ Hes). rewrite uses_unfunded by (intros e Hin; eapply emits_unfunded; eauto).
           pose proof (next_value native a nx) as Hv.
           assert (Hq : forall t' j i, nx = Await t' -> t' <> TErc20Burn j i).
           { intros t' j i -> ->. apply resume_after in H. cbn in H. destruct H as (-> & _). apply Hb. exact Logic.I. }
           specialize (Hv Hq). cbn [value]. rewrite (not_minting t (Some r) native a Hj Hn). lia.
  - (* a trap *)
    pose proof (cleanup_segment _ _ _ _ H) as Hes.
    eapply Hseg' with (id := id) (o := None) (es := task_quarantine t).
    + unfold sys_log. rewrite install_core. exact Hes.
    + rewrite install_ops. reflexivity.
    + rewrite install_putm. reflexivity.
    + rewrite Hget. cbn [value].
      rewrite uses_unfunded by (intros e He n; destruct t; cbn in He; try contradiction; destruct He as [<-|[]]; reflexivity).
      destruct (mint_job_dec t) as [(j & Hj)|Hj].
      * assert (Hml : minted_by native a {| fl_task := t; fl_reply := Some r |} <= waiting_part a (sys_state s) (dep_source (mj_event j))).
        { apply minted_le; auto.
          - eapply (mo_job _ (sk_mints _ K)); [exact Hget|exact Hj].
          - cbn. intros b E. subst t. eapply (sk_fees _ K); eauto. }
        assert (E : paid_by a (sys_state s) (task_quarantine t) = waiting_part a (sys_state s) (dep_source (mj_event j))).
        { destruct Hj as [->|(b & ->)]; reflexivity. }
        lia.
      * destruct (reimbursing_dec t) as [(l & i & q & rest & ->)|Hn].
        -- assert (Hjob : rjob_ok (sys_state s) l i q rest).
           { apply (po_job _ (sk_pays _ K)). exists id. eexists. split; [exact Hget|reflexivity]. }
           pose proof (repaid_le a _ _ _ _ _ {| fl_task := TReimburse l i q rest; fl_reply := Some r |} Hjob eq_refl) as Hml.
           fold native in Hml. cbn [task_quarantine paid_by frees]. lia.
        -- rewrite (not_minting t (Some r) native a Hj Hn). lia.
  - (* an upgrade *)
    pose proof Hcore as [_ _ Hrep].
    destruct (canister_upgrade_inv _ _ _ _ Hrep H) as (st & _ & Hs & _ & Ha).
    assert (Hx : exists es, history (snd c) = history (sys_log s) ++ es /\ forall e, In e es -> unfunded e).
    { destruct ua as [x|].
      - destruct Ha as (st' & Ha & ->). cbn. unfold record_event, pre_upgrade, history. unfold record_event. rewrite !map_app. cbn.
        eexists. rewrite <- app_assoc. split; [reflexivity|].
        intros e [<-|[<-|[]]] n; reflexivity.
      - rewrite Ha. cbn. unfold pre_upgrade, record_event, history. rewrite map_app. cbn. eexists. split; [reflexivity|].
        intros e [<-|[]] n; reflexivity. }
    destruct Hx as (es & Hes & Hun).
    eapply Hseg' with (id := sys_next s) (o := None) (es := es).
    + exact Hes.
    + reflexivity.
    + cbn. rewrite Ht. reflexivity.
    + rewrite Hfresh, uses_unfunded by auto. cbn [value]. lia.
Qed.
End Segment.

(** ** Every reachable state *)
Section Reach.
Variable self : Principal.
Variable keccak : list N -> Hash.
Variable env : Sys -> Label -> Prop.
Hypothesis Henv : forall s l, env s l -> nonce_kept s l.

Lemma requests_reach s : reach self keccak env s -> requests_ok s.
Proof.
  apply (reach_inv2 self keccak env (fun s => core_ok keccak (sys_core s) /\ dep_ok (sys_core s) /\
    tok_ok (erc20_tokens (sys_state s)) /\ jobs_ok s) requests_ok).
  - intros s0 H. split; [eapply core_reach; eauto|]. split; [eapply dep_reach; eauto|].
    split; [eapply tokens_reach; eauto|eapply jobs_reach; eauto].
  - intros now a s0 H. apply sys_init_inv in H as (st & _ & Hc & _). intros q. unfold sys_log. rewrite Hc. cbn. tauto.
  - intros s0 l s' (K1 & K2 & K3 & K4) _ Hi _ Ht. eapply (requests_trans self keccak); eauto.
Qed.

Lemma solv_known_reach s : reach self keccak env s -> solv_known self keccak s.
Proof.
  intros Hr. constructor.
  - eapply ids_reach; eauto.
  - eapply keeps_reach; eauto.
  - eapply tokens_reach; eauto.
  - eapply jobs_reach; eauto.
  - eapply mints_reach; eauto.
  - eapply fee_job_reach; eauto.
  - eapply pays_reach; eauto.
  - eapply rhist_reach; eauto.
  - eapply burns_reach; eauto.
  - apply requests_reach; auto.
Qed.

Lemma covered_reach a s : reach self keccak env s -> compat a (sys_state s) -> (covered_sum self a s >= 0)%Z.
Proof.
  apply (reach_inv2 self keccak env (solv_known self keccak) (fun s => compat a (sys_state s) -> (covered_sum self a s >= 0)%Z)).
  - apply solv_known_reach.
  - intros now x s0 H _. apply sys_init_inv in H as (st & Hst & Hc & Ht & _ & _ & Hops & _).
    unfold covered_sum. rewrite Hops, Ht. unfold sys_state, sys_log. rewrite Hc. cbn [fst snd].
    apply state_of_init_spec in Hst as (_ & h & _ & -> & _). destruct a; vm_compute; discriminate.
  - intros s0 l s' K K' Hi He Ht Hc'. exact (covered_trans self keccak a s0 l s' K K' (Henv _ _ He) Ht Hc' Hi).
Qed.

Lemma burned_le l s : reach self keccak env s -> burned_total self l (sys_ops s) <= minted_total l (sys_ops s).
Proof.
  apply (reach_inv self keccak env (fun s => burned_total self l (sys_ops s) <= minted_total l (sys_ops s))).
  - intros now x s0 H. apply sys_init_inv in H as (st & _ & _ & _ & _ & _ & Hops & _). rewrite Hops. reflexivity.
  - intros s0 lb s' Hi _ H.
    destruct H; cbn [bump_next sys_ops with_op with_outcome with_core answered]; rewrite ?install_ops; auto.
    cbn [sys_ops answered with_tasks]. unfold burned_total, minted_total in *. rewrite !(total_snoc keccak). cbn [fst].
    unfold ledger_allows in H1. apply andb_true_iff in H1 as [_ H1].
    destruct (is_burn self c) eqn:Eb; cbn [andb].
    + apply N.leb_le in H1. unfold burned_total, minted_total in H1.
      destruct (bytes_eqb (call_ledger c) l) eqn:El; [|cbn; rewrite andb_false_r; lia].
      apply bytes_eqb_eq in El. rewrite El in H1. destruct c; cbn in *; [discriminate|]. lia.
    + destruct (is_mint c && _); lia.
Qed.

(** Sums *)
Lemma bsum_list {K V} `{OK : Ord K} (f : K -> V -> N) (m : bmap K V) : bsum f m = sum_of (fun x => f (fst x) (snd x)) m.
Proof. induction m as [|[k v] m IH]; [reflexivity|]. rewrite bsum_cons, sum_of_cons, IH. reflexivity. Qed.
Lemma sum_filter_le {A} (f : A -> N) (p : A -> bool) l : sum_of f (filter p l) <= sum_of f l.
Proof.
  induction l as [|x l IH]; [reflexivity|]. cbn [filter]. destruct (p x); rewrite ?sum_of_cons; lia.
Qed.
Lemma sum_filter_out {A} (f : A -> N) (p : A -> bool) l x : In x l -> p x = false ->
  sum_of f (filter p l) + f x <= sum_of f l.
Proof.
  induction l as [|y l IH]; [intros []|]. intros [->|Hin] Hp; cbn [filter]; rewrite sum_of_cons.
  - rewrite Hp. pose proof (sum_filter_le f p l). lia.
  - specialize (IH Hin Hp). destruct (p y); rewrite ?sum_of_cons; lia.
Qed.
Lemma bsum_add {K V} `{OK : Ord K} (f g h : K -> V -> N) (m : bmap K V) : (forall k v, f k v = g k v + h k v) ->
  bsum f m = bsum g m + bsum h m.
Proof.
  intros H. induction m as [|[k v] m IH]; [reflexivity|]. rewrite !bsum_cons, IH, H. lia.
Qed.
Lemma bsum_single {K V} `{OK : Ord K} (f : K -> V -> N) (m : bmap K V) : NoDup (map fst m) ->
  (forall i j x y, In (i, x) m -> In (j, y) m -> f i x <> 0 -> f j y <> 0 -> i = j) ->
  bsum f m = 0 \/ exists i x, In (i, x) m /\ f i x <> 0 /\ bsum f m = f i x.
Proof.
  induction m as [|[k v] m IH]; intros Hn Hu; [left; reflexivity|]. rewrite bsum_cons. cbn in Hn. inversion Hn as [|? ? Hni Hnd]; subst.
  destruct IH as [E|(i & x & Hin & Hx & E)]; auto.
  - intros i j x y H1 H2. apply Hu; right; auto.
  - rewrite E. destruct (N.eq_dec (f k v) 0) as [E0|E0]; [left; lia|]. right. exists k, v. split; [left; reflexivity|]. split; auto. lia.
  - destruct (N.eq_dec (f k v) 0) as [E0|E0].
    + right. exists i, x. split; [right; auto|]. split; auto. lia.
    + exfalso. assert (k = i) by (eapply Hu; [left; reflexivity|right; eauto|auto|auto]). subst i.
      apply Hni. apply (in_map fst) in Hin. exact Hin.
Qed.

(** the two kinds of functions that mint *)
Definition mint_part (native : Principal) (a : Asset) (fl : Flight) : N :=
  match fl_task fl with TMint _ | TMintFee _ _ => minted_by native a fl | _ => 0 end.
Definition reimb_part (native : Principal) (a : Asset) (fl : Flight) : N :=
  match fl_task fl with TReimburse _ _ _ _ => minted_by native a fl | _ => 0 end.
Lemma minted_parts native a fl : minted_by native a fl = mint_part native a fl + reimb_part native a fl.
Proof. unfold mint_part, reimb_part, minted_by. destruct (fl_task fl); lia. Qed.

Lemma in_tasks s id fl : ids_ok s -> In (id, fl) (sys_tasks s) -> bget id (sys_tasks s) = Some fl.
Proof. intros Hi Hin. apply bget_iff_In; auto. apply (ids_sorted _ Hi). Qed.

Lemma mints_owed a s : reach self keccak env s -> compat a (sys_state s) ->
  to_mint a s + bsum (fun _ fl => mint_part (native_ledger_id (sys_state s)) a fl) (sys_tasks s) <= wait_sum a (sys_state s).
Proof.
  intros Hr Hc. pose proof (solv_known_reach s Hr) as K. pose proof (guards_reach self keccak env s Hr) as Hg.
  set (native := native_ledger_id (sys_state s)).
  unfold wait_sum. rewrite (bsum_list (fun _ e => deposit_part a e)). unfold to_mint.
  destruct (bsum_single (fun (_ : N) fl => mint_part native a fl) (sys_tasks s)) as [E|(id & fl & Hin & Hx & E)].
  - apply bsorted_NoDup. apply (ids_sorted _ (sk_ids _ _ _ K)).
  - intros i j x y H1 H2 N1 N2. apply in_tasks in H1, H2; try apply (sk_ids _ _ _ K).
    assert (J : forall z, mint_part native a z <> 0 -> exists jj, mint_job (fl_task z) jj).
    { intros z. unfold mint_part. destruct (fl_task z) eqn:Ez; try (intros Hz; destruct Hz; reflexivity); intros _.
      - exists j0. left. reflexivity.
      - exists j0. right. eauto. }
    destruct (J x N1) as (j1 & J1). destruct (J y N2) as (j2 & J2). eapply mint_unique; eauto.
  - rewrite E. rewrite N.add_0_r. apply sum_filter_le.
  - rewrite E. apply in_tasks in Hin; [|apply (sk_ids _ _ _ K)].
    assert (J : exists j b, mint_job (fl_task fl) j /\ paid fl j b).
    { unfold mint_part in Hx. unfold minted_by in Hx. destruct (fl_task fl) eqn:Ez; try (destruct Hx; reflexivity).
      - destruct (fl_reply fl) as [[[b| |]| | | | | | |]|] eqn:Er; try (destruct Hx; reflexivity).
        exists j, b. split; left; auto.
      - exists j, block. split; right; eauto. }
    destruct J as (j & b & J & Hp).
    pose proof (mo_job _ (sk_mints _ _ _ K) _ _ _ Hin J) as Hj.
    assert (Hle : mint_part native a fl <= waiting_part a (sys_state s) (dep_source (mj_event j))).
    { pose proof (minted_parts native a fl). transitivity (minted_by native a fl); [lia|].
      apply minted_le; auto. intros b0 E0. destruct fl as [t r]. cbn in E0. subst t. eapply (sk_fees _ _ _ K); eauto. }
    pose proof (mo_paid _ (sk_mints _ _ _ K) _ _ _ _ Hin Hp) as Hop.
    pose proof (jo_wait _ _ Hj (mj_event j) (or_introl eq_refl)) as Hw. cbn in Hw.
    unfold waiting_part in Hle. rewrite Hw in Hle.
    pose proof (sum_filter_out (fun x : EventSource * ReceivedDepositEvent => deposit_part a (snd x))
      (fun x => match mints_for (fst x) (sys_ops s) with [] => true | _ => false end) (events_to_mint (sys_state s))
      (dep_source (mj_event j), mj_event j)) as Hout.
    assert (Hout' : sum_of (fun x : EventSource * ReceivedDepositEvent => deposit_part a (snd x))
      (filter (fun x => match mints_for (fst x) (sys_ops s) with [] => true | _ => false end) (events_to_mint (sys_state s))) +
      deposit_part a (mj_event j) <= sum_of (fun x => deposit_part a (snd x)) (events_to_mint (sys_state s))).
    { apply Hout.
      - apply bget_iff_In; auto. pose proof (sk_kept _ _ _ K) as (_ & [_ Hd] & _).
        pose proof (hist_good _ _ Hd) as Hh. exact (ho_wait_sorted _ _ Hh).
      - cbn [fst]. destruct (mints_for (dep_source (mj_event j)) (sys_ops s)) eqn:Em; auto. exfalso.
        assert (Hf : In (mint_call j, b) (mints_for (dep_source (mj_event j)) (sys_ops s))).
        { unfold mints_for. apply filter_In. split; auto. cbn [fst]. rewrite mint_call_source. apply keqb_refl. }
        rewrite Em in Hf. destruct Hf. }
    lia.
Qed.

Lemma repays_owed a s : reach self keccak env s -> compat a (sys_state s) ->
  to_repay a s + bsum (fun _ fl => reimb_part (native_ledger_id (sys_state s)) a fl) (sys_tasks s) <= repay_sum a (sys_state s).
Proof.
  intros Hr Hc. pose proof (solv_known_reach s Hr) as K. pose proof (guards_reach self keccak env s Hr) as Hg.
  unfold repay_sum. rewrite (bsum_list (fun i q => repay_part (native_ledger_id (sys_state s)) a i q)). unfold to_repay.
  set (native := native_ledger_id (sys_state s)).
  destruct (bsum_single (fun (_ : N) fl => reimb_part native a fl) (sys_tasks s)) as [E|(id & fl & Hin & Hx & E)].
  - apply bsorted_NoDup. apply (ids_sorted _ (sk_ids _ _ _ K)).
  - intros i j x y H1 H2 N1 N2. apply in_tasks in H1, H2; try apply (sk_ids _ _ _ K).
    assert (J : forall z, reimb_part native a z <> 0 -> reimbursing (fl_task z)).
    { intros z. unfold reimb_part. destruct (fl_task z) eqn:Ez; try (intros Hz; destruct Hz; reflexivity); intros _.
      unfold reimbursing. eauto 6. }
    eapply reimbursing_unique; eauto.
  - rewrite E. rewrite N.add_0_r. apply sum_filter_le.
  - rewrite E. apply in_tasks in Hin; [|apply (sk_ids _ _ _ K)].
    assert (J : exists l i q rest b, fl = {| fl_task := TReimburse l i q rest; fl_reply := Some (ReLedger (LedgerOk b)) |}).
    { unfold reimb_part in Hx. unfold minted_by in Hx. destruct fl as [t r]. cbn [fl_task fl_reply] in Hx.
      destruct t; try (destruct Hx; reflexivity).
      destruct r as [[[b| |]| | | | | | |]|]; try (destruct Hx; reflexivity). do 5 eexists. reflexivity. }
    destruct J as (l & i & q & rest & b & ->).
    assert (Hjob : rjob_ok (sys_state s) l i q rest).
    { apply (po_job _ (sk_pays _ _ _ K)). exists id. eexists. split; [exact Hin|reflexivity]. }
    destruct (po_list _ (sk_pays _ _ _ K)) as (L & HL).
    assert (Hfly : In (i, q, b) L).
    { eapply lg_fly; [exact HL|]. exists id, l, rest. exact Hin. }
    pose proof (lg_in _ _ _ _ _ _ HL _ _ _ Hfly) as [Ho _].
    assert (Hop : In (paid_op native (i, q, b)) (sys_ops s)).
    { assert (In (paid_op native (i, q, b)) (reimbursements (sys_ops s))) as Hin'.
      { rewrite (lg_ops _ _ _ _ _ _ HL). apply in_map. exact Hfly. }
      unfold reimbursements in Hin'. apply filter_In in Hin'. apply Hin'. }
    pose proof (repaid_le self keccak a _ _ _ _ _ {| fl_task := TReimburse l i q rest; fl_reply := Some (ReLedger (LedgerOk b)) |} Hjob eq_refl) as Hle.
    fold native in Hle. unfold reimb_part. cbn [fl_task].
    assert (Hw : owing (sys_state s) i q) by (apply Hjob; left; reflexivity).
    unfold owing in Hw. unfold owing_part in Hle. rewrite Hw in Hle. fold native in Hle.
    pose proof (sum_filter_out (fun x : ReimbursementIndex * ReimbursementRequest => repay_part native a (fst x) (snd x))
      (fun x => unpaid native (sys_ops s) (fst x)) (reimb_requests (withdrawals (sys_state s))) (i, q)) as Hout.
    cbn [fst snd] in Hout.
    assert (Hu : unpaid native (sys_ops s) i = false).
    { unfold unpaid. apply negb_false_iff. apply existsb_exists. eexists. split; [exact Hop|].
      unfold paid_op. cbn [fst snd]. rewrite (named_payment _ _ _ _ Ho). rewrite bytes_eqb_refl, N.eqb_refl. reflexivity. }
    assert (Hi : In (i, q) (reimb_requests (withdrawals (sys_state s)))).
    { apply bget_iff_In; auto. pose proof (sk_kept _ _ _ K) as (Hcore & _). apply (i_rq_sorted _ (core_wt _ _ Hcore)). }
    specialize (Hout Hi Hu). lia.
Qed.

Theorem solvent_reach a s : reach self keccak env s -> compat a (sys_state s) -> solvent self a s.
Proof.
  intros Hr Hc. set (native := native_ledger_id (sys_state s)).
  pose proof (burned_le (asset_ledger native a) s Hr) as Hb. split; [exact Hb|].
  pose proof (covered_reach a s Hr Hc) as Hcov. pose proof (mints_owed a s Hr Hc) as Hm. pose proof (repays_owed a s Hr Hc) as Hp.
  unfold covered_sum, net, values in Hcov. fold native in Hcov, Hm, Hp |- *.
  rewrite (bsum_add (fun _ fl => minted_by native a fl) (fun _ fl => mint_part native a fl) (fun _ fl => reimb_part native a fl)) in Hcov
    by (intros; apply minted_parts).
  unfold supply, in_flight. fold native.
  rewrite (bsum_list (fun _ fl => burned_by native a fl)) in Hcov. lia.
Qed.

Lemma solvent_native s : reach self keccak env s -> native_apart (sys_state s) -> solvent self Native s.
Proof.
  intros Hr Ha. apply solvent_reach; auto. intros c l sy Hg. eapply Ha.
  apply (proj2 (listed_iff _ (tokens_reach self keccak env s Hr) l c sy)). exact Hg.
Qed.
Lemma solvent_token s c l sy : reach self keccak env s -> listed (sys_state s) l c sy ->
  l <> native_ledger_id (sys_state s) -> solvent self (Token c l) s.
Proof.
  intros Hr Hl Hn. apply solvent_reach; auto. split; auto. intros c' l' sy' Hg.
  apply (proj2 (listed_iff _ (tokens_reach self keccak env s Hr) l' c' sy')) in Hg.
  split; intros ->.
  - apply (listed_unique self keccak env s _ _ _ _ _ _ Hr Hg Hl). auto.
  - apply (listed_unique self keccak env s _ _ _ _ _ _ Hr Hg Hl). auto.
Qed.
End Reach.
