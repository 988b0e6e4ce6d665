(** * The burns behind the recorded requests: invariants. *)

From Coq Require Import Permutation.
From Verif Require Import Base BMap MultiKeyMap MultiKeyMapFacts Bytes Types Amount ArithFacts Tx CallData
  Network Hex Transactions State Audit Ranges Rlp Parser Memo Driver Sys SysSpec WtInv StateEquiv
  Segments Tasks SysFacts CoreInv GuardSpec Guards GuardFacts WeakSteps LogFacts UpgradeFacts
  TxSpec WtContent WithdrawSpec WithdrawFacts StageFacts ReimburseSpec ReimburseFacts BurnSpec.

(** ** Blocks are never reused *)

Section Blocks.
Variable self : Principal.
Variable keccak : list N -> Hash.

Lemma allowed_fresh ops c b : ledger_allows self ops c b = true -> ~ In (op_block (c, b)) (map op_block ops).
Proof.
  unfold ledger_allows. intros H Hin. apply andb_true_iff in H as [H _]. apply negb_true_iff in H.
  apply in_map_iff in Hin as ([c' b'] & E & Hin). unfold op_block in E. cbn in E. injection E as E1 E2.
  assert (Hx : existsb (fun o : Op => bytes_eqb (call_ledger (fst o)) (call_ledger c) && (snd o =? b)) ops = true).
  { apply existsb_exists. exists (c', b'). split; auto. cbn. rewrite E1, E2, N.eqb_refl, andb_true_r.
    apply bytes_eqb_refl. }
  unfold Op in *. congruence.
Qed.

Lemma blocks_reach (env : Sys -> Label -> Prop) s : reach self keccak env s -> NoDup (map op_block (sys_ops s)).
Proof.
  apply (reach_inv self keccak env (fun s => NoDup (map op_block (sys_ops s)))).
  - intros now a s0 H. apply sys_init_inv in H as (st & _ & _ & _ & _ & _ & -> & _). constructor.
  - intros s0 l s' IH _ H. destruct H; cbn; rewrite ?install_ops; cbn; auto.
    rewrite map_app. cbn. apply WithdrawFacts.nodup_snoc; auto. eapply allowed_fresh; eauto.
Qed.

(** ** What the suspended functions hold *)

Definition reply_block (fl : Flight) : list N :=
  match fl_reply fl with Some (ReLedger (LedgerOk b)) => [b] | _ => [] end.
Definition task_claims (fl : Flight) : list Block :=
  match fl_task fl with
  | TNativeBurn j => map (fun b => (nj_ledger j, b)) (reply_block fl)
  | TErc20GasBurn j => map (fun b => (ej_native_ledger j, b)) (reply_block fl)
  | TErc20Burn j i => (ej_native_ledger j, i) :: map (fun b => (et_ledger_id (ej_token j), b)) (reply_block fl)
  | _ => []
  end.
Definition opt_claims (o : option Flight) : list Block :=
  match o with Some fl => task_claims fl | None => [] end.

Record fresh (cl : list Block) (get : N -> option Flight) (keys : list Block) : Prop := {
  fr_log : NoDup cl;
  fr_one : forall id, NoDup (opt_claims (get id));
  fr_fly : forall id x, In x (opt_claims (get id)) -> ~ In x cl;
  fr_two : forall id id' x, In x (opt_claims (get id)) -> In x (opt_claims (get id')) -> id = id';
  fr_log_in : forall x, In x cl -> In x keys;
  fr_fly_in : forall id x, In x (opt_claims (get id)) -> In x keys
}.

Lemma fresh_move cl get keys cl' get' keys' mv id o :
  fresh cl get keys -> put id o get get' -> cl' = cl ++ mv -> incl keys keys' ->
  NoDup (mv ++ opt_claims o) ->
  (forall x, In x (mv ++ opt_claims o) -> In x (opt_claims (get id)) \/ (~ In x keys /\ In x keys')) ->
  fresh cl' get' keys'.
Proof.
  intros [F1 F2 F3 F4 F5 F6] Hp -> Hk Hnd Hsrc.
  assert (Hget : forall i, (i = id /\ get' i = o) \/ (i <> id /\ get' i = get i)).
  { intros i. rewrite Hp. destruct (keqb_spec i id) as [E|E]; auto. }
  assert (Hcl : forall x, In x (mv ++ opt_claims o) -> ~ In x cl).
  { intros x Hx Hin. destruct (Hsrc _ Hx) as [H|[H _]]; [eapply F3; eauto|auto]. }
  assert (Hin : forall x, In x (mv ++ opt_claims o) -> In x keys').
  { intros x Hx. destruct (Hsrc _ Hx) as [H|[_ H]]; eauto. }
  assert (Hoth : forall x i, In x (mv ++ opt_claims o) -> i <> id -> ~ In x (opt_claims (get i))).
  { intros x i Hx Hi H. destruct (Hsrc _ Hx) as [H'|[H' _]]; [destruct Hi; eapply F4; eauto|destruct H'; eauto]. }
  constructor.
  - clear - F1 Hnd Hcl. induction cl as [|a cl IH]; cbn.
    + clear - Hnd. induction mv; [constructor|]. cbn in Hnd. inversion Hnd; subst. constructor; auto.
      intros H. apply H1. apply in_or_app; auto.
    + inversion F1; subst. constructor.
      * intros H. apply in_app_or in H as [H|H]; auto. apply (Hcl a); [apply in_or_app; auto|left; auto].
      * apply IH; auto. intros x Hx H. apply (Hcl _ Hx). right; auto.
  - intros i. destruct (Hget i) as [[-> ->]|[_ ->]]; auto.
    clear - Hnd. induction mv; auto. cbn in Hnd. inversion Hnd; auto.
  - intros i x Hx H. apply in_app_or in H. destruct (Hget i) as [[-> E]|[Hi E]]; rewrite E in Hx.
    + destruct H as [H|H]; [eapply Hcl; [|exact H]; apply in_or_app; auto|].
      clear - Hnd H Hx. induction mv; [destruct H|]. cbn in Hnd. inversion Hnd; subst. destruct H as [->|H]; auto.
      apply H2. apply in_or_app; auto.
    + destruct H as [H|H]; [eapply F3; eauto|]. eapply Hoth; [|exact Hi|exact Hx]. apply in_or_app; auto.
  - intros i i' x Hx Hx'. destruct (Hget i) as [[-> E]|[Hi E]], (Hget i') as [[-> E']|[Hi' E']]; auto;
      rewrite E in Hx; rewrite E' in Hx'.
    + destruct (Hoth x i'); auto. apply in_or_app; auto.
    + destruct (Hoth x i); auto. apply in_or_app; auto.
    + eapply F4; eauto.
  - intros x Hx. apply in_app_or in Hx as [Hx|Hx]; auto. apply Hin, in_or_app; auto.
  - intros i x Hx. destruct (Hget i) as [[-> E]|[Hi E]]; rewrite E in Hx; [apply Hin, in_or_app; auto|eauto].
Qed.

(** ** The functions and the operations *)

(** what is known about a suspended withdrawal function *)
Definition task_native (native : Principal) (t : Task) : Prop :=
  match t with
  | TNativeFee j | TNativeBurn j => nj_ledger j = native
  | TErc20Estimate j | TErc20Fee j | TErc20GasBurn j | TErc20Burn j _ => ej_native_ledger j = native
  | _ => True
  end.
Definition gas_call (j : Erc20Job) : LedgerCall :=
  burn_of self (ej_native_ledger j) (default_account (ej_caller j)) (ej_tx_fee j)
    (BurnErc20GasFee (et_symbol (ej_token j)) (ej_amount j) (ej_destination j)).
Definition fl_funded (native : Principal) (ops : list Op) (fl : Flight) : Prop :=
  task_native native (fl_task fl) /\
  (forall c b, task_call self (fl_task fl) = Some c -> fl_reply fl = Some (ReLedger (LedgerOk b)) -> In (c, b) ops) /\
  (forall j i, fl_task fl = TErc20Burn j i -> In (gas_call j, i) ops).

Record burns_ok (s : Sys) : Prop := {
  bo_fresh : fresh (claims (native_ledger_id (sys_state s)) (history (sys_log s))) (sget s) (map op_block (sys_ops s));
  bo_log : forall e, In e (history (sys_log s)) -> funded self (native_ledger_id (sys_state s)) (sys_ops s) e;
  bo_fly : forall id fl, sget s id = Some fl -> fl_funded (native_ledger_id (sys_state s)) (sys_ops s) fl
}.

Lemma funded_mono native ops ops' e : incl ops ops' -> funded self native ops e -> funded self native ops' e.
Proof.
  intros Hi. destruct e; cbn; auto.
  - intros [H1 (sy & H2)]. eauto.
  - intros (a & p & sy & m & d & H1 & H2). exists a, p, sy, m, d. auto.
Qed.
Lemma fl_funded_mono native ops ops' fl : incl ops ops' -> fl_funded native ops fl -> fl_funded native ops' fl.
Proof. intros Hi (H1 & H2 & H3). split; [|split]; eauto. Qed.

(** one segment: [es] are the events it records *)
Lemma burns_seg s s' id o es :
  burns_ok s -> put id o (sget s) (sget s') -> history (sys_log s') = history (sys_log s) ++ es ->
  native_ledger_id (sys_state s') = native_ledger_id (sys_state s) -> sys_ops s' = sys_ops s ->
  NoDup (claims (native_ledger_id (sys_state s)) es ++ opt_claims o) ->
  incl (claims (native_ledger_id (sys_state s)) es ++ opt_claims o) (opt_claims (sget s id)) ->
  (forall e, In e es -> funded self (native_ledger_id (sys_state s)) (sys_ops s) e) ->
  (forall fl, o = Some fl -> fl_funded (native_ledger_id (sys_state s)) (sys_ops s) fl) ->
  burns_ok s'.
Proof.
  intros [B1 B2 B3] Hp Hh Hn Hops Hnd Hincl Hes Ho. constructor; rewrite ?Hn, ?Hops, ?Hh.
  - eapply fresh_move; [exact B1|exact Hp| |apply incl_refl|exact Hnd|].
    + unfold claims. apply flat_map_app.
    + intros x Hx. left. apply Hincl. auto.
  - intros e He. apply in_app_or in He as [He|He]; auto.
  - intros i fl Hx. rewrite Hp in Hx. destruct (keqb_spec i id) as [E|E]; eauto.
Qed.
Lemma claims_nil native es : (forall e, In e es -> claims_of native e = []) -> claims native es = [].
Proof. unfold claims. induction es; cbn; intros H; auto. rewrite H, IHes; auto. Qed.

Definition unfunded (e : EventType) : Prop := forall native, claims_of native e = [].
Lemma unfunded_funded native ops e : unfunded e -> funded self native ops e.
Proof. intros H. specialize (H native). destruct e; cbn in *; auto; discriminate. Qed.

(** a segment that records nothing of interest and goes on without a claim *)
Lemma burns_quiet s s' id o es :
  burns_ok s -> put id o (sget s) (sget s') -> history (sys_log s') = history (sys_log s) ++ es ->
  native_ledger_id (sys_state s') = native_ledger_id (sys_state s) -> sys_ops s' = sys_ops s ->
  (forall e, In e es -> unfunded e) -> opt_claims o = [] ->
  (forall fl, o = Some fl -> fl_funded (native_ledger_id (sys_state s)) (sys_ops s) fl) ->
  burns_ok s'.
Proof.
  intros B Hp Hh Hn Hops Hes Hc Ho.
  assert (Hcl : claims (native_ledger_id (sys_state s)) es = []) by (apply claims_nil; intros; apply Hes; auto).
  eapply burns_seg; eauto; rewrite ?Hcl, ?Hc; cbn.
  - constructor.
  - intros x [].
  - intros e He. apply unfunded_funded. auto.
Qed.

Lemma wmicros_logs (J : EventType -> Prop) now c c' : wmicros J now c c' ->
  (exists es, history (snd c') = history (snd c) ++ es /\ forall e, In e es -> J e) /\
  native_ledger_id (fst c') = native_ledger_id (fst c).
Proof.
  intros H. split.
  - revert c c' H. apply (wmicros_rel J now (fun c c' => exists es, history (snd c') = history (snd c) ++ es /\ forall e, In e es -> J e)).
    + intros c. exists []. rewrite app_nil_r. split; auto. intros e [].
    + intros a b c (x & -> & H1) (y & -> & H2). exists (x ++ y). rewrite app_assoc. split; auto.
      intros e He. apply in_app_or in He as [He|He]; auto.
    + intros c c' H. inversion H; subst; cbn.
      * exists []. rewrite app_nil_r. split; auto. intros x [].
      * exists [e]. unfold record_event, history. rewrite map_app. split; auto. intros x [<-|[]]; auto.
      * exists []. rewrite app_nil_r. split; auto. intros x [].
  - revert c c' H. apply (wmicros_rel J now (fun c c' => native_ledger_id (fst c') = native_ledger_id (fst c))).
    + auto.
    + intros; congruence.
    + intros c c' H. inversion H; subst; cbn; auto.
      * destruct H0 as (v & ->). reflexivity.
      * destruct (apply_same _ _ _ H1) as ((_ & Hn & _) & _). auto.
Qed.

(** which functions record the events of interest *)
Definition burning (t : Task) : Prop :=
  match t with TNativeBurn _ | TErc20GasBurn _ | TErc20Burn _ _ => True | _ => False end.
Lemma emits_unfunded t r e : ~ burning t -> wemits keccak t r e -> unfunded e.
Proof.
  intros Hn [(s & H)|H].
  - apply emits_inv in H. destruct e; intros native; cbn; auto; cbn in H; exfalso.
    + destruct H as (j & b & -> & _). apply Hn. exact Logic.I.
    + destruct H as (j & i & b & -> & _). apply Hn. exact Logic.I.
    + destruct H as (j & i & b & x & -> & _). apply Hn. exact Logic.I.
  - destruct H as (g & id & x & _ & [-> | ->]); intros native; reflexivity.
Qed.

Lemma process_history now e c c' : process_event now e c = Done c' ->
  history (snd c') = history (snd c) ++ [e] /\ native_ledger_id (fst c') = native_ledger_id (fst c).
Proof.
  intros H. apply process_event_inv in H as (s' & H & ->). cbn. unfold record_event, history. rewrite map_app. split; auto.
  destruct (apply_same _ _ _ H) as ((_ & Hn & _) & _). auto.
Qed.

Lemma estimated_native native now j g s t' : estimated_next now j g s t' -> ej_native_ledger j = native ->
  task_native native t' /\ task_claims {| fl_task := t'; fl_reply := None |} = [] /\ (forall j i, t' <> TErc20Burn j i).
Proof.
  unfold estimated_next. destruct (withdrawal_native_fee s); [intros [_ ->]|intros ->]; cbn; split; auto; split; auto; discriminate.
Qed.

Lemma next_native now t r c c' t' : next_spec now t r c c' t' -> task_native (native_ledger_id (fst c)) t ->
  task_native (native_ledger_id (fst c)) t'.
Proof.
  intros H Ht. destruct t'; cbn in *; auto; try tauto.
  - destruct H as (j0 & b & fee & -> & _ & _ & _ & _ & ->). reflexivity.
  - destruct H as (j0 & h & g & -> & _ & H). eapply estimated_native in H as [H _]; eauto.
  - destruct H as [(j0 & h & g & -> & _ & H)|(j0 & b & -> & _ & _ & ->)]; [|exact Ht].
    eapply estimated_native in H as [H _]; eauto.
  - destruct H as (-> & _). exact Ht.
Qed.

(** what a callback of a burning function does *)
Definition burn_after (t : Task) (r : Reply) (es : list EventType) (nx : Next) : Prop :=
  match t, r with
  | TNativeBurn j, ReLedger (LedgerOk b) =>
      es = [EvAcceptedNativeWithdrawalRequest (native_request j b)] /\ exists o, nx = Finish o
  | TErc20GasBurn j, ReLedger (LedgerOk b) => es = [] /\ nx = Await (TErc20Burn j b)
  | TErc20Burn j i, ReLedger (LedgerOk b) =>
      es = [EvAcceptedErc20WithdrawalRequest (erc20_request j i b)] /\ exists o, nx = Finish o
  | TErc20Burn j i, _ =>
      (es = [] \/ exists a, a <= ej_tx_fee j /\ es = [EvFailedErc20WithdrawalRequest (failed_request j i a)]) /\
      forall t', nx = Await t' -> ~ burning t' /\ forall n, task_native n t'
  | _, _ => es = [] /\ forall t', nx = Await t' -> ~ burning t' /\ forall n, task_native n t'
  end.
Lemma failed_le j e : failed_burn_reimbursement j e <= ej_tx_fee j.
Proof.
  unfold failed_burn_reimbursement. destruct e; try lia;
    (destruct (checked_sub (ej_tx_fee j) (ej_transfer_fee j)) eqn:E; [apply checked_sub_some in E; lia|lia]).
Qed.
Lemma burn_segment now t r c c' nx : burning t -> resume keccak now t r c = Done (c', nx) ->
  exists es, history (snd c') = history (snd c) ++ es /\ native_ledger_id (fst c') = native_ledger_id (fst c) /\
    burn_after t r es nx.
Proof.
  intros Hb H. destruct t; try destruct Hb; destruct r; cbn in H; try discriminate.
  - unfold native_burn_reply in H. apply rbind_done in H as (x & H1 & H2). destruct x as [b|e].
    + apply burn_result_ok in H1 as [-> _]. apply rbind_done in H2 as (c1 & H2 & H3).
      apply process_history in H2 as [H2 H4]. unfold end_call in H3. injection H3 as <- <-.
      eexists. split; [exact H2|]. split; [exact H4|]. cbn. split; [reflexivity|eauto].
    + exists []. rewrite app_nil_r.
      assert (Hx : history (snd c') = history (snd c) /\ native_ledger_id (fst c') = native_ledger_id (fst c) /\
        forall t', nx = Await t' -> ~ burning t' /\ forall n, task_native n t').
      { destruct (nj_fee j); [|apply rbind_done in H2 as (? & _ & H2); unfold end_call in H2]; injection H2 as <- <-; cbn; (split; [auto|split; [auto|]]);
          intros t' E; try discriminate E; injection E as <-; cbn; auto. }
      destruct Hx as (-> & -> & Hx). split; auto. split; auto.
      destruct r; cbn; auto. cbn in H1. inv_res. discriminate.
  - unfold erc20_gas_burn_reply in H. apply rbind_done in H as (x & H1 & H2). destruct x as [b|e].
    + apply burn_result_ok in H1 as [-> _]. injection H2 as <- <-.
      exists []. rewrite app_nil_r. cbn. auto.
    + exists []. rewrite app_nil_r. unfold erc20_refund_start in H2.
      assert (Hx : history (snd c') = history (snd c) /\ native_ledger_id (fst c') = native_ledger_id (fst c) /\
        forall t', nx = Await t' -> ~ burning t' /\ forall n, task_native n t').
      { destruct (ej_fee j); [|unfold end_call in H2]; injection H2 as <- <-; cbn; (split; [auto|split; [auto|]]);
          intros t' E; try discriminate E; injection E as <-; cbn; auto. }
      destruct Hx as (-> & -> & Hx). split; auto. split; auto.
      destruct r; cbn; auto. cbn in H1. inv_res. discriminate.
  - unfold erc20_burn_reply in H. apply rbind_done in H as (x & H1 & H2). destruct x as [b|e].
    + apply burn_result_ok in H1 as [-> _]. apply rbind_done in H2 as (c1 & H2 & H3).
      apply process_history in H2 as [H2 H4]. unfold end_call in H3. injection H3 as <- <-.
      eexists. split; [exact H2|]. split; [exact H4|]. cbn. split; [reflexivity|eauto].
    + apply rbind_done in H2 as (c1 & H2 & H3).
      assert (Hx : history (snd c') = history (snd c1) /\ native_ledger_id (fst c') = native_ledger_id (fst c1) /\
        forall t', nx = Await t' -> ~ burning t' /\ forall n, task_native n t').
      { unfold erc20_refund_start in H3. destruct (ej_fee j); [|unfold end_call in H3]; injection H3 as <- <-; cbn; (split; [auto|split; [auto|]]);
          intros t' E; try discriminate E; injection E as <-; cbn; auto. }
      destruct Hx as (-> & -> & Hx).
      assert (Hy : exists es, history (snd c1) = history (snd c) ++ es /\ native_ledger_id (fst c1) = native_ledger_id (fst c) /\
        (es = [] \/ exists a, a <= ej_tx_fee j /\ es = [EvFailedErc20WithdrawalRequest (failed_request j native_index a)])).
      { destruct (0 <? failed_burn_reimbursement j e).
        - apply process_history in H2 as [H2 H4]. eexists. split; [exact H2|]. split; [exact H4|].
          right. eexists. split; [|reflexivity]. apply failed_le.
        - injection H2 as <-. exists []. rewrite app_nil_r. auto. }
      destruct Hy as (es & Hy & Hz & Hes). exists es. split; auto. split; auto.
      destruct r; cbn; auto. cbn in H1. inv_res. discriminate.
Qed.

Lemma burning_dec t : burning t \/ ~ burning t.
Proof. destruct t; cbn; auto. Qed.
Lemma claims_burning fl : task_claims fl <> [] -> burning (fl_task fl).
Proof. unfold task_claims. destruct (fl_task fl); cbn; auto. Qed.
Lemma claims_quiet t r : ~ burning t -> task_claims {| fl_task := t; fl_reply := r |} = [].
Proof. destruct t; cbn; auto; tauto. Qed.
Lemma claims_new t : (forall j i, t <> TErc20Burn j i) -> task_claims {| fl_task := t; fl_reply := None |} = [].
Proof. destruct t; cbn; auto. intros H. destruct (H j native_index). reflexivity. Qed.

Lemma burns_trans s l s' : ids_ok s -> core_ok keccak (sys_core s) -> burns_ok s -> Trans self keccak s l s' -> burns_ok s'.
Proof.
  intros Hi Hcore Hm H. pose proof Hcore as [_ _ Hrep].
  assert (Hfresh : sget s (sys_next s) = None) by (unfold sget; apply (fresh_id self keccak _ Hi)).
  set (native := native_ledger_id (sys_state s)).
  destruct H as [|k now c nx Hc H|u now c nx Hc H|k now Hc|u now Hc|id t c b Hget Hcall Hallow
    |id t r Hget Hfit Hno|id now t r c nx Hc Hget H|id trap now t r c Hc Hget Hp H|a now c Hc Ht H].
  - auto.
  - (* a timer *)
    pose proof (timer_micros _ _ _ _ _ H) as [Hv Hl].
    eapply burns_quiet with (id := sys_next s) (es := []); [exact Hm| | | | | | |].
    + intros i. unfold sget. cbn. rewrite install_tasks. reflexivity.
    + unfold sys_log. cbn. rewrite install_core. cbn. rewrite Hl, app_nil_r. reflexivity.
    + unfold sys_state. cbn. rewrite install_core. cbn. destruct Hv as (v & ->). reflexivity.
    + cbn. rewrite install_ops. reflexivity.
    + intros e [].
    + destruct nx as [t'|]; [|reflexivity]. cbn. apply claims_new. apply timer_after in H. intros j i ->. destruct H.
    + intros fl Ho. destruct nx as [t'|]; [|discriminate]. injection Ho as <-. apply timer_after in H.
      split; [|split]; cbn; try discriminate.
      * destruct t'; cbn in *; auto; destruct H.
      * intros j i ->. destruct H.
  - (* a call *)
    assert (Hk : wmicros (fun e => exists st, call_emits u st e) now (sys_core s) c).
    { eapply micros_weak; [|eapply call_micros; eauto]. eauto. }
    apply wmicros_logs in Hk as [(es & Hes & Hj) Hn].
    assert (Hx : forall t', nx = Await t' -> task_native native t' /\ forall j i, t' <> TErc20Burn j i).
    { intros t' ->. apply (call_after keccak) in H. destruct u; cbn in H.
      - destruct H as (_ & s1 & Hg & [(H & _)|(d & _ & _ & [(H & _)|(_ & _ & H)])]); try discriminate.
        assert (E : native_ledger_id s1 = native).
        { apply (guard_new_inv keccak) in Hg. decompose [and ex] Hg. subst s1. reflexivity. }
        destruct (withdrawal_native_fee s1); [destruct H as [_ H]|]; injection H as ->; cbn; split; auto; discriminate.
      - destruct H as (_ & s1 & Hg & [(e & H & _)|(d & tk & _ & _ & _ & [(g & t2 & _ & H & Hest)|(s2 & _ & _ & H)])]); try discriminate.
        + injection H as <-.
          assert (E : native_ledger_id s1 = native).
          { apply (guard_new_inv keccak) in Hg. decompose [and ex] Hg. subst s1. reflexivity. }
          eapply (estimated_native native) in Hest as (H1 & _ & H2); auto.
        + injection H as ->. cbn. split; [|discriminate].
          apply (guard_new_inv keccak) in Hg. decompose [and ex] Hg. subst s1. reflexivity.
      - destruct H as (H & _). discriminate.
      - destruct H as (_ & n & tm & _ & _ & H). discriminate. }
    eapply burns_quiet with (id := sys_next s) (es := es); [exact Hm| | | | | | |].
    + intros i. unfold sget. cbn. rewrite install_tasks. reflexivity.
    + unfold sys_log. cbn. rewrite install_core. cbn. exact Hes.
    + unfold sys_state. cbn. rewrite install_core. cbn. exact Hn.
    + cbn. rewrite install_ops. reflexivity.
    + intros e He. apply Hj in He as (st & He). destruct u; cbn in He; try contradiction.
      decompose [and ex] He. subst e. intros n. reflexivity.
    + destruct nx as [t'|]; [|reflexivity]. cbn. apply claims_new. apply Hx. reflexivity.
    + intros fl Ho. destruct nx as [t'|]; [|discriminate]. injection Ho as <-.
      destruct (Hx _ eq_refl) as [H1 H2]. split; [exact H1|]. split; cbn; [discriminate|].
      intros j i E. destruct (H2 _ _ E).
  - destruct Hm as [P1 P2 P3]. constructor; [exact P1|exact P2|exact P3].
  - destruct Hm as [P1 P2 P3]. constructor; [exact P1|exact P2|exact P3].
  - (* a ledger executes an operation *)
    pose proof Hm as [P1 P2 P3].
    set (fl' := {| fl_task := t; fl_reply := Some (ReLedger (LedgerOk b)) |}).
    set (s1 := with_op (c, b) (answered id t (ReLedger (LedgerOk b)) s)).
    assert (Hput : put id (Some fl') (sget s) (sget s1)).
    { intros i. unfold sget, s1. cbn. rewrite bget_insert. reflexivity. }
    assert (Hincl : incl (sys_ops s) (sys_ops s1)) by (intros x Hx; unfold s1; cbn; apply in_or_app; auto).
    constructor.
    + assert (Hold : sget s id = Some {| fl_task := t; fl_reply := None |}) by exact Hget.
      eapply fresh_move with (id := id) (mv := []); [exact P1|exact Hput| | | |].
      * rewrite app_nil_r. reflexivity.
      * intros x Hx. unfold s1. cbn. rewrite map_app. apply in_or_app; auto.
      * cbn [app opt_claims]. pose proof (fr_fly_in _ _ _ P1 id) as Hin. rewrite Hold in Hin.
        apply allowed_fresh in Hallow.
        destruct t; cbn in Hcall; try discriminate; injection Hcall as <-; cbn; try constructor; auto using NoDup_nil.
        -- intros [E|[]]. apply Hallow. apply Hin. cbn. left. rewrite <- E. reflexivity.
        -- constructor; auto using NoDup_nil.
      * cbn [app]. intros x Hx. rewrite Hold. pose proof (allowed_fresh _ _ _ Hallow) as Hf.
        assert (Hk : In (op_block (c, b)) (map op_block (sys_ops s1))).
        { unfold s1. cbn. rewrite map_app. apply in_or_app. right. left. reflexivity. }
        destruct t; cbn in Hcall; try discriminate; injection Hcall as <-; cbn in *; try contradiction.
        -- destruct Hx as [<-|[]]. right. split; assumption.
        -- destruct Hx as [<-|[]]. right. split; assumption.
        -- destruct Hx as [<-|[<-|[]]]; [left; left; reflexivity|right; split; assumption].
    + intros e He. eapply funded_mono; [exact Hincl|]. apply P2. exact He.
    + intros i fl Hx. rewrite Hput in Hx. destruct (keqb_spec i id) as [E|E].
      * injection Hx as <-. destruct (P3 _ _ Hget) as (Q1 & Q2 & Q3). split; [exact Q1|]. split; cbn.
        -- intros c' b' Hc' Hb'. injection Hb' as <-. unfold s1. cbn. apply in_or_app. right. left. congruence.
        -- intros j i' Ht. apply Hincl. apply Q3. exact Ht.
      * eapply fl_funded_mono; [exact Hincl|]. eapply P3; eauto.
  - (* another answer *)
    pose proof Hm as [P1 P2 P3].
    set (fl' := {| fl_task := t; fl_reply := Some r |}). set (s1 := answered id t r s).
    assert (Hput : put id (Some fl') (sget s) (sget s1)).
    { intros i. unfold sget, s1. cbn. rewrite bget_insert. reflexivity. }
    assert (Hb : reply_block fl' = []).
    { unfold reply_block. cbn. destruct r as [[b| |]| | | | | | |]; auto. destruct (Hno b). reflexivity. }
    assert (Hcl : task_claims fl' = opt_claims (sget s id)).
    { unfold sget. rewrite Hget. unfold opt_claims, task_claims. rewrite Hb. reflexivity. }
    eapply burns_seg with (id := id) (es := []); [exact Hm|exact Hput| | | | | | |]; cbn.
    + rewrite app_nil_r. reflexivity.
    + reflexivity.
    + reflexivity.
    + rewrite Hcl. apply (fr_one _ _ _ P1).
    + rewrite Hcl. apply incl_refl.
    + intros e [].
    + intros fl Ho. injection Ho as <-. destruct (P3 _ _ Hget) as (Q1 & Q2 & Q3). split; [exact Q1|]. split; cbn.
      * intros c b _ E. injection E as E. destruct (Hno b). exact E.
      * exact Q3.
  - (* a callback *)
    pose proof Hm as [P1 P2 P3]. destruct (P3 _ _ Hget) as (Q1 & Q2 & Q3). cbn [fl_task fl_reply] in *.
    destruct (burning_dec t) as [Hb|Hb].
    + pose proof (burn_segment _ _ _ _ _ _ Hb H) as (es & Hes & Hn & Haft).
      assert (Hlog : history (sys_log (install id nx (with_queries (task_query t r) (with_core c now s)))) = history (sys_log s) ++ es).
      { unfold sys_log. rewrite install_core. exact Hes. }
      assert (Hnat : native_ledger_id (sys_state (install id nx (with_queries (task_query t r) (with_core c now s)))) = native).
      { unfold sys_state. rewrite install_core. exact Hn. }
      pose proof (fr_one _ _ _ P1 id) as Hone. unfold sget in Hone. rewrite Hget in Hone.
      assert (Hok : NoDup (claims native es ++ opt_claims (match nx with Await t' => Some {| fl_task := t'; fl_reply := None |} | Finish _ => None end)) /\
        incl (claims native es ++ opt_claims (match nx with Await t' => Some {| fl_task := t'; fl_reply := None |} | Finish _ => None end))
          (opt_claims (sget s id)) /\
        (forall e, In e es -> funded self native (sys_ops s) e) /\
        (forall t', nx = Await t' -> task_native native t' /\ forall j i, t' = TErc20Burn j i -> In (gas_call j, i) (sys_ops s))).
      { assert (Hdull : es = [] -> (forall t', nx = Await t' -> ~ burning t' /\ forall n, task_native n t') ->
          claims native es ++ opt_claims (match nx with Await t' => Some {| fl_task := t'; fl_reply := None |} | Finish _ => None end) = [] /\
          (forall t', nx = Await t' -> task_native native t' /\ forall j i, t' = TErc20Burn j i -> In (gas_call j, i) (sys_ops s))).
        { intros -> Hd. destruct nx as [t'|o]; [|split; [reflexivity|discriminate]].
          destruct (Hd _ eq_refl) as [D1 D2]. split; [cbn; apply claims_quiet; auto|].
          intros t2 E. injection E as <-. split; auto. intros j i ->. destruct D1. exact Logic.I. }
        assert (Hgoal : es = [] -> (forall t', nx = Await t' -> ~ burning t' /\ forall n, task_native n t') ->
          NoDup (claims native es ++ opt_claims (match nx with Await t' => Some {| fl_task := t'; fl_reply := None |} | Finish _ => None end)) /\
        incl (claims native es ++ opt_claims (match nx with Await t' => Some {| fl_task := t'; fl_reply := None |} | Finish _ => None end))
          (opt_claims (sget s id)) /\
        (forall e, In e es -> funded self native (sys_ops s) e) /\
        (forall t', nx = Await t' -> task_native native t' /\ forall j i, t' = TErc20Burn j i -> In (gas_call j, i) (sys_ops s))).
        { intros E1 E2. destruct (Hdull E1 E2) as [-> D]. split; [constructor|]. split; [intros x []|]. split; auto.
          rewrite E1. intros e []. }
        assert (Hr : (exists b, r = ReLedger (LedgerOk b)) \/ (forall b, r <> ReLedger (LedgerOk b))).
        { destruct r as [[b| |]| | | | | | |]; [eauto|..]; right; discriminate. }
        unfold sget in *. rewrite Hget in *. destruct t; try destruct Hb; destruct Hr as [(b & ->)|Hr]; cbn in Haft.
        - destruct Haft as [-> (o & ->)]. cbn in *. assert (Q0 : native = nj_ledger j) by (symmetry; exact Q1).
          rewrite Q0. split; [exact Hone|]. split; [apply incl_refl|]. split; [|discriminate].
          intros e [<-|[]]. cbn. specialize (Q2 _ b eq_refl eq_refl). exact Q2.
        - apply Hgoal; destruct r as [[b| |]| | | | | | |]; try tauto; destruct (Hr b); reflexivity.
        - destruct Haft as [-> ->]. cbn in *. split; [exact Hone|]. split; [apply incl_refl|]. split; [intros e []|].
          intros t' E. injection E as <-. split; [exact Q1|]. intros j2 i2 E. injection E as <- <-.
          specialize (Q2 _ b eq_refl eq_refl). exact Q2.
        - apply Hgoal; destruct r as [[b| |]| | | | | | |]; try tauto; destruct (Hr b); reflexivity.
        - destruct Haft as [-> (o & ->)]. cbn in *. assert (Q0 : native = ej_native_ledger j) by (symmetry; exact Q1).
          rewrite Q0. split; [exact Hone|]. split; [apply incl_refl|]. split; [|discriminate].
          intros e [<-|[]]. cbn. specialize (Q2 _ b eq_refl eq_refl). split; [exact Q2|].
          exists (et_symbol (ej_token j)). apply (Q3 _ _ eq_refl).
        - assert (Hx : (es = [] \/ (exists a : N, a <= ej_tx_fee j /\ es = [EvFailedErc20WithdrawalRequest (failed_request j native_index a)])) /\
            (forall t' : Task, nx = Await t' -> ~ burning t' /\ (forall n, task_native n t'))).
          { destruct r as [[b| |]| | | | | | |]; try exact Haft. destruct (Hr b). reflexivity. }
          destruct Hx as [[E|(a & Ha & ->)] Hx]; [apply Hgoal; auto|].
          assert (Ho : opt_claims (match nx with Await t' => Some {| fl_task := t'; fl_reply := None |} | Finish _ => None end) = []).
          { destruct nx as [t'|]; [|reflexivity]. cbn. apply claims_quiet. apply (Hx _ eq_refl). }
          rewrite Ho. cbn. assert (Q0 : native = ej_native_ledger j) by (symmetry; exact Q1). rewrite Q0.
          split; [constructor; auto using NoDup_nil|]. split; [intros x [<-|[]]; left; reflexivity|]. split.
          + intros e [<-|[]]. cbn. exists (ej_tx_fee j), (ej_tx_fee j - a), (et_symbol (ej_token j)), (ej_amount j), (ej_destination j).
            split; [apply (Q3 _ _ eq_refl)|split; [lia|reflexivity]].
          + intros t' E. destruct (Hx _ E) as [D1 D2]. split; auto. intros j2 i2 ->. destruct D1. exact Logic.I. }
      destruct Hok as (K1 & K2 & K3 & K4).
      eapply burns_seg with (id := id) (es := es); [exact Hm| |exact Hlog|exact Hnat| |exact K1|exact K2|exact K3|].
      * intros i. unfold sget. rewrite install_tasks. reflexivity.
      * rewrite install_ops. reflexivity.
      * intros fl Ho. destruct nx as [t'|]; [|discriminate]. injection Ho as <-. destruct (K4 _ eq_refl) as [K5 K6].
        split; [exact K5|]. split; cbn; [discriminate|exact K6].
    + pose proof (resume_wmicros _ _ _ _ _ _ _ H) as Hw. apply wmicros_logs in Hw as [(es & Hes & Hj) Hn].
      assert (Hx : forall t', nx = Await t' -> task_native native t' /\ forall j i, t' <> TErc20Burn j i).
      { intros t' ->. apply resume_after in H. cbn in H. split.
        - eapply next_native; [exact H|]. exact Q1.
        - intros j i ->. cbn in H. destruct H as (-> & _). apply Hb. exact Logic.I. }
      eapply burns_quiet with (id := id) (es := es); [exact Hm| | | | | | |].
      * intros i. unfold sget. rewrite install_tasks. reflexivity.
      * unfold sys_log. rewrite install_core. exact Hes.
      * unfold sys_state. rewrite install_core. exact Hn.
      * rewrite install_ops. reflexivity.
      * intros e He. eapply emits_unfunded; eauto.
      * destruct nx as [t'|]; [|reflexivity]. cbn. apply claims_new. apply Hx. reflexivity.
      * intros fl Ho. destruct nx as [t'|]; [|discriminate]. injection Ho as <-.
        destruct (Hx _ eq_refl) as [H1 H2]. split; [exact H1|]. split; cbn; [discriminate|].
        intros j i E. destruct (H2 _ _ E).
  - (* a trap *)
    destruct (cleanup_micros now t (sys_core s)) as (c' & Hc' & Hmm). assert (c' = c) by congruence. subst c'.
    assert (Hw : wmicros (fun e => In e (task_quarantine t)) now (sys_core s) c).
    { eapply micros_weak; [|exact Hmm]. intros s0 e He; exact He. }
    apply wmicros_logs in Hw as [(es & Hes & Hj) Hn].
    eapply burns_quiet with (id := id) (o := None) (es := es); [exact Hm| | | | | | |].
    + intros i. unfold sget. rewrite install_tasks. reflexivity.
    + unfold sys_log. rewrite install_core. exact Hes.
    + unfold sys_state. rewrite install_core. exact Hn.
    + rewrite install_ops. reflexivity.
    + intros e He n. apply Hj in He. destruct t; cbn in He; try contradiction; destruct He as [<-|[]]; reflexivity.
    + reflexivity.
    + discriminate.
  - (* an upgrade *)
    destruct (canister_upgrade_inv _ _ _ _ Hrep H) as (st & _ & Hs & _ & Ha).
    assert (Hx : exists es, history (snd c) = history (sys_log s) ++ es /\ native_ledger_id (fst c) = native /\
      forall e, In e es -> unfunded e).
    { assert (En : native_ledger_id st = native).
      { destruct Hs as (v & p & _ & Hs). unfold native, sys_state. rewrite Hs. reflexivity. }
      destruct a as [x|].
      - destruct Ha as (st' & Ha & ->). cbn. unfold record_event, pre_upgrade, history. unfold record_event. rewrite !map_app. cbn.
        eexists. rewrite <- app_assoc. split; [reflexivity|]. split.
        + destruct (apply_same _ _ _ Ha) as ((_ & Hn & _) & _). congruence.
        + intros e [<-|[<-|[]]] n; reflexivity.
      - rewrite Ha. cbn. unfold pre_upgrade, record_event, history. rewrite map_app. cbn. eexists. split; [reflexivity|].
        split; auto. intros e [<-|[]] n; reflexivity. }
    destruct Hx as (es & Hes & Hn & Hun).
    eapply burns_quiet with (id := sys_next s) (o := None) (es := es); [exact Hm| | | | | | |].
    + intros i. unfold sget. cbn. rewrite Ht. destruct (keqb i (sys_next s)); reflexivity.
    + exact Hes.
    + exact Hn.
    + reflexivity.
    + exact Hun.
    + reflexivity.
    + discriminate.
Qed.
End Blocks.

Section Reach.
Variable self : Principal.
Variable keccak : list N -> Hash.

Lemma burns_reach (env : Sys -> Label -> Prop) s :
  (forall s l, env s l -> nonce_kept s l) -> reach self keccak env s -> burns_ok self s.
Proof.
  intros He. apply (reach_inv2 self keccak env (fun s => ids_ok s /\ core_ok keccak (sys_core s)) (burns_ok self)).
  - intros s0 H. split; [eapply ids_reach; eauto|eapply core_reach; eauto].
  - intros now a s0 H. apply sys_init_inv in H as (st & H1 & H2 & H3 & H4 & H5 & H6 & _).
    constructor; unfold sys_state, sys_log; rewrite ?H2, ?H6; cbn.
    + constructor; unfold sget; rewrite ?H3; cbn; try tauto; try constructor.
    + intros e [<-|[]]. exact Logic.I.
    + intros id fl Hx. unfold sget in Hx. rewrite H3 in Hx. discriminate.
  - intros s0 l s' [K1 K2] _ Hm _ H. eapply burns_trans; eauto.
Qed.
End Reach.

Lemma nodup_flat_map {A B} (f : A -> list B) l : NoDup (flat_map f l) ->
  forall a b x, In a l -> In b l -> In x (f a) -> In x (f b) -> a = b.
Proof.
  induction l as [|c l IH]; cbn; intros H a b x Ha Hb Hxa Hxb; [destruct Ha|].
  assert (Hl : NoDup (flat_map f l)).
  { clear - H. induction (f c) as [|y ys IHy]; auto. cbn in H. inversion H; auto. }
  assert (Hd : forall y, In y (f c) -> ~ In y (flat_map f l)).
  { clear - H. induction (f c) as [|y ys IHy]; cbn; [tauto|]. cbn in H. inversion H; subst.
    intros z [<-|Hz] Hin; [apply H2, in_or_app; auto|eapply IHy; eauto]. }
  destruct Ha as [<-|Ha], Hb as [<-|Hb]; auto.
  - destruct (Hd _ Hxa). apply in_flat_map. eauto.
  - destruct (Hd _ Hxb). apply in_flat_map. eauto.
  - eapply IH; eauto.
Qed.

(** ** The block that a reimbursement names *)
Definition claims_by (native : Principal) (h : list EventType) (e : EventType) (x : Block) : Prop :=
  In e h /\ In x (claims_of native e).
Lemma claims_fun native h e e' x : NoDup (claims native h) ->
  claims_by native h e x -> claims_by native h e' x -> e = e'.
Proof. intros Hn [H1 H2] [H3 H4]. eapply nodup_flat_map; eauto. Qed.

(** the recorded event behind a failure *)
Lemma accepted_event h r : In r (accepted h) ->
  In (match r with WNative q => EvAcceptedNativeWithdrawalRequest q | WErc20 q => EvAcceptedErc20WithdrawalRequest q end) h.
Proof.
  unfold accepted. intros H. apply in_flat_map in H as (e & He & H). destruct e; cbn in H; try contradiction;
    destruct H as [<-|[]]; exact He.
Qed.
Definition failure_event (h : list EventType) (i : ReimbursementIndex) (e : EventType) : Prop :=
  match i, e with
  | RINative b, EvAcceptedNativeWithdrawalRequest r => b = nw_ledger_burn_index r /\
      exists rc, In (b, rc) (finalizations h) /\ rc_status rc = TxFailure
  | RINative b, EvFailedErc20WithdrawalRequest q => b = rr_ledger_burn_index q
  | RIErc20 nb l b, EvAcceptedErc20WithdrawalRequest r => nb = ew_native_ledger_burn_index r /\
      l = ew_erc20_ledger_id r /\ b = ew_erc20_ledger_burn_index r /\
      exists rc, In (nb, rc) (finalizations h) /\ rc_status rc = TxFailure
  | _, _ => False
  end.
Lemma failed_event native h i : failed h i -> exists e, failure_event h i e /\ claims_by native h e (index_block native i).
Proof.
  intros [r rc H1 H2 H3|r rc H1 H2 H3|q H1].
  - apply accepted_event in H1. exists (EvAcceptedNativeWithdrawalRequest r). cbn. split; eauto. split; [auto|]. left; reflexivity.
  - apply accepted_event in H1. exists (EvAcceptedErc20WithdrawalRequest r). cbn. split; eauto 6. split; [auto|]. right; left; reflexivity.
  - exists (EvFailedErc20WithdrawalRequest q). cbn. split; auto. split; auto. left; reflexivity.
Qed.
Lemma index_block_inj native h i j : NoDup (claims native h) -> failed h i -> failed h j ->
  index_block native i = index_block native j -> i = j.
Proof.
  intros Hn Hi Hj E. apply (failed_event native) in Hi as (e & F & C). apply (failed_event native) in Hj as (e' & F' & C').
  rewrite E in C. assert (e = e') by (eapply claims_fun; eauto). subst e'.
  destruct i, j; cbn in E, F, F'; destruct e; try contradiction.
  - decompose [and] F. decompose [and] F'. congruence.
  - congruence.
  - decompose [and] F. decompose [and] F'. congruence.
Qed.

Lemma named_payment native h i q : owed h i q -> named (payment native i q) = Some (index_block native i).
Proof. intros [r rc x|r rc x|q0]; cbn; auto. destruct (rr_transaction_hash q0); reflexivity. Qed.
Lemma named_reimbursement c : is_reimbursement c = match named c with Some _ => true | None => false end.
Proof. destruct c as [? ? ? [[[]|]|]|? ? ? ? ?]; reflexivity. Qed.

Section Once.
Variable self : Principal.
Variable keccak : list N -> Hash.
Variable env : Sys -> Label -> Prop.
Hypothesis Henv : forall s l, env s l -> nonce_kept s l.

Lemma reimbursed_once s : reach self keccak env s ->
  NoDup (map (fun o => named (fst o)) (reimbursements (sys_ops s))).
Proof.
  intros Hr. destruct (pays_reach _ _ _ _ Henv Hr) as [_ (L & [L1 L2 L3 _ _])].
  destruct (burns_reach _ _ _ _ Henv Hr) as [[Hnd _ _ _ _ _] _ _].
  rewrite L1, map_map. set (native := native_ledger_id (sys_state s)) in *.
  rewrite (map_ext_in _ (fun x => Some (index_block native (paid_index x)))).
  2: { intros [[i q] b] Hin. unfold paid_op, paid_index. cbn. eapply named_payment. eapply L3; eauto. }
  rewrite <- (map_map paid_index (fun i => Some (index_block native i))).
  assert (Hf : forall i, In i (map paid_index L) -> failed (history (sys_log s)) i).
  { intros i Hi. apply in_map_iff in Hi as ([[i' q] b] & <- & Hi). eapply owed_failed. eapply L3; eauto. }
  revert L2 Hf. generalize (map paid_index L) as I. induction I as [|i I IH]; cbn; intros Hn Hf; [constructor|].
  inversion Hn; subst. constructor; auto. intros Hin. apply in_map_iff in Hin as (j & E & Hj). injection E as E.
  assert (j = i) by (eapply index_block_inj; eauto). subst j. auto.
Qed.

(** every reimbursement is for a failure *)
Lemma reimbursed_failure s c b : reach self keccak env s -> In (c, b) (sys_ops s) -> is_reimbursement c = true ->
  exists i q, owed (history (sys_log s)) i q /\ c = payment (native_ledger_id (sys_state s)) i q /\
    (repaid (sys_state s) i {| rd_reimbursed_in_block := b; rd_burn_in_block := rr_ledger_burn_index q;
                               rd_reimbursed_amount := rr_reimbursed_amount q;
                               rd_transaction_hash := rr_transaction_hash q |} \/
     quarantined (sys_state s) i \/
     exists id l rest, bget id (sys_tasks s) = Some {| fl_task := TReimburse l i q rest; fl_reply := Some (ReLedger (LedgerOk b)) |}).
Proof.
  intros Hr Hin Hc. destruct (pays_reach _ _ _ _ Henv Hr) as [_ (L & [L1 L2 L3 _ _])].
  assert (Hx : In (c, b) (reimbursements (sys_ops s))) by (apply filter_In; auto).
  rewrite L1 in Hx. apply in_map_iff in Hx as ([[i q] b'] & E & Hx). unfold paid_op in E. cbn in E. injection E as <- <-.
  exists i, q. destruct (L3 _ _ _ Hx) as [H1 H2]. split; auto. split; auto.
  destruct H2 as [[(d & H2 & H3 & H4 & H5 & H6)|H2]|H2]; auto.
  left. unfold repaid, rdf in *. rewrite H2. f_equal. f_equal. destruct d; cbn in *; congruence.
Qed.

(** no burn of a withdrawal that did not fail is paid back *)
Lemma never_otherwise s r c b blk : reach self keccak env s -> In r (accepted (history (sys_log s))) ->
  (forall rc, In (wr_burn_index r, rc) (finalizations (history (sys_log s))) -> rc_status rc <> TxFailure) ->
  In blk (match r with
          | WNative q => [(native_ledger_id (sys_state s), nw_ledger_burn_index q)]
          | WErc20 q => [(native_ledger_id (sys_state s), ew_native_ledger_burn_index q);
                         (ew_erc20_ledger_id q, ew_erc20_ledger_burn_index q)]
          end) ->
  In (c, b) (sys_ops s) -> named c <> Some blk.
Proof.
  intros Hr Ha Hnf Hb Hin E. destruct (burns_reach _ _ _ _ Henv Hr) as [[Hnd _ _ _ _ _] _ _].
  set (native := native_ledger_id (sys_state s)) in *.
  destruct (reimbursed_failure _ _ _ Hr Hin) as (i & q & Ho & -> & _).
  { rewrite named_reimbursement, E. reflexivity. }
  fold native in E. rewrite (named_payment _ _ _ _ Ho) in E. injection E as E.
  apply owed_failed in Ho. apply (failed_event native) in Ho as (e & F & C). rewrite E in C.
  pose proof (accepted_event _ _ Ha) as He.
  assert (e = match r with WNative q => EvAcceptedNativeWithdrawalRequest q | WErc20 q => EvAcceptedErc20WithdrawalRequest q end).
  { eapply claims_fun; eauto. split; auto. destruct r; exact Hb. }
  subst e. destruct r, i; cbn in F; try contradiction.
  - destruct F as (-> & rc & F1 & F2). eapply Hnf; eauto.
  - destruct F as (-> & -> & -> & rc & F1 & F2). eapply Hnf; eauto.
Qed.

(** a reimbursement goes to the account that burned *)
Lemma same_account s c b : reach self keccak env s -> In (c, b) (sys_ops s) -> is_reimbursement c = true ->
  exists amount m blk, named c = Some (call_ledger c, blk) /\
    In (burn_of self (call_ledger c) (recipient c) amount m, blk) (sys_ops s) /\ call_amount c <= amount.
Proof.
  intros Hr Hin Hc. destruct (reimbursed_failure _ _ _ Hr Hin Hc) as (i & q & Ho & -> & _).
  destruct (burns_reach _ _ _ _ Henv Hr) as [_ Hf _]. rewrite (named_payment _ _ _ _ Ho).
  destruct (reach_wlog self keccak env Henv s Hr) as (_ & _ & _ & Hm & _).
  destruct Ho as [r rc x H1 H2 H3 H4 H5|r rc x H1 H2 H3 H4 H5|q H1].
  - pose proof (Hf _ (accepted_event _ _ H1)) as F. cbn in F. cbn. do 3 eexists. split; [reflexivity|]. split; [exact F|].
    apply attempts_made in H4. destruct (Hm _ _ H4) as (r' & R1 & R2 & R3).
    assert (r' = WNative r).
    { pose proof (accepted_event _ _ R1) as E1. pose proof (accepted_event _ _ H1) as E2.
      destruct (burns_reach _ _ _ _ Henv Hr) as [[Hnd _ _ _ _ _] _ _].
      assert (E : (match r' with WNative q => EvAcceptedNativeWithdrawalRequest q | WErc20 q => EvAcceptedErc20WithdrawalRequest q end)
        = EvAcceptedNativeWithdrawalRequest r).
      { eapply claims_fun; [exact Hnd|split; [exact E1|]|split; [exact E2|left; reflexivity]].
        destruct r'; cbn in *; left; congruence. }
      destruct r'; congruence. }
    subst r'. destruct R3 as (_ & _ & _ & _ & _ & R3). lia.
  - pose proof (Hf _ (accepted_event _ _ H1)) as [F _]. cbn. do 3 eexists. split; [reflexivity|]. split; [exact F|]. cbn. lia.
  - destruct (Hf _ H1) as (a & p & sy & m & d & F & Hp & Hh). cbn. do 3 eexists. split; [reflexivity|]. split; [exact F|]. lia.
Qed.

Lemma finalized_event h b rc : In (b, rc) (finalizations h) -> In (EvFinalizedTransaction b rc) h.
Proof.
  unfold finalizations. intros H. apply in_flat_map in H as (e & He & H). destruct e; cbn in H; try contradiction.
  destruct H as [E|[]]. injection E as <- <-. exact He.
Qed.
Lemma attempt_event h b t : In t (attempts h b) -> In (EvSignedTransaction b t) h.
Proof.
  unfold attempts. intros H. apply in_flat_map in H as (e & He & H). destruct e; cbn in H; try contradiction.
  destruct (N.eqb_spec withdrawal_id b); [|destruct H]. destruct H as [<-|[]]. subst. exact He.
Qed.
Lemma repays_reach s c b : reach self keccak env s -> In (c, b) (sys_ops s) -> is_reimbursement c = true ->
  repays self (native_ledger_id (sys_state s)) (history (sys_log s)) (sys_ops s) c.
Proof.
  intros Hr Hin Hc. destruct (reimbursed_failure _ _ _ Hr Hin Hc) as (i & q & Ho & -> & _).
  destruct (burns_reach _ _ _ _ Henv Hr) as [[Hnd _ _ _ _ _] Hf _].
  destruct (reach_wlog self keccak env Henv s Hr) as (_ & _ & _ & Hm & _).
  destruct Ho as [r rc x H1 H2 H3 H4 H5|r rc x H1 H2 H3 H4 H5|q H1].
  - pose proof (accepted_event _ _ H1) as E2. pose proof (Hf _ E2) as F. cbn in F.
    assert (Hx : tx_amount (st_tx x) + tx_fee_cap (st_tx x) = nw_withdrawal_amount r).
    { pose proof (attempts_made _ _ _ H4) as H6. destruct (Hm _ _ H6) as (r' & R1 & R2 & R3).
      assert (r' = WNative r).
      { pose proof (accepted_event _ _ R1) as E1.
        assert (E : (match r' with WNative q => EvAcceptedNativeWithdrawalRequest q | WErc20 q => EvAcceptedErc20WithdrawalRequest q end)
          = EvAcceptedNativeWithdrawalRequest r).
        { eapply claims_fun; [exact Hnd|split; [exact E1|]|split; [exact E2|left; reflexivity]].
          destruct r'; cbn in *; left; congruence. }
        destruct r'; congruence. }
      subst r'. destruct R3 as (_ & _ & _ & _ & _ & R3). exact R3. }
    unfold payment. cbn. eapply RepaysNative with (rc := rc); eauto using finalized_event, attempt_event.
  - pose proof (accepted_event _ _ H1) as E2. pose proof (Hf _ E2) as [F _].
    unfold payment. cbn. eapply RepaysErc20; eauto using finalized_event.
  - destruct (Hf _ H1) as (a & p & sy & m & d & F & Hp & Hh). unfold payment. cbn. rewrite Hh.
    eapply RepaysFee with (penalty := p) (symbol := sy); [|eauto]. rewrite Hp. exact F.
Qed.

Lemma reimbursement_fate s i : reach self keccak env s ->
  (failed (history (sys_log s)) i <->
   (exists q, owing (sys_state s) i q) \/ (exists d, repaid (sys_state s) i d) \/ quarantined (sys_state s) i) /\
  (forall q d, owing (sys_state s) i q -> ~ repaid (sys_state s) i d /\ ~ quarantined (sys_state s) i) /\
  (forall d, repaid (sys_state s) i d -> ~ quarantined (sys_state s) i).
Proof.
  intros Hr. pose proof (rhist_reach _ _ _ _ Henv Hr) as [_ _ Hk]. split; [|split].
  - rewrite <- (Hk i). unfold known_index, dom, owing, repaid, quarantined.
    change (fst (sys_core s)) with (sys_state s). split.
    + intros [H|H].
      * left. destruct (bget i (reimb_requests (withdrawals (sys_state s)))); [eauto|destruct H; reflexivity].
      * right. destruct (bget i (reimbursed (withdrawals (sys_state s)))) as [[d|]|]; [left; eauto|right; reflexivity|destruct H; reflexivity].
    + intros [(q & H)|[(d & H)|H]]; rewrite H; [left|right|right]; discriminate.
  - intros q d Ho. destruct (core_reach _ _ _ _ Henv Hr) as [Hwt _ _].
    assert (E : bget i (reimbursed (withdrawals (sys_state s))) = None).
    { apply (i_rq_rd _ Hwt). unfold dom. unfold owing in Ho. unfold sys_state in Ho. rewrite Ho. discriminate. }
    unfold repaid, quarantined. rewrite E. split; discriminate.
  - intros d H H'. unfold repaid, quarantined in *. congruence.
Qed.
Lemma repaid_paid s i d : reach self keccak env s -> repaid (sys_state s) i d ->
  exists q, owed (history (sys_log s)) i q /\
    In (payment (native_ledger_id (sys_state s)) i q, rd_reimbursed_in_block d) (sys_ops s).
Proof.
  intros Hr H. destruct (pays_reach _ _ _ _ Henv Hr) as [_ (L & [L1 _ L3 L4 _])].
  destruct (L4 _ _ H) as (q & Hq). exists q. split; [eapply L3; eauto|].
  assert (Hin : In (paid_op (native_ledger_id (sys_state s)) (i, q, rd_reimbursed_in_block d)) (reimbursements (sys_ops s))).
  { rewrite L1. apply in_map. exact Hq. }
  apply filter_In in Hin as [Hin _]. exact Hin.
Qed.
End Once.
