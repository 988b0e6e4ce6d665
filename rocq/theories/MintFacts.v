(** * The running mint function and the ledger operations made for deposits. *)

From Verif Require Import Base BMap MultiKeyMap MultiKeyMapFacts Bytes Types Amount ArithFacts Tx CallData
  Network Hex Transactions State Audit Ranges Rlp Parser Memo Driver Sys SysSpec WtInv StateEquiv
  Segments Tasks SysFacts CoreInv LogFacts WeakSteps DepositSpec Deposits GuardSpec Guards GuardFacts.

(** ** Events that do not touch the deposits a running mint function works on *)
Definition quiet (e : EventType) : Prop :=
  match e with
  | EvQuarantinedDeposit _ | EvMintedNative _ _ | EvMintedErc20 _ _ _ _ | EvUpgrade _ => False
  | _ => True
  end.

Record dkeep (v v' : DV) : Prop := {
  dk_wait : forall k e, bget k (dv_wait v) = Some e -> bget k (dv_wait v') = Some e;
  dk_minted : dv_minted v' = dv_minted v;
  dk_invalid : forall k r, bget k (dv_invalid v) = Some r -> bget k (dv_invalid v') = Some r;
  dk_excl : forall k m, bget k (dv_minted v) = Some m -> bget k (dv_invalid v) = None ->
    bget k (dv_invalid v') = None;
  dk_tokens : forall c x, dmkm_get_entry_alt c (dv_tokens v) = Some x ->
    dmkm_get_entry_alt c (dv_tokens v') = Some x;
  dk_fee : dv_fee v' = dv_fee v;
  dk_ledger : dv_ledger v' = dv_ledger v
}.
Lemma dkeep_refl v : dkeep v v.
Proof. constructor; auto. Qed.
Lemma dkeep_trans a b c : dkeep a b -> dkeep b c -> dkeep a c.
Proof.
  intros [A1 A2 A3 A4 A5 A6 A7] [B1 B2 B3 B4 B5 B6 B7]. constructor; eauto; try congruence.
  intros k m Hm Hi. eapply B4; [rewrite A2|]; eauto.
Qed.
Lemma dep_event_dkeep v e v' : quiet e -> dep_event v e v' -> dkeep v v'.
Proof.
  intros Hq H. destruct H as [d Ha Hb Hc Hs|src r Ha Hb|src|e src b sy c d Hm Ha Hb Hc|t m Ht|a|e Hx].
  - constructor; cbn; auto. intros k e He. rewrite bget_insert_ne; auto. congruence.
  - constructor; cbn; auto.
    + intros k e He. rewrite bget_remove_ne; auto. congruence.
    + intros k x Hx. destruct (bmem src (dv_invalid v)) eqn:E; auto. apply bmem_false in E.
      rewrite bget_insert_ne; auto. congruence.
    + intros k m Hm Hi. destruct (bmem src (dv_invalid v)); auto. rewrite bget_insert_ne; auto. congruence.
  - destruct Hq.
  - destruct e; try discriminate; destruct Hq.
  - pose proof Ht as Ht'. apply dmkm_insert_get in Ht as [Ht1 Ht2]. constructor; cbn; auto.
    intros c x Hx. rewrite Ht2. destruct (keqb_spec c (et_contract_address t)) as [Hk|Hk]; auto.
    subst c. unfold dmkm_get_entry_alt, mkm_get_alt in Hx. congruence.
  - destruct Hq.
  - apply dkeep_refl.
Qed.
Lemma dkeep_micros (J : EventType -> Prop) now c c' :
  (forall e, J e -> quiet e) -> wmicros J now c c' -> dkeep (dv (fst c)) (dv (fst c')).
Proof.
  intros HJ. apply (wmicros_rel J now (fun c c' => dkeep (dv (fst c)) (dv (fst c')))).
  - intros. apply dkeep_refl.
  - intros. eapply dkeep_trans; eauto.
  - intros x y Hm. destruct Hm as [s s' log Hv|s s' log e He Ha|s log r w' Hq]; cbn in *.
    + rewrite (vstep_dv _ _ Hv). apply dkeep_refl.
    + apply dep_event_dkeep with e; [auto|apply apply_dv; auto].
    + apply dkeep_refl.
Qed.

(** ** The invariant *)
Definition mint_call (j : MintJob) : LedgerCall :=
  Transfer (mj_ledger j)
    {| ac_owner := dep_principal (mj_event j); ac_subaccount := dep_subaccount (mj_event j) |}
    (mj_amount j) (Some (MemoMint (memo_of_deposit (mj_event j)))).
Lemma mint_call_source j : mint_source (mint_call j) = Some (dep_source (mj_event j)).
Proof. cbn. unfold dep_transaction_hash, dep_log_index. destruct (mj_event j); reflexivity. Qed.

Record job_ok (v : DV) (j : MintJob) : Prop := {
  jo_nodup : NoDup (map dep_source (mj_event j :: mj_rest j));
  jo_wait : forall e, In e (mj_event j :: mj_rest j) -> bget (dep_source e) (dv_wait v) = Some e;
  jo_fee : mj_fee j = dv_fee v;
  jo_native : mj_native_ledger j = dv_ledger v;
  jo_ledger : match mj_event j with
              | DepNative _ => mj_ledger j = dv_ledger v
              | DepErc20 x => dmkm_get_entry_alt (ee_erc20_contract_address x) (dv_tokens v)
                                = Some (mj_ledger j, mj_symbol j)
              end;
  jo_amount : calculate_deposit_amount (dep_value (mj_event j)) (mj_fee j) (is_native (mj_event j))
                = Done (mj_amount j)
}.

(** The ledger has executed the user mint of job [j] in block [b]. *)
Definition paid (fl : Flight) (j : MintJob) (b : N) : Prop :=
  (fl_task fl = TMint j /\ fl_reply fl = Some (ReLedger (LedgerOk b))) \/ fl_task fl = TMintFee j b.
Lemma paid_job fl j b : paid fl j b -> mint_job (fl_task fl) j.
Proof. intros [[H _]|H]; [left|right]; eauto. Qed.

Record mints_ok (s : Sys) : Prop := {
  mo_job : forall id fl j, bget id (sys_tasks s) = Some fl -> mint_job (fl_task fl) j ->
    job_ok (dv (sys_state s)) j;
  mo_paid : forall id fl j b, bget id (sys_tasks s) = Some fl -> paid fl j b ->
    In (mint_call j, b) (sys_ops s);
  mo_op : forall c b src, In (c, b) (sys_ops s) -> mint_source c = Some src ->
    (exists m, bget src (dv_minted (dv (sys_state s))) = Some m /\ me_mint_block_index m = b) \/
    bget src (dv_invalid (dv (sys_state s))) <> None \/
    (exists id fl j, bget id (sys_tasks s) = Some fl /\ paid fl j b /\ dep_source (mj_event j) = src);
  mo_once : forall src, (List.length (mints_for src (sys_ops s)) <= 1)%nat;
  mo_minted : forall src m, bget src (dv_minted (dv (sys_state s))) = Some m ->
    exists c, In (c, me_mint_block_index m) (sys_ops s) /\ mint_source c = Some src;
  mo_excl : forall src m, bget src (dv_minted (dv (sys_state s))) = Some m ->
    bget src (dv_invalid (dv (sys_state s))) = None
}.

Lemma job_ok_keep v v' j : dkeep v v' -> job_ok v j -> job_ok v' j.
Proof.
  intros [A1 A2 A3 A4 A5 A6 A7] [B1 B2 B3 B4 B5 B6]. constructor; auto; try congruence.
  destruct (mj_event j); [congruence|auto].
Qed.

Lemma mint_next_job c c' t' fee l es :
  mint_next fee l es c = Done (c', Await t') ->
  fee = dv_fee (dv (fst c)) -> l = dv_ledger (dv (fst c)) -> NoDup (map dep_source es) ->
  (forall e, In e es -> bget (dep_source e) (dv_wait (dv (fst c))) = Some e) ->
  c' = c /\ exists j, t' = TMint j /\ job_ok (dv (fst c)) j.
Proof.
  unfold mint_next. destruct es as [|e es]; intros H Hf Hl Hn Hw; [unfold end_timer in H; discriminate|].
  apply rbind_done in H as ([sy le] & H1 & H). inv_res. split; auto.
  eexists. split; [reflexivity|]. constructor; cbn; auto.
  - destruct e as [e|e]; inv_res; auto. destruct x0 as [l0 sy0]. inv_res. assumption.
Qed.

(** A step that does not concern a mint function (except for starting one) *)
Lemma mints_frame s s' id o :
  mints_ok s -> sys_ops s' = sys_ops s -> dkeep (dv (sys_state s)) (dv (sys_state s')) ->
  (forall fl j, bget id (sys_tasks s) = Some fl -> ~ mint_job (fl_task fl) j) ->
  (forall i, bget i (sys_tasks s') = if keqb i id then o else bget i (sys_tasks s)) ->
  (forall fl j, o = Some fl -> mint_job (fl_task fl) j ->
     job_ok (dv (sys_state s')) j /\ fl_reply fl = None /\ fl_task fl = TMint j) ->
  mints_ok s'.
Proof.
  intros [M1 M2 M3 M4 M5 M6] Hops Hk Hold Ht Hnew. constructor; rewrite ?Hops.
  - intros i fl j. rewrite Ht. destruct (keqb_spec i id) as [Hi|Hi].
    + intros Ho Hj. apply (Hnew _ _ Ho Hj).
    + intros Hg Hj. eapply job_ok_keep; eauto.
  - intros i fl j b. rewrite Ht. destruct (keqb_spec i id) as [Hi|Hi]; [|eauto].
    intros Ho Hp. destruct (Hnew _ _ Ho (paid_job _ _ _ Hp)) as (_ & Hr & Hj). destruct Hp as [[_ Hp]|Hp]; congruence.
  - intros c b src Hin Hs. destruct (M3 _ _ _ Hin Hs) as [(m & Hm & Hb)|[Hm|(i & fl & j & Hg & Hp & Hj)]].
    + left. exists m. rewrite (dk_minted _ _ Hk). auto.
    + right. left. destruct (bget src (dv_invalid (dv (sys_state s)))) eqn:E; [|congruence].
      rewrite (dk_invalid _ _ Hk _ _ E). discriminate.
    + right. right. exists i, fl, j. split; auto. rewrite Ht.
      destruct (keqb_spec i id) as [Hi|Hi]; auto. subst i. destruct (Hold _ _ Hg (paid_job _ _ _ Hp)).
  - auto.
  - rewrite (dk_minted _ _ Hk). auto.
  - intros src m. rewrite (dk_minted _ _ Hk). intros Hm. eapply (dk_excl _ _ Hk); eauto.
Qed.

(** A callback of the mint function itself *)
Lemma mints_move s s' id fl j o :
  mints_ok s -> sys_ops s' = sys_ops s ->
  bget id (sys_tasks s) = Some fl -> mint_job (fl_task fl) j ->
  (forall i fl' j', bget i (sys_tasks s) = Some fl' -> mint_job (fl_task fl') j' -> i = id) ->
  (forall i, bget i (sys_tasks s') = if keqb i id then o else bget i (sys_tasks s)) ->
  (forall fl' j', o = Some fl' -> mint_job (fl_task fl') j' -> job_ok (dv (sys_state s')) j' /\
     (forall b, paid fl' j' b -> j' = j /\ paid fl j b)) ->
  (forall k, k <> dep_source (mj_event j) ->
     bget k (dv_minted (dv (sys_state s'))) = bget k (dv_minted (dv (sys_state s))) /\
     bget k (dv_invalid (dv (sys_state s'))) = bget k (dv_invalid (dv (sys_state s)))) ->
  (forall b, paid fl j b ->
     (exists m, bget (dep_source (mj_event j)) (dv_minted (dv (sys_state s'))) = Some m /\
        me_mint_block_index m = b) \/
     bget (dep_source (mj_event j)) (dv_invalid (dv (sys_state s'))) <> None \/
     (exists fl', o = Some fl' /\ paid fl' j b)) ->
  (forall m, bget (dep_source (mj_event j)) (dv_minted (dv (sys_state s'))) = Some m ->
     paid fl j (me_mint_block_index m) /\
     bget (dep_source (mj_event j)) (dv_invalid (dv (sys_state s'))) = None) ->
  hist_ok (sys_log s) (dv (sys_state s)) ->
  mints_ok s'.
Proof.
  intros [M1 M2 M3 M4 M5 M6] Hops Hg Hj Huniq Ht Hnew Hother Hpaid Hminted Hh.
  pose proof (M1 _ _ _ Hg Hj) as Hjob.
  assert (Hw : bget (dep_source (mj_event j)) (dv_wait (dv (sys_state s))) = Some (mj_event j)).
  { apply (jo_wait _ _ Hjob). left; auto. }
  assert (Hno : forall i, i <> id -> forall fl' j', bget i (sys_tasks s') = Some fl' -> ~ mint_job (fl_task fl') j').
  { intros i Hi fl' j' H H'. rewrite Ht in H. destruct (keqb_spec i id); [contradiction|]. apply Hi. eauto. }
  constructor; rewrite ?Hops.
  - intros i fl' j' H H'. destruct (key_dec i id) as [Hi|Hi]; [|destruct (Hno _ Hi _ _ H H')].
    rewrite Ht in H. destruct (keqb_spec i id); [|contradiction]. apply (Hnew _ _ H H').
  - intros i fl' j' b H Hp. pose proof (paid_job _ _ _ Hp) as H'.
    destruct (key_dec i id) as [Hi|Hi]; [|destruct (Hno _ Hi _ _ H H')].
    rewrite Ht in H. destruct (keqb_spec i id); [|contradiction].
    destruct (Hnew _ _ H H') as [_ Hb]. destruct (Hb _ Hp) as [-> Hq]. eauto.
  - intros c b src Hin Hs. destruct (M3 _ _ _ Hin Hs) as [(m & Hm & Hb)|[Hm|(i & fl' & j' & Hg' & Hp & Hj')]].
    + destruct (key_dec src (dep_source (mj_event j))) as [E|E].
      * subst src. rewrite (ho_wait_minted _ _ Hh _ _ Hw) in Hm. discriminate.
      * left. destruct (Hother _ E) as [-> _]. eauto.
    + destruct (key_dec src (dep_source (mj_event j))) as [E|E].
      * subst src. rewrite (ho_wait_invalid _ _ Hh _ _ Hw) in Hm. congruence.
      * right. left. destruct (Hother _ E) as [_ ->]. auto.
    + pose proof (Huniq _ _ _ Hg' (paid_job _ _ _ Hp)). subst i.
      assert (fl' = fl) by congruence. subst fl'.
      assert (j' = j).
      { destruct Hj as [Hj|(b1 & Hj)]; destruct Hp as [[Hp _]|Hp]; congruence. }
      subst j' src. destruct (Hpaid _ Hp) as [H|[H|(fl' & H & H')]]; auto.
      right. right. exists id, fl', j. split; auto. rewrite Ht, keqb_refl. auto.
  - auto.
  - intros src m Hm. destruct (key_dec src (dep_source (mj_event j))) as [E|E].
    + subst src. exists (mint_call j). split; [|apply mint_call_source].
      apply (M2 id fl); auto. apply Hminted. auto.
    + destruct (Hother _ E) as [H1 _]. rewrite H1 in Hm. eauto.
  - intros src m Hm. destruct (key_dec src (dep_source (mj_event j))) as [E|E].
    + subst src. apply Hminted in Hm. tauto.
    + destruct (Hother _ E) as [H1 H2]. rewrite H1 in Hm. rewrite H2. eauto.
Qed.

Section Reach.
Variable self : Principal.
Variable keccak : list N -> Hash.

Definition known (s : Sys) : Prop :=
  ids_ok s /\ guards_ok s /\ dep_ok (sys_core s).
Lemma known_reach env s : reach self keccak env s -> known s.
Proof.
  intros H. split; [eapply ids_reach; eauto|split; [eapply guards_reach; eauto|eapply dep_reach; eauto]].
Qed.

Lemma mint_unique s i1 i2 f1 f2 j1 j2 : guards_ok s ->
  bget i1 (sys_tasks s) = Some f1 -> mint_job (fl_task f1) j1 ->
  bget i2 (sys_tasks s) = Some f2 -> mint_job (fl_task f2) j2 -> i1 = i2.
Proof.
  intros Hg H1 J1 H2 J2. apply (gd_uniq _ _ _ (go_timer _ Hg) TaskMint).
  - exists f1. split; auto. unfold by_timer. destruct J1 as [->|(b & ->)]; cbn; auto.
  - exists f2. split; auto. unfold by_timer. destruct J2 as [->|(b & ->)]; cbn; auto.
Qed.

Lemma quiet_call u st e : call_emits u st e -> quiet e.
Proof. destruct u; cbn; try tauto. intros (_ & tk & _ & ->). exact Logic.I. Qed.
Lemma quiet_emits t r e : (forall j, ~ mint_job t j) -> wemits keccak t r e -> quiet e.
Proof.
  intros Hn [(s & H)|H].
  - apply emits_inv in H. destruct e; cbn; auto; cbn in H; try tauto;
      destruct H as (j & b & _ & [(H & _)|(H & _)]); apply (Hn j); [left|right|left|right]; eauto.
  - destruct H as (g & id & x & _ & [-> | ->]); exact Logic.I.
Qed.

Lemma call_await now u c c' t' : call_next now u c c' (Await t') -> task_principal t' <> None.
Proof.
  destruct u; cbn; intros H;
    repeat match goal with
    | H : exists _, _ |- _ => destruct H
    | H : _ /\ _ |- _ => destruct H
    | H : _ \/ _ |- _ => destruct H
    | H : Await _ = Finish _ |- _ => discriminate H
    | H : Finish _ = Await _ |- _ => discriminate H
    | H : Await _ = Await _ |- _ => injection H as ->
    | H : match ?x with _ => _ end |- _ => destruct x
    | H : False |- _ => destruct H
    end; cbn; try discriminate.
  unfold estimated_next in *. destruct (withdrawal_native_fee _); [destruct H6|]; subst; discriminate.
Qed.
Lemma mint_job_dec t : (exists j, mint_job t j) \/ (forall j, ~ mint_job t j).
Proof.
  destruct t; try (right; intros j0 [H|(b & H)]; discriminate).
  - left. exists j. left; auto.
  - left. exists j. right; eauto.
Qed.
Lemma mint_job_fun t j1 j2 : mint_job t j1 -> mint_job t j2 -> j1 = j2.
Proof. intros [H|(b & H)] [H'|(b' & H')]; congruence. Qed.

Lemma mints_for_snoc src c b ops :
  mints_for src (ops ++ [(c, b)]) = mints_for src ops ++
    match mint_source c with Some x => if keqb x src then [(c, b)] else [] | None => [] end.
Proof.
  unfold mints_for. rewrite filter_app. cbn. destruct (mint_source c) as [x|]; auto.
Qed.
Lemma mints_for_nil src ops :
  (forall c b, In (c, b) ops -> mint_source c <> Some src) -> mints_for src ops = [].
Proof.
  unfold mints_for. induction ops as [|[c b] ops IH]; cbn; intros H; auto.
  destruct (mint_source c) as [x|] eqn:E.
  - destruct (keqb_spec x src) as [Hk|Hk]; [|apply IH; eauto].
    subst. destruct (H c b (or_introl eq_refl) E).
  - apply IH. eauto.
Qed.

Lemma waiting_nodup (m : bmap EventSource ReceivedDepositEvent) :
  bsorted m -> (forall k e, bget k m = Some e -> dep_source e = k) -> map dep_source (bvals m) = bkeys m.
Proof.
  intros Hs H. assert (H' : forall k e, In (k, e) m -> dep_source e = k).
  { intros k e Hin. apply H. apply bget_iff_In; auto. }
  clear Hs H. unfold bvals, bkeys. rewrite map_map. apply map_ext_in. intros [k e] Hin. cbn. auto.
Qed.

Lemma mints_trans s l s' : known s -> known s' -> mints_ok s -> Trans self keccak s l s' -> mints_ok s'.
Proof.
  intros (Hi & Hg & Hdep) (Hi' & Hg' & _) Hm H.
  pose proof (hist_good _ _ Hdep) as Hh. change (snd (sys_core s)) with (sys_log s) in Hh.
  change (fst (sys_core s)) with (sys_state s) in Hh.
  destruct H as [|k now c nx Hc H|u now c nx Hc H|k now Hc|u now Hc|id t c b Hget Hcall Hallow
    |id t r Hget Hfit Hno|id now t r c nx Hc Hget H|id trap now t r c Hc Hget Hp H|a now c Hc Ht H].
  - auto.
  - (* a timer *)
    eapply mints_frame with (id := sys_next s); [exact Hm| | | | |].
    + cbn. rewrite install_ops. reflexivity.
    + cbn. unfold sys_state. cbn. rewrite install_core. cbn. apply timer_micros in H as [Hv _].
      rewrite (vstep_dv _ _ Hv). apply dkeep_refl.
    + intros fl j Hx. rewrite (fresh_id self keccak _ Hi) in Hx. discriminate.
    + intros i. cbn. rewrite install_tasks. reflexivity.
    + intros fl j Ho Hj. destruct nx as [t'|]; [|discriminate]. injection Ho as <-. cbn in *.
      pose proof H as H1. apply timer_after in H1. cbn in H1. destruct Hj as [->|(b & ->)]; [|destruct H1].
      destruct H1 as (-> & Hn & Hl & Hx). unfold sys_state. cbn. 
      split; [|auto]. apply vstep_timer_new, vstep_dv in Hn.
      assert (Hw : forall k e, bget k (events_to_mint (fst c)) = Some e -> dep_source e = k).
      { intros k e He. change (events_to_mint (fst c)) with (dv_wait (dv (fst c))) in He. rewrite Hn in He.
        apply (ho_wait _ _ Hh) in He. tauto. }
      assert (Hs : bsorted (events_to_mint (fst c))).
      { change (events_to_mint (fst c)) with (dv_wait (dv (fst c))). rewrite Hn. apply (ho_wait_sorted _ _ Hh). }
      apply mint_next_job in Hx as (_ & j' & Ej & Hx); auto.
      * injection Ej as <-. exact Hx.
      * unfold events_to_mint_list. rewrite waiting_nodup; auto. apply bsorted_NoDup; auto.
      * intros e He. unfold events_to_mint_list, bvals in He. apply in_map_iff in He as ([k e'] & <- & He).
        cbn. apply bget_iff_In in He; auto. cbn. rewrite (Hw _ _ He). auto.
  - (* a call *)
    eapply mints_frame with (id := sys_next s); [exact Hm| | | | |].
    + cbn. rewrite install_ops. reflexivity.
    + cbn. unfold sys_state. cbn. rewrite install_core. cbn.
      assert (Hk : wmicros (fun e => exists st, call_emits u st e) now (sys_core s) c).
      { eapply micros_weak; [|eapply call_micros; eauto]. eauto. }
      eapply dkeep_micros; [|exact Hk]. intros e (st & He). eapply quiet_call; eauto.
    + intros fl j Hx. rewrite (fresh_id self keccak _ Hi) in Hx. discriminate.
    + intros i. cbn. rewrite install_tasks. reflexivity.
    + intros fl j Ho Hj. destruct nx as [t'|]; [|discriminate]. injection Ho as <-. cbn in *.
      apply (call_after keccak) in H. apply call_await in H.
      destruct Hj as [->|(b & ->)]; destruct (H eq_refl).
  - eapply mints_frame with (id := sys_next s) (o := bget (sys_next s) (sys_tasks s)); [exact Hm|auto|apply dkeep_refl| | |].
    + intros fl j Hx. rewrite (fresh_id self keccak _ Hi) in Hx. discriminate.
    + intros i. cbn. destruct (keqb_spec i (sys_next s)) as [Hk|Hk]; [subst|]; auto.
    + intros fl j Hx. rewrite (fresh_id self keccak _ Hi) in Hx. discriminate.
  - eapply mints_frame with (id := sys_next s) (o := bget (sys_next s) (sys_tasks s)); [exact Hm|auto|apply dkeep_refl| | |].
    + intros fl j Hx. rewrite (fresh_id self keccak _ Hi) in Hx. discriminate.
    + intros i. cbn. destruct (keqb_spec i (sys_next s)) as [Hk|Hk]; [subst|]; auto.
    + intros fl j Hx. rewrite (fresh_id self keccak _ Hi) in Hx. discriminate.
  - (* a ledger executes an operation *)
    assert (Htasks : forall i fl', bget i (sys_tasks (with_op (c, b) (answered id t (ReLedger (LedgerOk b)) s))) = Some fl' ->
      (i = id /\ fl' = {| fl_task := t; fl_reply := Some (ReLedger (LedgerOk b)) |}) \/
      (i <> id /\ bget i (sys_tasks s) = Some fl')).
    { intros i fl'. cbn. rewrite bget_insert. destruct (keqb_spec i id) as [Hk|Hk]; [left|right]; auto.
      split; auto. congruence. }
    assert (Hc : forall src, mint_source c = Some src -> exists j, t = TMint j /\ c = mint_call j).
    { intros src Hs. destruct t; cbn in Hcall; try discriminate; injection Hcall as <-; cbn in Hs; try discriminate.
      - exists j. auto.
      - unfold memo_of_reimbursement in Hs. destruct (rr_transaction_hash r); discriminate. }
    destruct Hm as [M1 M2 M3 M4 M5 M6].
    assert (Hnone : forall src, mint_source c = Some src -> forall c' b', In (c', b') (sys_ops s) -> mint_source c' <> Some src).
    { intros src Hs c' b' Hin Hs'. destruct (Hc _ Hs) as (j & -> & ->). rewrite mint_call_source in Hs. injection Hs as <-.
      assert (Hw : bget (dep_source (mj_event j)) (dv_wait (dv (sys_state s))) = Some (mj_event j)).
      { apply (jo_wait _ _ (M1 _ _ j Hget (or_introl eq_refl))). left; auto. }
      destruct (M3 _ _ _ Hin Hs') as [(m & Hx & _)|[Hx|(i & fl & j' & Hx & Hpd & Hj)]].
      - rewrite (ho_wait_minted _ _ Hh _ _ Hw) in Hx. discriminate.
      - rewrite (ho_wait_invalid _ _ Hh _ _ Hw) in Hx. congruence.
      - assert (i = id).
        { eapply (mint_unique s); [exact Hg|exact Hx|eapply paid_job; eauto|exact Hget|left; reflexivity]. }
        subst i. rewrite Hget in Hx. injection Hx as <-. destruct Hpd as [[_ Hpd]|Hpd]; cbn in Hpd; discriminate. }
    constructor.
    + intros i fl j Hx Hj. change (sys_state (with_op _ _)) with (sys_state s).
      apply Htasks in Hx as [[-> ->]|[_ Hx]]; [|eauto]. cbn in Hj. eapply M1; [exact Hget|exact Hj].
    + intros i fl j b' Hx Hpd. cbn. apply in_or_app. apply Htasks in Hx as [[-> ->]|[_ Hx]]; [|left; eauto].
      destruct Hpd as [[Hp1 Hp2]|Hpd]; cbn in *.
      * right. left. subst t. cbn in Hcall. injection Hcall as <-. injection Hp2 as <-. reflexivity.
      * left. eapply M2; [exact Hget|]. right. exact Hpd.
    + intros c' b' src Hin Hs. change (sys_state (with_op _ _)) with (sys_state s). cbn in Hin.
      apply in_app_or in Hin as [Hin|[Hin|[]]].
      * destruct (M3 _ _ _ Hin Hs) as [Hx|[Hx|(i & fl & j & Hx & Hpd & Hj)]]; auto.
        right. right. destruct (key_dec i id) as [Hk|Hk].
        -- subst i. rewrite Hget in Hx. injection Hx as <-.
           exists id, {| fl_task := t; fl_reply := Some (ReLedger (LedgerOk b)) |}, j. cbn. rewrite bget_insert_eq.
           split; auto. split; auto. destruct Hpd as [[_ Hpd]|Hpd]; cbn in Hpd; [discriminate|right; auto].
        -- exists i, fl, j. cbn. rewrite bget_insert_ne; auto.
      * injection Hin as <- <-. destruct (Hc _ Hs) as (j & -> & ->). rewrite mint_call_source in Hs. injection Hs as <-.
        right. right. exists id, {| fl_task := TMint j; fl_reply := Some (ReLedger (LedgerOk b)) |}, j. cbn.
        rewrite bget_insert_eq. split; auto. split; auto. left. auto.
    + intros src. cbn [sys_ops with_op answered with_tasks]. rewrite mints_for_snoc. destruct (mint_source c) as [x|] eqn:E; [|rewrite app_nil_r; auto].
      destruct (keqb_spec x src) as [Hk|Hk]; [|rewrite app_nil_r; auto]. subst x.
      rewrite (mints_for_nil src (sys_ops s)); [cbn; lia|]. apply Hnone. auto.
    + intros src m Hx. change (sys_state (with_op _ _)) with (sys_state s) in Hx. destruct (M5 _ _ Hx) as (c' & H1 & H2).
      exists c'. split; auto. cbn. apply in_or_app. auto.
    + auto.
  - (* another answer *)
    assert (Htasks : forall i fl', bget i (sys_tasks (answered id t r s)) = Some fl' ->
      (i = id /\ fl' = {| fl_task := t; fl_reply := Some r |}) \/
      (i <> id /\ bget i (sys_tasks s) = Some fl')).
    { intros i fl'. cbn. rewrite bget_insert. destruct (keqb_spec i id) as [Hk|Hk]; [left|right]; auto.
      split; auto. congruence. }
    destruct Hm as [M1 M2 M3 M4 M5 M6]. constructor; auto.
    + intros i fl j Hx Hj. apply Htasks in Hx as [[-> ->]|[_ Hx]]; [|eapply M1; eauto].
      cbn in Hj. eapply M1; [exact Hget|exact Hj].
    + intros i fl j b' Hx Hpd. apply Htasks in Hx as [[-> ->]|[_ Hx]]; [|eapply M2; eauto].
      destruct Hpd as [[Hp1 Hp2]|Hpd]; cbn in *; [injection Hp2 as Hp2; destruct (Hno _ Hp2)|].
      eapply M2; [exact Hget|]. right. exact Hpd.
    + intros c' b' src Hin Hs. change (sys_state (answered _ _ _ _)) with (sys_state s). cbn in Hin.
      destruct (M3 _ _ _ Hin Hs) as [Hx|[Hx|(i & fl & j & Hx & Hpd & Hj)]]; auto.
      right. right. destruct (key_dec i id) as [Hk|Hk].
      * subst i. rewrite Hget in Hx. injection Hx as <-.
        exists id, {| fl_task := t; fl_reply := Some r |}, j. cbn. rewrite bget_insert_eq.
        split; auto. split; auto. destruct Hpd as [[_ Hpd]|Hpd]; cbn in Hpd; [discriminate|right; auto].
      * exists i, fl, j. cbn. rewrite bget_insert_ne; auto.
  - (* a callback *)
    destruct (mint_job_dec t) as [(j & Hj)|Hn].
    + assert (Hjob := mo_job _ Hm _ _ _ Hget Hj).
      assert (Hun : forall i fl' j', bget i (sys_tasks s) = Some fl' -> mint_job (fl_task fl') j' -> i = id).
      { intros i fl' j' Hx Hy. eapply (mint_unique s); eauto. }
      assert (Hw : bget (dep_source (mj_event j)) (dv_wait (dv (sys_state s))) = Some (mj_event j)).
      { apply (jo_wait _ _ Hjob). left; auto. }
      assert (Hnd := jo_nodup _ _ Hjob). cbn in Hnd. inversion Hnd as [|? ? Hnd1 Hnd2]; subst.
      (* after [mint_record] *)
      assert (Hrec : forall b, paid {| fl_task := t; fl_reply := Some r |} j b ->
        mint_record now j b (sys_core s) = Done (c, nx) ->
        mints_ok (install id nx (with_queries (task_query t r) (with_core c now s)))).
      { intros b Hpd Hr. unfold mint_record in Hr. apply rbind_done in Hr as (c1 & H1 & H2).
        apply process_event_inv in H1 as (s1 & H1 & ->). pose proof (apply_dv _ _ _ H1) as Hd.
        assert (Hv : exists sy ct, dv s1 = dv_mint (dep_source (mj_event j))
          {| me_deposit_event := mj_event j; me_mint_block_index := b; me_token_symbol := sy;
             me_erc20_contract_address := ct |} (dv (sys_state s))).
        { change (fst (sys_core s)) with (sys_state s) in Hd.
          assert (Hx : exists sy ct, minted_of (minted_event j b) (dv_symbol (dv (sys_state s)))
            = Some (dep_source (mj_event j), b, sy, ct)).
          { unfold minted_event. destruct (mj_event j); cbn; eauto. }
          destruct Hx as (sy & ct & Hx). destruct (dep_event_minted _ _ _ _ _ _ _ Hd Hx) as (d & Hd1 & _ & _ & Hd2).
          rewrite Hw in Hd1. injection Hd1 as <-. eauto. }
        destruct Hv as (sy & ct & Hv).
        assert (Hsame : dv (fst c) = dv s1).
        { apply mint_next_inv in H2 as [(_ & -> & _)|(-> & _)]; auto. }
        eapply mints_move with (id := id) (j := j) (fl := {| fl_task := t; fl_reply := Some r |}); [exact Hm| |exact Hget|exact Hj|exact Hun| | | | | |exact Hh].
        - rewrite install_ops. reflexivity.
        - intros i. rewrite install_tasks. reflexivity.
        - intros fl' j' Ho Hj'. destruct nx as [t'|]; [|discriminate]. injection Ho as <-. cbn [fl_task] in Hj'.
          unfold sys_state. rewrite install_core. cbn [sys_core with_queries with_core].
          apply mint_next_job in H2 as (-> & j2 & -> & Hok).
          + assert (j' = j2) by (eapply mint_job_fun; [exact Hj'|left; auto]). subst j'. split; [exact Hok|].
            intros b' [[_ Hx]|Hx]; cbn in Hx; discriminate.
          + cbn [fst]. rewrite Hv. cbn. rewrite (jo_fee _ _ Hjob). reflexivity.
          + cbn [fst]. rewrite Hv. cbn. rewrite (jo_native _ _ Hjob). reflexivity.
          + auto.
          + intros e He. cbn [fst]. rewrite Hv. cbn. rewrite bget_remove_ne.
            * apply (jo_wait _ _ Hjob). right; auto.
            * intros E. apply Hnd1. rewrite <- E. apply in_map; auto.
        - intros k Hk. unfold sys_state at 1 3. rewrite install_core. cbn [sys_core with_queries with_core].
          rewrite Hsame, Hv. cbn. rewrite bget_insert_ne; auto.
        - intros b' Hp'. left. unfold sys_state. rewrite install_core. cbn [sys_core with_queries with_core].
          rewrite Hsame, Hv. cbn. rewrite bget_insert_eq. eexists. split; [reflexivity|]. cbn.
          destruct Hpd as [[P1 P2]|P1]; destruct Hp' as [[Q1 Q2]|Q1]; cbn in *; congruence.
        - intros m. unfold sys_state. rewrite install_core. cbn [sys_core with_queries with_core].
          rewrite Hsame, Hv. cbn. rewrite bget_insert_eq. injection 1 as <-. cbn. split; auto.
          exact (ho_wait_invalid _ _ Hh _ _ Hw). }
      (* after a failed mint *)
      assert (Hfail : (forall b, ~ paid {| fl_task := t; fl_reply := Some r |} j b) ->
        mint_next (mj_fee j) (mj_native_ledger j) (mj_rest j) (sys_core s) = Done (c, nx) ->
        mints_ok (install id nx (with_queries (task_query t r) (with_core c now s)))).
      { intros Hnp H2.
        assert (Hsame : dv (fst c) = dv (sys_state s)).
        { apply mint_next_inv in H2 as [(_ & -> & _)|(-> & _)]; auto. }
        assert (Hmn : bget (dep_source (mj_event j)) (dv_minted (dv (sys_state s))) = None)
          by exact (ho_wait_minted _ _ Hh _ _ Hw).
        eapply mints_move with (id := id) (j := j) (fl := {| fl_task := t; fl_reply := Some r |}); [exact Hm| |exact Hget|exact Hj|exact Hun| | | | | |exact Hh].
        - rewrite install_ops. reflexivity.
        - intros i. rewrite install_tasks. reflexivity.
        - intros fl' j' Ho Hj'. destruct nx as [t'|]; [|discriminate]. injection Ho as <-. cbn [fl_task] in Hj'.
          unfold sys_state. rewrite install_core. cbn [sys_core with_queries with_core].
          apply mint_next_job in H2 as (-> & j2 & -> & Hok).
          + assert (j' = j2) by (eapply mint_job_fun; [exact Hj'|left; auto]). subst j'. split; [exact Hok|].
            intros b' [[_ Hx]|Hx]; cbn in Hx; discriminate.
          + rewrite (jo_fee _ _ Hjob). reflexivity.
          + rewrite (jo_native _ _ Hjob). reflexivity.
          + auto.
          + intros e He. apply (jo_wait _ _ Hjob). right; auto.
        - intros k Hk. unfold sys_state at 1 3. rewrite install_core. cbn [sys_core with_queries with_core].
          rewrite Hsame. auto.
        - intros b' Hp'. destruct (Hnp _ Hp').
        - intros m. unfold sys_state. rewrite install_core. cbn [sys_core with_queries with_core].
          rewrite Hsame. congruence. }
      destruct Hj as [->|(b & ->)]; destruct r; cbn in H; try discriminate.
      * unfold mint_reply in H. destruct r as [b|e|].
        -- apply rbind_done in H as (b' & Hb & H). apply block_u64_done in Hb as [-> Hb].
           destruct (is_native (mj_event j) && is_some (mj_fee j)).
           ++ injection H as <- <-.
              assert (Hmn : bget (dep_source (mj_event j)) (dv_minted (dv (sys_state s))) = None)
                by exact (ho_wait_minted _ _ Hh _ _ Hw).
              eapply mints_move with (id := id) (j := j) (fl := {| fl_task := TMint j; fl_reply := Some (ReLedger (LedgerOk b)) |});
                [exact Hm| |exact Hget|left; reflexivity|exact Hun| | | | | |exact Hh].
              ** rewrite install_ops. reflexivity.
              ** intros i. rewrite install_tasks. reflexivity.
              ** intros fl' j' Ho Hj'. injection Ho as <-. cbn [fl_task] in Hj'.
                 assert (j' = j) by (eapply mint_job_fun; [exact Hj'|right; eauto]). subst j'.
                 unfold sys_state. rewrite install_core. cbn [sys_core with_queries with_core]. split; [exact Hjob|].
                 intros b' Hpd. split; auto. destruct Hpd as [[P1 P2]|P1]; cbn in P1; [discriminate|].
                 injection P1 as <-. left. auto.
              ** intros k Hk. auto.
              ** intros b' Hp'. right. right. eexists. split; [reflexivity|]. right. cbn.
                 destruct Hp' as [[_ P]|P]; cbn in P; congruence.
              ** intros m. unfold sys_state. rewrite install_core. cbn [sys_core with_queries with_core].
                 change (fst (sys_core s)) with (sys_state s). congruence.
           ++ apply (Hrec b); auto. left. auto.
        -- apply Hfail; auto. intros b [[_ P]|P]; cbn in P; discriminate.
        -- apply Hfail; auto. intros b [[_ P]|P]; cbn in P; discriminate.
      * apply (Hrec b); auto. right. reflexivity.
    + eapply mints_frame with (id := id); [exact Hm| | | | |].
      * rewrite install_ops. reflexivity.
      * unfold sys_state. rewrite install_core. cbn. apply resume_wmicros in H.
        eapply dkeep_micros; [|exact H]. intros e. apply quiet_emits. auto.
      * intros fl j Hx. rewrite Hget in Hx. injection Hx as <-. apply Hn.
      * intros i. rewrite install_tasks. reflexivity.
      * intros fl j Ho Hj. destruct nx as [t'|]; [|discriminate]. injection Ho as <-. cbn in *.
        apply resume_after in H. cbn in H. destruct Hj as [->|(b & ->)]; cbn in H.
        -- destruct H as (j0 & Hj0 & _). destruct (Hn _ Hj0).
        -- destruct H as (-> & _). destruct (Hn j). left; auto.
  - (* a trap *)
    destruct (mint_job_dec t) as [(j & Hj)|Hn].
    + assert (Hjob := mo_job _ Hm _ _ _ Hget Hj).
      assert (Hun : forall i fl' j', bget i (sys_tasks s) = Some fl' -> mint_job (fl_task fl') j' -> i = id).
      { intros i fl' j' Hx Hy. eapply (mint_unique s); eauto. }
      assert (Hw : bget (dep_source (mj_event j)) (dv_wait (dv (sys_state s))) = Some (mj_event j)).
      { apply (jo_wait _ _ Hjob). left; auto. }
      assert (Hmn := ho_wait_minted _ _ Hh _ _ Hw). assert (Hin := ho_wait_invalid _ _ Hh _ _ Hw).
      assert (Hv : dv (fst c) = dv_reject (dep_source (mj_event j)) QuarantinedDepositReason (dv (sys_state s))).
      { assert (Hq : task_quarantine t = [EvQuarantinedDeposit (dep_source (mj_event j))]).
        { destruct Hj as [->|(b & ->)]; reflexivity. }
        unfold cleanup in H. rewrite Hq in H. cbn in H. unfold process_event in H. cbn in H. inv_res.
        cbn. destruct Hj as [->|(b & ->)]; cbn;
          unfold record_quarantined_deposit, dv_reject; cbn; fold (sys_state s);
          destruct (bmem (dep_source (mj_event j)) (invalid_events (sys_state s))); reflexivity. }
      eapply mints_move with (id := id) (j := j) (fl := {| fl_task := t; fl_reply := Some r |}); [exact Hm| |exact Hget|exact Hj|exact Hun| | | | | |exact Hh].
      * rewrite install_ops. reflexivity.
      * intros i. rewrite install_tasks. reflexivity.
      * intros fl' j' Ho. discriminate.
      * intros k Hk. unfold sys_state at 1 3. rewrite install_core. cbn [sys_core with_queries with_core].
        rewrite Hv. cbn. split; auto. destruct (bmem _ _); auto. rewrite bget_insert_ne; auto.
      * intros b' Hp'. right. left. unfold sys_state. rewrite install_core. cbn [sys_core with_queries with_core].
        rewrite Hv. cbn in *. apply bmem_false in Hin. rewrite Hin, bget_insert_eq. discriminate.
      * intros m. unfold sys_state. rewrite install_core. cbn [sys_core with_queries with_core].
        rewrite Hv. cbn in *. congruence.
    + eapply mints_frame with (id := id) (o := None); [exact Hm| | | | |].
      * rewrite install_ops. reflexivity.
      * unfold sys_state. rewrite install_core. cbn.
        destruct (cleanup_micros now t (sys_core s)) as (c' & Hc' & Hmm). assert (c' = c) by congruence. subst c'.
        eapply dkeep_micros; [|eapply micros_weak; [|exact Hmm]; intros s0 e He; exact He].
        intros e He. destruct t; cbn in He; try contradiction.
        -- destruct (Hn j). left; auto.
        -- destruct (Hn j). right; eauto.
        -- destruct He as [<-|[]]. exact Logic.I.
      * intros fl j Hx. rewrite Hget in Hx. injection Hx as <-. apply Hn.
      * intros i. rewrite install_tasks. reflexivity.
      * discriminate.
  - (* an upgrade *)
    destruct (upgrade_dv now a (sys_core s) c) as [_ Hu]; auto.
    assert (Hv : exists f, dv (fst c) = dv_set_fee f (dv (sys_state s))).
    { destruct a as [a|].
      - apply dep_event_upgrade in Hu. eauto.
      - exists (dv_fee (dv (sys_state s))). unfold sys_state. rewrite Hu. destruct (dv (fst (sys_core s))); reflexivity. }
    destruct Hv as (f & Hv). destruct Hm as [M1 M2 M3 M4 M5 M6].
    constructor; unfold sys_state; cbn [sys_core with_core sys_tasks sys_ops]; rewrite ?Hv, ?Ht; cbn [dv_set_fee dv_minted dv_invalid bget]; auto; try discriminate.
    rewrite Ht in M3. exact M3.
Qed.

Lemma mints_reach env s : reach self keccak env s -> mints_ok s.
Proof.
  apply (reach_inv2 self keccak env known); [apply known_reach| |].
  - intros now a s0 H. apply sys_init_inv in H as (st & H1 & H2 & H3 & H4 & H5 & H6 & _).
    assert (Hd : minted_events st = []).
    { unfold state_of_init, ebind in H1.
      repeat match type of H1 with match ?x with _ => _ end = _ => destruct x; try discriminate end.
      injection H1 as <-. reflexivity. }
    constructor; unfold sys_state; rewrite ?H2, ?H3, ?H6; cbn; rewrite ?Hd; try discriminate; try tauto; auto.
  - intros s0 l s' K K' Hm _ H. exact (mints_trans s0 l s' K K' Hm H).
Qed.

(** ** New operations *)
Lemma op_new s l c b : sys_ops (step self keccak s l) = sys_ops s ++ [(c, b)] ->
  exists id t, l = LAnswer id (ReLedger (LedgerOk b)) /\
    bget id (sys_tasks s) = Some {| fl_task := t; fl_reply := None |} /\
    task_call self t = Some c /\ ledger_allows self (sys_ops s) c b = true /\
    sys_core (step self keccak s l) = sys_core s.
Proof.
  intros H. pose proof (step_trans self keccak s l) as Ht. remember (step self keccak s l) as s' eqn:E. clear E.
  assert (Hno : sys_ops s' <> sys_ops s).
  { rewrite H. intros E. apply (f_equal (@List.length Op)) in E. rewrite app_length in E. cbn in E. lia. }
  destruct Ht; cbn in *; rewrite ?install_ops in *; try contradiction; cbn in *; try contradiction.
  apply app_inv_head in H. injection H as <- <-. eauto 10.
Qed.

Lemma job_pays log s j : hist_ok log (dv s) -> job_ok (dv s) j ->
  waiting s (dep_source (mj_event j)) (mj_event j) /\ deposit_accepted log (mj_event j) /\
  pays log s (mj_event j) (mint_call j).
Proof.
  intros Hh Hj. assert (Hw : bget (dep_source (mj_event j)) (dv_wait (dv s)) = Some (mj_event j)).
  { apply (jo_wait _ _ Hj). left; auto. }
  split; [exact Hw|]. destruct (ho_wait _ _ Hh _ _ Hw) as (_ & Ha & _). split; auto.
  assert (Hl := jo_ledger _ _ Hj). assert (Hm := jo_amount _ _ Hj). assert (Hf := jo_fee _ _ Hj). cbn in Hf.
  unfold mint_call, memo_of_deposit, dep_principal, dep_subaccount, dep_from_address, dep_transaction_hash, dep_log_index.
  unfold calculate_deposit_amount in Hm.
  destruct (mj_event j) as [x|x]; cbn in *.
  - rewrite Hf in Hm. destruct (deposit_native_fee s) as [f|]; inv_res.
    + apply N.leb_le in H. split; auto. rewrite Hl, <- Hm. reflexivity.
    + split; [lia|]. rewrite Hl, <- Hm, N.sub_0_r. reflexivity.
  - injection Hm as Hm. rewrite <- Hm. exists (mj_ledger j), (mj_symbol j). split; auto.
    apply (ho_token _ _ Hh). exact Hl.
Qed.

Lemma mint_pays env s l c b src : reach self keccak env s ->
  sys_ops (step self keccak s l) = sys_ops s ++ [(c, b)] -> mint_source c = Some src ->
  exists e, dep_source e = src /\ waiting (sys_state s) src e /\ deposit_accepted (sys_log s) e /\
    pays (sys_log s) (sys_state s) e c.
Proof.
  intros Hr H Hs. apply op_new in H as (id & t & -> & Hg & Hc & _).
  destruct t; cbn in Hc; try discriminate; injection Hc as <-; try discriminate.
  - change (mint_source (mint_call j) = Some src) in Hs. rewrite mint_call_source in Hs. injection Hs as <-.
    exists (mj_event j). split; auto. apply job_pays; [apply (hist_reach self keccak env); auto|].
    eapply (mo_job _ (mints_reach _ _ Hr)); [exact Hg|left; reflexivity].
  - cbn in Hs. unfold memo_of_reimbursement in Hs. destruct (rr_transaction_hash r); discriminate.
Qed.

Lemma fee_job_reach env s : reach self keccak env s -> forall id j b r,
  bget id (sys_tasks s) = Some {| fl_task := TMintFee j b; fl_reply := r |} ->
  is_native (mj_event j) = true /\ is_some (mj_fee j) = true.
Proof.
  intros Hr id j b r Hg.
  apply (tasks_reach self keccak env (fun t => forall j b, t = TMintFee j b ->
    is_native (mj_event j) = true /\ is_some (mj_fee j) = true)) with (id := id) (b := b)
    (fl := {| fl_task := TMintFee j b; fl_reply := r |}) (s := s); auto.
  - intros now k c c' t' H j0 b0 ->. apply timer_after in H. destruct H.
  - intros now u c c' t' H j0 b0 ->. apply (call_after keccak) in H. apply call_await in H. destruct (H eq_refl).
  - intros now t r0 c c' t' _ H j0 b0 ->. apply resume_after in H. cbn in H. tauto.
Qed.

(** Transfers without a memo are mints of the deposit fee. *)
Lemma fee_mint env s l ledger to amount b : reach self keccak env s ->
  sys_ops (step self keccak s l) = sys_ops s ++ [(Transfer ledger to amount None, b)] ->
  ledger = native_ledger_id (sys_state s) /\
  to = {| ac_owner := self; ac_subaccount := Some FEES_SUBACCOUNT |} /\
  deposit_native_fee (sys_state s) = Some amount /\
  exists x c' b', In (c', b') (sys_ops s) /\
    waiting (sys_state s) (dep_source (DepNative x)) (DepNative x) /\ pays (sys_log s) (sys_state s) (DepNative x) c'.
Proof.
  intros Hr H. apply op_new in H as (id & t & -> & Hg & Hc & _).
  destruct t; cbn in Hc; try discriminate.
  assert (Hm := mints_reach _ _ Hr).
  assert (Hj : job_ok (dv (sys_state s)) j) by (eapply (mo_job _ Hm); [exact Hg|right; exists block; reflexivity]).
  assert (Hf := fee_job_reach env s Hr id j block _ Hg).
  destruct Hf as [Hn Hs].
  destruct (mj_fee j) as [f|] eqn:Ef; [|discriminate]. injection Hc as <- <- <-.
  assert (Hl := jo_ledger _ _ Hj). assert (Hfee := jo_fee _ _ Hj). rewrite Ef in Hfee. cbn in Hfee.
  destruct (job_pays (sys_log s) (sys_state s) j) as (Hw & _ & Hp); auto.
  { apply (hist_reach self keccak env); auto. }
  destruct (mj_event j) as [x|] eqn:Ee; [|discriminate]. cbn in Hl. split; auto. split; auto. split; auto.
  exists x, (mint_call j), block. split; auto. eapply (mo_paid _ Hm); [exact Hg|right; reflexivity].
Qed.

(** ** All operations made for deposits *)
Lemma registered_grows a b c l sy : grows a b -> registered a c l sy -> registered b c l sy.
Proof.
  intros (x & -> & _) (t & H & Ht). exists t. split; auto. rewrite map_app. apply in_or_app. auto.
Qed.
Lemma accepted_grows a b e : grows a b -> deposit_accepted a e -> deposit_accepted b e.
Proof. intros (x & -> & _) H. unfold deposit_accepted. rewrite map_app. apply in_or_app. auto. Qed.
Lemma accepted_run s ls e : deposit_accepted (sys_log s) e -> deposit_accepted (sys_log (run self keccak s ls)) e.
Proof. apply accepted_grows. apply (run_grows keccak self ls s). Qed.
Lemma credits_grows a b s s' e c : grows a b -> native_ledger_id s' = native_ledger_id s ->
  credits a s e c -> credits b s' e c.
Proof.
  intros Hg Hl. destruct e as [x|x]; cbn.
  - intros (m & H1 & ->). rewrite Hl. eauto.
  - intros (l & sy & H1 & ->). exists l, sy. split; auto. eapply registered_grows; eauto.
Qed.
Lemma pays_credits log s e c : pays log s e c -> credits log s e c.
Proof. destruct e as [x|x]; auto. intros (H1 & ->). cbn. eexists. split; [|reflexivity]. lia. Qed.

Lemma ops_credit env s : reach self keccak env s -> forall c b src,
  In (c, b) (sys_ops s) -> mint_source c = Some src ->
  exists e, dep_source e = src /\ deposit_accepted (sys_log s) e /\ credits (sys_log s) (sys_state s) e c.
Proof.
  induction 1 as [now a s H|s l H IH He]; intros c b src Hin Hs.
  - apply sys_init_inv in H as (_ & _ & _ & _ & _ & _ & H & _). rewrite H in Hin. destruct Hin.
  - pose proof (step_grows keccak self s l) as Hg.
    destruct (trans_dgrow self keccak s l _ (dep_reach self keccak env s H) (step_trans self keccak s l)) as [_ (_ & _ & Hl)].
    assert (Hops : sys_ops (step self keccak s l) = sys_ops s \/
      exists c0 b0, sys_ops (step self keccak s l) = sys_ops s ++ [(c0, b0)]).
    { pose proof (step_trans self keccak s l) as Ht. destruct Ht; cbn; rewrite ?install_ops; eauto. }
    assert (Hold : forall e, deposit_accepted (sys_log s) e /\ credits (sys_log s) (sys_state s) e c ->
      deposit_accepted (sys_log (step self keccak s l)) e /\
      credits (sys_log (step self keccak s l)) (sys_state (step self keccak s l)) e c).
    { intros e [H1 H2]. split; [eapply accepted_grows; eauto|eapply (credits_grows (sys_log s) _ (sys_state s)); eauto]. }
    assert (Hin' : In (c, b) (sys_ops s) \/ sys_ops (step self keccak s l) = sys_ops s ++ [(c, b)]).
    { destruct Hops as [E|(c0 & b0 & E)]; rewrite E in Hin; auto.
      apply in_app_or in Hin as [Hin|[Hin|[]]]; auto. injection Hin as -> ->. auto. }
    destruct Hin' as [Hin'|E].
    + destruct (IH _ _ _ Hin' Hs) as (e & H1 & H2). exists e. split; auto.
    + destruct (mint_pays env s l c b src H E Hs) as (e & H1 & _ & H2 & H3). exists e. split; auto.
      apply Hold. split; auto. apply pays_credits; auto.
Qed.

(** A deposit recorded as minted was minted, in the recorded block. *)
Lemma minted_real env s src m : reach self keccak env s -> minted (sys_state s) src m ->
  exists c, In (c, me_mint_block_index m) (sys_ops s) /\ mint_source c = Some src /\
    credits (sys_log s) (sys_state s) (me_deposit_event m) c.
Proof.
  intros Hr Hm. destruct (mo_minted _ (mints_reach _ _ Hr) _ _ Hm) as (c & H1 & H2).
  exists c. split; auto. split; auto. destruct (ops_credit env s Hr _ _ _ H1 H2) as (e & E & Ha & Hc).
  pose proof (hist_reach self keccak env s Hr) as Hh. destruct (ho_minted _ _ Hh _ _ Hm) as [Hs Ha'].
  assert (e = me_deposit_event m) by (eapply (ho_once _ _ Hh); eauto; congruence). subst. auto.
Qed.

(** ** The fates of a deposit *)
Lemma fates_exclusive env s src : reach self keccak env s ->
  (forall e m, waiting (sys_state s) src e -> ~ minted (sys_state s) src m) /\
  (forall e r, waiting (sys_state s) src e -> ~ rejected (sys_state s) src r) /\
  (forall m r, minted (sys_state s) src m -> ~ rejected (sys_state s) src r).
Proof.
  intros Hr. pose proof (hist_reach self keccak env s Hr) as Hh. unfold waiting, minted, rejected.
  split; [|split].
  - intros e m H1 H2. pose proof (ho_wait_minted _ _ Hh _ _ H1) as E. cbn in E. congruence.
  - intros e m H1 H2. pose proof (ho_wait_invalid _ _ Hh _ _ H1) as E. cbn in E. congruence.
  - intros m r H1 H2. pose proof (mo_excl _ (mints_reach _ _ Hr) _ _ H1) as E. cbn in E. congruence.
Qed.
Lemma fates_final env s src ls : reach self keccak env s ->
  (forall m, minted (sys_state s) src m -> minted (sys_state (run self keccak s ls)) src m) /\
  (forall r, rejected (sys_state s) src r -> rejected (sys_state (run self keccak s ls)) src r).
Proof.
  intros Hr. destruct (run_dgrow self keccak ls s (dep_reach self keccak env s Hr)) as (H1 & H2 & _).
  split; intros x; [apply H1|apply H2].
Qed.
Lemma never_lost env s e : reach self keccak env s -> deposit_accepted (sys_log s) e ->
  waiting (sys_state s) (dep_source e) e \/
  (exists m, minted (sys_state s) (dep_source e) m /\ me_deposit_event m = e) \/
  rejected (sys_state s) (dep_source e) QuarantinedDepositReason.
Proof. intros Hr. exact (ho_fate _ _ (hist_reach self keccak env s Hr) e). Qed.
Lemma only_accepted env s src : reach self keccak env s ->
  (forall e, waiting (sys_state s) src e -> dep_source e = src /\ deposit_accepted (sys_log s) e) /\
  (forall m, minted (sys_state s) src m ->
     dep_source (me_deposit_event m) = src /\ deposit_accepted (sys_log s) (me_deposit_event m)).
Proof.
  intros Hr. pose proof (hist_reach self keccak env s Hr) as Hh. split.
  - intros e He. destruct (ho_wait _ _ Hh _ _ He) as (? & ? & _). auto.
  - intros m Hm. apply (ho_minted _ _ Hh _ _ Hm).
Qed.

(** ** Progress of minting when every waiting deposit covers the fee *)
Lemma mint_next_done fee l e es c :
  fee = deposit_native_fee (fst c) -> covered (fst c) ->
  waiting (fst c) (dep_source e) e -> supported e (erc20_tokens (fst c)) ->
  exists j, mint_next fee l (e :: es) c = Done (c, Await (TMint j)) /\ mj_event j = e /\ mj_rest j = es.
Proof.
  intros Hf Hc Hw Hs. unfold mint_next.
  assert (Ha : exists a, calculate_deposit_amount (dep_value e) fee (is_native e) = Done a).
  { unfold calculate_deposit_amount. destruct e as [x|x]; cbn; eauto. subst fee.
    specialize (Hc _ x Hw). destruct (deposit_native_fee (fst c)) as [f|]; eauto.
    apply N.leb_le in Hc. rewrite Hc. cbn. eauto. }
  destruct Ha as (a & Ha). destruct e as [x|x]; cbn [rbind].
  - rewrite Ha. cbn. eexists. split; [reflexivity|auto].
  - apply contains_get in Hs as ([l0 sy0] & Hs). rewrite Hs. cbn [expect rbind]. rewrite Ha. cbn.
    eexists. split; [reflexivity|auto].
Qed.

Lemma mint_starts env s now : reach self keccak env s -> sys_clock s <= now -> covered (sys_state s) ->
  (forall id, ~ running_activity s id Minting) ->
  moves_on (step self keccak s (LTimer TimerMint now)) (sys_next s) (bvals (events_to_mint (sys_state s))).
Proof.
  intros Hr Hc Hcov Hn. unfold moves_on. cbn. apply N.ltb_ge in Hc. rewrite Hc. unfold start_task, mint_start.
  change (fst (sys_core s)) with (sys_state s).
  rewrite (timer_guard_free self keccak env s Hr Minting Hn : timer_guard_new TaskMint (sys_state s) = _).
  unfold events_to_mint_list. cbn [events_to_mint set_active_tasks].
  destruct (bvals (events_to_mint (sys_state s))) as [|e es] eqn:E.
  - cbn. apply in_or_app. right. left. reflexivity.
  - assert (Hh := hist_reach self keccak env s Hr).
    assert (He : exists k, bget k (dv_wait (dv (sys_state s))) = Some e).
    { unfold bvals in E. destruct (events_to_mint (sys_state s)) as [|[k e0] m] eqn:Em; [discriminate|].
      cbn in E. injection E as -> _. exists k. unfold dv. cbn [dv_wait]. rewrite Em. cbn. rewrite keqb_refl. reflexivity. }
    destruct He as (k & He). destruct (ho_wait _ _ Hh _ _ He) as (Hk & _ & Hs). subst k.
    match goal with |- context [mint_next ?f ?l ?es ?c] =>
      destruct (mint_next_done f l e (tl es) c) as (j & Hx & Hj1 & Hj2) end; auto.
    cbn [tl] in Hx, Hj2. rewrite Hx. cbn. rewrite bget_insert_eq. eauto.
Qed.


(** What a reply does *)
Lemma mint_next_moves fee l es c c' nx s id :
  mint_next fee l es c = Done (c', nx) ->
  (forall j, nx = Await (TMint j) -> mj_event j :: mj_rest j = es) ->
  moves_on (install id nx s) id es.
Proof.
  unfold mint_next. destruct es as [|e es]; intros H Hj.
  - unfold end_timer in H. injection H as <- <-. cbn. apply in_or_app. right. left. reflexivity.
  - apply rbind_done in H as ([sy le] & H1 & H). inv_res. cbn. rewrite bget_insert_eq.
    eexists. split; [reflexivity|]. cbn. auto.
Qed.
Lemma mint_next_total fee l es c :
  fee = deposit_native_fee (fst c) -> covered (fst c) ->
  (forall e, In e es -> waiting (fst c) (dep_source e) e /\ supported e (erc20_tokens (fst c))) ->
  exists c' nx, mint_next fee l es c = Done (c', nx) /\
    (forall id s, moves_on (install id nx s) id es) /\
    minted_events (fst c') = minted_events (fst c) /\ snd c' = snd c.
Proof.
  intros Hf Hc Hw. destruct es as [|e es].
  - eexists _, _. split; [reflexivity|]. split; [|destruct c as [s0 l0]; cbn; auto].
    intros id s. cbn. apply in_or_app. right. left. reflexivity.
  - destruct (mint_next_done fee l e es c) as (j & E & E1 & E2); auto; try (apply Hw; left; reflexivity).
    eexists _, _. split; [exact E|]. split; auto. intros id s. cbn. rewrite bget_insert_eq. eauto.
Qed.

Lemma record_minted s j b log :
  hist_ok log (dv s) -> job_ok (dv s) j ->
  exists s', apply_state_transition s (minted_event j b) = Done s' /\
    (exists m, minted s' (dep_source (mj_event j)) m /\ me_mint_block_index m = b /\ me_deposit_event m = mj_event j) /\
    events_to_mint s' = bremove (dep_source (mj_event j)) (events_to_mint s) /\
    deposit_native_fee s' = deposit_native_fee s /\ erc20_tokens s' = erc20_tokens s.
Proof.
  intros Hh Hj. assert (Hw := jo_wait _ _ Hj _ (or_introl eq_refl)).
  assert (H1 := ho_wait_minted _ _ Hh _ _ Hw). assert (H2 := ho_wait_invalid _ _ Hh _ _ Hw).
  cbn in Hw, H1, H2.
  assert (H : forall sy ct, exists s', record_successful_mint (dep_source (mj_event j)) sy b ct s = Done s' /\
    (exists m, minted s' (dep_source (mj_event j)) m /\ me_mint_block_index m = b /\ me_deposit_event m = mj_event j) /\
    events_to_mint s' = bremove (dep_source (mj_event j)) (events_to_mint s) /\
    deposit_native_fee s' = deposit_native_fee s /\ erc20_tokens s' = erc20_tokens s).
  { intros sy ct. unfold record_successful_mint.
    replace (bmem (dep_source (mj_event j)) (invalid_events s)) with false by (symmetry; apply bmem_false; auto).
    cbn [negb rassert rbind]. rewrite Hw. cbn [expect rbind].
    replace (bmem (dep_source (mj_event j)) (minted_events (set_events_to_mint (bremove (dep_source (mj_event j)) (events_to_mint s)) s)))
      with false by (symmetry; apply bmem_false; auto).
    cbn [negb rassert rbind]. eexists. split; [reflexivity|]. split; [|auto].
    unfold minted. cbn [minted_events set_minted_events]. rewrite bget_insert_eq. eexists. split; [reflexivity|auto]. }
  unfold minted_event. destruct (mj_event j); cbn [apply_state_transition]; apply H.
Qed.

Lemma record_moves env s id j b now : reach self keccak env s -> covered (sys_state s) ->
  job_ok (dv (sys_state s)) j ->
  exists c nx, mint_record now j b (sys_core s) = Done (c, nx) /\
    (forall s0, moves_on (install id nx s0) id (mj_rest j)) /\
    exists m, minted (fst c) (dep_source (mj_event j)) m /\ me_mint_block_index m = b /\ me_deposit_event m = mj_event j.
Proof.
  intros Hr Hc Hj. assert (Hh := hist_reach self keccak env s Hr).
  destruct (record_minted (sys_state s) j b (sys_log s) Hh Hj) as (s1 & E & (m & Hm & Hb) & Ew & Ef & Et).
  unfold mint_record, process_event. change (fst (sys_core s)) with (sys_state s). rewrite E. cbn [rbind].
  assert (Hnd := jo_nodup _ _ Hj). cbn in Hnd. apply NoDup_cons_iff in Hnd as [Hni Hnd].
  destruct (mint_next_total (mj_fee j) (mj_native_ledger j) (mj_rest j)
     (s1, record_event now (minted_event j b) (snd (sys_core s)))) as (c & nx & En & Hmv & Emi & _).
  - rewrite (jo_fee _ _ Hj). cbn. auto.
  - intros src x Hx. cbn [fst] in *. unfold waiting in Hx. rewrite Ew in Hx. rewrite Ef.
    assert (Hne : src <> dep_source (mj_event j)).
    { intros ->. rewrite bget_remove_eq in Hx. discriminate. }
    rewrite bget_remove_ne in Hx by auto. apply (Hc src x Hx).
  - intros e He. cbn [fst]. rewrite Et. assert (Hw := jo_wait _ _ Hj e (or_intror He)).
    destruct (ho_wait _ _ Hh _ _ Hw) as (_ & _ & Hs). split; [|exact Hs].
    unfold waiting. rewrite Ew, bget_remove_ne; [exact Hw|].
    intros Ex. apply Hni. rewrite <- Ex. apply in_map. exact He.
  - exists c, nx. split; [exact En|]. split; [auto|]. exists m. unfold minted in *. rewrite Emi. auto.
Qed.

Lemma mint_progress env s id j a now : reach self keccak env s -> sys_clock s <= now -> covered (sys_state s) ->
  bget id (sys_tasks s) = Some {| fl_task := TMint j; fl_reply := Some (ReLedger a) |} ->
  (forall b, a = LedgerOk b -> b <= U64_MAX) ->
  let s' := step self keccak s (LDeliver id false now) in
  match a with
  | LedgerOk b =>
      bget id (sys_tasks s') = Some {| fl_task := TMintFee j b; fl_reply := None |} \/
      (moves_on s' id (mj_rest j) /\
       exists m, minted (sys_state s') (dep_source (mj_event j)) m /\
         me_mint_block_index m = b /\ me_deposit_event m = mj_event j)
  | _ => moves_on s' id (mj_rest j) /\ waiting (sys_state s') (dep_source (mj_event j)) (mj_event j)
  end.
Proof.
  intros Hr Hcl Hc Hg Hb s'. assert (Hm := mints_reach _ _ Hr). assert (Hh := hist_reach self keccak env s Hr).
  assert (Hj : job_ok (dv (sys_state s)) j) by (eapply (mo_job _ Hm); [exact Hg|left; reflexivity]).
  assert (Hskip : exists c nx, mint_next (mj_fee j) (mj_native_ledger j) (mj_rest j) (sys_core s) = Done (c, nx) /\
     (forall s0, moves_on (install id nx s0) id (mj_rest j)) /\ events_to_mint (fst c) = events_to_mint (sys_state s)).
  { destruct (mint_next_total (mj_fee j) (mj_native_ledger j) (mj_rest j) (sys_core s)) as (c & nx & E & Hmv & _).
    - rewrite (jo_fee _ _ Hj). reflexivity.
    - exact Hc.
    - intros e He. assert (Hw := jo_wait _ _ Hj e (or_intror He)).
      destruct (ho_wait _ _ Hh _ _ Hw) as (_ & _ & Hs). split; [exact Hw|exact Hs].
    - exists c, nx. split; auto. split; auto.
      unfold mint_next in E. destruct (mj_rest j); [unfold end_timer in E; injection E as <- _; reflexivity|].
      apply rbind_done in E as ([] & _ & E). inv_res. reflexivity. }
  subst s'. unfold step. apply N.ltb_ge in Hcl. rewrite Hcl, Hg. unfold deliver.
  cbn [resume]. unfold mint_reply. destruct a as [b|le|].
  - unfold block_u64. specialize (Hb b eq_refl). apply N.leb_le in Hb. rewrite Hb. cbn [rassert rbind].
    destruct (is_native (mj_event j) && is_some (mj_fee j)).
    + left. cbn. rewrite bget_insert_eq. reflexivity.
    + right. destruct (record_moves env s id j b now Hr Hc Hj) as (c & nx & E & Hmv & Hmi). rewrite E.
      split; [apply Hmv|]. unfold sys_state. rewrite install_core. exact Hmi.
  - destruct Hskip as (c & nx & E & Hmv & Hw). rewrite E. split; [apply Hmv|].
    unfold sys_state. rewrite install_core. cbn [sys_core with_queries with_core]. unfold waiting. rewrite Hw. exact (jo_wait _ _ Hj _ (or_introl eq_refl)).
  - destruct Hskip as (c & nx & E & Hmv & Hw). rewrite E. split; [apply Hmv|].
    unfold sys_state. rewrite install_core. cbn [sys_core with_queries with_core]. unfold waiting. rewrite Hw. exact (jo_wait _ _ Hj _ (or_introl eq_refl)).
Qed.
Lemma mint_fee_progress env s id j b a now : reach self keccak env s -> sys_clock s <= now -> covered (sys_state s) ->
  bget id (sys_tasks s) = Some {| fl_task := TMintFee j b; fl_reply := Some (ReLedger a) |} ->
  let s' := step self keccak s (LDeliver id false now) in
  moves_on s' id (mj_rest j) /\
  exists m, minted (sys_state s') (dep_source (mj_event j)) m /\
    me_mint_block_index m = b /\ me_deposit_event m = mj_event j.
Proof.
  intros Hr Hcl Hc Hg s'. assert (Hm := mints_reach _ _ Hr).
  assert (Hj : job_ok (dv (sys_state s)) j) by (eapply (mo_job _ Hm); [exact Hg|right; exists b; reflexivity]).
  subst s'. unfold step. apply N.ltb_ge in Hcl. rewrite Hcl, Hg. unfold deliver. cbn [resume].
  destruct (record_moves env s id j b now Hr Hc Hj) as (c & nx & E & Hmv & Hmi). rewrite E.
  split; [apply Hmv|]. unfold sys_state. rewrite install_core. exact Hmi.
Qed.

End Reach.
