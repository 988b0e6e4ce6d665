(** * The part of the state that concerns deposits, and how events change it. *)

From Verif Require Import Base BMap MultiKeyMap MultiKeyMapFacts Bytes Types Amount ArithFacts Tx CallData
  Network Hex Transactions State Audit Ranges Rlp Parser Memo Driver Sys SysSpec WtInv StateEquiv
  Segments Tasks SysFacts CoreInv WeakSteps DepositSpec.

Record DV := {
  dv_wait : bmap EventSource ReceivedDepositEvent;
  dv_minted : bmap EventSource MintedEvent;
  dv_invalid : bmap EventSource InvalidEventReason;
  dv_tokens : dmkm Principal Address text;
  dv_fee : option N;
  dv_ledger : Principal;
  dv_symbol : text
}.
Definition dv (s : State) : DV :=
  {| dv_wait := events_to_mint s; dv_minted := minted_events s; dv_invalid := invalid_events s;
     dv_tokens := erc20_tokens s; dv_fee := deposit_native_fee s; dv_ledger := native_ledger_id s;
     dv_symbol := native_symbol s |}.

(** ** Events *)

Definition dv_accept (e : ReceivedDepositEvent) (v : DV) : DV :=
  {| dv_wait := binsert (dep_source e) e (dv_wait v); dv_minted := dv_minted v;
     dv_invalid := dv_invalid v; dv_tokens := dv_tokens v; dv_fee := dv_fee v;
     dv_ledger := dv_ledger v; dv_symbol := dv_symbol v |}.
Definition dv_mint (src : EventSource) (m : MintedEvent) (v : DV) : DV :=
  {| dv_wait := bremove src (dv_wait v); dv_minted := binsert src m (dv_minted v);
     dv_invalid := dv_invalid v; dv_tokens := dv_tokens v; dv_fee := dv_fee v;
     dv_ledger := dv_ledger v; dv_symbol := dv_symbol v |}.
Definition dv_reject (src : EventSource) (r : InvalidEventReason) (v : DV) : DV :=
  {| dv_wait := bremove src (dv_wait v); dv_minted := dv_minted v;
     dv_invalid := if bmem src (dv_invalid v) then dv_invalid v else binsert src r (dv_invalid v);
     dv_tokens := dv_tokens v; dv_fee := dv_fee v; dv_ledger := dv_ledger v;
     dv_symbol := dv_symbol v |}.
Definition dv_add_token (m : dmkm Principal Address text) (v : DV) : DV :=
  {| dv_wait := dv_wait v; dv_minted := dv_minted v; dv_invalid := dv_invalid v; dv_tokens := m;
     dv_fee := dv_fee v; dv_ledger := dv_ledger v; dv_symbol := dv_symbol v |}.
Definition dv_set_fee (f : option N) (v : DV) : DV :=
  {| dv_wait := dv_wait v; dv_minted := dv_minted v; dv_invalid := dv_invalid v;
     dv_tokens := dv_tokens v; dv_fee := f; dv_ledger := dv_ledger v; dv_symbol := dv_symbol v |}.

Definition supported (e : ReceivedDepositEvent) (m : dmkm Principal Address text) : Prop :=
  match e with
  | DepNative _ => True
  | DepErc20 x => dmkm_contains_alt (ee_erc20_contract_address x) m = true
  end.

Definition minted_of (e : EventType) (symbol : text) : option (EventSource * N * text * option Address) :=
  match e with
  | EvMintedNative src b => Some (src, b, symbol, None)
  | EvMintedErc20 src b sy c => Some (src, b, sy, Some c)
  | _ => None
  end.

(** What an event does to the deposits *)
Inductive dep_event (v : DV) : EventType -> DV -> Prop :=
| DE_accept e : bget (dep_source e) (dv_wait v) = None -> bget (dep_source e) (dv_minted v) = None ->
    bget (dep_source e) (dv_invalid v) = None -> supported e (dv_tokens v) ->
    dep_event v (into_deposit e) (dv_accept e v)
| DE_invalid src r : bget src (dv_wait v) = None -> bget src (dv_minted v) = None ->
    dep_event v (EvInvalidDeposit src r) (dv_reject src (InvalidDepositReason r) v)
| DE_quarantine src : dep_event v (EvQuarantinedDeposit src) (dv_reject src QuarantinedDepositReason v)
| DE_mint e src b sy c d : minted_of e (dv_symbol v) = Some (src, b, sy, c) ->
    bget src (dv_invalid v) = None -> bget src (dv_wait v) = Some d -> bget src (dv_minted v) = None ->
    dep_event v e (dv_mint src {| me_deposit_event := d; me_mint_block_index := b;
                                  me_token_symbol := sy; me_erc20_contract_address := c |} v)
| DE_token t m : dmkm_try_insert (et_ledger_id t) (et_contract_address t) (et_symbol t) (dv_tokens v)
      = Done (ROk m) -> dep_event v (EvAddedErc20Token t) (dv_add_token m v)
| DE_upgrade a : dep_event v (EvUpgrade a)
      (dv_set_fee (keep (option_map fee_option (ua_deposit_native_fee a)) (dv_fee v)) v)
| DE_other e :
    (match e with
     | EvAcceptedDeposit _ | EvAcceptedErc20Deposit _ | EvInvalidDeposit _ _ | EvQuarantinedDeposit _
     | EvMintedNative _ _ | EvMintedErc20 _ _ _ _ | EvAddedErc20Token _ | EvUpgrade _ | EvInit _ => False
     | _ => True
     end) -> dep_event v e v.

Lemma negb_bmem {K V} `{Ord K} (k : K) (m : bmap K V) :
  negb (bmem k m) = true -> bget k m = None.
Proof. intros H0. apply negb_true_iff in H0. apply bmem_false; auto. Qed.

Lemma dep_accept_event e s s' :
  record_event_to_mint e s = Done s' -> dep_event (dv s) (into_deposit e) (dv s').
Proof.
  unfold record_event_to_mint. intros H. inv_res.
  apply negb_bmem in H0. apply negb_bmem in H1. apply negb_bmem in H2.
  assert (Hs : supported e (dv_tokens (dv s))).
  { destruct e; cbn; auto. apply rassert_done in H3. exact H3. }
  assert (Hv : dv s' = dv_accept e (dv s)).
  { unfold update_balance_upon_deposit in H. destruct e; inv_res; reflexivity. }
  rewrite Hv. apply DE_accept; auto.
Qed.

Lemma mint_event_dv e src b sy c s s' :
  minted_of e (dv_symbol (dv s)) = Some (src, b, sy, c) ->
  record_successful_mint src sy b c s = Done s' -> dep_event (dv s) e (dv s').
Proof.
  unfold record_successful_mint. intros He H. inv_res.
  apply negb_bmem in H0. apply negb_bmem in H2. cbn in H2.
  exact (DE_mint (dv s) e src b sy c x0 He H0 H1 H2).
Qed.

Lemma bremove_absent_id (src : EventSource) (m : bmap EventSource ReceivedDepositEvent) :
  bget src m = None -> bremove src m = m.
Proof. apply bremove_notin. Qed.

Lemma apply_dv s e s' : apply_state_transition s e = Done s' -> dep_event (dv s) e (dv s').
Proof.
  intros H. destruct e; cbn [apply_state_transition] in H; try discriminate;
    try (apply on_withdrawals_inv in H as (w & _ & ->); apply DE_other; exact Logic.I);
    try (injection H as <-; apply DE_other; exact Logic.I).
  - destruct (upgrade a s) as [x|] eqn:E; [|discriminate]. injection H as <-.
    apply upgrade_spec in E as (_ & _ & ->). apply (DE_upgrade (dv s) a).
  - apply (dep_accept_event (DepNative e)); auto.
  - unfold record_invalid_deposit in H. inv_res.
    apply negb_bmem in H0. apply negb_bmem in H1.
    assert (Hv : dv s' = dv_reject event_source (InvalidDepositReason reason) (dv s)).
    { unfold dv_reject. cbn. rewrite bremove_absent_id by auto.
      destruct (bmem event_source (invalid_events s)); inv_res; reflexivity. }
    rewrite Hv. apply DE_invalid; auto.
  - eapply mint_event_dv; [|exact H]. reflexivity.
  - unfold state_record_finalized_transaction in H. inv_res.
    apply update_balance_shape in H as (nb & eb & ->). apply DE_other. exact Logic.I.
  - unfold record_add_erc20_token in H. inv_res.
    apply DE_token. unfold expect_inserted in H3. destruct (dmkm_try_insert _ _ _ _) as [[m|]|]; try discriminate.
    cbn in H3. injection H3 as <-. reflexivity.
  - apply (dep_accept_event (DepErc20 e)); auto.
  - unfold record_erc20_withdrawal_request in H. inv_res. apply DE_other. exact Logic.I.
  - eapply mint_event_dv; [|exact H]. reflexivity.
  - injection H as <-.
    assert (Hv : dv (record_quarantined_deposit event_source s)
       = dv_reject event_source QuarantinedDepositReason (dv s)).
    { unfold record_quarantined_deposit, dv_reject. cbn.
      destruct (bmem event_source (invalid_events s)); reflexivity. }
    rewrite Hv. apply DE_quarantine.
  - unfold record_skipped_block in H. inv_res. apply DE_other. exact Logic.I.
Qed.

Lemma dep_event_fun v e v1 v2 : dep_event v e v1 -> dep_event v e v2 -> v1 = v2.
Proof.
  intros H1 H2.
  destruct H1; inversion H2; subst; try reflexivity; try contradiction;
    repeat match goal with
    | e : ReceivedDepositEvent |- _ => destruct e; cbn in *; try discriminate; try contradiction
    | H : into_deposit _ = into_deposit _ |- _ => injection H as ?; subst
    end; try congruence; try reflexivity.
  all: try (match goal with H : minted_of ?e _ = Some _ |- _ => destruct e; cbn in *; try discriminate; try contradiction end).
Qed.

Lemma dep_event_minted v e v' src b sy c :
  dep_event v e v' -> minted_of e (dv_symbol v) = Some (src, b, sy, c) ->
  exists d, bget src (dv_wait v) = Some d /\ bget src (dv_minted v) = None /\ bget src (dv_invalid v) = None /\
    v' = dv_mint src {| me_deposit_event := d; me_mint_block_index := b; me_token_symbol := sy;
                        me_erc20_contract_address := c |} v.
Proof.
  intros H Hm. destruct H; try discriminate; try (destruct e; discriminate).
  - rewrite H in Hm. injection Hm as -> -> -> ->. eauto 10.
  - destruct e; try discriminate; contradiction.
Qed.
Lemma dep_event_upgrade v a v' : dep_event v (EvUpgrade a) v' ->
  v' = dv_set_fee (keep (option_map fee_option (ua_deposit_native_fee a)) (dv_fee v)) v.
Proof. intros H. exact (dep_event_fun _ _ _ _ H (DE_upgrade v a)). Qed.

(** ** Histories *)

Inductive dep_hist : list Event -> DV -> Prop :=
| DH_init now a s : state_of_init a = ROk s -> dep_hist (record_event now (EvInit a) []) (dv s)
| DH_event log v now e v' : dep_hist log v -> dep_event v e v' -> dep_hist (record_event now e log) v'.

Lemma dep_hist_nonempty log v : dep_hist log v -> log <> [].
Proof. destruct 1; unfold record_event; [discriminate|]. intros E. exact (app_cons_not_nil _ _ _ (eq_sym E)). Qed.
Lemma dep_hist_fun log v1 : dep_hist log v1 -> forall v2, dep_hist log v2 -> v1 = v2.
Proof.
  induction 1 as [now a s H|log v now e v' H IH He]; intros v2 H2.
  - inversion H2 as [now' a' s' H' E|log' v0 now' e' v'' H' He' E]; subst.
    + congruence.
    + unfold record_event in E. apply (app_inj_tail log' []) in E as [-> _]. 
      destruct (dep_hist_nonempty _ _ H' eq_refl).
  - inversion H2 as [now' a' s' H' E|log' v0 now' e' v'' H' He' E]; subst.
    + unfold record_event in E. apply (app_inj_tail [] log) in E as [<- _].
      destruct (dep_hist_nonempty _ _ H eq_refl).
    + unfold record_event in E. apply app_inj_tail in E as [-> E]. injection E as _ ->.
      rewrite <- (IH _ H') in He'. eapply dep_event_fun; eauto.
Qed.

Lemma replay_hist log : forall s, replay_events log = Done s -> dep_hist log (dv s).
Proof.
  unfold replay_events. destruct log as [|e0 log]; [discriminate|].
  destruct e0 as [ts p]. cbn. destruct p; try discriminate.
  destruct (state_of_init a) as [s0|] eqn:E; [|discriminate].
  assert (Hg : forall l pre s s', dep_hist pre (dv s) ->
    rfold (fun s e => apply_state_transition s (ev_payload e)) s l = Done s' -> dep_hist (pre ++ l) (dv s')).
  { induction l as [|e l IH]; cbn; intros pre s s' Hp H; inv_res.
    - rewrite app_nil_r. auto.
    - replace (pre ++ e :: l) with ((pre ++ [e]) ++ l) by (rewrite <- app_assoc; reflexivity).
      eapply IH; [|exact H]. destruct e as [te pe]. eapply (DH_event pre (dv s) te pe); auto.
      apply apply_dv; auto. }
  intros s H. apply (Hg log [{| ev_timestamp := ts; ev_payload := EvInit a |}] s0); auto.
  exact (DH_init ts a s0 E).
Qed.

Lemma vstep_dv s s' : vstep s s' -> dv s' = dv s.
Proof. intros (v & ->). destruct s. reflexivity. Qed.
Lemma dv_set_withdrawals w s : dv (set_withdrawals w s) = dv s.
Proof. reflexivity. Qed.

(** What holds of every history *)
Definition fate (v : DV) (e : ReceivedDepositEvent) : Prop :=
  bget (dep_source e) (dv_wait v) = Some e \/
  (exists m, bget (dep_source e) (dv_minted v) = Some m /\ me_deposit_event m = e) \/
  bget (dep_source e) (dv_invalid v) = Some QuarantinedDepositReason.

Record hist_ok (log : list Event) (v : DV) : Prop := {
  ho_wait_sorted : bsorted (dv_wait v);
  ho_wait : forall k e, bget k (dv_wait v) = Some e ->
    dep_source e = k /\ deposit_accepted log e /\ supported e (dv_tokens v);
  ho_minted : forall k m, bget k (dv_minted v) = Some m ->
    dep_source (me_deposit_event m) = k /\ deposit_accepted log (me_deposit_event m);
  ho_wait_minted : forall k e, bget k (dv_wait v) = Some e -> bget k (dv_minted v) = None;
  ho_wait_invalid : forall k e, bget k (dv_wait v) = Some e -> bget k (dv_invalid v) = None;
  ho_fate : forall e, deposit_accepted log e -> fate v e;
  ho_once : forall e1 e2, deposit_accepted log e1 -> deposit_accepted log e2 -> dep_source e1 = dep_source e2 -> e1 = e2;
  ho_tokens : mkm_wf (dv_tokens v);
  ho_token : forall c l sy, dmkm_get_entry_alt c (dv_tokens v) = Some (l, sy) -> registered log c l sy
}.

Lemma accepted_snoc log now x e : deposit_accepted log e -> deposit_accepted (record_event now x log) e.
Proof. unfold deposit_accepted, record_event. rewrite map_app. intros. apply in_or_app. auto. Qed.
Lemma accepted_snoc_inv log now x e : deposit_accepted (record_event now x log) e ->
  deposit_accepted log e \/ x = into_deposit e.
Proof.
  unfold deposit_accepted, record_event. rewrite map_app. intros H. apply in_app_or in H as [H|[H|[]]]; auto.
Qed.
Lemma accepted_last log now e : deposit_accepted (record_event now (into_deposit e) log) e.
Proof. unfold deposit_accepted, record_event. rewrite map_app. apply in_or_app. right. left. reflexivity. Qed.
Lemma registered_snoc log now x c l sy : registered log c l sy -> registered (record_event now x log) c l sy.
Proof.
  unfold registered, record_event. rewrite map_app. intros (t & H & Ht). exists t. split; auto.
  apply in_or_app. auto.
Qed.

Lemma dmkm_insert_get l c sy (m m' : dmkm Principal Address text) :
  dmkm_try_insert l c sy m = Done (ROk m') ->
  bget c (by_alt m) = None /\
  forall c', dmkm_get_entry_alt c' m' = if keqb c' c then Some (l, sy) else dmkm_get_entry_alt c' m.
Proof.
  intros H. apply mkm_try_insert_ok in H as (H1 & H2 & ->). split; auto. intros c'.
  unfold dmkm_get_entry_alt, mkm_get_alt. cbn. apply bget_insert.
Qed.
Lemma contains_get c (m : dmkm Principal Address text) :
  dmkm_contains_alt c m = true <-> exists x, dmkm_get_entry_alt c m = Some x.
Proof. unfold dmkm_contains_alt, mkm_contains_alt, dmkm_get_entry_alt, mkm_get_alt. apply bmem_true. Qed.

Lemma hist_init log a s : state_of_init a = ROk s ->
  (forall e, ~ deposit_accepted log e) -> hist_ok log (dv s).
Proof.
  intros H Hno.
  assert (Hs : events_to_mint s = [] /\ minted_events s = [] /\ invalid_events s = [] /\ erc20_tokens s = mkm_new).
  { unfold state_of_init, ebind in H.
    repeat match type of H with match ?x with _ => _ end = _ => destruct x; try discriminate end.
    injection H as <-. auto. }
  destruct Hs as (H1 & H2 & H3 & H4). constructor; cbn; rewrite ?H1, ?H2, ?H3, ?H4; try discriminate.
  - constructor.
  - intros e He. destruct (Hno _ He).
  - intros e1 e2 He. destruct (Hno _ He).
  - apply mkm_wf_new.
Qed.

Lemma fate_reject v e src r :
  fate v e -> (bget src (dv_wait v) <> None -> bget src (dv_invalid v) = None /\ r = QuarantinedDepositReason) ->
  fate (dv_reject src r v) e.
Proof.
  intros Hf Hr. destruct Hf as [Hf|[Hf|Hf]].
  - destruct (key_dec (dep_source e) src) as [Hk|Hk].
    + subst src. destruct Hr as [H1 ->]; [congruence|]. right. right. cbn.
      apply bmem_false in H1. rewrite H1. apply bget_insert_eq.
    + left. cbn. rewrite bget_remove_ne; auto.
  - right. left. exact Hf.
  - right. right. cbn. destruct (bmem src (dv_invalid v)) eqn:E; auto.
    rewrite bget_insert_ne; auto. intros Hk. subst src. apply bmem_false in E. congruence.
Qed.

Lemma hist_event log v now e v' : hist_ok log v -> dep_event v e v' -> hist_ok (record_event now e log) v'.
Proof.
  intros [H1 H2 H3 H4 H5 H6 H9 H7 H8] He.
  assert (Honce : (forall d, e <> into_deposit d) -> forall e1 e2, deposit_accepted (record_event now e log) e1 ->
    deposit_accepted (record_event now e log) e2 -> dep_source e1 = dep_source e2 -> e1 = e2).
  { intros Hn e1 e2 A1 A2. apply accepted_snoc_inv in A1 as [A1|A1]; [|destruct (Hn _ A1)].
    apply accepted_snoc_inv in A2 as [A2|A2]; [|destruct (Hn _ A2)]. auto. }
  assert (Hkeep : (forall d, e <> into_deposit d) -> forall d, deposit_accepted (record_event now e log) d -> fate v d).
  { intros Hn d Hd. apply accepted_snoc_inv in Hd as [Hd|Hd]; auto. destruct (Hn _ Hd). }
  destruct He as [d Ha Hb Hc Hs|src r Ha Hb|src|e src b sy c d Hm Ha Hb Hc|t m Ht|a|e Hx].
  - constructor; cbn; auto.
    + apply bsorted_insert; auto.
    + intros k x. rewrite bget_insert. destruct (keqb_spec k (dep_source d)) as [Hk|Hk].
      * injection 1 as <-. subst k. split; auto. split; auto. apply accepted_last.
      * intros Hx. destruct (H2 _ _ Hx) as (? & ? & ?). split; auto. split; auto. apply accepted_snoc; auto.
    + intros k m Hm. destruct (H3 _ _ Hm). split; auto. apply accepted_snoc; auto.
    + intros k x. rewrite bget_insert. destruct (keqb_spec k (dep_source d)) as [Hk|Hk]; [subst; auto|apply H4].
    + intros k x. rewrite bget_insert. destruct (keqb_spec k (dep_source d)) as [Hk|Hk]; [subst; auto|apply H5].
    + intros x Hx. apply accepted_snoc_inv in Hx as [Hx|Hx].
      * destruct (H6 _ Hx) as [Hf|[Hf|Hf]]; [left|right; left; exact Hf|right; right; exact Hf].
        cbn. rewrite bget_insert_ne; auto. intros Hk. rewrite Hk in Hf. congruence.
      * left. assert (x = d) by (destruct x, d; cbn in Hx; congruence). subst x. cbn. apply bget_insert_eq.
    + assert (Hnew : forall x, deposit_accepted log x -> dep_source x = dep_source d -> False).
      { intros x Hx E. destruct (H6 _ Hx) as [Hf|[(m & Hf & _)|Hf]]; rewrite E in Hf; congruence. }
      assert (Heq : forall x, into_deposit d = into_deposit x -> x = d).
      { intros x Hx. destruct x, d; cbn in Hx; congruence. }
      intros e1 e2 A1 A2 E. apply accepted_snoc_inv in A1 as [A1|A1]; apply accepted_snoc_inv in A2 as [A2|A2].
      * auto.
      * rewrite (Heq _ A2) in E. destruct (Hnew _ A1 E).
      * rewrite (Heq _ A1) in E. destruct (Hnew _ A2 (eq_sym E)).
      * rewrite (Heq _ A1), (Heq _ A2). reflexivity.
    + intros. apply registered_snoc; auto.
  - assert (Hn : forall d, EvInvalidDeposit src r <> into_deposit d) by (intros []; discriminate).
    constructor; cbn; auto.
    + apply bsorted_remove; auto.
    + intros k x. rewrite bget_remove. destruct (keqb k src); [discriminate|].
      intros Hx. destruct (H2 _ _ Hx) as (? & ? & ?). split; auto. split; auto. apply accepted_snoc; auto.
    + intros k m Hm. destruct (H3 _ _ Hm). split; auto. apply accepted_snoc; auto.
    + intros k x. rewrite bget_remove. destruct (keqb k src); [discriminate|]. apply H4.
    + intros k x. rewrite bget_remove. destruct (keqb_spec k src) as [Hk|Hk]; [discriminate|].
      intros Hx. destruct (bmem src (dv_invalid v)); [eauto|]. rewrite bget_insert_ne; eauto.
    + intros d Hd. apply fate_reject; [apply Hkeep; auto|]. congruence.
    + intros. apply registered_snoc; auto.
  - assert (Hn : forall d, EvQuarantinedDeposit src <> into_deposit d) by (intros []; discriminate).
    constructor; cbn; auto.
    + apply bsorted_remove; auto.
    + intros k x. rewrite bget_remove. destruct (keqb k src); [discriminate|].
      intros Hx. destruct (H2 _ _ Hx) as (? & ? & ?). split; auto. split; auto. apply accepted_snoc; auto.
    + intros k m Hm. destruct (H3 _ _ Hm). split; auto. apply accepted_snoc; auto.
    + intros k x. rewrite bget_remove. destruct (keqb k src); [discriminate|]. apply H4.
    + intros k x. rewrite bget_remove. destruct (keqb_spec k src) as [Hk|Hk]; [discriminate|].
      intros Hx. destruct (bmem src (dv_invalid v)); [eauto|]. rewrite bget_insert_ne; eauto.
    + intros d Hd. apply fate_reject; [apply Hkeep; auto|]. intros Hw. split; auto.
      destruct (bget src (dv_wait v)) eqn:E; [eauto|congruence].
    + intros. apply registered_snoc; auto.
  - assert (Hn : forall d, e <> into_deposit d) by (intros [] ->; discriminate).
    destruct (H2 _ _ Hb) as (Hd1 & Hd2 & Hd3).
    constructor; cbn; auto.
    + apply bsorted_remove; auto.
    + intros k x. rewrite bget_remove. destruct (keqb k src); [discriminate|].
      intros Hx. destruct (H2 _ _ Hx) as (? & ? & ?). split; auto. split; auto. apply accepted_snoc; auto.
    + intros k m. rewrite bget_insert. destruct (keqb_spec k src) as [Hk|Hk].
      * injection 1 as <-. cbn. subst k. split; auto. apply accepted_snoc; auto.
      * intros Hx. destruct (H3 _ _ Hx). split; auto. apply accepted_snoc; auto.
    + intros k x. rewrite bget_remove. destruct (keqb_spec k src) as [Hk|Hk]; [discriminate|].
      intros Hx. rewrite bget_insert_ne; eauto.
    + intros k x. rewrite bget_remove. destruct (keqb_spec k src) as [Hk|Hk]; [discriminate|]. apply H5.
    + intros x Hx. destruct (Hkeep Hn _ Hx) as [Hf|[(m & Hf & Hg)|Hf]].
      * destruct (key_dec (dep_source x) src) as [Hk|Hk].
        -- right. left. cbn. rewrite Hk in *. rewrite bget_insert_eq. eexists. split; [reflexivity|]. cbn. congruence.
        -- left. cbn. rewrite bget_remove_ne; auto.
      * right. left. cbn. exists m. split; auto. rewrite bget_insert_ne; auto. intros Hk. rewrite Hk in Hf. congruence.
      * right. right. exact Hf.
    + intros. apply registered_snoc; auto.
  - assert (Hn : forall d, EvAddedErc20Token t <> into_deposit d) by (intros []; discriminate).
    pose proof Ht as Ht'. apply dmkm_insert_get in Ht as [Ht1 Ht2]. constructor; cbn; auto.
    + intros k x Hx. destruct (H2 _ _ Hx) as (? & ? & Hs). split; auto. split; [apply accepted_snoc; auto|].
      destruct x as [|x]; auto. cbn in *. apply contains_get in Hs as (p & Hs). apply contains_get.
      rewrite Ht2. destruct (keqb _ _); eauto.
    + intros k x Hx. destruct (H3 _ _ Hx). split; auto. apply accepted_snoc; auto.
    + intros d Hd. exact (Hkeep Hn _ Hd).
    + apply mkm_try_insert_ok in Ht' as (T1 & T2 & ->). apply mkm_wf_insert; auto.
    + intros c l sy. rewrite Ht2. destruct (keqb_spec c (et_contract_address t)) as [Hk|Hk].
      * injection 1 as <- <-. exists t. split; [|auto]. unfold record_event. rewrite map_app.
        apply in_or_app. right. left. reflexivity.
      * intros Hx. apply registered_snoc; auto.
  - assert (Hn : forall d, EvUpgrade a <> into_deposit d) by (intros []; discriminate).
    constructor; cbn; auto.
    + intros k x Hx. destruct (H2 _ _ Hx) as (? & ? & Hs). split; auto. split; [apply accepted_snoc; auto|auto].
    + intros k x Hx. destruct (H3 _ _ Hx). split; auto. apply accepted_snoc; auto.
    + intros d Hd. exact (Hkeep Hn _ Hd).
    + intros. apply registered_snoc; auto.
  - assert (Hn : forall d, e <> into_deposit d) by (intros [] ->; contradiction).
    constructor; cbn; auto.
    + intros k x Hy. destruct (H2 _ _ Hy) as (? & ? & Hs). split; auto. split; [apply accepted_snoc; auto|auto].
    + intros k x Hy. destruct (H3 _ _ Hy). split; auto. apply accepted_snoc; auto.
    + intros. apply registered_snoc; auto.
Qed.

Lemma dep_event_ledger v e v' : dep_event v e v' -> dv_ledger v' = dv_ledger v.
Proof. destruct 1; reflexivity. Qed.

Lemma hist_good log v : dep_hist log v -> hist_ok log v.
Proof.
  induction 1.
  - eapply hist_init; eauto. unfold deposit_accepted. intros e [He|[]]. destruct e; discriminate.
  - eapply hist_event; eauto.
Qed.

(** ** Fates are final *)
Definition dgrow (v v' : DV) : Prop :=
  (forall k m, bget k (dv_minted v) = Some m -> bget k (dv_minted v') = Some m) /\
  (forall k r, bget k (dv_invalid v) = Some r -> bget k (dv_invalid v') = Some r) /\
  dv_ledger v' = dv_ledger v.
Lemma dgrow_refl v : dgrow v v.
Proof. split; [|split]; auto. Qed.
Lemma dgrow_trans a b c : dgrow a b -> dgrow b c -> dgrow a c.
Proof. intros (A & B & C) (A' & B' & C'). split; [|split]; auto. congruence. Qed.
Lemma dep_event_dgrow v e v' : dep_event v e v' -> dgrow v v'.
Proof.
  intros H. destruct H; (split; [|split]); cbn; auto.
  - intros k x Hx. destruct (bmem src (dv_invalid v)) eqn:E; auto. apply bmem_false in E.
    rewrite bget_insert_ne; auto. congruence.
  - intros k x Hx. destruct (bmem src (dv_invalid v)) eqn:E; auto. apply bmem_false in E.
    rewrite bget_insert_ne; auto. congruence.
  - intros k x Hx. rewrite bget_insert_ne; auto. congruence.
Qed.

(** ** Small steps and upgrades *)
Definition dep_ok (c : Core) : Prop := dep_hist (snd c) (dv (fst c)).

Lemma dep_ok_micros (J : EventType -> Prop) now c c' : wmicros J now c c' -> dep_ok c -> dep_ok c'.
Proof.
  apply wmicros_inv. unfold dep_ok. intros x y Hx Hm. destruct Hm as [s s' log Hv|s s' log e HJ Ha|s log r w' Hq]; cbn in *.
  - rewrite (vstep_dv _ _ Hv). auto.
  - eapply DH_event; eauto. apply apply_dv; auto.
  - auto.
Qed.
Lemma dgrow_micros (J : EventType -> Prop) now c c' : wmicros J now c c' -> dgrow (dv (fst c)) (dv (fst c')).
Proof.
  apply (wmicros_rel J now (fun c c' => dgrow (dv (fst c)) (dv (fst c')))).
  - intros. apply dgrow_refl.
  - intros. eapply dgrow_trans; eauto.
  - intros x y Hm. destruct Hm as [s s' log Hv|s s' log e HJ Ha|s log r w' Hq]; cbn in *.
    + rewrite (vstep_dv _ _ Hv). apply dgrow_refl.
    + eapply dep_event_dgrow. apply apply_dv; eauto.
    + apply dgrow_refl.
Qed.

Lemma upgrade_dv now a c c' : dep_ok c -> canister_upgrade now a c = Done c' ->
  dep_ok c' /\
  match a with
  | None => dv (fst c') = dv (fst c)
  | Some x => dep_event (dv (fst c)) (EvUpgrade x) (dv (fst c'))
  end.
Proof.
  unfold canister_upgrade, post_upgrade, dep_ok. intros Hd H. inv_res.
  apply replay_hist in H0.
  assert (Hp : dep_hist (pre_upgrade now c) (dv (fst c))).
  { unfold pre_upgrade. eapply DH_event; eauto. apply DE_other. exact Logic.I. }
  assert (E : dv x = dv (fst c)) by (eapply dep_hist_fun; eauto).
  destruct a as [a|]; inv_res.
  - unfold process_event in H. cbn in H. inv_res. cbn in *. rewrite <- E in *.
    assert (He : dep_event (dv x) (EvUpgrade a) (dv x0)).
    { apply apply_dv. cbn. exact H1. }
    split; auto. eapply DH_event; eauto.
  - cbn. rewrite E. split; auto. 
Qed.

Section Reach.
Variable self : Principal.
Variable keccak : list N -> Hash.

Lemma trans_dgrow s l s' : dep_ok (sys_core s) -> Trans self keccak s l s' ->
  dep_ok (sys_core s') /\ dgrow (dv (sys_state s)) (dv (sys_state s')).
Proof.
  intros Hd H. apply trans_wmicros in H as [(now & H)|(a & now & _ & _ & H)].
  - split; [eapply dep_ok_micros; eauto|eapply dgrow_micros; eauto].
  - destruct (upgrade_dv _ _ _ _ Hd H) as [H1 H2]. split; auto.
    unfold sys_state. destruct a; [eapply dep_event_dgrow; eauto|rewrite H2; apply dgrow_refl].
Qed.

Lemma dep_reach env s : reach self keccak env s -> dep_ok (sys_core s).
Proof.
  apply (reach_inv self keccak env (fun s => dep_ok (sys_core s))).
  - intros now a s0 H. apply sys_init_inv in H as (st & H1 & H2 & _). rewrite H2.
    unfold dep_ok. cbn [fst snd]. apply DH_init; auto.
  - intros s0 l s' Hd _ H. eapply trans_dgrow; eauto.
Qed.
Lemma hist_reach env s : reach self keccak env s -> hist_ok (sys_log s) (dv (sys_state s)).
Proof. intros H. apply hist_good. apply (dep_reach env); auto. Qed.

Lemma run_dgrow ls : forall s, dep_ok (sys_core s) ->
  dgrow (dv (sys_state s)) (dv (sys_state (run self keccak s ls))).
Proof.
  induction ls as [|l ls IH]; intros s Hd; [apply dgrow_refl|].
  destruct (trans_dgrow s l _ Hd (step_trans self keccak s l)) as [H1 H2].
  eapply dgrow_trans; [exact H2|]. apply IH. exact H1.
Qed.

End Reach.
