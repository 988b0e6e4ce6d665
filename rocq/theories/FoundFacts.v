(** * Proofs for C69, C70 *)

From Verif Require Import Base BMap MultiKeyMap MultiKeyMapFacts Bytes Types Amount Network Transactions State Audit Ranges Parser
  Driver Sys SysSpec Tasks SysFacts RangesFacts Views ScrapeSpec ScrapeFacts Segments CoreInv WeakSteps Deposits DepositSpec
  TokenSpec TokenFacts ParserSpec ParserFacts UpgradeFacts ReadyFacts FinalizeFacts FoundSpec.
From Verif Require Tasks MintFacts LogFacts.

Lemma fits256 n : n < 2 ^ 256 <-> n <= U256_MAX.
Proof. pose proof U256_MAX_val. lia. Qed.

(** ** Recording one answer *)

Lemma known_iff s src : known s src <->
  ~ (bget src (events_to_mint s) = None /\ bget src (minted_events s) = None /\ bget src (invalid_events s) = None).
Proof.
  unfold known, waiting, minted, rejected.
  destruct (bget src (events_to_mint s)), (bget src (minted_events s)), (bget src (invalid_events s));
    split; intros H; try tauto; try (intros (? & ? & ?); discriminate).
  - left. eauto.
  - left. eauto.
  - left. eauto.
  - left. eauto.
  - right. left. eauto.
  - right. left. eauto.
  - right. right. eauto.
  - destruct H as [(? & ?)|[(? & ?)|(? & ?)]]; discriminate.
Qed.
Lemma unknown_iff s src : ~ known s src <->
  (bget src (events_to_mint s) = None /\ bget src (minted_events s) = None /\ bget src (invalid_events s) = None).
Proof.
  rewrite known_iff.
  destruct (bget src (events_to_mint s)), (bget src (minted_events s)), (bget src (invalid_events s));
    split; intros H; try tauto; exfalso; apply H; intros (? & ? & ?); discriminate.
Qed.

Definition supported_token (s : State) (d : ReceivedDepositEvent) : Prop :=
  match d with
  | DepErc20 x => dmkm_contains_alt (ee_erc20_contract_address x) (erc20_tokens s) = true
  | DepNative _ => True
  end.
(** The balance the deposit is added to *)
Definition balance_for (s : State) (d : ReceivedDepositEvent) : N :=
  match d with
  | DepNative _ => nb_balance (native_balance s)
  | DepErc20 x => erc20_balance_of (ee_erc20_contract_address x) (erc20_balances s)
  end.
Definition part_for (d : ReceivedDepositEvent) : ReceivedDepositEvent -> N :=
  match d with DepNative _ => native_part | DepErc20 x => erc20_part (ee_erc20_contract_address x) end.

Record acc (s : State) (ds : list ReceivedDepositEvent) (bad : list EventSource) : Prop := {
  ac_once : NoDup (map dep_source ds);
  ac_new : forall d, In d ds -> bget (dep_source d) (events_to_mint s) = None /\
    bget (dep_source d) (minted_events s) = None /\ bget (dep_source d) (invalid_events s) = None;
  ac_token : forall d, In d ds -> supported_token s d;
  ac_bad : forall src, In src bad -> bget src (events_to_mint s) = None /\ bget src (minted_events s) = None /\
    ~ In src (map dep_source ds);
  ac_room : forall d, In d ds -> balance_for s d + total (part_for d) ds <= U256_MAX
}.

Lemma contains_alt (c : Address) (m : dmkm Principal Address text) :
  dmkm_contains_alt c m = true <-> exists x, dmkm_get_entry_alt c m = Some x.
Proof.
  unfold dmkm_contains_alt, mkm_contains_alt, dmkm_get_entry_alt. rewrite bmem_true. reflexivity.
Qed.

Lemma recordable_acc s ds bad : tok_ok (erc20_tokens s) -> (recordable s ds bad <-> acc s ds bad).
Proof.
  intros Ht. split; [intros [A B C D E F]|intros [A B C D E]]; constructor; auto.
  - intros d Hd. apply unknown_iff. auto.
  - intros [x|x] Hd; cbn; [exact Logic.I|]. destruct (C x Hd) as (l & sy & H). apply (listed_iff _ Ht) in H.
    apply contains_alt. eauto.
  - intros src Hs. destruct (D src Hs) as (D1 & D2 & D3). unfold waiting, minted in *.
    destruct (bget src (events_to_mint s)); [destruct (D1 _ eq_refl)|].
    destruct (bget src (minted_events s)); [destruct (D2 _ eq_refl)|]. auto.
  - intros [x|x] Hd; cbn [balance_for part_for]; apply fits256; eauto.
  - intros d Hd. apply unknown_iff. auto.
  - intros x Hd. specialize (C _ Hd). cbn in C. apply contains_alt in C as ([l sy] & C). exists l, sy.
    apply (listed_iff _ Ht). exact C.
  - intros src Hs. destruct (D src Hs) as (D1 & D2 & D3). unfold waiting, minted. rewrite D1, D2.
    repeat split; auto; intros; discriminate.
  - intros x Hd. apply fits256. exact (E _ Hd).
  - intros x Hd. apply fits256. exact (E _ Hd).
Qed.

Lemma part_self d : part_for d d = dep_value d.
Proof. destruct d; cbn; [reflexivity|]. rewrite N.eqb_refl. reflexivity. Qed.
Lemma total_cons f d ds : total f (d :: ds) = f d + total f ds.
Proof. reflexivity. Qed.
Lemma erc20_part_le c ds d : In d ds -> erc20_part c d <= total (erc20_part c) ds.
Proof.
  induction ds as [|x ds IH]; intros []; rewrite total_cons; [subst; lia|]. specialize (IH H). lia.
Qed.

Lemma accept_done d s s1 : record_event_to_mint d s = Done s1 ->
  (bget (dep_source d) (events_to_mint s) = None /\
   bget (dep_source d) (minted_events s) = None /\ bget (dep_source d) (invalid_events s) = None) /\
  supported_token s d /\ (dep_value d <= U256_MAX -> balance_for s d + dep_value d <= U256_MAX) /\
  events_to_mint s1 = binsert (dep_source d) d (events_to_mint s) /\ minted_events s1 = minted_events s /\
  invalid_events s1 = invalid_events s /\ erc20_tokens s1 = erc20_tokens s /\
  forall d', balance_for s1 d' = balance_for s d' + part_for d' d.
Proof.
  unfold record_event_to_mint. intros H.
  apply rbind_done in H as (u1 & H1 & H). apply rbind_done in H as (u2 & H2 & H). apply rbind_done in H as (u3 & H3 & H).
  apply rbind_done in H as (u4 & H4 & H). apply rassert_done in H1, H2, H3.
  apply negb_bmem in H1. apply negb_bmem in H2. apply negb_bmem in H3.
  split; [auto|]. destruct d as [x|x]; cbn [update_balance_upon_deposit] in H.
  - split; [exact Logic.I|]. unfold eth_balance_add in H. apply rbind_done in H as (b & Hb & H).
    apply rbind_done in Hb as (v & Hv & Hb). apply expect_done in Hv. cbn in Hv.
    apply checked_add_some in Hv as (-> & Hv). injection Hb as <-. injection H as <-. cbn.
    split; [intros _; exact Hv|]. repeat (split; [reflexivity|]). intros [y|y]; cbn; lia.
  - apply rassert_done in H4. split; [exact H4|]. unfold erc20_add in H. apply rbind_done in H as (b & Hb & H).
    injection H as <-. cbn [balance_for dep_value dep_source].
    change (erc20_balances (set_events_to_mint (binsert (dep_source (DepErc20 x)) (DepErc20 x) (events_to_mint s)) s))
      with (erc20_balances s) in Hb.
    assert (Hfin : exists v, b = binsert (ee_erc20_contract_address x) v (erc20_balances s) /\
      v = erc20_balance_of (ee_erc20_contract_address x) (erc20_balances s) + ee_value x /\
      (ee_value x <= U256_MAX -> v <= U256_MAX)).
    { unfold erc20_balance_of. destruct (bget (ee_erc20_contract_address x) (erc20_balances s)) as [p|].
      - apply rbind_done in Hb as (v & Hv & Hb). apply expect_done in Hv. apply checked_add_some in Hv as (-> & Hv).
        injection Hb as <-. exists (p + ee_value x). auto.
      - injection Hb as <-. exists (ee_value x). split; [reflexivity|]. split; [lia|auto]. }
    destruct Hfin as (v & -> & -> & Hle). split; [exact Hle|]. repeat (split; [reflexivity|]).
    intros [y|y]; cbn -[bget binsert N.eqb]; [lia|]. unfold erc20_balance_of. rewrite bget_insert.
    destruct (keqb_spec (ee_erc20_contract_address y) (ee_erc20_contract_address x)) as [Hk|Hk].
    + rewrite Hk, N.eqb_refl. reflexivity.
    + destruct (N.eqb_spec (ee_erc20_contract_address x) (ee_erc20_contract_address y)); [congruence|]. lia.
Qed.
Lemma accept_total d s :
  bget (dep_source d) (events_to_mint s) = None -> bget (dep_source d) (minted_events s) = None ->
  bget (dep_source d) (invalid_events s) = None -> supported_token s d ->
  balance_for s d + dep_value d <= U256_MAX -> exists s1, record_event_to_mint d s = Done s1.
Proof.
  intros H1 H2 H3 H4 H5. unfold record_event_to_mint. unfold bmem. rewrite H1, H2, H3. cbn [negb rassert rbind].
  destruct d as [x|x]; cbn [update_balance_upon_deposit supported_token balance_for dep_value] in *.
  - unfold eth_balance_add. cbn [set_events_to_mint native_balance].
    unfold checked_add. destruct (N.leb_spec (nb_balance (native_balance s) + ne_value x) U256_MAX); [|lia].
    cbn. eauto.
  - rewrite H4. cbn [rassert rbind]. unfold erc20_add.
    change (erc20_balances (set_events_to_mint (binsert (dep_source (DepErc20 x)) (DepErc20 x) (events_to_mint s)) s))
      with (erc20_balances s).
    unfold erc20_balance_of in H5. destruct (bget (ee_erc20_contract_address x) (erc20_balances s)) as [p|]; [|cbn; eauto].
    unfold checked_add. destruct (N.leb_spec (p + ee_value x) U256_MAX); [|lia]. cbn. eauto.
Qed.

Lemma acc_step d ds bad s : dep_value d <= U256_MAX ->
  (acc s (d :: ds) bad <-> exists s1, record_event_to_mint d s = Done s1 /\ acc s1 ds bad).
Proof.
  intros Hv. split.
  - intros [A B C D E]. inversion A as [|? ? An Ar]; subst.
    destruct (accept_total d s) as (s1 & H1).
    + apply B. left. reflexivity.
    + apply B. left. reflexivity.
    + apply B. left. reflexivity.
    + apply C. left. reflexivity.
    + specialize (E d (or_introl eq_refl)). rewrite total_cons, part_self in E. lia.
    + exists s1. split; [exact H1|]. apply accept_done in H1 as (_ & _ & _ & E1 & E2 & E3 & E4 & E5).
      assert (Hne : forall x, In x ds -> dep_source x <> dep_source d).
      { intros x Hx E'. apply An. rewrite <- E'. apply in_map. exact Hx. }
      constructor.
      * exact Ar.
      * intros x Hx. rewrite E1, E2, E3, bget_insert_ne by (apply Hne; exact Hx). apply B. right. exact Hx.
      * intros x Hx. specialize (C x (or_intror Hx)). unfold supported_token in *. rewrite E4. exact C.
      * intros src Hs. destruct (D src Hs) as (D1 & D2 & D3). cbn [map In] in D3. rewrite E1, E2.
        rewrite bget_insert_ne by (intros ->; tauto). tauto.
      * intros x Hx. specialize (E x (or_intror Hx)). rewrite total_cons in E. rewrite E5. lia.
  - intros (s1 & H1 & [A B C D E]). apply accept_done in H1 as (F1 & F2 & F3 & E1 & E2 & E3 & E4 & E5).
    assert (Hne : forall x, In x ds -> dep_source x <> dep_source d).
    { intros x Hx E'. destruct (B x Hx) as (B1 & _). rewrite E1, E', bget_insert_eq in B1. discriminate. }
    constructor.
    + cbn [map]. constructor; [|exact A]. intros Hin. apply in_map_iff in Hin as (x & Ex & Hx). exact (Hne x Hx Ex).
    + intros x [<-|Hx]; [exact F1|]. specialize (B x Hx). rewrite E1, E2, E3, bget_insert_ne in B by (apply Hne; exact Hx).
      exact B.
    + intros x [<-|Hx]; [exact F2|]. specialize (C x Hx). unfold supported_token in *. rewrite E4 in C. exact C.
    + intros src Hs. destruct (D src Hs) as (D1 & D2 & D3). rewrite E1, bget_insert in D1. rewrite E2 in D2.
      destruct (keqb_spec src (dep_source d)) as [Hk|Hk]; [discriminate|]. cbn [map In]. intuition.
    + intros x [<-|Hx].
      * rewrite total_cons, part_self. destruct ds as [|y ds']; [cbn; specialize (F3 Hv); lia|].
        destruct (existsb (fun y => match d, y with
                    | DepNative _, DepNative _ => true
                    | DepErc20 a, DepErc20 b => ee_erc20_contract_address a =? ee_erc20_contract_address b
                    | _, _ => false end) (y :: ds')) eqn:Ex.
        -- apply existsb_exists in Ex as (z & Hz & Ez). specialize (E z Hz). rewrite E5 in E.
           destruct d as [a|a], z as [b|b]; try discriminate; cbn [balance_for part_for native_part dep_value] in *.
           ++ lia.
           ++ apply N.eqb_eq in Ez. rewrite <- Ez in E. cbn [erc20_part] in E. rewrite N.eqb_refl in E. lia.
        -- assert (Hz : total (part_for d) (y :: ds') = 0).
           { clear - Ex. revert Ex. generalize (y :: ds'). induction l as [|z l IH]; intros Ex; [reflexivity|].
             cbn [existsb] in Ex. apply orb_false_iff in Ex as (Ex & El). rewrite total_cons, IH by exact El.
             destruct d as [a|a], z as [b|b]; cbn [part_for native_part erc20_part] in *; try discriminate; try reflexivity.
             rewrite N.eqb_sym, Ex. reflexivity. }
           rewrite Hz. specialize (F3 Hv). lia.
      * specialize (E x Hx). rewrite E5 in E. rewrite total_cons. lia.
Qed.

Definition error_events (errs : list DepositError) : list EventType :=
  flat_map (fun e => match e with
                     | InvalidEventSource src x => [EvInvalidDeposit src (error_text x)]
                     | PendingLogEntry => []
                     end) errs.

Lemma events_cons now e es c : process_events now (e :: es) c =
  (c1 <- process_event now e c ;; process_events now es c1).
Proof. reflexivity. Qed.
Lemma event_invalid now src t c c1 : process_event now (EvInvalidDeposit src t) c = Done c1 ->
  bget src (events_to_mint (fst c)) = None /\ bget src (minted_events (fst c)) = None /\
  events_to_mint (fst c1) = events_to_mint (fst c) /\ minted_events (fst c1) = minted_events (fst c) /\
  (exists r, bget src (invalid_events (fst c1)) = Some r) /\
  forall k r, bget k (invalid_events (fst c)) = Some r -> bget k (invalid_events (fst c1)) = Some r.
Proof.
  intros H. apply process_event_inv in H as (s' & H & ->). cbn [apply_state_transition] in H. cbn [fst].
  unfold record_invalid_deposit in H. apply rbind_done in H as (u1 & H1 & H). apply rbind_done in H as (u2 & H2 & H).
  apply rassert_done in H1, H2. apply negb_bmem in H1. apply negb_bmem in H2.
  destruct (bmem src (invalid_events (fst c))) eqn:Em; injection H as <-; cbn [set_invalid_events events_to_mint minted_events invalid_events].
  - apply bmem_true in Em. auto 10.
  - apply bmem_false in Em. repeat (split; [auto; fail|]). split; [eexists; apply bget_insert_eq|].
    intros k r Hk. rewrite bget_insert_ne; [exact Hk|]. intros ->. congruence.
Qed.
Lemma errors_iff now errs : forall c,
  (exists c', process_events now (error_events errs) c = Done c') <->
  forall src, In src (refused_at errs) -> bget src (events_to_mint (fst c)) = None /\ bget src (minted_events (fst c)) = None.
Proof.
  induction errs as [|[|src x] errs IH]; intros c.
  - split; [intros _ src []|]. intros _. eexists. reflexivity.
  - exact (IH c).
  - cbn [error_events refused_at flat_map app]. rewrite events_cons. split.
    + intros (c' & H). apply rbind_done in H as (c1 & H1 & H). apply event_invalid in H1 as (A & B & C & D & _).
      intros k [<-|Hk]; [auto|]. rewrite <- C, <- D. apply (proj1 (IH c1)); [|exact Hk]. eauto.
    + intros H. destruct (H src (or_introl eq_refl)) as (A & B).
      assert (Hc : exists c1, process_event now (EvInvalidDeposit src (error_text x)) c = Done c1).
      { unfold process_event. cbn [apply_state_transition]. unfold record_invalid_deposit, bmem. rewrite A, B.
        cbn [negb rassert rbind is_some]. destruct (is_some (bget src (invalid_events (fst c)))); cbn [rbind]; eauto. }
      destruct Hc as (c1 & Hc). rewrite Hc. cbn [rbind]. apply event_invalid in Hc as (_ & _ & C & D & _).
      apply (proj2 (IH c1)). intros k Hk. rewrite C, D. apply H. right. exact Hk.
Qed.
Lemma errors_done now errs : forall c c', process_events now (error_events errs) c = Done c' ->
  events_to_mint (fst c') = events_to_mint (fst c) /\
  (forall src, In src (refused_at errs) -> exists r, bget src (invalid_events (fst c')) = Some r) /\
  forall k r, bget k (invalid_events (fst c)) = Some r -> bget k (invalid_events (fst c')) = Some r.
Proof.
  induction errs as [|[|src x] errs IH]; intros c c' H.
  - injection H as <-. split; [reflexivity|]. split; [intros src []|auto].
  - exact (IH c c' H).
  - cbn [error_events refused_at flat_map app] in *. rewrite events_cons in H. apply rbind_done in H as (c1 & H1 & H).
    apply event_invalid in H1 as (_ & _ & A & _ & (r & B) & C). destruct (IH _ _ H) as (I1 & I2 & I3).
    split; [congruence|]. split; [|eauto]. intros k [<-|Hk]; [eauto|exact (I2 k Hk)].
Qed.

Lemma event_accept now d c : process_event now (into_deposit d) c =
  (s' <- record_event_to_mint d (fst c) ;; Done (s', record_event now (into_deposit d) (snd c))).
Proof. destruct d; reflexivity. Qed.
Lemma register_split ds errs : register_events ds errs = map into_deposit ds ++ error_events errs.
Proof. reflexivity. Qed.

Lemma batch_iff now errs ds : forall c, (forall d, In d ds -> dep_value d <= U256_MAX) ->
  ((exists c', process_events now (register_events ds errs) c = Done c') <-> acc (fst c) ds (refused_at errs)).
Proof.
  rewrite register_split. induction ds as [|d ds IH]; intros c Hv.
  - cbn [map app]. rewrite errors_iff. split.
    + intros H. constructor; try (intros ? []).
      * constructor.
      * intros src Hs. destruct (H src Hs). cbn. auto.
    + intros [_ _ _ D _] src Hs. destruct (D src Hs) as (D1 & D2 & _). auto.
  - rewrite (acc_step d ds (refused_at errs) (fst c) (Hv d (or_introl eq_refl))).
    cbn [map app]. rewrite events_cons, event_accept. split.
    + intros (c' & H). apply rbind_done in H as (c1 & H1 & H). apply rbind_done in H1 as (s1 & H1 & E). injection E as <-.
      exists s1. split; [exact H1|]. exact (proj1 (IH (s1, record_event now (into_deposit d) (snd c)) (fun x Hx => Hv x (or_intror Hx))) (ex_intro _ c' H)).
    + intros (s1 & H1 & Ha). rewrite H1. cbn [rbind].
      exact (proj2 (IH (s1, record_event now (into_deposit d) (snd c)) (fun x Hx => Hv x (or_intror Hx))) Ha).
Qed.
Lemma batch_done now errs ds : forall c c', process_events now (register_events ds errs) c = Done c' ->
  (forall k e, bget k (events_to_mint (fst c)) = Some e -> bget k (events_to_mint (fst c')) = Some e) /\
  (forall d, In d ds -> bget (dep_source d) (events_to_mint (fst c')) = Some d) /\
  (forall src, In src (refused_at errs) -> exists r, bget src (invalid_events (fst c')) = Some r).
Proof.
  rewrite register_split. induction ds as [|d ds IH]; intros c c' H; cbn [map app] in H.
  - apply errors_done in H as (A & B & _). rewrite A. split; [auto|]. split; [intros d []|exact B].
  - rewrite events_cons, event_accept in H. apply rbind_done in H as (c1 & H1 & H). apply rbind_done in H1 as (s1 & H1 & E).
    injection E as <-. apply accept_done in H1 as ((F1 & _) & _ & _ & E1 & _). destruct (IH _ _ H) as (I1 & I2 & I3).
    cbn [fst] in I1. rewrite E1 in I1. split; [|split; [|exact I3]].
    + intros k e Hk. apply I1. rewrite bget_insert_ne; [exact Hk|]. intros ->. congruence.
    + intros x [<-|Hx]; [|exact (I2 x Hx)]. apply I1. apply bget_insert_eq.
Qed.

(** ** Delivering an answer *)

Lemma next_total last target j c : job_ok last target j -> exists nx, exists c', scrape_next j (sj_subranges j) c = Done (c', nx).
Proof.
  intros [H1 H2 H3 (e & Ht & He & Hs & Hr & Hx)]. unfold scrape_next. destruct (sj_subranges j) as [|r rest]; [|eauto].
  unfold scrape_next_chunk. destruct (sj_chunks j) as [[a b] size ex]. cbn [ck_size ck_range ck_exhausted fst snd] in *.
  subst size b. destruct Hx as [(-> & _)|(-> & -> & Hlt)]; [do 2 eexists; reflexivity|].
  destruct (chunks_next_spec (e + 1) target MAX_BLOCK_SPREAD) as (e1 & _ & _ & _ & E);
    [clear - Hlt; lia|apply N.lt_le_incl; exact H3|reflexivity|].
  rewrite E. cbn. eauto.
Qed.
Lemma next_scraped j q c c' nx : scrape_next j q c = Done (c', nx) ->
  last_scraped_block_number (fst c') = last_scraped_block_number (fst c) /\
  events_to_mint (fst c') = events_to_mint (fst c) /\ invalid_events (fst c') = invalid_events (fst c).
Proof. intros H. apply scrape_next_inv in H as [[-> _]|[-> _]]; auto. Qed.

Lemma parsed_value logs ds errs : (forall x, In x logs -> wire x) -> parse_all_logs logs = Done (ds, errs) ->
  forall d, In d ds -> dep_value d <= U256_MAX.
Proof.
  intros Hw Hp d Hd. apply parse_all_spec in Hp as (A & _). apply (proj1 (A d)) in Hd as (e & He & Hx).
  apply (proj1 (parse_log_ok e d (Hw e He))) in Hx as (x & b & tx & i & _ & _ & En & ->).
  destruct En as (_ & _ & _ & (tk & am & pr & _ & _ & (Hl & Hb & Hv) & _) & _).
  assert (Hlt : dl_amount x <= U256_MAX).
  { apply fits256. rewrite <- Hv. pose proof (of_be_lt am Hb) as Ho. rewrite Hl in Ho.
    replace (2 ^ 256) with (256 ^ N.of_nat 32) by (vm_compute; reflexivity). exact Ho. }
  unfold deposit_of. destruct (dl_token x =? 0); exact Hlt.
Qed.

Section Reach.
Variable self : Principal.
Variable keccak : list N -> Hash.

Lemma found_step (env : Sys -> Label -> Prop) s id j logs ds errs now : (forall s l, env s l -> real_blocks s l) ->
  reach self keccak env s ->
  bget id (sys_tasks s) = Some {| fl_task := TScrapeLogs j; fl_reply := Some (ReLogs (LogsOk logs)) |} ->
  sys_clock s <= now -> (forall x, In x logs -> wire x) -> parse_all_logs logs = Done (ds, errs) ->
  let s' := step self keccak s (LDeliver id false now) in
  (recordable (sys_state s) ds (refused_at errs) ->
     last_scraped_block_number (sys_state s') = snd (sj_current j) /\
     (forall d, In d ds -> waiting (sys_state s') (dep_source d) d) /\
     (forall src, In src (refused_at errs) -> exists r, rejected (sys_state s') src r)) /\
  (~ recordable (sys_state s) ds (refused_at errs) ->
     sys_log s' = sys_log s /\ last_scraped_block_number (sys_state s') = last_scraped_block_number (sys_state s) /\
     dv (sys_state s') = dv (sys_state s) /\
     In (id, OutTrap) (sys_outcomes s') /\ bget id (sys_tasks s') = None).
Proof.
  intros He Hr Hb Hc Hw Hp. cbv zeta.
  pose proof (tokens_reach self keccak env s Hr) as Ht. rewrite (recordable_acc _ ds (refused_at errs) Ht).
  destruct (so_job _ (scr_reach self keccak env s He Hr) _ _ _ Hb) as (target & _ & J).
  pose proof (batch_iff now errs ds (sys_core s) (parsed_value logs ds errs Hw Hp)) as Hi.
  change (fst (sys_core s)) with (sys_state s) in Hi.
  assert (Hres : resume keccak now (TScrapeLogs j) (ReLogs (LogsOk logs)) (sys_core s) =
    (c' <- process_events now (register_events ds errs) (sys_core s) ;;
     scrape_next j (sj_subranges j) (on_state (set_last_scraped_block_number (snd (sj_current j))) c'))).
  { cbn [resume]. unfold scrape_logs_reply. rewrite Hp. destruct (sj_current j). reflexivity. }
  split.
  - intros Ha. apply Hi in Ha as (c1 & H1). rewrite H1 in Hres. cbn [rbind] in Hres.
    set (c2 := on_state (set_last_scraped_block_number (snd (sj_current j))) c1) in *.
    destruct (next_total _ _ j c2 J) as (nx & c' & H2). rewrite H2 in Hres.
    rewrite (deliver_any self keccak s id _ _ now c' nx Hc Hb Hres).
    apply next_scraped in H2 as (E1 & E2 & E3). apply batch_done in H1 as (_ & B & C).
    assert (Es : sys_state (install id nx (with_queries (task_query (TScrapeLogs j) (ReLogs (LogsOk logs))) (with_core c' now s))) = fst c').
    { unfold sys_state. rewrite install_core. reflexivity. }
    rewrite Es. unfold waiting, rejected. rewrite E1, E2, E3. split; [reflexivity|]. split; [exact B|exact C].
  - intros Hn. cbn [step]. destruct (N.ltb_spec now (sys_clock s)); [lia|]. rewrite Hb. unfold deliver.
    assert (Hpan : exists m, resume keccak now (TScrapeLogs j) (ReLogs (LogsOk logs)) (sys_core s) = Panic m).
    { rewrite Hres. destruct (process_events now (register_events ds errs) (sys_core s)) as [c1|m] eqn:E1; [|cbn; eauto].
      exfalso. apply Hn, Hi. eauto. }
    destruct Hpan as (m & ->). cbn [cleanup task_quarantine process_events rfold rbind].
    unfold sys_log, sys_state. cbn [install with_outcome with_tasks with_core sys_core sys_outcomes sys_tasks on_state fst snd].
    split; [reflexivity|]. split; [reflexivity|]. split; [reflexivity|]. split; [apply in_or_app; right; left; reflexivity|].
    apply bget_remove_eq.
Qed.

Lemma dv_same s s' : dv s' = dv s ->
  (forall src e, waiting s' src e <-> waiting s src e) /\ (forall src m, minted s' src m <-> minted s src m) /\
  (forall src r, rejected s' src r <-> rejected s src r).
Proof.
  intros E. pose proof (f_equal dv_wait E) as E1. pose proof (f_equal dv_minted E) as E2. pose proof (f_equal dv_invalid E) as E3.
  cbn in E1, E2, E3. unfold waiting, minted, rejected. rewrite E1, E2, E3. repeat split; auto.
Qed.
Lemma found_all_or_nothing s id j logs ds errs now : reach self keccak real_blocks s ->
  bget id (sys_tasks s) = Some {| fl_task := TScrapeLogs j; fl_reply := Some (ReLogs (LogsOk logs)) |} ->
  sys_clock s <= now -> (forall x, In x logs -> wire x) -> parse_all_logs logs = Done (ds, errs) ->
  let s' := step self keccak s (LDeliver id false now) in
  (recordable (sys_state s) ds (refused_at errs) ->
     last_scraped_block_number (sys_state s') = snd (sj_current j) /\
     (forall d, In d ds -> waiting (sys_state s') (dep_source d) d) /\
     (forall src, In src (refused_at errs) -> exists r, rejected (sys_state s') src r)) /\
  (~ recordable (sys_state s) ds (refused_at errs) ->
     sys_log s' = sys_log s /\ last_scraped_block_number (sys_state s') = last_scraped_block_number (sys_state s) /\
     (forall src e, waiting (sys_state s') src e <-> waiting (sys_state s) src e) /\
     (forall src m, minted (sys_state s') src m <-> minted (sys_state s) src m) /\
     (forall src r, rejected (sys_state s') src r <-> rejected (sys_state s) src r) /\
     In (id, OutTrap) (sys_outcomes s') /\ bget id (sys_tasks s') = None).
Proof.
  intros Hr Hb Hc Hw Hp. cbv zeta.
  destruct (found_step real_blocks s id j logs ds errs now (fun _ _ x => x) Hr Hb Hc Hw Hp) as (H1 & H2).
  split; [exact H1|]. intros Hn. destruct (H2 Hn) as (A & B & C & D). apply dv_same in C as (C1 & C2 & C3). tauto.
Qed.
Lemma found_spoilt s id j logs ds errs now : reach self keccak real_blocks s ->
  bget id (sys_tasks s) = Some {| fl_task := TScrapeLogs j; fl_reply := Some (ReLogs (LogsOk logs)) |} ->
  sys_clock s <= now -> (forall x, In x logs -> wire x) -> parse_all_logs logs = Done (ds, errs) ->
  (exists d, In d ds /\ (known (sys_state s) (dep_source d) \/
     exists x, d = DepErc20 x /\
       forall ledger symbol, ~ listed (sys_state s) ledger (ee_erc20_contract_address x) symbol)) ->
  let s' := step self keccak s (LDeliver id false now) in
  last_scraped_block_number (sys_state s') = last_scraped_block_number (sys_state s) /\
  forall d, In d ds -> ~ known (sys_state s) (dep_source d) -> ~ known (sys_state s') (dep_source d).
Proof.
  intros Hr Hb Hc Hw Hp (d & Hd & Hbad). cbv zeta.
  destruct (found_step real_blocks s id j logs ds errs now (fun _ _ x => x) Hr Hb Hc Hw Hp) as (_ & H2).
  assert (Hn : ~ recordable (sys_state s) ds (refused_at errs)).
  { intros R. destruct Hbad as [K|(x & -> & K)].
    - exact (rc_new _ _ _ R _ Hd K).
    - destruct (rc_token _ _ _ R _ Hd) as (le & sy & L). exact (K _ _ L). }
  destruct (H2 Hn) as (_ & B & C & _). split; [exact B|]. intros d' _. rewrite !unknown_iff.
  generalize dependent (sys_state (step self keccak s (LDeliver id false now))). intros st' _ _ C.
  pose proof (f_equal dv_wait C) as E1. pose proof (f_equal dv_minted C) as E2. pose proof (f_equal dv_invalid C) as E3.
  cbn in E1, E2, E3. rewrite E1, E2, E3. auto.
Qed.

(** ** A truthful provider *)

Definition told (e : EventType) : option EventSource :=
  match e with
  | EvAcceptedDeposit x => Some (dep_source (DepNative x))
  | EvAcceptedErc20Deposit x => Some (dep_source (DepErc20 x))
  | EvInvalidDeposit src _ | EvQuarantinedDeposit src => Some src
  | _ => None
  end.
Definition kn (v : DV) (src : EventSource) : Prop :=
  ~ (bget src (dv_wait v) = None /\ bget src (dv_minted v) = None /\ bget src (dv_invalid v) = None).
Lemma known_dv st src : known st src <-> kn (dv st) src.
Proof. exact (known_iff st src). Qed.

Lemma kn_event v e v' src : dep_event v e v' -> kn v' src -> kn v src \/ told e = Some src.
Proof.
  intros H. destruct H as [d Ha Hb Hc Hs|k r Ha Hb|k|e k b sy c d Hm Ha Hb Hc|t m Ht|a|e Hx]; unfold kn; cbn.
  - intros Hk. destruct (keqb_spec (dep_source d) src) as [E|E].
    + right. destruct d; cbn in *; congruence.
    + left. rewrite bget_insert_ne in Hk by congruence. exact Hk.
  - intros Hk. destruct (keqb_spec k src) as [E|E]; [right; congruence|]. left. intros (A & B & C). apply Hk.
    rewrite bget_remove_ne by congruence. split; [exact A|]. split; [exact B|].
    destruct (bmem k (dv_invalid v)); [exact C|]. rewrite bget_insert_ne by congruence. exact C.
  - intros Hk. destruct (keqb_spec k src) as [E|E]; [right; congruence|]. left. intros (A & B & C). apply Hk.
    rewrite bget_remove_ne by congruence. split; [exact A|]. split; [exact B|].
    destruct (bmem k (dv_invalid v)); [exact C|]. rewrite bget_insert_ne by congruence. exact C.
  - intros Hk. left. intros (A & B & C). destruct (keqb_spec k src) as [E|E]; [congruence|]. apply Hk.
    rewrite bget_remove_ne, bget_insert_ne by congruence. auto.
  - auto.
  - auto.
  - auto.
Qed.
Lemma kn_micros (J : EventType -> Prop) now c c' src : wmicros J now c c' -> kn (dv (fst c')) src ->
  kn (dv (fst c)) src \/ exists e, J e /\ told e = Some src.
Proof.
  intros H. induction H as [c|c1 c2 c3 H1 H2 IH]; [auto|]. intros Hk. apply IH in Hk as [Hk|Hk]; [|auto].
  destruct H1 as [s s' log Hv|s s' log e HJ Ha|s log r w' Hq]; cbn [fst] in *.
  - rewrite (vstep_dv _ _ Hv) in Hk. auto.
  - apply apply_dv in Ha. destruct (kn_event _ _ _ _ Ha Hk) as [K|K]; eauto.
  - auto.
Qed.

Lemma parsed_place x r : parse_log x = Done r ->
  match r with
  | ROk d => place x = Some (dep_source d)
  | RErr (InvalidEventSource src _) => place x = Some src
  | RErr PendingLogEntry => True
  end.
Proof.
  unfold parse_log. destruct (ensure_not_pending x) as [[b src]|y] eqn:Em.
  - assert (Hp : place x = Some src).
    { unfold ensure_not_pending in Em. unfold place.
      destruct (le_block_hash x), (le_block_number x), (le_transaction_hash x), (le_transaction_index x), (le_log_index x);
        try discriminate. injection Em as _ <-. reflexivity. }
    intros H. unfold perr in H.
    repeat match type of H with
    | (if ?b then _ else _) = _ => destruct b
    | match ?o with _ => _ end = _ => destruct o
    | rbind _ _ = _ => apply rbind_done in H as (? & _ & H)
    end; try (injection H as <-; exact Hp); try discriminate.
    injection H as <-. destruct (is_native_token _); cbn; rewrite Hp, <- surjective_pairing; reflexivity.
  - unfold perr. intros H. injection H as <-. unfold ensure_not_pending in Em.
    destruct (le_block_hash x), (le_block_number x), (le_transaction_hash x), (le_transaction_index x), (le_log_index x);
      try discriminate; injection Em as <-; exact Logic.I.
Qed.

Lemma parsed_places l : forall ds errs, parse_all_logs l = Done (ds, errs) ->
  (forall src, In src (map dep_source ds ++ refused_at errs) -> In src (places l)) /\
  (NoDup (places l) -> NoDup (map dep_source ds ++ refused_at errs)).
Proof.
  induction l as [|x l IH]; intros ds errs H; cbn [parse_all_logs] in H.
  - injection H as <- <-. split; [intros src []|]. intros _. constructor.
  - apply rbind_done in H as (r & Hr & H). apply rbind_done in H as ([ok es] & Hl & H).
    destruct (IH _ _ Hl) as (I1 & I2). apply parsed_place in Hr. unfold places. cbn [flat_map]. fold (places l).
    destruct r as [d|[|src t]]; injection H as <- <-.
    + rewrite Hr. cbn [map app]. split.
      * intros k [<-|Hk]; [left; reflexivity|right; exact (I1 k Hk)].
      * intros Hn. inversion Hn as [|? ? N1 N2]; subst. constructor; [|exact (I2 N2)]. intros Hk. exact (N1 (I1 _ Hk)).
    + cbn [refused_at flat_map app]. fold (refused_at es). split.
      * intros k Hk. apply in_or_app. right. exact (I1 k Hk).
      * intros Hn. apply I2. destruct (place x); [inversion Hn; subst; assumption|exact Hn].
    + rewrite Hr. cbn [refused_at flat_map app]. fold (refused_at es). split.
      * intros k Hk. apply in_app_or in Hk as [Hk|[<-|Hk]]; [right|left; reflexivity|right]; apply I1; apply in_or_app; auto.
      * intros Hn. inversion Hn as [|? ? N1 N2]; subst. apply NoDup_Add with (a := src) (l := map dep_source ok ++ refused_at es).
        -- apply Add_app.
        -- split; [exact (I2 N2)|]. intros Hk. exact (N1 (I1 _ Hk)).
Qed.

Lemma told_places logs ds errs e src : parse_all_logs logs = Done (ds, errs) -> In e (register_events ds errs) ->
  told e = Some src -> In src (places logs).
Proof.
  intros Hp He Ht. destruct (parsed_places _ _ _ Hp) as (A & _). apply A. rewrite register_split in He.
  apply in_app_or in He as [He|He]; apply in_or_app.
  - left. apply in_map_iff in He as (d & <- & Hd). apply in_map_iff. exists d. split; [|exact Hd].
    destruct d; cbn in *; congruence.
  - right. apply in_flat_map in He as (x & Hx & He). destruct x as [|k t]; [destruct He|]. destruct He as [<-|[]].
    cbn in Ht. injection Ht as <-. apply in_flat_map. eexists. split; [exact Hx|]. left. reflexivity.
Qed.

Variable block_of : EventSource -> N.

Record behind (s : Sys) : Prop := {
  bh_known : forall src, known (sys_state s) src -> block_of src <= last_scraped_block_number (sys_state s);
  bh_reply : forall id j logs,
    bget id (sys_tasks s) = Some {| fl_task := TScrapeLogs j; fl_reply := Some (ReLogs (LogsOk logs)) |} ->
    (forall x, In x logs -> wire x) /\ truthful block_of (sj_current j) logs
}.

Lemma behind_reply s l s' : honest_chain block_of s l -> Trans self keccak s l s' -> behind s -> forall id j logs,
  bget id (sys_tasks s') = Some {| fl_task := TScrapeLogs j; fl_reply := Some (ReLogs (LogsOk logs)) |} ->
  (forall x, In x logs -> wire x) /\ truthful block_of (sj_current j) logs.
Proof.
  intros [_ He] H [_ Hb] i j logs Hi.
  destruct H as [|k now c nx Hc H|u now c nx Hc H|k now Hc|u now Hc|id t c b Hget Hcall Hallow|id t r Hget Hfit Hno|id now t r c nx Hc Hget H|id trap now t r c Hc Hget Hp H|a now c Hc Ht H].
  all: cbn [bump_next sys_tasks] in Hi; rewrite ?install_tasks in Hi.
  - exact (Hb _ _ _ Hi).
  - destruct (keqb i (sys_next s)); [destruct nx; discriminate|]. exact (Hb _ _ _ Hi).
  - destruct (keqb i (sys_next s)); [destruct nx; discriminate|]. exact (Hb _ _ _ Hi).
  - exact (Hb _ _ _ Hi).
  - exact (Hb _ _ _ Hi).
  - unfold answered in Hi. cbn [with_op with_tasks sys_tasks] in Hi. rewrite bget_insert in Hi.
    destruct (keqb_spec i id) as [->|Hk]; [discriminate|exact (Hb _ _ _ Hi)].
  - unfold answered in Hi. cbn [with_op with_tasks sys_tasks] in Hi. rewrite bget_insert in Hi.
    destruct (keqb_spec i id) as [Hk|Hk]; [|exact (Hb _ _ _ Hi)]. injection Hi as -> ->.
    cbn in He. destruct He as (He1 & He2). split; [exact He1|]. exact (He2 _ _ Hget).
  - destruct (keqb i id); [destruct nx; discriminate|]. exact (Hb _ _ _ Hi).
  - destruct (keqb i id); [discriminate|]. exact (Hb _ _ _ Hi).
  - cbn in Hi. exact (Hb _ _ _ Hi).
Qed.

Lemma behind_known s l s' : scr_ok s -> dep_ok (sys_core s) -> MintFacts.mints_ok s -> honest_chain block_of s l ->
  Trans self keccak s l s' -> behind s -> forall src, known (sys_state s') src ->
  block_of src <= last_scraped_block_number (sys_state s').
Proof.
  intros Hs Hd Hm [[_ Hpk] He] H [Hb Hr] src Hk. pose proof (position_step self keccak _ _ _ Hs Hpk H) as Hpos.
  assert (Hold : known (sys_state s) src -> block_of src <= last_scraped_block_number (sys_state s')).
  { intros K. specialize (Hb src K). lia. }
  pose proof (trans_wmicros self keccak _ _ _ H) as Hw.
  rewrite known_dv in Hk. rewrite known_dv in Hold.
  destruct H as [|k now c nx Hc H|u now c nx Hc H|k now Hc|u now Hc|id t c b Hget Hcall Hallow|id t r Hget Hfit Hno|id now t r c nx Hc Hget H|id trap now t r c Hc Hget Hp H|a now c Hc Ht H].
  all: try (apply Hold; exact Hk).
  - apply Hold. destruct Hw as [(n & Hw)|(a & n & E & _)]; [|discriminate].
    destruct (kn_micros _ _ _ _ _ Hw Hk) as [K|(e & [] & _)]. exact K.
  - apply Hold. destruct Hw as [(n & Hw)|(a & n & E & _)]; [|discriminate].
    destruct (kn_micros _ _ _ _ _ Hw Hk) as [K|(e & (st & Ee) & Et)]; [exact K|].
    destruct u; cbn in Ee; try destruct Ee. destruct H1 as (tk & _ & ->). discriminate.
  - unfold sys_state in Hk, Hpos, Hold |- *. rewrite install_core in *. cbn [with_core with_queries sys_core] in *.
    pose proof (resume_wmicros keccak _ _ _ _ _ _ H) as Hm'.
    destruct (kn_micros _ _ _ _ _ Hm' Hk) as [K|(e & Ee & Et)]; [exact (Hold K)|].
    assert (Hemit : exists j logs ds es, t = TScrapeLogs j /\ r = ReLogs (LogsOk logs) /\
        parse_all_logs logs = Done (ds, es) /\ In e (register_events ds es)).
    { destruct Ee as [(st & Ee)|(g & i & x & _ & [-> | ->])]; try discriminate. apply emits_inv in Ee.
      destruct e; try discriminate; try exact Ee. destruct Ee. }
    destruct Hemit as (j & logs & ds & es & -> & -> & Hpa & Hin).
    apply (resume_view keccak) in H. cbn [resumed] in H. apply (f_equal v_scraped) in H. cbn in H. rewrite H.
    destruct (Hr _ _ _ Hget) as (_ & _ & Htr). apply Htr. exact (told_places _ _ _ _ _ Hpa Hin Et).
  - apply Hold. unfold sys_state in Hk. rewrite install_core in Hk. cbn [with_core sys_core] in Hk.
    destruct (cleanup_micros now t (sys_core s)) as (c' & Hc' & Hmm). assert (c' = c) by congruence. subst c'.
    apply (micros_weak _ (fun e => In e (task_quarantine t))) in Hmm; [|intros st e Ee; exact Ee].
    destruct (kn_micros _ _ _ _ _ Hmm Hk) as [K|(e & Ee & Et)]; [exact K|].
    assert (Hj : exists j, Tasks.mint_job t j /\ src = dep_source (mj_event j)).
    { destruct t; cbn in Ee; try destruct Ee as [<-|[]]; try destruct Ee; cbn in Et; try discriminate; injection Et as <-;
        eexists; split; try reflexivity; [left|right]; eauto. }
    destruct Hj as (j & Hj & ->). pose proof (MintFacts.mo_job _ Hm _ _ _ Hget Hj) as Jo.
    pose proof (MintFacts.jo_wait _ _ Jo (mj_event j) (or_introl eq_refl)) as W. intros (K & _). cbn [fl_task] in *. congruence.
  - apply Hold. unfold sys_state in Hk. cbn [with_core sys_core] in Hk. destruct (upgrade_dv _ _ _ _ Hd H) as (_ & H2).
    destruct a as [a|].
    + destruct (kn_event _ _ _ _ H2 Hk) as [K|K]; [exact K|discriminate].
    + rewrite H2 in Hk. exact Hk.
Qed.

Lemma behind_reach s : reach self keccak (honest_chain block_of) s -> behind s.
Proof.
  apply (reach_inv2 self keccak (honest_chain block_of)
    (fun s => scr_ok s /\ dep_ok (sys_core s) /\ MintFacts.mints_ok s) behind).
  - intros x Hr. split; [|split].
    + apply (scr_reach self keccak (honest_chain block_of)); [|exact Hr]. intros y l [[H _] _]. exact H.
    + exact (dep_reach self keccak _ x Hr).
    + exact (MintFacts.mints_reach self keccak _ x Hr).
  - intros now a s0 H. apply sys_init_inv in H as (st & Hi & Hcore & Ht & _). constructor.
    + intros src Hk. exfalso. apply known_iff in Hk. apply Hk. unfold sys_state. rewrite Hcore. cbn [fst].
      apply state_of_init_spec in Hi. destruct Hi as (_ & h & _ & -> & _). repeat split; reflexivity.
    + intros id j logs. rewrite Ht. discriminate.
  - intros x l x' (K1 & K2 & K3) _ Hb He H. constructor.
    + exact (behind_known _ _ _ K1 K2 K3 He H Hb).
    + exact (behind_reply _ _ _ He H Hb).
Qed.

Lemma truthful_recordable s id j logs ds errs : reach self keccak (honest_chain block_of) s ->
  bget id (sys_tasks s) = Some {| fl_task := TScrapeLogs j; fl_reply := Some (ReLogs (LogsOk logs)) |} ->
  parse_all_logs logs = Done (ds, errs) ->
  (forall x, In (DepErc20 x) ds -> exists ledger symbol, listed (sys_state s) ledger (ee_erc20_contract_address x) symbol) ->
  nb_balance (native_balance (sys_state s)) + total native_part ds < 2 ^ 256 ->
  (forall c, erc20_balance_of c (erc20_balances (sys_state s)) + total (erc20_part c) ds < 2 ^ 256) ->
  recordable (sys_state s) ds (refused_at errs).
Proof.
  intros Hr Hb Hp Ht Hn He. pose proof (behind_reach s Hr) as [B1 B2]. destruct (B2 _ _ _ Hb) as (_ & Hnd & Hin).
  destruct (parsed_places _ _ _ Hp) as (P1 & P2). specialize (P2 Hnd).
  assert (Hs : scr_ok s).
  { apply (scr_reach self keccak (honest_chain block_of)); [|exact Hr]. intros y l [[H _] _]. exact H. }
  destruct (so_job _ Hs _ _ _ Hb) as (target & _ & J). pose proof (jo_start _ _ _ J) as Js.
  assert (Hnew : forall src, In src (map dep_source ds ++ refused_at errs) -> ~ known (sys_state s) src).
  { intros src Hsrc Hk. specialize (B1 _ Hk). specialize (Hin _ (P1 _ Hsrc)). lia. }
  constructor; auto.
  - exact (nodup_app_l _ _ P2).
  - intros d Hd. apply Hnew. apply in_or_app. left. apply in_map. exact Hd.
  - intros src Hsrc. pose proof (Hnew src (in_or_app _ _ _ (or_intror Hsrc))) as Hu. repeat split.
    + intros e He'. apply Hu. left. eauto.
    + intros m Hm. apply Hu. right. left. eauto.
    + intros Hd. clear - P2 Hd Hsrc. induction (map dep_source ds) as [|y l IH]; [destruct Hd|].
      cbn in P2. inversion P2; subst. destruct Hd as [->|Hd]; [apply H1; apply in_or_app; auto|auto].
Qed.
Lemma found_recorded s id j logs ds errs now : reach self keccak (honest_chain block_of) s ->
  bget id (sys_tasks s) = Some {| fl_task := TScrapeLogs j; fl_reply := Some (ReLogs (LogsOk logs)) |} ->
  sys_clock s <= now -> parse_all_logs logs = Done (ds, errs) ->
  (forall x, In (DepErc20 x) ds -> exists ledger symbol, listed (sys_state s) ledger (ee_erc20_contract_address x) symbol) ->
  nb_balance (native_balance (sys_state s)) + total native_part ds < 2 ^ 256 ->
  (forall c, erc20_balance_of c (erc20_balances (sys_state s)) + total (erc20_part c) ds < 2 ^ 256) ->
  let s' := step self keccak s (LDeliver id false now) in
  last_scraped_block_number (sys_state s') = snd (sj_current j) /\
  (forall d, In d ds -> ~ known (sys_state s) (dep_source d) /\ waiting (sys_state s') (dep_source d) d) /\
  (forall src, In src (refused_at errs) -> exists r, rejected (sys_state s') src r).
Proof.
  intros Hr Hb Hc Hp Ht Hn He. cbv zeta.
  pose proof (truthful_recordable s id j logs ds errs Hr Hb Hp Ht Hn He) as R.
  pose proof (behind_reach s Hr) as [_ B2]. destruct (B2 _ _ _ Hb) as (Hw & _).
  destruct (found_step (honest_chain block_of) s id j logs ds errs now) as (H1 & _); auto.
  { intros y l [[H _] _]. exact H. }
  destruct (H1 R) as (A & B & C). split; [exact A|]. split; [|exact C]. intros d Hd. split; [exact (rc_new _ _ _ R _ Hd)|auto].
Qed.
End Reach.

(** ** Requests for an early look *)

Section Requests.
Variable self : Principal.
Variable keccak : list N -> Hash.

Record timed (s : Sys) : Prop := {
  tm_number : last_observed_block_number (sys_state s) <> None -> last_observed_block_time (sys_state s) <> None;
  tm_task : forall id t r, bget id (sys_tasks s) = Some {| fl_task := t; fl_reply := r |} -> scraping t = true ->
    last_observed_block_time (sys_state s) <> None
}.

Lemma time_kept s l s' : Trans self keccak s l s' -> last_observed_block_time (sys_state s) <> None ->
  last_observed_block_time (sys_state s') <> None \/ exists a now, l = LUpgrade a now /\ sys_tasks s = [] /\
    sys_tasks s' = [] /\ last_observed_block_number (sys_state s') = None.
Proof.
  intros H Ht. pose proof (trans_view keccak self _ _ _ H) as V. destruct V as [l s' E|now s' _ _ E|id now t r s' _ _ _ E|a now s' Hn (E1 & E2 & _)].
  - left. apply (f_equal v_time) in E. cbn in E. congruence.
  - left. apply (f_equal v_time) in E. cbn in E. congruence.
  - left. assert (Et : v_time (vw (sys_state s')) = v_time (vw (sys_state s))); [|cbn in Et; congruence].
    destruct t; cbn [resumed] in E; try (rewrite E; reflexivity); destruct r; try (rewrite E; reflexivity); destruct r;
      try (rewrite E; reflexivity).
    all: repeat match type of E with
         | context [if ?b then _ else _] => destruct b
         | match ?o with _ => _ end => destruct o
         end; rewrite E; reflexivity.
  - right. exists a, now. split; [reflexivity|]. split; [exact Hn|]. split; [|exact E1].
    inversion H; subst; cbn; assumption.
Qed.

Lemma number_kept s l s' : Trans self keccak s l s' ->
  last_observed_block_number (sys_state s') = last_observed_block_number (sys_state s) \/
  (exists id now k n, l = LDeliver id false now /\
     bget id (sys_tasks s) = Some {| fl_task := TScrapeBlock k; fl_reply := Some (ReBlock (Some n)) |} /\
     last_observed_block_number (sys_state s') = observed_block (evm_network (sys_state s)) n) \/
  (exists a now, l = LUpgrade a now /\ sys_tasks s = [] /\ last_observed_block_number (sys_state s') = None).
Proof.
  intros H. pose proof (trans_view keccak self _ _ _ H) as V.
  destruct V as [l s' E|now s' _ _ E|id now t r s' _ _ Hg E|a now s' Hn (E1 & E2 & _)].
  - left. apply (f_equal v_number) in E. exact E.
  - left. apply (f_equal v_number) in E. exact E.
  - destruct t; cbn [resumed] in E; try (left; apply (f_equal v_number) in E; exact E); destruct r;
      try (left; apply (f_equal v_number) in E; exact E); destruct r; try (left; apply (f_equal v_number) in E; exact E).
    all: try (right; left; exists id, now; do 2 eexists; split; [reflexivity|]; split; [exact Hg|];
      apply (f_equal v_number) in E; exact E).
    all: left; repeat match type of E with
         | context [if ?b then _ else _] => destruct b
         | match ?o with _ => _ end => destruct o
         end; apply (f_equal v_number) in E; exact E.
  - right. right. eauto.
Qed.

Lemma timed_trans s l s' : timed s -> Trans self keccak s l s' -> timed s'.
Proof.
  intros [Hn Ht] H. constructor.
  - intros Hs. destruct (number_kept _ _ _ H) as [E|[(id & now & k & n & _ & Hg & E)|(a & now & _ & _ & E)]]; [| |congruence].
    + destruct (time_kept _ _ _ H ltac:(apply Hn; congruence)) as [K|(a & now & _ & _ & _ & K)]; [exact K|congruence].
    + destruct (time_kept _ _ _ H ltac:(exact (Ht _ _ _ Hg eq_refl))) as [K|(a & now' & -> & _ & _ & K)]; [exact K|congruence].
  - intros i t r Hi Hsc.
    assert (Hold : last_observed_block_time (sys_state s) <> None -> last_observed_block_time (sys_state s') <> None).
    { intros Ho. destruct (time_kept _ _ _ H Ho) as [K|(a & now & _ & _ & K & _)]; [exact K|]. rewrite K in Hi. discriminate. }
    destruct H as [|k now c nx Hc H|u now c nx Hc H|k now Hc|u now Hc|id t' c b Hget Hcall Hallow|id t' r' Hget Hfit Hno|id now t' r' c nx Hc Hget H|id trap now t' r' c Hc Hget Hp H|a now c Hc Htk H].
    all: cbn [bump_next sys_tasks] in Hi; rewrite ?install_tasks in Hi.
    + exact (Ht _ _ _ Hi Hsc).
    + destruct (keqb i (sys_next s)); [|exact (Hold (Ht _ _ _ Hi Hsc))]. destruct nx as [x|]; [|discriminate].
      cbn in Hi. injection Hi as -> <-. pose proof (timer_view now k _ _ _ H) as Hv.
      unfold sys_state. cbn [bump_next sys_core install with_tasks with_core]. destruct t; try discriminate.
      * apply (f_equal v_time) in Hv. cbn in Hv. rewrite Hv. discriminate.
      * destruct (timer_no_logs now k _ _ _ H).
    + destruct (keqb i (sys_next s)); [|exact (Hold (Ht _ _ _ Hi Hsc))]. destruct nx as [x|]; [|discriminate].
      cbn in Hi. injection Hi as -> <-. rewrite (call_no_logs keccak _ _ _ _ _ H) in Hsc. discriminate.
    + exact (Hold (Ht _ _ _ Hi Hsc)).
    + exact (Hold (Ht _ _ _ Hi Hsc)).
    + unfold answered in Hi. cbn [with_op with_tasks sys_tasks] in Hi. rewrite bget_insert in Hi.
      destruct (keqb_spec i id) as [Hk|Hk]; [|exact (Hold (Ht _ _ _ Hi Hsc))]. injection Hi as -> <-.
      exact (Hold (Ht _ _ _ Hget Hsc)).
    + unfold answered in Hi. cbn [with_op with_tasks sys_tasks] in Hi. rewrite bget_insert in Hi.
      destruct (keqb_spec i id) as [Hk|Hk]; [|exact (Hold (Ht _ _ _ Hi Hsc))]. injection Hi as -> <-.
      exact (Hold (Ht _ _ _ Hget Hsc)).
    + destruct (keqb i id); [|exact (Hold (Ht _ _ _ Hi Hsc))]. destruct nx as [x|]; [|discriminate].
      cbn in Hi. injection Hi as -> <-. apply Hold. exact (Ht _ _ _ Hget (resume_logs self keccak _ _ _ _ _ _ H Hsc)).
    + destruct (keqb i id); [discriminate|exact (Hold (Ht _ _ _ Hi Hsc))].
    + cbn in Hi. rewrite Htk in Hi. discriminate.
Qed.
Lemma timed_reach (env : Sys -> Label -> Prop) s : reach self keccak env s -> timed s.
Proof.
  apply (reach_inv self keccak env timed).
  - intros now a s0 H. apply sys_init_inv in H as (st & Hi & Hcore & Ht & _). constructor.
    + intros Hk. exfalso. apply Hk. unfold sys_state. rewrite Hcore. cbn [fst].
      apply state_of_init_spec in Hi. destruct Hi as (_ & h & _ & -> & _). reflexivity.
    + intros id t r. rewrite Ht. discriminate.
  - intros x l x' Hx _ H. exact (timed_trans _ _ _ Hx H).
Qed.

(** The answer to a request, in full *)
Lemma request_cases (env : Sys -> Label -> Prop) s b now : reach self keccak env s -> sys_clock s <= now ->
  match last_observed_block_number (sys_state s), last_observed_block_time (sys_state s) with
  | Some n, Some t => request_answer self keccak s b now (OutScraping
      (if U256_MAX <? b then RErr InvalidBlockNumber
       else if b <=? n then RErr BlockAlreadyObserved
       else if now <? minute_after t then RErr CalledTooManyTimes else ROk tt))
  | Some _, None => False
  | None, _ => request_answer self keccak s b now OutTrap
  end.
Proof.
  intros Hr Hc. pose proof (tm_number _ (timed_reach env s Hr)) as Ht.
  unfold request_answer. cbn [step]. destruct (N.ltb_spec now (sys_clock s)); [lia|]. cbn [call_start].
  unfold start_task, request_scraping_logs. unfold sys_state in *.
  destruct (last_observed_block_number (fst (sys_core s))) as [n|]; [|reflexivity].
  destruct (last_observed_block_time (fst (sys_core s))) as [t|]; [|destruct (Ht ltac:(discriminate) eq_refl)].
  cbn [expect rbind]. rewrite amount_of_nat_spec, <- (minute_after_sat t).
  destruct (N.leb_spec b U256_MAX); destruct (N.ltb_spec U256_MAX b); try lia; [|reflexivity].
  unfold validate_log_scraping_request. destruct (b <=? n); [reflexivity|].
  destruct (now <? u64_saturating_add t ONE_MIN_NS); reflexivity.
Qed.
Lemma request_traps (env : Sys -> Label -> Prop) s b now : reach self keccak env s -> sys_clock s <= now ->
  (request_answer self keccak s b now OutTrap <-> last_observed_block_number (sys_state s) = None).
Proof.
  intros Hr Hc. pose proof (request_cases env s b now Hr Hc) as H.
  destruct (last_observed_block_number (sys_state s)) as [n|]; [|tauto].
  destruct (last_observed_block_time (sys_state s)) as [t|]; [|destruct H]. split; [|discriminate].
  unfold request_answer in *. intros E. rewrite E in H. apply app_inj_tail in H as (_ & H). discriminate.
Qed.

(** Once there is an observation, it stays *)
Definition high_reply (s : Sys) : Prop := forall id t n,
  bget id (sys_tasks s) = Some {| fl_task := t; fl_reply := Some (ReBlock (Some n)) |} ->
  head_margin (evm_network (sys_state s)) <= n.
Lemma network_kept s l s' : Trans self keccak s l s' -> (exists a, starts a (sys_log s) /\ evm_network (sys_state s) = ia_evm_network a) ->
  evm_network (sys_state s') = evm_network (sys_state s).
Proof. intros H (a & Hl & Hn). rewrite (trans_network self keccak a s l s' Hl Hn H). symmetry. exact Hn. Qed.
Lemma net_reach (env : Sys -> Label -> Prop) s : reach self keccak env s ->
  exists a, starts a (sys_log s) /\ evm_network (sys_state s) = ia_evm_network a.
Proof.
  apply (reach_inv self keccak env (fun s => exists a, starts a (sys_log s) /\ evm_network (sys_state s) = ia_evm_network a)).
  - intros now a s0 Hi. apply sys_init_inv in Hi as (st & Hst & Hc & _). exists a. unfold sys_log, sys_state. rewrite Hc. split.
    + eexists. exists []. split; reflexivity.
    + exact (init_network _ _ Hst).
  - intros x l x' (a & Hl & Hn) _ H. exists a. split.
    + apply (starts_grows _ (sys_log x)); [exact (LogFacts.trans_grows keccak self _ _ _ H)|exact Hl].
    + exact (trans_network self keccak a x l x' Hl Hn H).
Qed.
Lemma high_reach s : reach self keccak high_blocks s -> high_reply s.
Proof.
  apply (reach_inv2 self keccak high_blocks
    (fun s => exists a, starts a (sys_log s) /\ evm_network (sys_state s) = ia_evm_network a) high_reply).
  - exact (net_reach high_blocks).
  - intros now a s0 H. apply sys_init_inv in H as (st & Hi & Hcore & Ht & _). intros id t n. rewrite Ht. discriminate.
  - intros x l x' Hk _ Hx He H id t n Hi. rewrite (network_kept _ _ _ H Hk).
    destruct (trans_replies self keccak _ _ _ _ _ _ H Hi) as [Ho| ->]; [exact (Hx _ _ _ Ho)|exact He].
Qed.
Lemma number_stays s l : reach self keccak high_blocks s -> high_blocks s l ->
  last_observed_block_number (sys_state s) <> None ->
  last_observed_block_number (sys_state (step self keccak s l)) <> None.
Proof.
  intros Hr Hl Hn. pose proof (step_trans self keccak s l) as H.
  destruct (number_kept _ _ _ H) as [E|[(id & now & k & n & _ & Hg & E)|(a & now & -> & _)]]; [congruence| |destruct Hl].
  pose proof (high_reach s Hr _ _ _ Hg) as Hh. rewrite E.
  rewrite (proj2 (observed_margin self keccak (evm_network (sys_state s)) n (n - head_margin (evm_network (sys_state s)))) ltac:(lia)). discriminate.
Qed.
End Requests.
