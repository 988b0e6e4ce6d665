(** * Facts about registered tokens *)

From Verif Require Import Base BMap MultiKeyMap MultiKeyMapFacts Bytes Types Amount ArithFacts Tx CallData
  Network Hex Transactions State Audit Ranges Rlp Parser Memo Driver Sys SysSpec WtInv StateEquiv
  Segments Tasks SysFacts CoreInv CodecFacts WeakSteps DepositSpec Deposits TokenSpec.

Notation tokens_map := (dmkm Principal Address text).

Record tok_ok (m : tokens_map) : Prop := {
  to_wf : mkm_wf m;
  to_key : forall k a v, row m k a v -> fst v = k;
  to_symbol : forall c1 c2 l1 l2 sy, dmkm_get_entry_alt c1 m = Some (l1, sy) ->
    dmkm_get_entry_alt c2 m = Some (l2, sy) -> c1 = c2;
  to_address : forall c x, dmkm_get_entry_alt c m = Some x -> is_address c
}.
Lemma tok_ok_new : tok_ok mkm_new.
Proof.
  constructor; [apply mkm_wf_new| | |]; unfold dmkm_get_entry_alt, mkm_get_alt, row; cbn; try discriminate.
  intros k a v [H _]. discriminate.
Qed.

Lemma tok_iter m : tok_ok m -> exists l, dmkm_iter m = Done l /\
  forall le c sy, In (le, c, sy) l <-> dmkm_get_entry_alt c m = Some (le, sy).
Proof.
  intros [Hwf Hk _ _]. destruct (mkm_iter_done m Hwf) as (l & Hl & _ & Hin).
  unfold dmkm_iter. rewrite Hl. eexists. split; [reflexivity|]. intros le c sy. rewrite in_map_iff. split.
  - intros ([[k a] [k' sy']] & E & H). cbn in E. injection E as -> -> ->. apply Hin in H.
    pose proof (Hk _ _ _ H) as E. cbn in E. subst k'. apply H.
  - intros H. destruct (get_alt_row m c _ Hwf H) as (k & Hr). pose proof (Hk _ _ _ Hr) as E. cbn in E. subst k.
    exists (le, c, (le, sy)). split; [reflexivity|]. apply Hin. exact Hr.
Qed.
Lemma listed_iff s : tok_ok (erc20_tokens s) -> forall l c sy,
  listed s l c sy <-> dmkm_get_entry_alt c (erc20_tokens s) = Some (l, sy).
Proof.
  intros Hm l c sy. destruct (tok_iter _ Hm) as (ll & Hl & Hin). unfold listed, supported_erc20_tokens. rewrite Hl. cbn.
  rewrite <- Hin. split.
  - intros (x & E & H). injection E as <-. apply in_map_iff in H as ([[l' c'] sy'] & E & H). cbn in E.
    injection E as -> -> ->. exact H.
  - intros H. eexists. split; [reflexivity|]. apply in_map_iff. exists (l, c, sy). auto.
Qed.
Lemma supported_done s : tok_ok (erc20_tokens s) -> exists l, supported_erc20_tokens s = Done l.
Proof.
  intros Hm. destruct (tok_iter _ Hm) as (ll & Hl & _). unfold supported_erc20_tokens. rewrite Hl. cbn. eauto.
Qed.

Lemma alt_get l c sy (m : tokens_map) : tok_ok m -> dmkm_get_entry_alt c m = Some (l, sy) ->
  bget l (by_key m) = Some c.
Proof.
  intros Hm H. destruct (get_alt_row m c _ (to_wf _ Hm) H) as (k & Hr).
  pose proof (to_key _ Hm _ _ _ Hr) as E. cbn in E. subst k. apply Hr.
Qed.
Lemma key_get l c (m : tokens_map) : tok_ok m -> bget l (by_key m) = Some c ->
  exists sy, dmkm_get_entry_alt c m = Some (l, sy).
Proof.
  intros Hm H. destruct (get_key_row m l c (to_wf _ Hm) H) as ([k sy] & Hr).
  pose proof (to_key _ Hm _ _ _ Hr) as E. cbn in E. subst k. exists sy. apply Hr.
Qed.

Lemma filter_nil {A} (f : A -> bool) l : filter f l = [] <-> forall x, In x l -> f x = false.
Proof.
  induction l as [|a l IH]; cbn.
  - split; auto. intros _ x [].
  - destruct (f a) eqn:E.
    + split; [discriminate|]. intros H. rewrite (H a (or_introl eq_refl)) in E. discriminate.
    + rewrite IH. split; [intros H x [<-|Hx]; auto|intros H x Hx; apply H; auto].
Qed.

(** What registration does *)
Lemma add_token_spec t s : tok_ok (erc20_tokens s) -> forall s',
  record_add_erc20_token t s = Done s' <->
  evm_network s = et_chain_id t /\
  ~ clashes s (et_ledger_id t) (et_contract_address t) (et_symbol t) /\
  s' = set_erc20_tokens
         (Mkm (binsert (et_contract_address t) (et_ledger_id t, et_symbol t) (by_alt (erc20_tokens s)))
              (binsert (et_ledger_id t) (et_contract_address t) (by_key (erc20_tokens s)))) s.
Proof.
  intros Hm s'. destruct (tok_iter _ Hm) as (l & Hl & Hin). unfold record_add_erc20_token.
  unfold supported_erc20_tokens. rewrite Hl. cbn [rbind].
  set (ff := filter _ _).
  assert (Hf : ff = [] <-> forall le c, ~ listed s le c (et_symbol t)).
  { unfold ff. rewrite filter_nil. split.
    - intros H le c Hx. apply (listed_iff s Hm) in Hx. apply Hin in Hx.
      assert (bytes_eqb (et_symbol t) (et_symbol t) = false); [|rewrite bytes_eqb_refl in *; discriminate].
      apply (H {| et_chain_id := evm_network s; et_contract_address := c; et_symbol := et_symbol t; et_ledger_id := le |}).
      apply in_map_iff. exists (le, c, et_symbol t). auto.
    - intros H x Hx. apply in_map_iff in Hx as ([[le c] sy] & <- & Hx). cbn.
      destruct (bytes_eqb sy (et_symbol t)) eqn:E; auto. apply bytes_eqb_eq in E. subst sy.
      exfalso. apply (H le c). apply (listed_iff s Hm). apply Hin. exact Hx. }
  split.
  - intros H. inv_res. apply network_eqb_eq in H0. split; auto.
    assert (Hff : ff = []) by (destruct ff; [reflexivity|discriminate]).
    unfold expect_inserted in H2. destruct (dmkm_try_insert _ _ _ _) as [[m|]|] eqn:Ei; try discriminate.
    cbn in H2. injection H2 as <-. apply mkm_try_insert_ok in Ei as (E1 & E2 & ->). split; auto.
    intros (l' & c' & sy' & Hli & Hc). pose proof Hli as Hli'. apply (listed_iff s Hm) in Hli'.
    destruct Hc as [->|[->| ->]].
    + rewrite (alt_get _ _ _ _ Hm Hli') in E2. discriminate.
    + unfold dmkm_get_entry_alt, mkm_get_alt in Hli'. congruence.
    + apply (proj1 Hf Hff l' c'). exact Hli.
  - intros (E & Hnc & ->).
    assert (E1 : bget (et_contract_address t) (by_alt (erc20_tokens s)) = None).
    { destruct (bget _ _) as [[l' sy']|] eqn:E1; auto. exfalso. apply Hnc. exists l', (et_contract_address t), sy'.
      split; auto. apply (listed_iff s Hm). exact E1. }
    assert (E2 : bget (et_ledger_id t) (by_key (erc20_tokens s)) = None).
    { destruct (bget (et_ledger_id t) _) as [c'|] eqn:E2; auto. exfalso. apply Hnc.
      destruct (key_get _ _ _ Hm E2) as (sy & Hg). exists (et_ledger_id t), c', sy.
      split; auto. apply (listed_iff s Hm). exact Hg. }
    replace (network_eqb (evm_network s) (et_chain_id t)) with true by (symmetry; apply network_eqb_eq; auto).
    cbn [rassert rbind].
    assert (Hff : ff = []).
    { apply Hf. intros le c Hx. apply Hnc. exists le, c, (et_symbol t). auto. }
    rewrite Hff. cbn [rassert rbind]. unfold dmkm_try_insert, mkm_try_insert.
    apply bmem_false in E1. apply bmem_false in E2.
    rewrite ?E1, ?E2. unfold bmem in E1, E2.
    destruct (bget (et_contract_address t) (by_alt (erc20_tokens s))); try discriminate.
    destruct (bget (et_ledger_id t) (by_key (erc20_tokens s))); try discriminate. reflexivity.
Qed.

Lemma tok_add t s : tok_ok (erc20_tokens s) -> is_address (et_contract_address t) ->
  ~ clashes s (et_ledger_id t) (et_contract_address t) (et_symbol t) ->
  tok_ok (Mkm (binsert (et_contract_address t) (et_ledger_id t, et_symbol t) (by_alt (erc20_tokens s)))
              (binsert (et_ledger_id t) (et_contract_address t) (by_key (erc20_tokens s)))).
Proof.
  intros Hm Ha Hnc. assert (Hl := listed_iff s Hm).
  assert (E1 : bget (et_contract_address t) (by_alt (erc20_tokens s)) = None).
  { destruct (bget _ _) as [[l' sy']|] eqn:E1; auto. exfalso. apply Hnc. exists l', (et_contract_address t), sy'.
    split; auto. apply Hl. exact E1. }
  assert (E2 : bget (et_ledger_id t) (by_key (erc20_tokens s)) = None).
  { destruct (bget (et_ledger_id t) _) as [c'|] eqn:E2; auto. exfalso. apply Hnc.
    destruct (key_get _ _ _ Hm E2) as (sy & Hg). exists (et_ledger_id t), c', sy. split; auto. apply Hl. exact Hg. }
  constructor.
  - apply mkm_wf_insert; auto. apply Hm.
  - intros k a v H. apply row_insert in H; auto; [|apply Hm].
    destruct H as [(-> & -> & ->)|H]; [reflexivity|]. eapply (to_key _ Hm); eauto.
  - unfold dmkm_get_entry_alt, mkm_get_alt. cbn. intros c1 c2 l1 l2 sy. rewrite !bget_insert.
    destruct (keqb_spec c1 (et_contract_address t)) as [H1|H1]; destruct (keqb_spec c2 (et_contract_address t)) as [H2|H2];
      intros A B; try congruence.
    + injection A as <- <-. exfalso. apply Hnc. exists l2, c2, (et_symbol t). split; auto. apply Hl. exact B.
    + injection B as <- <-. exfalso. apply Hnc. exists l1, c1, (et_symbol t). split; auto. apply Hl. exact A.
    + eapply (to_symbol _ Hm); eauto.
  - unfold dmkm_get_entry_alt, mkm_get_alt. cbn. intros c x. rewrite bget_insert.
    destruct (keqb_spec c (et_contract_address t)) as [H1|H1]; [subst; auto|]. apply (to_address _ Hm).
Qed.

Lemma denotes_token s a t : erc20_token_of a = Some t /\ et_chain_id t = evm_network s <->
  denotes s a (et_ledger_id t) (et_contract_address t) (et_symbol t) /\ et_chain_id t = evm_network s.
Proof.
  unfold erc20_token_of, denotes, parse_symbol. split.
  - intros [H En]. split; auto. destruct (N.ltb_spec U64_MAX (at_chain_id a)); [discriminate|].
    destruct (network_of_chain_id (at_chain_id a)) as [n|] eqn:E1; [|discriminate].
    destruct (address_of_text (at_address a)) as [c|] eqn:E2; [|discriminate].
    destruct (N.ltb_spec 20 (N.of_nat (List.length (at_symbol a)))) as [|Hl]; [discriminate|].
    destruct (forallb (fun ch => ch <? 128) (at_symbol a)) eqn:E3; [|discriminate].
    injection H as <-. cbn in *. subst n. split.
    + apply chain_ids_one_to_one in E1. auto.
    + split; auto. split; auto. split; [lia|]. split; auto. apply Forall_forall. intros x Hx.
      rewrite forallb_forall in E3. specialize (E3 x Hx). apply N.ltb_lt in E3. exact E3.
  - intros [(E1 & E2 & E3 & E4 & E5 & E6) En]. split; auto.
    replace (U64_MAX <? at_chain_id a) with false.
    2: { symmetry. rewrite E1. destruct (evm_network s); reflexivity. }
    assert (E0 : network_of_chain_id (at_chain_id a) = Some (evm_network s)) by (rewrite E1; apply chain_ids_one_to_one).
    rewrite E0, E2, E3.
    replace (20 <? N.of_nat (List.length (et_symbol t))) with false by (symmetry; apply N.ltb_ge; lia).
    replace (forallb (fun ch => ch <? 128) (et_symbol t)) with true.
    2: { symmetry. apply forallb_forall. intros x Hx. rewrite Forall_forall in E5. apply N.ltb_lt. auto. }
    destruct t; cbn in *. subst. reflexivity.
Qed.
Lemma token_address a t : erc20_token_of a = Some t -> is_address (et_contract_address t).
Proof.
  unfold erc20_token_of. destruct (U64_MAX <? at_chain_id a); [discriminate|].
  destruct (network_of_chain_id _); [|discriminate].
  destruct (address_of_text (at_address a)) as [c|] eqn:E; [|discriminate]. destruct (parse_symbol _); [|discriminate].
  injection 1 as <-. eapply address_of_text_is_address; eauto.
Qed.

(** Events that do not register a token *)
Lemma dep_event_tokens v e v' : dep_event v e v' -> (forall t, e <> EvAddedErc20Token t) ->
  dv_tokens v' = dv_tokens v.
Proof. intros H Hn. destruct H; auto. exfalso. eapply Hn. reflexivity. Qed.
Lemma wmicros_tokens (J : EventType -> Prop) now c c' : (forall e t, J e -> e <> EvAddedErc20Token t) ->
  wmicros J now c c' -> erc20_tokens (fst c') = erc20_tokens (fst c).
Proof.
  intros HJ. apply (wmicros_rel J now (fun c c' => erc20_tokens (fst c') = erc20_tokens (fst c))); [auto|congruence|].
  intros x y H. destruct H as [s s' log Hv|s s' log e He Ha|s log r w' Hq]; cbn; auto.
  - change (dv_tokens (dv s') = dv_tokens (dv s)). rewrite (vstep_dv _ _ Hv). reflexivity.
  - apply (dep_event_tokens _ _ _ (apply_dv _ _ _ Ha)). auto.
Qed.

Section Reach.
Variable self : Principal.
Variable keccak : list N -> Hash.

Lemma emits_no_token s l e x : step_emits keccak s l e ->
  (forall p a now, l <> LCall (CallAddToken p a) now) -> e <> EvAddedErc20Token x.
Proof.
  intros H Hl ->. destruct l; cbn in H; try contradiction.
  - destruct H as (st & H). destruct u; cbn in H; try contradiction. eapply Hl. reflexivity.
  - destruct H as (t & r & _ & [[(st & H)|H]|H]).
    + apply emits_inv in H. exact H.
    + unfold creation in H. repeat match goal with H : exists _, _ |- _ => destruct H | H : _ /\ _ |- _ => destruct H | H : _ \/ _ |- _ => destruct H end; discriminate.
    + destruct t; cbn in H; try contradiction; destruct H as [H|[]]; discriminate.
Qed.

Lemma token_step s l s' : dep_ok (sys_core s) -> tok_ok (erc20_tokens (sys_state s)) -> Trans self keccak s l s' ->
  tok_ok (erc20_tokens (sys_state s')) /\
  (erc20_tokens (sys_state s') = erc20_tokens (sys_state s) \/
   exists p a now t, l = LCall (CallAddToken p a) now /\ ledger_suite_manager_id (sys_state s) = Some p /\
     erc20_token_of a = Some t /\ record_add_erc20_token t (sys_state s) = Done (sys_state s')).
Proof.
  intros Hd Hm H.
  assert (Hold : erc20_tokens (sys_state s') = erc20_tokens (sys_state s) ->
    tok_ok (erc20_tokens (sys_state s')) /\
    (erc20_tokens (sys_state s') = erc20_tokens (sys_state s) \/
     exists p a now t, l = LCall (CallAddToken p a) now /\ ledger_suite_manager_id (sys_state s) = Some p /\
       erc20_token_of a = Some t /\ record_add_erc20_token t (sys_state s) = Done (sys_state s'))).
  { intros E. rewrite E. auto. }
  assert (Hadd : (exists p a now, l = LCall (CallAddToken p a) now) \/
                 forall p a now, l <> LCall (CallAddToken p a) now).
  { destruct l as [| [] | | |]; eauto; right; intros; discriminate. }
  destruct Hadd as [(p & a & now & ->)|Hne].
  - inversion H; subst; try (apply Hold; reflexivity).
    match goal with Hc : call_start _ _ _ = Done _ |- _ => rename Hc into Hs end. cbn in Hs. unfold add_erc20_token in Hs.
    apply rbind_done in Hs as (x & Q1 & Hs). apply rbind_done in Hs as (u & Q2 & Hs).
    apply rbind_done in Hs as (x1 & Q3 & Hs). apply rbind_done in Hs as (c' & Q4 & Hs).
    apply expect_done in Q1. apply rassert_done in Q2. apply expect_done in Q3. injection Hs as <- <-.
    apply process_event_inv in Q4 as (s' & Ha & ->). cbn [apply_state_transition] in Ha.
    apply bytes_eqb_eq in Q2. subst x. unfold sys_state in Hold |- *. cbn in Hold |- *.
    change (fst (sys_core s)) with (sys_state s) in *.
    split; [|right; exists p, a, now, x1; auto].
    apply (add_token_spec _ _ Hm) in Ha as (_ & Hnc & ->). cbn. apply tok_add; auto. eapply token_address; eauto.
  - apply Hold. apply trans_wmicros in H as [(now & H)|(a & now & _ & _ & H)].
    + unfold sys_state. eapply (wmicros_tokens (step_emits keccak s l)); [|exact H].
      intros e t He. eapply emits_no_token; eauto.
    + destruct (upgrade_dv _ _ _ _ Hd H) as [_ H2]. destruct a as [x|].
      * exact (dep_event_tokens _ _ _ H2 (fun t => ltac:(discriminate))).
      * exact (f_equal dv_tokens H2).
Qed.

Lemma tokens_reach env s : reach self keccak env s -> tok_ok (erc20_tokens (sys_state s)).
Proof.
  apply (reach_inv2 self keccak env (fun s => dep_ok (sys_core s)) (fun s => tok_ok (erc20_tokens (sys_state s)))); [apply dep_reach| |].
  - intros now a s0 H. apply sys_init_inv in H as (st & H1 & H2 & _). unfold sys_state. rewrite H2. cbn [fst].
    replace (erc20_tokens st) with (@mkm_new Principal Address (Principal * text)); [apply tok_ok_new|].
    unfold state_of_init, ebind in H1.
    repeat match type of H1 with match ?x with _ => _ end = _ => destruct x; try discriminate end.
    injection H1 as <-. reflexivity.
  - intros s0 l s' Hd _ Hm _ Ht. exact (proj1 (token_step s0 l s' Hd Hm Ht)).
Qed.

Lemma token_step_reach env s l : reach self keccak env s ->
  erc20_tokens (sys_state (step self keccak s l)) = erc20_tokens (sys_state s) \/
  exists p a now t, l = LCall (CallAddToken p a) now /\ ledger_suite_manager_id (sys_state s) = Some p /\
     erc20_token_of a = Some t /\ record_add_erc20_token t (sys_state s) = Done (sys_state (step self keccak s l)).
Proof.
  intros H. exact (proj2 (token_step s l _ (dep_reach self keccak env s H) (tokens_reach env s H) (step_trans self keccak s l))).
Qed.

(** ** The statements *)
Lemma listed_query env s : reach self keccak env s -> exists l, supported_erc20_tokens (sys_state s) = Done l.
Proof. intros H. apply supported_done, (tokens_reach env s H). Qed.
Lemma listed_unique env s l1 c1 y1 l2 c2 y2 : reach self keccak env s ->
  listed (sys_state s) l1 c1 y1 -> listed (sys_state s) l2 c2 y2 ->
  l1 = l2 \/ c1 = c2 \/ y1 = y2 -> l1 = l2 /\ c1 = c2 /\ y1 = y2.
Proof.
  intros Hr H1 H2. assert (Hm := tokens_reach env s Hr).
  apply (listed_iff _ Hm) in H1. apply (listed_iff _ Hm) in H2.
  assert (Hc : c1 = c2 -> l1 = l2 /\ c1 = c2 /\ y1 = y2).
  { intros <-. rewrite H1 in H2. injection H2 as <- <-. auto. }
  intros [->|[E| ->]]; apply Hc; auto.
  - pose proof (alt_get _ _ _ _ Hm H1). pose proof (alt_get _ _ _ _ Hm H2). congruence.
  - eapply (to_symbol _ Hm); eauto.
Qed.

Lemma step_listed env s lab l c y : reach self keccak env s ->
  (listed (sys_state s) l c y -> listed (sys_state (step self keccak s lab)) l c y) /\
  (listed (sys_state (step self keccak s lab)) l c y -> listed (sys_state s) l c y \/
   exists p a now, lab = LCall (CallAddToken p a) now /\ ledger_suite_manager_id (sys_state s) = Some p /\
     denotes (sys_state s) a l c y /\ ~ clashes (sys_state s) l c y).
Proof.
  intros Hr. assert (Hm := tokens_reach env s Hr).
  assert (Hm' : tok_ok (erc20_tokens (sys_state (step self keccak s lab))))
    by exact (proj1 (token_step s lab _ (dep_reach self keccak env s Hr) Hm (step_trans self keccak s lab))).
  rewrite !(listed_iff _ Hm), !(listed_iff _ Hm').
  destruct (token_step_reach env s lab Hr) as [E|(p & a & now & t & -> & Hp & Ht & Ha)].
  - rewrite E. auto.
  - apply (add_token_spec _ _ Hm) in Ha as (En & Hnc & E). rewrite E. cbn [erc20_tokens set_erc20_tokens].
    assert (E1 : bget (et_contract_address t) (by_alt (erc20_tokens (sys_state s))) = None).
    { destruct (bget (et_contract_address t) _) as [[l' sy']|] eqn:E1; auto. exfalso. apply Hnc. exists l', (et_contract_address t), sy'.
      split; auto. apply (listed_iff _ Hm). exact E1. }
    unfold dmkm_get_entry_alt, mkm_get_alt in *. cbn [by_alt]. rewrite bget_insert.
    destruct (keqb_spec c (et_contract_address t)) as [H1|H1].
    + split; [congruence|].
      intros H. injection H as <- <-. right. exists p, a, now. split; auto. split; auto.
      subst c. split; auto. apply denotes_token. auto.
    + split; auto.
Qed.

Lemma listed_kept env s lab l c y : reach self keccak env s -> listed (sys_state s) l c y ->
  listed (sys_state (step self keccak s lab)) l c y.
Proof. intros Hr. apply (step_listed env s lab l c y Hr). Qed.
Lemma listed_forever s ls l c y : reach self keccak any_env s -> listed (sys_state s) l c y ->
  listed (sys_state (run self keccak s ls)) l c y.
Proof.
  revert s. induction ls as [|x ls IH]; intros s Hr H; [exact H|].
  apply IH; [|eapply listed_kept; eauto]. apply reach_step; auto. exact Logic.I.
Qed.

Lemma token_accepted env s p a now l c y : reach self keccak env s -> sys_clock s <= now ->
  ledger_suite_manager_id (sys_state s) = Some p -> denotes (sys_state s) a l c y ->
  ~ clashes (sys_state s) l c y ->
  let s' := step self keccak s (LCall (CallAddToken p a) now) in
  listed (sys_state s') l c y /\ In (sys_next s, OutAdded) (sys_outcomes s').
Proof.
  intros Hr Hc Hp Hd Hn. assert (Hm := tokens_reach env s Hr).
  set (t := {| et_chain_id := evm_network (sys_state s); et_contract_address := c; et_symbol := y; et_ledger_id := l |}).
  assert (Ht : erc20_token_of a = Some t) by (apply (denotes_token (sys_state s)); auto).
  assert (Ha := proj2 (add_token_spec t (sys_state s) Hm _) (conj eq_refl (conj Hn eq_refl))).
  assert (Hs : call_start now (CallAddToken p a) (sys_core s) =
    Done ((set_erc20_tokens
         (Mkm (binsert (et_contract_address t) (et_ledger_id t, et_symbol t) (by_alt (erc20_tokens (sys_state s))))
              (binsert (et_ledger_id t) (et_contract_address t) (by_key (erc20_tokens (sys_state s))))) (sys_state s),
         record_event now (EvAddedErc20Token t) (snd (sys_core s))), Finish OutAdded)).
  { cbn [call_start]. unfold add_erc20_token, process_event. change (fst (sys_core s)) with (sys_state s).
    rewrite Hp. cbn [expect rbind]. rewrite bytes_eqb_refl. cbn [rassert rbind]. rewrite Ht. cbn [expect rbind].
    cbn [apply_state_transition]. rewrite Ha. reflexivity. }
  intros s'. assert (Hm' : tok_ok (erc20_tokens (sys_state s')))
    by exact (proj1 (token_step s _ _ (dep_reach self keccak env s Hr) Hm (step_trans self keccak s _))).
  rewrite (listed_iff _ Hm'). revert Hm'. subst s'. unfold step. apply N.ltb_ge in Hc. rewrite Hc.
  cbn [sys_core with_call]. unfold start_task. cbn [sys_core with_call] in *. rewrite Hs. intros _. cbn. split.
  - unfold dmkm_get_entry_alt, mkm_get_alt. cbn [by_alt erc20_tokens set_erc20_tokens]. apply bget_insert_eq.
  - apply in_or_app. right. left. reflexivity.
Qed.
Lemma token_refused env s p a now : reach self keccak env s ->
  ledger_suite_manager_id (sys_state s) <> Some p \/
  (forall l c y, denotes (sys_state s) a l c y -> clashes (sys_state s) l c y) ->
  sys_core (step self keccak s (LCall (CallAddToken p a) now)) = sys_core s.
Proof.
  intros Hr H. assert (Hm := tokens_reach env s Hr). unfold step.
  destruct (now <? sys_clock s); auto. unfold start_task. cbn [sys_core with_call].
  destruct (call_start now (CallAddToken p a) (sys_core s)) as [[c nx]|] eqn:E; [|reflexivity].
  exfalso. cbn [call_start] in E. unfold add_erc20_token in E.
  apply rbind_done in E as (x & H1 & Hs). apply rbind_done in Hs as (u & H2 & Hs).
  apply rbind_done in Hs as (x1 & H3 & Hs). apply rbind_done in Hs as (c' & H4 & Hs).
  apply expect_done in H1. apply rassert_done in H2. apply expect_done in H3. apply bytes_eqb_eq in H2. subst x.
  apply process_event_inv in H4 as (s' & Ha & _). cbn [apply_state_transition] in Ha.
  change (fst (sys_core s)) with (sys_state s) in *.
  destruct H as [H|H]; [contradiction|].
  apply (add_token_spec _ _ Hm) in Ha as (En & Hnc & _). apply Hnc. apply H. apply denotes_token. auto.
Qed.

Lemma token_addresses env s : reach self keccak env s -> forall a,
  In a (dmkm_alt_keys (erc20_tokens (sys_state s))) -> is_address a.
Proof.
  intros Hr a Ha. assert (Hm := tokens_reach env s Hr). unfold dmkm_alt_keys, mkm_alt_keys, bkeys in Ha.
  apply in_map_iff in Ha as ([a' v] & <- & Ha). apply (to_address _ Hm a' v).
  unfold dmkm_get_entry_alt, mkm_get_alt. apply bget_iff_In; [apply Hm|exact Ha].
Qed.
Lemma listed_alt_key env s l c y : reach self keccak env s -> listed (sys_state s) l c y ->
  In c (dmkm_alt_keys (erc20_tokens (sys_state s))).
Proof.
  intros Hr H. assert (Hm := tokens_reach env s Hr). apply (listed_iff _ Hm) in H.
  unfold dmkm_get_entry_alt, mkm_get_alt in H. apply bget_iff_In in H; [|apply Hm].
  unfold dmkm_alt_keys, mkm_alt_keys, bkeys. apply (in_map fst) in H. exact H.
Qed.
Lemma alt_key_listed env s c : reach self keccak env s ->
  In c (dmkm_alt_keys (erc20_tokens (sys_state s))) -> exists l y, listed (sys_state s) l c y.
Proof.
  intros Hr H. assert (Hm := tokens_reach env s Hr). unfold dmkm_alt_keys, mkm_alt_keys, bkeys in H.
  apply in_map_iff in H as ([a' [l y]] & <- & Ha). exists l, y. apply (listed_iff _ Hm).
  unfold dmkm_get_entry_alt, mkm_get_alt. apply bget_iff_In; [apply Hm|exact Ha].
Qed.

End Reach.
