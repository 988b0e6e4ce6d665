(** * FeeFacts: gas fee estimates *)

From Verif Require Import Base BMap MultiKeyMap MultiKeyMapFacts Bytes Types Amount ArithFacts Tx CallData
  Network Hex Transactions State Audit Ranges Rlp Parser Memo Driver Sys SysSpec WtInv StateEquiv
  Segments Tasks SysFacts CoreInv LogFacts Guards Views WtContent FeeSpec.

(** ** Median *)

Lemma insert_count f x l :
  List.length (filter f (insert_sorted x l)) = List.length (filter f (x :: l)).
Proof.
  induction l as [|y l IH]; cbn [insert_sorted]; auto. destruct (x <=? y); auto.
  cbn [filter] in *. destruct (f y); cbn; rewrite IH; destruct (f x); auto.
Qed.
Lemma sort_count f l : List.length (filter f (sort_N l)) = List.length (filter f l).
Proof.
  induction l as [|x l IH]; auto. unfold sort_N; cbn [fold_right]. fold (sort_N l).
  rewrite insert_count. cbn. destruct (f x); cbn; auto.
Qed.
Lemma insert_in x y l : In y (insert_sorted x l) <-> y = x \/ In y l.
Proof.
  induction l as [|z l IH]; cbn [insert_sorted]; [cbn; intuition|].
  destruct (x <=? z); cbn [In] in *; rewrite ?IH; intuition.
Qed.
Lemma sort_in y l : In y (sort_N l) <-> In y l.
Proof.
  induction l as [|x l IH]; [cbn; tauto|]. unfold sort_N; cbn [fold_right]. fold (sort_N l).
  rewrite insert_in, IH. cbn. intuition.
Qed.
Lemma filter_yes {A} (l : list A) : filter (fun _ => true) l = l.
Proof. induction l; cbn; congruence. Qed.
Lemma sort_length l : List.length (sort_N l) = List.length l.
Proof. pose proof (sort_count (fun _ => true) l) as H. rewrite !filter_yes in H. exact H. Qed.

Fixpoint ascending (l : list N) : Prop :=
  match l with [] => True | x :: l' => (forall y, In y l' -> x <= y) /\ ascending l' end.
Lemma insert_ascending x l : ascending l -> ascending (insert_sorted x l).
Proof.
  induction l as [|y l IH]; cbn [insert_sorted]; [cbn; tauto|]. intros [H1 H2].
  destruct (N.leb_spec x y) as [H|H]; cbn [ascending].
  - split; [|split; auto]. intros z [<-|Hz]; auto. specialize (H1 z Hz). lia.
  - split; auto. intros z Hz. apply insert_in in Hz as [->|Hz]; [lia|auto].
Qed.
Lemma sort_ascending l : ascending (sort_N l).
Proof.
  induction l as [|x l IH]; [exact Logic.I|]. unfold sort_N; cbn [fold_right]. apply insert_ascending, IH.
Qed.
Lemma filter_none {A} (f : A -> bool) l : (forall x, In x l -> f x = false) -> filter f l = [].
Proof.
  induction l as [|x l IH]; cbn; intros H; auto. rewrite (H x) by auto. apply IH. auto.
Qed.

Lemma rank_ascending l : ascending l -> forall k m, nth_error l k = Some m ->
  (List.length (filter (fun x => x <? m)%N l) <= k)%nat /\ (k < List.length (filter (fun x => x <=? m)%N l))%nat.
Proof.
  induction l as [|x l IH]; intros Ha k m Hk; [destruct k; discriminate|]. destruct Ha as [H1 H2].
  destruct k as [|k]; cbn [nth_error] in Hk.
  - injection Hk as <-. cbn [filter]. rewrite N.ltb_irrefl, N.leb_refl. cbn. split; [|apply Nat.lt_0_succ].
    rewrite filter_none; [auto|]. intros y Hy. apply N.ltb_ge. auto.
  - destruct (IH H2 k m Hk) as [I1 I2]. assert (Hx : x <= m) by (apply H1; eapply nth_error_In; eauto).
    cbn [filter]. apply N.leb_le in Hx. rewrite Hx. cbn [List.length]. split; [|apply -> Nat.succ_lt_mono; exact I2].
    destruct (x <? m); cbn [List.length]; [apply le_n_S|apply le_S]; exact I1.
Qed.

Lemma median_some l m : median l = Some m -> is_median m l.
Proof.
  unfold median. intros H. pose proof (nth_error_In _ _ H) as Hin. apply (proj1 (sort_in _ _)) in Hin.
  apply rank_ascending in H as [H1 H2]; [|apply sort_ascending]. rewrite sort_count in H1. rewrite sort_count in H2.
  split; [exact Hin|]. split; auto.
Qed.
Lemma median_none l : median l = None <-> l = [].
Proof.
  unfold median. rewrite nth_error_None, sort_length. split; [|intros ->; apply le_n].
  destruct l as [|x l]; auto. intros H. exfalso. cbn [List.length] in H.
  pose proof (Nat.div_lt (S (List.length l)) 2 (Nat.lt_0_succ _) (Nat.lt_succ_diag_r 1)). 
  apply (Nat.lt_irrefl (S (List.length l))). eapply Nat.le_lt_trans; eauto.
Qed.
Lemma count_mono (f g : N -> bool) l : (forall x, f x = true -> g x = true) ->
  (List.length (filter f l) <= List.length (filter g l))%nat.
Proof.
  intros H. induction l as [|x l IH]; cbn; auto. destruct (f x) eqn:E.
  - rewrite (H x E). cbn. apply le_n_S, IH.
  - destruct (g x); cbn; auto.
Qed.
Lemma median_unique l m m' : is_median m l -> is_median m' l -> m = m'.
Proof.
  assert (Hlt : forall a b, is_median a l -> is_median b l -> a < b -> False).
  { intros a b (_ & _ & A) (_ & B & _) Hab.
    assert ((List.length (filter (fun x => x <=? a)%N l) <= List.length (filter (fun x => x <? b)%N l))%nat).
    { apply count_mono. intros x Hx. apply N.leb_le in Hx. apply N.ltb_lt. lia. }
    apply (Nat.lt_irrefl (List.length l / 2)). eapply Nat.lt_le_trans; [exact A|]. eapply Nat.le_trans; eauto. }
  intros H1 H2. destruct (N.lt_trichotomy m m') as [H|[H|H]]; auto; exfalso; eauto.
Qed.
Lemma median_iff l m : median l = Some m <-> is_median m l.
Proof.
  split; [apply median_some|]. intros H. destruct (median l) as [m'|] eqn:E.
  - f_equal. eapply median_unique; eauto. apply median_some; auto.
  - apply median_none in E. subst l. destruct H as ([] & _).
Qed.

(** ** The estimate *)

Lemma last_opt_some {A} (l : list A) x : last_opt l = Some x <-> exists l', l = l' ++ [x].
Proof.
  unfold last_opt. split.
  - destruct (rev l) as [|y l'] eqn:E; [discriminate|]. injection 1 as ->. exists (rev l').
    rewrite <- (rev_involutive l), E. reflexivity.
  - intros (l' & ->). rewrite rev_app_distr. reflexivity.
Qed.
Lemma last_opt_none {A} (l : list A) : last_opt l = None <-> l = [].
Proof.
  unfold last_opt. split; [|intros ->; reflexivity]. destruct (rev l) eqn:E; [|discriminate].
  intros _. rewrite <- (rev_involutive l), E. reflexivity.
Qed.
Lemma checked_max_price g : checked_estimate_max_fee_per_gas g =
  if max_price g <=? U256_MAX then Some (max_price g) else None.
Proof.
  unfold checked_estimate_max_fee_per_gas, max_price, checked_mul, checked_add, obind.
  rewrite (N.mul_comm (gf_base_fee_per_gas g) 2).
  destruct (N.leb_spec (2 * gf_base_fee_per_gas g) U256_MAX) as [H|H]; auto.
  destruct (N.leb_spec (2 * gf_base_fee_per_gas g + gf_max_priority_fee_per_gas g) U256_MAX); auto. lia.
Qed.
Lemma max_fee_saturates g : estimate_max_fee_per_gas g = N.min (max_price g) U256_MAX.
Proof.
  unfold estimate_max_fee_per_gas. rewrite checked_max_price.
  destruct (N.leb_spec (max_price g) U256_MAX); cbn [or_max]; lia.
Qed.

Lemma estimate_ok_iff min_tip h g : estimate_transaction_fee min_tip h = ROk g <->
  read_history min_tip h g /\ max_price g <= U256_MAX.
Proof.
  unfold estimate_transaction_fee, read_history. destruct (last_opt (fh_base_fee_per_gas h)) as [b|] eqn:Eb.
  2:{ apply last_opt_none in Eb. split; [discriminate|]. intros ((o & b & m & E & _) & _). rewrite Eb in E. destruct o; discriminate. }
  destruct (median (List.concat (fh_reward h))) as [m|] eqn:Em.
  2:{ split; [discriminate|]. intros ((o & b' & m & _ & E & _) & _). apply median_iff in E. congruence. }
  rewrite checked_max_price. set (g0 := {| gf_base_fee_per_gas := b; gf_max_priority_fee_per_gas := _ |}).
  apply median_iff in Em. apply last_opt_some in Eb as Hb. split.
  - destruct (N.leb_spec (max_price g0) U256_MAX); [|discriminate]. injection 1 as <-. split; auto.
    destruct Hb as (l & Hb). exists l, b, m. auto.
  - intros ((o & b' & m' & E1 & E2 & ->) & H). assert (b' = b) as ->.
    { destruct Hb as (l & Hb). rewrite Hb in E1. apply app_inj_tail in E1 as [_ ->]. reflexivity. }
    rewrite (median_unique _ _ _ E2 Em) in *. fold g0 in H |- *. destruct (N.leb_spec (max_price g0) U256_MAX); [auto|lia].
Qed.
Lemma estimate_overflow_iff min_tip h : estimate_transaction_fee min_tip h = RErr FeeOverflow <->
  exists g, read_history min_tip h g /\ U256_MAX < max_price g.
Proof.
  unfold estimate_transaction_fee, read_history. destruct (last_opt (fh_base_fee_per_gas h)) as [b|] eqn:Eb.
  2:{ apply last_opt_none in Eb. split; [discriminate|]. intros (g & (o & b & m & E & _) & _). rewrite Eb in E. destruct o; discriminate. }
  destruct (median (List.concat (fh_reward h))) as [m|] eqn:Em.
  2:{ split; [discriminate|]. intros (g & (o & b' & m & _ & E & _) & _). apply median_iff in E. congruence. }
  rewrite checked_max_price. set (g0 := {| gf_base_fee_per_gas := b; gf_max_priority_fee_per_gas := _ |}).
  apply median_iff in Em. apply last_opt_some in Eb as Hb. split.
  - destruct (N.leb_spec (max_price g0) U256_MAX); [discriminate|]. intros _. exists g0. split; auto.
    destruct Hb as (l & Hb). exists l, b, m. auto.
  - intros (g & (o & b' & m' & E1 & E2 & ->) & H). assert (b' = b) as ->.
    { destruct Hb as (l & Hb). rewrite Hb in E1. apply app_inj_tail in E1 as [_ ->]. reflexivity. }
    rewrite (median_unique _ _ _ E2 Em) in *. fold g0 in H |- *. destruct (N.leb_spec (max_price g0) U256_MAX); [lia|auto].
Qed.
Lemma estimate_invalid_iff min_tip h : estimate_transaction_fee min_tip h = RErr InvalidFeeHistory <->
  fh_base_fee_per_gas h = [] \/ List.concat (fh_reward h) = [].
Proof.
  unfold estimate_transaction_fee. destruct (last_opt (fh_base_fee_per_gas h)) as [b|] eqn:Eb.
  2:{ apply last_opt_none in Eb. tauto. }
  destruct (median (List.concat (fh_reward h))) as [m|] eqn:Em.
  2:{ apply median_none in Em. tauto. }
  split.
  - destruct (checked_estimate_max_fee_per_gas _); discriminate.
  - intros [E|E]; [apply last_opt_none in E; congruence|]. apply median_none in E. congruence.
Qed.
Lemma estimate_usable min_tip h g : estimate_transaction_fee min_tip h = ROk g -> usable min_tip g.
Proof.
  intros H. apply estimate_ok_iff in H as ((o & b & m & _ & _ & ->) & H). split; auto. cbn. lia.
Qed.

(** ** The cache *)

Lemma half_minute_sat t : u64_saturating_add t MAX_AGE_NS = half_minute_after t.
Proof.
  unfold half_minute_after. replace (30 * 10 ^ 9) with MAX_AGE_NS by (vm_compute; reflexivity).
  replace (2 ^ 64 - 1) with U64_MAX by (vm_compute; reflexivity). reflexivity.
Qed.
Lemma cached_iff now s g : refresh_start now s = RefreshCached g <->
  exists t, last_transaction_price_estimate s = Some (t, g) /\ now < half_minute_after t.
Proof.
  unfold refresh_start. destruct (last_transaction_price_estimate s) as [[t g']|].
  2:{ split; [destruct (timer_guard_new _ s); discriminate|intros (t & [=] & _)]. }
  rewrite half_minute_sat. destruct (N.ltb_spec now (half_minute_after t)) as [H|H].
  - split; [injection 1 as <-; eauto|intros (t' & [= -> ->] & _); auto].
  - split; [destruct (timer_guard_new _ s); discriminate|intros (t' & [= -> ->] & ?); lia].
Qed.
Lemma price_charge g : usable 0 g -> max_transaction_fee (to_price g ERC20_GAS_LIMIT) = erc20_charge g.
Proof.
  intros [H _]. unfold max_transaction_fee, to_price, erc20_charge. cbn [tp_max_fee_per_gas tp_gas_limit].
  rewrite max_fee_saturates. replace (N.min (max_price g) U256_MAX) with (max_price g) by lia.
  rewrite or_max_cost, N.mul_comm. reflexivity.
Qed.

Definition task_priced (min_tip : N) (t : Task) : Prop :=
  match t with
  | TRetrieveCount g => usable min_tip g
  | TErc20Fee j | TErc20GasBurn j | TErc20Burn j _ => exists g, usable min_tip g /\ ej_tx_fee j = erc20_charge g
  | _ => True
  end.

Record fees_ok (s : Sys) : Prop := {
  fo_cache : forall t g, last_transaction_price_estimate (sys_state s) = Some (t, g) ->
    t <= sys_clock s /\ usable (min_max_priority_fee_per_gas (sys_state s)) g;
  fo_tasks : forall id t r, bget id (sys_tasks s) = Some {| fl_task := t; fl_reply := r |} ->
    task_priced (min_max_priority_fee_per_gas (sys_state s)) t
}.

Definition cache_ok (now : N) (v : View) : Prop :=
  forall t g, v_price v = Some (t, g) -> t <= now /\ usable (v_min v) g.

Lemma usable_0 m g : usable m g -> usable 0 g.
Proof. intros [H _]. split; auto. lia. Qed.
Lemma priced_estimated m now j g c c' t' : usable m g ->
  erc20_estimated now j g c = Done (c', Await t') -> task_priced m t'.
Proof.
  intros Hu H. apply estimated_inv in H as (-> & t & [= <-] & H). unfold estimated_next in H.
  pose proof (price_charge g (usable_0 _ _ Hu)) as Hp.
  destruct (withdrawal_native_fee (fst c)); [destruct H as [_ ->]|subst t']; cbn; eauto.
Qed.

Lemma cached_usable now s g m clock : cache_ok clock (vw s) -> v_min (vw s) = m ->
  refresh_start now s = RefreshCached g -> usable m g.
Proof. intros Hc <- H. apply cached_iff in H as (t & H & _). apply (Hc t g H). Qed.

Lemma timer_priced clock now k c c' t : cache_ok clock (vw (fst c)) ->
  timer_start now k c = Done (c', Await t) -> task_priced (v_min (vw (fst c))) t.
Proof.
  intros Hc H. destruct t; try exact Logic.I.
  - pose proof (timer_after _ _ _ _ _ H) as Hk. cbn in Hk. subst k. cbn [timer_start] in H.
    unfold retrieve_start, end_timer in H. destruct (timer_guard_new _ (fst c)) as [s|] eqn:E; [|discriminate].
    apply timer_new_view in E. destruct (negb _); [discriminate|].
    destruct (refresh_start now s) eqn:Er; try discriminate. injection H as _ ->.
    rewrite <- E in *. eapply cached_usable; eauto.
  - apply timer_after in H. destruct H.
  - apply timer_after in H. destruct H.
  - apply timer_after in H. destruct H.
Qed.
Lemma call_priced clock now u c c' t : cache_ok clock (vw (fst c)) ->
  call_start now u c = Done (c', Await t) -> task_priced (v_min (vw (fst c))) t.
Proof.
  intros Hc H. destruct u; cbn [call_start] in H.
  - destruct t; try exact Logic.I; exfalso; unfold withdraw_native_start, end_call, native_burn_start in H.
    all: repeat (first [apply rbind_done in H as (? & _ & H)|
      match type of H with match ?x with _ => _ end = _ => destruct x; try discriminate end]); try discriminate.
  - unfold withdraw_erc20_start, end_call in H. apply rbind_done in H as (x & _ & H).
    destruct (guard_new caller (fst c)) as [s|] eqn:Eg; [|discriminate].
    assert (E : vw s = vw (fst c)).
    { apply (guard_new_inv (fun _ => 0)) in Eg as (_ & _ & _ & ->). reflexivity. }
    destruct (validate_address_as_destination recipient); [|discriminate].
    apply rbind_done in H as (am & _ & H). destruct (find_erc20_token_by_ledger_id ledger s);
      [|apply rbind_done in H as (? & _ & H); discriminate].
    destruct (refresh_start now s) eqn:Er; [|discriminate|injection H as _ <-; exact Logic.I].
    eapply priced_estimated; [|exact H]. rewrite <- E in *. eapply cached_usable; eauto.
  - unfold add_erc20_token in H. inv_res. discriminate.
  - unfold request_scraping_logs in H. inv_res. destruct (amount_of_nat block); discriminate.
Qed.

Section Keccak.
Variable keccak : list N -> Hash.

Lemma resume_priced now t r c c' t' : task_priced (v_min (vw (fst c))) t ->
  resume keccak now t r c = Done (c', Await t') -> task_priced (v_min (vw (fst c))) t'.
Proof.
  intros Ht H. pose proof (resume_after keccak _ _ _ _ _ _ H) as A. cbn [after] in A.
  destruct t'; try exact Logic.I; cbn [next_spec] in A.
  - subst t. destruct r; try discriminate. cbn [resume] in H. unfold retrieve_fee_reply in H.
    destruct (refresh_reply now r (fst c)) as [s o] eqn:E. apply vw_refresh in E.
    destruct o; [|unfold end_timer in H; discriminate]. injection H as _ ->.
    destruct r as [h|]; [|destruct E; discriminate].
    destruct (estimate_transaction_fee _ h) eqn:Ee; destruct E as [_ E]; [|discriminate].
    injection E as ->. apply estimate_usable in Ee. exact Ee.
  - destruct A as (j0 & h & g & -> & -> & A). cbn [resume] in H. unfold erc20_estimate_reply in H.
    destruct (refresh_reply now h (fst c)) as [s o] eqn:E. apply vw_refresh in E.
    destruct o; [|unfold end_call in H; discriminate].
    destruct h as [h|]; [|destruct E; discriminate].
    destruct (estimate_transaction_fee _ h) eqn:Ee; destruct E as [_ E]; [|discriminate].
    injection E as ->. apply estimate_usable in Ee. eapply priced_estimated; [exact Ee|exact H].
  - destruct A as [(j0 & h & g & -> & -> & A)|(j0 & b & -> & -> & _ & ->)]; [|exact Ht].
    cbn [resume] in H. unfold erc20_estimate_reply in H.
    destruct (refresh_reply now h (fst c)) as [s o] eqn:E. apply vw_refresh in E.
    destruct o; [|unfold end_call in H; discriminate].
    destruct h as [h|]; [|destruct E; discriminate].
    destruct (estimate_transaction_fee _ h) eqn:Ee; destruct E as [_ E]; [|discriminate].
    injection E as ->. apply estimate_usable in Ee. eapply priced_estimated; [exact Ee|exact H].
  - destruct A as (-> & _). exact Ht.
Qed.

Lemma resumed_price now t r v v' : resumed now t r v v' ->
  v_min v' = v_min v /\ (v_price v' = v_price v \/ exists g, v_price v' = Some (now, g) /\ usable (v_min v) g).
Proof.
  destruct t; cbn; intros H; try (subst; auto; fail); destruct r; subst; auto.
  - destruct r; subst; auto.
  - destruct r; subst; auto. destruct (_ =? _); auto.
  - destruct r; subst; auto; destruct (estimate_transaction_fee _ _) eqn:E; subst; auto.
    split; auto. right. eexists. split; [reflexivity|]. eapply estimate_usable; eauto.
  - destruct r; subst; auto; destruct (estimate_transaction_fee _ _) eqn:E; subst; auto.
    split; auto. right. eexists. split; [reflexivity|]. eapply estimate_usable; eauto.
  - destruct r; subst; auto; destruct (estimate_transaction_fee _ _) eqn:E; subst; auto.
    split; auto. right. eexists. split; [reflexivity|]. eapply estimate_usable; eauto.
Qed.

Variable self : Principal.

Lemma trans_clock s l s' : Trans self keccak s l s' -> sys_clock s <= sys_clock s'.
Proof. destruct 1; cbn; rewrite ?install_clock; cbn; lia. Qed.

Lemma fees_trans s l s' : fees_ok s -> Trans self keccak s l s' -> fees_ok s'.
Proof.
  intros [F1 F2] H. pose proof (trans_clock _ _ _ H) as Hc. pose proof (trans_view keccak self _ _ _ H) as V.
  assert (HC : cache_ok (sys_clock s) (vw (sys_state s))) by exact F1.
  (* the cache *)
  assert (F1' : forall t g, last_transaction_price_estimate (sys_state s') = Some (t, g) ->
    t <= sys_clock s' /\ usable (min_max_priority_fee_per_gas (sys_state s')) g).
  { intros t g Hp. clear H. destruct V.
    - pose proof (f_equal v_price H) as E1. pose proof (f_equal v_min H) as E2. cbn in E1, E2.
      rewrite E1 in Hp. rewrite E2. apply F1 in Hp as [Ha Hb]. split; auto. lia.
    - pose proof (f_equal v_price H1) as E1. pose proof (f_equal v_min H1) as E2. cbn in E1, E2.
      rewrite E1 in Hp. rewrite E2. apply F1 in Hp as [Ha Hb]. split; auto. lia.
    - apply resumed_price in H2 as [E2 [E1|(g' & E1 & Hu)]]; cbn in E1, E2; rewrite E1 in Hp; rewrite E2.
      + apply F1 in Hp as [Ha Hb]. split; auto. lia.
      + injection Hp as <- <-. split; [lia|exact Hu].
    - destruct H0 as (_ & _ & E & _). rewrite E in Hp. discriminate. }
  constructor; [exact F1'|]. clear F1'.
  assert (Hm : sys_tasks s' = [] \/ min_max_priority_fee_per_gas (sys_state s') = min_max_priority_fee_per_gas (sys_state s)).
  { destruct V.
    - right. apply (f_equal v_min) in H0. exact H0.
    - right. apply (f_equal v_min) in H2. exact H2.
    - right. apply resumed_price in H3 as [E _]. exact E.
    - left. inversion H; subst; auto. }
  destruct Hm as [Hm|Hm]; [intros id t r; rewrite Hm; discriminate|]. intros id t r. rewrite Hm.
  destruct H; cbn [bump_next sys_tasks]; rewrite ?install_tasks; eauto.
  - destruct (keqb id (sys_next s)); [|cbn; eauto]. destruct nx; [|discriminate]. injection 1 as -> <-.
    eapply timer_priced; eauto.
  - destruct (keqb id (sys_next s)); [|cbn; eauto]. destruct nx; [|discriminate]. injection 1 as -> <-.
    eapply (call_priced (sys_clock s) now u (sys_core s)); eauto.
  - cbn. rewrite bget_insert. destruct (keqb_spec id id0); eauto. injection 1 as -> <-. eauto.
  - cbn. rewrite bget_insert. destruct (keqb_spec id id0); eauto. injection 1 as -> <-. eauto.
  - destruct (keqb_spec id id0); [|cbn; eauto]. destruct nx; [|discriminate]. injection 1 as -> <-.
    eapply (resume_priced now t0 r0 (sys_core s)); eauto.
  - destruct (keqb id id0); [discriminate|]. cbn; eauto.
Qed.

Lemma fees_reach (env : Sys -> Label -> Prop) s : reach self keccak env s -> fees_ok s.
Proof.
  apply (reach_inv self keccak env fees_ok).
  - intros now a s0 H. apply sys_init_inv in H as (st & Hst & Hc & Ht & _). constructor.
    + unfold sys_state. rewrite Hc. cbn [fst]. apply state_of_init_volatile in Hst as (_ & _ & _ & _ & V).
      rewrite V. discriminate.
    + rewrite Ht. discriminate.
  - intros s0 l s' Hs _ Htr. eapply fees_trans; eauto.
Qed.
End Keccak.
