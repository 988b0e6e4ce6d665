(** * Invariants of the withdrawal tables (definitions and proofs). *)

From Verif Require Import Base BMap MultiKeyMap MultiKeyMapFacts Bytes Types Amount Tx CallData
  Network Transactions.

Definition dom {K V} `{Ord K} (k : K) (m : bmap K V) : Prop := bget k m <> None.

Lemma dom_mem {K V} `{Ord K} (k : K) (m : bmap K V) : dom k m <-> bmem k m = true.
Proof. unfold dom, bmem. destruct (bget k m); cbn; split; intros; congruence. Qed.
Lemma not_dom {K V} `{Ord K} (k : K) (m : bmap K V) : ~ dom k m <-> bget k m = None.
Proof. unfold dom. destruct (bget k m); split; intros; try congruence. exfalso; apply H0; congruence. Qed.
Lemma dom_some {K V} `{Ord K} (k : K) (m : bmap K V) v : bget k m = Some v -> dom k m.
Proof. unfold dom; congruence. Qed.
Lemma dom_ex {K V} `{Ord K} (k : K) (m : bmap K V) : dom k m <-> exists v, bget k m = Some v.
Proof. unfold dom. destruct (bget k m); split; intros; eauto; try congruence. destruct H0; congruence. Qed.
Lemma dom_insert {K V} `{Ord K} (k k' : K) v (m : bmap K V) :
  dom k' (binsert k v m) <-> k' = k \/ dom k' m.
Proof.
  unfold dom. rewrite bget_insert. destruct (keqb_spec k' k) as [Hk|Hk]; split; intros; auto; try congruence.
  destruct H0; congruence.
Qed.
Lemma dom_remove {K V} `{Ord K} (k k' : K) (m : bmap K V) :
  dom k' (bremove k m) <-> k' <> k /\ dom k' m.
Proof.
  unfold dom. rewrite bget_remove. destruct (keqb_spec k' k) as [Hk|Hk]; split; intros; try tauto.
Qed.

Notation row_created w := (row (created w)).
Notation row_sent w := (row (sent w)).
Notation row_fin w := (row (finalized w)).

Record wt_inv (w : WT) : Prop := {
  i_created : mkm_wf (created w);
  i_sent : mkm_wf (sent w);
  i_fin : mkm_wf (finalized w);
  i_proc_sorted : bsorted (processed w);
  i_mr_sorted : bsorted (maybe_reimburse w);
  i_rq_sorted : bsorted (reimb_requests w);
  i_rd_sorted : bsorted (reimbursed w);
  i_pend_nodup : NoDup (map wr_burn_index (pending w));
  i_pend_fresh : forall r, In r (pending w) -> bget (wr_burn_index r) (processed w) = None;
  i_proc_key : forall b r, bget b (processed w) = Some r -> wr_burn_index r = b;
  i_proc_dom : forall b, dom b (processed w) <->
    dom b (by_alt (created w)) \/ dom b (by_alt (sent w)) \/ dom b (by_alt (finalized w));
  i_mr_dom : forall b, dom b (maybe_reimburse w) <->
    dom b (by_alt (created w)) \/ dom b (by_alt (sent w));
  i_fin_excl : forall k a f, row_fin w k a f ->
    bget k (by_key (created w)) = None /\ bget k (by_key (sent w)) = None /\
    bget a (by_alt (created w)) = None /\ bget a (by_alt (sent w)) = None;
  i_agree : forall k a v k' a' v', row_created w k a v -> row_sent w k' a' v' -> (k = k' <-> a = a');
  i_lt : forall k, dom k (by_key (created w)) \/ dom k (by_key (sent w)) \/ dom k (by_key (finalized w)) ->
    k < next_nonce w;
  i_created_tx : forall k a t, row_created w k a t ->
    tx_nonce (rs_tx t) = k /\
    exists r, bget a (processed w) = Some r /\ rs_strategy t = strategy_of r;
  i_sent_tx : forall k a l, row_sent w k a l ->
    l <> [] /\
    exists r, bget a (processed w) = Some r /\
      forall t, In t l -> tx_nonce (st_tx (rs_tx t)) = k /\ rs_strategy t = strategy_of r;
  i_fin_tx : forall k a f, row_fin w k a f ->
    tx_nonce (st_tx (ft_tx f)) = k /\
    st_hash (ft_tx f) = rc_transaction_hash (ft_receipt f);
  i_rq_rd : forall i, dom i (reimb_requests w) -> bget i (reimbursed w) = None
}.

Lemma agree_key w k a v a' v' : wt_inv w -> row_created w k a v -> row_sent w k a' v' -> a = a'.
Proof. intros Hi H1 H2. apply (i_agree w Hi _ _ _ _ _ _ H1 H2); auto. Qed.
Lemma agree_alt w k a v k' v' : wt_inv w -> row_created w k a v -> row_sent w k' a v' -> k = k'.
Proof. intros Hi H1 H2. apply (i_agree w Hi _ _ _ _ _ _ H1 H2); auto. Qed.

Lemma wt_inv_new n : wt_inv (wt_new n).
Proof.
  constructor; cbn; try apply mkm_wf_new; try constructor; try tauto; try discriminate;
    unfold dom, row; cbn; intros; try tauto; try (destruct H; discriminate);
    try (intuition congruence).
Qed.

(** Lookup helpers *)
Lemma row_dom_key {K A V} `{Ord K} `{Ord A} (m : mkm K A V) k a v : row m k a v -> dom k (by_key m).
Proof. intros [H1 _]; eapply dom_some; eauto. Qed.
Lemma row_dom_alt {K A V} `{Ord K} `{Ord A} (m : mkm K A V) k a v : row m k a v -> dom a (by_alt m).
Proof. intros [_ H1]; eapply dom_some; eauto. Qed.
Lemma dom_key_row {K A V} `{Ord K} `{Ord A} (m : mkm K A V) k :
  mkm_wf m -> dom k (by_key m) -> exists a v, row m k a v.
Proof.
  intros Hwf Hd. apply dom_ex in Hd as (a & Ha). destruct (get_key_row m k a Hwf Ha) as (v & Hv); eauto.
Qed.
Lemma dom_alt_row {K A V} `{Ord K} `{Ord A} (m : mkm K A V) a :
  mkm_wf m -> dom a (by_alt m) -> exists k v, row m k a v.
Proof.
  intros Hwf Hd. apply dom_ex in Hd as (v & Hv). destruct (get_alt_row m a v Hwf Hv) as (k & Hk); eauto.
Qed.

Lemma find_burn_index b l r :
  find (has_burn_index b) l = Some r -> In r l /\ wr_burn_index r = b.
Proof.
  intros H. apply find_some in H as [H1 H2]. unfold has_burn_index in H2.
  apply N.eqb_eq in H2. auto.
Qed.
Lemma existsb_burn_false b l :
  existsb (has_burn_index b) l = false <-> forall r, In r l -> wr_burn_index r <> b.
Proof.
  split.
  - intros H r Hin Heq. assert (existsb (has_burn_index b) l = true); [|congruence].
    apply existsb_exists. exists r. split; auto. unfold has_burn_index. apply N.eqb_eq; auto.
  - intros H. destruct (existsb (has_burn_index b) l) eqn:E; auto.
    apply existsb_exists in E as (r & Hin & Hr). unfold has_burn_index in Hr. apply N.eqb_eq in Hr.
    exfalso; eapply H; eauto.
Qed.
Lemma nodup_burn_unique l r1 r2 :
  NoDup (map wr_burn_index l) -> In r1 l -> In r2 l -> wr_burn_index r1 = wr_burn_index r2 -> r1 = r2.
Proof.
  induction l as [|r l IH]; cbn; [tauto|]. intros Hnd H1 H2 He.
  apply NoDup_cons_iff in Hnd as [Hni Hnd].
  destruct H1 as [<-|H1], H2 as [<-|H2]; auto.
  - exfalso. apply Hni. rewrite He. apply in_map; auto.
  - exfalso. apply Hni. rewrite <- He. apply in_map; auto.
Qed.
Lemma find_burn_index_in l r :
  NoDup (map wr_burn_index l) -> In r l -> find (has_burn_index (wr_burn_index r)) l = Some r.
Proof.
  intros Hnd Hin. destruct (find (has_burn_index (wr_burn_index r)) l) as [r'|] eqn:E.
  - apply find_burn_index in E as [H1 H2]. f_equal. eapply nodup_burn_unique; eauto.
  - exfalso. eapply find_none in E; eauto. unfold has_burn_index in E.
    rewrite N.eqb_refl in E. discriminate.
Qed.

Lemma in_remove_pending r x l :
  In x (filter (fun y => negb (wr_eqb y r)) l) <-> In x l /\ x <> r.
Proof.
  rewrite filter_In. split; intros [H1 H2]; split; auto.
  - intros ->. apply negb_true_iff in H2. assert (wr_eqb r r = true) by (apply wr_eqb_eq; auto). congruence.
  - apply negb_true_iff. destruct (wr_eqb x r) eqn:E; auto. apply wr_eqb_eq in E; congruence.
Qed.
Lemma nodup_map_filter {A B} (f : A -> B) p l : NoDup (map f l) -> NoDup (map f (filter p l)).
Proof.
  induction l as [|a l IH]; cbn; auto. intros H. apply NoDup_cons_iff in H as [H1 H2].
  destruct (p a); cbn; auto. constructor; auto. intros Hin. apply H1.
  apply in_map_iff in Hin as (x & <- & Hx). apply filter_In in Hx as [Hx _]. apply in_map; auto.
Qed.
Lemma nodup_map_snoc {A B} (f : A -> B) l a :
  NoDup (map f l) -> (forall x, In x l -> f x <> f a) -> NoDup (map f (l ++ [a])).
Proof.
  intros H1 H2. rewrite map_app. cbn.
  induction l as [|x l IH]; cbn in *.
  - repeat constructor; auto.
  - apply NoDup_cons_iff in H1 as [Hn Hd]. constructor; auto.
    rewrite in_app_iff; cbn. intros [Hin|[Hin|[]]]; auto.
    eapply H2; [left; reflexivity|auto].
Qed.

(** A wt_inv with another [pending] *)
Lemma wt_inv_pending w p :
  wt_inv w -> NoDup (map wr_burn_index p) ->
  (forall r, In r p -> bget (wr_burn_index r) (processed w) = None) -> wt_inv (set_pending p w).
Proof. intros [] H1 H2. constructor; cbn; auto. Qed.

(** ** Preservation *)

Lemma contains_alt_false {K A V} `{Ord K} `{Ord A} (m : mkm K A V) a :
  mkm_contains_alt a m = false <-> ~ dom a (by_alt m).
Proof. unfold mkm_contains_alt. rewrite dom_mem. destruct (bmem a (by_alt m)); split; congruence. Qed.

Lemma record_withdrawal_request_spec r w w' :
  record_withdrawal_request r w = Done w' <->
  (forall x, In x (pending w) -> wr_burn_index x <> wr_burn_index r) /\
  ~ dom (wr_burn_index r) (by_alt (created w)) /\
  ~ dom (wr_burn_index r) (by_alt (sent w)) /\
  ~ dom (wr_burn_index r) (by_alt (finalized w)) /\
  w' = set_pending (pending w ++ [r]) w.
Proof.
  unfold record_withdrawal_request. rewrite <- !contains_alt_false, <- existsb_burn_false.
  split.
  - intros H. inv_res. apply negb_true_iff in H0. apply orb_false_iff in H0 as [H0 H3].
    apply orb_false_iff in H0 as [H0 H2]. apply orb_false_iff in H0 as [H0 H1]. auto.
  - intros (-> & -> & -> & -> & ->). reflexivity.
Qed.

Lemma inv_record_withdrawal_request r w w' :
  wt_inv w -> record_withdrawal_request r w = Done w' -> wt_inv w'.
Proof.
  intros Hi H. apply record_withdrawal_request_spec in H as (H1 & H2 & H3 & H4 & ->).
  apply wt_inv_pending; auto.
  - apply nodup_map_snoc; auto. apply i_pend_nodup; auto.
  - intros x Hx. apply in_app_iff in Hx as [Hx|[<-|[]]].
    + eapply i_pend_fresh; eauto.
    + apply not_dom. intros Hd. apply (i_proc_dom w Hi) in Hd. tauto.
Qed.

Lemma filter_burn_one b l :
  List.length (filter (has_burn_index b) l) = 1%nat ->
  exists r, In r l /\ wr_burn_index r = b.
Proof.
  destruct (filter (has_burn_index b) l) as [|x l'] eqn:E; [discriminate|]. intros _.
  assert (In x (filter (has_burn_index b) l)) as Hin by (rewrite E; left; auto).
  apply filter_In in Hin as [H1 H2]. unfold has_burn_index in H2. apply N.eqb_eq in H2. eauto.
Qed.
Lemma filter_burn_present l r :
  NoDup (map wr_burn_index l) -> In r l -> filter (has_burn_index (wr_burn_index r)) l = [r].
Proof.
  induction l as [|x l IH]; cbn; [tauto|]. intros Hnd Hin.
  apply NoDup_cons_iff in Hnd as [Hni Hnd]. unfold has_burn_index at 1.
  destruct Hin as [->|Hin].
  - rewrite N.eqb_refl. f_equal.
    assert (existsb (has_burn_index (wr_burn_index r)) l = false) as Hex.
    { apply existsb_burn_false. intros y Hy He. apply Hni. rewrite <- He. apply in_map; auto. }
    clear -Hex. induction l as [|y l IH]; cbn in *; auto.
    apply orb_false_iff in Hex as [-> Hex]. auto.
  - destruct (wr_burn_index x =? wr_burn_index r) eqn:E.
    + apply N.eqb_eq in E. exfalso. apply Hni. rewrite E. apply in_map; auto.
    + auto.
Qed.

Lemma inv_reschedule r w w' :
  wt_inv w -> reschedule_withdrawal_request r w = Done w' -> wt_inv w'.
Proof.
  intros Hi H. unfold reschedule_withdrawal_request in H. inv_res.
  eapply inv_record_withdrawal_request; [|exact H].
  apply wt_inv_pending; auto.
  - apply nodup_map_filter. apply i_pend_nodup; auto.
  - intros y Hy. apply in_remove_pending in Hy as [Hy _]. eapply i_pend_fresh; eauto.
Qed.

(** The effect of rescheduling a waiting request: it moves to the back. *)
Lemma reschedule_present r w :
  wt_inv w -> In r (pending w) ->
  reschedule_withdrawal_request r w =
  Done (set_pending (filter (fun y => negb (wr_eqb y r)) (pending w) ++ [r]) w).
Proof.
  intros Hi Hin. unfold reschedule_withdrawal_request.
  rewrite filter_burn_present; auto using i_pend_nodup. cbn [List.length Nat.eqb rassert rbind].
  assert (Hd : ~ dom (wr_burn_index r) (processed w)).
  { apply not_dom. eapply i_pend_fresh; eauto. }
  rewrite (i_proc_dom w Hi) in Hd.
  apply record_withdrawal_request_spec. cbn. repeat split; try tauto.
  intros x Hx He. apply in_remove_pending in Hx as [Hx Hne]. apply Hne.
  eapply nodup_burn_unique; eauto using i_pend_nodup.
Qed.

Lemma filter_remove_perm r l :
  NoDup (map wr_burn_index l) -> In r l ->
  Permutation (filter (fun y => negb (wr_eqb y r)) l ++ [r]) l.
Proof.
  intros Hnd Hin. transitivity (r :: filter (fun y => negb (wr_eqb y r)) l).
  { symmetry. apply Permutation_cons_append. }
  induction l as [|x l IH]; cbn in *; [tauto|].
  apply NoDup_cons_iff in Hnd as [Hni Hnd].
  destruct (wr_eqb x r) eqn:E; cbn.
  - apply wr_eqb_eq in E; subst x. constructor.
    assert (filter (fun y => negb (wr_eqb y r)) l = l) as ->; auto.
    assert (~ In r l) as Hn by (intros Hr; apply Hni; apply in_map; auto).
    clear -Hn. induction l as [|y l IH]; cbn; auto.
    destruct (wr_eqb y r) eqn:E; cbn.
    + apply wr_eqb_eq in E; subst. exfalso; apply Hn; left; auto.
    + f_equal; apply IH; intros H; apply Hn; right; auto.
  - destruct Hin as [->|Hin].
    + exfalso. assert (wr_eqb r r = true) by (apply wr_eqb_eq; auto). congruence.
    + rewrite perm_swap. constructor. auto.
Qed.

Lemma expect_inserted_ok {K A V} (r : res (result (mkm K A V) (occupied K A))) msg m :
  expect_inserted r msg = Done m -> r = Done (ROk m).
Proof. unfold expect_inserted. intros H. inv_res. destruct x; inv_res; auto. Qed.

Lemma cleanup_created_spec k c c' :
  cleanup_created k c = Done c' ->
  (exists a v, row c k a v /\ c' = Mkm (bremove a (by_alt c)) (bremove k (by_key c))) \/
  (bget k (by_key c) = None /\ c' = c).
Proof.
  unfold cleanup_created. destruct (mkm_remove_entry k c) as [[c1 [[[k' a] v]|]]|] eqn:E; cbn;
    try discriminate; injection 1 as <-.
  - apply mkm_remove_some in E as (-> & Hr & ->). eauto.
  - apply mkm_remove_none in E as (Hk & ->). auto.
Qed.

(** Creation *)
Lemma record_created_spec id t w w' :
  record_created_transaction id t w = Done w' ->
  exists req c',
    find (has_burn_index id) (pending w) = Some req /\ In req (pending w) /\ wr_burn_index req = id /\
    wr_destination req = tx_destination t /\
    (match req with WNative n => tx_amount t < nw_withdrawal_amount n | WErc20 _ => tx_amount t = 0 end) /\
    tx_nonce t = next_nonce w /\
    checked_increment (next_nonce w) = Some (next_nonce w') /\
    mkm_try_insert (next_nonce w) id (Build_Resubmittable t (strategy_of req)) (created w) = Done (ROk c') /\
    bget id (processed w) = None /\ bget id (maybe_reimburse w) = None /\
    w' = {| pending := filter (fun x => negb (wr_eqb x req)) (pending w);
            processed := binsert id req (processed w);
            created := c'; sent := sent w; finalized := finalized w;
            next_nonce := next_nonce w';
            maybe_reimburse := binsert id tt (maybe_reimburse w);
            reimb_requests := reimb_requests w; reimbursed := reimbursed w |}.
Proof.
  intros H. unfold record_created_transaction in H. inv_res.
  pose proof (find_burn_index _ _ _ H0) as [Hin Hb].
  apply expect_inserted_ok in H6.
  rewrite Hb in *. cbn in *.
  apply negb_true_iff in H7, H8. apply bmem_false in H7, H8.
  apply N.eqb_eq in H2, H4.
  exists x, x5. repeat split; auto.
  destruct x; [apply rassert_done in H3; apply N.ltb_lt in H3; auto|apply rassert_done in H3; apply N.eqb_eq in H3; auto].
Qed.

Lemma checked_increment_val n n' : checked_increment n = Some n' -> n' = n + 1.
Proof.
  unfold checked_increment, checked_add. destruct (n + 1 <=? U256_MAX); congruence.
Qed.

Lemma inv_record_created id t w w' :
  wt_inv w -> record_created_transaction id t w = Done w' -> wt_inv w'.
Proof.
  intros Hi H. apply record_created_spec in H.
  destruct H as (req & c' & _ & Hin & Hb & Hd & Ha & Hn & Hinc & Hins & Hp & Hm & Hw).
  apply mkm_try_insert_ok in Hins as (Hca & Hck & ->).
  apply checked_increment_val in Hinc.
  assert (Hnone : ~ dom id (by_alt (created w)) /\ ~ dom id (by_alt (sent w)) /\
                  ~ dom id (by_alt (finalized w))).
  { apply not_dom in Hp. rewrite (i_proc_dom w Hi) in Hp. tauto. }
  destruct Hnone as (Hnc & Hns & Hnf).
  rewrite Hw. destruct Hi. constructor; cbn; auto.
  - apply mkm_wf_insert; auto.
  - apply bsorted_insert; auto.
  - apply bsorted_insert; auto.
  - apply nodup_map_filter; auto.
  - intros r Hr. apply in_remove_pending in Hr as [Hr Hne].
    rewrite bget_insert_ne; auto. intros He. apply Hne. rewrite <- Hb in He.
    eapply nodup_burn_unique; eauto.
  - intros b r. rewrite bget_insert. destruct (keqb_spec b id) as [Hk|Hk].
    + injection 1 as <-. congruence.
    + apply i_proc_key0.
  - intros b. rewrite !dom_insert. rewrite i_proc_dom0. tauto.
  - intros b. rewrite !dom_insert. rewrite i_mr_dom0. tauto.
  - intros k a f Hrow. destruct (i_fin_excl0 _ _ _ Hrow) as (H1 & H2 & H3 & H4).
    assert (k < next_nonce w) by (apply i_lt0; right; right; eapply row_dom_key; eauto).
    assert (a <> id). { intros ->. apply Hnf. eapply row_dom_alt; eauto. }
    rewrite !bget_insert_ne; auto. lia.
  - intros k a v k' a' v' H1 H2. apply row_insert in H1; auto.
    destruct H1 as [(-> & -> & ->)|H1]; [|eauto].
    assert (k' < next_nonce w) by (apply i_lt0; right; left; eapply row_dom_key; eauto).
    assert (a' <> id). { intros ->. apply Hns. eapply row_dom_alt; eauto. }
    split; intros; exfalso; try congruence. lia.
  - intros k. rewrite dom_insert. intros Hk.
    assert (k = next_nonce w \/ k < next_nonce w) as [->|] by (destruct Hk as [[->|]|[]]; auto); lia.
  - intros k a t0 Hrow. apply row_insert in Hrow; auto.
    destruct Hrow as [(-> & -> & ->)|Hrow].
    + cbn. split; auto. exists req. rewrite bget_insert_eq. auto.
    + destruct (i_created_tx0 _ _ _ Hrow) as (H1 & r & H2 & H3). split; auto. exists r. split; auto.
      rewrite bget_insert_ne; auto. intros ->. congruence.
  - intros k a l Hrow. destruct (i_sent_tx0 _ _ _ Hrow) as (H1 & r & H2 & H3). split; auto.
    exists r. split; auto. rewrite bget_insert_ne; auto. intros ->. congruence.
Qed.

(** Signing *)
Lemma record_signed_spec s w w' :
  wt_inv w -> record_signed_transaction s w = Done w' ->
  exists b c,
    row_created w (tx_nonce (st_tx s)) b c /\ rs_tx c = st_tx s /\
    let k := tx_nonce (st_tx s) in
    let signed := Build_Resubmittable s (rs_strategy c) in
    let created' := Mkm (bremove b (by_alt (created w))) (bremove k (by_key (created w))) in
    ((exists l, row_sent w k b l /\
       w' = set_sent (Mkm (binsert b (l ++ [signed]) (by_alt (sent w))) (by_key (sent w)))
              (set_created created' w)) \/
     (bget k (by_key (sent w)) = None /\ bget b (by_alt (sent w)) = None /\
       w' = set_sent (Mkm (binsert b [signed] (by_alt (sent w))) (binsert k b (by_key (sent w))))
              (set_created created' w))).
Proof.
  intros Hi H. unfold record_signed_transaction in H. inv_res.
  destruct x1 as [created' removed]. inv_res. destruct x1 as [[nonce b] c0]. subst removed.
  apply mkm_remove_some in H2 as (-> & Hrow & ->).
  apply tx_eqb_eq in H1. apply mkm_get_row in H0 as (b' & Hrow').
  destruct (row_fun_key _ _ _ _ _ _ Hrow Hrow') as [-> ->].
  exists b', x. split; auto. split; auto. cbn. inv_res.
  match type of H0 with match ?m with _ => _ end = _ => destruct m as [m'|] eqn:E end.
  - inv_res. apply mkm_modify_some in E as (a & v & Hs & ->). left.
    assert (a = b') as ->.
    { eapply (i_agree w Hi) in Hs; eauto. symmetry; apply Hs; auto. }
    exists v. auto.
  - right. apply expect_inserted_ok in H0.
    apply mkm_try_insert_ok in H0 as (H3 & H4 & ->). auto.
Qed.

Lemma inv_record_signed s w w' :
  wt_inv w -> record_signed_transaction s w = Done w' -> wt_inv w'.
Proof.
  intros Hi H. destruct (record_signed_spec _ _ _ Hi H) as (b & c & Hrow & Hc & Hcase). clear H.
  cbn in Hcase. set (k := tx_nonce (st_tx s)) in *.
  destruct (i_created_tx w Hi _ _ _ Hrow) as (Hn & r & Hr & Hst).
  assert (Hd : dom b (by_alt (created w))) by (eapply row_dom_alt; eauto).
  assert (Hfk : forall a f, ~ row_fin w k a f).
  { intros a f Hf. destruct (i_fin_excl w Hi _ _ _ Hf) as (H1 & _). destruct Hrow; congruence. }
  assert (Hfb : forall k' f, ~ row_fin w k' b f).
  { intros k' f Hf. destruct (i_fin_excl w Hi _ _ _ Hf) as (_ & _ & H1 & _). destruct Hrow; congruence. }
  destruct Hcase as [(l & Hs & ->)|(Hsk & Hsb & ->)].
  - pose proof (i_sent_tx w Hi _ _ _ Hs) as (Hl & r' & Hr' & Hall).
    assert (r' = r) by congruence; subst r'.
    assert (Hex : exists v0, bget b (by_alt (sent w)) = Some v0) by (destruct Hs; eauto).
    destruct Hi. constructor; cbn; auto.
    + eapply mkm_wf_remove; eauto. destruct Hrow; auto.
    + apply mkm_wf_update; auto.
    + intros b0. rewrite dom_remove, dom_insert, i_proc_dom0.
      destruct (N.eq_dec b0 b) as [->|]; [|tauto]. tauto.
    + intros b0. rewrite dom_remove, dom_insert, i_mr_dom0.
      destruct (N.eq_dec b0 b) as [->|]; [|tauto]. tauto.
    + intros k' a f Hf. destruct (i_fin_excl0 _ _ _ Hf) as (H1 & H2 & H3 & H4).
      assert (a <> b) by (intros ->; eapply Hfb; eauto).
      rewrite !bget_remove, bget_insert_ne; auto. rewrite H1, H3.
      destruct (keqb k' k), (keqb a b); auto.
    + intros k1 a1 v1 k2 a2 v2 H1 H2. apply (row_remove _ k b c) in H1 as [Hne H1]; auto.
      apply row_update in H2 as [H2 H3]; auto.
      destruct H3 as [[-> ->]|[H3 H4]].
      * assert (k2 = k) as -> by (eapply (wf_inj _ i_sent0); eauto; destruct Hs; auto).
        split; intros He; [congruence|]. subst a1.
        exfalso. apply Hne. eapply (wf_inj _ i_created0); [apply H1|apply Hrow].
      * apply (i_agree0 _ _ _ _ _ _ H1 (conj H2 H4)).
    + intros k'. rewrite dom_remove. intros H. apply i_lt0. tauto.
    + intros k1 a1 t1 H1. apply (row_remove _ k b c) in H1 as [Hne H1]; auto.
    + intros k1 a1 l1 H1. apply row_update in H1 as [H1 H2]; auto.
      destruct H2 as [[-> ->]|[H2 H3]].
      * assert (k1 = k) as -> by (eapply (wf_inj _ i_sent0); eauto; destruct Hs; auto).
        split. { destruct l; discriminate. }
        exists r. split; auto. intros t Ht. apply in_app_iff in Ht as [Ht|[<-|[]]]; auto.
      * apply (i_sent_tx0 _ _ _ (conj H1 H3)).
  - destruct Hi. constructor; cbn; auto.
    + eapply mkm_wf_remove; eauto. destruct Hrow; auto.
    + apply mkm_wf_insert; auto.
    + intros b0. rewrite dom_remove, dom_insert, i_proc_dom0.
      destruct (N.eq_dec b0 b) as [->|]; [|tauto]. tauto.
    + intros b0. rewrite dom_remove, dom_insert, i_mr_dom0.
      destruct (N.eq_dec b0 b) as [->|]; [|tauto]. tauto.
    + intros k' a f Hf. destruct (i_fin_excl0 _ _ _ Hf) as (H1 & H2 & H3 & H4).
      assert (a <> b) by (intros ->; eapply Hfb; eauto).
      assert (k' <> k) by (intros ->; eapply Hfk; eauto).
      rewrite !bget_remove_ne, !bget_insert_ne; auto.
    + intros k1 a1 v1 k2 a2 v2 H1 H2. apply (row_remove _ k b c) in H1 as [Hne H1]; auto.
      apply row_insert in H2; auto.
      destruct H2 as [(-> & -> & ->)|H2]; [|eauto].
      split; intros He; [congruence|]. subst a1. exfalso. apply Hne.
      eapply (wf_inj _ i_created0); [apply H1|apply Hrow].
    + intros k'. rewrite dom_remove, dom_insert. intros [[_ H]|[[->|H]|H]]; auto.
      apply i_lt0. left. eapply row_dom_key; eauto.
    + intros k1 a1 t1 H1. apply (row_remove _ k b c) in H1 as [Hne H1]; auto.
    + intros k1 a1 l1 H1. apply row_insert in H1; auto.
      destruct H1 as [(-> & -> & ->)|H1]; auto.
      split; [discriminate|]. exists r. split; auto. intros t [<-|[]]. cbn. auto.
Qed.

(** Resubmission *)
Lemma equal_ignoring_spec a t :
  equal_ignoring_fee_and_amount a t = true ->
  tx_chain_id t = tx_chain_id a /\ tx_nonce t = tx_nonce a /\ tx_gas_limit t = tx_gas_limit a /\
  tx_destination t = tx_destination a /\ tx_data t = tx_data a /\ tx_access_list t = tx_access_list a.
Proof.
  unfold equal_ignoring_fee_and_amount. intros H. apply tx_eqb_eq in H.
  rewrite H. cbn. auto 10.
Qed.

Lemma last_opt_in {A} (l : list A) a : last_opt l = Some a -> In a l.
Proof.
  unfold last_opt. destruct (rev l) as [|x l'] eqn:E; [discriminate|]. injection 1 as <-.
  apply in_rev. rewrite E. left; auto.
Qed.
Lemma last_opt_some {A} (l : list A) : l <> [] -> exists a, last_opt l = Some a.
Proof.
  unfold last_opt. destruct (rev l) as [|x l'] eqn:E; eauto. intros H.
  exfalso. apply H. rewrite <- (rev_involutive l), E. reflexivity.
Qed.
Lemma last_opt_snoc {A} (l : list A) a : last_opt (l ++ [a]) = Some a.
Proof. unfold last_opt. rewrite rev_app_distr. reflexivity. Qed.

Lemma record_resubmit_spec t w w' :
  wt_inv w -> record_resubmit_transaction t w = Done w' ->
  exists b l last,
    let k := tx_nonce t in
    row_sent w k b l /\ last_opt l = Some last /\
    equal_ignoring_fee_and_amount (st_tx (rs_tx last)) t = true /\
    let tr := Build_Resubmittable t (rs_strategy last) in
    ((exists c, row_created w k b c /\
       w' = set_created (Mkm (binsert b tr (bremove b (by_alt (created w))))
                             (binsert k b (bremove k (by_key (created w))))) w) \/
     (bget k (by_key (created w)) = None /\ bget b (by_alt (created w)) = None /\
       w' = set_created (Mkm (binsert b tr (by_alt (created w))) (binsert k b (by_key (created w)))) w)).
Proof.
  intros Hi H. unfold record_resubmit_transaction, expect_last_sent_tx_entry in H. inv_res.
  destruct x as [b0 last0]. destruct x0 as [b l]. inv_res.
  apply mkm_get_entry_row in H1.
  exists b0, l, last0. cbn. split; auto. split; auto. split; auto.
  apply expect_inserted_ok in H4. apply cleanup_created_spec in H3.
  destruct H3 as [(a & c & Hrow & ->)|(Hk & ->)].
  - assert (a = b0) as -> by (eapply agree_key; eauto).
    left. exists c. split; auto.
    apply mkm_try_insert_ok in H4 as (_ & _ & ->). reflexivity.
  - right. split; auto.
    apply mkm_try_insert_ok in H4 as (H3 & _ & ->). auto.
Qed.

Lemma wt_inv_set_created_insert w k b t l :
  wt_inv w -> row_sent w k b l ->
  bget k (by_key (created w)) = None -> bget b (by_alt (created w)) = None ->
  tx_nonce (rs_tx t) = k ->
  (exists r, bget b (processed w) = Some r /\ rs_strategy t = strategy_of r) ->
  wt_inv (set_created (Mkm (binsert b t (by_alt (created w))) (binsert k b (by_key (created w)))) w).
Proof.
  intros Hi Hs Hk Hb Hn Hr. pose proof Hi as Hi0. destruct Hi. constructor; cbn; auto.
  - apply mkm_wf_insert; auto.
  - intros b0. rewrite dom_insert, i_proc_dom0. pose proof (row_dom_alt _ _ _ _ Hs). intuition (subst; auto).
  - intros b0. rewrite dom_insert, i_mr_dom0. pose proof (row_dom_alt _ _ _ _ Hs). intuition (subst; auto).
  - intros k' a f Hf. destruct (i_fin_excl0 _ _ _ Hf) as (H1 & H2 & H3 & H4).
    destruct Hs as [Hs1 Hs2].
    rewrite !bget_insert_ne; auto; intros ->; congruence.
  - intros k1 a1 v1 k2 a2 v2 H1 H2. apply row_insert in H1; auto.
    destruct H1 as [(-> & -> & ->)|H1]; [|eauto].
    split; intros ->.
    + destruct (row_fun_key _ _ _ _ _ _ Hs H2); auto.
    + destruct (row_fun_alt _ _ _ _ _ _ i_sent0 Hs H2); auto.
  - intros k'. rewrite dom_insert. intros [[->|H]|H]; auto.
    apply i_lt0. right; left. eapply row_dom_key; eauto.
  - intros k1 a1 t1 H1. apply row_insert in H1; auto.
    destruct H1 as [(-> & -> & ->)|H1]; auto.
Qed.

Lemma wt_inv_set_created_remove w k b c l :
  wt_inv w -> row_sent w k b l -> row_created w k b c ->
  wt_inv (set_created (Mkm (bremove b (by_alt (created w))) (bremove k (by_key (created w)))) w).
Proof.
  intros Hi Hs Hc. destruct Hi. constructor; cbn; auto.
  - eapply mkm_wf_remove; eauto. destruct Hc; auto.
  - intros b0. rewrite dom_remove, i_proc_dom0. pose proof (row_dom_alt _ _ _ _ Hs).
    destruct (N.eq_dec b0 b) as [->|]; tauto.
  - intros b0. rewrite dom_remove, i_mr_dom0. pose proof (row_dom_alt _ _ _ _ Hs).
    destruct (N.eq_dec b0 b) as [->|]; tauto.
  - intros k' a f Hf. destruct (i_fin_excl0 _ _ _ Hf) as (H1 & H2 & H3 & H4).
    rewrite !bget_remove, H1, H3. destruct (keqb k' k), (keqb a b); auto.
  - intros k1 a1 v1 k2 a2 v2 H1 H2. apply (row_remove _ k b c) in H1 as [Hne H1]; eauto.
  - intros k'. rewrite dom_remove. intros H; apply i_lt0. tauto.
  - intros k1 a1 t1 H1. apply (row_remove _ k b c) in H1 as [Hne H1]; eauto.
Qed.

Lemma inv_record_resubmit t w w' :
  wt_inv w -> record_resubmit_transaction t w = Done w' -> wt_inv w'.
Proof.
  intros Hi H. destruct (record_resubmit_spec _ _ _ Hi H) as (b & l & last & Hs & Hl & He & Hcase).
  destruct (i_sent_tx w Hi _ _ _ Hs) as (_ & r & Hr & Hall).
  destruct (Hall last (last_opt_in _ _ Hl)) as (_ & Hst).
  destruct Hcase as [(c & Hc & ->)|(Hk & Hb & ->)].
  - pose proof (wt_inv_set_created_remove w _ _ _ _ Hi Hs Hc) as Hi'.
    apply (wt_inv_set_created_insert _ (tx_nonce t) b
             (Build_Resubmittable t (rs_strategy last)) l) in Hi'; cbn; auto.
    + apply bget_remove_eq.
    + apply bget_remove_eq.
    + eauto.
  - eapply wt_inv_set_created_insert; eauto.
Qed.

(** Reimbursement tables *)
Lemma inv_record_reimbursement_request i r w w' :
  wt_inv w -> record_reimbursement_request i r w = Done w' -> wt_inv w'.
Proof.
  intros Hi H. unfold record_reimbursement_request in H. inv_res.
  apply negb_true_iff in H0, H1, H2. apply bmem_false in H0, H1, H2.
  destruct Hi. constructor; cbn; auto.
  - apply bsorted_insert; auto.
  - intros j. rewrite dom_insert. intros [->|]; auto.
Qed.

Lemma inv_record_quarantined_reimbursement i w :
  wt_inv w -> wt_inv (record_quarantined_reimbursement i w).
Proof.
  intros []. constructor; cbn; auto.
  - apply bsorted_remove; auto.
  - apply bsorted_insert; auto.
  - intros j. rewrite dom_remove. intros [Hne Hd]. rewrite bget_insert_ne; auto.
Qed.

Lemma inv_record_finalized_reimbursement i b w w' :
  wt_inv w -> record_finalized_reimbursement i b w = Done w' -> wt_inv w'.
Proof.
  intros Hi H. unfold record_finalized_reimbursement in H. inv_res.
  destruct Hi. constructor; cbn; auto.
  - apply bsorted_remove; auto.
  - apply bsorted_insert; auto.
  - intros j. rewrite dom_remove. intros [Hne Hd]. rewrite bget_insert_ne; auto.
Qed.

(** Finalization *)
Lemma try_finalize_spec s r f :
  try_finalize s r = Some f <->
  st_hash s = rc_transaction_hash r /\ rc_effective_gas_price r <= tx_max_fee_per_gas (st_tx s) /\
  rc_gas_used r <= tx_gas_limit (st_tx s) /\ f = {| ft_tx := s; ft_receipt := r |}.
Proof.
  unfold try_finalize.
  destruct (st_hash s =? rc_transaction_hash r) eqn:E1; cbn.
  2:{ split; [discriminate|]. intros (H & _). apply N.eqb_neq in E1. congruence. }
  apply N.eqb_eq in E1.
  destruct (tx_max_fee_per_gas (st_tx s) <? rc_effective_gas_price r) eqn:E2.
  { split; [discriminate|]. intros (_ & H & _). apply N.ltb_lt in E2. lia. }
  destruct (tx_gas_limit (st_tx s) <? rc_gas_used r) eqn:E3.
  { split; [discriminate|]. intros (_ & _ & H & _). apply N.ltb_lt in E3. lia. }
  apply N.ltb_ge in E2, E3. split.
  - injection 1 as <-. auto.
  - intros (_ & _ & _ & ->). auto.
Qed.

(** The tables after finalizing, before any reimbursement request. *)
Definition finalized_tables (k b : N) (f : FinalizedTx) (w : WT) : WT :=
  {| pending := pending w; processed := processed w;
     created := Mkm (bremove b (by_alt (created w))) (bremove k (by_key (created w)));
     sent := Mkm (bremove b (by_alt (sent w))) (bremove k (by_key (sent w)));
     finalized := Mkm (binsert b f (by_alt (finalized w))) (binsert k b (by_key (finalized w)));
     next_nonce := next_nonce w;
     maybe_reimburse := bremove b (maybe_reimburse w);
     reimb_requests := reimb_requests w; reimbursed := reimbursed w |}.

Lemma mkm_eta {K A V} (m : mkm K A V) : Mkm (by_alt m) (by_key m) = m.
Proof. destruct m; reflexivity. Qed.

Lemma record_finalized_spec b r w w' :
  wt_inv w -> record_finalized_transaction b r w = Done w' ->
  exists k l s req,
    row_sent w k b l /\ In s l /\
    find (fun t => st_hash (rs_tx t) =? rc_transaction_hash r) l = Some s /\
    bget b (processed w) = Some req /\
    try_finalize (rs_tx s) r = Some {| ft_tx := rs_tx s; ft_receipt := r |} /\
    tx_nonce (st_tx (rs_tx s)) = k /\
    let f := {| ft_tx := rs_tx s; ft_receipt := r |} in
    let w1 := finalized_tables k b f w in
    (if is_failure (rc_status r)
     then record_reimbursement_request (ri_of_request req) (reimbursement_of req b f r) w1 = Done w'
     else w' = w1).
Proof.
  intros Hi H. unfold record_finalized_transaction in H. inv_res.
  apply (get_alt_row _ _ _ (i_sent w Hi)) in H0 as (k & Hrow).
  pose proof (find_some _ _ H1) as [Hin _].
  destruct (i_sent_tx w Hi _ _ _ Hrow) as (_ & req & Hreq & Hall).
  destruct (Hall _ Hin) as (Hn & Hst).
  destruct x2 as [sent' o]. inv_res.
  rewrite Hn in *.
  rewrite (mkm_remove_present _ _ _ _ Hrow) in H3. injection H3 as <- <-.
  assert (Hcr : x2 = Mkm (bremove b (by_alt (created w))) (bremove k (by_key (created w)))).
  { apply cleanup_created_spec in H0. destruct H0 as [(a & c & Hc & ->)|(Hk & ->)].
    - assert (a = b) as -> by (eapply agree_key; eauto). reflexivity.
    - rewrite (bremove_notin k); auto. rewrite bremove_notin; [rewrite mkm_eta; reflexivity|].
      destruct (bget b (by_alt (created w))) eqn:E; auto.
      destruct (get_alt_row _ _ _ (i_created w Hi) E) as (k' & Hc).
      assert (k' = k) as -> by (eapply agree_alt; eauto). destruct Hc; congruence. }
  subst x2.
  apply expect_inserted_ok in H4.
  apply mkm_try_insert_ok in H4 as (Hfa & Hfk & ->).
  cbn in H6. rewrite Hreq in H6. injection H6 as <-.
  pose proof (proj1 (try_finalize_spec _ _ _) H2) as (_ & _ & _ & ->).
  exists k, x, x0, req. split; auto. split; auto. split; auto. split; auto. split; auto. split; auto.
  cbn. destruct (is_failure (rc_status r)); [exact H|]. inversion H. reflexivity.
Qed.

Lemma inv_finalized_tables k b f l s w :
  wt_inv w -> row_sent w k b l -> In s l -> ft_tx f = rs_tx s ->
  st_hash (ft_tx f) = rc_transaction_hash (ft_receipt f) ->
  wt_inv (finalized_tables k b f w).
Proof.
  intros Hi Hrow Hin Hf Hh. unfold finalized_tables.
  assert (Hfk : bget k (by_key (finalized w)) = None).
  { destruct (bget k (by_key (finalized w))) eqn:E; auto.
    destruct (get_key_row _ _ _ (i_fin w Hi) E) as (v & Hv).
    destruct (i_fin_excl w Hi _ _ _ Hv) as (_ & H & _). destruct Hrow; congruence. }
  assert (Hfb : bget b (by_alt (finalized w)) = None).
  { destruct (bget b (by_alt (finalized w))) eqn:E; auto.
    destruct (get_alt_row _ _ _ (i_fin w Hi) E) as (v & Hv).
    destruct (i_fin_excl w Hi _ _ _ Hv) as (_ & _ & _ & H). destruct Hrow; congruence. }
  destruct (i_sent_tx w Hi _ _ _ Hrow) as (_ & req & Hreq & Hall).
  destruct (Hall _ Hin) as (Hn & Hst).
  assert (Hcwf : mkm_wf (Mkm (bremove b (by_alt (created w))) (bremove k (by_key (created w)))) /\
            forall k' a' v', row (Mkm (bremove b (by_alt (created w))) (bremove k (by_key (created w)))) k' a' v'
               <-> k' <> k /\ row_created w k' a' v').
  { destruct (bget k (by_key (created w))) as [a|] eqn:E.
    - destruct (get_key_row _ _ _ (i_created w Hi) E) as (c & Hc).
      assert (a = b) as -> by (eapply agree_key; eauto).
      split.
      + eapply mkm_wf_remove; eauto. apply i_created; auto.
      + intros. eapply row_remove; eauto. apply i_created; auto.
    - rewrite (bremove_notin k); auto. rewrite bremove_notin.
      + rewrite mkm_eta. split; [apply i_created; auto|]. intros. split; [|tauto].
        intros Hc; split; auto. intros ->. destruct Hc; congruence.
      + destruct (bget b (by_alt (created w))) eqn:E1; auto.
        destruct (get_alt_row _ _ _ (i_created w Hi) E1) as (k' & Hc).
        assert (k' = k) as -> by (eapply agree_alt; eauto). destruct Hc; congruence. }
  destruct Hcwf as (Hcwf & Hcrow).
  assert (Hsrow : forall k' a' v', row (Mkm (bremove b (by_alt (sent w))) (bremove k (by_key (sent w)))) k' a' v'
               <-> k' <> k /\ row_sent w k' a' v').
  { intros. eapply row_remove; eauto. apply i_sent; auto. }
  pose proof (row_dom_alt _ _ _ _ Hrow) as Hdb.
  destruct Hi. constructor; cbn; auto.
  - eapply mkm_wf_remove; eauto. destruct Hrow; auto.
  - apply mkm_wf_insert; auto.
  - apply bsorted_remove; auto.
  - intros b0. rewrite !dom_remove, dom_insert, i_proc_dom0.
    destruct (N.eq_dec b0 b) as [->|]; tauto.
  - intros b0. rewrite !dom_remove, i_mr_dom0.
    destruct (N.eq_dec b0 b) as [->|]; tauto.
  - intros k' a' f' H. apply row_insert in H; auto.
    rewrite !bget_remove.
    destruct H as [(-> & -> & ->)|H]; [rewrite !keqb_refl; auto|].
    destruct (i_fin_excl0 _ _ _ H) as (-> & -> & -> & ->).
    destruct (keqb k' k), (keqb a' b); auto.
  - intros k1 a1 v1 k2 a2 v2 H1 H2. apply Hcrow in H1 as [_ H1]. apply Hsrow in H2 as [_ H2]. eauto.
  - intros k'. rewrite !dom_remove, dom_insert. intros [H|[H|[->|H]]]; apply i_lt0; try tauto.
    right; left. eapply row_dom_key; eauto.
  - intros k1 a1 t1 H1. apply Hcrow in H1 as [_ H1]. eauto.
  - intros k1 a1 t1 H1. apply Hsrow in H1 as [_ H1]. eauto.
  - intros k1 a1 t1 H1. apply row_insert in H1; auto.
    destruct H1 as [(-> & -> & ->)|H1]; [|eauto]. split; auto. rewrite Hf. auto.
Qed.

Lemma inv_record_finalized b r w w' :
  wt_inv w -> record_finalized_transaction b r w = Done w' -> wt_inv w'.
Proof.
  intros Hi H. destruct (record_finalized_spec _ _ _ _ Hi H)
    as (k & l & s & req & Hrow & Hin & _ & Hreq & Htf & Hn & Hcase).
  pose proof (proj1 (try_finalize_spec _ _ _) Htf) as (Hh & _).
  assert (Hi1 : wt_inv (finalized_tables k b {| ft_tx := rs_tx s; ft_receipt := r |} w)).
  { eapply inv_finalized_tables; eauto. }
  cbn in Hcase. destruct (is_failure (rc_status r)).
  - eapply inv_record_reimbursement_request; eauto.
  - subst; auto.
Qed.

(** Nonce override *)
Lemma inv_set_next_nonce n w : wt_inv w -> next_nonce w <= n -> wt_inv (set_next_nonce n w).
Proof.
  intros [] Hle. constructor; cbn; auto. intros k Hk. apply i_lt0 in Hk. lia.
Qed.
