(** * The withdrawal tables are what the event log says. *)

From Verif Require Import Base BMap MultiKeyMap MultiKeyMapFacts Bytes Types Amount Tx CallData
  Network Hex Transactions State Audit Ranges Rlp Parser Memo Driver Sys SysSpec WtInv StateEquiv
  TxSpec WtContent Segments Tasks SysFacts CoreInv Lifting LogFacts UpgradeSpec UpgradeFacts WithdrawSpec.

(** Nonce [k] belongs to withdrawal [b] *)
Definition owned (w : WT) (k b : N) : Prop :=
  bget k (by_key (created w)) = Some b \/ bget k (by_key (sent w)) = Some b \/
  bget k (by_key (finalized w)) = Some b.

Lemma key_row {K A V} `{Ord K} `{Ord A} (m : mkm K A V) k a :
  mkm_wf m -> bget k (by_key m) = Some a -> exists v, row m k a v.
Proof. intros. eapply get_key_row; eauto. Qed.

Ltac rows w Hi :=
  repeat match goal with
  | H : bget _ (by_key (created w)) = Some _ |- _ => apply (key_row _ _ _ (i_created w Hi)) in H as (? & H)
  | H : bget _ (by_key (sent w)) = Some _ |- _ => apply (key_row _ _ _ (i_sent w Hi)) in H as (? & H)
  | H : bget _ (by_key (finalized w)) = Some _ |- _ => apply (key_row _ _ _ (i_fin w Hi)) in H as (? & H)
  end.

Lemma owned_key w k b b' : wt_inv w -> owned w k b -> owned w k b' -> b = b'.
Proof.
  intros Hi H1 H2.
  assert (Hx : forall v, row_fin w k b v -> bget k (by_key (created w)) = None /\ bget k (by_key (sent w)) = None)
    by (intros v Hv; apply (i_fin_excl w Hi) in Hv; tauto).
  assert (Hx' : forall v, row_fin w k b' v -> bget k (by_key (created w)) = None /\ bget k (by_key (sent w)) = None)
    by (intros v Hv; apply (i_fin_excl w Hi) in Hv; tauto).
  destruct H1 as [H1|[H1|H1]], H2 as [H2|[H2|H2]]; try congruence; rows w Hi;
    try (eapply agree_key; eauto; fail); try (symmetry; eapply agree_key; eauto; fail);
    exfalso.
  - apply Hx' in H2. destruct H1. intuition congruence.
  - apply Hx' in H2. destruct H1. intuition congruence.
  - apply Hx in H1. destruct H2. intuition congruence.
  - apply Hx in H1. destruct H2. intuition congruence.
Qed.

Lemma owned_alt w k k' b : wt_inv w -> owned w k b -> owned w k' b -> k = k'.
Proof.
  intros Hi H1 H2.
  assert (Hx : forall q v, row_fin w q b v -> bget b (by_alt (created w)) = None /\ bget b (by_alt (sent w)) = None)
    by (intros q v Hv; apply (i_fin_excl w Hi) in Hv; tauto).
  destruct H1 as [H1|[H1|H1]], H2 as [H2|[H2|H2]]; rows w Hi;
    try (eapply agree_alt; eauto; fail); try (symmetry; eapply agree_alt; eauto; fail).
  - eapply (proj1 (row_fun_alt _ _ _ _ _ _ (i_created w Hi) H1 H2)).
  - exfalso. apply Hx in H2. destruct H1. intuition congruence.
  - eapply (proj1 (row_fun_alt _ _ _ _ _ _ (i_sent w Hi) H1 H2)).
  - exfalso. apply Hx in H2. destruct H1. intuition congruence.
  - exfalso. apply Hx in H1. destruct H2. intuition congruence.
  - exfalso. apply Hx in H1. destruct H2. intuition congruence.
  - eapply (proj1 (row_fun_alt _ _ _ _ _ _ (i_fin w Hi) H1 H2)).
Qed.

Lemma owned_processed w k b : wt_inv w -> owned w k b -> exists r, bget b (processed w) = Some r.
Proof.
  intros Hi H. apply dom_ex. apply (i_proc_dom w Hi).
  destruct H as [H|[H|H]]; rows w Hi; destruct H as [_ H]; apply dom_some in H; auto.
Qed.

(** ** Reading one more event *)

Lemma accepted_snoc h e : accepted (h ++ [e]) = accepted h ++ accepted_by e.
Proof. unfold accepted. rewrite flat_map_app. cbn. rewrite app_nil_r. reflexivity. Qed.
Lemma creations_snoc h e : creations (h ++ [e]) = creations h ++ created_by e.
Proof. unfold creations. rewrite flat_map_app. cbn. rewrite app_nil_r. reflexivity. Qed.
Lemma made_snoc h e : transactions_made (h ++ [e]) = transactions_made h ++ made_by e.
Proof. unfold transactions_made. rewrite flat_map_app. cbn. rewrite app_nil_r. reflexivity. Qed.
Lemma attempts_snoc h e b : attempts (h ++ [e]) b = attempts h b ++ signed_by b e.
Proof. unfold attempts. rewrite flat_map_app. cbn. rewrite app_nil_r. reflexivity. Qed.
Lemma unsigned_snoc h e b : unsigned (h ++ [e]) b = unsigned_after b (unsigned h b) e.
Proof. unfold unsigned. rewrite fold_left_app. reflexivity. Qed.
Lemma finalizations_snoc h e : finalizations (h ++ [e]) = finalizations h ++ finalized_by e.
Proof. unfold finalizations. rewrite flat_map_app. cbn. rewrite app_nil_r. reflexivity. Qed.
Lemma expected_snoc h e : expected_nonce (h ++ [e]) = nonce_after (expected_nonce h) e.
Proof. unfold expected_nonce. rewrite fold_left_app. reflexivity. Qed.
Lemma history_snoc now e log : history (record_event now e log) = history log ++ [e].
Proof. unfold history, record_event. rewrite map_app. reflexivity. Qed.

Definition nonempty {A} (l : list A) : option (list A) := match l with [] => None | _ => Some l end.
Lemma nonempty_snoc {A} (l : list A) a : nonempty (l ++ [a]) = Some (l ++ [a]).
Proof. destruct l; reflexivity. Qed.
Lemma nonempty_none {A} (l : list A) : nonempty l = None -> l = [].
Proof. destruct l; [auto|discriminate]. Qed.
Lemma nonempty_some {A} (l l' : list A) : nonempty l = Some l' -> l' = l /\ l <> [].
Proof. destruct l; [discriminate|]. injection 1 as <-. split; congruence. Qed.

(** ** The tables are what the log says *)
Record repr (w : WT) (h : list EventType) : Prop := {
  p_acc_nodup : NoDup (map wr_burn_index (accepted h));
  p_cre_nodup : NoDup (map fst (creations h));
  p_fin_nodup : NoDup (map fst (finalizations h));
  p_pending : forall r, In r (pending w) <->
    In r (accepted h) /\ ~ In (wr_burn_index r) (map fst (creations h));
  p_processed : forall b r, bget b (processed w) = Some r <->
    In r (accepted h) /\ wr_burn_index r = b /\ In b (map fst (creations h));
  p_created : forall b, option_map rs_tx (bget b (by_alt (created w))) = unsigned h b;
  p_sent : forall b, ~ In b (map fst (finalizations h)) ->
    option_map (map rs_tx) (bget b (by_alt (sent w))) = nonempty (attempts h b);
  p_fin : forall b f, bget b (by_alt (finalized w)) = Some f ->
    In (b, ft_receipt f) (finalizations h) /\ In (ft_tx f) (attempts h b);
  p_fin_all : forall b r, In (b, r) (finalizations h) ->
    exists f, bget b (by_alt (finalized w)) = Some f /\ ft_receipt f = r;
  p_nonce : next_nonce w = expected_nonce h;
  p_made : forall b t, In (b, t) (transactions_made h) -> owned w (tx_nonce t) b
}.

Lemma creations_made h b t : In (b, t) (creations h) -> In (b, t) (transactions_made h).
Proof.
  unfold creations, transactions_made. rewrite !in_flat_map. intros (e & He & Hin).
  exists e. split; auto. destruct e; cbn in *; tauto.
Qed.
Lemma attempts_made h b s : In s (attempts h b) -> In (b, st_tx s) (transactions_made h).
Proof.
  unfold attempts, transactions_made. rewrite !in_flat_map. intros (e & He & Hin).
  exists e. split; auto. destruct e; cbn in *; try tauto.
  destruct (N.eqb_spec withdrawal_id b); [|destruct Hin]. destruct Hin as [<-|[]]. subst. auto.
Qed.

Lemma in_map_fst {A B} (l : list (A * B)) a : In a (map fst l) <-> exists b, In (a, b) l.
Proof.
  rewrite in_map_iff. split.
  - intros ([x y] & <- & H). exists y; auto.
  - intros (b & H). exists (a, b); auto.
Qed.

Lemma last_opt_map {A B} (f : A -> B) l a : last_opt l = Some a -> last_opt (map f l) = Some (f a).
Proof.
  unfold last_opt. rewrite <- map_rev. destruct (rev l); [discriminate|]. cbn. intros H.
  injection H as <-. reflexivity.
Qed.

Section Repr.
Variables (w : WT) (h : list EventType).
Hypothesis Hi : wt_inv w.
Hypothesis Hr : repr w h.

Lemma repr_creation_processed b : In b (map fst (creations h)) -> exists r, bget b (processed w) = Some r.
Proof.
  intros H. apply in_map_fst in H as (t & H). apply creations_made in H.
  apply (p_made w h Hr) in H. eapply owned_processed; eauto.
Qed.

Lemma repr_processed_creation b : dom b (processed w) <-> In b (map fst (creations h)).
Proof.
  rewrite dom_ex. split; [|apply repr_creation_processed].
  intros (r & H). apply (p_processed w h Hr) in H. tauto.
Qed.

Lemma repr_accepted b : In b (map wr_burn_index (accepted h)) <->
  (exists r, In r (pending w) /\ wr_burn_index r = b) \/ dom b (processed w).
Proof.
  rewrite in_map_iff, dom_ex. split.
  - intros (r & <- & H). destruct (in_dec N.eq_dec (wr_burn_index r) (map fst (creations h))).
    + right. exists r. apply (p_processed w h Hr). auto.
    + left. exists r. split; auto. apply (p_pending w h Hr). auto.
  - intros [(r & H & <-)|(r & H)].
    + exists r. split; auto. apply (p_pending w h Hr) in H. tauto.
    + exists r. apply (p_processed w h Hr) in H. tauto.
Qed.

Lemma sent_not_final k b l : row_sent w k b l -> ~ In b (map fst (finalizations h)).
Proof.
  intros H Hf. apply in_map_fst in Hf as (rc & Hf). apply (p_fin_all w h Hr) in Hf as (f & Hf & _).
  apply (get_alt_row _ _ _ (i_fin w Hi)) in Hf as (k' & Hf). apply (i_fin_excl w Hi) in Hf.
  destruct H. intuition congruence.
Qed.
Lemma created_not_final k b l : row_created w k b l -> ~ In b (map fst (finalizations h)).
Proof.
  intros H Hf. apply in_map_fst in Hf as (rc & Hf). apply (p_fin_all w h Hr) in Hf as (f & Hf & _).
  apply (get_alt_row _ _ _ (i_fin w Hi)) in Hf as (k' & Hf). apply (i_fin_excl w Hi) in Hf.
  destruct H. intuition congruence.
Qed.

Lemma sent_attempts k b l : row_sent w k b l -> map rs_tx l = attempts h b.
Proof.
  intros H. pose proof (p_sent w h Hr b (sent_not_final _ _ _ H)) as Hs. destruct H as [_ H].
  rewrite H in Hs. cbn in Hs. symmetry in Hs. apply nonempty_some in Hs. tauto.
Qed.
End Repr.

Lemma repr_same w w' h :
  (forall r, In r (pending w') <-> In r (pending w)) -> processed w' = processed w -> created w' = created w ->
  sent w' = sent w -> finalized w' = finalized w -> next_nonce w' = next_nonce w ->
  repr w h -> repr w' h.
Proof.
  intros H1 H2 H3 H4 H5 H6 [ ]. constructor; auto; unfold owned in *; rewrite ?H2, ?H3, ?H4, ?H5, ?H6; auto.
  intros r. rewrite H1. auto.
Qed.

Ltac snoc := rewrite ?accepted_snoc, ?creations_snoc, ?made_snoc, ?attempts_snoc, ?unsigned_snoc,
  ?finalizations_snoc, ?expected_snoc in *.
(** one goal for each field, with the new event read *)
Ltac fields := constructor;
  [ | | |let r := fresh "x" in intros r|let b := fresh "b" in let r := fresh "x" in intros b r
  |let b := fresh "b" in intros b|let b := fresh "b" in let H := fresh "Hnf" in intros b H
  |let b := fresh "b" in let f := fresh "f" in let H := fresh "Hf" in intros b f H
  |let b := fresh "b" in let f := fresh "x" in let H := fresh "Hf" in intros b f H
  | |let b := fresh "b" in let f := fresh "tx" in let H := fresh "Hmade" in intros b f H]; snoc; cbn in *.

(** Events that do not concern the life of a withdrawal *)
Definition passive (e : EventType) : bool :=
  match e with
  | EvInit _ | EvUpgrade _ | EvAcceptedNativeWithdrawalRequest _ | EvAcceptedErc20WithdrawalRequest _
  | EvCreatedTransaction _ _ | EvSignedTransaction _ _ | EvReplacedTransaction _ _
  | EvFinalizedTransaction _ _ => false
  | _ => true
  end.
Lemma repr_passive w h e : passive e = true -> repr w h -> repr w (h ++ [e]).
Proof.
  intros He [ ]. fields; destruct e; try discriminate; cbn in *; rewrite ?app_nil_r in *; auto.
Qed.

Lemma passive_tables e w w' : passive e = true -> wt_event e w = Done w' ->
  pending w' = pending w /\ processed w' = processed w /\ created w' = created w /\
  sent w' = sent w /\ finalized w' = finalized w /\ next_nonce w' = next_nonce w.
Proof.
  intros He H. destruct e; try discriminate; cbn in H; try (injection H as <-; repeat split; fail);
    unfold record_finalized_reimbursement, record_reimbursement_request in H; inv_res; repeat split.
Qed.

(** What the caller of [process_event] guarantees *)
Definition grounded (w : WT) (e : EventType) : Prop :=
  match e with
  | EvSignedTransaction b s => owned w (tx_nonce (st_tx s)) b
  | EvReplacedTransaction b t => exists l last, row_sent w (tx_nonce t) b l /\
      last_opt l = Some last /\ fee_bump (st_tx (rs_tx last)) t
  | _ => True
  end.

Lemma nodup_snoc {A} (l : list A) a : NoDup l -> ~ In a l -> NoDup (l ++ [a]).
Proof. intros. rewrite <- (map_id (l ++ [a])). apply nodup_map_snoc; rewrite ?map_id; auto. intros x Hx ->; auto. Qed.

Lemma repr_accept e r w w' h :
  wt_inv w -> repr w h -> record_withdrawal_request r w = Done w' ->
  (match e with EvAcceptedNativeWithdrawalRequest _ | EvAcceptedErc20WithdrawalRequest _ => True | _ => False end) ->
  accepted_by e = [r] ->
  repr w' (h ++ [e]) /\ ~ In (wr_burn_index r) (map wr_burn_index (accepted h)).
Proof.
  intros Hi Hr H He Ha. apply record_withdrawal_request_spec in H as (H1 & H2 & H3 & H4 & ->).
  assert (Hnp : ~ dom (wr_burn_index r) (processed w)) by (rewrite (i_proc_dom w Hi); tauto).
  assert (Hfresh : ~ In (wr_burn_index r) (map wr_burn_index (accepted h))).
  { rewrite (repr_accepted w h); auto. intros [(x & Hx & Hb)|Hx]; auto. eapply H1; eauto. }
  split; auto. pose proof Hr as [ ].
  assert (Hrest : created_by e = [] /\ made_by e = [] /\ finalized_by e = [] /\
    (forall b o, unsigned_after b o e = o) /\ (forall b, signed_by b e = []) /\ (forall n, nonce_after n e = n)).
  { destruct e; try contradiction; repeat split. }
  destruct Hrest as (Hc & Hm & Hf' & Hu & Hs & Hn).
  fields; rewrite ?Ha, ?Hc, ?Hm, ?Hf', ?Hu, ?Hs, ?Hn, ?app_nil_r in *; auto.
  - apply nodup_map_snoc; auto. intros y Hy Hb. apply Hfresh. rewrite <- Hb. apply in_map; auto.
  - rewrite !in_app_iff, p_pending0. cbn. split.
    + intros [[Hx Hxc]|[<-|[]]]; auto. split; auto. rewrite <- (repr_processed_creation w h); auto.
    + tauto.
  - rewrite p_processed0, in_app_iff. cbn. split; [tauto|]. intros ([Hx|[<-|[]]] & <- & Hxc); auto.
    exfalso. apply Hnp. rewrite (repr_processed_creation w h); auto.
  - apply p_made0; auto.
Qed.

Lemma repr_create b t w w' h :
  wt_inv w -> repr w h -> record_created_transaction b t w = Done w' ->
  repr w' (h ++ [EvCreatedTransaction b t]) /\ may_follow h (EvCreatedTransaction b t).
Proof.
  intros Hi Hr H. apply record_created_spec in H.
  destruct H as (req & c' & _ & Hin & Hb & Hd & Ha & Hn & Hinc & Hins & Hp' & Hm & Hw).
  apply mkm_try_insert_ok in Hins as (Hca & Hck & ->). apply checked_increment_val in Hinc.
  assert (Hnew : ~ In b (map fst (creations h))).
  { rewrite <- (repr_processed_creation w h); auto. }
  split.
  2:{ cbn. split; [|split]; auto; [|rewrite Hn; apply (p_nonce w h Hr)].
      rewrite (repr_accepted w h); eauto. }
  pose proof Hr as [ ]. rewrite Hw. pose proof (i_pend_nodup w Hi) as Hnd.
  assert (Hreq : In req (accepted h)) by (apply p_pending0 in Hin; tauto).
  assert (Hu : forall x, In x (accepted h) -> wr_burn_index x = b -> x = req).
  { intros x Hx Hxb. eapply (nodup_burn_unique (accepted h)); eauto. congruence. }
  fields; rewrite ?app_nil_r in *; auto.
  - rewrite map_app. apply nodup_snoc; auto.
  - rewrite in_remove_pending, p_pending0, map_app, in_app_iff. cbn. split.
    + intros [[Hx Hxc] Hne]. split; auto. intros [|[He|[]]]; auto.
    + intros [Hx Hxc]. split; [split; auto|]. intros ->. apply Hxc. auto.
  - rewrite bget_insert, map_app, in_app_iff. cbn. destruct (keqb_spec b0 b) as [Hk|Hk].
    + split.
      * injection 1 as <-. subst. auto.
      * intros (Hx & Hxb & _). f_equal. symmetry. apply Hu; congruence.
    + rewrite p_processed0. split; [tauto|]. intros (Hx & Hxb & [Hxc|[Hxc|[]]]); auto. congruence.
  - rewrite bget_insert. destruct (keqb_spec b0 b) as [Hk|Hk].
    + subst. rewrite N.eqb_refl. reflexivity.
    + destruct (N.eqb_spec b b0); [congruence|auto].
  - congruence.
  - unfold owned in *. cbn. rewrite bget_insert. apply in_app_iff in Hmade as [Hmade|[Hmade|[]]].
    + destruct (p_made0 _ _ Hmade) as [Hq|[Hq|Hq]]; auto. left.
      destruct (keqb_spec (tx_nonce tx) (next_nonce w)) as [Hk|Hk]; auto. exfalso. rewrite Hk in Hq. pose proof (eq_trans (eq_sym Hck) Hq). discriminate.
    + injection Hmade as <- <-. rewrite Hn, keqb_refl. auto.
Qed.

Lemma repr_sign b s w w' h :
  wt_inv w -> repr w h -> owned w (tx_nonce (st_tx s)) b -> record_signed_transaction s w = Done w' ->
  repr w' (h ++ [EvSignedTransaction b s]) /\ may_follow h (EvSignedTransaction b s).
Proof.
  intros Hi Hr Hown H. apply record_signed_spec in H; auto.
  destruct H as (b' & c & Hrow & Htx & H). cbn zeta in H.
  assert (b' = b) as ->.
  { eapply owned_key; eauto. left. apply Hrow. }
  pose proof (created_not_final w h Hi Hr _ _ _ Hrow) as Hnf.
  pose proof Hr as [ ].
  assert (Hun : unsigned h b = Some (st_tx s)).
  { rewrite <- p_created0. destruct Hrow as [_ Hrow]. rewrite Hrow. cbn. congruence. }
  split; [|exact Hun]. set (k := tx_nonce (st_tx s)) in *.
  assert (Hsame : pending w' = pending w /\ processed w' = processed w /\
    created w' = Mkm (bremove b (by_alt (created w))) (bremove k (by_key (created w))) /\
    finalized w' = finalized w /\ next_nonce w' = next_nonce w /\
    (forall b', b' <> b -> bget b' (by_alt (sent w')) = bget b' (by_alt (sent w))) /\
    option_map (map rs_tx) (bget b (by_alt (sent w'))) = Some (attempts h b ++ [s]) /\
    (forall k', k' <> k -> bget k' (by_key (sent w')) = bget k' (by_key (sent w))) /\
    bget k (by_key (sent w')) = Some b).
  { destruct H as [(l & Hs & ->)|(Hs1 & Hs2 & ->)]; cbn; repeat split; auto.
    - intros. rewrite bget_insert_ne; auto.
    - rewrite bget_insert_eq. cbn. rewrite map_app. cbn. apply (f_equal (fun x => Some (x ++ [s]))). exact (sent_attempts w h Hi Hr _ _ _ Hs).
    - apply Hs.
    - intros. rewrite bget_insert_ne; auto.
    - rewrite bget_insert_eq. cbn. specialize (p_sent0 b Hnf). rewrite Hs2 in p_sent0. symmetry in p_sent0.
      apply nonempty_none in p_sent0. rewrite p_sent0. reflexivity.
    - intros. rewrite bget_insert_ne; auto.
    - apply bget_insert_eq. }
  destruct Hsame as (E1 & E2 & E3 & E4 & E5 & E6 & E7 & E8 & E9).
  fields; rewrite ?app_nil_r, ?E1, ?E2, ?E3, ?E4, ?E5 in *; cbn; auto.
  - destruct (N.eqb_spec b b0) as [->|Hne]; [rewrite bget_remove_eq; reflexivity|].
    rewrite bget_remove_ne; auto.
  - destruct (N.eqb_spec b b0) as [->|Hne].
    + rewrite E7, nonempty_snoc. reflexivity.
    + rewrite app_nil_r, E6; auto.
  - destruct (p_fin0 _ _ Hf) as [H1 H2]. split; auto. apply in_app_iff. auto.
  - apply in_app_iff in Hmade as [Hmade|[Hmade|[]]].
    + pose proof (p_made0 _ _ Hmade) as Ho. unfold owned in *. rewrite E3, E4. cbn.
      destruct (N.eq_dec (tx_nonce tx) k) as [He|He].
      * rewrite He in *. assert (b0 = b) as -> by (eapply owned_key; eauto). auto.
      * rewrite bget_remove_ne, E8; auto.
    + injection Hmade as <- <-. right. left. auto.
Qed.

Lemma repr_replace b t w w' h :
  wt_inv w -> repr w h -> grounded w (EvReplacedTransaction b t) -> record_resubmit_transaction t w = Done w' ->
  repr w' (h ++ [EvReplacedTransaction b t]) /\ may_follow h (EvReplacedTransaction b t).
Proof.
  intros Hi Hr (l0 & last0 & Hrow0 & Hlast0 & Hbump) H. apply record_resubmit_spec in H; auto.
  destruct H as (b' & l & last & Hrow & Hlast & Heq & H). cbn zeta in *.
  destruct (row_fun_key _ _ _ _ _ _ Hrow0 Hrow) as [-> ->]. clear Hrow0.
  pose proof (sent_not_final w h Hi Hr _ _ _ Hrow) as Hnf.
  pose proof (sent_attempts w h Hi Hr _ _ _ Hrow) as Hatt.
  pose proof Hr as [ ]. set (k := tx_nonce t) in *.
  split.
  2:{ cbn. split; auto. exists (rs_tx last). split.
      - rewrite <- Hatt. exact (last_opt_map rs_tx _ _ Hlast).
      - congruence. }
  assert (Hsame : pending w' = pending w /\ processed w' = processed w /\ sent w' = sent w /\
    finalized w' = finalized w /\ next_nonce w' = next_nonce w /\
    (forall b'', b'' <> b' -> bget b'' (by_alt (created w')) = bget b'' (by_alt (created w))) /\
    option_map rs_tx (bget b' (by_alt (created w'))) = Some t /\
    (forall k', k' <> k -> bget k' (by_key (created w')) = bget k' (by_key (created w)))).
  { destruct H as [(c & Hc & ->)|(Hs1 & Hs2 & ->)]; cbn; repeat split; auto; intros;
      rewrite ?bget_insert_eq, ?bget_insert_ne, ?bget_remove_ne; auto. }
  destruct Hsame as (E1 & E2 & E3 & E4 & E5 & E6 & E7 & E8).
  fields; rewrite ?app_nil_r, ?E1, ?E2, ?E3, ?E4, ?E5 in *; cbn; auto.
  - destruct (N.eqb_spec b' b) as [->|Hne]; auto. rewrite E6; auto.
  - unfold owned. rewrite E3, E4. apply in_app_iff in Hmade as [Hmade|[Hmade|[]]].
    + pose proof (p_made0 _ _ Hmade) as Ho.
      destruct (N.eq_dec (tx_nonce tx) k) as [He|He].
      * rewrite He in *. assert (b = b') as ->.
        { eapply owned_key; eauto. right. left. apply Hrow. }
        right. left. apply Hrow.
      * rewrite E8; auto.
    + injection Hmade as <- <-. right. left. apply Hrow.
Qed.

Lemma repr_finalize b rc w w' h :
  wt_inv w -> repr w h -> record_finalized_transaction b rc w = Done w' ->
  repr w' (h ++ [EvFinalizedTransaction b rc]) /\ may_follow h (EvFinalizedTransaction b rc).
Proof.
  intros Hi Hr H. apply record_finalized_spec in H; auto.
  destruct H as (k & l & s & req & Hrow & Hin & _ & Hreq & Htry & Hk & H). cbn zeta in *.
  set (f := {| ft_tx := rs_tx s; ft_receipt := rc |}) in *.
  pose proof (sent_not_final w h Hi Hr _ _ _ Hrow) as Hnf.
  pose proof (sent_attempts w h Hi Hr _ _ _ Hrow) as Hatt.
  assert (Hs : In (rs_tx s) (attempts h b)) by (rewrite <- Hatt; apply in_map; auto).
  split.
  2:{ cbn. split; auto. exists (rs_tx s). split; auto. apply try_finalize_spec in Htry. tauto. }
  apply repr_same with (w := finalized_tables k b f w);
    try (destruct (is_failure _); [unfold record_reimbursement_request in H; inv_res|subst]; try intros ?; reflexivity).
  pose proof Hr as [ ]. unfold finalized_tables.
  fields; rewrite ?app_nil_r in *; auto.
  - rewrite map_app. apply nodup_snoc; auto.
  - destruct (N.eqb_spec b b0) as [->|Hne]; [rewrite bget_remove_eq; reflexivity|].
    rewrite bget_remove_ne; auto.
  - rewrite map_app, in_app_iff in Hnf0. cbn in Hnf0. rewrite bget_remove_ne; [apply p_sent0|]; tauto || auto.
  - rewrite bget_insert in Hf. rewrite in_app_iff. cbn. destruct (keqb_spec b0 b) as [He|He].
    + injection Hf as <-. subst. cbn. auto.
    + destruct (p_fin0 _ _ Hf). auto.
  - rewrite bget_insert. apply in_app_iff in Hf as [Hf|[Hf|[]]].
    + destruct (keqb_spec b0 b) as [He|He]; [|auto]. subst. exfalso. apply Hnf. apply in_map_fst. eauto.
    + injection Hf as <- <-. rewrite keqb_refl. eexists. split; [reflexivity|reflexivity].
  - pose proof (p_made0 _ _ Hmade) as Ho. unfold owned. cbn. destruct (N.eq_dec (tx_nonce tx) k) as [He|He].
    + rewrite He in *. assert (b0 = b) as ->.
      { eapply owned_key; eauto. right. left. apply Hrow. }
      right. right. apply bget_insert_eq.
    + rewrite !bget_remove_ne, bget_insert_ne; auto.
Qed.

Lemma repr_event e w w' h :
  wt_inv w -> repr w h -> grounded w e -> (forall a, e <> EvInit a) -> wt_event e w = Done w' ->
  repr w' (h ++ [e]) /\ may_follow h e.
Proof.
  intros Hi Hr Hg Hinit H. destruct (passive e) eqn:Hp.
  { split; [|destruct e; cbn; auto; discriminate].
    destruct (passive_tables _ _ _ Hp H) as (H1 & H2 & H3 & H4 & H5 & H6).
    apply repr_passive; auto. eapply repr_same; eauto. intros; rewrite H1; tauto. }
  destruct e; try discriminate; cbn [wt_event grounded] in *.
  - exfalso; eapply Hinit; eauto.
  - (* upgrade *) injection H as <-. split; [|exact Logic.I]. destruct Hr.
    fields; rewrite ?app_nil_r in *; auto.
    + rewrite <- p_nonce0. unfold keep. destruct (ua_next_transaction_nonce a); auto.
    + apply p_made0; auto.
  - destruct (repr_accept (EvAcceptedNativeWithdrawalRequest r) (WNative r) w w' h) as [Ha Hb]; cbn; auto.
    split; auto. cbn. intros ? [<-|[]]; auto.
  - eapply repr_create; eauto.
  - eapply repr_sign; eauto.
  - eapply repr_replace; eauto.
  - eapply repr_finalize; eauto.
  - destruct (repr_accept (EvAcceptedErc20WithdrawalRequest r) (WErc20 r) w w' h) as [Ha Hb]; cbn; auto.
    split; auto. cbn. intros ? [<-|[]]; auto.
Qed.

(** Ownership of a nonce is for ever *)
Lemma owned_event e w w' k b :
  wt_inv w -> wt_event e w = Done w' -> owned w k b -> owned w' k b.
Proof.
  intros Hi H Ho. destruct (passive e) eqn:Hp.
  { destruct (passive_tables _ _ _ Hp H) as (_ & _ & H3 & H4 & H5 & _).
    unfold owned. rewrite H3, H4, H5. exact Ho. }
  destruct e; try discriminate; cbn [wt_event] in H; try (injection H as <-; exact Ho).
  - apply record_withdrawal_request_spec in H as (_ & _ & _ & _ & ->). exact Ho.
  - apply record_created_spec in H.
    destruct H as (req & c' & _ & _ & _ & _ & _ & Hn & _ & Hins & _ & _ & ->).
    apply mkm_try_insert_ok in Hins as (_ & Hck & ->). unfold owned in *. cbn.
    destruct Ho as [Ho|[Ho|Ho]]; auto. left. rewrite bget_insert_ne; auto. intros ->.
    pose proof (eq_trans (eq_sym Hck) Ho). discriminate.
  - apply record_signed_spec in H; auto. destruct H as (b' & c & Hrow & Htx & H). cbn zeta in H.
    destruct (N.eq_dec k (tx_nonce (st_tx transaction))) as [->|Hne].
    + assert (b' = b) as -> by (eapply owned_key; eauto; left; apply Hrow).
      right. left. destruct H as [(l & Hs & ->)|(_ & _ & ->)]; cbn; [apply Hs|apply bget_insert_eq].
    + unfold owned in *. destruct H as [(l & Hs & ->)|(_ & _ & ->)]; cbn;
        rewrite ?bget_remove_ne, ?bget_insert_ne by auto; auto.
  - apply record_resubmit_spec in H; auto. destruct H as (b' & l & last & Hrow & _ & _ & H). cbn zeta in *.
    destruct (N.eq_dec k (tx_nonce transaction)) as [->|Hne].
    + assert (b' = b) as -> by (eapply owned_key; eauto; right; left; apply Hrow).
      right. left. destruct H as [(c & Hc & ->)|(_ & _ & ->)]; cbn; apply Hrow.
    + unfold owned in *. destruct H as [(c & Hs & ->)|(_ & _ & ->)]; cbn;
        rewrite ?bget_insert_ne, ?bget_remove_ne by auto; auto.
  - apply record_finalized_spec in H; auto.
    destruct H as (k' & l & s & req & Hrow & _ & _ & _ & _ & _ & H). cbn zeta in *.
    set (f := {| ft_tx := rs_tx s; ft_receipt := receipt |}) in *.
    assert (Ho' : owned (finalized_tables k' withdrawal_id f w) k b).
    { unfold owned, finalized_tables. cbn. destruct (N.eq_dec k k') as [->|Hne].
      - assert (withdrawal_id = b) as -> by (eapply owned_key; eauto; right; left; apply Hrow).
        right. right. apply bget_insert_eq.
      - rewrite !bget_remove_ne, bget_insert_ne; auto. }
    destruct (is_failure _); [unfold record_reimbursement_request in H; inv_res|subst]; exact Ho'.
  - apply record_withdrawal_request_spec in H as (_ & _ & _ & _ & ->). exact Ho.
Qed.

(** Progress is for ever *)
Lemma processed_event e w w' b r :
  wt_inv w -> wt_event e w = Done w' -> bget b (processed w) = Some r -> bget b (processed w') = Some r.
Proof.
  intros Hi H Hb. destruct (passive e) eqn:Hp.
  { destruct (passive_tables _ _ _ Hp H) as (_ & -> & _). exact Hb. }
  destruct e; try discriminate; cbn [wt_event] in H; try (injection H as <-; exact Hb).
  - apply record_withdrawal_request_spec in H as (_ & _ & _ & _ & ->). exact Hb.
  - apply record_created_spec in H.
    destruct H as (req & c' & _ & _ & _ & _ & _ & _ & _ & _ & Hn & _ & ->). cbn.
    rewrite bget_insert_ne; auto. intros ->. congruence.
  - apply record_signed_spec in H; auto. destruct H as (b' & c & _ & _ & H). cbn zeta in H.
    destruct H as [(l & _ & ->)|(_ & _ & ->)]; exact Hb.
  - apply record_resubmit_spec in H; auto. destruct H as (b' & l & last & _ & _ & _ & H). cbn zeta in *.
    destruct H as [(c & _ & ->)|(_ & _ & ->)]; exact Hb.
  - apply record_finalized_spec in H; auto.
    destruct H as (k' & l & s & req & _ & _ & _ & _ & _ & _ & H). cbn zeta in *.
    destruct (is_failure _); [unfold record_reimbursement_request in H; inv_res|subst]; exact Hb.
  - apply record_withdrawal_request_spec in H as (_ & _ & _ & _ & ->). exact Hb.
Qed.

Lemma finalized_event e w w' b f :
  wt_inv w -> wt_event e w = Done w' -> bget b (by_alt (finalized w)) = Some f ->
  bget b (by_alt (finalized w')) = Some f.
Proof.
  intros Hi H Hb. destruct (passive e) eqn:Hp.
  { destruct (passive_tables _ _ _ Hp H) as (_ & _ & _ & _ & -> & _). exact Hb. }
  destruct e; try discriminate; cbn [wt_event] in H; try (injection H as <-; exact Hb).
  - apply record_withdrawal_request_spec in H as (_ & _ & _ & _ & ->). exact Hb.
  - apply record_created_spec in H.
    destruct H as (req & c' & _ & _ & _ & _ & _ & _ & _ & _ & Hn & _ & ->). exact Hb.
  - apply record_signed_spec in H; auto. destruct H as (b' & c & _ & _ & H). cbn zeta in H.
    destruct H as [(l & _ & ->)|(_ & _ & ->)]; exact Hb.
  - apply record_resubmit_spec in H; auto. destruct H as (b' & l & last & _ & _ & _ & H). cbn zeta in *.
    destruct H as [(c & _ & ->)|(_ & _ & ->)]; exact Hb.
  - apply record_finalized_spec in H; auto.
    destruct H as (k' & l & s & req & Hrow & _ & _ & _ & _ & _ & H). cbn zeta in *.
    assert (Hb' : forall x, bget b (binsert withdrawal_id x (by_alt (finalized w))) = Some f).
    { intros x. rewrite bget_insert_ne; auto. intros ->.
      apply (get_alt_row _ _ _ (i_fin w Hi)) in Hb as (k & Hb). apply (i_fin_excl w Hi) in Hb.
      destruct Hrow. intuition congruence. }
    destruct (is_failure _); [unfold record_reimbursement_request in H; inv_res|subst]; apply Hb'.
  - apply record_withdrawal_request_spec in H as (_ & _ & _ & _ & ->). exact Hb.
Qed.

(** sent once, sent or finalized for ever *)
Definition out (w : WT) (b : N) : Prop := dom b (by_alt (sent w)) \/ dom b (by_alt (finalized w)).
Lemma out_event e w w' b :
  wt_inv w -> wt_event e w = Done w' -> out w b -> out w' b.
Proof.
  intros Hi H Hb. destruct (passive e) eqn:Hp.
  { destruct (passive_tables _ _ _ Hp H) as (_ & _ & _ & H4 & H5 & _). unfold out. rewrite H4, H5. exact Hb. }
  destruct e; try discriminate; cbn [wt_event] in H; try (injection H as <-; exact Hb).
  - apply record_withdrawal_request_spec in H as (_ & _ & _ & _ & ->). exact Hb.
  - apply record_created_spec in H.
    destruct H as (req & c' & _ & _ & _ & _ & _ & _ & _ & _ & Hn & _ & ->). exact Hb.
  - apply record_signed_spec in H; auto. destruct H as (b' & c & _ & _ & H). cbn zeta in H. unfold out in *.
    destruct H as [(l & _ & ->)|(_ & _ & ->)]; cbn; rewrite dom_insert; tauto.
  - apply record_resubmit_spec in H; auto. destruct H as (b' & l & last & _ & _ & _ & H). cbn zeta in *.
    destruct H as [(c & _ & ->)|(_ & _ & ->)]; exact Hb.
  - apply record_finalized_spec in H; auto.
    destruct H as (k' & l & s & req & Hrow & _ & _ & _ & _ & _ & H). cbn zeta in *.
    set (f := {| ft_tx := rs_tx s; ft_receipt := receipt |}) in *.
    assert (Hb' : out (finalized_tables k' withdrawal_id f w) b).
    { unfold out, finalized_tables in *. cbn. rewrite dom_insert, dom_remove.
      destruct (N.eq_dec b withdrawal_id); tauto. }
    destruct (is_failure _); [unfold record_reimbursement_request in H; inv_res|subst]; exact Hb'.
  - apply record_withdrawal_request_spec in H as (_ & _ & _ & _ & ->). exact Hb.
Qed.

Lemma in_firstn {A} n (l : list A) a : In a (firstn n l) -> In a l.
Proof. intros H. rewrite <- (firstn_skipn n l). apply in_app_iff. auto. Qed.

Lemma unsigned_made h b t : unsigned h b = Some t -> In (b, t) (transactions_made h).
Proof.
  induction h as [|e h IH] using rev_ind; [discriminate|].
  rewrite unsigned_snoc, made_snoc, in_app_iff. intros H.
  destruct e; cbn in *; auto; destruct (N.eqb_spec withdrawal_id b); subst; auto; try discriminate;
    injection H as <-; auto.
Qed.

(** ** Lifting *)

(** every recorded event was possible *)
Definition follows (h : list EventType) : Prop :=
  forall h1 e h2, h = h1 ++ e :: h2 -> may_follow h1 e.
Lemma follows_snoc h e : follows h -> may_follow h e -> follows (h ++ [e]).
Proof.
  intros Hf He h1 x h2 H. destruct h2 as [|y h2] using rev_ind.
  - apply app_inj_tail in H as [-> ->]. auto.
  - rewrite app_comm_cons, app_assoc in H. apply app_inj_tail in H as [H _]. eapply Hf; eauto.
Qed.

(** every transaction serves an accepted withdrawal *)
Definition all_serve (s : State) (h : list EventType) : Prop :=
  forall b t, In (b, t) (transactions_made h) ->
    exists r, In r (accepted h) /\ wr_burn_index r = b /\ tx_serves (evm_network s) r t.

Section Lifted.
Variable self : Principal.
Variable keccak : list N -> Hash.

Definition wlog (c : Core) : Prop :=
  repr (withdrawals (fst c)) (history (snd c)) /\ follows (history (snd c)) /\
  all_serve (fst c) (history (snd c)).

(** transactions being signed or sent belong to their withdrawal *)
Definition sign_ok (s : State) (t : Task) : Prop :=
  match t with
  | TRetrieveSign _ batch => forall b x, In (b, x) batch -> owned (withdrawals s) (tx_nonce x) b
  | TRetrieveSend txs => forall x, In x txs ->
      exists b r, bget b (processed (withdrawals s)) = Some r /\ tx_serves (evm_network s) r (st_tx x) /\
        signed_ok keccak x
  | _ => True
  end.

Lemma sim_tables s s' : sim s s' ->
  (forall r, In r (pending (withdrawals s')) <-> In r (pending (withdrawals s))) /\
  exists p, withdrawals s' = set_pending p (withdrawals s) /\ evm_network s' = evm_network s.
Proof.
  intros (v & p & Hp & ->). split; [|exists p; split; reflexivity]. cbn. intros r.
  split; intros H; [apply (Permutation_in _ Hp H)|apply (Permutation_in _ (Permutation_sym Hp) H)].
Qed.

Lemma wlog_sim s s' log : sim s s' -> wlog (s, log) -> wlog (s', log).
Proof.
  intros Hs (H1 & H2 & H3). apply sim_tables in Hs as (Hp & p & Hw & Hn). split; [|split]; auto.
  - eapply repr_same; eauto; cbn; rewrite Hw; reflexivity.
  - intros b t Ht. cbn. rewrite Hn. auto.
Qed.

Lemma sign_ok_sim s s' t : sign_ok s t -> sim s s' -> sign_ok s' t.
Proof.
  intros H Hs. apply sim_tables in Hs as (_ & p & Hw & Hn). destruct t; cbn in *; auto.
  - intros b x Hin. unfold owned. rewrite Hw. cbn. apply (H _ _ Hin).
  - intros x Hin. rewrite Hw, Hn. cbn. auto.
Qed.


Lemma plus_10_percent_spec p r : plus_10_percent p = Done r -> 11 * p <= 10 * r \/ r = U256_MAX.
Proof.
  unfold plus_10_percent, checked_div_ceil. cbn. intros H. inv_res.
  assert (Hd : p <= 10 * x).
  { pose proof (N.div_mod p 10 ltac:(lia)). pose proof (N.mod_lt p 10 ltac:(lia)).
    destruct (N.eqb_spec (p mod 10) 0).
    - injection H0 as <-. lia.
    - apply checked_increment_val in H0. lia. }
  unfold checked_add. destruct (p + x <=? U256_MAX); cbn; [lia|auto].
Qed.

Lemma resubmit_bump t st g t' : resubmit t st g = Done (ROk (Some t')) -> fee_bump t t'.
Proof.
  unfold resubmit. intros H. inv_res.
  destruct (price_eqb x (tx_price t)) eqn:Ep; inv_res; [discriminate|].
  destruct (allowed_max_transaction_fee st <? max_transaction_fee x); inv_res; [discriminate|].
  unfold resubmit_transaction_price in H0.
  destruct (_ && _).
  { injection H0 as <-. exfalso. assert (price_eqb (tx_price t) (tx_price t) = true); [|congruence].
    unfold price_eqb. destruct (price_dec (tx_price t) (tx_price t)); congruence. }
  inv_res. unfold fee_bump. cbn. repeat split; auto; [|lia].
  apply plus_10_percent_spec in H. cbn in H. lia.
Qed.

Lemma evt_grounded s e : wt_inv (withdrawals s) -> evt keccak sign_ok s e -> grounded (withdrawals s) e.
Proof.
  intros Hi [(t & r & Hf & H)|[(u & H)|[(t & _ & H)|[(n & ->)|(a & -> & H)]]]]; cbn; auto.
  - apply emits_inv in H. destruct e; cbn in *; auto.
    + destruct H as (c & batch & x & tx & sg & -> & -> & Hin & ->). cbn. eapply Hf; eauto.
    + destruct H as (g & x & k & l & last & -> & -> & Hrow & Hl & Hres).
      destruct (i_sent_tx _ Hi _ _ _ Hrow) as (_ & q & _ & Hall).
      destruct (Hall _ (last_opt_in _ _ Hl)) as (Hn & _). apply resubmit_bump in Hres.
      pose proof Hres as (Hk & _). exists l, last. rewrite Hk, Hn. auto.
  - destruct u; try (destruct H; fail). destruct H as (_ & t & _ & ->). exact Logic.I.
  - destruct t; cbn in H; try (destruct H; fail); destruct H as [<-|[]]; exact Logic.I.
Qed.

Lemma evt_not_init s e : evt keccak sign_ok s e -> forall a, e <> EvInit a.
Proof.
  intros [(t & r & Hf & H)|[(u & H)|[(t & _ & H)|[(n & ->)|(a & -> & H)]]]] b; try discriminate.
  - apply emits_inv in H. intros ->. exact H.
  - destruct u; try (destruct H; fail). destruct H as (_ & t & _ & ->). discriminate.
  - destruct t; cbn in H; try (destruct H; fail); destruct H as [<-|[]]; discriminate.
Qed.

Lemma wlog_evt now s s' e log :
  core_ok keccak (s, log) -> wlog (s, log) -> evt keccak sign_ok s e ->
  apply_state_transition s e = Done s' -> wlog (s', record_event now e log).
Proof.
  intros Hc (H1 & H2 & H3) He Ha. pose proof (core_wt _ _ Hc) as Hi. cbn in Hi, H1, H2, H3.
  pose proof (apply_wt _ _ _ Ha) as Hw. destruct (apply_same _ _ _ Ha) as ((Hnet & _) & _).
  destruct (repr_event e _ _ (history log) Hi H1 (evt_grounded _ _ Hi He) (evt_not_init _ _ He) Hw) as [Hr Hm].
  unfold wlog. cbn. rewrite history_snoc. split; [exact Hr|]. split; [apply follows_snoc; auto|].
  assert (Hold : forall b t, In (b, t) (transactions_made (history log)) ->
    exists r, In r (accepted (history log ++ [e])) /\ wr_burn_index r = b /\ tx_serves (evm_network s') r t).
  { intros b t Ht. destruct (H3 _ _ Ht) as (r & Hr1 & Hr2 & Hr3). exists r. rewrite accepted_snoc, in_app_iff, Hnet. auto. }
  assert (Hec : event_content keccak s e).
  { apply (good_evt keccak sign_ok _ _ He); auto. apply (core_content _ _ Hc). }
  intros b t. rewrite made_snoc, in_app_iff. intros [Ht|Ht]; [auto|].
  assert (Hproc : forall b r, bget b (processed (withdrawals s)) = Some r ->
    In r (accepted (history log ++ [e])) /\ wr_burn_index r = b).
  { intros b' r Hb. rewrite accepted_snoc, in_app_iff. apply (p_processed _ _ H1) in Hb. tauto. }
  destruct e; cbn in Ht; try tauto; destruct Ht as [Ht|[]]; injection Ht as <- <-; rewrite Hnet.
  - (* created *)
    cbn in Hec, Hw. apply record_created_spec in Hw as (req & c' & _ & Hin & Hb & _).
    exists req. split; [|split; auto]. rewrite accepted_snoc, in_app_iff. left. apply (p_pending _ _ H1); auto.
  - (* signed *)
    cbn in Hm. apply unsigned_made in Hm. rewrite <- Hnet. auto.
  - (* replaced *)
    destruct (evt_grounded _ _ Hi He) as (l & last & Hrow & _). cbn in Hec.
    destruct (i_sent_tx _ Hi _ _ _ Hrow) as (_ & q & Hq & _).
    exists q. destruct (Hproc _ _ Hq). split; auto. split; auto. eapply Hec; eauto.
Qed.

Lemma sign_ok_evt s s' e log t :
  core_ok keccak (s, log) -> apply_state_transition s e = Done s' -> sign_ok s t -> sign_ok s' t.
Proof.
  intros Hc Ha H. destruct (apply_same _ _ _ Ha) as ((Hnet & _) & _). apply apply_wt in Ha.
  destruct t; cbn in *; auto.
  - intros b x Hin. eapply owned_event; eauto. apply (core_wt _ _ Hc).
  - intros x Hin. destruct (H x Hin) as (b & r & Hb & Hs). exists b, r. rewrite Hnet. split; auto.
    eapply processed_event; eauto. apply (core_wt _ _ Hc).
Qed.

Lemma sign_batch_owned n w batch b x :
  wt_inv w -> transactions_to_sign_batch n w = Done batch -> In (b, x) batch -> owned w (tx_nonce x) b.
Proof.
  intros Hi H Hin. unfold transactions_to_sign_batch in H. inv_res.
  apply in_map_iff in Hin as ([[k b'] c] & He & Hin). cbn in He. injection He as -> <-.
  assert (Hin' : In (k, b, c) x0). { rewrite <- (firstn_skipn (N.to_nat n) x0). apply in_app_iff. auto. }
  eapply mkm_iter_rows in Hin'; eauto using i_created. destruct (i_created_tx _ Hi _ _ _ Hin') as (-> & _).
  left. apply Hin'.
Qed.

(** The functions an update call can suspend in *)
Definition call_task (t : Task) : Prop :=
  match t with
  | TNativeFee _ | TNativeBurn _ | TErc20Estimate _ | TErc20Fee _ | TErc20GasBurn _ => True
  | _ => False
  end.
Lemma call_next_task now u c c' t : call_next now u c c' (Await t) -> call_task t.
Proof.
  destruct u; cbn.
  - intros (_ & s & _ & [(H & _)|(d & _ & _ & [(H & _)|(_ & _ & H)])]); try discriminate.
    destruct (withdrawal_native_fee s); [destruct H as [_ H]|]; injection H as ->; exact Logic.I.
  - intros (_ & s & _ & [(e & H & _)|(d & tk & _ & _ & _ & [(g & t' & _ & H & He)|(s' & _ & _ & H)])]);
      try discriminate; injection H as ->; [|exact Logic.I].
    unfold estimated_next in He. destruct (withdrawal_native_fee s); [destruct He as [_ He]|]; subst; exact Logic.I.
  - intros (H & _). discriminate.
  - intros (_ & n & x & _ & _ & H). discriminate.
Qed.

Lemma wlog_init now a s : state_of_init a = ROk s -> wlog (s, record_event now (EvInit a) []).
Proof.
  intros H. assert (Hw : withdrawals s = wt_new (ia_next_transaction_nonce a)).
  { apply state_of_init_spec in H as (_ & h & _ & -> & _). reflexivity. }
  unfold wlog. cbn. rewrite Hw. split; [|split].
  - constructor; cbn; try constructor; try tauto; try discriminate; auto; intros; try tauto.
  - intros h1 e h2 He. destruct h1 as [|x h1]; [injection He as <- _; exact Logic.I|].
    destruct h1; discriminate.
  - intros b t [].
Qed.

Lemma sign_ok_next now t r c c' t' :
  core_ok keccak c' -> next_spec now t r c c' t' -> sign_ok (fst c') t'.
Proof.
  intros Hc H. destruct t'; cbn; auto.
  - destruct H as (H & _). intros b x Hin. eapply sign_batch_owned; eauto. apply (core_wt _ _ Hc).
  - destruct H as (_ & n & H). intros x Hin. unfold transactions_to_send_batch in H. inv_res.
    apply in_map_iff in Hin as (q & <- & Hin). apply (in_firstn 5) in Hin.
    apply in_flat_map in Hin as ([[k b] l] & Hin & Hq). cbn in Hq.
    destruct (last_opt l) as [last|] eqn:El; [|destruct Hq]. destruct (n <=? k); [|destruct Hq].
    destruct Hq as [->|[]]. apply last_opt_in in El.
    eapply mkm_iter_rows in Hin; eauto using i_sent, core_wt.
    destruct (c_sent _ _ _ (core_content _ _ Hc) _ _ _ Hin) as (r0 & Hr & Hall).
    destruct (Hall _ El) as (H1 & H2). exists b, r0. auto.
Qed.
Lemma sign_ok_timer now k c c' t' : timer_next now k c c' (Await t') -> sign_ok (fst c') t'.
Proof. intros H. destruct t'; cbn in *; tauto. Qed.
Lemma sign_ok_call now u c c' t' : call_next now u c c' (Await t') -> sign_ok (fst c') t'.
Proof. intros H. apply call_next_task in H. destruct t'; cbn in *; tauto. Qed.

Lemma withdraw_reach (env : Sys -> Label -> Prop) s :
  (forall s l, env s l -> nonce_kept s l) -> reach self keccak env s -> all_kept keccak sign_ok wlog s.
Proof.
  intros He Hr. eapply (kept_reach self keccak sign_ok wlog) with (env := env); eauto.
  - apply wlog_init.
  - intros ? ? ? _ Hw Hs. eapply wlog_sim; eauto.
  - apply wlog_evt.
  - intros. eapply sign_ok_sim; eauto.
  - intros. eapply sign_ok_evt; eauto.
  - intros. eapply sign_ok_next; eauto.
  - intros. eapply sign_ok_timer; eauto.
  - intros. eapply sign_ok_call; eauto.
Qed.

Lemma withdraw_step (env : Sys -> Label -> Prop) s l :
  (forall s l, env s l -> nonce_kept s l) -> reach self keccak env s -> env s l ->
  exists now st, sim (sys_state s) st /\
    micros (evt keccak sign_ok) now (st, sys_log s) (sys_core (step self keccak s l)).
Proof.
  intros He Hr Hl. eapply (reach_step_micros self keccak sign_ok wlog) with (env := env); eauto.
  - apply wlog_init.
  - intros ? ? ? _ Hw Hs. eapply wlog_sim; eauto.
  - apply wlog_evt.
  - intros. eapply sign_ok_sim; eauto.
  - intros. eapply sign_ok_evt; eauto.
  - intros. eapply sign_ok_next; eauto.
  - intros. eapply sign_ok_timer; eauto.
  - intros. eapply sign_ok_call; eauto.
Qed.
End Lifted.
