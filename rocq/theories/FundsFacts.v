(** * Proofs of C75 *)

From Verif Require Import Base BMap MultiKeyMap Bytes Types Amount Tx CallData Network Hex
  Transactions State Audit Ranges Rlp Parser Memo Driver Sys SysSpec WithdrawSpec DepositSpec
  TokenSpec ReimburseSpec BurnSpec BalanceSpec SolvencySpec ParserSpec Contract ContractSpec FundsSpec
  TxSpec WtInv CoreInv WithdrawFacts StageFacts BalanceFacts SolvencyFacts ReadyFacts ContractFacts.

Lemma took_arrived v a w hs xs now : took v a w hs xs now ->
  holds v a w + arrived v a w hs <= holds v a now + sum_of (cost a) xs.
Proof.
  unfold sum_of, sum. induction 1; cbn; try rewrite H; lia.
Qed.

Lemma sum_filter_split {A} (f : A -> N) (p : A -> bool) l :
  sum_of f l = sum_of f (filter p l) + sum_of f (filter (fun x => negb (p x)) l).
Proof.
  unfold sum_of, sum. induction l as [|x l IH]; [reflexivity|]. cbn. destruct (p x); cbn; lia.
Qed.
Lemma sum_in {A} (f : A -> N) x l : In x l -> f x <= sum_of f l.
Proof.
  unfold sum_of, sum. induction l as [|y l IH]; intros []; cbn; [subst; lia|]. specialize (IH H). lia.
Qed.
Lemma sum_of_map {A B} (f : B -> N) (g : A -> B) l : sum_of f (map g l) = sum_of (fun x => f (g x)) l.
Proof. unfold sum_of. rewrite map_map. reflexivity. Qed.

Lemma key_inj {A K} (key : A -> K) l x y : NoDup (map key l) -> In x l -> In y l -> key x = key y -> x = y.
Proof.
  induction l as [|z l IH]; intros Hn; [intros []|]. cbn in Hn. inversion Hn as [|? ? Hz Hn']; subst.
  intros [<-|H1] [<-|H2] E; auto; exfalso; apply Hz; [rewrite E|rewrite <- E]; apply in_map; auto.
Qed.

(** The words of the call of [transfer] *)
Lemma transfer_amount to n : firstn 32 (skipn 36 (calldata_encode to n)) = amount_to_be n.
Proof.
  unfold calldata_encode, address_to_word.
  replace (ERC20_TRANSFER_SELECTOR ++ (repeat 0 12 ++ be_bytes 20 to) ++ amount_to_be n)
    with ((ERC20_TRANSFER_SELECTOR ++ repeat 0 12 ++ be_bytes 20 to) ++ amount_to_be n)
    by (rewrite <- !app_assoc; reflexivity).
  rewrite skipn_app, skipn_all2 by (rewrite !app_length, repeat_length, be_bytes_length; cbn; lia).
  rewrite !app_length, repeat_length, be_bytes_length. cbn [app].
  replace (36 - _)%nat with 0%nat by (cbn; lia). cbn [skipn].
  apply firstn_all2. unfold amount_to_be. rewrite be_bytes_length. lia.
Qed.

Section Funds.
Variable self : Principal.
Variable keccak : list N -> Hash.
Variable env : Sys -> Label -> Prop.
Hypothesis Henv : forall s l, env s l -> nonce_kept s l.
Variable s : Sys.
Hypothesis Hr : reach self keccak env s.
Let h := history (sys_log s).
Variable xs : list Execution.
Hypothesis Hx : executed h xs.

Lemma one_nonce b t u : In t (attempts h b) -> In u (attempts h b) -> tx_nonce (st_tx t) = tx_nonce (st_tx u).
Proof.
  intros Ht Hu. destruct (reach_wlog self keccak env Henv s Hr) as (Hc & Hp & _).
  apply attempts_made, (p_made _ _ Hp) in Ht. apply attempts_made, (p_made _ _ Hp) in Hu.
  exact (owned_alt _ _ _ _ (core_wt _ _ Hc) Ht Hu).
Qed.

Lemma serves_cost a r net x : tx_serves net r (st_tx (xn_tx x)) ->
  xn_gas x <= tx_gas_limit (st_tx (xn_tx x)) * tx_max_fee_per_gas (st_tx (xn_tx x)) ->
  (a = Native -> request_part a r < 2 ^ 256 - 1) -> cost a x <= request_part a r.
Proof.
  intros (_ & _ & Hs) Hg Hlt. unfold cost, tx_fee_cap in *. pose proof U256_MAX_val as HM.
  destruct a as [|c l].
  - specialize (Hlt eq_refl). rewrite <- HM in Hlt. cbn [request_part] in *. destruct r as [q|q].
    + destruct Hs as (_ & _ & _ & Hs). destruct (xn_ok x); lia.
    + destruct Hs as (_ & Ha & _ & _ & Hs). rewrite Ha. destruct (xn_ok x); lia.
  - cbn [request_part]. destruct r as [q|q].
    + destruct Hs as (_ & -> & _). cbn. rewrite andb_false_r. lia.
    + destruct Hs as (-> & _ & -> & _). destruct (ew_erc20_contract_address q =? c); [|rewrite andb_false_r, andb_false_l; lia].
      destruct (_ && _); [|lia]. rewrite transfer_amount. unfold amount_to_be. rewrite of_be_be_bytes.
      apply N.mod_le. vm_compute. discriminate.
Qed.

Lemma settled_cost a x : In x (settlements h) ->
  cost a {| xn_tx := se_signed x; xn_ok := mined_ok x; xn_gas := gas_fee x |} <=
    match a with Native => spent x | Token c _ => spent_erc20 c x end.
Proof.
  intros Hin. destruct a as [|c l]; [unfold cost, spent; cbn; lia|].
  destruct (settled_all self keccak env Henv s Hr) as (_ & Hs). destruct (Hs x Hin) as (Ha & Ht & _).
  destruct (reach_wlog self keccak env Henv s Hr) as (Hc & Hp & _ & Hv & _).
  destruct (Hv _ _ (attempts_made _ _ _ Ht)) as (r & Hra & Hri & Hrs).
  assert (r = se_request x) as -> by exact (key_inj wr_burn_index _ _ _ (p_acc_nodup _ _ Hp) Hra Ha Hri).
  unfold cost, spent_erc20. cbn [xn_tx xn_ok]. destruct Hrs as (_ & _ & Hrs). destruct (se_request x) as [q|q].
  - destruct Hrs as (_ & -> & _). cbn. rewrite andb_false_r. lia.
  - destruct Hrs as (-> & _ & -> & _). destruct (ew_erc20_contract_address q =? c); [|rewrite !andb_false_r, andb_false_l; lia].
    rewrite !andb_true_r. destruct (mined_ok x); [|lia].
    rewrite transfer_amount. unfold amount_to_be. rewrite of_be_be_bytes.
    apply N.mod_le. vm_compute. discriminate.
Qed.

Lemma on_chain_iff r : on_chain h xs r = true <->
  exists x t, In x xs /\ In t (attempts h (wr_burn_index r)) /\ tx_nonce (st_tx t) = tx_nonce (st_tx (xn_tx x)).
Proof.
  unfold on_chain. rewrite existsb_exists. split.
  - intros (x & Hin & H). apply existsb_exists in H as (t & Ht & H). apply N.eqb_eq in H. eauto.
  - intros (x & t & Hin & Ht & H). exists x. split; auto. apply existsb_exists. exists t. split; auto. apply N.eqb_eq. auto.
Qed.

Lemma final_settlement r : In r (accepted h) -> open_request h r = false ->
  exists x, In x (settlements h) /\ se_request x = r.
Proof.
  intros Ha Ho. unfold open_request in Ho. apply negb_false_iff, existsb_exists in Ho as (f & Hf & E). apply N.eqb_eq in E.
  destruct (settled_all self keccak env Henv s Hr) as (Hm & Hs). fold h in Hm, Hs.
  rewrite <- Hm in Hf. apply in_map_iff in Hf as (x & <- & Hin). cbn in E.
  destruct (reach_wlog self keccak env Henv s Hr) as (_ & Hp & _).
  exists x. split; auto. destruct (Hs x Hin) as (Hra & _).
  exact (key_inj wr_burn_index _ _ _ (p_acc_nodup _ _ Hp) Hra Ha E).
Qed.

Lemma final_on_chain r : In r (accepted h) -> open_request h r = false -> on_chain h xs r = true.
Proof.
  intros Ha Ho. destruct (final_settlement r Ha Ho) as (x & Hin & E). apply on_chain_iff.
  destruct (settled_all self keccak env Henv s Hr) as (_ & Hs). destruct (Hs x Hin) as (_ & Ht & _).
  rewrite E in Ht. exists {| xn_tx := se_signed x; xn_ok := mined_ok x; xn_gas := gas_fee x |}, (se_signed x).
  split; [exact (xd_receipts _ _ Hx x Hin)|]. split; auto.
Qed.

Definition request_nonce (r : WithdrawalRequest) : N :=
  match attempts h (wr_burn_index r) with t :: _ => tx_nonce (st_tx t) | [] => 0 end.

Lemma costs_covered a :
  (a = Native -> forall r, In r (accepted h) -> open_request h r = true -> request_part a r < 2 ^ 256 - 1) ->
  sum_of (cost a) xs + sum_of (request_part a) (to_pay h xs) <= outstanding a h + paid_out a h.
Proof.
  intros Hlt.
  assert (E : sum_of (request_part a) (to_pay h xs) =
    sum_of (request_part a) (filter (fun r => negb (on_chain h xs r)) (filter (open_request h) (accepted h)))).
  { f_equal. unfold to_pay. assert (Hi : forall r, In r (accepted h) -> In r (accepted h)) by auto. revert Hi.
    generalize (accepted h) at 1 3 4. intros l. induction l as [|r l IH]; intros Hi; [reflexivity|]. cbn.
    rewrite IH by (intros; apply Hi; right; auto). destruct (open_request h r) eqn:Eo; [reflexivity|].
    rewrite (final_on_chain r (Hi r (or_introl eq_refl)) Eo). reflexivity. }
  unfold outstanding. rewrite (sum_filter_split (request_part a) (on_chain h xs) (filter (open_request h) (accepted h))), <- E.
  set (open := filter (on_chain h xs) (filter (open_request h) (accepted h))).
  set (g := fun y : Settlement + WithdrawalRequest =>
    match y with inl x => match a with Native => spent x | Token c _ => spent_erc20 c x end | inr r => request_part a r end).
  set (key := fun y : Settlement + WithdrawalRequest =>
    match y with inl x => tx_nonce (st_tx (se_signed x)) | inr r => request_nonce r end).
  assert (H : sum_of (cost a) xs <= sum_of g (map inl (settlements h) ++ map inr open)).
  { apply (sum_inj (fun x => tx_nonce (st_tx (xn_tx x))) key); [exact (xd_once _ _ Hx)|].
    intros x Hin. destruct (xd_signed _ _ Hx x Hin) as (b & Hb).
    destruct (reach_wlog self keccak env Henv s Hr) as (_ & Hp & _ & Hv & _).
    destruct (Hv _ _ (attempts_made _ _ _ Hb)) as (r & Hra & <- & Hrs). fold h in Hra.
    destruct (open_request h r) eqn:Eo.
    - exists (inr r). split; [|split].
      + apply in_or_app. right. apply in_map. apply filter_In. split; [apply filter_In; auto|].
        apply on_chain_iff. eauto.
      + cbn. unfold request_nonce. destruct (attempts h (wr_burn_index r)) as [|t l] eqn:Et; [contradiction|].
        apply (one_nonce (wr_burn_index r)); rewrite Et; [left; auto|exact Hb].
      + cbn. apply (serves_cost a r (evm_network (sys_state s)) x Hrs (xd_gas _ _ Hx x Hin)). intros Ea. apply Hlt; auto.
    - destruct (final_settlement r Hra Eo) as (y & Hy & Er). exists (inl y).
      destruct (settled_all self keccak env Henv s Hr) as (_ & Hs). destruct (Hs y Hy) as (_ & Ht & _). rewrite Er in Ht.
      pose proof (one_nonce _ _ _ Ht Hb) as En. split; [apply in_or_app; left; apply in_map; exact Hy|]. split; [exact En|].
      pose proof (xd_receipts _ _ Hx y Hy) as Hy'.
      assert (x = {| xn_tx := se_signed y; xn_ok := mined_ok y; xn_gas := gas_fee y |}) as ->.
      { apply (key_inj (fun x => tx_nonce (st_tx (xn_tx x))) xs _ _ (xd_once _ _ Hx) Hin Hy'). cbn. auto. }
      exact (settled_cost a y Hy). }
  rewrite sum_app, !sum_of_map in H. unfold g in H.
  assert (Ep : paid_out a h = sum_of (fun x => match a with Native => spent x | Token c _ => spent_erc20 c x end) (settlements h))
    by (destruct a; reflexivity).
  change (fun x : WithdrawalRequest => request_part a x) with (request_part a) in H. rewrite Ep. lia.
Qed.

Lemma follow_covered a ts : can_follow h xs ts ->
  (a = Native -> forall r, In r (accepted h) -> open_request h r = true -> request_part a r < 2 ^ 256 - 1) ->
  sum_of (fun t => cost a (in_full t)) ts <= sum_of (request_part a) (to_pay h xs).
Proof.
  intros (Hn & Ht) Hlt. apply (sum_inj (fun t => tx_nonce (st_tx t)) request_nonce); [exact Hn|].
  intros t Hin. destruct (Ht t Hin) as (r & Hrp & Hb). exists r. split; [exact Hrp|].
  unfold to_pay in Hrp. apply filter_In in Hrp as (Hra & Ho).
  destruct (reach_wlog self keccak env Henv s Hr) as (_ & Hp & _ & Hv & _).
  destruct (Hv _ _ (attempts_made _ _ _ Hb)) as (r' & Hra' & Ei & Hrs).
  assert (r' = r) as -> by exact (key_inj wr_burn_index _ _ _ (p_acc_nodup _ _ Hp) Hra' Hra Ei).
  split.
  - unfold request_nonce. destruct (attempts h (wr_burn_index r)) as [|u l] eqn:Et; [contradiction|].
    apply (one_nonce (wr_burn_index r)); rewrite Et; [left; auto|exact Hb].
  - apply (serves_cost a r (evm_network (sys_state s))); [exact Hrs|cbn; lia|].
    intros Ea. apply (Hlt Ea r Hra). destruct (open_request h r) eqn:Eo; [reflexivity|].
    rewrite (final_on_chain r Hra Eo) in Ho. discriminate.
Qed.
End Funds.

Section Pay.
Variable self : Principal.
Variable keccak : list N -> Hash.
Variable v : Evm.
Variable w : World.
Variable hs : list Happening.
Variable s : Sys.
Hypothesis Hlaw : lawful v.
Hypothesis Hproper : all_proper v hs.
Let env : Sys -> Label -> Prop := fun s l => nonce_kept s l /\ reports (emitted v w hs) l.
Hypothesis Hr : reach self keccak env s.
Variable xs : list Execution.
Hypothesis Hx : executed (history (sys_log s)) xs.
Variable now : World.

Lemma requests_fit : native_apart (sys_state s) -> arrived v Native w hs < 2 ^ 256 - 1 ->
  forall r, In r (accepted (history (sys_log s))) -> open_request (history (sys_log s)) r = true ->
    request_part Native r < 2 ^ 256 - 1.
Proof.
  intros Ha Hlt r H1 H2. pose proof (backed_native self keccak v w hs s Hlaw Hproper Hr Ha) as B.
  pose proof (sum_in (request_part Native) r (filter (open_request (history (sys_log s))) (accepted (history (sys_log s))))
    (proj2 (filter_In _ _ _) (conj H1 H2))) as L. unfold owed, outstanding in B. lia.
Qed.

Lemma funds_native : native_apart (sys_state s) -> took v Native w hs xs now -> arrived v Native w hs < 2 ^ 256 - 1 ->
  still_owed self Native xs s <= holds v Native now.
Proof.
  intros Ha Ht Hlt. pose proof (backed_native self keccak v w hs s Hlaw Hproper Hr Ha) as B.
  pose proof (took_arrived _ _ _ _ _ _ Ht) as T.
  pose proof (costs_covered self keccak env (fun _ _ H => proj1 H) s Hr xs Hx Native (fun _ => requests_fit Ha Hlt)) as C.
  unfold still_owed, owed in *. lia.
Qed.
Lemma funds_token c l sy : listed (sys_state s) l c sy -> l <> native_ledger_id (sys_state s) ->
  standard v (Token c l) -> took v (Token c l) w hs xs now ->
  still_owed self (Token c l) xs s <= holds v (Token c l) now.
Proof.
  intros Hl Hn Hs Ht. pose proof (backed_token self keccak v w hs s Hlaw Hproper Hr c l sy Hl Hn Hs) as B.
  pose proof (took_arrived _ _ _ _ _ _ Ht) as T.
  pose proof (costs_covered self keccak env (fun _ _ H => proj1 H) s Hr xs Hx (Token c l) ltac:(discriminate)) as C.
  unfold still_owed, owed in *. cbn [unspent]. lia.
Qed.

Lemma next_native ts : native_apart (sys_state s) -> took v Native w hs xs now -> arrived v Native w hs < 2 ^ 256 - 1 ->
  can_follow (history (sys_log s)) xs ts -> sum_of (fun t => cost Native (in_full t)) ts <= holds v Native now.
Proof.
  intros Ha Ht Hlt Hf. pose proof (funds_native Ha Ht Hlt) as F.
  pose proof (follow_covered self keccak env (fun _ _ H => proj1 H) s Hr xs Hx Native ts Hf (fun _ => requests_fit Ha Hlt)) as C.
  unfold still_owed in F. lia.
Qed.
Lemma next_token ts c l sy : listed (sys_state s) l c sy -> l <> native_ledger_id (sys_state s) ->
  standard v (Token c l) -> took v (Token c l) w hs xs now -> can_follow (history (sys_log s)) xs ts ->
  sum_of (fun t => cost (Token c l) (in_full t)) ts <= holds v (Token c l) now.
Proof.
  intros Hl Hn Hs Ht Hf. pose proof (funds_token c l sy Hl Hn Hs Ht) as F.
  pose proof (follow_covered self keccak env (fun _ _ H => proj1 H) s Hr xs Hx (Token c l) ts Hf ltac:(discriminate)) as C.
  unfold still_owed in F. lia.
Qed.
End Pay.
