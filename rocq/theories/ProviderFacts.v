(** * Facts for C79 *)

From Coq Require Import Permutation.
From Verif Require Import Base BMap MultiKeyMap Bytes Types Amount Tx CallData Network Hex
  Transactions State Audit Ranges Rlp Parser Memo Driver Rpc Sys SysSpec WithdrawSpec BalanceSpec
  Contract ContractSpec FundsSpec RpcSpec RpcFacts CodecFacts Segments CoreInv SysFacts WeakSteps BurnFacts ProviderSpec.

Lemma service_inj p q : service p = service q -> p = q.
Proof. destruct p, q; cbn; congruence. Qed.

(** Two of a list of two or more providers differ, so one of them is not the liar *)
Lemma filter_two {A} (f : A -> bool) l : NoDup l -> (2 <= List.length (filter f l))%nat ->
  exists x y, x <> y /\ In x l /\ In y l /\ f x = true /\ f y = true.
Proof.
  intros Hn Hl. pose proof (NoDup_filter f Hn) as Hf.
  destruct (filter f l) as [|x [|y r]] eqn:E; cbn in Hl; try lia.
  assert (Hx : In x (filter f l)) by (rewrite E; left; auto). assert (Hy : In y (filter f l)) by (rewrite E; right; left; auto).
  apply filter_In in Hx as [Hx1 Hx2]. apply filter_In in Hy as [Hy1 Hy2].
  exists x, y. inversion Hf as [|? ? H1 _]; subst. split; [|auto]. intros ->. apply H1. left; auto.
Qed.

Lemma provider_dec (p q : Provider) : {p = q} + {p <> q}.
Proof. decide equality. Qed.

Section Agreed.
Context {T : Type}.
Variable is_true : T -> Prop.

Definition has_value (r : RpcResult T) : bool := match r with ROk _ => true | RErr _ => false end.
Lemma length_perm {A} (f : A -> bool) l l' : Permutation l l' -> List.length (filter f l) = List.length (filter f l').
Proof.
  induction 1 as [|x l l' _ IH|x y l|l l' l'' _ IH1 _ IH2]; cbn [filter]; auto.
  - destruct (f x); cbn [List.length]; congruence.
  - destruct (f x), (f y); reflexivity.
  - congruence.
Qed.
Lemma values_perm rs rs' : Permutation rs rs' -> values_given (Inconsistent (T := T) rs) = values_given (Inconsistent rs').
Proof. intros H. unfold values_given. apply length_perm, H. Qed.
Lemma values_map (said : Provider -> RpcResult T) ps :
  values_given (Inconsistent (map (fun p => (service p, said p)) ps)) = List.length (filter (fun p => has_value (said p)) ps).
Proof. cbn. induction ps as [|p ps IH]; cbn; auto. unfold has_value at 1. destruct (said p); cbn; rewrite IH; auto. Qed.

Lemma agreed_true net m v : asked_all net is_true m -> agreed m v -> is_true v.
Proof.
  intros (said & Hg & liar & Hl) Ha.
  destruct (two_providers net) as [Hn H2].
  enough (H : exists p, In p (get_providers net) /\ p <> liar /\ said p = ROk v).
  { destruct H as (p & H1 & H3 & H4). exact (Hl p v H1 H3 H4). }
  destruct Ha as [->|[Hv Hall]].
  - cbn in Hg. destruct (get_providers net) as [|p [|q ps]] eqn:E; cbn in H2; try lia.
    destruct (provider_dec p liar) as [->|Hp].
    + exists q. split; [right; left; auto|]. split; [|apply Hg; right; left; auto]. intros ->. inversion Hn as [|? ? H _]; subst. apply H. left; auto.
    + exists p. split; [left; auto|]. split; [auto|apply Hg; left; auto].
  - destruct m as [r|rs]; [cbn in Hv; lia|]. unfold gathered in Hg.
    rewrite (values_perm _ _ Hg), values_map in Hv.
    destruct (filter_two _ _ Hn Hv) as (p & q & Hpq & Hp & Hq & Sp & Sq).
    assert (K : forall x, In x (get_providers net) -> has_value (said x) = true -> said x = ROk v).
    { intros x Hx Sx. destruct (said x) as [y|] eqn:Ex; [|discriminate]. f_equal. apply (Hall (service x)).
      exists rs. split; auto. apply (Permutation_in _ (Permutation_sym Hg)). apply in_map_iff. exists x. rewrite Ex. auto. }
    destruct (provider_dec p liar) as [->|Hne].
    + exists q. split; [auto|]. split; [congruence|]. apply K; auto.
    + exists p. split; [auto|]. split; [auto|]. apply K; auto.
Qed.
End Agreed.

Lemma logs_true net ms m l : asked_all net (true_logs ms) m -> logs_reply m = LogsOk l -> true_logs ms l.
Proof. intros H E. exact (agreed_true _ net m l H (proj1 (logs_reply_ok m l) E)). Qed.

(** What a receipt that the minter uses says is true *)
Definition shown (xs : list Execution) (r : Receipt) : Prop :=
  exists x, In x xs /\ st_hash (xn_tx x) = rc_transaction_hash r /\
    xn_ok x = match rc_status r with TxSuccess => true | TxFailure => false end /\
    xn_gas x = rc_effective_gas_price r * rc_gas_used r.

Section Reach.
Variable self : Principal.
Variable keccak : list N -> Hash.
Variable xs : list Execution.
Variable env : Sys -> Label -> Prop.
Hypothesis Henv : forall s l, env s l -> match l with LAnswer _ (ReReceipts rs) => forall r, In (ReceiptOk r) rs -> shown xs r | _ => True end.

Record shown_all (s : Sys) : Prop := {
  sh_log : forall b r, In (b, r) (finalizations (history (sys_log s))) -> shown xs r;
  sh_reply : forall id t rs, bget id (sys_tasks s) = Some {| fl_task := t; fl_reply := Some (ReReceipts rs) |} ->
    forall r, In (ReceiptOk r) rs -> shown xs r
}.

Lemma shown_reply s l s' : env s l -> Trans self keccak s l s' -> shown_all s -> forall id t rs,
  bget id (sys_tasks s') = Some {| fl_task := t; fl_reply := Some (ReReceipts rs) |} ->
  forall r, In (ReceiptOk r) rs -> shown xs r.
Proof.
  intros He H [_ Hb] i t0 rs Hi. apply Henv in He.
  destruct H as [|k now c nx Hc H|u now c nx Hc H|k now Hc|u now Hc|id t c b Hget Hcall Hallow|id t r Hget Hfit Hno|id now t r c nx Hc Hget H|id trap now t r c Hc Hget Hp H|a now c Hc Ht H].
  all: cbn [bump_next sys_tasks] in Hi; rewrite ?install_tasks in Hi.
  - exact (Hb _ _ _ Hi).
  - destruct (keqb i (sys_next s)); [destruct nx; discriminate|]. exact (Hb _ _ _ Hi).
  - destruct (keqb i (sys_next s)); [destruct nx; discriminate|]. exact (Hb _ _ _ Hi).
  - exact (Hb _ _ _ Hi).
  - exact (Hb _ _ _ Hi).
  - unfold answered in Hi. cbn [with_op with_tasks sys_tasks] in Hi. rewrite bget_insert in Hi.
    destruct (keqb_spec i id) as [->|Hk]; [discriminate|exact (Hb _ _ _ Hi)].
  - unfold answered in Hi. cbn [with_op with_tasks sys_tasks] in Hi. rewrite bget_insert in Hi.
    destruct (keqb_spec i id) as [Hk|Hk]; [|exact (Hb _ _ _ Hi)]. injection Hi as -> ->. exact He.
  - destruct (keqb i id); [destruct nx; discriminate|]. exact (Hb _ _ _ Hi).
  - destruct (keqb i id); [discriminate|]. exact (Hb _ _ _ Hi).
  - cbn in Hi. exact (Hb _ _ _ Hi).
Qed.

Lemma upgrade_finalizations now a c c' : canister_upgrade now a c = Done c' ->
  finalizations (history (snd c')) = finalizations (history (snd c)).
Proof.
  unfold canister_upgrade, post_upgrade. intros H. apply rbind_done in H as (st & _ & H).
  assert (Hp : finalizations (history (pre_upgrade now c)) = finalizations (history (snd c))).
  { unfold pre_upgrade, record_event, history, finalizations. rewrite map_app, flat_map_app. apply app_nil_r. }
  destruct a as [a|].
  - apply process_history in H as (H & _). rewrite H. cbn [snd]. unfold finalizations in *. rewrite flat_map_app, Hp. apply app_nil_r.
  - injection H as <-. exact Hp.
Qed.

Lemma shown_log s l s' : Trans self keccak s l s' -> shown_all s ->
  forall b r, In (b, r) (finalizations (history (sys_log s'))) -> shown xs r.
Proof.
  intros H [Hl Hr] b rc Hd. destruct (trans_wmicros self keccak _ _ _ H) as [(now & Hw)|(a & now & _ & _ & Hu)].
  - apply wmicros_logs in Hw as ((es & Hes & Hj) & _). unfold sys_log in Hd. rewrite Hes in Hd.
    unfold finalizations in Hd. rewrite flat_map_app in Hd. apply in_app_iff in Hd as [Hd|Hd]; [exact (Hl b rc Hd)|].
    apply in_flat_map in Hd as (e & He & Hd). apply Hj in He.
    destruct e; try (destruct Hd; fail). destruct Hd as [Hd|[]]. injection Hd as -> ->.
    destruct l as [k n|u n|id r|id trap n|a n]; cbn [step_emits] in He; try destruct He.
    + exfalso. destruct u; cbn in H0; try destruct H0. destruct H1 as (tk & _ & E). discriminate.
    + destruct H0 as (r & Hget & He).
      destruct He as [[(st & He)|(g & i & y & _ & [E|E])]|He]; try discriminate.
      * apply emits_inv in He. destruct He as (h & l & -> & -> & _ & Hin). exact (Hr _ _ _ Hget rc Hin).
      * exfalso. destruct x; cbn in He; try (destruct He; fail); destruct He as [He|[]]; discriminate.
  - apply (Hl b). unfold sys_log in *. rewrite (upgrade_finalizations _ _ _ _ Hu) in Hd. exact Hd.
Qed.

Lemma shown_reach s : reach self keccak env s -> shown_all s.
Proof.
  apply reach_inv.
  - intros now a s0 H. apply sys_init_inv in H as (st & Hi & Hcore & Ht & _). constructor.
    + unfold sys_log. rewrite Hcore. intros b r [].
    + rewrite Ht. intros id t logs E. discriminate.
  - intros x l x' Hb He H. constructor.
    + exact (shown_log _ _ _ H Hb).
    + exact (shown_reply _ _ _ He H Hb).
Qed.
End Reach.

Lemma one_liar_reports ms xs s l : one_liar ms xs s l -> reports ms l.
Proof.
  destruct l as [| |id r| |]; cbn; auto. destruct r as [| |r| | | | |]; cbn; auto.
  intros (m & Ha & E). destruct r as [logs| |]; cbn; auto. exact (logs_true _ _ _ _ Ha E).
Qed.
Lemma one_liar_shown ms xs s l : one_liar ms xs s l ->
  match l with LAnswer _ (ReReceipts rs) => forall r, In (ReceiptOk r) rs -> shown xs r | _ => True end.
Proof.
  destruct l as [| |id r| |]; cbn; auto. destruct r as [| | | | | | |rs]; cbn; auto.
  intros H r Hr. destruct (H _ Hr) as (m & Ha & E). unfold receipt_reply in E.
  destruct (get_receipt m) as [x|] eqn:G; [|discriminate]. cbn in E. destruct x as [[x|]|]; try discriminate. injection E as ->.
  apply get_receipt_iff in G as (e & Hag & Hi). pose proof (agreed_true _ _ _ _ Ha Hag) as (x & Hx & H1 & H2 & H3).
  destruct Hi as (_ & _ & I1 & I2 & I3 & I4). exists x. split; [exact Hx|]. split; [congruence|]. split.
  - rewrite I4 in H2. destruct (rc_status r), (xn_ok x); congruence.
  - rewrite I1, I2. auto.
Qed.

Lemma one_liar_executed self keccak ms xs s : reach self keccak (one_liar_env ms xs) s ->
  hashes_differ (history (sys_log s)) -> on_the_chain (history (sys_log s)) xs -> executed (history (sys_log s)) xs.
Proof.
  intros Hr Hd [H1 H2 H3]. constructor; auto. intros x Hx. unfold settlements in Hx.
  apply in_flat_map in Hx as ([b r] & Hf & Hx). unfold settlement in Hx. cbn [fst snd] in Hx.
  destruct (find _ (accepted _)) as [q|]; [|destruct Hx]. destruct (find _ (attempts _ b)) as [t|] eqn:Ft; [|destruct Hx].
  destruct Hx as [<-|[]]. apply find_some in Ft as [Ft Et]. apply N.eqb_eq in Et.
  assert (Hs : shown xs r).
  { refine (sh_log _ _ (shown_reach self keccak xs (one_liar_env ms xs) _ s Hr) b r Hf).
    intros s0 l [_ Ho]. exact (one_liar_shown ms xs s0 l Ho). }
  destruct Hs as (y & Hy & E1 & E2 & E3). destruct (H1 y Hy) as (b' & Hb').
  assert (Ey : xn_tx y = t) by (apply (Hd b' b); auto; congruence).
  unfold mined_ok, gas_fee. cbn [se_signed se_receipt]. destruct y as [yt yo yg]; cbn in *. subst yt yo yg.
  exact Hy.
Qed.

(** With three providers the other two suffice when one fails *)
Lemma one_fails {T} net said rs (v : T) p e :
  List.length (get_providers net) = 3%nat -> gathered (get_providers net) said (Inconsistent rs) ->
  said p = RErr e -> (forall q, q <> p -> said q = ROk v) -> agreed (Inconsistent rs) v.
Proof.
  intros H3 Hg Hp Hq. right. unfold gathered in Hg. split.
  - rewrite (values_perm _ _ Hg), values_map.
    assert (El : get_providers net = [LlamaNodes; Ankr; PublicNode]) by (destruct net; cbn in *; try reflexivity; lia).
    rewrite El. cbn [filter]. destruct p; rewrite Hp, !Hq by discriminate; cbn; lia.
  - intros s x (rs' & E & Hin). injection E as <-. apply (Permutation_in _ Hg) in Hin. apply in_map_iff in Hin as (q & E & _).
    injection E as _ E. destruct (provider_dec q p) as [->|Hne]; [congruence|]. rewrite (Hq q Hne) in E. congruence.
Qed.
