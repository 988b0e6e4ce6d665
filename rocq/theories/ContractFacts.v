(** * ContractFacts: proofs about the helper contract, for C73 and C74 *)

From Verif Require Import Base BMap MultiKeyMap Bytes Types Amount Tx CallData Network Hex
  Transactions State Audit Ranges Rlp Parser Memo Driver Sys SysSpec SysFacts WithdrawSpec DepositSpec
  TokenSpec ReimburseSpec BurnSpec BalanceSpec SolvencySpec ParserSpec Keccak Contract ContractSpec
  Segments WeakSteps CoreInv BurnFacts Deposits ParserFacts BalanceFacts SolvencyFacts.

Lemma topic_is : keccak256 SIGNATURE = DEPOSIT_TOPIC.
Proof. vm_compute. reflexivity. Qed.

Lemma keccak_length m : List.length (keccak256 m) = 32%nat /\ byte_list (keccak256 m).
Proof.
  unfold keccak256. set (a := absorb _ _ _). clearbody a. cbn [seq flat_map]. rewrite app_nil_r. split.
  - rewrite !app_length. unfold le_bytes. rewrite !rev_length, !be_bytes_length. reflexivity.
  - assert (H : forall x, byte_list (le_bytes 8 x)).
    { intros x. unfold le_bytes, byte_list. apply Forall_rev. apply be_bytes_byte_list. }
    unfold byte_list in *. rewrite !Forall_app. auto.
Qed.

(** The part of a log in an asset *)
Definition log_part (a : Asset) (l : EvmLog) : N :=
  match el_topics l with
  | [_; t; n; _] =>
      match a with
      | Native => if of_be t =? 0 then of_be n else 0
      | Token c _ => if (0 <? c) && (of_be t =? c) then of_be n else 0
      end
  | _ => 0
  end.

Lemma pow256_32 : 256 ^ N.of_nat 32 = 2 ^ 256.
Proof. vm_compute. reflexivity. Qed.
Lemma word_ok n : n < 2 ^ 256 -> num_word n (be_bytes 32 n).
Proof.
  intros H. split; [apply be_bytes_length|]. split; [apply be_bytes_byte_list|].
  apply of_be_be_bytes_small. rewrite pow256_32. exact H.
Qed.
Lemma address_small n : n < 2 ^ 160 -> n < 2 ^ 256.
Proof. intros H. apply N.lt_trans with (2 ^ 160); [exact H|]. apply N.pow_lt_mono_r; lia. Qed.

Lemma log_part_of v a token amount c : token < 2 ^ 160 -> amount < 2 ^ 256 ->
  log_part a (log_of v token amount c) =
    match a with
    | Native => if token =? 0 then amount else 0
    | Token t _ => if (0 <? t) && (token =? t) then amount else 0
    end.
Proof.
  intros Ht Ha. unfold log_part, log_of. cbn [el_topics].
  destruct (word_ok token (address_small _ Ht)) as (_ & _ & ->). destruct (word_ok amount Ha) as (_ & _ & ->). reflexivity.
Qed.

(** ** The contract *)

Lemma deposit_cases v c w w' l : deposit v c w = Some (w', l) ->
  (0 < dc_value c /\ l = log_of v 0 (dc_value c) c /\
   exists w1, pay (dc_sender c) (evm_helper v) (dc_value c) w = Some w1 /\
     pay (evm_helper v) (evm_minter v) (dc_value c) w1 = Some w') \/
  (dc_value c = 0 /\ l = log_of v (dc_token c) (dc_amount c) c /\ evm_code v w (dc_token c) = true /\
   evm_transfer_from v w (dc_token c) (dc_sender c) (evm_minter v) (dc_amount c) = Some w').
Proof.
  unfold deposit. destruct (N.ltb_spec 0 (dc_value c)) as [Hv|Hv].
  - destruct (pay (dc_sender c) (evm_helper v) (dc_value c) w) as [w1|]; [|discriminate].
    destruct (evm_accepts v w1 (dc_value c)); [|discriminate].
    destruct (pay (evm_helper v) (evm_minter v) (dc_value c) w1) as [w2|] eqn:E2; [|discriminate].
    intros H. injection H as <- <-. left. eauto.
  - destruct (evm_code v w (dc_token c)); [|discriminate].
    destruct (evm_transfer_from v w (dc_token c) (dc_sender c) (evm_minter v) (dc_amount c)) as [w1|]; [|discriminate].
    intros H. injection H as <- <-. right. repeat split; auto. lia.
Qed.

Lemma paid v w w1 w' c : lawful v -> proper v c -> pay (dc_sender c) (evm_helper v) (dc_value c) w = Some w1 ->
  pay (evm_helper v) (evm_minter v) (dc_value c) w1 = Some w' ->
  w_native w' (evm_minter v) = w_native w (evm_minter v) + dc_value c.
Proof.
  intros (Hh & _) Hp. unfold pay. destruct (w_native w (dc_sender c) <? dc_value c); [discriminate|].
  intros H. injection H as <-. cbn [w_native w_tokens].
  match goal with |- (if ?b then _ else _) = _ -> _ => destruct b; [discriminate|] end.
  intros H. injection H as <-. cbn [w_native].
  destruct (N.eqb_spec (evm_minter v) (evm_helper v)) as [E|_]; [congruence|].
  destruct (N.eqb_spec (evm_minter v) (dc_sender c)) as [E|_]; [destruct (pr_not_minter _ _ Hp); congruence|].
  rewrite N.eqb_refl. lia.
Qed.

Lemma deposit_backed v a c w w' l : lawful v -> standard v a -> proper v c -> deposit v c w = Some (w', l) ->
  log_part a l <= holds v a w' - holds v a w.
Proof.
  intros Hl Hs Hp H. apply deposit_cases in H as [(Hv & -> & w1 & P1 & P2)|(Hv & -> & Hc & Ht)].
  - rewrite log_part_of; [|reflexivity|exact (pr_value _ _ Hp)]. destruct a as [|t led].
    + rewrite N.eqb_refl. cbn [holds]. rewrite (paid v w w1 w' c Hl Hp P1 P2). lia.
    + destruct (N.ltb_spec 0 t); [|cbn; lia]. destruct (N.eqb_spec 0 t); [lia|]. cbn. lia.
  - rewrite log_part_of; [|exact (pr_token _ _ Hp)|exact (pr_amount _ _ Hp)]. destruct a as [|t led].
    + destruct (N.eqb_spec (dc_token c) 0) as [E|_]; [|lia]. exfalso. rewrite E, (proj2 Hl) in Hc. discriminate.
    + destruct (N.eqb_spec (dc_token c) t) as [E|_]; [|rewrite andb_false_r; lia].
      destruct (0 <? t); [|cbn; lia]. cbn [andb holds]. cbn in Hs. rewrite E in Ht.
      rewrite (Hs _ _ _ _ _ Ht (pr_not_minter _ _ Hp)). lia.
Qed.

Lemma emitted_backed v a : lawful v -> standard v a -> forall hs w, all_proper v hs ->
  sum_of (fun m => log_part a (mi_log m)) (emitted v w hs) <= arrived v a w hs.
Proof.
  intros Hl Hs. induction hs as [|[p b c|w'] hs IH]; intros w Hp; cbn [emitted arrived]; [cbn; lia| |].
  - assert (Hp' : all_proper v hs) by (intros p' b' c' Hin; apply (Hp p' b' c'); right; exact Hin).
    destruct (deposit v c w) as [[w' l]|] eqn:E; [|exact (IH w Hp')].
    pose proof (deposit_backed v a c w w' l Hl Hs (Hp p b c (or_introl eq_refl)) E) as B. specialize (IH w' Hp').
    unfold sum_of, sum in *. cbn. lia.
  - apply IH. intros p b c Hin. apply (Hp p b c). right. exact Hin.
Qed.

(** Every log comes from a proper call *)
Lemma emitted_log v hs : forall w m, all_proper v hs -> In m (emitted v w hs) ->
  exists c w1 w2, In (ByHelper (mi_source m) (mi_block m) c) hs /\ proper v c /\ deposit v c w1 = Some (w2, mi_log m).
Proof.
  induction hs as [|[p b c|w'] hs IH]; intros w m Hp; cbn [emitted]; [intros []| |].
  - assert (Hp' : all_proper v hs) by (intros p' b' c' Hin; apply (Hp p' b' c'); right; exact Hin).
    assert (Hmore : forall w0, In m (emitted v w0 hs) -> exists c0 w1 w2,
      In (ByHelper (mi_source m) (mi_block m) c0) (ByHelper p b c :: hs) /\ proper v c0 /\ deposit v c0 w1 = Some (w2, mi_log m)).
    { intros w0 Hin. destruct (IH w0 m Hp' Hin) as (c0 & w1 & w2 & A & B). exists c0, w1, w2. split; [right; exact A|exact B]. }
    destruct (deposit v c w) as [[w' l]|] eqn:E; [|apply Hmore].
    intros [<-|Hin]; [|exact (Hmore w' Hin)]. exists c, w, w'. split; [left; reflexivity|].
    split; [exact (Hp p b c (or_introl eq_refl))|exact E].
  - intros Hin. assert (Hp' : all_proper v hs) by (intros p b c Hin'; apply (Hp p b c); right; exact Hin').
    destruct (IH w' m Hp' Hin) as (c0 & w1 & w2 & A & B). exists c0, w1, w2. split; [right; exact A|exact B].
Qed.

(** ** Reading its logs *)

Lemma log_words v c w w' l : proper v c -> deposit v c w = Some (w', l) ->
  el_address l = evm_helper v /\
  el_topics l = [DEPOSIT_TOPIC; be_bytes 32 (if 0 <? dc_value c then 0 else dc_token c);
                 be_bytes 32 (if 0 <? dc_value c then dc_value c else dc_amount c); dc_principal c] /\
  el_data l = be_bytes 32 (dc_sender c) ++ dc_subaccount c.
Proof.
  intros Hp H. apply deposit_cases in H as [(Hv & -> & _)|(Hv & -> & _)].
  - destruct (N.ltb_spec 0 (dc_value c)); [|lia]. unfold log_of. cbn [el_address el_topics el_data]. rewrite topic_is. auto.
  - destruct (N.ltb_spec 0 (dc_value c)); [lia|]. unfold log_of. cbn [el_address el_topics el_data]. rewrite topic_is. auto.
Qed.

Lemma named_small v c : proper v c ->
  (if 0 <? dc_value c then 0 else dc_token c) < 2 ^ 160 /\
  (if 0 <? dc_value c then dc_value c else dc_amount c) < 2 ^ 256.
Proof. intros Hp. destruct (0 <? dc_value c); split; try apply Hp; reflexivity. Qed.

Lemma log_encodes v c w w' l e p : proper v c -> deposit v c w = Some (w', l) ->
  le_topics e = el_topics l -> le_data e = el_data l -> owner_principal p -> holds_principal (dc_principal c) p ->
  encodes e (call_deposit c p).
Proof.
  intros Hp H Et Ed Ho Hh. destruct (log_words v c w w' l Hp H) as (_ & T & D). rewrite T in Et. rewrite D in Ed.
  destruct (named_small v c Hp) as (N1 & N2). unfold call_deposit. split; [exact (pr_sender _ _ Hp)|]. split; [exact N1|].
  split; [exact Ho|]. split.
  - do 3 eexists. split; [exact Et|]. cbn [dl_token dl_amount dl_principal].
    split; [apply word_ok; exact (address_small _ N1)|]. split; [apply word_ok; exact N2|]. exact Hh.
  - do 2 eexists. split; [exact Ed|]. cbn [dl_from dl_subaccount].
    split; [apply word_ok; exact (address_small _ (pr_sender _ _ Hp))|].
    split; [apply (pr_subaccount _ _ Hp)|]. split; [apply (pr_subaccount _ _ Hp)|reflexivity].
Qed.

Lemma log_wire v c w w' l e : proper v c -> deposit v c w = Some (w', l) ->
  le_topics e = el_topics l -> le_data e = el_data l -> wire e.
Proof.
  intros Hp H Et Ed. destruct (log_words v c w w' l Hp H) as (_ & T & D). unfold wire. rewrite Et, Ed, T, D. split.
  - constructor; [split; [reflexivity|rewrite <- topic_is; apply keccak_length]|].
    constructor; [split; [apply be_bytes_length|apply be_bytes_byte_list]|].
    constructor; [split; [apply be_bytes_length|apply be_bytes_byte_list]|].
    constructor; [exact (pr_principal _ _ Hp)|constructor].
  - apply Forall_app. split; [apply be_bytes_byte_list|apply (pr_subaccount _ _ Hp)].
Qed.

Lemma log_parses v c w w' l m e p : proper v c -> deposit v c w = Some (w', l) -> mi_log m = l -> renders m e ->
  owner_principal p -> holds_principal (dc_principal c) p ->
  parse_log e = Done (ROk (deposit_of (call_deposit c p) (mi_block m) (fst (mi_source m)) (snd (mi_source m)))).
Proof.
  intros Hp H El (_ & Et & Ed & Hm & Hr) Ho Hh. rewrite El in Et, Ed.
  apply (parse_log_ok e); [exact (log_wire _ _ _ _ _ _ Hp H Et Ed)|].
  do 4 eexists. split; [exact Hm|]. split; [exact Hr|]. split; [|reflexivity].
  exact (log_encodes _ _ _ _ _ _ _ Hp H Et Ed Ho Hh).
Qed.

(** A deposit that is read is the value of the log *)
Lemma parsed_part v hs w m e d a : all_proper v hs -> In m (emitted v w hs) -> renders m e -> parse_log e = Done (ROk d) ->
  dep_source d = mi_source m /\ deposit_part a d <= log_part a (mi_log m).
Proof.
  intros Hp Hm (_ & Et & Ed & Hmi & _) Hd. destruct (emitted_log v hs w m Hp Hm) as (c & w1 & w2 & _ & Pc & Hc).
  apply (parse_log_ok e) in Hd; [|exact (log_wire _ _ _ _ _ _ Pc Hc Et Ed)].
  destruct Hd as (x & b & h & i & Hmi' & _ & Henc & ->).
  destruct (mined_fun e _ _ _ _ _ _ Hmi Hmi') as (<- & <- & <-).
  destruct Henc as (_ & _ & _ & (tw & aw & pw & Ht & (_ & _ & Et1) & (_ & _ & Ea1) & _) & _). rewrite Et in Ht. split.
  - unfold deposit_of. destruct (dl_token x =? 0); cbn; destruct (mi_source m); reflexivity.
  - unfold log_part. rewrite Ht, Et1, Ea1. unfold deposit_of.
    destruct (N.eqb_spec (dl_token x) 0) as [E|E]; destruct a as [|t led]; cbn [deposit_part ne_value ee_value ee_erc20_contract_address]; try lia.
    destruct (N.eqb_spec (dl_token x) t); [|lia]. destruct (N.ltb_spec 0 t); cbn; lia.
Qed.

(** ** Adding up *)
Lemma sum_app {A} (f : A -> N) l1 l2 : sum_of f (l1 ++ l2) = sum_of f l1 + sum_of f l2.
Proof. unfold sum_of, sum. induction l1 as [|x l1 IH]; cbn in *; lia. Qed.
Lemma sum_inj {A B K} (key : A -> K) (key' : B -> K) (f : A -> N) (g : B -> N) (l : list A) : forall l' : list B,
  NoDup (map key l) -> (forall x, In x l -> exists y, In y l' /\ key' y = key x /\ f x <= g y) ->
  sum_of f l <= sum_of g l'.
Proof.
  induction l as [|x l IH]; intros l' Hn H; [unfold sum_of; cbn; lia|].
  cbn in Hn. inversion Hn as [|? ? Hx Hn']; subst. destruct (H x (or_introl eq_refl)) as (y & Hy & Ek & Hf).
  apply in_split in Hy as (l1 & l2 & ->). specialize (IH (l1 ++ l2) Hn').
  assert (Hall : forall z, In z l -> exists y0, In y0 (l1 ++ l2) /\ key' y0 = key z /\ f z <= g y0).
  { intros z Hz. destruct (H z (or_intror Hz)) as (y0 & Hy0 & E0 & F0). exists y0. split; [|auto].
    apply in_app_iff in Hy0 as [Hy0|[->|Hy0]]; [apply in_or_app; auto| |apply in_or_app; auto].
    exfalso. apply Hx. apply in_map_iff. exists z. split; [congruence|exact Hz]. }
  specialize (IH Hall). rewrite sum_app in *. unfold sum_of, sum in *. cbn [map fold_right] in *. lia.
Qed.

(** ** Where accepted deposits come from *)

Definition deposits_of (e : EventType) : list ReceivedDepositEvent :=
  match e with
  | EvAcceptedDeposit x => [DepNative x]
  | EvAcceptedErc20Deposit x => [DepErc20 x]
  | _ => []
  end.
Definition all_deposits (h : list EventType) : list ReceivedDepositEvent := flat_map deposits_of h.

Lemma in_deposits log d : In d (all_deposits (history log)) <-> deposit_accepted log d.
Proof.
  unfold all_deposits, deposit_accepted, history. rewrite in_flat_map. split.
  - intros (e & He & Hd). destruct e; try destruct Hd as [<-|[]]; try destruct Hd; exact He.
  - intros H. destruct d; eexists; (split; [exact H|]); left; reflexivity.
Qed.
Lemma accepted_sum a h : accepted_value a h = sum_of (deposit_part a) (all_deposits h).
Proof.
  induction h as [|e h IH]; [destruct a; reflexivity|].
  unfold all_deposits in *. cbn [flat_map]. rewrite sum_app, <- IH.
  destruct a; unfold accepted_value, native_deposits, erc20_deposits, sum_of, sum; cbn [map fold_right]; f_equal;
    destruct e; cbn; lia.
Qed.
Lemma into_deposits d : deposits_of (into_deposit d) = [d].
Proof. destruct d; reflexivity. Qed.
Lemma event_deposits v e v' : dep_event v e v' -> deposits_of e = [] \/
  exists d, deposits_of e = [d] /\ bget (dep_source d) (dv_wait v) = None /\ bget (dep_source d) (dv_minted v) = None /\
    bget (dep_source d) (dv_invalid v) = None.
Proof.
  intros H. destruct H as [d Ha Hb Hc Hs|k r Ha Hb|k|e k b sy c d Hm Ha Hb Hc|t m Ht|a|e Hx]; try (left; reflexivity).
  - right. exists d. rewrite into_deposits. auto.
  - left. destruct e; try discriminate; reflexivity.
  - left. destruct e; try destruct Hx; reflexivity.
Qed.
Lemma deposits_once log v : dep_hist log v -> NoDup (map dep_source (all_deposits (history log))).
Proof.
  induction 1 as [now a s Hi|log v now e v' Hd IH He]; [constructor|].
  unfold record_event, history, all_deposits in *. rewrite map_app, flat_map_app, map_app. cbn [map flat_map ev_payload]. rewrite app_nil_r.
  destruct (event_deposits _ _ _ He) as [->|(d & -> & A & B & C)]; [cbn; rewrite app_nil_r; exact IH|].
  cbn [map]. apply NoDup_Add with (a := dep_source d) (l := map dep_source (flat_map deposits_of (map ev_payload log))).
  - rewrite <- (app_nil_r (map dep_source (flat_map deposits_of (map ev_payload log)))) at 1. apply Add_app.
  - split; [exact IH|]. intros Hin. apply in_map_iff in Hin as (d' & E & Hd').
    apply in_deposits in Hd'. apply (ho_fate _ _ (hist_good _ _ Hd)) in Hd'. unfold fate in Hd'. rewrite E in Hd'.
    destruct Hd' as [F|[(m & F & _)|F]]; congruence.
Qed.

Section Reach.
Variable self : Principal.
Variable keccak : list N -> Hash.
Variable ms : list Mined.
Variable env : Sys -> Label -> Prop.
Hypothesis Henv : forall s l, env s l -> reports ms l.

Definition sourced (d : ReceivedDepositEvent) : Prop :=
  exists m e, In m ms /\ renders m e /\ parse_log e = Done (ROk d).
Record traced (s : Sys) : Prop := {
  tr_log : forall d, In d (all_deposits (history (sys_log s))) -> sourced d;
  tr_reply : forall id t logs, bget id (sys_tasks s) = Some {| fl_task := t; fl_reply := Some (ReLogs (LogsOk logs)) |} ->
    forall e, In e logs -> exists m, In m ms /\ renders m e
}.

Lemma traced_reply s l s' : reports ms l -> Trans self keccak s l s' -> traced s -> forall id t logs,
  bget id (sys_tasks s') = Some {| fl_task := t; fl_reply := Some (ReLogs (LogsOk logs)) |} ->
  forall e, In e logs -> exists m, In m ms /\ renders m e.
Proof.
  intros He H [_ Hb] i t0 logs Hi.
  destruct H as [|k now c nx Hc H|u now c nx Hc H|k now Hc|u now Hc|id t c b Hget Hcall Hallow|id t r Hget Hfit Hno|id now t r c nx Hc Hget H|id trap now t r c Hc Hget Hp H|a now c Hc Ht H].
  all: cbn [bump_next sys_tasks] in Hi; rewrite ?install_tasks in Hi.
  - exact (Hb _ _ _ Hi).
  - destruct (keqb i (sys_next s)); [destruct nx; discriminate|]. exact (Hb _ _ _ Hi).
  - destruct (keqb i (sys_next s)); [destruct nx; discriminate|]. exact (Hb _ _ _ Hi).
  - exact (Hb _ _ _ Hi).
  - exact (Hb _ _ _ Hi).
  - unfold answered in Hi. cbn [with_op with_tasks sys_tasks] in Hi. rewrite bget_insert in Hi.
    destruct (keqb_spec i id) as [->|Hk]; [discriminate|exact (Hb _ _ _ Hi)].
  - unfold answered in Hi. cbn [with_op with_tasks sys_tasks] in Hi. rewrite bget_insert in Hi.
    destruct (keqb_spec i id) as [Hk|Hk]; [|exact (Hb _ _ _ Hi)]. injection Hi as -> ->. exact He.
  - destruct (keqb i id); [destruct nx; discriminate|]. exact (Hb _ _ _ Hi).
  - destruct (keqb i id); [discriminate|]. exact (Hb _ _ _ Hi).
  - cbn in Hi. exact (Hb _ _ _ Hi).
Qed.

Lemma upgrade_deposits now a c c' : canister_upgrade now a c = Done c' ->
  all_deposits (history (snd c')) = all_deposits (history (snd c)).
Proof.
  unfold canister_upgrade, post_upgrade. intros H. apply rbind_done in H as (st & _ & H).
  assert (Hp : all_deposits (history (pre_upgrade now c)) = all_deposits (history (snd c))).
  { unfold pre_upgrade, record_event, history, all_deposits. rewrite map_app, flat_map_app. apply app_nil_r. }
  destruct a as [a|].
  - apply process_history in H as (H & _). rewrite H. cbn [snd]. unfold all_deposits in *. rewrite flat_map_app, Hp. apply app_nil_r.
  - injection H as <-. exact Hp.
Qed.

Lemma traced_log s l s' : Trans self keccak s l s' -> traced s ->
  forall d, In d (all_deposits (history (sys_log s'))) -> sourced d.
Proof.
  intros H [Hl Hr] d Hd. destruct (trans_wmicros self keccak _ _ _ H) as [(now & Hw)|(a & now & _ & _ & Hu)].
  - apply wmicros_logs in Hw as ((es & Hes & Hj) & _). unfold sys_log in Hd. rewrite Hes in Hd.
    unfold all_deposits in Hd. rewrite flat_map_app in Hd. apply in_app_iff in Hd as [Hd|Hd]; [exact (Hl d Hd)|].
    apply in_flat_map in Hd as (e & He & Hd). apply Hj in He.
    destruct l as [k n|u n|id r|id trap n|a n]; cbn [step_emits] in He; try destruct He.
    + exfalso. destruct u; cbn in H0; try destruct H0. destruct H1 as (tk & _ & ->). destruct Hd.
    + destruct H0 as (r & Hget & He).
      assert (Hemit : exists j logs ds es', x = TScrapeLogs j /\ r = ReLogs (LogsOk logs) /\
        parse_all_logs logs = Done (ds, es') /\ In e (register_events ds es')).
      { destruct He as [[(st & He)|(g & i & y & _ & [-> | ->])]|He].
        - apply emits_inv in He. destruct e; try destruct Hd; exact He.
        - destruct Hd.
        - destruct Hd.
        - exfalso. destruct x; cbn in He; try destruct He as [<-|[]]; try destruct He; destruct Hd. }
      destruct Hemit as (j & logs & ds & es' & -> & -> & Hpa & Hin). unfold register_events in Hin.
      apply in_app_iff in Hin as [Hin|Hin].
      * apply in_map_iff in Hin as (d' & <- & Hd'). rewrite into_deposits in Hd. destruct Hd as [<-|[]].
        apply (proj1 (proj1 (parse_all_spec _ _ _ Hpa) d')) in Hd' as (x & Hx & Hpx).
        destruct (Hr _ _ _ Hget x Hx) as (m & Hm & Hrm). exists m, x. auto.
      * exfalso. apply in_flat_map in Hin as (x & _ & Hx). destruct x; [destruct Hx|]. destruct Hx as [<-|[]]. destruct Hd.
  - apply Hl. unfold sys_log in *. rewrite (upgrade_deposits _ _ _ _ Hu) in Hd. exact Hd.
Qed.

Lemma traced_reach s : reach self keccak env s -> traced s.
Proof.
  apply reach_inv.
  - intros now a s0 H. apply sys_init_inv in H as (st & Hi & Hcore & Ht & _). constructor.
    + unfold sys_log. rewrite Hcore. intros d [].
    + rewrite Ht. intros id t logs E. discriminate.
  - intros x l x' Hb He H. constructor.
    + exact (traced_log _ _ _ H Hb).
    + exact (traced_reply _ _ _ (Henv _ _ He) H Hb).
Qed.
End Reach.

Section Backed.
Variable self : Principal.
Variable keccak : list N -> Hash.
Variable v : Evm.
Variable w : World.
Variable hs : list Happening.
Hypothesis Hlaw : lawful v.
Hypothesis Hproper : all_proper v hs.
Variable env : Sys -> Label -> Prop.
Hypothesis Henv : forall s l, env s l -> reports (emitted v w hs) l.

Lemma deposits_backed s a : reach self keccak env s -> standard v a ->
  accepted_value a (history (sys_log s)) <= arrived v a w hs.
Proof.
  intros Hr Hs. rewrite accepted_sum. eapply N.le_trans; [|exact (emitted_backed v a Hlaw Hs hs w Hproper)].
  apply (sum_inj dep_source mi_source).
  - apply (deposits_once _ (dv (sys_state s))). exact (dep_reach self keccak env s Hr).
  - intros d Hd. destruct (tr_log _ _ (traced_reach self keccak _ env Henv s Hr) d Hd) as (m & e & Hm & Hre & Hp).
    exists m. split; [exact Hm|]. destruct (parsed_part v hs w m e d a Hproper Hm Hre Hp) as (A & B). split; [congruence|exact B].
Qed.

(** Every accepted deposit was made, by the one it names and for the one it names *)
Lemma deposits_made s d : reach self keccak env s -> deposit_accepted (sys_log s) d ->
  exists c block p, In (ByHelper (dep_source d) block c) hs /\ holds_principal (dc_principal c) p /\ owner_principal p /\
    d = deposit_of (call_deposit c p) block (fst (dep_source d)) (snd (dep_source d)).
Proof.
  intros Hr Hd. apply in_deposits in Hd.
  destruct (tr_log _ _ (traced_reach self keccak _ env Henv s Hr) d Hd) as (m & e & Hm & Hre & Hp).
  destruct (parsed_part v hs w m e d Native Hproper Hm Hre Hp) as (A & _).
  destruct (emitted_log v hs w m Hproper Hm) as (c & w1 & w2 & Hin & Pc & Hc).
  pose proof Hre as (_ & Et & Ed & Hmi & Hrem).
  pose proof Hp as Hp'. apply (parse_log_ok e) in Hp'; [|exact (log_wire _ _ _ _ _ _ Pc Hc Et Ed)].
  destruct Hp' as (x & b & h & i & _ & _ & (_ & _ & Ho & (tw & aw & pw & Ht & _ & _ & Hh) & _) & _).
  destruct (log_words v c w1 w2 _ Pc Hc) as (_ & T & _). rewrite Et, T in Ht. injection Ht as _ _ <-.
  exists c, (mi_block m), (dl_principal x). rewrite A. split; [exact Hin|]. split; [exact Hh|]. split; [exact Ho|].
  pose proof (log_parses v c w1 w2 _ m e (dl_principal x) Pc Hc eq_refl Hre Ho Hh) as Q. congruence.
Qed.
End Backed.

Lemma log_refused v c w w' l m e : proper v c -> deposit v c w = Some (w', l) -> mi_log m = l -> renders m e ->
  (forall p, owner_principal p -> ~ holds_principal (dc_principal c) p) ->
  exists x, parse_log e = Done (RErr (InvalidEventSource (mi_source m) x)).
Proof.
  intros Hp H El (_ & Et & Ed & Hm & _) Hno. rewrite El in Et, Ed.
  destruct (parse_log_err e) as [(Hn & _)|(b & h & i & Hm' & [(d & Hd)|(x & Hx)])].
  - destruct (Hn _ _ _ Hm).
  - exfalso. apply (parse_log_ok e) in Hd; [|exact (log_wire _ _ _ _ _ _ Hp H Et Ed)].
    destruct Hd as (y & b' & h' & i' & _ & _ & (_ & _ & Ho & (tw & aw & pw & Ht & _ & _ & Hh) & _) & _).
    destruct (log_words v c w w' l Hp H) as (_ & T & _). rewrite Et, T in Ht. injection Ht as _ _ <-. exact (Hno _ Ho Hh).
  - destruct (mined_fun e _ _ _ _ _ _ Hm Hm') as (_ & <- & <-). exists x. rewrite Hx. destruct (mi_source m). reflexivity.
Qed.

Lemma log_arrives v c w w' l : lawful v -> proper v c -> deposit v c w = Some (w', l) ->
  if 0 <? dc_value c
  then holds v Native w' = holds v Native w + dc_value c
  else forall ledger, standard v (Token (dc_token c) ledger) ->
    holds v (Token (dc_token c) ledger) w' = holds v (Token (dc_token c) ledger) w + dc_amount c.
Proof.
  intros Hl Hp H. apply deposit_cases in H as [(Hv & _ & w1 & P1 & P2)|(Hv & _ & _ & Ht)].
  - destruct (N.ltb_spec 0 (dc_value c)); [|lia]. exact (paid v w w1 w' c Hl Hp P1 P2).
  - destruct (N.ltb_spec 0 (dc_value c)); [lia|]. intros ledger Hs. exact (Hs _ _ _ _ _ Ht (pr_not_minter _ _ Hp)).
Qed.
Lemma not_for_nothing v c w : lawful v -> dc_value c = 0 -> dc_token c = 0 -> deposit v c w = None.
Proof. intros Hl Hv Ht. unfold deposit. rewrite Hv, Ht, (proj2 Hl). reflexivity. Qed.

(** ** What is owed *)
Section Owed.
Variable self : Principal.
Variable keccak : list N -> Hash.
Variable v : Evm.
Variable w : World.
Variable hs : list Happening.
Variable s : Sys.
Hypothesis Hlaw : lawful v.
Hypothesis Hproper : all_proper v hs.
Let env : Sys -> Label -> Prop := fun s l => nonce_kept s l /\ reports (emitted v w hs) l.
Hypothesis Hr : reach self keccak env s.

Lemma backed_native : native_apart (sys_state s) ->
  owed self Native s + unspent Native (sys_state s) + paid_out Native (history (sys_log s)) <= arrived v Native w hs.
Proof.
  intros Ha. pose proof (deposits_backed self keccak v w hs Hlaw Hproper env (fun _ _ H => proj2 H) s Native Hr Logic.I) as D.
  destruct (solvent_native self keccak env (fun _ _ H => proj1 H) s Hr Ha) as (_ & S).
  pose proof (bk_native _ (books_of self keccak env (fun _ _ H => proj1 H) s Hr)) as B.
  unfold owed, paid_out, accepted_value in *. cbn [held] in S. unfold sys_log, sys_state in *. lia.
Qed.
Lemma backed_token c l sy : listed (sys_state s) l c sy -> l <> native_ledger_id (sys_state s) -> standard v (Token c l) ->
  owed self (Token c l) s + paid_out (Token c l) (history (sys_log s)) <= arrived v (Token c l) w hs.
Proof.
  intros Hl Hn Hs. pose proof (deposits_backed self keccak v w hs Hlaw Hproper env (fun _ _ H => proj2 H) s (Token c l) Hr Hs) as D.
  destruct (solvent_token self keccak env (fun _ _ H => proj1 H) s c l sy Hr Hl Hn) as (_ & S).
  pose proof (bk_erc20 _ (books_of self keccak env (fun _ _ H => proj1 H) s Hr) c) as B.
  unfold owed, paid_out, accepted_value in *. cbn [held] in S. unfold sys_log, sys_state in *. lia.
Qed.
End Owed.
