(** * SignFacts: what the minter signs and sends is accepted as its own *)

From Verif Require Import Base BMap MultiKeyMap MultiKeyMapFacts Bytes Types Amount Tx CallData
  Network Hex Transactions State Audit Ranges Rlp Parser Memo Driver Sys SysSpec WtInv StateEquiv
  TxSpec WtContent Segments Tasks SysFacts CoreInv WeakSteps Lifting ArithFacts WithdrawSpec WithdrawFacts StageFacts
  RlpSpec RlpFacts CborSpec TypedSpec TypedFacts PublicFacts Sign NetSpec NetFacts SignSpec BurnFacts CodecFacts.

#[local] Opaque be_bytes strip0 be_min calldata_encode.

(** ** Sizes *)
Lemma header_length b n : (List.length (rlp_header b n) <= 9)%nat.
Proof. unfold rlp_header. destruct (n <? 56); cbn [List.length]; [lia|]. pose proof (len_bytes_len n). lia. Qed.
Lemma string_length l : (List.length (rlp_string l) <= 9 + List.length l)%nat.
Proof.
  assert (H : forall n, (List.length (rlp_header 128 n ++ l) <= 9 + List.length l)%nat)
    by (intros n; rewrite app_length; pose proof (header_length 128 n); lia).
  unfold rlp_string. destruct l as [|c [|d l]]; try apply H.
  destruct (c <? 128); [cbn [List.length]; lia|apply H].
Qed.
Lemma num_length n : (List.length (rlp_encode (rlp_u256 n)) <= 41)%nat.
Proof. unfold rlp_u256. cbn [rlp_encode]. pose proof (string_length (be_min n)). pose proof (be_min_length n). lia. Qed.

Definition plain_tx (t : Tx) : Prop := tx_access_list t = [] /\ (List.length (tx_data t) <= 68)%nat.
Lemma plain_inner t : plain_tx t -> (List.length (List.concat (map rlp_encode (rlp_inner t))) <= 400)%nat.
Proof.
  intros [Ha Hd]. unfold rlp_inner. cbn [map List.concat]. rewrite !app_length.
  pose proof (num_length (tx_chain_id t)). pose proof (num_length (tx_nonce t)). pose proof (num_length (tx_max_priority_fee_per_gas t)).
  pose proof (num_length (tx_max_fee_per_gas t)). pose proof (num_length (tx_gas_limit t)). pose proof (num_length (tx_amount t)).
  assert (List.length (rlp_encode (RStr (be_bytes 20 (tx_destination t)))) <= 29)%nat.
  { cbn [rlp_encode]. pose proof (string_length (be_bytes 20 (tx_destination t))). rewrite be_bytes_length in *. lia. }
  assert (List.length (rlp_encode (RStr (tx_data t))) <= 77)%nat.
  { cbn [rlp_encode]. pose proof (string_length (tx_data t)). lia. }
  assert (List.length (rlp_encode (rlp_access_list (tx_access_list t))) <= 9)%nat.
  { rewrite Ha. change (rlp_encode (rlp_access_list [])) with [192]. cbn [List.length]. lia. }
  cbn [List.length]. lia.
Qed.
Lemma list_length l : (List.length (rlp_encode (RList l)) <= 9 + List.length (List.concat (map rlp_encode l)))%nat.
Proof. cbn [rlp_encode]. unfold rlp_list. rewrite app_length. pose proof (header_length 192 (N.of_nat (List.length (List.concat (map rlp_encode l))))). lia. Qed.
Lemma plain_unsigned t : plain_tx t -> fits_memory (signing_payload t).
Proof.
  intros H. apply plain_inner in H. unfold fits_memory, signing_payload. cbn [List.length].
  pose proof (list_length (rlp_inner t)). assert (1000 <= U64_MAX) by (vm_compute; discriminate). lia.
Qed.
Lemma plain_raw t s : plain_tx t -> fits_memory (raw_bytes t s).
Proof.
  intros H. apply plain_inner in H. unfold fits_memory, raw_bytes. cbn [List.length].
  pose proof (list_length (rlp_inner t ++ rlp_signature s)) as Hl. rewrite map_app, concat_app, app_length in Hl.
  assert (List.length (List.concat (map rlp_encode (rlp_signature s))) <= 123)%nat.
  { unfold rlp_signature. cbn [map List.concat]. rewrite !app_length. cbn [List.length].
    pose proof (num_length (if sg_y_parity s then 1 else 0)). pose proof (num_length (sg_r s)). pose proof (num_length (sg_s s)). lia. }
  assert (1000 <= U64_MAX) by (vm_compute; discriminate). lia.
Qed.

Lemma serves_plain net r t : tx_serves net r t -> plain_tx t /\ tx_chain_id t = chain_id net.
Proof.
  intros (Hc & Ha & H). split; auto. split; auto. destruct r; destruct H as (_ & H).
  - destruct H as [-> _]. cbn. lia.
  - destruct H as (_ & -> & _). rewrite calldata_length. lia.
Qed.

Lemma ok_tx_typed t : ok_tx t -> tx_typed t.
Proof.
  intros (H1 & H2 & H3 & H4 & H5 & H6 & H7 & H8 & H9 & H10). unfold tx_typed, is_u64, is_u256, is_address, u64, u256, address in *.
  pose proof (proj1 (u64_max _) H1). repeat split; auto; try (apply u256_max; auto).
  eapply Forall_impl; [|exact H10]. intros [a ks] (Ha & _ & Hk). cbn in *. split; auto.
  eapply Forall_impl; [|exact Hk]. intros k Hh. apply u256_max. exact Hh.
Qed.

Lemma payload_byte_list t : ok_tx t -> byte_list (signing_payload t).
Proof.
  intros (_ & _ & _ & _ & _ & _ & _ & (Hd & _) & _). unfold signing_payload. constructor; [reflexivity|].
  apply encode_bytes. constructor.
  assert (Hu : forall n, bytes_rlp (rlp_u256 n)) by (intros; constructor; apply be_min_byte_list).
  unfold rlp_inner. repeat (apply Forall_cons; [try apply Hu|]); try apply Forall_nil.
  - constructor. apply be_bytes_byte_list.
  - constructor. exact Hd.
  - constructor. apply Forall_forall. intros x Hx. apply in_map_iff in Hx as (i & <- & _). constructor.
    apply Forall_cons; [constructor; apply be_bytes_byte_list|]. apply Forall_cons; [|apply Forall_nil].
    constructor. apply Forall_forall. intros y Hy. apply in_map_iff in Hy as (k & <- & _). constructor. apply be_bytes_byte_list.
Qed.

(** ** The history *)
Lemma wmicros_history (J : EventType -> Prop) now c c' : wmicros J now c c' ->
  forall e, In e (history (snd c')) -> In e (history (snd c)) \/ J e.
Proof.
  induction 1 as [c|c1 c2 c3 Hm _ IH]; auto. intros e He. destruct (IH e He) as [H|H]; auto.
  inversion Hm; subst; cbn [snd] in *; auto. rewrite history_snoc, in_app_iff in H. destruct H as [H|[<-|[]]]; auto.
Qed.

Lemma wmicros_grows (J : EventType -> Prop) now c c' : wmicros J now c c' ->
  forall e, In e (history (snd c)) -> In e (history (snd c')).
Proof.
  induction 1 as [c|c1 c2 c3 Hm _ IH]; auto. intros e He. apply IH. inversion Hm; subst; cbn [snd] in *; auto.
  rewrite history_snoc, in_app_iff. auto.
Qed.

Section Signing.
Variable self : Principal.
Variable keccak : list N -> Hash.
Variable Key : Type.
Variable recovery_id : Key -> Hash -> list N -> option (bool * bool).
Variable recover : Hash -> bool -> N -> N -> option Key.
Hypothesis Hlib : ids_recover Key recovery_id recover.
Variable key : Key.

Definition genuine (t : SignedTx) : Prop :=
  recover (keccak (signing_payload (st_tx t))) (sg_y_parity (st_sig t)) (sg_r (st_sig t)) (sg_s (st_sig t)) = Some key.

Lemma sign_genuine t a sg : sign_tx keccak Key recovery_id key t a = Done (Some sg) ->
  recover (keccak (signing_payload t)) (sg_y_parity sg) (sg_r sg) (sg_s sg) = Some key.
Proof.
  unfold sign_tx. destruct a as [a|]; [|discriminate]. destruct (Nat.eqb_spec (List.length a) 64) as [Hl|]; [|discriminate].
  cbn [negb]. destruct (recovery_id key (signing_hash keccak t) a) as [[[|] y]|] eqn:E; try discriminate.
  unfold split_in_two. intros H. injection H as <-. cbn [sg_y_parity sg_r sg_s]. apply (Hlib key _ a y Hl E).
Qed.

Lemma signed_events_genuine batch : forall sigs b t,
  (forall b t o, In ((b, t), o) (combine batch sigs) -> signs keccak Key recovery_id key t o) ->
  In (EvSignedTransaction b t) (signed_events keccak batch sigs) -> genuine t.
Proof.
  induction batch as [|[id x] batch IH]; intros [|o sigs] b t Hf Hin; cbn in Hin; try destruct Hin as [].
  cbn [combine] in Hf. destruct o as [sg|].
  - destruct Hin as [E|Hin]; [|eapply IH; [|exact Hin]; intros; eapply Hf; right; eauto]. injection E as _ <-.
    destruct (Hf id x (Some sg) (or_introl eq_refl)) as (a & Ha). apply (sign_genuine _ _ _ Ha).
  - eapply IH; [|exact Hin]. intros. eapply Hf. right. eauto.
Qed.

Record sig_inv (s : Sys) : Prop := {
  si_answer : forall id n batch sigs,
    bget id (sys_tasks s) = Some {| fl_task := TRetrieveSign n batch; fl_reply := Some (ReSigs sigs) |} ->
    forall b t o, In ((b, t), o) (combine batch sigs) -> signs keccak Key recovery_id key t o;
  si_log : forall b t, In (EvSignedTransaction b t) (history (sys_log s)) -> genuine t;
  si_send : forall txs x, running s (TRetrieveSend txs) -> In x txs -> exists b, In (EvSignedTransaction b x) (history (sys_log s))
}.

Lemma sent_in_history s n txs x : core_ok keccak s -> repr (withdrawals (fst s)) (history (snd s)) ->
  transactions_to_send_batch n SEND_BATCH (withdrawals (fst s)) = Done txs -> In x txs ->
  exists b, In (EvSignedTransaction b x) (history (snd s)).
Proof.
  intros Hc Hp H Hin. pose proof (core_wt _ _ Hc) as Hi. unfold transactions_to_send_batch in H. inv_res.
  apply in_map_iff in Hin as (q & <- & Hin). apply (in_firstn 5) in Hin.
  apply in_flat_map in Hin as ([[k b] l] & Hin & Hq). cbn in Hq.
  destruct (last_opt l) as [last|] eqn:El; [|destruct Hq]. destruct (n <=? k); [|destruct Hq].
  destruct Hq as [->|[]]. apply last_opt_in in El.
  eapply mkm_iter_rows in Hin; eauto using i_sent. exists b. apply attempt_event.
  assert (Hnf : ~ In b (map fst (finalizations (history (snd s))))).
  { intros Hf. apply in_map_fst in Hf as (rc & Hf). apply (p_fin_all _ _ Hp) in Hf as (f & Hf & _).
    destruct (get_alt_row _ _ _ (i_fin _ Hi) Hf) as (k' & Hrow). apply (i_fin_excl _ Hi) in Hrow.
    destruct Hrow as (_ & _ & _ & Hrow). destruct Hin as [_ Hin]. congruence. }
  pose proof (p_sent _ _ Hp b Hnf) as E. destruct Hin as [_ Hin]. rewrite Hin in E. cbn in E. symmetry in E.
  apply nonempty_some in E as [E _]. rewrite <- E. apply in_map. auto.
Qed.
Definition env := signing_env keccak Key recovery_id key.
Lemma env_typed s l : env s l -> ok_label l. Proof. intros H. apply H. Qed.
Lemma env_kept s l : env s l -> nonce_kept s l. Proof. intros H. apply H. Qed.

Lemma resume_signed now t r c c' nx b x : resume keccak now t r c = Done (c', nx) ->
  In (EvSignedTransaction b x) (history (snd c')) ->
  In (EvSignedTransaction b x) (history (snd c)) \/
  exists n batch sigs, t = TRetrieveSign n batch /\ r = ReSigs sigs /\ In (EvSignedTransaction b x) (signed_events keccak batch sigs).
Proof.
  intros H Hin.
  assert (Hd : (exists n batch, t = TRetrieveSign n batch) \/ ~ (exists n batch, t = TRetrieveSign n batch)).
  { destruct t; try (right; intros (? & ? & ?); discriminate). eauto. }
  destruct Hd as [(n & batch & ->)|Hd].
  - destruct r; cbn in H; try discriminate. unfold retrieve_sign_reply in H. apply rbind_done in H as (c1 & H1 & H).
    assert (Hm : wmicros (fun e => In e (signed_events keccak batch l)) now c c').
    { eapply wmicros_trans; [eapply wmicros_events; [|exact H1]; auto|].
      eapply (micros_weak (fun _ _ => False)); [intros ? ? []|]. eapply micros_send_start; eauto. }
    destruct (wmicros_history _ _ _ _ Hm _ Hin) as [Hh|Hh]; [auto|right]. eauto 6.
  - apply resume_wmicros in H. destruct (wmicros_history _ _ _ _ H _ Hin) as [Hh|[(st & Hh)|Hh]]; [auto| |].
    + exfalso. apply emits_inv in Hh. cbn in Hh. destruct Hh as (n & batch & y & tx & sg & -> & _). apply Hd. eauto.
    + destruct Hh as (g & i & y & _ & [Hh|Hh]); discriminate.
Qed.

Lemma sig_log_step s l s' : core_ok keccak (sys_core s) -> sig_inv s -> Trans self keccak s l s' ->
  forall b t, In (EvSignedTransaction b t) (history (sys_log s')) -> genuine t.
Proof.
  intros Hk Hi H b t Hin.
  destruct (trans_wmicros self keccak _ _ _ H) as [(now & Hm)|(a & now & -> & _ & Hu)].
  - destruct (wmicros_history _ _ _ _ Hm _ Hin) as [Hh|Hh]; [apply (si_log _ Hi _ _ Hh)|].
    destruct H as [|k now' c nx Hc H|u now' c nx Hc H|k now' Hc|u now' Hc|id x c b' Hget Hcall Hallow|id x r Hget Hfit Hno|id now' x r c nx Hc Hget H|id trap now' x r c Hc Hget Hp H|a now' c Hc Ht H];
      try (apply (si_log _ Hi b t); exact Hin); cbn [step_emits] in Hh; try (destruct Hh; fail).
    + destruct Hh as (st & Hh). destruct u; cbn in Hh; try tauto. destruct Hh as (_ & tk & _ & Hh). discriminate.
    + unfold sys_log in Hin. rewrite install_core in Hin. cbn [with_queries with_core sys_core] in Hin.
      destruct (resume_signed _ _ _ _ _ _ _ _ H Hin) as [Hl|(n & batch & sigs & -> & -> & Hl)]; [apply (si_log _ Hi _ _ Hl)|].
      eapply signed_events_genuine; [|exact Hl]. eapply si_answer; eauto.
    + unfold sys_log in Hin. rewrite install_core in Hin. cbn [with_core sys_core] in Hin.
      destruct (cleanup_micros now' x (sys_core s)) as (c' & Hc' & Hm'). assert (c' = c) by congruence. subst c'.
      eapply (micros_weak _ (fun e => In e (task_quarantine x))) in Hm'; [|intros ? ? ?; eassumption].
      destruct (wmicros_history _ _ _ _ Hm' _ Hin) as [Hl|Hl]; [apply (si_log _ Hi _ _ Hl)|].
      destruct x; cbn in Hl; try tauto; destruct Hl as [Hl|[]]; discriminate.
  - destruct (canister_upgrade_inv _ _ _ _ (core_replay _ _ Hk) Hu) as (st & _ & _ & _ & Hl). apply (si_log _ Hi b t).
    unfold sys_log in Hin. destruct a as [x|]; [destruct Hl as (st' & _ & Hl)|]; rewrite Hl in Hin; cbn [snd] in Hin;
      unfold pre_upgrade in Hin; rewrite ?history_snoc, ?in_app_iff in Hin; cbn in Hin; intuition discriminate.
Qed.

Lemma sig_trans s l s' : reach self keccak env s -> reach self keccak env s' -> sig_inv s -> env s l -> Trans self keccak s l s' -> sig_inv s'.
Proof.
  intros Hr Hr' Hi He H.
  destruct (reach_wlog self keccak env env_kept s Hr) as (Hk & _).
  destruct (reach_wlog self keccak env env_kept s' Hr') as (Hk' & Hp' & _).
  pose proof (sig_log_step _ _ _ Hk Hi H) as Hlog.
  destruct (LogFacts.trans_grows keccak self _ _ _ H) as (es & Eg & _).
  assert (Hgrow : forall e, In e (history (sys_log s)) -> In e (history (sys_log s'))).
  { intros e Hin. rewrite Eg. unfold history in *. rewrite map_app, in_app_iff. auto. }
  assert (Hold : forall txs x, running s (TRetrieveSend txs) -> In x txs -> exists b, In (EvSignedTransaction b x) (history (sys_log s'))).
  { intros txs x Hrun Hx. destruct (si_send _ Hi _ _ Hrun Hx) as (b & Hb). eauto. }
  assert (Hnew : forall now t r c c' nx, resume keccak now t r c = Done (c', Await nx) -> c' = sys_core s' ->
    forall txs x, nx = TRetrieveSend txs -> In x txs -> exists b, In (EvSignedTransaction b x) (history (sys_log s'))).
  { intros now t r c c' nx Hres -> txs x -> Hx. apply resume_after in Hres. destruct Hres as (_ & n & Hb).
    eapply sent_in_history; eauto. }
  destruct H as [|k now' c nx Hc H|u now' c nx Hc H|k now' Hc|u now' Hc|id x c b' Hget Hcall Hallow|id x r Hget Hfit Hno|id now' x r c nx Hc Hget H|id trap now' x r c Hc Hget Hp H|a now' c Hc Ht H];
    (constructor; [|exact Hlog|]).
  - apply (si_answer _ Hi).
  - apply (si_send _ Hi).
  - intros i n batch sigs. cbn [bump_next sys_tasks]. rewrite install_tasks. destruct (keqb i (sys_next s)); [destruct nx; discriminate|].
    apply (si_answer _ Hi).
  - intros txs x (i & r & Hg). revert Hg. cbn [bump_next sys_tasks]. rewrite install_tasks. destruct (keqb i (sys_next s)).
    + destruct nx; [|discriminate]. intros E. injection E as -> _. apply timer_after in H. destruct H.
    + intros Hg. apply Hold. exists i, r. exact Hg.
  - intros i n batch sigs. cbn [bump_next sys_tasks]. rewrite install_tasks. destruct (keqb i (sys_next s)); [destruct nx; discriminate|].
    apply (si_answer _ Hi).
  - intros txs x (i & r & Hg). revert Hg. cbn [bump_next sys_tasks]. rewrite install_tasks. destruct (keqb i (sys_next s)).
    + destruct nx; [|discriminate]. intros E. injection E as -> _. apply (call_after keccak) in H. apply call_next_task in H. destruct H.
    + intros Hg. apply Hold. exists i, r. exact Hg.
  - apply (si_answer _ Hi).
  - intros txs x (i & r & Hg). apply Hold. exists i, r. exact Hg.
  - apply (si_answer _ Hi).
  - intros txs x (i & r & Hg). apply Hold. exists i, r. exact Hg.
  - intros i n batch sigs. cbn [with_op answered with_tasks sys_tasks]. rewrite bget_insert. destruct (keqb i id); [discriminate|apply (si_answer _ Hi)].
  - intros txs y (i & r & Hg). revert Hg. cbn [with_op answered with_tasks sys_tasks]. rewrite bget_insert. destruct (keqb i id).
    + intros E. injection E as -> _. apply Hold. exists id, None. exact Hget.
    + intros Hg. apply Hold. exists i, r. exact Hg.
  - intros i n batch sigs. cbn [answered with_tasks sys_tasks]. rewrite bget_insert. destruct (keqb i id); [|apply (si_answer _ Hi)].
    intros E. injection E as -> ->. destruct He as (_ & _ & He). cbn in He. exact (He _ _ _ Hget).
  - intros txs y (i & r' & Hg). revert Hg. cbn [answered with_tasks sys_tasks]. rewrite bget_insert. destruct (keqb i id).
    + intros E. injection E as -> _. apply Hold. exists id, None. exact Hget.
    + intros Hg. apply Hold. exists i, r'. exact Hg.
  - intros i n batch sigs. rewrite install_tasks. destruct (keqb i id); [destruct nx; discriminate|]. apply (si_answer _ Hi).
  - intros txs y (i & r' & Hg). revert Hg. rewrite install_tasks. destruct (keqb i id).
    + destruct nx; [|discriminate]. intros E. injection E as -> _. eapply Hnew; [exact H| |reflexivity].
      rewrite install_core. reflexivity.
    + intros Hg. apply Hold. exists i, r'. exact Hg.
  - intros i n batch sigs. rewrite install_tasks. destruct (keqb i id); [discriminate|]. apply (si_answer _ Hi).
  - intros txs y (i & r' & Hg). revert Hg. rewrite install_tasks. destruct (keqb i id); [discriminate|].
    intros Hg. apply Hold. exists i, r'. exact Hg.
  - apply (si_answer _ Hi).
  - intros txs x (i & r & Hg). apply Hold. exists i, r. exact Hg.
Qed.

Lemma sig_reach s : reach self keccak env s -> sig_inv s.
Proof.
  apply (reach_inv2 self keccak env (reach self keccak env) sig_inv); auto.
  - intros now a s0 H. apply sys_init_inv in H as (st & Hst & Hc & Ht & _). constructor.
    + intros id n batch sigs. rewrite Ht. discriminate.
    + unfold sys_log. rewrite Hc. intros b t [E|[]]. discriminate.
    + intros txs x (i & r & Hg). rewrite Ht in Hg. discriminate.
  - intros s0 l s' Hr Hr' Hi He H. exact (sig_trans _ _ _ Hr Hr' Hi He H).
Qed.

Lemma signed_accepted s b t : reach self keccak env s -> typed_start keccak s ->
  In (EvSignedTransaction b t) (history (sys_log s)) -> accepted_as keccak Key recover key (evm_network (sys_state s)) t.
Proof.
  intros Hr Hst Hin. pose proof (si_log _ (sig_reach _ Hr) _ _ Hin) as Hg.
  destruct (reach_wlog self keccak env env_kept s Hr) as (_ & _ & _ & Ha & _).
  assert (Hm : In (b, st_tx t) (transactions_made (history (sys_log s)))).
  { unfold transactions_made. apply in_flat_map. eexists. split; [exact Hin|]. left. reflexivity. }
  destruct (Ha _ _ Hm) as (r & _ & _ & Hserve). apply serves_plain in Hserve as [Hpl Hch].
  pose proof (typed_log self keccak env s env_typed Hr Hst) as Ht. rewrite Forall_forall in Ht.
  unfold history in Hin. apply in_map_iff in Hin as (e & Ee & Hin). apply Ht in Hin. destruct Hin as [_ Hin]. rewrite Ee in Hin.
  destruct Hin as (_ & Hok & Hsr & Hss & Eh). pose proof (ok_tx_typed _ Hok) as Hty.
  split; [|split; auto].
  - exists (st_sig t), (signing_payload (st_tx t)). split; [|split; [|split; [|exact Hg]]].
    + apply read_raw_bytes; auto; [|apply plain_raw; auto]. split; apply u256_max; auto.
    + apply payload_byte_list; auto.
    + apply read_unsigned_payload; auto. apply plain_unsigned; auto.
  - rewrite Eh at 1. reflexivity.
Qed.

Lemma sent_accepted s txs x : reach self keccak env s -> typed_start keccak s -> running s (TRetrieveSend txs) -> In x txs ->
  accepted_as keccak Key recover key (evm_network (sys_state s)) x.
Proof.
  intros Hr Hst Hrun Hx. destruct (si_send _ (sig_reach _ Hr) _ _ Hrun Hx) as (b & Hb). eapply signed_accepted; eauto.
Qed.

End Signing.
