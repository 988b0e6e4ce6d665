(** * Proofs about the public form of the event log *)

From Verif Require Import Base BMap MultiKeyMap MultiKeyMapFacts Bytes Types Amount Tx CallData
  Network Hex Transactions State Audit Ranges Rlp RlpSpec Parser Memo Driver Sys SysSpec WtInv StateEquiv
  TxSpec WtContent Segments SysFacts CoreInv LogFacts WeakSteps WithdrawSpec WithdrawFacts CodecFacts RlpFacts
  CborSpec TypedSpec TypedFacts StageFacts EventFacts PublicEvents PublicSpec.

Lemma hex_round l : byte_list l -> hex_decode (hex_encode l) = Some l.
Proof.
  intros Hb. induction Hb as [|b l Hb _ IH]; [reflexivity|].
  cbn [hex_encode flat_map app hex_decode].
  rewrite !hex_val_digit by lia.
  change (flat_map (fun b0 => [hex_digit (b0 / 16); hex_digit (b0 mod 16)]) l) with (hex_encode l).
  rewrite IH. do 2 f_equal. lia.
Qed.

Lemma is_hash_text h : h < 2 ^ 256 -> is_hash (hash_to_text h) h.
Proof.
  intros Hh. exists (be_bytes 32 h). unfold hash_to_text. cbn [app hex_text].
  rewrite hex_round by apply be_bytes_byte_list. split; [reflexivity|].
  split; [apply be_bytes_length|]. apply of_be_be_bytes_small. rewrite u256_pow. pose proof U256_MAX_val. lia.
Qed.
Lemma is_bytes32_of h : h < 2 ^ 256 -> is_bytes32 (be_bytes 32 h) h.
Proof.
  intros Hh. split; [apply be_bytes_length|]. apply of_be_be_bytes_small. rewrite u256_pow. pose proof U256_MAX_val. lia.
Qed.

Section Text.
Variable keccak32 : list N -> list N.
Hypothesis Hk : forall l, List.length (keccak32 l) = 32%nat.

Lemma is_addr_text a : a < 2 ^ 160 -> is_addr (address_to_text keccak32 a) a.
Proof.
  intros Ha. pose proof (address_text_round_trip keccak32 a Hk Ha) as H.
  unfold address_to_text in *. cbn [app] in *. unfold address_of_text in H. unfold is_addr. cbn [hex_text].
  unfold hex_decode_to in H. destruct (hex_decode _) as [b|] eqn:E; [|discriminate]. exists b. split; [reflexivity|].
  destruct (Nat.eqb_spec (List.length b) 20); [|discriminate]. cbn [option_map] in H. split; auto. congruence.
Qed.

Lemma says_tx_public t : ok_tx t -> says_tx (public_tx keccak32 t) t.
Proof.
  intros (_ & _ & _ & _ & _ & Ha & _ & _ & _ & Hl). unfold says_tx, public_tx.
  cbn [px_chain_id px_nonce px_max_priority_fee_per_gas px_max_fee_per_gas px_gas_limit px_destination px_value px_data px_access_list].
  do 5 (split; [reflexivity|]). split; [apply is_addr_text; exact Ha|]. do 2 (split; [reflexivity|]).
  induction Hl as [|x l (H1 & _ & H2) _ IH]; constructor; auto. split; cbn [pa_address pa_storage_keys].
  - apply is_addr_text; exact H1.
  - clear - H2. destruct x as [a ks]. cbn [snd] in *. induction H2; constructor; auto. apply is_bytes32_of; exact H.
Qed.

End Text.

(** ** The bytes of a signed transaction *)

Lemma strip0_bytes l : byte_list l -> byte_list (strip0 l).
Proof. intros H. induction H as [|x l Hx H IH]; cbn [strip0]; [constructor|]. destruct x; auto. constructor; auto. Qed.
Lemma header_bytes base n : base <= 192 -> byte_list (rlp_header base n).
Proof.
  intros Hb. unfold rlp_header. destruct (N.ltb_spec n 56).
  - constructor; [lia|constructor].
  - constructor; [|apply strip0_bytes, be_bytes_byte_list]. pose proof (len_bytes_len n). lia.
Qed.
Lemma bytes_app a b : byte_list a -> byte_list b -> byte_list (a ++ b).
Proof. intros. apply Forall_app. auto. Qed.
Lemma string_bytes l : byte_list l -> byte_list (rlp_string l).
Proof.
  intros H. unfold rlp_string. destruct l as [|b [|c l]].
  - apply bytes_app; auto. apply header_bytes. lia.
  - destruct (b <? 128); auto. apply bytes_app; auto. apply header_bytes. lia.
  - apply bytes_app; auto. apply header_bytes. lia.
Qed.
Inductive bytes_rlp : rlp -> Prop :=
| BStr l : byte_list l -> bytes_rlp (RStr l)
| BList l : Forall bytes_rlp l -> bytes_rlp (RList l).
Lemma encode_bytes x : bytes_rlp x -> byte_list (rlp_encode x).
Proof.
  induction x as [l|l IH] using rlp_rect'; intros H; inversion H; subst; cbn [rlp_encode].
  - apply string_bytes; auto.
  - unfold rlp_list. apply bytes_app; [apply header_bytes; lia|].
    match goal with H : Forall bytes_rlp l |- _ => revert H end. clear H.
    induction IH as [|x l Hx _ IH]; intros H; [constructor|]. inversion H; subst. cbn [map List.concat].
    apply bytes_app; auto.
Qed.
Lemma raw_byte_list t s : ok_tx t -> byte_list (raw_bytes t s).
Proof.
  intros (_ & _ & _ & _ & _ & _ & _ & (Hd & _) & _). unfold raw_bytes. constructor; [reflexivity|].
  apply encode_bytes. constructor.
  assert (Hu : forall n, bytes_rlp (rlp_u256 n)) by (intros; constructor; apply be_min_byte_list).
  unfold rlp_inner, rlp_signature. cbn [app].
  repeat (apply Forall_cons; [try apply Hu|]); try apply Forall_nil.
  - constructor. apply be_bytes_byte_list.
  - constructor. exact Hd.
  - constructor. apply Forall_forall. intros x Hx. apply in_map_iff in Hx as (i & <- & _). constructor.
    apply Forall_cons; [constructor; apply be_bytes_byte_list|]. apply Forall_cons; [|apply Forall_nil].
    constructor. apply Forall_forall. intros y Hy. apply in_map_iff in Hy as (k & <- & _). constructor. apply be_bytes_byte_list.
Qed.
Lemma raw_text t : ok_tx (st_tx t) -> hex_text (raw_transaction_hex t) = Some (raw_bytes (st_tx t) (st_sig t)).
Proof. intros H. unfold raw_transaction_hex. cbn [app hex_text]. apply hex_round. apply raw_byte_list; auto. Qed.

Lemma header_len base n : (List.length (rlp_header base n) <= 9)%nat.
Proof. unfold rlp_header. destruct (n <? 56); cbn [List.length]; [lia|]. pose proof (len_bytes_len n). lia. Qed.
Lemma string_len l : (List.length (rlp_string l) <= 9 + List.length l)%nat.
Proof.
  unfold rlp_string. destruct l as [|b [|c l]]; [|destruct (b <? 128)|]; rewrite ?app_length;
    try match goal with |- context [rlp_header ?a ?b] => pose proof (header_len a b) end; try lia; cbn [List.length]; lia.
Qed.
Lemma u256_len n : (List.length (rlp_encode (rlp_u256 n)) <= 41)%nat.
Proof. cbn [rlp_u256 rlp_encode]. pose proof (string_len (be_min n)). pose proof (be_min_length n). lia. Qed.
Lemma raw_len t s : tx_access_list t = [] -> (List.length (tx_data t) <= 100)%nat -> fits_memory (raw_bytes t s).
Proof.
  intros Ha Hd. assert (H : (List.length (raw_bytes t s) <= 1000)%nat).
  { unfold raw_bytes. cbn [List.length rlp_encode]. unfold rlp_list. rewrite app_length.
    unfold rlp_inner, rlp_signature. rewrite Ha. cbn [app map List.concat]. rewrite !app_length.
    repeat match goal with |- context [rlp_encode (rlp_u256 ?n)] =>
      pose proof (u256_len n); generalize dependent (List.length (rlp_encode (rlp_u256 n))); intros end.
    change (rlp_encode (RStr (be_bytes 20 (tx_destination t)))) with (rlp_string (be_bytes 20 (tx_destination t))).
    change (rlp_encode (RStr (tx_data t))) with (rlp_string (tx_data t)).
    pose proof (string_len (tx_data t)). pose proof (string_len (be_bytes 20 (tx_destination t))) as Hs. rewrite be_bytes_length in Hs.
    change (List.length (rlp_encode (rlp_access_list []))) with 1%nat. cbn [List.length] in *.
    match goal with |- context [rlp_header 192 ?n] => pose proof (header_len 192 n) end. lia. }
  unfold fits_memory. assert (1000 <= U64_MAX) by (vm_compute; discriminate). lia.
Qed.

(** ** Every event is told *)

Section Tells.
Variable keccak32 : list N -> list N.
Hypothesis Hk : forall l, List.length (keccak32 l) = 32%nat.
Variable keccak : list N -> Hash.

Lemma source_told s : ok_source s -> says_source (public_source s) s.
Proof. intros [H _]. split; [apply is_hash_text; exact H|reflexivity]. Qed.
Lemma opt_bytes o : optional u256 o -> same_opt is_bytes32 (option_map (be_bytes 32) o) o.
Proof. destruct o; cbn; auto. apply is_bytes32_of. Qed.
Lemma opt_hash o : optional hash o -> same_opt is_hash (option_map hash_to_text o) o.
Proof. destruct o; cbn [option_map same_opt optional]; auto. apply is_hash_text. Qed.

Lemma payload_told e : ok_payload keccak e -> says (public_payload keccak32 e) e.
Proof.
  destruct e; cbn [ok_payload public_payload says]; intros H; auto.
  - destruct H as (H1 & _ & _ & H2 & _ & _ & H3). auto 12 using is_hash_text, is_addr_text, opt_bytes.
  - destruct H. auto using source_told.
  - destruct H. auto using source_told.
  - destruct H as (_ & H & _). auto 12 using is_addr_text.
  - destruct H. auto using says_tx_public.
  - destruct H as (_ & H & _). auto using raw_text.
  - destruct H. auto using says_tx_public.
  - destruct H as (_ & H1 & _ & _ & _ & H2). split; auto. unfold says_receipt, public_receipt.
    cbn [pr_block_hash pr_block_number pr_effective_gas_price pr_gas_used pr_status pr_transaction_hash].
    auto 12 using is_hash_text.
  - destruct H as (_ & _ & _ & H). auto using opt_hash.
  - destruct H as (H & _). split; [|auto using is_addr_text]. apply chain_ids_one_to_one.
  - destruct H as (H1 & _ & _ & H2 & _ & _ & H4 & H3). auto 12 using is_hash_text, is_addr_text, opt_bytes.
  - destruct H as (_ & _ & H1 & _ & H2 & _). auto 15 using is_addr_text.
  - destruct H as (H1 & _ & _ & H2). auto using source_told, is_addr_text.
  - destruct H as (_ & _ & _ & _ & _ & H). auto 10 using opt_hash.
  - auto using source_told.
  - destruct index; cbn; auto.
Qed.
Lemma event_told e : ok_event keccak e -> tells (public_event keccak32 e) e.
Proof. intros [_ H]. split; [reflexivity|]. apply payload_told; auto. Qed.

(** ** A public event tells one thing only *)

Lemma is_hash_fun t h h' : is_hash t h -> is_hash t h' -> h = h'.
Proof. intros (b & E & _ & <-) (b' & E' & _ & <-). congruence. Qed.
Lemma is_addr_fun t h h' : is_addr t h -> is_addr t h' -> h = h'.
Proof. intros (b & E & _ & <-) (b' & E' & _ & <-). congruence. Qed.
Lemma is_bytes32_fun t h h' : is_bytes32 t h -> is_bytes32 t h' -> h = h'.
Proof. intros (_ & <-) (_ & <-). reflexivity. Qed.
Lemma opt_fun {A B} (P : A -> B -> Prop) x y y' : (forall a b b', P a b -> P a b' -> b = b') ->
  same_opt P x y -> same_opt P x y' -> y = y'.
Proof. intros Hf. destruct x, y, y'; cbn; try tauto. intros. f_equal. eauto. Qed.
Lemma list_fun {A B} (P : A -> B -> Prop) : (forall a b b', P a b -> P a b' -> b = b') ->
  forall x y y', Forall2 P x y -> Forall2 P x y' -> y = y'.
Proof.
  intros Hf x y y' H. revert y'. induction H as [|a b x y Hab H IH]; intros y' H'; inversion H'; subst; auto.
  f_equal; eauto.
Qed.
Lemma source_fun p s s' : says_source p s -> says_source p s' -> s = s'.
Proof.
  destruct s, s'. unfold says_source. cbn [fst snd]. intros [H1 H2] [H3 H4]. f_equal; [eapply is_hash_fun; eauto|congruence].
Qed.
Lemma access_fun p s s' : says_access p s -> says_access p s' -> s = s'.
Proof.
  destruct s, s'. unfold says_access. cbn [fst snd]. intros [H1 H2] [H3 H4].
  f_equal; [eapply is_addr_fun; eauto|]. exact (list_fun _ is_bytes32_fun _ _ _ H2 H4).
Qed.
Lemma tx_fun p t t' : says_tx p t -> says_tx p t' -> t = t'.
Proof.
  destruct t, t'. unfold says_tx.
  cbn [Types.tx_chain_id Types.tx_nonce Types.tx_max_priority_fee_per_gas Types.tx_max_fee_per_gas Types.tx_gas_limit
    Types.tx_destination Types.tx_amount Types.tx_data Types.tx_access_list].
  intros (A1 & A2 & A3 & A4 & A5 & A6 & A7 & A8 & A9) (B1 & B2 & B3 & B4 & B5 & B6 & B7 & B8 & B9).
  pose proof (is_addr_fun _ _ _ A6 B6). pose proof (list_fun _ access_fun _ _ _ A9 B9). congruence.
Qed.
Lemma receipt_fun p t t' : says_receipt p t -> says_receipt p t' -> t = t'.
Proof.
  destruct t, t'. unfold says_receipt.
  cbn [Types.rc_block_hash Types.rc_block_number Types.rc_effective_gas_price Types.rc_gas_used Types.rc_status Types.rc_transaction_hash].
  intros (A1 & A2 & A3 & A4 & A5 & A6) (B1 & B2 & B3 & B4 & B5 & B6).
  pose proof (is_hash_fun _ _ _ A1 B1). pose proof (is_hash_fun _ _ _ A6 B6). congruence.
Qed.
Lemma ok_tx_typed t : ok_tx t -> tx_typed t.
Proof.
  intros (H1 & H2 & H3 & H4 & H5 & H6 & H7 & _ & _ & H8).
  assert (Hu : forall n, u256 n -> is_u256 n) by (unfold u256, is_u256; intros; pose proof U256_MAX_val; lia).
  unfold tx_typed. split. { revert H1. unfold u64, is_u64. change U64_MAX with (2 ^ 64 - 1). lia. }
  do 4 (split; [auto|]). split; [exact H6|]. split; [auto|].
  eapply Forall_impl; [|exact H8]. cbv beta. intros [a ks] (Ha & _ & Hks). split; [exact Ha|].
  eapply Forall_impl; [|exact Hks]. intros n. apply Hu.
Qed.
Lemma signed_fun t t' : ok_signed keccak t -> ok_signed keccak t' ->
  fits_memory (raw_bytes (st_tx t) (st_sig t)) -> fits_memory (raw_bytes (st_tx t') (st_sig t')) ->
  raw_bytes (st_tx t) (st_sig t) = raw_bytes (st_tx t') (st_sig t') -> t = t'.
Proof.
  intros (H1 & H2 & H3 & H4) (H1' & H2' & H3' & H4') Hf Hf' He.
  assert (Hu : forall n, u256 n -> is_u256 n) by (unfold u256, is_u256; intros; pose proof U256_MAX_val; lia).
  destruct (raw_inj _ _ _ _ (ok_tx_typed _ H1) (ok_tx_typed _ H1') (conj (Hu _ H2) (Hu _ H3))
    (conj (Hu _ H2') (Hu _ H3')) Hf Hf' He) as [E1 E2].
  rewrite H4, H4', E1, E2. reflexivity.
Qed.

Lemma says_fun p e e' : ok_payload keccak e -> ok_payload keccak e' -> whole e -> whole e' ->
  says p e -> says p e' -> e = e'.
Proof.
  intros Ho Ho' Hw Hw' H H'.
  destruct p, e; try (destruct H; fail); destruct e'; try (destruct H'; fail); cbn [says] in H, H'; try congruence.
  - destruct e, e0. cbn [Types.ne_transaction_hash Types.ne_block_number Types.ne_log_index Types.ne_from_address
      Types.ne_value Types.ne_principal Types.ne_subaccount] in H, H'.
    destruct H as (A1 & A2 & A3 & A4 & A5 & A6 & A7). destruct H' as (B1 & B2 & B3 & B4 & B5 & B6 & B7).
    pose proof (is_hash_fun _ _ _ A1 B1). pose proof (is_addr_fun _ _ _ A4 B4). pose proof (opt_fun _ _ _ _ is_bytes32_fun A7 B7).
    congruence.
  - destruct e, e0. cbn [Types.ee_transaction_hash Types.ee_block_number Types.ee_log_index Types.ee_from_address
      Types.ee_value Types.ee_principal Types.ee_erc20_contract_address Types.ee_subaccount] in H, H'.
    destruct H as (A1 & A2 & A3 & A4 & A5 & A6 & A8 & A7). destruct H' as (B1 & B2 & B3 & B4 & B5 & B6 & B8 & B7).
    pose proof (is_hash_fun _ _ _ A1 B1). pose proof (is_addr_fun _ _ _ A4 B4). pose proof (opt_fun _ _ _ _ is_bytes32_fun A7 B7).
    pose proof (is_addr_fun _ _ _ A8 B8). congruence.
  - destruct H as [A1 A2], H' as [B1 B2]. pose proof (source_fun _ _ _ A1 B1). congruence.
  - destruct H as [A1 A2], H' as [B1 B2]. pose proof (source_fun _ _ _ A1 B1). congruence.
  - destruct r, r0. cbn [Types.nw_withdrawal_amount Types.nw_destination Types.nw_ledger_burn_index Types.nw_from
      Types.nw_from_subaccount Types.nw_created_at] in H, H'.
    destruct H as (A1 & A2 & A3 & A4 & A5 & A6). destruct H' as (B1 & B2 & B3 & B4 & B5 & B6).
    pose proof (is_addr_fun _ _ _ A2 B2). congruence.
  - destruct H as [A1 A2], H' as [B1 B2]. pose proof (tx_fun _ _ _ A2 B2). congruence.
  - destruct H as [A1 A2], H' as [B1 B2]. destruct Ho as [_ Ho], Ho' as [_ Ho']. cbn [whole] in Hw, Hw'.
    assert (E : transaction = transaction0) by (apply signed_fun; auto; congruence). congruence.
  - destruct H as [A1 A2], H' as [B1 B2]. pose proof (tx_fun _ _ _ A2 B2). congruence.
  - destruct H as [A1 A2], H' as [B1 B2]. pose proof (receipt_fun _ _ _ A2 B2). congruence.
  - destruct r, r0. cbn [Types.rd_reimbursed_in_block Types.rd_burn_in_block Types.rd_reimbursed_amount Types.rd_transaction_hash] in H, H'.
    destruct H as (A1 & A2 & A3 & A4). destruct H' as (B1 & B2 & B3 & B4). pose proof (opt_fun _ _ _ _ is_hash_fun A4 B4). congruence.
  - destruct reimbursed, reimbursed0. cbn [Types.rd_reimbursed_in_block Types.rd_burn_in_block Types.rd_reimbursed_amount Types.rd_transaction_hash] in H, H'.
    destruct H as (A1 & A2 & A3 & A5 & A6 & A4). destruct H' as (B1 & B2 & B3 & B5 & B6 & B4).
    pose proof (opt_fun _ _ _ _ is_hash_fun A4 B4). congruence.
  - destruct t, t0. cbn [Types.et_chain_id Types.et_contract_address Types.et_symbol Types.et_ledger_id] in H, H'.
    destruct H as (A1 & A2 & A3 & A4). destruct H' as (B1 & B2 & B3 & B4). pose proof (is_addr_fun _ _ _ A2 B2). congruence.
  - destruct r, r0. cbn [Types.ew_max_transaction_fee Types.ew_withdrawal_amount Types.ew_destination Types.ew_native_ledger_burn_index
      Types.ew_erc20_contract_address Types.ew_erc20_ledger_id Types.ew_erc20_ledger_burn_index Types.ew_from
      Types.ew_from_subaccount Types.ew_created_at] in H, H'.
    destruct H as (A1 & A2 & A3 & A4 & A5 & A6 & A7 & A8 & A9 & A10). destruct H' as (B1 & B2 & B3 & B4 & B5 & B6 & B7 & B8 & B9 & B10).
    pose proof (is_addr_fun _ _ _ A3 B3). pose proof (is_addr_fun _ _ _ A4 B4). congruence.
  - destruct r, r0. cbn [whole Types.rr_ledger_burn_index Types.rr_reimbursed_amount Types.rr_to Types.rr_to_subaccount Types.rr_transaction_hash] in *.
    destruct H as (A1 & A2 & A3 & A4). destruct H' as (B1 & B2 & B3 & B4). congruence.
  - destruct H as (A1 & A2 & A3 & A4). destruct H' as (B1 & B2 & B3 & B4).
    pose proof (source_fun _ _ _ A1 B1). pose proof (is_addr_fun _ _ _ A4 B4). congruence.
  - pose proof (source_fun _ _ _ H H'). congruence.
  - destruct index, index0, index1; cbn in H, H'; try tauto; [congruence|].
    destruct H as (A1 & A2 & A3). destruct H' as (B1 & B2 & B3). congruence.
Qed.
Lemma tells_fun p e e' : ok_event keccak e -> ok_event keccak e' -> whole (ev_payload e) -> whole (ev_payload e') ->
  tells p e -> tells p e' -> e = e'.
Proof.
  destruct e, e'. intros [_ Ho] [_ Ho'] Hw Hw' [H1 H2] [H3 H4]. cbn [Types.ev_timestamp Types.ev_payload] in *.
  pose proof (says_fun _ _ _ Ho Ho' Hw Hw' H2 H4). congruence.
Qed.

(** ** Nothing recorded is left out *)

Definition hashless (e : EventType) : Prop :=
  match e with EvFailedErc20WithdrawalRequest q => rr_transaction_hash q = None | _ => True end.
Lemma step_hashless s l e : step_emits keccak s l e -> hashless e.
Proof.
  intros H. destruct e; cbn [hashless]; auto. destruct l; cbn in H; try contradiction.
  - destruct H as (st & H). destruct u; cbn in H; try contradiction. decompose [and ex] H. discriminate.
  - destruct H as (t & q & _ & [[(x & H)|H]|H]).
    + apply emits_inv in H. cbn in H. destruct H as (j & i & a & amount & _ & _ & _ & _ & _ & ->). reflexivity.
    + destruct H as (g & i & x & _ & [H|H]); discriminate.
    + destruct t; cbn in H; try contradiction; destruct H as [H|[]]; discriminate.
Qed.
Variable self : Principal.
Lemma hashless_reach (env : Sys -> Label -> Prop) s : reach self keccak env s -> Forall (fun e => hashless (ev_payload e)) (sys_log s).
Proof.
  apply (reach_inv self keccak env (fun s => Forall (fun e => hashless (ev_payload e)) (sys_log s))).
  - intros now a s0 H. apply sys_init_inv in H as (st & _ & H & _). unfold sys_log. rewrite H. cbn [snd].
    unfold record_event. constructor; [exact Logic.I|constructor].
  - intros s0 l s' IH _ H. apply trans_wmicros in H as [(now & H)|(a & now & _ & _ & H)].
    + unfold sys_log in *. revert H IH. generalize (sys_core s0), (sys_core s').
      apply (wmicros_inv (step_emits keccak s0 l) now (fun c => Forall (fun e => hashless (ev_payload e)) (snd c))).
      intros c c' Hc H. inversion H; subst; cbn [snd] in *; auto. unfold record_event. apply Forall_app. split; auto.
      constructor; [|constructor]. cbn [ev_payload]. eapply step_hashless; eauto.
    + unfold sys_log in *. unfold canister_upgrade, post_upgrade in H. apply rbind_done in H as (st & _ & H).
      assert (Hp : Forall (fun e => hashless (ev_payload e)) (pre_upgrade now (sys_core s0))).
      { unfold pre_upgrade, record_event. apply Forall_app. split; auto. constructor; [exact Logic.I|constructor]. }
      destruct a as [x|].
      * apply process_event_inv in H as (s1 & _ & ->). cbn [snd]. unfold record_event at 1. apply Forall_app. split; auto.
        constructor; [exact Logic.I|constructor].
      * injection H as <-. exact Hp.
Qed.

Lemma whole_reach s : reach self keccak typed_nonce_kept s -> typed_start keccak s ->
  Forall (fun e => whole (ev_payload e)) (sys_log s).
Proof.
  intros Hr Ht. apply Forall_forall. intros e Hin.
  pose proof (hashless_reach typed_nonce_kept s Hr) as Hh. rewrite Forall_forall in Hh. specialize (Hh e Hin).
  destruct (ev_payload e) eqn:E; cbn [whole]; auto.
  destruct (reach_wlog self keccak typed_nonce_kept (fun _ _ H => proj2 H) s Hr) as (_ & _ & _ & Ha & _).
  destruct (Ha withdrawal_id (st_tx transaction)) as (r & _ & _ & (_ & H2 & H3)).
  { unfold transactions_made. apply in_flat_map. exists (ev_payload e). rewrite E. split; [|left; reflexivity].
    rewrite <- E. unfold history. apply in_map. exact Hin. }
  apply raw_len; auto. destruct r.
  - destruct H3 as (_ & -> & _). cbn. lia.
  - destruct H3 as (_ & _ & -> & _). rewrite calldata_length. lia.
Qed.

Lemma logs_fun s s' : reach self keccak typed_nonce_kept s -> typed_start keccak s ->
  reach self keccak typed_nonce_kept s' -> typed_start keccak s' ->
  map (public_event keccak32) (sys_log s) = map (public_event keccak32) (sys_log s') -> sys_log s = sys_log s'.
Proof.
  intros Hr Ht Hr' Ht'.
  pose proof (typed_log self keccak typed_nonce_kept s (fun _ _ H => proj1 H) Hr Ht) as Ho.
  pose proof (typed_log self keccak typed_nonce_kept s' (fun _ _ H => proj1 H) Hr' Ht') as Ho'.
  pose proof (whole_reach s Hr Ht) as Hw. pose proof (whole_reach s' Hr' Ht') as Hw'.
  revert Ho Ho' Hw Hw'. generalize (sys_log s) (sys_log s'). clear - Hk.
  induction l as [|e l IH]; intros [|e' l'] Ho Ho' Hw Hw' H; try discriminate; auto.
  inversion Ho; inversion Ho'; inversion Hw; inversion Hw'; subst. cbn [map] in H.
  apply cons_inj in H as [Q1 Q2]. f_equal; [|apply IH; auto].
  apply (tells_fun (public_event keccak32 e)); auto using event_told. rewrite Q1. apply event_told. auto.
Qed.

Lemma page_told s : reach self keccak typed_env s -> typed_start keccak s ->
  forall start size page total, start < 2 ^ 32 ->
    get_public_events keccak32 start size (sys_log s) = (page, total) ->
    total = N.of_nat (List.length (sys_log s)) /\
    N.of_nat (List.length page) = N.min (N.min size 100) (total - start) /\
    forall i p, nth_error page i = Some p ->
      exists e, nth_error (sys_log s) (N.to_nat start + i) = Some e /\ tells p e.
Proof.
  intros Hr Ht start size page total Hs H. unfold get_public_events in H.
  destruct (get_events start size (sys_log s)) as [q t] eqn:E. injection H as <- <-.
  destruct (page_exact _ _ _ _ _ Hs E) as (E1 & E2 & E3). split; [exact E1|]. rewrite map_length. split; [exact E2|].
  intros i p Hp. rewrite nth_error_map in Hp. destruct (nth_error q i) as [e|] eqn:Ei; [|discriminate]. injection Hp as <-.
  exists e. rewrite <- E3, Ei by (apply nth_error_Some; congruence). split; [reflexivity|]. apply event_told.
  pose proof (typed_log self keccak typed_env s (fun _ _ H => H) Hr Ht) as Ho. rewrite Forall_forall in Ho. apply Ho.
  apply (nth_error_In _ (N.to_nat start + i)). rewrite <- E3; [exact Ei|]. apply nth_error_Some. congruence.
Qed.

Lemma no_hash s e r : reach self keccak any_env s -> In e (sys_log s) ->
    ev_payload e = EvFailedErc20WithdrawalRequest r -> rr_transaction_hash r = None.
Proof.
  intros Hr Hin E. pose proof (hashless_reach any_env s Hr) as H. rewrite Forall_forall in H. specialize (H e Hin).
  rewrite E in H. exact H.
Qed.
End Tells.
