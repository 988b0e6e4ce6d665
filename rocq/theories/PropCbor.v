(** * C43, C44, C62, C63: memos and stored bytes.

    [ok_...] (CborSpec.v) says that a value is one that the Rust type can hold. *)

From Verif Require Import Base BMap MultiKeyMap Bytes Types Amount Tx CallData Network Hex
  Transactions State Audit Ranges Rlp Parser Memo Driver Sys SysSpec Scenario Cbor CborSpec CborFacts MemoFacts PropWithdraw.

(** ** C43 *)

(** Every memo decodes back to the operation, whatever follows it. *)
Theorem C43_mint_memo_decodes :
  forall m rest, ok_mint_memo m -> dec_mint_memo (mint_memo_bytes m ++ rest) = DOk m rest.
Proof. exact (proj1 mint_memo_reads). Qed.
Print Assumptions C43_mint_memo_decodes.
Theorem C43_burn_memo_decodes :
  forall m rest, ok_burn_memo m -> dec_burn_memo (burn_memo_bytes m ++ rest) = DOk m rest.
Proof. exact (proj1 burn_memo_reads). Qed.
Print Assumptions C43_burn_memo_decodes.

(** Different deposits get different memos. *)
Theorem C43_deposits_differ :
  forall d e, ok_mint_memo (memo_of_deposit d) -> ok_mint_memo (memo_of_deposit e) ->
    dep_source d <> dep_source e -> mint_memo_bytes (memo_of_deposit d) <> mint_memo_bytes (memo_of_deposit e).
Proof. exact deposits_differ. Qed.
Print Assumptions C43_deposits_differ.
(** So do reimbursements of different burns, or for different transactions. *)
Theorem C43_reimbursements_differ :
  forall q r, ok_mint_memo (memo_of_reimbursement q) -> ok_mint_memo (memo_of_reimbursement r) ->
    (rr_ledger_burn_index q, rr_transaction_hash q) <> (rr_ledger_burn_index r, rr_transaction_hash r) ->
    mint_memo_bytes (memo_of_reimbursement q) <> mint_memo_bytes (memo_of_reimbursement r).
Proof. exact reimbursements_differ. Qed.
Print Assumptions C43_reimbursements_differ.
(** The memo of a deposit is never that of a reimbursement. *)
Theorem C43_not_confused :
  forall d r, ok_mint_memo (memo_of_deposit d) -> ok_mint_memo (memo_of_reimbursement r) ->
    mint_memo_bytes (memo_of_deposit d) <> mint_memo_bytes (memo_of_reimbursement r).
Proof. exact not_confused. Qed.
Print Assumptions C43_not_confused.
(** The burns of an ERC20 withdrawal: the memo on the ledger of the token names the gas burn. *)
Theorem C43_erc20_burns_differ :
  forall i a j b, ok_burn_memo (BurnErc20Convert i a) -> ok_burn_memo (BurnErc20Convert j b) -> i <> j ->
    burn_memo_bytes (BurnErc20Convert i a) <> burn_memo_bytes (BurnErc20Convert j b).
Proof. exact erc20_burns_differ. Qed.
Print Assumptions C43_erc20_burns_differ.

(** In every history: no ledger has two transfers of the minter with the same memo. *)
Theorem C43_memos_unique :
  forall self keccak s, reach self keccak nonce_kept s ->
    Forall (fun x => ok_mint_memo (snd x)) (mint_memos (sys_ops s)) ->
    NoDup (map (fun x => (fst x, mint_memo_bytes (snd x))) (mint_memos (sys_ops s))).
Proof. intros self keccak s. exact (memos_unique self keccak nonce_kept s (fun _ _ H => H)). Qed.
Print Assumptions C43_memos_unique.

(** The vectors of memo/tests.rs. *)
Definition address1 : Address := 0xdd2851cdd40ae6536831558dd46db62fac7a844d.
Definition hash1 : Hash := 0x705f826861c802b407843e99af986cfde8749b669e5e0a5a150f4350bcaa9bc3.
Example C43_witness :
  mint_memo_bytes (MintConvert address1 hash1 39) =
    [130;0;131;84;221;40;81;205;212;10;230;83;104;49;85;141;212;109;182;47;172;122;132;77;88;32;112;95;130;104;97;200;2;180;7;132;62;153;
     175;152;108;253;232;116;155;102;158;94;10;90;21;15;67;80;188;170;155;195;24;39] /\
  mint_memo_bytes (ReimburseTransaction 1234 hash1) =
    [130;1;130;25;4;210;88;32;112;95;130;104;97;200;2;180;7;132;62;153;175;152;108;253;232;116;155;102;158;94;10;90;21;15;67;80;188;170;
     155;195] /\
  burn_memo_bytes (BurnConvert address1) =
    [130;0;129;84;221;40;81;205;212;10;230;83;104;49;85;141;212;109;182;47;172;122;132;77] /\
  ok_mint_memo (MintConvert address1 hash1 39) /\ ok_burn_memo (BurnConvert address1).
Proof. do 3 (split; [vm_compute; reflexivity|]). split; [split; [|split]|]; vm_compute; reflexivity. Qed.
(** Two deposits, one reimbursement in one history. *)
Example C43_unique_witness :
  exists s, reach self0 keccak0 nonce_kept s /\ List.length (mint_memos (sys_ops s)) = 3%nat /\
    Forall (fun x => ok_mint_memo (snd x)) (mint_memos (sys_ops s)).
Proof.
  destruct (run0 all0) as [s|] eqn:E; [|vm_compute in E; discriminate].
  assert (Hr : reach self0 keccak0 nonce_kept s) by (eapply scenario_reach; [exact E|vm_compute; reflexivity]).
  vm_compute in E. injection E as <-. eexists. split; [exact Hr|]. split; [vm_compute; reflexivity|].
  match goal with |- Forall ?P ?l => let l' := eval vm_compute in l in change (Forall P l') end.
  repeat (apply Forall_cons; [cbn [snd ok_mint_memo]; repeat (split; [vm_compute; reflexivity|]); vm_compute; reflexivity|]).
  constructor.
Qed.

(** Burns of native tokens name only the destination: two withdrawals to one address have
    the same memo. *)
Theorem C43_native_burns_refuted :
  exists q r, nw_ledger_burn_index q <> nw_ledger_burn_index r /\ ok_native_request q /\ ok_native_request r /\
    burn_memo_bytes (BurnConvert (nw_destination q)) = burn_memo_bytes (BurnConvert (nw_destination r)).
Proof.
  exists {| nw_withdrawal_amount := 10; nw_destination := 1; nw_ledger_burn_index := 5; nw_from := [1]; nw_from_subaccount := None;
            nw_created_at := None |},
         {| nw_withdrawal_amount := 20; nw_destination := 1; nw_ledger_burn_index := 6; nw_from := [2]; nw_from_subaccount := None;
            nw_created_at := None |}.
  split; [discriminate|]. split; [|split; [|reflexivity]]; unfold ok_native_request; cbn;
    repeat split; try reflexivity; repeat constructor.
Qed.
Print Assumptions C43_native_burns_refuted.

(** ** C44 *)
Theorem C44_amounts : forall n rest, n < 2 ^ 256 -> dec_u256 (enc_u256 n ++ rest) = DOk n rest.
Proof. exact (proj1 u256_reads). Qed.
Print Assumptions C44_amounts.
(** Naturals: as large as memory allows *)
Theorem C44_naturals : forall n rest, N.size n < 2 ^ 64 -> dec_nat (enc_nat n ++ rest) = DOk n rest.
Proof. exact (proj1 nat_reads). Qed.
Print Assumptions C44_naturals.
Theorem C44_principals :
  forall p rest, Forall (fun x => x < 256) p -> (List.length p <= 29)%nat -> dec_principal (enc_principal p ++ rest) = DOk p rest.
Proof. intros p rest H1 H2. exact (proj1 principal_reads p rest (conj H1 H2)). Qed.
Print Assumptions C44_principals.
Theorem C44_identifiers : forall n rest, n < 2 ^ 64 -> dec_id (enc_id n ++ rest) = DOk n rest.
Proof. exact (proj1 id_reads). Qed.
Print Assumptions C44_identifiers.
Theorem C44_sources :
  forall h i rest, h < 2 ^ 256 -> i < 2 ^ 256 -> dec_source (enc_source (h, i) ++ rest) = DOk (h, i) rest.
Proof. intros h i rest H1 H2. exact (proj1 source_reads (h, i) rest (conj H1 H2)). Qed.
Print Assumptions C44_sources.
(** Different values have different bytes, and none is the beginning of another. *)
Theorem C44_amounts_prefix_free :
  forall m n a b, m < 2 ^ 256 -> n < 2 ^ 256 -> enc_u256 m ++ a = enc_u256 n ++ b -> m = n /\ a = b.
Proof. exact (codec_inj _ _ _ u256_reads). Qed.
Print Assumptions C44_amounts_prefix_free.

Example C44_witness :
  enc_u256 23 = [23] /\ enc_u256 24 = [24; 24] /\ enc_u256 (2 ^ 32) = [27; 0; 0; 0; 1; 0; 0; 0; 0] /\
  enc_u256 (2 ^ 64) = [194; 73; 1; 0; 0; 0; 0; 0; 0; 0; 0] /\ enc_principal [1; 2] = [66; 1; 2] /\
  dec_source ([130; 88; 32] ++ be_bytes 32 7 ++ [5; 99]) = DOk (7, 5) [99].
Proof. do 5 (split; [vm_compute; reflexivity|]). vm_compute; reflexivity. Qed.
(** More than 32 bytes are not an amount. *)
Example C44_too_long : dec_u256 (194 :: 88 :: 33 :: repeat 1 33) = DErr false.
Proof. vm_compute. reflexivity. Qed.

(** ** C62 *)

(** An event written to stable memory is read back as the same event. *)
Theorem C62_event_survives : forall keccak e, ok_event keccak e -> load_event keccak (store_event e) = Done e.
Proof. exact stored_event. Qed.
Print Assumptions C62_event_survives.
(** The whole log, event by event and in order. *)
Theorem C62_log_survives :
  forall keccak log, Forall (ok_event keccak) log -> map (load_event keccak) (map store_event log) = map Done log.
Proof. exact stored_log. Qed.
Print Assumptions C62_log_survives.
(** Different events are written differently. *)
Theorem C62_events_differ :
  forall keccak d e, ok_event keccak d -> ok_event keccak e -> store_event d = store_event e -> d = e.
Proof. intros keccak. exact (codec_inj_all _ _ _ (event_reads keccak)). Qed.
Print Assumptions C62_events_differ.

(** The log of a history with deposits, withdrawals and a reimbursement. *)
Example C62_witness :
  exists s, reach self0 keccak0 nonce_kept s /\ (List.length (sys_log s) >= 10)%nat /\
    map (load_event keccak0) (map store_event (sys_log s)) = map Done (sys_log s).
Proof.
  destruct (run0 all0) as [s|] eqn:E; [|vm_compute in E; discriminate].
  assert (Hr : reach self0 keccak0 nonce_kept s) by (eapply scenario_reach; [exact E|vm_compute; reflexivity]).
  vm_compute in E. injection E as <-. eexists. split; [exact Hr|]. split; [vm_compute; lia|].
  vm_compute. reflexivity.
Qed.

(** ** C63 *)

(** Memos of transfers: at most 67 bytes when the log index fits in 64 bits. *)
Theorem C63_mint_memo_size :
  forall m, match m with MintConvert _ _ log_index => log_index < 2 ^ 64 | _ => True end ->
    (List.length (mint_memo_bytes m) <= 67)%nat.
Proof. exact mint_memo_size. Qed.
Print Assumptions C63_mint_memo_size.
(** Memos of burns: at most 80 bytes, for the symbols that can be registered. *)
Theorem C63_burn_memo_size :
  forall m, match m with BurnErc20GasFee sy _ _ => exists t, parse_symbol t = Some sy | _ => True end ->
    (List.length (burn_memo_bytes m) <= 80)%nat.
Proof. exact burn_memo_fits. Qed.
Print Assumptions C63_burn_memo_size.

Example C63_witness :
  List.length (mint_memo_bytes (MintConvert address1 hash1 (2 ^ 64 - 1))) = 67%nat /\
  List.length (burn_memo_bytes (BurnErc20GasFee (repeat 65 20) (2 ^ 256 - 1) address1)) = 80%nat /\
  parse_symbol (repeat 65 20) = Some (repeat 65 20).
Proof. split; [vm_compute; reflexivity|]. split; vm_compute; reflexivity. Qed.
(** A log index that does not fit can make the memo of a deposit longer than the ledgers of
    the project accept (80 bytes). *)
Theorem C63_large_log_index_refuted :
  exists m, ok_mint_memo m /\ (List.length (mint_memo_bytes m) = 93)%nat.
Proof. exists (MintConvert address1 hash1 (2 ^ 256 - 1)). split; [split; [|split]; vm_compute; reflexivity|vm_compute; reflexivity]. Qed.
Print Assumptions C63_large_log_index_refuted.
