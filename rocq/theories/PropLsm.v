(** * C83: the registration with the ledger suite manager.

    [sha256] is the hash function, [file] the contents of the files compiled into the minter. *)

From Verif Require Import Base BMap MultiKeyMap Bytes Types Amount Tx CallData Network Hex
  Transactions State Audit Ranges Rlp Parser Memo Driver Sys SysSpec WithdrawSpec Lsm LsmFacts Scenario PropGuards.

(** Whenever the call is made, and whatever happened before, the minter calls the manager of
    its installation and names the token, the ledger, the index and the chain of its
    installation. Missing: the hashes of the code. *)
Theorem C83_registration_partial :
  forall self keccak sha256 file s, reach self keccak any_env s ->
    exists a rest suite, history (sys_log s) = EvInit a :: rest /\
      lsm_call sha256 file (sys_state s) = Done (ia_ledger_suite_manager_id a, suite) /\
      ls_symbol suite = ia_native_symbol a /\ ls_ledger suite = ia_native_ledger_id a /\
      ls_index suite = ia_native_index_id a /\ ls_chain_id suite = chain_id (ia_evm_network a) /\
      ls_archives suite = [].
Proof.
  intros self keccak sha file s Hr. destruct (lsm_called self keccak any_env sha file s Hr) as (a & rest & call & H1 & H2 & ->).
  exists a, rest. eexists. split; [exact H1|]. split; [exact H2|]. repeat split.
Qed.
Print Assumptions C83_registration_partial.

(** The hashes of the code are exchanged: the ledger is reported with the hash of the index's
    code and the index with that of the ledger's. The manager is told the true ones only if
    both are the same. *)
Theorem C83_code_hashes_refuted :
  (forall sha256 file s manager suite, lsm_call sha256 file s = Done (manager, suite) ->
     ls_ledger_wasm_hash suite = hex_encode (sha256 (file "index_ng_canister_u256.wasm.gz"%string)) /\
     ls_index_wasm_hash suite = hex_encode (sha256 (file "ledger_canister_u256.wasm.gz"%string))) /\
  (forall self keccak sha256 file s, reach self keccak any_env s -> (forall l, byte_list (sha256 l)) ->
     sha256 (file "index_ng_canister_u256.wasm.gz"%string) <> sha256 (file "ledger_canister_u256.wasm.gz"%string) ->
     exists manager suite, lsm_call sha256 file (sys_state s) = Done (manager, suite) /\
       ls_ledger_wasm_hash suite <> hex_encode (sha256 (file "ledger_canister_u256.wasm.gz"%string)) /\
       ls_index_wasm_hash suite <> hex_encode (sha256 (file "index_ng_canister_u256.wasm.gz"%string))).
Proof.
  assert (H0 : forall sha256 file s manager suite, lsm_call sha256 file s = Done (manager, suite) ->
     ls_ledger_wasm_hash suite = hex_encode (sha256 (file "index_ng_canister_u256.wasm.gz"%string)) /\
     ls_index_wasm_hash suite = hex_encode (sha256 (file "ledger_canister_u256.wasm.gz"%string))).
  { intros sha file s m suite H. unfold lsm_call in H. apply rbind_done in H as (x & _ & H). injection H as _ <-. split; reflexivity. }
  split; [exact H0|]. intros self keccak sha file s Hr Hb Hne.
  destruct (lsm_called self keccak any_env sha file s Hr) as (a & rest & call & _ & H & _).
  exists (ia_ledger_suite_manager_id a), call. split; [exact H|]. apply H0 in H as [-> ->].
  split; intros E; apply hex_encode_inj in E; auto; congruence.
Qed.
Print Assumptions C83_code_hashes_refuted.

(** The call made after a registration, a deposit and a mint *)
Example C83_witness :
  exists sha256 file s suite, reach self0 keccak0 any_env s /\ (3 < List.length (sys_log s))%nat /\
    lsm_call sha256 file (sys_state s) = Done (manager0, suite) /\
    ls_ledger suite = native_ledger0 /\ ls_chain_id suite = 11155111 /\
    ls_ledger_wasm_hash suite = text_of "0102" /\ ls_index_wasm_hash suite = text_of "ff".
Proof.
  exists (fun l => l), (fun f => if String.eqb f "ledger_canister_u256.wasm.gz" then [255] else [1; 2]).
  destruct (run0 (register0 ++ scrape0 ++ mint0)) as [s|] eqn:E; [|vm_compute in E; discriminate].
  assert (Hr := any_reach _ _ E). vm_compute in E. injection E as <-.
  eexists. eexists. split; [exact Hr|]. split; [apply Nat.ltb_lt; vm_compute; reflexivity|].
  split; [vm_compute; reflexivity|]. vm_compute. repeat split.
Qed.
