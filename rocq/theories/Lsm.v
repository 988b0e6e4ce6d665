(** * Lsm: the minter registers its native twin token with the ledger suite manager.

    Model of /repo/minter/src/lsm_client.rs 21-29, 89-98, 116-147, 188-207. The hash function
    and the contents of the files compiled into the minter are parameters. The call is
    made once, by a timer started at the installation (main.rs 111-116). *)

From Verif Require Import Base Types Hex Network State.

(** lsm_client.rs 89-98 [InstalledNativeLedgerSuite] *)
Record LedgerSuite := {
  ls_symbol : text;
  ls_ledger : Principal;
  ls_ledger_wasm_hash : text;
  ls_index : Principal;
  ls_index_wasm_hash : text;
  ls_archives : list Principal;
  ls_chain_id : N
}.

Section Lsm.
Variable sha256 : list N -> list N.
(** [include_bytes!]: the contents of a file of the directory "wasm" *)
Variable file : string -> list N.

(** lsm_client.rs 21-23 [LEDGER_BYTECODE], [INDEX_BYTECODE], as they are written there *)
Definition LEDGER_BYTECODE : list N := file "index_ng_canister_u256.wasm.gz".
Definition INDEX_BYTECODE : list N := file "ledger_canister_u256.wasm.gz".

(** lsm_client.rs 36-40, 52-56 [WasmHash] and its text form *)
Definition wasm_hash (code : list N) : text := hex_encode (sha256 code).

(** lsm_client.rs 116-132 [new_native_ls] *)
Definition new_native_ls (symbol : text) (ledger index : Principal) (chain_id : N) : LedgerSuite :=
  {| ls_symbol := symbol;
     ls_ledger := ledger;
     ls_ledger_wasm_hash := wasm_hash LEDGER_BYTECODE;
     ls_index := index;
     ls_index_wasm_hash := wasm_hash INDEX_BYTECODE;
     ls_archives := [];
     ls_chain_id := chain_id |}.

(** lsm_client.rs 188-195 and 133-147: the canister that is called and the argument *)
Definition lsm_call (s : State) : res (Principal * LedgerSuite) :=
  manager <- expect (ledger_suite_manager_id s) "called `Option::unwrap()` on a `None` value" ;;
  Done (manager, new_native_ls (native_symbol s) (native_ledger_id s) (native_index_id s)
                   (chain_id (evm_network s))).

End Lsm.
