(** * Contract: the helper contract that users deposit through.

    Model of /repo/evm_helper_contract/src/Deposit.sol with the part of the chain it acts on.
    The library [SafeERC20] it imports is not part of the repository (an empty submodule);
    of it this is used: [safeTransferFrom] reverts if there is no code at the token's address,
    if the token reverts and if it answers false. *)

From Verif Require Import Base Bytes Types Keccak.

(** A log as the EVM records it *)
Record EvmLog := { el_address : Address; el_topics : list (list N); el_data : list N }.

(** What accounts hold: native tokens, and tokens by contract and holder *)
Record World := {
  w_native : Address -> N;
  w_tokens : Address -> Address -> N
}.

(** The rest of the chain, which is not in the repository: the addresses of the contract and
    of the minter, where there is code, what the [transferFrom] of a token does ([None] if it
    reverts or answers false), and whether the minter's address takes native tokens. *)
Record Evm := {
  evm_helper : Address;
  evm_minter : Address;
  evm_code : World -> Address -> bool;
  evm_transfer_from : World -> Address -> Address -> Address -> N -> option World;
  evm_accepts : World -> N -> bool
}.

(** Deposit.sol 45-50: the arguments, with [msg.sender] and [msg.value] *)
Record DepositCall := {
  dc_sender : Address;
  dc_value : N;
  dc_token : Address;
  dc_amount : N;
  dc_principal : list N;
  dc_subaccount : list N
}.

(** Deposit.sol 19-25: the event; the first topic is the hash of its signature, indexed
    parameters are topics, the others are the data *)
Definition SIGNATURE : text := text_of "DepositLog(address,address,uint256,bytes32,bytes32)".
Definition log_of (v : Evm) (token : Address) (amount : N) (c : DepositCall) : EvmLog :=
  {| el_address := evm_helper v;
     el_topics := [keccak256 SIGNATURE; be_bytes 32 token; be_bytes 32 amount; dc_principal c];
     el_data := be_bytes 32 (dc_sender c) ++ dc_subaccount c |}.

(** A payment of native tokens; [None] if there are not enough *)
Definition pay (from to : Address) (n : N) (w : World) : option World :=
  if w_native w from <? n then None
  else Some {| w_native := fun x => (if x =? from then w_native w x - n else w_native w x) +
                                    (if x =? to then n else 0);
               w_tokens := w_tokens w |}.

(** Deposit.sol 45-72 [deposit]; [None] if it reverts. The value goes from the sender to the
    contract with the call and from there to the minter (53). *)
Definition deposit (v : Evm) (c : DepositCall) (w : World) : option (World * EvmLog) :=
  if 0 <? dc_value c then
    match pay (dc_sender c) (evm_helper v) (dc_value c) w with
    | None => None
    | Some w1 =>
        if evm_accepts v w1 (dc_value c) then
          match pay (evm_helper v) (evm_minter v) (dc_value c) w1 with
          | None => None
          | Some w2 => Some (w2, log_of v 0 (dc_value c) c)
          end
        else None
    end
  else if evm_code v w (dc_token c) then
    match evm_transfer_from v w (dc_token c) (dc_sender c) (evm_minter v) (dc_amount c) with
    | None => None
    | Some w' => Some (w', log_of v (dc_token c) (dc_amount c) c)
    end
  else None.
