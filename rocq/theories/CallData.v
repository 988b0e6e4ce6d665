(** * CallData: ABI encoding of the ERC-20 transfer call, and 32-byte words.

    Model of /repo/minter/src/state/transactions/mod.rs 1182-1227 and
    eth_types/mod.rs 56-82. *)

From Verif Require Import Base Bytes Types Amount.

(** eth_types/mod.rs 74-82 [From<&Address> for [u8;32]]: twelve zero bytes, then the
    twenty address bytes. *)
Definition address_to_word (a : Address) : list N := repeat 0 12 ++ be_bytes 20 a.

(** eth_types/mod.rs 56-71 [TryFrom<&[u8;32]> for Address] *)
Definition address_of_word (w : list N) : option Address :=
  if forallb (fun b => b =? 0) (firstn 12 w) then Some (of_be (skipn 12 w)) else None.

(** state/transactions/mod.rs 1183 *)
Definition ERC20_TRANSFER_SELECTOR : list N := [169; 5; 156; 187].

(** state/transactions/mod.rs 1193-1203 [encode] *)
Definition calldata_encode (to : Address) (value : N) : list N :=
  ERC20_TRANSFER_SELECTOR ++ address_to_word to ++ amount_to_be value.

Inductive CallDataError := MissingSelector | UnknownSelector | InvalidDataLength.

(** state/transactions/mod.rs 1205-1227 [decode]; [data.get(0..4)] is [None] iff
    there are fewer than four bytes. *)
Definition calldata_decode (data : list N) : res (result (Address * N) CallDataError) :=
  if Nat.ltb (List.length data) 4 then Done (RErr MissingSelector)
  else if negb (bytes_eqb (firstn 4 data) ERC20_TRANSFER_SELECTOR)
  then Done (RErr UnknownSelector)
  else if negb (Nat.eqb (List.length data) 68) then Done (RErr InvalidDataLength)
  else
    to <- expect (address_of_word (firstn 32 (skipn 4 data))) "transactions/mod.rs:1213 unwrap" ;;
    Done (ROk (to, amount_from_be (skipn 36 data))).
