(** * Specification of C42: the values a transaction can have *)

From Verif Require Import Base Bytes Types Rlp.

(** The ranges of the Rust types of the fields ([u64], [u256], 20-byte addresses, 32-byte
    storage keys). *)
Definition tx_typed (t : Tx) : Prop :=
  is_u64 (tx_chain_id t) /\ is_u256 (tx_nonce t) /\ is_u256 (tx_max_priority_fee_per_gas t) /\
  is_u256 (tx_max_fee_per_gas t) /\ is_u256 (tx_gas_limit t) /\ is_address (tx_destination t) /\
  is_u256 (tx_amount t) /\
  Forall (fun i => is_address (fst i) /\ Forall is_u256 (snd i)) (tx_access_list t).
Definition sig_typed (s : Signature) : Prop := is_u256 (sg_r s) /\ is_u256 (sg_s s).
(** A byte string that fits into the address space ([usize]). *)
Definition fits_memory (l : list N) : Prop := N.of_nat (List.length l) <= U64_MAX.
