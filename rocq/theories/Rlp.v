(** * Rlp: RLP serialization of transactions.

    Model of the serialization part of /repo/minter/src/tx.rs and of the [rlp] crate
    (0.5.2) functions it calls. *)

From Verif Require Import Base Bytes Types.

(** An RLP item: a byte string or a list of items. *)
Inductive rlp :=
| RStr (l : list N)
| RList (l : list rlp).

(** [rlp] crate, stream.rs [encode_value], [insert_list_payload], [insert_size]: the
    length header. Lengths are [usize]; eight bytes are more than enough. *)
Definition rlp_header (base : N) (n : N) : list N :=
  if n <? 56 then [base + n]
  else let lb := strip0 (be_bytes 8 n) in (base + 55 + N.of_nat (List.length lb)) :: lb.

(** [rlp] crate, stream.rs [encode_value]: a single byte below 0x80 is its own encoding. *)
Definition rlp_string (l : list N) : list N :=
  match l with
  | [b] => if b <? 128 then [b] else rlp_header 128 1 ++ l
  | _ => rlp_header 128 (N.of_nat (List.length l)) ++ l
  end.

Definition rlp_list (payload : list N) : list N :=
  rlp_header 192 (N.of_nat (List.length payload)) ++ payload.

Fixpoint rlp_encode (x : rlp) : list N :=
  match x with
  | RStr l => rlp_string l
  | RList l => rlp_list (List.concat (map rlp_encode l))
  end.

(** tx.rs 494-499 [encode_u256] (also checked_amount/mod.rs 305-309): the big-endian
    bytes without leading zeros. [u64::rlp_append] of the crate does the same. *)
Definition rlp_u256 (n : N) : rlp := RStr (be_min n).

(** tx.rs 49-54, 77-92: the access list *)
Definition rlp_access_item (i : Address * list N) : rlp :=
  RList [RStr (be_bytes 20 (fst i)); RList (map (fun k => RStr (be_bytes 32 k)) (snd i))].
Definition rlp_access_list (l : AccessList) : rlp := RList (map rlp_access_item l).

(** tx.rs 508-518 [rlp_inner] *)
Definition rlp_inner (t : Tx) : list rlp :=
  [ rlp_u256 (tx_chain_id t);
    rlp_u256 (tx_nonce t);
    rlp_u256 (tx_max_priority_fee_per_gas t);
    rlp_u256 (tx_max_fee_per_gas t);
    rlp_u256 (tx_gas_limit t);
    RStr (be_bytes 20 (tx_destination t));
    rlp_u256 (tx_amount t);
    RStr (tx_data t);
    rlp_access_list (tx_access_list t) ].

(** tx.rs 24 [EIP1559_TX_ID] *)
Definition EIP1559_TX_ID : N := 2.

(** tx.rs 521-526: the bytes hashed and signed for an unsigned transaction *)
Definition signing_payload (t : Tx) : list N :=
  EIP1559_TX_ID :: rlp_encode (RList (rlp_inner t)).

(** tx.rs 263-269 [Eip1559Signature]; [bool] is encoded as the integer 0 or 1
    ([rlp] crate, impls.rs) *)
Definition rlp_signature (s : Signature) : list rlp :=
  [ rlp_u256 (if sg_y_parity s then 1 else 0); rlp_u256 (sg_r s); rlp_u256 (sg_s s) ].

(** tx.rs 302-321: [InnerSignedTransactionRequest], [raw_bytes] *)
Definition raw_bytes (t : Tx) (s : Signature) : list N :=
  EIP1559_TX_ID :: rlp_encode (RList (rlp_inner t ++ rlp_signature s)).

(** tx.rs 426-438 [SignedEip1559TransactionRequest::new]: the memoized hash is the
    Keccak hash of the raw bytes; [keccak] is an arbitrary function. *)
Definition signed_tx (keccak : list N -> Hash) (t : Tx) (s : Signature) : SignedTx :=
  {| st_tx := t; st_sig := s; st_hash := keccak (raw_bytes t s) |}.
